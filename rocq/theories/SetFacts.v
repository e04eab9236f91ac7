(** GalleySet: totals, oracles and chunks. *)
From Coq Require Import ZArith Reals Lia Lra.
From Flocq Require Import Core.Core IEEE754.BinarySingleNaN.
From Verif Require Import Base BaseFacts FloatModel FloatFacts PickFacts Oracle Arithm Sim Galley VectorSpec VectorFacts VectorUnbounded SetSpec SetFloat.
Local Open Scope Z_scope.

(** ** Kinds *)
Lemma kind_cases s : stamp_ok s ->
  (fixed s = true /\ unb s = false /\ var s = false /\ snd s = fst s)
  \/ (fixed s = false /\ unb s = true /\ var s = false /\ snd s = -1)
  \/ (fixed s = false /\ unb s = false /\ var s = true /\ fst s < snd s).
Proof.
  unfold stamp_ok, fixed, unb, var. intros [H0 [H|[H|H]]]; [left|right; left|right; right];
    repeat split; try (apply Z.eqb_eq || apply Z.eqb_neq || apply Z.ltb_lt || apply Z.ltb_ge); lia.
Qed.

Lemma is_fixed s : isFixedSize (fst s) (snd s) = fixed s. Proof. reflexivity. Qed.
Lemma is_unb s : isUnbounded (fst s) (snd s) = unb s. Proof. reflexivity. Qed.
Lemma is_var s : stamp_ok s -> isVariated (fst s) (snd s) = var s.
Proof.
  intros H. unfold isVariated. rewrite is_fixed, is_unb.
  destruct (kind_cases s H) as [(-> & -> & -> & _)|[(-> & -> & -> & _)|(-> & -> & -> & _)]]; reflexivity.
Qed.

Lemma count_cons p s L : count p (s :: L) = (if p s then 1 else 0) + count p L.
Proof. unfold count. cbn [filter]. destruct (p s); [rewrite zlen_cons; lia|lia]. Qed.

Lemma count_nonneg p L : 0 <= count p L.
Proof. apply zlen_nonneg. Qed.

Lemma count_le p L : count p L <= zlen L.
Proof. induction L as [|s L IH]; [cbn; lia|]. rewrite count_cons, zlen_cons. destruct (p s); lia. Qed.

Lemma sum_cons x l : sum (x :: l) = x + sum l. Proof. reflexivity. Qed.

Lemma sum_nonneg l : Forall (fun w => 0 <= w) l -> 0 <= sum l.
Proof. induction 1; [cbn; lia|]. rewrite sum_cons. lia. Qed.

Lemma mins_nonneg L : Forall stamp_ok L -> 0 <= sum (map fst L).
Proof. induction 1 as [|s L [H _] _ IH]; [cbn; lia|]. cbn [map]. rewrite sum_cons. lia. Qed.

Lemma max_extra_cons s L : max_extra (s :: L) = (if var s then snd s - fst s else 0) + max_extra L.
Proof. unfold max_extra. cbn [filter]. destruct (var s); [cbn [map]; rewrite sum_cons; lia|lia]. Qed.

Lemma max_extra_nonneg L : 0 <= max_extra L.
Proof. induction L as [|s L IH]; [cbn; lia|]. rewrite max_extra_cons. unfold var. destruct (fst s <? snd s) eqn:E; lia. Qed.

(** ** Totals *)
Lemma set_totals_run L : forall t, Forall stamp_ok L -> 0 <= t_fixed t -> 0 <= t_maxvar t ->
  t_fixed t + sum (map fst L) < 2 ^ 31 -> t_maxvar t + max_extra L < 2 ^ 31 ->
  set_totals L t = Ok (mkTotals (t_fixed t + sum (map fst L)) (t_maxvar t + max_extra L)
    (t_unb t + count unb L) (t_var t + count var L)).
Proof.
  induction L as [|[mn mx] L IH]; intros t HL H0 H1 H2 H3.
  - cbn [set_totals map]. change (sum []) with 0. change (max_extra []) with 0. change (count unb []) with 0.
    change (count var []) with 0. rewrite !Z.add_0_r. destruct t; reflexivity.
  - pose proof (Forall_inv HL) as Hs. apply Forall_inv_tail in HL. pose proof (mins_nonneg L HL) as M0.
    pose proof (max_extra_nonneg L) as X0. rewrite max_extra_cons in *. cbn [map] in *. rewrite sum_cons in *. cbn [fst] in *.
    destruct Hs as [Hs0 Hs1]. cbn [fst snd] in *. cbn [set_totals].
    rewrite int_op_ok by lia. cbn [rbind].
    rewrite (is_var (mn, mx) (conj Hs0 Hs1)) || rewrite <- (is_var (mn, mx)) by (split; assumption).
    assert (Ev : isVariated mn mx = var (mn, mx)) by (apply (is_var (mn, mx)); split; assumption).
    assert (Eu : isUnbounded mn mx = unb (mn, mx)) by reflexivity.
    rewrite !count_cons, ?Ev, ?Eu. cbn [snd fst] in *.
    destruct (var (mn, mx)) eqn:V.
    + assert (mn < mx) by (apply Z.ltb_lt; exact V).
      rewrite int_op_ok by lia. cbn [rbind]. rewrite int_op_ok by lia. cbn [rbind].
      rewrite IH by (cbn [t_fixed t_maxvar]; lia || assumption). cbn [t_fixed t_maxvar t_unb t_var].
      destruct (unb (mn, mx)); f_equal; f_equal; lia.
    + cbn [rbind]. rewrite IH by (cbn [t_fixed t_maxvar]; lia || assumption). cbn [t_fixed t_maxvar t_unb t_var].
      destruct (unb (mn, mx)); f_equal; f_equal; lia.
Qed.

Lemma set_min_totals_run L : forall t, Forall stamp_ok L -> 0 <= t_fixed t -> t_fixed t + sum (map fst L) < 2 ^ 31 ->
  set_min_totals L t = Ok (mkTotals (t_fixed t + sum (map fst L)) (t_maxvar t) (t_unb t + count unb L) (t_var t + count var L)).
Proof.
  induction L as [|[mn mx] L IH]; intros t HL H0 H2.
  - cbn [set_min_totals map]. change (sum []) with 0. change (count unb []) with 0.
    change (count var []) with 0. rewrite !Z.add_0_r. destruct t; reflexivity.
  - pose proof (Forall_inv HL) as Hs. apply Forall_inv_tail in HL. pose proof (mins_nonneg L HL) as M0.
    cbn [map] in *. rewrite sum_cons in *. cbn [fst] in *.
    assert (Ev : isVariated mn mx = var (mn, mx)) by (apply (is_var (mn, mx)); assumption).
    destruct Hs as [Hs0 Hs1]. cbn [fst snd] in *. cbn [set_min_totals].
    rewrite int_op_ok by lia. cbn [rbind].
    assert (Eu : isUnbounded mn mx = unb (mn, mx)) by reflexivity.
    rewrite !count_cons, ?Ev, ?Eu. rewrite IH by (cbn [t_fixed]; lia || assumption). cbn [t_fixed t_maxvar t_unb t_var].
    destruct (unb (mn, mx)), (var (mn, mx)); f_equal; f_equal; lia.
Qed.

Lemma min_total_ge L : Forall stamp_ok L -> 0 <= sum (map fst L) <= min_total L.
Proof.
  intros H. pose proof (mins_nonneg L H). pose proof (count_nonneg var L). pose proof (count_nonneg unb L).
  unfold min_total. destruct (1 <? count unb L), (both L); lia.
Qed.

Ltac inner_i32 := repeat match goal with |- context [i32 ?x] =>
  lazymatch x with context [i32 _] => fail | _ => rewrite (i32_id x) by lia end end.

Lemma SetMinSize_run L : Forall stamp_ok L -> min_total L < 2 ^ 31 -> SetMinSize L = Ok (min_total L).
Proof.
  intros H Hm. pose proof (min_total_ge L H) as G. unfold SetMinSize.
  rewrite set_min_totals_run; [|exact H|cbn; lia|cbn [t_fixed]; lia].
  cbn [rbind t_fixed t_maxvar t_unb t_var]. rewrite !Z.add_0_l. unfold min_total, both, ORACLE_SIZE in *.
  pose proof (count_nonneg var L). pose proof (count_nonneg unb L).
  destruct (1 <? count unb L) eqn:E1, ((0 <? count var L) && (0 <? count unb L)) eqn:E2; inner_i32; f_equal; lia.
Qed.

Lemma set_fixed_total_run L x : Forall stamp_ok L -> min_total L < 2 ^ 31 ->
  set_fixed_total (mkTotals (sum (map fst L)) x (count unb L) (count var L)) = min_total L.
Proof.
  intros H Hm. pose proof (min_total_ge L H) as G. unfold set_fixed_total. cbn [t_fixed t_unb t_var].
  unfold min_total, both, ORACLE_SIZE in *. pose proof (count_nonneg var L). pose proof (count_nonneg unb L).
  destruct (1 <? count unb L) eqn:E1, ((0 <? count var L) && (0 <? count unb L)) eqn:E2; inner_i32; lia.
Qed.

(** ** Items by kind *)
Lemma of_kind_cons {A} p s L (x : A) xs :
  of_kind p (s :: L) (x :: xs) = if p s then x :: of_kind p L xs else of_kind p L xs.
Proof. unfold of_kind. cbn [combine filter fst]. destruct (p s); reflexivity. Qed.

Lemma of_kind_nil {A} p (xs : list A) : of_kind p [] xs = []. Proof. reflexivity. Qed.

Lemma of_kind_len {A} p L : forall (xs : list A), length xs = length L -> zlen (of_kind p L xs) = count p L.
Proof.
  induction L as [|s L IH]; intros [|x xs] E; try discriminate; [reflexivity|].
  rewrite of_kind_cons, count_cons. cbn in E. destruct (p s); [rewrite zlen_cons|]; rewrite IH by lia; lia.
Qed.

Definition vw (so : (Z * Z) * Z) : Z := (snd (fst so) - fst (fst so)) * snd so.

Lemma var_weights_cons s L o os : var_weights (s :: L) (o :: os) =
  if var s then (snd s - fst s) * o :: var_weights L os else var_weights L os.
Proof. unfold var_weights. cbn [combine map]. rewrite of_kind_cons. reflexivity. Qed.

(** ** Oracles *)
Definition md (nu : Z) (s : Z * Z) (o : Z) : f64 :=
  if fixed s then f64_of_Z 0
  else if unb s && (nu <=? 1) then f64_of_Z 1 else f64_div (f64_of_Z o) (f64_of_Z ORACLE_MAX).

Fixpoint mods (nu : Z) (L : list (Z * Z)) (os : list Z) : list f64 :=
  match L, os with s :: L', o :: os' => md nu s o :: mods nu L' os' | _, _ => [] end.

(** Modifiers of unbounded stamps; lengths predicted for variated stamps. *)
Definition umods (L : list (Z * Z)) (ms : list f64) : list f64 := of_kind unb L ms.
Definition vmods (L : list (Z * Z)) (ms : list f64) : list f64 :=
  of_kind var L (map (fun sm => f64_mul (f64_of_Z (snd (fst sm) - fst (fst sm))) (snd sm)) (combine L ms)).

Lemma vmods_cons s L m ms : vmods (s :: L) (m :: ms) =
  if var s then f64_mul (f64_of_Z (snd s - fst s)) m :: vmods L ms else vmods L ms.
Proof. unfold vmods. cbn [combine map]. rewrite of_kind_cons. reflexivity. Qed.

Lemma umods_cons s L m ms : umods (s :: L) (m :: ms) = if unb s then m :: umods L ms else umods L ms.
Proof. apply of_kind_cons. Qed.

Lemma mods_len nu L : forall os, length os = length L -> length (mods nu L os) = length L.
Proof. induction L as [|s L IH]; intros [|o os] E; try discriminate; [reflexivity|]. cbn in *. rewrite IH; lia. Qed.

Lemma size_oracles_cons nu s L o os : size_oracles nu (s :: L) (o :: os) =
  (if has_oracle nu s then le16 o else []) ++ size_oracles nu L os.
Proof. reflexivity. Qed.

Lemma read_modifiers_run nu L : Forall stamp_ok L -> max_extra L < 2 ^ 31 -> forall os p t (l : bytes),
  Forall oracle16 os -> length os = length L ->
  read_modifiers nu L p t (size_oracles nu L os ++ l) =
  (Ok (mods nu L os, fold_left f64_add (vmods L (mods nu L os)) p, fold_left f64_add (umods L (mods nu L os)) t), l).
Proof.
  induction L as [|s L IH]; intros HL HX [|o os] p t l Ho E; try discriminate; [reflexivity|].
  pose proof (Forall_inv HL) as Hs. apply Forall_inv_tail in HL. pose proof (Forall_inv Ho) as Ho0. apply Forall_inv_tail in Ho.
  cbn [length] in E. injection E as E. rewrite max_extra_cons in HX. pose proof (max_extra_nonneg L) as X0.
  assert (HX' : max_extra L < 2 ^ 31) by (unfold var in HX; destruct (fst s <? snd s) eqn:V; lia).
  cbn [mods]. rewrite vmods_cons, umods_cons, size_oracles_cons, <- app_assoc.
  destruct s as [mn mx]. cbn [read_modifiers]. unfold md, has_oracle.
  change (isFixedSize mn mx) with (fixed (mn, mx)). change (isUnbounded mn mx) with (unb (mn, mx)).
  destruct (kind_cases _ Hs) as [(-> & -> & -> & Es)|[(-> & -> & V & Es)|(-> & -> & V & Es)]].
  - cbn [orb andb app]. rewrite (bind_ok _ _ _ _ _ (IH HL HX' os p t l Ho E)). reflexivity.
  - rewrite V in *. cbn [orb andb]. rewrite Z.ltb_antisym. destruct (nu <=? 1) eqn:N; cbn [negb].
    + rewrite bind_ret. rewrite (bind_ok _ _ _ _ _ (IH HL HX' os p _ l Ho E)). reflexivity.
    + rewrite (bind_ok (o0 <- GetOracle;; ret _) _ _ _ _ (bind_ok _ _ _ _ _ (list_oracle o _ Ho0))).
      rewrite (bind_ok _ _ _ _ _ (IH HL HX' os p _ l Ho E)). reflexivity.
  - rewrite V in *. cbn [orb andb]. cbn [fst snd] in *.
    rewrite (bind_ok (o0 <- GetOracle;; ret _) _ _ _ _ (bind_ok _ _ _ _ _ (list_oracle o _ Ho0))).
    rewrite (bind_ok _ _ _ _ _ (eq_trans (bind_lift_ok _ _ _ (mx - mn) (int_op_ok (mx - mn) ltac:(unfold stamp_ok in Hs; cbn in Hs; lia)))
      (IH HL HX' os _ t l Ho E))). reflexivity.
Qed.

(** Any data long enough starts with the oracles. *)
Lemma size_oracles_ex nu L : forall (l : bytes), 2 * zlen (filter (has_oracle nu) L) <= zlen l ->
  exists os r, l = size_oracles nu L os ++ r /\ Forall oracle16 os /\ length os = length L.
Proof.
  induction L as [|s L IH]; intros l H.
  - exists [], l. split; [reflexivity|]. split; [constructor|reflexivity].
  - cbn [filter] in H. destruct (has_oracle nu s) eqn:E.
    + rewrite zlen_cons in H. pose proof (zlen_nonneg (filter (has_oracle nu) L)).
      destruct (list_oracle_ex l ltac:(lia)) as (o & r & -> & Ho). rewrite zlen_app, le16_len in H.
      destruct (IH r ltac:(lia)) as (os & r' & -> & Hos & Hl). exists (o :: os), r'.
      rewrite size_oracles_cons, E, <- app_assoc. split; [reflexivity|]. split; [constructor; assumption|cbn; lia].
    + destruct (IH l H) as (os & r' & -> & Hos & Hl). exists (0 :: os), r'. rewrite size_oracles_cons, E.
      split; [reflexivity|]. split; [constructor; [unfold oracle16; lia|assumption]|cbn; lia].
Qed.

Lemma size_oracles_len nu L : forall os, length os = length L ->
  zlen (size_oracles nu L os) = 2 * zlen (filter (has_oracle nu) L).
Proof.
  induction L as [|s L IH]; intros [|o os] E; try discriminate; [reflexivity|].
  rewrite size_oracles_cons, zlen_app, IH by (cbn in E; lia). cbn [filter].
  destruct (has_oracle nu s); [rewrite le16_len, zlen_cons; lia|]. change (@zlen byte []) with 0. lia.
Qed.

Lemma oracle_count nu L : Forall stamp_ok L ->
  zlen (filter (has_oracle nu) L) = count var L + (if 1 <? nu then count unb L else 0).
Proof.
  induction 1 as [|s L Hs H IH]; [destruct (1 <? nu); reflexivity|].
  rewrite !count_cons. cbn [filter]. unfold has_oracle at 1.
  destruct (kind_cases s Hs) as [(_ & -> & -> & _)|[(_ & -> & -> & _)|(_ & -> & -> & _)]]; cbn [orb andb];
    destruct (1 <? nu); rewrite ?zlen_cons, IH; lia.
Qed.

(** All the data before the chunks. *)
Lemma layout_len L o0 os (l : bytes) : Forall stamp_ok L -> length os = length L ->
  zlen (division_oracle L o0 ++ size_oracles (count unb L) L os ++ l) = min_total L - sum (map fst L) + zlen l.
Proof.
  intros HL E. rewrite !zlen_app, size_oracles_len, oracle_count by assumption. unfold division_oracle, min_total.
  destruct (both L), (1 <? count unb L); rewrite ?le16_len; try (change (@zlen byte []) with 0); lia.
Qed.

Lemma layout_ex L (l : bytes) : Forall stamp_ok L -> min_total L <= zlen l ->
  exists o0 os r, l = division_oracle L o0 ++ size_oracles (count unb L) L os ++ r
    /\ oracle16 o0 /\ Forall oracle16 os /\ length os = length L /\ sum (map fst L) <= zlen r.
Proof.
  intros HL H. pose proof (mins_nonneg L HL) as M0. pose proof (count_nonneg var L). pose proof (count_nonneg unb L).
  assert (D : exists o0 r, l = division_oracle L o0 ++ r /\ oracle16 o0).
  { unfold division_oracle. destruct (both L) eqn:B.
    - destruct (list_oracle_ex l) as (o & r & -> & Ho).
      { unfold min_total in H. rewrite B in H. destruct (1 <? count unb L); lia. }
      exists o, r. split; [reflexivity|exact Ho].
    - exists 0, l. split; [reflexivity|unfold oracle16; lia]. }
  destruct D as (o0 & r & -> & Ho0).
  destruct (size_oracles_ex (count unb L) L r) as (os & r' & -> & Hos & Hl).
  { rewrite oracle_count by assumption. rewrite zlen_app in H. unfold min_total, division_oracle in H.
    destruct (both L), (1 <? count unb L); rewrite ?le16_len in H; try (change (@zlen byte []) with 0 in H); lia. }
  exists o0, os, r'. split; [reflexivity|]. split; [exact Ho0|]. split; [exact Hos|]. split; [exact Hl|].
  rewrite layout_len in H by assumption. lia.
Qed.

(** ** Chunks *)
Fixpoint chop_all (ks : list Z) : M bytes (list bytes) :=
  match ks with
  | [] => ret []
  | k :: r => c <- Chop (u64 k) ;; cs <- chop_all r ;; ret (c :: cs)
  end.

Fixpoint sizes (L : list (Z * Z)) (ev eu : list Z) : list Z :=
  match L with
  | [] => []
  | s :: L' =>
      if var s then match ev with e :: ev' => e + fst s :: sizes L' ev' eu | [] => [] end
      else if unb s then match eu with e :: eu' => e + fst s :: sizes L' ev eu' | [] => [] end
      else fst s :: sizes L' ev eu
  end.

Definition in_int (z : Z) : Prop := - 2 ^ 31 <= z < 2 ^ 31.

Lemma rbind_inv {A C} (r : res A) (g : A -> res C) z : rbind r g = Ok z -> exists a, r = Ok a /\ g a = Ok z.
Proof. destruct r; cbn; try discriminate. intros H. eauto. Qed.

Lemma set_chunks_eq L : Forall stamp_ok L -> max_extra L < 2 ^ 31 -> forall ms kv ku vrem urem ev eu (l : bytes),
  length ms = length L -> shares kv (vmods L ms) vrem = Ok ev -> shares ku (umods L ms) urem = Ok eu ->
  Forall in_int (sizes L ev eu) -> set_chunks L ms kv ku vrem urem l = chop_all (sizes L ev eu) l.
Proof.
  induction L as [|s L IH]; intros HL HX [|m ms] kv ku vrem urem ev eu l E Hv Hu Hi; try discriminate; [reflexivity|].
  pose proof (Forall_inv HL) as Hs. apply Forall_inv_tail in HL. cbn [length] in E. injection E as E.
  rewrite max_extra_cons in HX. pose proof (max_extra_nonneg L) as X0.
  assert (HX' : max_extra L < 2 ^ 31) by (unfold var in HX; destruct (fst s <? snd s) eqn:V; lia).
  rewrite vmods_cons in Hv. rewrite umods_cons in Hu. cbn [sizes] in *.
  destruct s as [mn mx]. cbn [set_chunks]. rewrite <- (is_var (mn, mx) Hs) in *. rewrite <- (is_unb (mn, mx)) in *. cbn [fst snd] in *.
  assert (Go : forall el a c evl eul, in_int el -> shares kv (vmods L ms) a = Ok evl -> shares ku (umods L ms) c = Ok eul ->
     Forall in_int (sizes L evl eul) ->
     bind (Chop (u64 el)) (fun blob2 => rest <- set_chunks L ms kv ku a c;; ret (blob2 :: rest)) l
     = bind (Chop (u64 el)) (fun blob2 => rest <- chop_all (sizes L evl eul);; ret (blob2 :: rest)) l).
  { intros el a c evl eul _ Ha Hc Hf. unfold bind at 1 3. destruct (Chop (u64 el) l) as [[cc| | | |] l']; try reflexivity.
    unfold bind. rewrite (IH HL HX' ms kv ku a c evl eul l' E Ha Hc Hf). reflexivity. }
  destruct (isVariated mn mx) eqn:V.
  - assert (U : isUnbounded mn mx = false).
    { destruct (kind_cases _ Hs) as [K|[K|K]]; rewrite <- (is_var _ Hs), <- (is_unb (mn, mx)) in K; cbn [fst snd] in K; destruct K as (_ & K1 & K2 & _); congruence. }
    rewrite U in Hu. cbn [shares] in Hv. apply rbind_inv in Hv. destruct Hv as (e & He & Hv).
    apply rbind_inv in Hv. destruct Hv as (ev' & Hv & X). injection X as <-. 
    pose proof (Forall_inv Hi) as Hi0. apply Forall_inv_tail in Hi. unfold in_int in Hi0.
    rewrite (bind_lift_ok _ _ _ (e + mn, f64_sub (f64_add (f64_mul (f64_mul (f64_of_Z (mx - mn)) m) kv) vrem) (f64_of_Z e), urem)).
    2:{ rewrite int_op_ok by (assert (mn < mx) by (apply Z.ltb_lt; rewrite <- V; symmetry; exact (is_var (mn, mx) Hs)); lia). cbn [rbind]. unfold el_round. rewrite He. cbn [rbind].
        rewrite int_op_ok by lia. reflexivity. }
    cbn [fst snd]. cbn [chop_all]. apply Go; auto.
  - destruct (isUnbounded mn mx) eqn:U.
    + cbn [shares] in Hu. apply rbind_inv in Hu. destruct Hu as (e & He & Hu).
      apply rbind_inv in Hu. destruct Hu as (eu' & Hu & X). injection X as <-.
      pose proof (Forall_inv Hi) as Hi0. apply Forall_inv_tail in Hi. unfold in_int in Hi0.
      rewrite (bind_lift_ok _ _ _ (e + mn, vrem, f64_sub (f64_add (f64_mul m ku) urem) (f64_of_Z e))).
      2:{ unfold el_round. rewrite He. cbn [rbind]. rewrite int_op_ok by lia. reflexivity. }
      cbn [fst snd]. cbn [chop_all]. apply Go; auto.
    + pose proof (Forall_inv Hi) as Hi0. apply Forall_inv_tail in Hi.
      rewrite (bind_lift_ok _ _ _ (mn, vrem, urem)) by reflexivity.
      cbn [fst snd]. cbn [chop_all]. apply Go; auto.
Qed.

Lemma chop_all_run ks : forall (cs : list bytes) rest, Forall (fun k => 0 <= k < 2 ^ 31) ks -> map zlen cs = ks ->
  chop_all ks (concat cs ++ rest) = (Ok cs, rest).
Proof.
  induction ks as [|k ks IH]; intros [|c cs] rest H E; try discriminate; [reflexivity|].
  cbn [map] in E. injection E as E1 E2. pose proof (Forall_inv H) as H0. apply Forall_inv_tail in H. cbv beta in H0.
  cbn [chop_all concat]. rewrite <- app_assoc, u64_id by lia.
  rewrite (bind_ok _ _ _ _ _ (list_chop c _ k (eq_sym E1))). rewrite (bind_ok _ _ _ _ _ (IH cs rest H E2)). reflexivity.
Qed.

(** Sizes, their sum and the extras. *)
Lemma sizes_props L : Forall stamp_ok L -> forall ev eu, zlen ev = count var L -> zlen eu = count unb L ->
  length (sizes L ev eu) = length L /\ sum (sizes L ev eu) = sum (map fst L) + sum ev + sum eu
  /\ forall cs, map zlen cs = sizes L ev eu ->
     of_kind var L (extras L cs) = ev /\ of_kind unb L (extras L cs) = eu
     /\ Forall (fun e => e = 0) (of_kind fixed L (extras L cs)).
Proof.
  induction L as [|s L IH]; intros HL ev eu Hv Hu.
  - apply zlen_0_nil in Hv. apply zlen_0_nil in Hu. subst. split; [reflexivity|]. split; [reflexivity|].
    intros [|c cs] E; [|discriminate]. split; [reflexivity|]. split; [reflexivity|constructor].
  - pose proof (Forall_inv HL) as Hs. apply Forall_inv_tail in HL. rewrite count_cons in Hv, Hu. cbn [sizes map]. rewrite sum_cons.
    destruct (kind_cases s Hs) as [(K1 & K2 & K3 & _)|[(K1 & K2 & K3 & _)|(K1 & K2 & K3 & _)]]; rewrite K2, K3 in *.
    + destruct (IH HL ev eu Hv Hu) as (A & B & C). cbn [length]. rewrite sum_cons. split; [lia|]. split; [lia|].
      intros [|c cs] E; [discriminate|]. cbn [map] in E. injection E as E1 E2. destruct (C cs E2) as (D1 & D2 & D3).
      cbn [extras combine map]. rewrite !of_kind_cons, K1, K2, K3. cbn [fst snd]. fold (extras L cs).
      split; [exact D1|]. split; [exact D2|]. constructor; [lia|exact D3].
    + destruct eu as [|e eu]; [change (zlen []) with 0 in Hu; pose proof (count_nonneg unb L); lia|]. rewrite zlen_cons in Hu.
      destruct (IH HL ev eu Hv ltac:(lia)) as (A & B & C). cbn [length]. rewrite !sum_cons. split; [lia|]. split; [lia|].
      intros [|c cs] E; [discriminate|]. cbn [map] in E. injection E as E1 E2. destruct (C cs E2) as (D1 & D2 & D3).
      cbn [extras combine map]. rewrite !of_kind_cons, K1, K2, K3. cbn [fst snd]. fold (extras L cs).
      split; [exact D1|]. split; [f_equal; [lia|exact D2]|exact D3].
    + destruct ev as [|e ev]; [change (zlen []) with 0 in Hv; pose proof (count_nonneg var L); lia|]. rewrite zlen_cons in Hv.
      destruct (IH HL ev eu ltac:(lia) Hu) as (A & B & C). cbn [length]. rewrite !sum_cons. split; [lia|]. split; [lia|].
      intros [|c cs] E; [discriminate|]. cbn [map] in E. injection E as E1 E2. destruct (C cs E2) as (D1 & D2 & D3).
      cbn [extras combine map]. rewrite !of_kind_cons, K1, K2, K3. cbn [fst snd]. fold (extras L cs).
      split; [f_equal; [lia|exact D1]|]. split; [exact D2|exact D3].
Qed.

(** Bounds carry over to sizes. *)
Lemma sizes_bound L (P : Z -> Prop) : Forall stamp_ok L -> forall ev eu,
  (forall s, In s L -> fixed s = true -> P (fst s)) ->
  (forall s e, In s L -> var s = true -> In e ev -> P (e + fst s)) ->
  (forall s e, In s L -> unb s = true -> In e eu -> P (e + fst s)) -> Forall P (sizes L ev eu).
Proof.
  induction L as [|s L IH]; intros HL ev eu H1 H2 H3; [constructor|].
  pose proof (Forall_inv HL) as Hs. apply Forall_inv_tail in HL. cbn [sizes].
  destruct (kind_cases s Hs) as [(K1 & K2 & K3 & _)|[(K1 & K2 & K3 & _)|(K1 & K2 & K3 & _)]]; rewrite K2, K3 in *.
  - constructor; [apply H1; [left; reflexivity|exact K1]|]. apply IH; auto; intros; [apply H1|apply H2|apply H3]; auto; right; assumption.
  - destruct eu as [|e eu]; [constructor|]. constructor; [apply H3; [left; reflexivity|exact K2|left; reflexivity]|].
    apply IH; auto; intros; [apply H1|apply H2|apply H3]; auto; right; assumption.
  - destruct ev as [|e ev]; [constructor|]. constructor; [apply H2; [left; reflexivity|exact K3|left; reflexivity]|].
    apply IH; auto; intros; [apply H1|apply H2|apply H3]; auto; right; assumption.
Qed.
