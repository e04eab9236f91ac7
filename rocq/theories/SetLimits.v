(** GalleySet: short input, zero oracles, and the sizes of single chunks. *)
From Coq Require Import ZArith Reals Lia Lra.
From Flocq Require Import Core.Core IEEE754.BinarySingleNaN.
From Verif Require Import Base BaseFacts FloatModel FloatFacts PickFacts Oracle Arithm Sim Galley LocalSpec ShrinkFacts
  VectorSpec VectorFacts VectorUnbounded SetSpec SetFloat SetFacts SetRun.
Local Open Scope Z_scope.

(** ** Short input *)
Lemma set_short L (l : bytes) : set_ok L -> zlen l < min_total L -> set_extract L l = (OutOfData, l).
Proof.
  intros (HL & Hm & HX) H. pose proof (min_total_ge L HL) as MT. pose proof (max_extra_nonneg L).
  unfold set_extract.
  rewrite (bind_lift_ok _ _ _ _ (set_totals_run L (mkTotals 0 0 0 0) HL ltac:(cbn; lia) ltac:(cbn; lia) ltac:(cbn [t_fixed]; lia) ltac:(cbn [t_maxvar]; lia))).
  cbn [t_fixed t_maxvar t_unb t_var]. rewrite !Z.add_0_l. rewrite set_fixed_total_run by assumption.
  rewrite bind_gets. cbn [Size ListOps]. rewrite u64_id by lia.
  destruct (zlen l <? min_total L) eqn:Q; [reflexivity|lia].
Qed.

Lemma set_not_short L (l : bytes) : set_ok L -> zlen L <= 65536 -> min_total L <= zlen l < 2 ^ 31 ->
  set_extract L l <> (OutOfData, l).
Proof.
  intros HS HN Hl. pose proof HS as (HL & Hm & HX).
  destruct (layout_ex L l HL ltac:(lia)) as (o0 & os & r & El & Ho0 & Ho & E & Hr).
  pose proof (layout_len L o0 os r HL E) as Ll. rewrite <- El in Ll.
  assert (Hl2 : zlen (division_oracle L o0 ++ size_oracles (count unb L) L os ++ r) < 2 ^ 31) by (rewrite <- El; lia).
  destruct (Z_lt_le_dec (sum (map fst L)) (min_total L)) as [C|C].
  - intros X.
    pose proof (set_prefix L o0 os r HS Ho0 Ho E Hr Hl2 : set_extract L (division_oracle L o0 ++ size_oracles (count unb L) L os ++ r) = _) as P.
    rewrite <- El in P. assert (P' := eq_sym (eq_trans (eq_sym X) P)). clear P. rename P' into P. cbv zeta in P.
    match type of P with ?f r = _ => assert (S : shr (zlen r) (fun _ => True) f) end.
    { apply shr_bind with any; [apply shr_lift_any|]. intros fv _. apply shr_bind with any; [apply shr_lift_any|]. intros fu _ b Hb.
      split; [|intros; exact I]. exact (proj1 (shr_set_chunks (zlen r) L _ _ _ _ _ b Hb)). }
    assert (S0 : small (zlen r) r) by (split; [cbn [okb ListLaws]; lia|cbn [Size ListOps]; lia]).
    destruct (S r S0) as [S1 _]. rewrite P in S1. destruct S1 as [_ S1]. cbn [snd Size ListOps] in S1. lia.
  - pose proof (count_nonneg var L) as V0. pose proof (count_nonneg unb L) as U0. unfold min_total in C.
    assert (count var L = 0 /\ count unb L <= 1) as [CV CU].
    { destruct (1 <? count unb L) eqn:Q; destruct (both L); lia. }
    destruct (set_cut_run L o0 os r HS HN Ho0 Ho E Hr Hl2 (or_introl CV) ltac:(left; lia) ltac:(left; lia)) as (cs & rest & Fv & Fu & X & _).
    rewrite El. intros Y. pose proof (eq_trans (eq_sym X) Y) as Z. discriminate Z.
Qed.

(** ** Variated oracles that are all zero *)
Lemma fin_zero (x : f64) : fin x 0%R -> exists s, x = B754_zero s.
Proof.
  intros [F E]. destruct x as [s|s| |s m e H]; try discriminate F; [exists s; reflexivity|].
  exfalso. cbn [B2R] in E. apply eq_0_F2R in E. destruct s; discriminate E.
Qed.

Lemma zero_by_zero (x : f64) : fin x 0%R -> f64_div (f64_of_Z 0) x = B754_nan.
Proof. intros F. destruct (fin_zero x F) as [s ->]. destruct s; reflexivity. Qed.

Lemma nan_round (x y : f64) : Bround_Z (f64_add (f64_mul x B754_nan) y) = None.
Proof. destruct x as [[]|[]| |[] m e H], y as [[]|[]| |[] m' e' H']; reflexivity. Qed.

(** Never a normal return. *)
Lemma nan_never L : 0 < count var L -> Forall stamp_ok L -> forall ms ku vrem urem (l : bytes) cs, length ms = length L ->
  fst (set_chunks L ms B754_nan ku vrem urem l) <> Ok cs.
Proof.
  induction L as [|[mn mx] L IH]; intros Hc HL [|m ms] ku vrem urem l cs E; try discriminate.
  pose proof (Forall_inv HL) as Hs. apply Forall_inv_tail in HL. injection E as E. cbn [set_chunks].
  rewrite count_cons in Hc. rewrite <- (is_var (mn, mx) Hs) in Hc. cbn [fst snd] in Hc.
  intros X.
  match type of X with fst (bind ?f ?g l) = _ => destruct (f l) as [[s1| | | |] l1] eqn:E1; unfold bind at 1 in X; rewrite E1 in X; try discriminate X end.
  destruct (isVariated mn mx) eqn:V.
  - unfold lift in E1. injection E1 as E1 _. apply rbind_inv in E1. destruct E1 as (d & _ & E1).
    unfold el_round in E1. rewrite nan_round in E1. discriminate E1.
  - match type of X with fst (bind ?f ?g l1) = _ => destruct (f l1) as [[c| | | |] l2] eqn:E2; unfold bind at 1 in X; rewrite E2 in X; try discriminate X end.
    match type of X with fst (bind ?f ?g l2) = _ => destruct (f l2) as [[rr| | | |] l3] eqn:E3; unfold bind at 1 in X; rewrite E3 in X; try discriminate X end.
    apply (IH ltac:(lia) HL ms ku (snd (fst s1)) (snd s1) l2 rr E). rewrite E3. reflexivity.
Qed.

(** Undefined behaviour, if the chunks before the first variated stamp can be cut. *)
Lemma nan_ub L : 0 < count var L -> Forall stamp_ok L -> max_extra L < 2 ^ 31 -> forall ms ku vrem urem eu (l : bytes), length ms = length L ->
  shares ku (umods L ms) urem = Ok eu -> zlen eu = count unb L -> zlen l < 2 ^ 31 ->
  (forall s e, In s L -> unb s = true -> In e eu -> 0 <= e + fst s < 2 ^ 31) ->
  sum (map fst L) + sum eu <= zlen l ->
  fst (set_chunks L ms B754_nan ku vrem urem l) = UB.
Proof.
  induction L as [|[mn mx] L IH]; intros Hc HL HX [|m ms] ku vrem urem eu l E Hu Zu Hl Hb HS; try discriminate.
  pose proof (Forall_inv HL) as Hs. apply Forall_inv_tail in HL. injection E as E. cbn [set_chunks].
  rewrite count_cons in Hc. rewrite count_cons in Zu. rewrite umods_cons in Hu. rewrite max_extra_cons in HX.
  pose proof (max_extra_nonneg L) as X0.
  rewrite <- (is_var (mn, mx) Hs) in *. rewrite <- (is_unb (mn, mx)) in *. cbn [fst snd] in *.
  cbn [map fst] in HS. rewrite sum_cons in HS.
  assert (NN : forall eul, zlen eul = count unb L -> (forall s e, In s L -> unb s = true -> In e eul -> 0 <= e + fst s < 2 ^ 31) ->
     0 <= sum (map fst L) + sum eul).
  { intros eul Z0 B0. assert (Q : Forall (fun z => 0 <= z) (sizes L (repeat 0 (Z.to_nat (count var L))) eul)).
    { apply sizes_bound; auto.
      - intros s Hi _. rewrite Forall_forall in HL. exact (proj1 (HL s Hi)).
      - intros s e Hi _ He. apply repeat_spec in He. rewrite Forall_forall in HL. pose proof (proj1 (HL s Hi)). lia.
      - intros s e Hi Hk He. specialize (B0 s e Hi Hk He). lia. }
    destruct (sizes_props L HL (repeat 0 (Z.to_nat (count var L))) eul) as (_ & SS & _); auto.
    { unfold zlen. rewrite repeat_length. pose proof (count_nonneg var L). lia. }
    apply sum_nonneg in Q. rewrite SS in Q. 
    assert (R0 : forall n, sum (repeat 0 n) = 0) by (induction n as [|n IHn]; [reflexivity|cbn [repeat]; rewrite sum_cons; lia]).
    rewrite R0 in Q. lia. }
  destruct (isVariated mn mx) eqn:V.
  - unfold bind at 1. unfold lift.
    assert (H0 : mn < mx) by (apply Z.ltb_lt; rewrite <- V; symmetry; exact (is_var (mn, mx) Hs)).
    destruct Hs as [Hs _]. cbn [fst] in Hs. rewrite int_op_ok by lia. cbn [rbind].
    unfold el_round. rewrite nan_round. reflexivity.
  - destruct (isUnbounded mn mx) eqn:U.
    + cbn [shares] in Hu. apply rbind_inv in Hu. destruct Hu as (e & He & Hu).
      apply rbind_inv in Hu. destruct Hu as (eu' & Hu & X). injection X as <-.
      pose proof (Hb (mn, mx) e ltac:(left; reflexivity) U ltac:(left; reflexivity)) as B0. cbn [fst] in B0.
      rewrite (bind_lift_ok _ _ _ (e + mn, vrem, f64_sub (f64_add (f64_mul m ku) urem) (f64_of_Z e))).
      2:{ unfold el_round. rewrite He. cbn [rbind]. rewrite int_op_ok by lia. reflexivity. }
      cbn [fst snd]. rewrite sum_cons in HS. rewrite zlen_cons in Zu.
      assert (B1 : forall s x, In s L -> unb s = true -> In x eu' -> 0 <= x + fst s < 2 ^ 31) by (intros s x H1 H2 H3; apply Hb; auto; right; assumption).
      specialize (NN eu' ltac:(lia) B1). rewrite u64_id by lia.
      destruct (@law_chop_ok bytes _ ListLaws l (e + mn) ltac:(cbn [okb ListLaws]; lia) ltac:(cbn [cont ListLaws]; lia)) as (c & l' & EC & _ & _ & C1 & C2).
      cbn [cont ListLaws] in C1, C2.
      assert (Ll : zlen l' = zlen l - (e + mn)).
      { rewrite C2, zlen_skipn by lia. reflexivity. }
      rewrite (bind_ok _ _ _ _ _ EC).
      unfold bind at 1. 
      assert (R : fst (set_chunks L ms B754_nan ku vrem (f64_sub (f64_add (f64_mul m ku) urem) (f64_of_Z e)) l') = UB)
        by (apply (IH ltac:(lia) HL ltac:(lia) ms ku _ _ eu'); auto; lia).
      destruct (set_chunks L ms B754_nan ku vrem _ l') as [rr l'']. cbn [fst] in R. subst rr. reflexivity.
    + rewrite (bind_lift_ok _ _ _ (mn, vrem, urem)) by reflexivity. cbn [fst snd].
      assert (B1 : forall s x, In s L -> unb s = true -> In x eu -> 0 <= x + fst s < 2 ^ 31) by (intros s x H1 H2 H3; apply Hb; auto; right; assumption).
      specialize (NN eu ltac:(lia) B1). destruct Hs as [Hs _]. cbn [fst] in Hs. rewrite u64_id by lia.
      destruct (@law_chop_ok bytes _ ListLaws l mn ltac:(cbn [okb ListLaws]; lia) ltac:(cbn [cont ListLaws]; lia)) as (c & l' & EC & _ & _ & C1 & C2).
      cbn [cont ListLaws] in C1, C2.
      assert (Ll : zlen l' = zlen l - mn) by (rewrite C2, zlen_skipn by lia; reflexivity).
      rewrite (bind_ok _ _ _ _ _ EC).
      unfold bind at 1. 
      assert (R : fst (set_chunks L ms B754_nan ku vrem urem l') = UB)
        by (apply (IH ltac:(lia) HL ltac:(lia) ms ku _ _ eu); auto; lia).
      destruct (set_chunks L ms B754_nan ku vrem _ l') as [rr l'']. cbn [fst] in R. subst rr. reflexivity.
Qed.

Lemma set_zero L o0 os (r : bytes) : set_ok L -> zlen L <= 65536 -> oracle16 o0 -> Forall oracle16 os -> length os = length L ->
  sum (map fst L) <= zlen r ->
  let l := division_oracle L o0 ++ size_oracles (count unb L) L os ++ r in
  zlen l < 2 ^ 31 -> 0 < count var L -> sum (var_weights L os) = 0 ->
  (forall cs, fst (set_extract L l) <> Ok cs) /\ (roomy unb L -> fst (set_extract L l) = UB).
Proof.
  intros HS HN Ho0 Ho E Hr l Hl HV HW.
  rewrite (set_prefix L o0 os r HS Ho0 Ho E Hr Hl : set_extract L l = _). fold l.
  pose proof (avail_range L o0 os r HS E Hr Hl) as [EA RA]. fold l in EA, RA.
  pose proof (limit_range L l o0 Ho0 RA) as LR. pose proof HS as (HL & Hm & HX).
  pose proof (min_total_ge L HL) as MT. pose proof (layout_len L o0 os r HL E) as Ll. fold l in Ll.
  destruct (unb_mods L os HL Ho E HN) as (G1 & G2 & G3 & c & Cr & Sc & Wn & Ws & Wz).
  destruct (vmods_scaled (count unb L) L HL HX os Ho E) as (V1 & V2 & V3).
  set (nu := count unb L) in *. set (ms := mods nu L os) in *.
  set (pred := fold_left f64_add (vmods L ms) (f64_of_Z 0)) in *.
  set (t0 := fold_left f64_add (umods L ms) (f64_of_Z 0)) in *.
  set (mt := if f64_eq t0 (f64_of_Z 0) then reset_modifiers L ms (f64_of_Z 0) else (ms, t0)) in *.
  assert (P0 : fin pred 0%R).
  { apply fold_zero; [|exact zero_fin]. exact (zero_scaled _ _ _ V1 (sum_zero _ V2 HW)). }
  assert (F1 : (if f64_lt pred (f64_of_Z (limit L l o0)) then to_int (Bround_Z pred) else Ok (limit L l o0)) = Ok 0).
  { assert (FL : fin (f64_of_Z (limit L l o0)) (IZR (limit L l o0))) by (apply of_Z_exact; unfold prec64; lia).
    rewrite (blt_fin _ _ _ _ P0 FL). destruct (Rlt_bool_spec 0 (IZR (limit L l o0))) as [Q|Q].
    - rewrite (round_fin _ _ _ _ P0). rewrite (cround_int 0). reflexivity.
    - apply le_IZR in Q. f_equal. lia. }
  rewrite (bind_lift_ok _ _ _ _ F1). rewrite (bind_lift_ok _ _ _ (avail L l)) by (rewrite Z.sub_0_r; apply int_op_ok; lia).
  destruct (0 <? count var L) eqn:Q; [|lia]. rewrite (zero_by_zero pred P0).
  split; [intros cs; apply nan_never; assumption|]. intros HR.
  pose proof (count_le unb L) as Cu. pose proof (count_nonneg unb L) as U0.
  assert (Zu : zlen (unb_weights L os) = nu).
  { unfold unb_weights, weights. destruct (_ =? 0); rewrite ?zlen_map; apply of_kind_len; exact E. }
  assert (KU : exists eu, shares (if 0 <? nu then f64_div (f64_of_Z (avail L l)) (snd mt) else f64_of_Z 1) (umods L (fst mt)) (f64_of_Z 0) = Ok eu
     /\ fair (avail L l) (unb_weights L os) eu).
  { assert (Lm : length (umods L (fst mt)) = length (unb_weights L os)) by (clear - Sc; induction Sc; cbn; congruence).
    destruct (Z.eq_dec nu 0) as [Z0|Z0].
    - rewrite (Wz Z0) in *. assert (umods L (fst mt) = []) as -> by (destruct (umods L (fst mt)); [reflexivity|discriminate]).
      exists []. split; [reflexivity|]. apply fair_nil.
    - rewrite G3. destruct (0 <? nu) eqn:Qn; [|lia].
      assert (Lz : zlen (umods L (fst mt)) <= 65536) by (unfold zlen in *; lia).
      destruct (class_run (avail L l) c _ _ ltac:(lia) Cr Wn (Ws ltac:(lia)) Sc Lz) as (eu & U1 & U2 & U3).
      exists eu. split; [exact U1|exact U2]. }
  destruct KU as (eu & U1 & U2).
  assert (Leu : zlen eu = count unb L) by (fold nu; rewrite <- Zu; unfold zlen; f_equal; exact (proj1 U2)).
  apply (nan_ub L HV HL HX _ _ _ _ eu); auto; try lia.
  - intros s e Is Us Ie.
    assert (N0 : 0 < nu). { fold nu in Leu. rewrite <- Leu. destruct eu; [destruct Ie|]. rewrite zlen_cons. pose proof (zlen_nonneg eu). lia. }
    split.
    + apply (roomy_sizes L unb eu (avail L l) (unb_weights L os) HR HL ltac:(lia) Leu Wn); auto. intros. specialize (Ws N0). lia.
    + pose proof (fair_el _ _ _ (proj1 RA) Wn ltac:(specialize (Ws N0); lia) U2) as G. rewrite Forall_forall in G. specialize (G e Ie). cbv beta in G.
      assert (fst s <= sum (map fst L)).
      { clear - HL Is. induction HL as [|a L Ha H IH]; [destruct Is|]. cbn [map]. rewrite sum_cons. pose proof (mins_nonneg L H).
        destruct Is as [->|Is]; [lia|]. specialize (IH Is). destruct Ha. lia. }
      lia.
  - destruct (Z.eq_dec nu 0) as [Z0|Z0].
    + assert (zlen eu = 0) as Z1 by lia. apply zlen_0_nil in Z1. subst eu. cbn [sum fold_right]. lia.
    + assert (sum eu = avail L l) by (apply (fair_sum _ (unb_weights L os)); auto; specialize (Ws ltac:(lia)); lia). lia.
Qed.

(** ** Single chunks *)
Lemma fair_step F ws es k e w : fair F ws es -> 0 <= sum ws -> nth_error es k = Some e -> nth_error ws k = Some w ->
  8 * Z.abs (e * sum ws - F * w) <= 10 * sum ws.
Proof.
  intros [_ H] W0 He Hw. pose proof (H k) as H0. pose proof (H (S k)) as H1.
  assert (Q : forall (xs : list Z) x, nth_error xs k = Some x -> sum (firstn (S k) xs) = sum (firstn k xs) + x).
  { clear. induction k as [|k IH]; intros [|y xs] x Hx; try discriminate; cbn [nth_error] in Hx.
    - injection Hx as ->. cbn. lia.
    - rewrite firstn_cons, sum_cons, (IH xs x Hx). rewrite firstn_cons, sum_cons. lia. }
  rewrite (Q _ _ He), (Q _ _ Hw) in H1. set (W := sum ws) in *. set (a := sum (firstn k es)) in *. set (c := sum (firstn k ws)) in *. nia.
Qed.

Lemma kind_position p L : forall (A : Type) (xs : list A) (cs : list bytes) s c, length xs = length L -> length cs = length L ->
  In (s, c) (combine L cs) -> p s = true ->
  exists k x, nth_error (of_kind p L xs) k = Some x /\ nth_error (of_kind p L (extras L cs)) k = Some (zlen c - fst s)
    /\ In (s, x) (combine L xs).
Proof.
  induction L as [|a L IH]; intros A [|x xs] [|d cs] s c Ex Ec Hi Hp; try discriminate; [destruct Hi|].
  cbn [combine] in Hi. unfold extras. cbn [combine map fst snd]. fold (extras L cs). rewrite !of_kind_cons.
  destruct Hi as [Hi|Hi].
  - injection Hi as -> ->. rewrite Hp. exists 0%nat, x. split; [reflexivity|]. split; [reflexivity|]. left. reflexivity.
  - destruct (IH A xs cs s c ltac:(injection Ex as Ex; exact Ex) ltac:(injection Ec as Ec; exact Ec) Hi Hp) as (k & y & H1 & H2 & H3).
    destruct (p a).
    + exists (S k), y. split; [exact H1|]. split; [exact H2|]. right. exact H3.
    + exists k, y. split; [exact H1|]. split; [exact H2|]. right. exact H3.
Qed.

Lemma in_combine_map {A C D} (f : A * C -> D) (xs : list A) : forall ys x z, In (x, z) (combine xs (map f (combine xs ys))) ->
  exists y, In (x, y) (combine xs ys) /\ z = f (x, y).
Proof.
  induction xs as [|a xs IH]; intros [|y ys] x z H; try destruct H.
  - injection H as -> <-. exists y. split; [left; reflexivity|reflexivity].
  - destruct (IH ys x z H) as (y' & H1 & H2). exists y'. split; [right; exact H1|exact H2].
Qed.

Lemma sum_ge w ws : Forall (fun w => 0 <= w) ws -> In w ws -> w <= sum ws.
Proof.
  induction 1 as [|x ws Hx H IH]; intros Hi; [destruct Hi|]. rewrite sum_cons. pose proof (sum_nonneg ws H).
  destruct Hi as [->|Hi]; [lia|]. specialize (IH Hi). lia.
Qed.

(** A variated chunk is at most one byte below minSize() or above maxSize(). *)
Lemma cut_var_size L l o0 os cs rest Fv Fu : set_ok L -> set_cut L l o0 os cs rest Fv Fu -> 0 < sum (var_weights L os) ->
  forall s c, In (s, c) (combine L cs) -> var s = true -> fst s - 1 <= zlen c <= snd s + 1.
Proof.
  intros (HL & Hm & HX) [C1 (C2 & C3 & C4 & C5) C6 C7 C8 C9 C10 [C11 C11'] C12] HW s c Hi Hs.
  destruct (vmods_scaled (count unb L) L HL HX os C3 C4) as (_ & V2 & V3).
  pose proof (fair_el _ _ _ (proj1 C11) V2 HW C7) as FE.
  destruct (kind_position var L Z (map (fun so => (snd (fst so) - fst (fst so)) * snd so) (combine L os)) cs s c) as (k & w & H1 & H2 & H3);
    [rewrite map_length, combine_length; lia|exact C5|exact Hi|exact Hs|].
  fold (var_weights L os) in H1. apply in_combine_map in H3. destruct H3 as (o & H3 & ->). cbn [fst snd] in H1.
  assert (O : oracle16 o). { rewrite Forall_forall in C3. apply C3. apply in_combine_r in H3. exact H3. }
  pose proof (fair_step _ _ _ _ _ _ C7 ltac:(lia) H2 H1) as FS.
  pose proof (sum_ge _ _ V2 (nth_error_In _ _ H1)) as WS.
  rewrite Forall_forall in FE. specialize (FE _ (nth_error_In _ _ H2)). cbv beta in FE.
  unfold var in Hs. set (d := snd s - fst s) in *. assert (D : 0 < d) by lia. set (W := sum (var_weights L os)) in *.
  set (e := zlen c - fst s) in *. unfold oracle16 in O.
  assert (T : 8 * 65535 * Fv <= 8 * W + 5 * 65535) by lia.
  assert (U : 0 <= d * o <= 65535 * d) by nia.
  assert (X : 8 * e * W * 65535 <= (8 * W + 5 * 65535) * (d * o) + 10 * 65535 * W) by nia.
  assert (Y : (8 * W + 5 * 65535) * (d * o) <= (8 * (d * o) + 5 * 65535) * W) by nia.
  assert (8 * e * 65535 <= 8 * (d * o) + 15 * 65535) by nia.
  unfold e, d in *. lia.
Qed.

Lemma cut_unb_size L l o0 os cs rest Fv Fu : set_ok L -> zlen L <= 65536 -> set_cut L l o0 os cs rest Fv Fu -> 0 <= Fu ->
  forall s c, In (s, c) (combine L cs) -> unb s = true -> fst s - 1 <= zlen c.
Proof.
  intros (HL & Hm & HX) HN [C1 (C2 & C3 & C4 & C5) C6 C7 C8 C9 C10 [C11 C11'] C12] HF s c Hi Hs.
  destruct (unb_mods L os HL C3 C4 HN) as (_ & _ & _ & q & _ & _ & Wn & Ws & _).
  destruct (kind_position unb L Z os cs s c C4 C5 Hi Hs) as (k & w & H1 & H2 & H3).
  assert (0 < count unb L). { rewrite <- (of_kind_len unb L os C4). destruct (of_kind unb L os); [destruct k; discriminate|]. rewrite zlen_cons. pose proof (zlen_nonneg l0). lia. }
  pose proof (fair_el _ _ _ HF Wn ltac:(specialize (Ws H); lia) C8) as FE.
  rewrite Forall_forall in FE. specialize (FE _ (nth_error_In _ _ H2)). cbv beta in FE. lia.
Qed.

Lemma cut_fixed_size L l o0 os cs rest Fv Fu : set_cut L l o0 os cs rest Fv Fu ->
  forall s c, In (s, c) (combine L cs) -> fixed s = true -> zlen c = fst s.
Proof.
  intros [C1 (C2 & C3 & C4 & C5) C6 C7 C8 C9 C10 [C11 C11'] C12] s c Hi Hs.
  destruct (kind_position fixed L Z os cs s c C4 C5 Hi Hs) as (k & w & H1 & H2 & H3).
  rewrite Forall_forall in C6. specialize (C6 _ (nth_error_In _ _ H2)). cbv beta in C6. lia.
Qed.

(** ** maxSize *)
Lemma SetMaxSize_run L : Forall stamp_ok L -> count unb L = 0 -> sum (map snd L) + 2 * count var L < 2 ^ 31 ->
  SetMaxSize L = Ok (sum (map snd L) + 2 * count var L).
Proof.
  intros HL. unfold SetMaxSize. assert (forall r, 0 <= r -> count unb L = 0 -> r + sum (map snd L) + 2 * count var L < 2 ^ 31 ->
    set_max_loop L r = Ok (r + sum (map snd L) + 2 * count var L)) as H.
  2:{ intros H0 H1. rewrite H by lia. f_equal. }
  induction HL as [|s L Hs HL IH]; intros r Hr HU HT; [cbn [set_max_loop map sum fold_right]; change (count var []) with 0; f_equal; lia|].
  destruct s as [mn mx]. rewrite count_cons in HU. rewrite count_cons in HT |- *. cbn [set_max_loop map snd]. rewrite sum_cons in *. cbn [map snd] in HT. rewrite sum_cons in HT.
  rewrite <- (is_var (mn, mx) Hs) in *. rewrite <- (is_unb (mn, mx)) in *. cbn [fst snd] in *. pose proof (count_nonneg unb L). pose proof (count_nonneg var L).
  assert (MX : 0 <= mx). { destruct Hs as [M0 M1]. cbn [fst snd] in *. assert (isUnbounded mn mx = false) as X by (destruct (isUnbounded mn mx); [lia|reflexivity]).
    unfold isUnbounded in X. lia. }
  assert (S0 : 0 <= sum (map snd L)).
  { clear - HL HU. assert (count unb L = 0) as HU' by (destruct (isUnbounded mn mx); pose proof (count_nonneg unb L); lia). clear HU.
    induction HL as [|[a b] L [Ha Hb] H IH]; [cbn; lia|]. cbn [map snd fst] in *. rewrite sum_cons. rewrite count_cons in HU'. change (unb (a, b)) with (b =? -1) in HU'.
    pose proof (count_nonneg unb L). destruct (b =? -1) eqn:Q; [lia|]. specialize (IH ltac:(lia)). lia. }
  destruct (isUnbounded mn mx) eqn:U; [lia|]. rewrite int_op_ok by (destruct (isVariated mn mx); lia). cbn [rbind].
  destruct (isVariated mn mx) eqn:V.
  - rewrite i32_id by (unfold ORACLE_SIZE; lia). rewrite IH by (unfold ORACLE_SIZE; lia). unfold ORACLE_SIZE. f_equal. lia.
  - rewrite IH by lia. f_equal. lia.
Qed.

Lemma max_total L : Forall stamp_ok L -> count unb L = 0 -> sum (map snd L) = sum (map fst L) + max_extra L.
Proof.
  induction 1 as [|[mn mx] L [Ha Hb] H IH]; intros HU; [reflexivity|]. rewrite count_cons in HU. rewrite max_extra_cons. cbn [map fst snd]. rewrite !sum_cons.
  cbn [fst snd] in *. change (unb (mn, mx)) with (mx =? -1) in HU. pose proof (count_nonneg unb L). unfold var. cbn [fst snd].
  destruct (mx =? -1) eqn:Q; [lia|]. specialize (IH ltac:(lia)). destruct (mn <? mx) eqn:V; lia.
Qed.

(** ** Three unbounded stamps, the middle one with a zero oracle *)
Lemma half_fmt m : Z.abs m <= 2 ^ 53 -> fmt64 (IZR m / 2).
Proof.
  intros H. replace (IZR m / 2)%R with (IZR m * bpow radix2 (-1))%R by (change (bpow radix2 (-1)) with (/ 2)%R; reflexivity).
  apply fmt_scaled; [exact prec64_gt_0|exact H|vm_compute; discriminate].
Qed.

Lemma shares_step (k a r : f64) (xs : list f64) m ka ra e : fin a (IZR m)%R -> m = 0 \/ m = 1 -> fin k (IZR ka / 2)%R -> fin r (IZR ra / 2)%R ->
  Z.abs ka <= 2 ^ 40 -> Z.abs ra <= 2 ^ 40 -> cround (IZR (m * ka + ra) / 2) = e -> - 2 ^ 31 <= e < 2 ^ 31 ->
  exists r', fin r' (IZR (m * ka + ra - 2 * e) / 2)%R /\ shares k (a :: xs) r = (es <-- shares k xs r' ;; Ok (e :: es)).
Proof.
  intros Fa Hm Fk Fr Hk Hr He Hi.
  assert (F1 : fin (f64_mul a k) (IZR (m * ka) / 2)%R).
  { replace (IZR (m * ka) / 2)%R with (IZR m * (IZR ka / 2))%R by (rewrite mult_IZR; field).
    rewrite <- (rnd_id prec64 emax64 (IZR m * (IZR ka / 2))).
    2:{ replace (IZR m * (IZR ka / 2))%R with (IZR (m * ka) / 2)%R by (rewrite mult_IZR; field). apply half_fmt. destruct Hm; subst m; lia. }
    apply (mult_fin _ _ _ _ _ _ _ _ 60%Z Fa Fk); [vm_compute; split; [discriminate|reflexivity]|].
    replace (IZR m * (IZR ka / 2))%R with (IZR (m * ka) / 2)%R by (rewrite mult_IZR; field).
    apply Rabs_le. rewrite <- (IZR_Zpower radix2 60) by lia.
    assert (- radix2 ^ 60 <= m * ka <= radix2 ^ 60) as [A1 A2] by (change (radix2 ^ 60) with (2 ^ 60); destruct Hm; subst m; lia).
    apply IZR_le in A1, A2. rewrite opp_IZR in A1. pose proof (IZR_le 0 (radix2 ^ 60) ltac:(vm_compute; discriminate)). lra. }
  assert (F2 : fin (f64_add (f64_mul a k) r) (IZR (m * ka + ra) / 2)%R).
  { replace (IZR (m * ka + ra) / 2)%R with (IZR (m * ka) / 2 + IZR ra / 2)%R by (rewrite plus_IZR; field).
    rewrite <- (rnd_id prec64 emax64 (IZR (m * ka) / 2 + IZR ra / 2)).
    2:{ replace (IZR (m * ka) / 2 + IZR ra / 2)%R with (IZR (m * ka + ra) / 2)%R by (rewrite plus_IZR; field). apply half_fmt. destruct Hm; subst m; lia. }
    apply (plus_fin _ _ _ _ _ _ _ _ 60%Z F1 Fr); [vm_compute; split; [discriminate|reflexivity]|].
    replace (IZR (m * ka) / 2 + IZR ra / 2)%R with (IZR (m * ka + ra) / 2)%R by (rewrite plus_IZR; field).
    apply Rabs_le. rewrite <- (IZR_Zpower radix2 60) by lia.
    assert (- radix2 ^ 60 <= m * ka + ra <= radix2 ^ 60) as [A1 A2] by (change (radix2 ^ 60) with (2 ^ 60); destruct Hm; subst m; lia).
    apply IZR_le in A1, A2. rewrite opp_IZR in A1. pose proof (IZR_le 0 (radix2 ^ 60) ltac:(vm_compute; discriminate)). lra. }
  assert (Fe : fin (f64_of_Z e) (IZR e)) by (apply of_Z_exact; unfold prec64; lia).
  exists (f64_sub (f64_add (f64_mul a k) r) (f64_of_Z e)). split.
  - replace (IZR (m * ka + ra - 2 * e) / 2)%R with (IZR (m * ka + ra) / 2 - IZR e)%R by (rewrite minus_IZR, (mult_IZR 2); field).
    rewrite <- (rnd_id prec64 emax64 (IZR (m * ka + ra) / 2 - IZR e)).
    2:{ rewrite <- He. apply cround_exact. apply (fin_fmt _ _ _ _ F2). }
    apply (minus_fin _ _ _ _ _ _ _ _ 60%Z F2 Fe); [vm_compute; split; [discriminate|reflexivity]|].
    pose proof (cround_err (IZR (m * ka + ra) / 2)) as C. rewrite He in C. apply Rle_trans with (1 := C).
    rewrite <- (IZR_Zpower radix2 60) by lia. pose proof (IZR_le 1 (radix2 ^ 60) ltac:(vm_compute; discriminate)). lra.
  - cbn [shares]. rewrite (round_fin _ _ _ _ F2), He. cbn [to_int]. rewrite int_op_ok by lia. reflexivity.
Qed.

Lemma odd_shares q (k d1 d0 : f64) : 0 <= q < 2 ^ 30 -> fin k (IZR (2 * q + 1) / 2)%R -> fin d1 (IZR 1) -> fin d0 (IZR 0) ->
  shares k [d1; d0; d1] (f64_of_Z 0) = Ok [q + 1; -1; q + 1].
Proof.
  intros Hq Fk F1 F0.
  assert (Z0 : fin (f64_of_Z 0) (IZR 0 / 2)%R) by (replace (IZR 0 / 2)%R with 0%R by field; exact zero_fin).
  assert (C1 : cround (IZR (1 * (2 * q + 1) + 0) / 2) = q + 1).
  { unfold cround. pose proof (IZR_le 0 q ltac:(lia)). replace (IZR (1 * (2 * q + 1) + 0) / 2)%R with (IZR q + / 2)%R by (rewrite plus_IZR, (mult_IZR 1), plus_IZR, (mult_IZR 2); field).
    rewrite Rlt_bool_false by lra. apply Zfloor_imp. rewrite !plus_IZR. lra. }
  destruct (shares_step k d1 (f64_of_Z 0) [d0; d1] 1 (2 * q + 1) 0 (q + 1) F1 ltac:(lia) Fk Z0 ltac:(lia) ltac:(lia) C1 ltac:(lia)) as (r1 & R1 & S1).
  replace (1 * (2 * q + 1) + 0 - 2 * (q + 1)) with (-1) in R1 by lia.
  assert (C2 : cround (IZR (0 * (2 * q + 1) + -1) / 2) = -1).
  { cbn [Z.mul Z.add]. unfold cround. rewrite Rlt_bool_true by lra. replace (Zfloor (- (-1 / 2) + / 2)) with 1; [reflexivity|].
    symmetry. apply Zfloor_imp. rewrite plus_IZR. lra. }
  destruct (shares_step k d0 r1 [d1] 0 (2 * q + 1) (-1) (-1) F0 ltac:(lia) Fk R1 ltac:(lia) ltac:(lia) C2 ltac:(lia)) as (r2 & R2 & S2).
  replace (0 * (2 * q + 1) + -1 - 2 * -1) with 1 in R2 by lia.
  assert (C3 : cround (IZR (1 * (2 * q + 1) + 1) / 2) = q + 1).
  { replace (IZR (1 * (2 * q + 1) + 1) / 2)%R with (IZR (q + 1)) by (rewrite !plus_IZR, (mult_IZR 1), plus_IZR, (mult_IZR 2); field). apply cround_int. }
  destruct (shares_step k d1 r2 [] 1 (2 * q + 1) 1 (q + 1) F1 ltac:(lia) Fk R2 ltac:(lia) ltac:(lia) C3 ltac:(lia)) as (r3 & _ & S3).
  apply eq_trans with (1 := S1). rewrite S2, S3. reflexivity.
Qed.

Lemma three_total a b c : 0 <= a -> 0 <= b -> 0 <= c -> min_total [(a, -1); (b, -1); (c, -1)] = a + b + c + 6.
Proof.
  intros Ha Hb Hc. set (L := [(a, -1); (b, -1); (c, -1)]).
  assert (V : forall x, 0 <= x -> (x <? -1) = false) by (intros; lia).
  assert (CU : count unb L = 3) by reflexivity.
  assert (CV : count var L = 0).
  { unfold count, L. cbn [filter]. unfold var. cbn [fst snd]. rewrite !V by assumption. reflexivity. }
  unfold min_total, both. rewrite CU, CV. unfold L. cbn [map fst]. rewrite !sum_cons. change (sum []) with 0. cbn. lia.
Qed.

Lemma three_unbounded a b c q (r : bytes) : 0 <= a -> 0 <= b -> 0 <= c -> 0 <= q ->
  zlen r = a + b + c + (2 * q + 1) -> zlen r + 6 < 2 ^ 31 ->
  set_extract [(a, -1); (b, -1); (c, -1)] (le16 65535 ++ le16 0 ++ le16 65535 ++ r)
  = chop_all [q + 1 + a; -1 + b; q + 1 + c] r.
Proof.
  intros Ha Hb Hc Hq Hr Hl. set (L := [(a, -1); (b, -1); (c, -1)]).
  assert (HL : Forall stamp_ok L) by (repeat apply Forall_cons; try apply Forall_nil; split; cbn [fst snd]; lia).
  assert (V : forall x, 0 <= x -> (x <? -1) = false) by (intros; lia).
  assert (CU : count unb L = 3) by reflexivity.
  assert (FV : filter var L = []).
  { unfold L. cbn [filter]. unfold var. cbn [fst snd]. rewrite !V by assumption. reflexivity. }
  assert (CV : count var L = 0) by (unfold count; rewrite FV; reflexivity).
  assert (BO : both L = false) by (unfold both; rewrite CV; reflexivity).
  assert (MT : min_total L = a + b + c + 6).
  { unfold min_total. rewrite CU, CV, BO. unfold L. cbn [map fst]. rewrite !sum_cons. cbn [sum fold_right]. cbn. lia. }
  assert (ME : max_extra L = 0) by (unfold max_extra; rewrite FV; reflexivity).
  assert (HS : set_ok L) by (split; [exact HL|]; rewrite MT, ME; lia).
  assert (El : division_oracle L 0 ++ size_oracles (count unb L) L [65535; 0; 65535] ++ r = le16 65535 ++ le16 0 ++ le16 65535 ++ r).
  { unfold division_oracle. rewrite BO, CU. unfold size_oracles, L. cbn [combine map fst snd]. unfold has_oracle, unb. cbn [snd].
    change ((-1 =? -1) && (1 <? 3)) with true. rewrite ?orb_true_r. cbv iota. cbn [concat]. rewrite app_nil_r, <- !app_assoc. reflexivity. }
  assert (Zl : zlen (le16 65535 ++ le16 0 ++ le16 65535 ++ r) = zlen r + 6) by (rewrite !zlen_app; change (zlen (le16 65535)) with 2; change (zlen (le16 0)) with 2; lia).
  assert (Hl2 : zlen (division_oracle L 0 ++ size_oracles (count unb L) L [65535; 0; 65535] ++ r) < 2 ^ 31) by (rewrite El; lia).
  assert (Oz : oracle16 0) by (unfold oracle16; lia).
  assert (Oo : Forall oracle16 [65535; 0; 65535]) by (repeat apply Forall_cons; try apply Forall_nil; unfold oracle16; lia).
  assert (Sm : sum (map fst L) = a + b + c) by (unfold L; cbn [map fst]; rewrite !sum_cons; cbn [sum fold_right]; lia).
  pose proof (set_prefix L 0 [65535; 0; 65535] r HS Oz Oo eq_refl ltac:(lia) Hl2
    : set_extract L (division_oracle L 0 ++ size_oracles (count unb L) L [65535; 0; 65535] ++ r) = _) as P.
  rewrite El in P. transitivity (set_extract L (le16 65535 ++ le16 0 ++ le16 65535 ++ r)); [reflexivity|].
  apply eq_trans with (1 := P). clear P.
  set (l := le16 65535 ++ le16 0 ++ le16 65535 ++ r) in *.
  assert (AV : avail L l = 2 * q + 1) by (unfold avail; rewrite MT; lia).
  assert (LM : limit L l 0 = 0) by (unfold limit; rewrite BO, ME, AV; lia).
  rewrite CU, CV, LM, AV.
  set (d1 := f64_div (f64_of_Z 65535) (f64_of_Z ORACLE_MAX)). set (d0 := f64_div (f64_of_Z 0) (f64_of_Z ORACLE_MAX)).
  assert (EM : mods 3 L [65535; 0; 65535] = [d1; d0; d1]).
  { unfold L. cbn [mods]. unfold md, fixed, unb. cbn [fst snd]. rewrite (proj2 (Z.eqb_neq a (-1)) ltac:(lia)), (proj2 (Z.eqb_neq b (-1)) ltac:(lia)), (proj2 (Z.eqb_neq c (-1)) ltac:(lia)). reflexivity. }
  rewrite EM.
  assert (UM : umods L [d1; d0; d1] = [d1; d0; d1]) by reflexivity.
  assert (VM : vmods L [d1; d0; d1] = []).
  { apply zlen_0_nil. unfold vmods. rewrite of_kind_len by reflexivity. exact CV. }
  rewrite UM, VM. cbn [fold_left].
  assert (FM : fin (f64_of_Z ORACLE_MAX) (IZR 65535)) by (apply of_Z_exact; vm_compute; discriminate).
  assert (F1 : fin d1 (IZR 1)).
  { rewrite <- (rnd64_int 1) by lia. replace (IZR 1) with (IZR 65535 / IZR 65535)%R by field.
    apply (div_fin _ _ _ _ _ _ _ _ 4%Z FM FM); [intros X; lra|vm_compute; split; [discriminate|reflexivity]|].
    change (bpow radix2 4) with 16%R. apply Rabs_le. lra. }
  assert (F0 : fin d0 (IZR 0)).
  { rewrite <- (rnd64_int 0) by lia. replace (IZR 0) with (IZR 0 / IZR 65535)%R by field.
    apply (div_fin _ _ _ _ _ _ _ _ 4%Z zero_fin FM); [intros X; lra|vm_compute; split; [discriminate|reflexivity]|].
    change (bpow radix2 4) with 16%R. apply Rabs_le. lra. }
  assert (AD : forall (x y : f64) i j, fin x (IZR i) -> fin y (IZR j) -> 0 <= i <= 4 -> 0 <= j <= 4 -> fin (f64_add x y) (IZR (i + j))).
  { intros x y i j Fx Fy Hi Hj. rewrite <- (rnd64_int (i + j)) by lia. rewrite plus_IZR.
    apply (plus_fin _ _ _ _ _ _ _ _ 4%Z Fx Fy); [vm_compute; split; [discriminate|reflexivity]|].
    change (bpow radix2 4) with (IZR 16). rewrite <- plus_IZR. rewrite <- abs_IZR. apply IZR_le. lia. }
  pose proof (AD _ _ _ _ (AD _ _ _ _ (AD _ _ _ _ zero_fin F1 ltac:(lia) ltac:(lia)) F0 ltac:(lia) ltac:(lia)) F1 ltac:(lia) ltac:(lia)) as FT.
  set (t := f64_add (f64_add (f64_add (f64_of_Z 0) d1) d0) d1) in *. change (IZR (0 + 1 + 0 + 1)) with 2%R in FT.
  rewrite (beq_fin _ _ _ _ FT zero_fin). rewrite Req_bool_false by (intros X; lra). cbn [fst snd].
  rewrite (blt_fin _ _ _ _ zero_fin zero_fin), Rlt_bool_false by lra.
  rewrite (bind_lift_ok _ _ _ _ eq_refl). change (0 <? 0) with false. change (0 <? 3) with true. cbv iota.
  rewrite (bind_lift_ok _ _ _ (2 * q + 1)) by (rewrite Z.sub_0_r; apply int_op_ok; lia).
  assert (FK : fin (f64_div (f64_of_Z (2 * q + 1)) t) (IZR (2 * q + 1) / 2)%R).
  { assert (FF : fin (f64_of_Z (2 * q + 1)) (IZR (2 * q + 1))) by (apply of_Z_exact; unfold prec64; lia).
    rewrite <- (rnd_id prec64 emax64 (IZR (2 * q + 1) / 2)) by (apply half_fmt; lia).
    apply (div_fin _ _ _ _ _ _ _ _ 60%Z FF FT); [intros X; lra|vm_compute; split; [discriminate|reflexivity]|].
    rewrite <- (IZR_Zpower radix2 60) by lia. assert (0 <= 2 * q + 1 <= radix2 ^ 60) as [A1 A2] by (change (radix2 ^ 60) with (2 ^ 60); lia).
    apply IZR_le in A1, A2. apply Rabs_le. lra. }
  assert (SZ : sizes L [] [q + 1; -1; q + 1] = [q + 1 + a; -1 + b; q + 1 + c]).
  { unfold L. cbn [sizes]. unfold var, unb. cbn [fst snd]. rewrite !V by assumption. reflexivity. }
  rewrite <- SZ. apply set_chunks_eq; auto; try lia.
  - rewrite VM. reflexivity.
  - rewrite UM. apply odd_shares; auto. lia.
  - rewrite SZ. repeat apply Forall_cons; try apply Forall_nil; unfold in_int; lia.
Qed.

(** ** When the weights of variated stamps are all zero *)
Lemma zero_weights L : forall os, length os = length L -> Forall (fun o => o = 0) (of_kind var L os) -> sum (var_weights L os) = 0.
Proof.
  induction L as [|s L IH]; intros [|o os] E H; try discriminate; [reflexivity|]. injection E as E.
  rewrite of_kind_cons in H. rewrite var_weights_cons. destruct (var s).
  - pose proof (Forall_inv H) as H0. apply Forall_inv_tail in H. cbv beta in H0. subst o. rewrite sum_cons, (IH os E H). lia.
  - exact (IH os E H).
Qed.

Lemma weights_pos L os : Forall stamp_ok L -> Forall oracle16 os -> length os = length L ->
  Exists (fun o => o <> 0) (of_kind var L os) -> 0 < sum (var_weights L os).
Proof.
  intros HL. revert os. induction HL as [|s L Hs HL IH]; intros [|o os] Ho E H; try discriminate; [inversion H|]. injection E as E.
  rewrite of_kind_cons in H. rewrite var_weights_cons. pose proof (Forall_inv Ho) as O. unfold oracle16 in O. apply Forall_inv_tail in Ho.
  assert (N : Forall (fun w => 0 <= w) (var_weights L os)).
  { clear - HL Ho E. revert os Ho E. induction HL as [|a L Ha HL IH]; intros [|o os] Ho E; try discriminate; [constructor|]. injection E as E.
    rewrite var_weights_cons. pose proof (Forall_inv Ho) as O. unfold oracle16 in O. apply Forall_inv_tail in Ho. specialize (IH os Ho E).
    destruct (var a) eqn:V; [|exact IH]. constructor; [|exact IH]. unfold var in V. nia. }
  pose proof (sum_nonneg _ N). destruct (var s) eqn:V; [|apply IH; auto]. rewrite sum_cons. unfold var in V.
  apply Exists_cons in H. destruct H as [H|H]; [nia|]. specialize (IH os Ho E H). nia.
Qed.
