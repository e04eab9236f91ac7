(** GalleySet with variated stamps, data whose size is negative as an [int] (C77). *)
From Coq Require Import ZArith Reals Lia Lra.
From Flocq Require Import Core.Core IEEE754.BinarySingleNaN.
From Verif Require Import Base BaseFacts FloatModel FloatFacts Blob BlobFacts RunSpec RunFacts Sim Oracle OracleFacts PickFacts Arithm ArithFacts Galley
  VectorSpec VectorFacts VectorUnbounded SetSpec SetFloat SetFacts SetRun SetLimits HugeSpec HugeFacts.
Local Open Scope Z_scope.

(** ** Negation of the operands *)
Definition opp (x y : f64) : Prop := exists r, fin x r /\ fin y (- r)%R.

Lemma rnd64_opp x : (rnd64 (- x) = - rnd64 x)%R.
Proof. apply round_NE_opp. Qed.

Lemma cround_opp r : cround (- r) = - cround r.
Proof.
  unfold cround. destruct (Rlt_bool_spec r 0) as [H|H], (Rlt_bool_spec (- r) 0) as [K|K]; try lra.
  - lia.
  - rewrite Ropp_involutive. reflexivity.
  - assert (r = 0)%R as -> by lra. rewrite Ropp_0, Rplus_0_l. replace (Zfloor (/ 2)) with 0; [reflexivity|].
    symmetry. apply Zfloor_imp. cbn. lra.
Qed.

Lemma opp_mul (a k k' : f64) : opp k k' -> is_finite (f64_mul a k) = true -> opp (f64_mul a k) (f64_mul a k').
Proof.
  intros (r & [F E] & [F' E']) H.
  assert (Fa : is_finite a = true) by (clear - H; destruct a as [?|?| |? ? ? ?], k as [?|?| |? ? ? ?]; try reflexivity; discriminate H).
  unfold f64_mul in *. pose proof (Bmult_correct prec64 emax64 _ _ mode_NE a k) as C. pose proof (Bmult_correct prec64 emax64 _ _ mode_NE a k') as C'.
  change (round_mode mode_NE) with ZnearestE in *. rewrite E in C. rewrite E' in C'. replace (B2R a * - r)%R with (- (B2R a * r))%R in C' by ring.
  change (round radix2 (SpecFloat.fexp prec64 emax64) ZnearestE) with rnd64 in *. rewrite rnd64_opp, Rabs_Ropp in C'.
  destruct (Rlt_bool _ _).
  - destruct C as (C1 & C2 & _). destruct C' as (C1' & C2' & _). exists (rnd64 (B2R a * r)). split; split; try assumption.
    rewrite C2', Fa, F'. reflexivity.
  - exfalso. rewrite <- is_finite_SF_B2SF, C in H. cbn in H. discriminate H.
Qed.

Lemma opp_add (x x' y y' : f64) : opp x x' -> opp y y' -> is_finite (f64_add x y) = true -> opp (f64_add x y) (f64_add x' y').
Proof.
  intros (r & [F E] & [F' E']) (s & [G I] & [G' I']) H.
  unfold f64_add in *. pose proof (Bplus_correct prec64 emax64 _ _ mode_NE x y F G) as C. pose proof (Bplus_correct prec64 emax64 _ _ mode_NE x' y' F' G') as C'.
  change (round_mode mode_NE) with ZnearestE in *. rewrite E, I in C. rewrite E', I' in C'. replace (- r + - s)%R with (- (r + s))%R in C' by ring.
  change (round radix2 (SpecFloat.fexp prec64 emax64) ZnearestE) with rnd64 in *. rewrite rnd64_opp, Rabs_Ropp in C'.
  destruct (Rlt_bool _ _).
  - destruct C as (C1 & C2 & _). destruct C' as (C1' & C2' & _). exists (rnd64 (r + s)). split; split; assumption.
  - exfalso. destruct C as [C _]. rewrite <- is_finite_SF_B2SF, C in H. cbn in H. discriminate H.
Qed.

Lemma opp_of_Z z : Z.abs z < 2 ^ 32 -> opp (f64_of_Z z) (f64_of_Z (- z)).
Proof. intros H. exists (IZR z). rewrite <- opp_IZR. split; apply of_Z_exact; unfold prec64; lia. Qed.

Lemma opp_div (x x' y : f64) r : opp x x' -> fin y r -> (r <> 0)%R -> is_finite (f64_div x y) = true -> opp (f64_div x y) (f64_div x' y).
Proof.
  intros (q & [F E] & [F' E']) [G I] N H. unfold f64_div in *. rewrite <- I in N.
  pose proof (Bdiv_correct prec64 emax64 _ _ mode_NE x y N) as C. pose proof (Bdiv_correct prec64 emax64 _ _ mode_NE x' y N) as C'.
  change (round_mode mode_NE) with ZnearestE in *. rewrite E, I in C. rewrite E', I in C'. replace (- q / r)%R with (- (q / r))%R in C' by (unfold Rdiv; ring).
  change (round radix2 (SpecFloat.fexp prec64 emax64) ZnearestE) with rnd64 in *. rewrite rnd64_opp, Rabs_Ropp in C'.
  destruct (Rlt_bool _ _).
  - destruct C as (C1 & C2 & _). destruct C' as (C1' & C2' & _). exists (rnd64 (q / r)). split; split; try assumption; congruence.
  - exfalso. rewrite <- is_finite_SF_B2SF, C in H. cbn in H. discriminate H.
Qed.

Lemma to_int_inv (x : f64) e : to_int (Bround_Z x) = Ok e -> is_finite x = true /\ Bround_Z x = Some e /\ in_int e.
Proof.
  intros H. destruct (Bround_Z x) as [z|] eqn:B; [|discriminate H]. cbn [to_int] in H. unfold int_op, in_i32 in H.
  destruct (_ && _) eqn:Q; [|discriminate H]. injection H as ->. split; [|split; [reflexivity|unfold in_int; lia]].
  destruct x as [?|?| |? ? ? ?]; try reflexivity; discriminate B.
Qed.

Lemma opp_round (x x' : f64) e : opp x x' -> to_int (Bround_Z x) = Ok e -> e <> - 2 ^ 31 -> to_int (Bround_Z x') = Ok (- e).
Proof.
  intros (r & F & F') H N. apply to_int_inv in H. destruct H as (_ & B & I). rewrite (round_fin _ _ _ _ F) in B. injection B as B.
  rewrite (round_fin _ _ _ _ F'), cround_opp, B. cbn [to_int]. apply int_op_ok. unfold in_int in I. lia.
Qed.

Lemma add_fin_inv (x y : f64) : is_finite (f64_add x y) = true -> is_finite x = true /\ is_finite y = true.
Proof. intros H. destruct x as [[]|[]| |[] ? ? ?], y as [[]|[]| |[] ? ? ?]; split; try reflexivity; discriminate H. Qed.

Lemma rounds_neg k k' : opp k k' -> forall xs rem rem' es, opp rem rem' -> rounds k xs rem = Ok es -> Forall (fun e => - 2 ^ 32 <= e <= 2 ^ 32) es ->
  rounds k' xs rem' = Ok (map Z.opp es).
Proof.
  intros K. induction xs as [|a xs IH]; intros rem rem' es R H N.
  - injection H as <-. reflexivity.
  - cbn [rounds] in *. destruct (Bround_Z (f64_add (f64_mul a k) rem)) as [e|] eqn:B; [|discriminate H]. cbn [rbind] in H.
    apply rbind_inv in H. destruct H as (es' & Hs & X). injection X as <-.
    pose proof (Forall_inv N) as N0. apply Forall_inv_tail in N. cbv beta in N0.
    assert (Fs : is_finite (f64_add (f64_mul a k) rem) = true) by (destruct (f64_add (f64_mul a k) rem) as [?|?| |? ? ? ?]; try reflexivity; discriminate B).
    assert (O : opp (f64_add (f64_mul a k) rem) (f64_add (f64_mul a k') rem')).
    { apply opp_add; [|exact R|exact Fs]. apply opp_mul; [exact K|]. exact (proj1 (add_fin_inv _ _ Fs)). }
    destruct O as (r & F & F'). rewrite (round_fin _ _ _ _ F) in B. injection B as B.
    rewrite (round_fin _ _ _ _ F'), cround_opp, B. cbn [rbind].
    assert (O' : opp (f64_sub (f64_add (f64_mul a k) rem) (f64_of_Z e)) (f64_sub (f64_add (f64_mul a k') rem') (f64_of_Z (- e)))).
    { assert (Fe : fin (f64_of_Z e) (IZR e)) by (apply of_Z_exact; unfold prec64; lia).
      assert (Fe' : fin (f64_of_Z (- e)) (- IZR e)%R) by (rewrite <- opp_IZR; apply of_Z_exact; unfold prec64; lia).
      assert (Er : (Rabs (r - IZR e) <= / 2)%R) by (rewrite <- B; apply cround_err).
      exists (rnd64 (r - IZR e)). split.
      - apply (minus_fin _ _ _ _ _ _ _ _ 1%Z F Fe); [vm_compute; split; [discriminate|reflexivity]|]. change (bpow radix2 1) with 2%R. lra.
      - rewrite <- rnd64_opp. replace (- (r - IZR e))%R with (- r - - IZR e)%R by ring.
        apply (minus_fin _ _ _ _ _ _ _ _ 1%Z F' Fe'); [vm_compute; split; [discriminate|reflexivity]|]. change (bpow radix2 1) with 2%R.
        replace (- r - - IZR e)%R with (- (r - IZR e))%R by ring. rewrite Rabs_Ropp. lra. }
    rewrite (IH _ _ _ O' Hs N). reflexivity.
Qed.

Lemma sum_opp es : sum (map Z.opp es) = - sum es.
Proof. induction es as [|e es IH]; [reflexivity|]. cbn [map]. rewrite !sum_cons, IH. lia. Qed.

Lemma fair_opp F ws es : fair F ws es -> fair (- F) ws (map Z.opp es).
Proof.
  intros [E H]. split; [rewrite map_length; exact E|]. intros k. rewrite firstn_map, sum_opp.
  replace (- sum (firstn k es) * sum ws - - F * sum (firstn k ws)) with (- (sum (firstn k es) * sum ws - F * sum (firstn k ws))) by ring.
  rewrite Z.abs_opp. apply H.
Qed.

(** The limit from the division oracle. *)
Lemma mod_fin o : oracle16 o -> exists m, fin (f64_div (f64_of_Z o) (f64_of_Z ORACLE_MAX)) m /\ (0 <= m <= 1)%R.
Proof.
  intros [H0 H1]. assert (A := IZR_le _ _ H0). assert (B := IZR_le _ _ H1).
  assert (F1 : fin (f64_of_Z o) (IZR o)) by (apply of_Z_exact; unfold prec64; lia).
  assert (F2 : fin (f64_of_Z ORACLE_MAX) 65535%R) by (apply of_Z_exact; vm_compute; discriminate).
  exists (rnd64 (IZR o / 65535)). split.
  - apply (div_fin _ _ _ _ _ _ _ _ 1%Z F1 F2); [intros X; lra|vm_compute; split; [discriminate|reflexivity]|].
    change (bpow radix2 1) with 2%R. rewrite Rabs_pos_eq; lra.
  - split; [apply rnd64_ge_fmt; [exact fmt64_0|lra]|apply rnd64_le_fmt; [exact fmt64_1|lra]].
Qed.

Lemma predict_neg o G : oracle16 o -> 0 < G <= 2 ^ 31 ->
  exists p, to_int (Bround_Z (f64_mul (f64_div (f64_of_Z o) (f64_of_Z ORACLE_MAX)) (f64_of_Z (- G)))) = Ok p /\ - G <= p.
Proof.
  intros Ho HG. destruct (Z.eq_dec G (2 ^ 31)) as [->|N].
  - destruct (mod_fin o Ho) as (m & Fm & Rm).
    assert (F1 : fin (f64_of_Z (- 2 ^ 31)) (- 2147483648)%R) by (apply (of_Z_exact _ _ _ _ (- 2 ^ 31)); vm_compute; discriminate).
    assert (Fp : fin (f64_mul (f64_div (f64_of_Z o) (f64_of_Z ORACLE_MAX)) (f64_of_Z (- 2 ^ 31))) (rnd64 (m * - 2147483648))).
    { apply (mult_fin _ _ _ _ _ _ _ _ 40%Z Fm F1); [vm_compute; split; [discriminate|reflexivity]|]. change (bpow radix2 40) with 1099511627776%R. apply Rabs_le. lra. }
    assert (B : (IZR (- 2147483648) <= rnd64 (m * - 2147483648) <= IZR 0)%R).
    { split; [apply rnd64_ge_fmt; [apply fmt64_int; lia|lra]|apply rnd64_le_fmt; [apply fmt64_int; lia|lra]]. }
    exists (cround (rnd64 (m * - 2147483648))). rewrite (round_fin _ _ _ _ Fp). cbn [to_int].
    pose proof (cround_err (rnd64 (m * - 2147483648))) as E. apply Rabs_le_inv in E.
    assert (- 2147483648 <= cround (rnd64 (m * - 2147483648)) <= 0).
    { split; apply Zlt_succ_le; unfold Z.succ; apply lt_IZR; rewrite plus_IZR; lra. }
    split; [apply int_op_ok; lia|lia].
  - destruct (predict o G Ho ltac:(lia)) as [P1 P2].
    exists (- ((2 * (o * G) + 65535) / (2 * 65535))). split; [|lia].
    apply (opp_round (f64_mul (f64_div (f64_of_Z o) (f64_of_Z ORACLE_MAX)) (f64_of_Z G))); [|exact P1|lia].
    apply opp_mul; [apply opp_of_Z; lia|]. exact (proj1 (to_int_inv _ _ P1)).
Qed.

(** ** The run *)
Lemma set_prefix_neg L o0 os (r : bytes) G : set_ok L -> oracle16 o0 -> Forall oracle16 os -> length os = length L -> zlen L <= 65536 ->
  0 < count var L ->
  let l := division_oracle L o0 ++ size_oracles (count unb L) L os ++ r in
  min_total L <= zlen l < 2 ^ 64 -> 0 < G <= 2 ^ 31 -> i32 (zlen l - min_total L) = - G ->
  let nu := count unb L in
  let ms := mods nu L os in
  let pred := fold_left f64_add (vmods L ms) (f64_of_Z 0) in
  let t0 := fold_left f64_add (umods L ms) (f64_of_Z 0) in
  let mt := if f64_eq t0 (f64_of_Z 0) then reset_modifiers L ms (f64_of_Z 0) else (ms, t0) in
  set_extract L l =
  set_chunks L (fst mt) (f64_div (f64_of_Z (- G)) pred) (if 0 <? nu then f64_div (f64_of_Z 0) (snd mt) else f64_of_Z 1) (f64_of_Z 0) (f64_of_Z 0) r.
Proof.
  intros HS Ho0 Ho E HN HV l Hl HG EG nu ms pred t0 mt. destruct HS as (HL & Hm & HX).
  pose proof (max_extra_nonneg L) as X0. pose proof (min_total_ge L HL) as MT.
  pose proof (count_nonneg var L) as V0. pose proof (count_nonneg unb L) as U0.
  unfold set_extract.
  rewrite (bind_lift_ok _ _ _ _ (set_totals_run L (mkTotals 0 0 0 0) HL ltac:(cbn; lia) ltac:(cbn; lia) ltac:(cbn [t_fixed]; lia) ltac:(cbn [t_maxvar]; lia))).
  cbn [t_fixed t_maxvar t_unb t_var]. rewrite !Z.add_0_l. rewrite set_fixed_total_run by assumption.
  rewrite bind_gets. cbn [Size ListOps]. rewrite u64_id by lia.
  destruct (zlen l <? min_total L) eqn:Q; [lia|]. rewrite EG.
  destruct (- G <? max_extra L) eqn:C; [|lia].
  assert (Rm : forall p t, read_modifiers nu L p t (size_oracles (count unb L) L os ++ r) =
    (Ok (ms, fold_left f64_add (vmods L ms) p, fold_left f64_add (umods L ms) t), r)).
  { intros p t. apply read_modifiers_run; assumption. }
  destruct (vmods_scaled (count unb L) L HL HX os Ho E) as (V1 & V2 & V3). fold nu ms in V1.
  assert (Lv : length (vmods L ms) = length (var_weights L os)) by (clear - V1; induction V1; cbn; congruence).
  assert (Zv : zlen (var_weights L os) = count var L).
  { unfold var_weights. rewrite of_kind_len; [reflexivity|]. rewrite map_length, combine_length. lia. }
  pose proof (count_le var L) as Cv.
  assert (FL : fin (f64_of_Z (- G)) (IZR (- G))) by (apply of_Z_exact; unfold prec64; lia).
  assert (G0 : (IZR (- G) < 0)%R) by (apply IZR_lt; lia).
  assert (Lt : f64_lt pred (f64_of_Z (- G)) = false).
  { assert (P : exists t, fin pred t /\ (0 <= t)%R).
    { destruct (Z.eq_dec (sum (var_weights L os)) 0) as [Z0|Z0].
      - exists 0%R. split; [|lra]. apply fold_zero; [|exact zero_fin]. exact (zero_scaled _ _ _ V1 (sum_zero _ V2 Z0)).
      - assert (C65 : (bpow radix2 (-20) <= / 65535 <= 1)%R) by (change (bpow radix2 (-20)) with (/ 1048576)%R; lra).
        pose proof (sum_nonneg _ V2) as S0.
        destruct (shares_good 0 (/ 65535) _ _ ltac:(lia) C65 V2 ltac:(lia) V1 ltac:(unfold zlen in *; lia)) as (t & Ft & Tp & _).
        exists t. split; [exact Ft|lra]. }
    destruct P as (t & Ft & Tp). rewrite (blt_fin _ _ _ _ Ft FL). apply Rlt_bool_false. lra. }
  assert (Fin : (x <- read_modifiers nu L (f64_of_Z 0) (f64_of_Z 0);;
      (final_var <- lift (if f64_lt (snd (fst x)) (f64_of_Z (- G)) then to_int (Bround_Z (snd (fst x))) else Ok (- G));;
       final_unb <- lift (int_op (- G - final_var));;
       set_chunks L
         (fst (if f64_eq (snd x) (f64_of_Z 0) then reset_modifiers L (fst (fst x)) (f64_of_Z 0) else (fst (fst x), snd x)))
         (if 0 <? count var L then f64_div (f64_of_Z final_var) (snd (fst x)) else f64_of_Z 1)
         (if 0 <? nu then f64_div (f64_of_Z final_unb) (snd (if f64_eq (snd x) (f64_of_Z 0) then reset_modifiers L (fst (fst x)) (f64_of_Z 0) else (fst (fst x), snd x))) else f64_of_Z 1)
         (f64_of_Z 0) (f64_of_Z 0))) (size_oracles (count unb L) L os ++ r : bytes)
     = set_chunks L (fst mt) (f64_div (f64_of_Z (- G)) pred) (if 0 <? nu then f64_div (f64_of_Z 0) (snd mt) else f64_of_Z 1) (f64_of_Z 0) (f64_of_Z 0) r).
  { rewrite (bind_ok _ _ _ _ _ (Rm _ _)). cbn [fst snd]. fold pred t0. rewrite Lt.
    rewrite (bind_lift_ok _ _ _ (- G)) by reflexivity. rewrite (bind_lift_ok _ _ _ 0) by (rewrite Z.sub_diag; reflexivity).
    destruct (0 <? count var L) eqn:Qv; [|lia]. reflexivity. }
  fold (both L). cbv zeta. destruct (both L) eqn:B.
  - destruct (predict_neg o0 G Ho0 HG) as (p & P1 & P2).
    assert (EO : GetOracle l = (Ok o0, size_oracles (count unb L) L os ++ r)).
    { unfold l, division_oracle. rewrite B. apply list_oracle. exact Ho0. }
    rewrite (bind_ok _ _ _ _ _ (eq_trans (bind_ok _ _ _ _ _ EO) (bind_lift_ok _ _ _ _ P1))).
    destruct (p <? - G) eqn:C'; [lia|]. exact Fin.
  - rewrite bind_ret. assert (EL : l = size_oracles (count unb L) L os ++ r) by (unfold l, division_oracle; rewrite B; reflexivity).
    rewrite EL. exact Fin.
Qed.

Lemma chop_all_huge ks : Forall in_int ks -> Exists (fun k => k < 0) ks -> forall r : bytes, zlen r < 2 ^ 63 ->
  exists rest, chop_all ks r = (OutOfData, rest).
Proof.
  intros Hi He. induction Hi as [|k ks Hk Hi IH]; [inversion He|]. intros r Hr. unfold in_int in Hk.
  cbn [chop_all]. destruct (Z_le_gt_dec 0 k) as [K|K].
  - apply Exists_cons in He. destruct He as [He|He]; [lia|]. rewrite u64_id by lia.
    destruct (Z_le_gt_dec k (zlen r)) as [Q|Q].
    + destruct (@law_chop_ok bytes _ ListLaws r k ltac:(cbn [okb ListLaws]; lia) ltac:(cbn [cont ListLaws]; lia)) as (c & r' & EC & _ & _ & _ & C2).
      cbn [cont ListLaws] in C2. destruct (IH He r') as [rest Er]; [rewrite C2, zlen_skipn by lia; lia|].
      exists rest. rewrite (bind_ok _ _ _ _ _ EC). unfold bind. rewrite Er. reflexivity.
    + exists r. rewrite (bind_ood _ _ _ _ (@law_chop_ood bytes _ ListLaws r k ltac:(cbn [okb ListLaws]; lia) ltac:(cbn [cont ListLaws]; lia))). reflexivity.
  - exists r. assert (Q : zlen r < u64 k) by (unfold u64; replace k with (k + 2 ^ 64 - 1 * 2 ^ 64) by lia; rewrite Zminus_mod, Z.mod_mul, Z.sub_0_r, Z.mod_mod, Z.mod_small by lia; lia).
    rewrite (bind_ood _ _ _ _ (@law_chop_ood bytes _ ListLaws r _ ltac:(cbn [okb ListLaws]; lia) Q)). reflexivity.
Qed.

Lemma div_finite F c xs ws : 0 <= F <= 2 ^ 31 -> (bpow radix2 (-20) <= c <= 1)%R ->
  Forall (fun w => 0 <= w) ws -> 1 <= sum ws <= 2 ^ 48 -> Forall2 (scaled c) xs ws -> zlen xs <= 65536 ->
  let p := fold_left f64_add xs (f64_of_Z 0) in exists t, fin p t /\ (0 < t)%R /\ is_finite (f64_div (f64_of_Z F) p) = true.
Proof.
  intros HF Hc Hw HW Hs Hn p. destruct (shares_good F c xs ws HF Hc Hw HW Hs Hn) as (t & Ft & Tp & _ & Gd).
  exists t. split; [exact Ft|]. split; [exact Tp|]. fold p in Gd.
  clearbody p. destruct ws as [|w ws]; [cbn in HW; lia|]. inversion Gd as [|a ? ? ? (x & [Fx _] & _) _]; subst.
  clear - Fx. destruct a as [?|?| |? ? ? ?], (f64_div (f64_of_Z F) p) as [?|?| |? ? ? ?]; try reflexivity; discriminate Fx.
Qed.

(** Sizes of all chunks. *)
Lemma set_run_neg L o0 os (r : bytes) G : set_ok L -> zlen L <= 65536 -> oracle16 o0 -> Forall oracle16 os -> length os = length L ->
  0 < sum (var_weights L os) ->
  let l := division_oracle L o0 ++ size_oracles (count unb L) L os ++ r in
  min_total L <= zlen l < 2 ^ 64 -> 0 < G <= 2 ^ 31 -> i32 (zlen l - min_total L) = - G ->
  exists ev eu, set_extract L l = chop_all (sizes L ev eu) r
    /\ zlen ev = count var L /\ zlen eu = count unb L /\ fair (- G) (var_weights L os) ev /\ Forall (fun e => e = 0) eu
    /\ Forall in_int (sizes L ev eu).
Proof.
  intros HS HN Ho0 Ho E HW l Hl HG EG.
  assert (Zv : zlen (var_weights L os) = count var L).
  { unfold var_weights. rewrite of_kind_len; [reflexivity|]. rewrite map_length, combine_length. lia. }
  assert (HV : 0 < count var L).
  { rewrite <- Zv. destruct (var_weights L os); [cbn in HW; lia|]. rewrite zlen_cons. pose proof (zlen_nonneg l0). lia. }
  rewrite (set_prefix_neg L o0 os r G HS Ho0 Ho E HN HV Hl HG EG : set_extract L l = _).
  pose proof HS as (HL & Hm & HX). pose proof (min_total_ge L HL) as MT.
  destruct (unb_mods L os HL Ho E HN) as (G1 & G2 & G3 & c & Cr & Sc & Wn & Ws & Wz).
  destruct (vmods_scaled (count unb L) L HL HX os Ho E) as (V1 & V2 & V3).
  set (nu := count unb L) in *. set (ms := mods nu L os) in *.
  set (pred := fold_left f64_add (vmods L ms) (f64_of_Z 0)) in *.
  set (t0 := fold_left f64_add (umods L ms) (f64_of_Z 0)) in *.
  set (mt := if f64_eq t0 (f64_of_Z 0) then reset_modifiers L ms (f64_of_Z 0) else (ms, t0)) in *.
  assert (Lv : length (vmods L ms) = length (var_weights L os)) by (clear - V1; induction V1; cbn; congruence).
  assert (Zu : zlen (unb_weights L os) = nu).
  { unfold unb_weights, weights. destruct (_ =? 0); rewrite ?zlen_map; apply of_kind_len; exact E. }
  pose proof (count_le var L) as Cv. pose proof (count_le unb L) as Cu. pose proof (count_nonneg unb L) as U0. fold nu in Cu, U0.
  assert (C65 : (bpow radix2 (-20) <= / 65535 <= 1)%R) by (change (bpow radix2 (-20)) with (/ 1048576)%R; lra).
  assert (Lz : zlen (vmods L ms) <= 65536) by (unfold zlen in *; lia).
  destruct (class_rounds G (/ 65535) _ _ ltac:(lia) C65 V2 ltac:(lia) V1 Lz) as (ev & E1 & E2 & _ & EI). fold pred in E1.
  destruct (div_finite G (/ 65535) _ _ ltac:(lia) C65 V2 ltac:(lia) V1 Lz) as (t & Ft & Tp & Fk). fold pred in Ft, Fk.
  pose proof (fair_el G _ ev ltac:(lia) V2 HW E2) as B1.
  assert (KV : shares (f64_div (f64_of_Z (- G)) pred) (vmods L ms) (f64_of_Z 0) = Ok (map Z.opp ev)).
  { apply shares_rounds; [|apply Forall_map; eapply Forall_impl; [|exact B1]; cbv beta; intros; lia].
    apply (rounds_neg (f64_div (f64_of_Z G) pred) _) with (rem := f64_of_Z 0); [|apply (opp_of_Z 0); lia|exact E1|].
    - apply (opp_div _ _ _ t); [apply opp_of_Z; lia|exact Ft|lra|exact Fk].
    - eapply Forall_impl; [|exact EI]. cbv beta. intros. lia. }
  assert (KU : exists eu, shares (if 0 <? nu then f64_div (f64_of_Z 0) (snd mt) else f64_of_Z 1) (umods L (fst mt)) (f64_of_Z 0) = Ok eu
     /\ zlen eu = nu /\ Forall (fun e => e = 0) eu).
  { assert (Lm : length (umods L (fst mt)) = length (unb_weights L os)) by (clear - Sc; induction Sc; cbn; congruence).
    destruct (Z.eq_dec nu 0) as [Z0|Z0].
    - rewrite (Wz Z0) in *. assert (umods L (fst mt) = []) as -> by (destruct (umods L (fst mt)); [reflexivity|discriminate]).
      exists []. split; [reflexivity|]. split; [rewrite Z0; reflexivity|constructor].
    - rewrite G3. destruct (0 <? nu) eqn:Q; [|lia].
      assert (Lz' : zlen (umods L (fst mt)) <= 65536) by (unfold zlen in *; lia).
      destruct (class_run 0 c _ _ ltac:(lia) Cr Wn (Ws ltac:(lia)) Sc Lz') as (eu & U1 & U2 & U3).
      exists eu. split; [exact U1|]. split; [rewrite <- Zu; unfold zlen; f_equal; exact (proj1 U2)|].
      apply Forall_forall. intros e He. destruct (In_nth_error _ _ He) as [k Hk].
      exact (fair_zero _ _ _ _ U2 ltac:(pose proof (Ws ltac:(lia)); lia) Hk). }
  destruct KU as (eu & U1 & U2 & U3).
  assert (Bd : forall s, In s L -> 0 <= fst s < 2 ^ 31).
  { intros s Hs. assert (0 <= fst s) by (rewrite Forall_forall in HL; exact (proj1 (HL s Hs))). split; [assumption|].
    assert (fst s <= sum (map fst L)); [|lia].
    clear - HL Hs. induction HL as [|a L Ha H IH]; [destruct Hs|]. cbn [map]. rewrite sum_cons. pose proof (mins_nonneg L H).
    destruct Hs as [->|Hs]; [lia|]. specialize (IH Hs). destruct Ha. lia. }
  exists (map Z.opp ev), eu.
  assert (SI : Forall in_int (sizes L (map Z.opp ev) eu)).
  { apply sizes_bound; auto; unfold in_int.
    - intros s Hs _. specialize (Bd s Hs). lia.
    - intros s e Hs Vs He. specialize (Bd s Hs). apply in_map_iff in He. destruct He as (e' & <- & He).
      rewrite Forall_forall in B1. specialize (B1 e' He). cbv beta in B1.
      assert (fst s < 2 ^ 31 - 1); [|lia].
      assert (2 * count var L + sum (map fst L) <= min_total L) by (unfold min_total; fold nu; destruct (1 <? nu), (both L); lia).
      assert (fst s <= sum (map fst L)); [|lia].
      clear - HL Hs. induction HL as [|a L Ha H IH]; [destruct Hs|]. cbn [map]. rewrite sum_cons. pose proof (mins_nonneg L H).
      destruct Hs as [->|Hs]; [lia|]. specialize (IH Hs). destruct Ha. lia.
    - intros s e Hs Vs He. specialize (Bd s Hs). rewrite Forall_forall in U3. specialize (U3 e He). cbv beta in U3. lia. }
  split.
  { apply set_chunks_eq; auto. rewrite G2. exact KV. }
  split; [rewrite zlen_map, <- Zv; unfold zlen; f_equal; exact (proj1 E2)|]. split; [exact U2|].
  split; [apply fair_opp; exact E2|]. split; [exact U3|exact SI].
Qed.

Lemma sizes_negative L : Forall stamp_ok L -> forall ev eu, Forall (fun e => e = 0) eu -> Exists (fun k => k < 0) (sizes L ev eu) ->
  Exists (fun se => fst (fst se) + snd se < 0) (combine (filter var L) ev).
Proof.
  induction L as [|s L IH]; intros HL ev eu Hu H; [inversion H|]. pose proof (Forall_inv HL) as Hs. apply Forall_inv_tail in HL.
  cbn [sizes filter] in *. destruct (var s).
  - destruct ev as [|e ev]; [inversion H|]. cbn [combine]. apply Exists_cons in H. destruct H as [H|H].
    + left. cbn [fst snd]. lia.
    + right. exact (IH HL ev eu Hu H).
  - destruct (unb s).
    + destruct eu as [|e eu]; [inversion H|]. pose proof (Forall_inv Hu) as E0. apply Forall_inv_tail in Hu. cbv beta in E0.
      apply Exists_cons in H. destruct H as [H|H]; [destruct Hs; lia|exact (IH HL ev eu Hu H)].
    + apply Exists_cons in H. destruct H as [H|H]; [destruct Hs; lia|exact (IH HL ev eu Hu H)].
Qed.

Lemma var_extras_ge L : forall cs : list bytes, length cs = length L -> - sum (map fst (filter var L)) <= sum (of_kind var L (extras L cs)).
Proof.
  induction L as [|s L IH]; intros [|c cs] E; try discriminate. injection E as E. specialize (IH cs E).
  cbn [extras combine map filter]. rewrite of_kind_cons. fold (extras L cs). cbn [fst snd]. pose proof (zlen_nonneg c).
  destruct (var s); [|exact IH]. cbn [map]. rewrite !sum_cons. lia.
Qed.

(** ** All oracles of variated stamps 0: division by zero *)
Lemma set_chunks_nan kv ku L : Forall stamp_ok L -> max_extra L < 2 ^ 31 -> forall ms vrem urem (l : bytes),
  Forall (fun x => f64_mul x kv = f64_mul x B754_nan) (vmods L ms) -> set_chunks L ms kv ku vrem urem l = set_chunks L ms B754_nan ku vrem urem l.
Proof.
  induction L as [|s L IH]; intros HL HX [|m ms] vrem urem l H; try reflexivity.
  pose proof (Forall_inv HL) as Hs. apply Forall_inv_tail in HL. rewrite vmods_cons in H.
  rewrite max_extra_cons in HX. pose proof (max_extra_nonneg L) as X0.
  assert (HX' : max_extra L < 2 ^ 31) by (unfold var in HX; destruct (fst s <? snd s) eqn:V; lia).
  assert (H' : Forall (fun x => f64_mul x kv = f64_mul x B754_nan) (vmods L ms)) by (destruct (var s); [exact (Forall_inv_tail H)|exact H]).
  destruct s as [mn mx]. cbn [set_chunks]. rewrite <- (is_var (mn, mx) Hs) in *. cbn [fst snd] in *.
  assert (Ex : forall (f g : res (Z * f64 * f64)), f = g ->
    bind (lift f) (fun s1 => bind (Chop (u64 (fst (fst s1)))) (fun b2 => bind (set_chunks L ms kv ku (snd (fst s1)) (snd s1)) (fun rest => ret (b2 :: rest)))) l
    = bind (lift g) (fun s1 => bind (Chop (u64 (fst (fst s1)))) (fun b2 => bind (set_chunks L ms B754_nan ku (snd (fst s1)) (snd s1)) (fun rest => ret (b2 :: rest)))) l).
  { intros f g <-. unfold bind at 1 4, lift. destruct f as [s1| | | |]; try reflexivity.
    unfold bind at 1 3. destruct (Chop (u64 (fst (fst s1))) l) as [[c| | | |] l']; try reflexivity.
    unfold bind. rewrite (IH HL HX' ms (snd (fst s1)) (snd s1) l' H'). reflexivity. }
  apply Ex. destruct (isVariated mn mx) eqn:V; [|reflexivity].
  pose proof (Forall_inv H) as H0. cbv beta in H0. unfold int_op. destruct (in_i32 (mx - mn)); [|reflexivity]. cbn [rbind]. rewrite H0. reflexivity.
Qed.

Lemma set_zero_neg L o0 os (r : bytes) G : set_ok L -> zlen L <= 65536 -> oracle16 o0 -> Forall oracle16 os -> length os = length L ->
  0 < count var L -> sum (var_weights L os) = 0 -> sum (map fst L) <= zlen r ->
  let l := division_oracle L o0 ++ size_oracles (count unb L) L os ++ r in
  min_total L <= zlen l < 2 ^ 64 -> 0 < G <= 2 ^ 31 -> i32 (zlen l - min_total L) = - G -> fst (set_extract L l) = UB.
Proof.
  intros HS HN Ho0 Ho E HV HW Hr l Hl HG EG.
  rewrite (set_prefix_neg L o0 os r G HS Ho0 Ho E HN HV Hl HG EG : set_extract L l = _).
  pose proof HS as (HL & Hm & HX). pose proof (min_total_ge L HL) as MT.
  destruct (unb_mods L os HL Ho E HN) as (G1 & G2 & G3 & c & Cr & Sc & Wn & Ws & Wz).
  destruct (vmods_scaled (count unb L) L HL HX os Ho E) as (V1 & V2 & V3).
  set (nu := count unb L) in *. set (ms := mods nu L os) in *.
  set (pred := fold_left f64_add (vmods L ms) (f64_of_Z 0)) in *.
  set (t0 := fold_left f64_add (umods L ms) (f64_of_Z 0)) in *.
  set (mt := if f64_eq t0 (f64_of_Z 0) then reset_modifiers L ms (f64_of_Z 0) else (ms, t0)) in *.
  assert (Zm : Forall (fun x : f64 => fin x 0%R) (vmods L ms)) by exact (zero_scaled _ _ _ V1 (sum_zero _ V2 HW)).
  assert (P0 : fin pred 0%R) by (apply fold_zero; [exact Zm|exact zero_fin]).
  assert (Inf : exists s, f64_div (f64_of_Z (- G)) pred = B754_infinity s).
  { destruct (fin_zero pred P0) as [s ->]. assert (FG : fin (f64_of_Z (- G)) (IZR (- G))) by (apply of_Z_exact; unfold prec64; lia).
    assert (N : IZR (- G) <> 0%R) by (intros X; apply eq_IZR in X; lia).
    destruct FG as [FG RG]. destruct (f64_of_Z (- G)) as [s'|s'| |s' m e He]; try discriminate FG.
    - exfalso. apply N. rewrite <- RG. reflexivity.
    - eexists. reflexivity. }
  destruct Inf as [s ->]. rewrite set_chunks_nan; [|exact HL|exact HX|].
  2:{ rewrite G2. eapply Forall_impl; [|exact Zm]. intros x Fx. destruct (fin_zero x Fx) as [sx ->]. reflexivity. }
  pose proof (count_le unb L) as Cu. pose proof (count_nonneg unb L) as U0. fold nu in Cu, U0.
  assert (Zu : zlen (unb_weights L os) = nu).
  { unfold unb_weights, weights. destruct (_ =? 0); rewrite ?zlen_map; apply of_kind_len; exact E. }
  assert (KU : exists eu, shares (if 0 <? nu then f64_div (f64_of_Z 0) (snd mt) else f64_of_Z 1) (umods L (fst mt)) (f64_of_Z 0) = Ok eu
     /\ zlen eu = nu /\ Forall (fun e => e = 0) eu).
  { assert (Lm : length (umods L (fst mt)) = length (unb_weights L os)) by (clear - Sc; induction Sc; cbn; congruence).
    destruct (Z.eq_dec nu 0) as [Z0|Z0].
    - rewrite (Wz Z0) in *. assert (umods L (fst mt) = []) as -> by (destruct (umods L (fst mt)); [reflexivity|discriminate]).
      exists []. split; [reflexivity|]. split; [rewrite Z0; reflexivity|constructor].
    - rewrite G3. destruct (0 <? nu) eqn:Q; [|lia].
      assert (Lz' : zlen (umods L (fst mt)) <= 65536) by (unfold zlen in *; lia).
      destruct (class_run 0 c _ _ ltac:(lia) Cr Wn (Ws ltac:(lia)) Sc Lz') as (eu & U1 & U2 & U3).
      exists eu. split; [exact U1|]. split; [rewrite <- Zu; unfold zlen; f_equal; exact (proj1 U2)|].
      apply Forall_forall. intros e He. destruct (In_nth_error _ _ He) as [k Hk].
      exact (fair_zero _ _ _ _ U2 ltac:(pose proof (Ws ltac:(lia)); lia) Hk). }
  destruct KU as (eu & U1 & U2 & U3).
  assert (S0 : sum eu = 0) by (clear - U3; induction U3 as [|e es He H IH]; [reflexivity|]; rewrite sum_cons, IH; lia).
  destruct (list_split r (sum (map fst L)) ltac:(lia)) as (p & q & -> & Lp).
  apply (proj2 (sd_chunks L (fst mt) _ _ _ _)).
  apply (nan_ub L HV HL HX _ _ _ _ eu); auto; try lia.
  intros z e Is _ Ie. rewrite Forall_forall in U3. rewrite (U3 e Ie).
  assert (0 <= fst z) by (rewrite Forall_forall in HL; exact (proj1 (HL z Is))).
  assert (fst z <= sum (map fst L)); [|lia].
  clear - HL Is. induction HL as [|a L Ha H IH]; [destruct Is|]. cbn [map]. rewrite sum_cons. pose proof (mins_nonneg L H).
  destruct Is as [->|Is]; [lia|]. specialize (IH Is). destruct Ha. lia.
Qed.
