(** GalleySet whose totals do not fit an [int] (C78). *)
From Coq Require Import ZArith Lia.
From Verif Require Import Base BaseFacts Blob RunSpec RunFacts Sim Oracle Arithm Galley VectorSpec SetSpec SetFacts.
Local Open Scope Z_scope.

Lemma int_op_cases z : (- 2 ^ 31 <= z < 2 ^ 31 /\ int_op z = Ok z) \/ int_op z = UB.
Proof. unfold int_op, in_i32. destruct (_ && _) eqn:Q; [left; split; [lia|reflexivity]|right; reflexivity]. Qed.

(** The sums end normally within the range of [int], and otherwise overflow. *)
Lemma set_totals_or L : forall t, Forall stamp_ok L -> 0 <= t_fixed t -> 0 <= t_maxvar t ->
  2 ^ 31 <= t_fixed t + sum (map fst L) \/ 2 ^ 31 <= t_maxvar t + max_extra L -> t_fixed t < 2 ^ 31 -> t_maxvar t < 2 ^ 31 ->
  set_totals L t = UB.
Proof.
  induction L as [|[mn mx] L IH]; intros t HL H0 H1 H2 H3 H4.
  - cbn [map] in H2. change (sum []) with 0 in H2. change (max_extra []) with 0 in H2. lia.
  - pose proof (Forall_inv HL) as Hs. apply Forall_inv_tail in HL. cbn [map] in H2. rewrite sum_cons, max_extra_cons in H2.
    cbn [set_totals]. pose proof (is_var (mn, mx) Hs) as Ev. cbn [fst snd] in *. rewrite Ev.
    destruct Hs as [Hs0 Hs1]. cbn [fst snd] in *.
    destruct (int_op_cases (t_fixed t + mn)) as [[Q1 ->] | ->]; [|reflexivity]. cbn [rbind].
    destruct (var (mn, mx)) eqn:V.
    + assert (mn < mx) by (apply Z.ltb_lt; exact V).
      destruct (int_op_cases (mx - mn)) as [[Q2 ->] | ->]; [|reflexivity]. cbn [rbind].
      destruct (int_op_cases (t_maxvar t + (mx - mn))) as [[Q3 ->] | ->]; [|reflexivity]. cbn [rbind].
      apply IH; cbn [t_fixed t_maxvar]; lia || assumption.
    + cbn [rbind]. apply IH; cbn [t_fixed t_maxvar]; lia || assumption.
Qed.

Lemma set_min_totals_or L : forall t, Forall stamp_ok L -> 0 <= t_fixed t < 2 ^ 31 -> 2 ^ 31 <= t_fixed t + sum (map fst L) ->
  set_min_totals L t = UB.
Proof.
  induction L as [|[mn mx] L IH]; intros t HL H0 H2.
  - cbn [map] in H2. change (sum []) with 0 in H2. lia.
  - pose proof (Forall_inv HL) as Hs. apply Forall_inv_tail in HL. cbn [map] in H2. rewrite sum_cons in H2.
    cbn [set_min_totals]. destruct Hs as [Hs0 Hs1]. cbn [fst snd] in *.
    destruct (int_op_cases (t_fixed t + mn)) as [[Q1 ->] | ->]; [|reflexivity]. cbn [rbind].
    apply IH; cbn [t_fixed]; lia || assumption.
Qed.

Lemma i32_negative z : 2 ^ 31 <= z < 2 ^ 32 -> i32 z = z - 2 ^ 32.
Proof.
  intros H. unfold i32. replace (z + 2 ^ 31) with (z - 2 ^ 31 + 1 * 2 ^ 32) by lia. rewrite Z_mod_plus_full, Z.mod_small by lia. lia.
Qed.

Lemma set_fixed_total_i32 L x : set_fixed_total (mkTotals (sum (map fst L)) x (count unb L) (count var L)) = i32 (min_total L).
Proof.
  unfold set_fixed_total, min_total, both, ORACLE_SIZE. cbn [t_fixed t_unb t_var].
  cbv zeta. destruct (1 <? count unb L), ((0 <? count var L) && (0 <? count unb L)); repeat (rewrite i32_add_l || rewrite <- Z.add_assoc); match goal with |- i32 ?a = i32 ?c => replace a with c by lia; reflexivity end.
Qed.

Lemma SetMinSize_i32 L : Forall stamp_ok L -> sum (map fst L) < 2 ^ 31 -> SetMinSize L = Ok (i32 (min_total L)).
Proof.
  intros H Hm. pose proof (mins_nonneg L H). unfold SetMinSize.
  rewrite set_min_totals_run; [|exact H|cbn; lia|cbn [t_fixed]; lia].
  cbn [rbind t_fixed t_maxvar t_unb t_var]. rewrite !Z.add_0_l. unfold min_total, both, ORACLE_SIZE.
  cbv zeta. destruct (1 <? count unb L), ((0 <? count var L) && (0 <? count unb L)); repeat (rewrite i32_add_l || rewrite <- Z.add_assoc); match goal with |- Ok (i32 ?a) = Ok (i32 ?c) => replace a with c by lia; reflexivity end.
Qed.

Lemma set_overflow L (l : bytes) : Forall stamp_ok L -> 2 ^ 31 <= sum (map fst L) \/ 2 ^ 31 <= max_extra L -> fst (set_extract L l) = UB.
Proof.
  intros HL H. unfold set_extract, bind at 1, lift. rewrite set_totals_or; [reflexivity|exact HL|cbn; lia..].
Qed.

Lemma set_minimum L (l : bytes) : Forall stamp_ok L -> sum (map fst L) < 2 ^ 31 -> max_extra L < 2 ^ 31 -> 2 ^ 31 <= min_total L < 2 ^ 32 ->
  zlen l < 2 ^ 63 -> set_extract L l = (OutOfData, l).
Proof.
  intros HL H1 H2 H3 Hl. unfold set_extract. pose proof (max_extra_nonneg L) as X0.
  rewrite (bind_lift_ok _ _ _ _ (set_totals_run L (mkTotals 0 0 0 0) HL ltac:(cbn; lia) ltac:(cbn; lia) ltac:(cbn [t_fixed]; lia) ltac:(cbn [t_maxvar]; lia))).
  rewrite bind_gets. cbn [Size ListOps]. cbn [t_fixed t_maxvar t_unb t_var]. rewrite !Z.add_0_l. rewrite set_fixed_total_i32, i32_negative by exact H3.
  assert (Q : zlen l < u64 (min_total L - 2 ^ 32)).
  { unfold u64. replace (min_total L - 2 ^ 32) with (min_total L - 2 ^ 32 + 2 ^ 64 + (-1) * 2 ^ 64) by lia.
    rewrite Z_mod_plus_full, Z.mod_small by lia. lia. }
  destruct (zlen l <? u64 (min_total L - 2 ^ 32)) eqn:Q'; [reflexivity|lia].
Qed.

Lemma set_max_or L : Forall stamp_ok L -> count unb L = 0 -> forall r, set_max_loop L (i32 r) = UB \/ set_max_loop L (i32 r) = Ok (i32 (r + sum (map snd L) + 2 * count var L)).
Proof.
  induction 1 as [|[mn mx] L Hs HL IH]; intros HU r.
  - right. cbn [set_max_loop map sum fold_right]. change (count var []) with 0. repeat f_equal. lia.
  - rewrite count_cons in HU. cbn [set_max_loop map snd]. rewrite count_cons, sum_cons. pose proof (count_nonneg unb L).
    rewrite <- (is_var (mn, mx) Hs) in *. rewrite <- (is_unb (mn, mx)) in *. cbn [fst snd] in *.
    destruct (isUnbounded mn mx); [lia|]. destruct (int_op_cases (i32 r + mx)) as [[Q ->] | ->]; [|left; reflexivity]. cbn [rbind].
    assert (E : i32 r + mx = i32 (r + mx)) by (rewrite <- i32_add_l; symmetry; apply i32_id; exact Q). rewrite E. cbv zeta.
    destruct (isVariated mn mx).
    + rewrite i32_add_l. destruct (IH ltac:(lia) (r + mx + ORACLE_SIZE)) as [X|X]; [left; exact X|right]. rewrite X. unfold ORACLE_SIZE. match goal with |- Ok (i32 ?a) = Ok (i32 ?c) => replace a with c by lia; reflexivity end.
    + destruct (IH ltac:(lia) (r + mx)) as [X|X]; [left; exact X|right]. rewrite X. match goal with |- Ok (i32 ?a) = Ok (i32 ?c) => replace a with c by lia; reflexivity end.
Qed.
