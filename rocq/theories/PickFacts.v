(** Facts about the index computation of dictionaries and lotteries. *)
From Coq Require Import ZArith Reals Lia Lra Psatz.
From Flocq Require Import Core.Core IEEE754.BinarySingleNaN.
From Verif Require Import Base BaseFacts FloatModel FloatFacts Arithm StampDict.
Local Open Scope R_scope.

(** The real number that is truncated. *)
Definition pick_real (o mx n : Z) : R :=
  rnd64 (rnd64 (rnd64 (IZR o) / rnd64 (IZR mx)) * IZR n).

Lemma fmt64_int z : (Z.abs z <= 2 ^ 53)%Z -> fmt64 (IZR z).
Proof. apply (fmt_int prec64 emax64 prec64_gt_0 prec64_lt_emax). Qed.

Lemma rnd64_int z : (Z.abs z <= 2 ^ 53)%Z -> rnd64 (IZR z) = IZR z.
Proof. intros H. apply rnd_id. now apply fmt64_int. Qed.

Lemma rnd64_le x y : x <= y -> rnd64 x <= rnd64 y.
Proof. apply rnd_le. exact prec64_gt_0. Qed.

Lemma rnd64_ge_fmt x y : fmt64 x -> x <= y -> x <= rnd64 y.
Proof. apply rnd_ge. exact prec64_gt_0. Qed.

Lemma rnd64_le_fmt x y : fmt64 y -> x <= y -> rnd64 x <= y.
Proof. apply rnd_le_gen. exact prec64_gt_0. Qed.

Lemma fmt64_1 : fmt64 1.
Proof. apply (fmt64_int 1). vm_compute. discriminate. Qed.

Lemma fmt64_0 : fmt64 0.
Proof. apply (fmt64_int 0). vm_compute. discriminate. Qed.

Lemma ratio_range o mx : (0 <= o <= mx)%Z -> (1 <= mx)%Z ->
  0 <= rnd64 (IZR o) / rnd64 (IZR mx) <= 1 /\ 1 <= rnd64 (IZR mx)
  /\ 0 <= rnd64 (IZR o) <= rnd64 (IZR mx).
Proof.
  intros Ho Hm.
  assert (M : 1 <= rnd64 (IZR mx)) by (apply rnd64_ge_fmt; [exact fmt64_1|apply IZR_le; lia]).
  assert (O : 0 <= rnd64 (IZR o)) by (apply rnd64_ge_fmt; [exact fmt64_0|apply IZR_le; lia]).
  assert (L : rnd64 (IZR o) <= rnd64 (IZR mx)) by (apply rnd64_le; apply IZR_le; lia).
  split; [|split; [exact M|split; assumption]]. split.
  - apply Rmult_le_pos; [exact O|]. left. apply Rinv_0_lt_compat. lra.
  - apply Rmult_le_reg_r with (rnd64 (IZR mx)); [lra|]. unfold Rdiv.
    rewrite Rmult_assoc, Rinv_l by lra. lra.
Qed.

Lemma pick_real_range o mx n : (0 <= o <= mx)%Z -> (1 <= mx)%Z -> (0 <= n <= 2 ^ 53)%Z ->
  0 <= pick_real o mx n <= IZR n.
Proof.
  intros Ho Hm Hn. unfold pick_real. destruct (ratio_range o mx Ho Hm) as ((R0 & R1) & _).
  assert (N0 : 0 <= IZR n) by (apply IZR_le; lia).
  assert (Q0 : 0 <= rnd64 (rnd64 (IZR o) / rnd64 (IZR mx))) by (apply rnd64_ge_fmt; [exact fmt64_0|exact R0]).
  assert (Q1 : rnd64 (rnd64 (IZR o) / rnd64 (IZR mx)) <= 1) by (apply rnd64_le_fmt; [exact fmt64_1|exact R1]).
  split.
  - apply rnd64_ge_fmt; [exact fmt64_0|]. apply Rmult_le_pos; assumption.
  - apply rnd64_le_fmt; [apply fmt64_int; lia|]. nra.
Qed.

Definition step_inside (i n : Z) : Z := if (i =? n)%Z then (n - 1)%Z else i.

Lemma pick_eq o mx n : (0 <= o <= mx)%Z -> (1 <= mx < 2 ^ 64)%Z -> (0 <= n <= 2 ^ 53)%Z ->
  pick_index o mx n = Ok (step_inside (Zfloor (pick_real o mx n)) n).
Proof.
  intros Ho Hm Hn. unfold pick_index.
  destruct (ratio_range o mx Ho ltac:(lia)) as ((R0 & R1) & M1 & O1 & O2).
  assert (V := pick_real_range o mx n Ho ltac:(lia) ltac:(lia)).
  assert (K : (0 <= 64 < emax64)%Z) by (vm_compute; split; [discriminate|reflexivity]).
  assert (K1 : (0 <= 1 < emax64)%Z) by (vm_compute; split; [discriminate|reflexivity]).
  assert (A1 : fin (f64_of_Z o) (rnd64 (IZR o))) by (apply (of_Z_fin _ _ _ _ o 64 K); lia).
  assert (A2 : fin (f64_of_Z mx) (rnd64 (IZR mx))) by (apply (of_Z_fin _ _ _ _ mx 64 K); lia).
  assert (A3 : fin (f64_of_Z n) (IZR n)).
  { apply (of_Z_exact prec64 emax64). change (2 ^ prec64)%Z with (2 ^ 53)%Z. lia. }
  assert (A4 : fin (f64_div (f64_of_Z o) (f64_of_Z mx)) (rnd64 (rnd64 (IZR o) / rnd64 (IZR mx)))).
  { apply (div_fin _ _ _ _ _ _ _ _ 1%Z A1 A2); [intros X; lra|exact K1|].
    rewrite Rabs_pos_eq by exact R0. change (bpow radix2 1) with 2. lra. }
  assert (A5 : fin (f64_mul (f64_div (f64_of_Z o) (f64_of_Z mx)) (f64_of_Z n)) (pick_real o mx n)).
  { apply (mult_fin _ _ _ _ _ _ _ _ 64%Z A4 A3); [exact K|].
    assert (Q0 : 0 <= rnd64 (rnd64 (IZR o) / rnd64 (IZR mx))) by (apply rnd64_ge_fmt; [exact fmt64_0|exact R0]).
    assert (Q1 : rnd64 (rnd64 (IZR o) / rnd64 (IZR mx)) <= 1) by (apply rnd64_le_fmt; [exact fmt64_1|exact R1]).
    assert (N0 : 0 <= IZR n <= IZR (2 ^ 64)) by (split; apply IZR_le; lia).
    rewrite Rabs_pos_eq by (apply Rmult_le_pos; tauto).
    rewrite bpow_IZR by lia. nra. }
  rewrite (trunc_fin _ _ _ _ A5) by tauto.
  assert (F : (0 <= Zfloor (pick_real o mx n) <= n)%Z).
  { split; [apply Zfloor_lub; tauto|]. apply le_IZR. apply Rle_trans with (1 := Zfloor_lb _). tauto. }
  cbn [to_llong].
  replace ((- 2 ^ 63 <=? Zfloor (pick_real o mx n))%Z && (Zfloor (pick_real o mx n) <? 2 ^ 63)%Z) with true
    by (symmetry; apply andb_true_intro; split; [apply Z.leb_le|apply Z.ltb_lt]; lia).
  cbn [rbind]. unfold step_inside. rewrite u64_id by lia.
  destruct (Z.eqb_spec (Zfloor (pick_real o mx n)) n) as [E|E]; [rewrite E|]; reflexivity.
Qed.

Lemma pick_range o mx n : (0 <= o <= mx)%Z -> (1 <= mx < 2 ^ 64)%Z -> (1 <= n <= 2 ^ 53)%Z ->
  exists i, pick_index o mx n = Ok i /\ (0 <= i < n)%Z.
Proof.
  intros Ho Hm Hn. rewrite pick_eq by lia. eexists. split; [reflexivity|].
  assert (V := pick_real_range o mx n Ho ltac:(lia) ltac:(lia)).
  assert (F : (0 <= Zfloor (pick_real o mx n) <= n)%Z).
  { split; [apply Zfloor_lub; tauto|]. apply le_IZR. apply Rle_trans with (1 := Zfloor_lb _). tauto. }
  unfold step_inside. destruct (Z.eqb_spec (Zfloor (pick_real o mx n)) n); lia.
Qed.

(** No member at all: the index is -1. *)
Lemma pick_none o mx : (0 <= o <= mx)%Z -> (1 <= mx < 2 ^ 64)%Z -> pick_index o mx 0 = Ok (-1)%Z.
Proof.
  intros Ho Hm. rewrite pick_eq by lia.
  assert (V := pick_real_range o mx 0 Ho ltac:(lia) ltac:(lia)).
  rewrite (Zfloor_imp 0) by (rewrite plus_IZR; lra). reflexivity.
Qed.

(** ** Reachability *)
Lemma pick_hit o mx n i : (0 <= o <= mx)%Z -> (1 <= mx < 2 ^ 64)%Z -> (1 <= n <= 2 ^ 53)%Z -> (i < n)%Z ->
  IZR i <= pick_real o mx n < IZR (i + 1) -> pick_index o mx n = Ok i.
Proof.
  intros Ho Hm Hn Hi H. rewrite pick_eq by lia.
  rewrite (Zfloor_imp i) by exact H. unfold step_inside.
  destruct (Z.eqb_spec i n); [lia|reflexivity].
Qed.

(** Rounding errors of both operations together, for small numbers. *)
Lemma pick_real_err o mx n : (0 <= o <= mx)%Z -> (1 <= mx <= 65536)%Z -> (1 <= n <= 65536)%Z ->
  Rabs (pick_real o mx n - IZR (o * n) / IZR mx) <= / 1000000.
Proof.
  intros Ho Hm Hn. unfold pick_real. rewrite !(rnd64_int) by lia.
  assert (M0 : 1 <= IZR mx) by (apply IZR_le; lia).
  assert (O0 : 0 <= IZR o <= IZR mx) by (split; apply IZR_le; lia).
  assert (N0 : 1 <= IZR n <= 65536) by (split; apply IZR_le; lia).
  set (q := IZR o / IZR mx).
  assert (Q : 0 <= q <= 1).
  { unfold q. split; [apply Rmult_le_pos; [tauto|left; apply Rinv_0_lt_compat; lra]|].
    apply Rmult_le_reg_r with (IZR mx); [lra|]. unfold Rdiv. rewrite Rmult_assoc, Rinv_l by lra. lra. }
  assert (E1 : Rabs (rnd64 q - q) <= bpow radix2 (1 - prec64) / 2).
  { apply (rnd_err prec64 emax64 prec64_gt_0); [vm_compute; discriminate|]. rewrite Rabs_pos_eq by tauto.
    change (bpow radix2 1) with 2. lra. }
  assert (B1 : bpow radix2 (1 - prec64) / 2 = / 9007199254740992).
  { change (1 - prec64)%Z with (-52)%Z. change (bpow radix2 (-52)) with (/ 4503599627370496). lra. }
  rewrite B1 in E1. clear B1.
  assert (Q' : 0 <= rnd64 q <= 1).
  { split; [apply rnd64_ge_fmt; [exact fmt64_0|tauto]|apply rnd64_le_fmt; [exact fmt64_1|tauto]]. }
  assert (E2 : Rabs (rnd64 (rnd64 q * IZR n) - rnd64 q * IZR n) <= bpow radix2 (17 - prec64) / 2).
  { apply (rnd_err prec64 emax64 prec64_gt_0); [vm_compute; discriminate|]. rewrite Rabs_pos_eq by nra.
    change (bpow radix2 17) with 131072. nra. }
  assert (B2 : bpow radix2 (17 - prec64) / 2 = / 137438953472).
  { change (17 - prec64)%Z with (-36)%Z. change (bpow radix2 (-36)) with (/ 68719476736). lra. }
  rewrite B2 in E2. clear B2.
  assert (E : IZR (o * n) / IZR mx = q * IZR n) by (unfold q; rewrite mult_IZR; field; lra).
  rewrite E. apply Rabs_le_inv in E1. apply Rabs_le_inv in E2. apply Rabs_le. nra.
Qed.

(** Fewer members than oracle values. *)
Lemma pick_reach_lt mx n i : (1 <= mx <= 65536)%Z -> (1 <= n < mx)%Z -> (0 <= i < n)%Z ->
  exists o, (0 <= o <= mx)%Z /\ pick_index o mx n = Ok i.
Proof.
  intros Hm Hn Hi. set (o := (i * mx / n + 1)%Z).
  assert (D := Z.div_mod (i * mx) n). assert (M := Z.mod_pos_bound (i * mx) n).
  assert (P : (0 <= i * mx / n)%Z) by (apply Z.div_pos; lia).
  assert (H : (i * mx + 1 <= o * n <= i * mx + n)%Z) by (unfold o; nia).
  assert (Ho : (0 <= o <= mx)%Z) by (split; [unfold o; lia|nia]).
  exists o. split; [exact Ho|]. apply pick_hit; try lia.
  assert (E := pick_real_err o mx n Ho ltac:(lia) ltac:(lia)). apply Rabs_le_inv in E.
  assert (M0 : 2 <= IZR mx <= 65536) by (split; apply IZR_le; lia).
  assert (I : / 65536 <= / IZR mx) by (apply Rinv_le; lra).
  assert (L : IZR i + / IZR mx <= IZR (o * n) / IZR mx <= IZR (i + 1) - / IZR mx).
  { split.
    - apply Rmult_le_reg_r with (IZR mx); [lra|]. unfold Rdiv. rewrite Rmult_plus_distr_r.
      rewrite Rmult_assoc, !Rinv_l by lra. rewrite Rmult_1_r, <- mult_IZR, <- (plus_IZR _ 1). apply IZR_le. lia.
    - apply Rmult_le_reg_r with (IZR mx); [lra|]. unfold Rdiv. rewrite Rmult_minus_distr_r.
      rewrite Rmult_assoc, !Rinv_l by lra. rewrite Rmult_1_r, <- mult_IZR, <- (minus_IZR _ 1). apply IZR_le. nia. }
  lra.
Qed.

(** As many members as oracle values but one: n = mx = 2^k - 1. *)
Definition pow_hit (k : Z) (i : Z) : bool :=
  match pick_index (2 ^ i) (2 ^ k - 1) (2 ^ k - 1) with Ok r => (r =? 2 ^ i)%Z | _ => false end.

Lemma pick_pred_pow k o a : (2 <= k <= 16)%Z -> (0 <= a)%Z -> (2 ^ a < o < 2 ^ (a + 1))%Z -> (o < 2 ^ k - 1)%Z ->
  IZR o <= pick_real o (2 ^ k - 1) (2 ^ k - 1) < IZR (o + 1).
Proof.
  intros Hk Ha Ho Hlt.
  assert (P : (4 <= 2 ^ k <= 65536)%Z).
  { change 4%Z with (2 ^ 2)%Z. change 65536%Z with (2 ^ 16)%Z. split; apply Z.pow_le_mono_r; lia. }
  assert (Hak : (a < k)%Z) by (apply (Z.pow_lt_mono_r_iff 2); lia).
  assert (A1 : (2 ^ (a + 1) <= 2 ^ k)%Z) by (apply Z.pow_le_mono_r; lia).
  unfold pick_real. set (mx := (2 ^ k - 1)%Z) in *. rewrite !rnd64_int by lia.
  assert (M0 : 0 < IZR mx) by (apply IZR_lt; lia).
  set (q := IZR o / IZR mx).
  assert (Qp : 0 < q) by (apply Rdiv_lt_0_compat; [apply IZR_lt; lia|exact M0]).
  assert (Qb : q < bpow radix2 (a + 1 - k)).
  { unfold q. apply Rmult_lt_reg_r with (IZR mx); [exact M0|]. unfold Rdiv.
    rewrite Rmult_assoc, Rinv_l, Rmult_1_r by lra.
    apply Rmult_lt_reg_r with (bpow radix2 k); [apply bpow_gt_0|].
    replace (bpow radix2 (a + 1 - k) * IZR mx * bpow radix2 k) with (bpow radix2 (a + 1) * IZR mx).
    - rewrite !bpow_IZR, <- !mult_IZR by lia. apply IZR_lt. unfold mx in *. nia.
    - replace (a + 1)%Z with (a + 1 - k + k)%Z at 1 by lia. rewrite bpow_plus. ring. }
  assert (E : Rabs (rnd64 q - q) <= bpow radix2 (a + 1 - k - prec64) / 2).
  { apply (rnd_err prec64 emax64 prec64_gt_0); [change (3 - emax64)%Z with (-1021)%Z; lia|]. rewrite Rabs_pos_eq by lra. exact Qb. }
  replace (bpow radix2 (a + 1 - k - prec64) / 2) with (bpow radix2 (a - 53) * / bpow radix2 k) in E.
  2:{ change prec64 with 53%Z. replace (a + 1 - k - 53)%Z with ((a - 53) + (1 + - k))%Z by lia.
      rewrite !bpow_plus, bpow_opp. change (bpow radix2 1) with 2. field. apply Rgt_not_eq, bpow_gt_0. }
  assert (K0 : IZR mx = bpow radix2 k - 1) by (unfold mx; rewrite bpow_IZR, minus_IZR by lia; reflexivity).
  assert (K1 := bpow_gt_0 radix2 k).
  assert (U0 := bpow_gt_0 radix2 (a - 53)).
  assert (X : q * IZR mx = IZR o) by (unfold q; field; lra).
  assert (Err : Rabs (rnd64 q * IZR mx - IZR o) < bpow radix2 (a - 53)).
  { rewrite <- X, <- Rmult_minus_distr_r, Rabs_mult, (Rabs_pos_eq (IZR mx)) by lra.
    apply Rle_lt_trans with (bpow radix2 (a - 53) * / bpow radix2 k * IZR mx).
    - apply Rmult_le_compat_r; lra.
    - rewrite Rmult_assoc. rewrite <- (Rmult_1_r (bpow radix2 (a - 53))) at 2.
      apply Rmult_lt_compat_l; [lra|]. apply Rmult_lt_reg_l with (bpow radix2 k); [lra|].
      rewrite <- Rmult_assoc, Rinv_r by lra. lra. }
  apply Rabs_lt_inv in Err.
  assert (U1 : bpow radix2 (a - 53) <= / 2).
  { change (/ 2) with (bpow radix2 (-1)). apply bpow_le. lia. }
  split.
  - apply (rnd_ge_int prec64 emax64 prec64_gt_0 prec64_lt_emax _ o (a + 1)).
    + change prec64 with 53%Z. lia.
    + replace (a + 1 - 1)%Z with a by lia. lia.
    + replace (bpow radix2 (a + 1 - prec64) / 2) with (bpow radix2 (a - 53)); [lra|].
      change prec64 with 53%Z. replace (a + 1 - 53)%Z with ((a - 53) + 1)%Z by lia.
      rewrite bpow_plus. change (bpow radix2 1) with 2. field.
  - apply Rle_lt_trans with (IZR o + / 2).
    + apply rnd64_le_fmt; [|lra].
      replace (IZR o + / 2) with (IZR (2 * o + 1) * bpow radix2 (-1)).
      * apply fmt_scaled; [exact prec64_gt_0| |vm_compute; discriminate].
        change (2 ^ prec64)%Z with 9007199254740992%Z. lia.
      * rewrite plus_IZR, mult_IZR. change (bpow radix2 (-1)) with (/ 2). lra.
    + rewrite plus_IZR. lra.
Qed.

Lemma pick_reach_eq k i : (k = 8 \/ k = 16)%Z -> (0 <= i < 2 ^ k - 1)%Z ->
  exists o, (0 <= o <= 2 ^ k - 1)%Z /\ pick_index o (2 ^ k - 1) (2 ^ k - 1) = Ok i.
Proof.
  intros Hk Hi. exists i. split; [lia|].
  assert (P : (256 <= 2 ^ k <= 65536)%Z) by (destruct Hk as [->| ->]; vm_compute; split; discriminate).
  destruct (Z.eq_dec i 0) as [->|N].
  - destruct Hk as [->| ->]; vm_compute; reflexivity.
  - destruct (binade i) as [(a & Ha & E)|(a & Ha & E)]; [lia| |].
    + assert (B : (a < k)%Z) by (apply (Z.pow_lt_mono_r_iff 2); lia).
      assert (C : pow_hit k a = true).
      { assert (G : forall k0, (k0 = 8 \/ k0 = 16)%Z ->
                 forallb (fun a => pow_hit k0 (Z.of_nat a)) (seq 0 (Z.to_nat k0)) = true).
        { intros k0 [->| ->]; vm_compute; reflexivity. }
        specialize (G k Hk). rewrite forallb_forall in G. specialize (G (Z.to_nat a)).
        rewrite in_seq, Z2Nat.id in G by lia. apply G. lia. }
      unfold pow_hit in C. rewrite <- E in C.
      destruct (pick_index i (2 ^ k - 1) (2 ^ k - 1)); try discriminate.
      apply Z.eqb_eq in C. now rewrite C.
    + apply pick_hit; try lia.
      apply (pick_pred_pow k i (a - 1)); try lia.
      replace (a - 1 + 1)%Z with a by lia. lia.
Qed.

(** As many members as oracle values: n = mx + 1 = 2^k. *)
Lemma pick_reach_succ k i : (1 <= k <= 16)%Z -> (0 <= i < 2 ^ k)%Z ->
  exists o, (0 <= o <= 2 ^ k - 1)%Z /\ pick_index o (2 ^ k - 1) (2 ^ k) = Ok i.
Proof.
  intros Hk Hi. exists i. split; [lia|].
  assert (P : (2 <= 2 ^ k <= 65536)%Z).
  { change 2%Z with (2 ^ 1)%Z at 1. change 65536%Z with (2 ^ 16)%Z. split; apply Z.pow_le_mono_r; lia. }
  set (mx := (2 ^ k - 1)%Z) in *.
  assert (M0 : 0 < IZR mx) by (apply IZR_lt; lia).
  assert (B : bpow radix2 k = IZR (2 ^ k)) by (apply bpow_IZR; lia).
  assert (BM : bpow radix2 k = IZR mx + 1) by (unfold mx; rewrite B, minus_IZR; lra).
  assert (L : IZR i <= pick_real i mx (2 ^ k)).
  { unfold pick_real. rewrite !rnd64_int by lia. apply rnd64_ge_fmt; [apply fmt64_int; lia|].
    rewrite <- B.
    assert (F : fmt64 (IZR i * bpow radix2 (- k))).
    { apply fmt_scaled; [exact prec64_gt_0| |].
      - change (2 ^ prec64)%Z with 9007199254740992%Z. lia.
      - change (3 - emax64 - prec64)%Z with (-1074)%Z. lia. }
    assert (G : IZR i * bpow radix2 (- k) <= rnd64 (IZR i / IZR mx)).
    { apply rnd64_ge_fmt; [exact F|]. unfold Rdiv. apply Rmult_le_compat_l; [apply IZR_le; lia|].
      rewrite bpow_opp. apply Rinv_le; lra. }
    replace (IZR i) with (IZR i * bpow radix2 (- k) * bpow radix2 k) at 1.
    - apply Rmult_le_compat_r; [apply bpow_ge_0|exact G].
    - rewrite Rmult_assoc, <- bpow_plus. replace (- k + k)%Z with 0%Z by lia. cbn. ring. }
  destruct (Z.eq_dec i mx) as [E|NE].
  - assert (V := pick_real_range i mx (2 ^ k) ltac:(lia) ltac:(lia) ltac:(lia)).
    rewrite pick_eq by lia. unfold step_inside.
    assert (F : (i <= Zfloor (pick_real i mx (2 ^ k)) <= 2 ^ k)%Z).
    { split; [apply Zfloor_lub; exact L|]. apply le_IZR. apply Rle_trans with (1 := Zfloor_lb _). tauto. }
    destruct (Z.eqb_spec (Zfloor (pick_real i mx (2 ^ k))) (2 ^ k)); f_equal; lia.
  - apply pick_hit; try lia. split; [exact L|].
    assert (Er := pick_real_err i mx (2 ^ k) ltac:(lia) ltac:(lia) ltac:(lia)). apply Rabs_le_inv in Er.
    assert (U : IZR (i * 2 ^ k) / IZR mx <= IZR (i + 1) - / IZR mx).
    { apply Rmult_le_reg_r with (IZR mx); [lra|]. unfold Rdiv. rewrite Rmult_minus_distr_r.
      rewrite Rmult_assoc, !Rinv_l by lra. rewrite Rmult_1_r, <- mult_IZR, <- (minus_IZR _ 1). apply IZR_le.
      unfold mx in *. nia. }
    assert (I : / 65536 <= / IZR mx) by (apply Rinv_le; [lra|]; apply IZR_le; lia).
    lra.
Qed.

(** 8-byte oracles. *)
Lemma rnd64_max : rnd64 (IZR (2 ^ 64 - 1)) = bpow radix2 64.
Proof.
  apply Rle_antisym.
  - apply rnd64_le_fmt; [apply fmt_pow; [exact prec64_gt_0|exact prec64_lt_emax|lia]|].
    rewrite bpow_IZR by lia. apply IZR_le. lia.
  - apply round_N_ge_midp; try typeclasses eauto.
    + apply fmt_pow; [exact prec64_gt_0|exact prec64_lt_emax|lia].
    + rewrite pred_bpow by typeclasses eauto.
      change (SpecFloat.fexp prec64 emax64 64) with 11%Z. rewrite !bpow_IZR by lia.
      rewrite minus_IZR. change (IZR (2 ^ 11)) with 2048. lra.
Qed.

Lemma pick_reach_8 n i : (1 <= n <= 2 ^ 52)%Z -> (0 <= i < n)%Z ->
  exists o, (0 <= o <= 2 ^ 64 - 1)%Z /\ pick_index o (2 ^ 64 - 1) n = Ok i.
Proof.
  intros Hn Hi. set (k := ((2 * i + 1) * 2 ^ 52 / n)%Z).
  assert (D := Z.div_mod ((2 * i + 1) * 2 ^ 52) n). assert (M := Z.mod_pos_bound ((2 * i + 1) * 2 ^ 52) n).
  fold k in D.
  assert (Hk : ((2 * i + 1) * 2 ^ 52 - n < k * n <= (2 * i + 1) * 2 ^ 52)%Z) by lia.
  assert (K0 : (0 <= k < 2 ^ 53)%Z) by nia.
  set (o := (k * 2 ^ 11)%Z).
  assert (Ho : (0 <= o <= 2 ^ 64 - 1)%Z) by (unfold o; lia).
  exists o. split; [exact Ho|]. apply pick_hit; try lia.
  unfold pick_real. rewrite rnd64_max.
  assert (O1 : IZR o = IZR k * bpow radix2 11) by (unfold o; rewrite mult_IZR; reflexivity).
  rewrite O1. rewrite (rnd_id _ _ (IZR k * bpow radix2 11)).
  2:{ apply fmt_scaled; [exact prec64_gt_0| |vm_compute; discriminate].
      change (2 ^ prec64)%Z with (2 ^ 53)%Z. lia. }
  replace (IZR k * bpow radix2 11 / bpow radix2 64) with (IZR k * bpow radix2 (-53)).
  2:{ unfold Rdiv. rewrite <- bpow_opp, Rmult_assoc, <- bpow_plus. reflexivity. }
  rewrite (rnd_id _ _ (IZR k * bpow radix2 (-53))).
  2:{ apply fmt_scaled; [exact prec64_gt_0| |vm_compute; discriminate].
      change (2 ^ prec64)%Z with (2 ^ 53)%Z. lia. }
  assert (V : IZR k * bpow radix2 (-53) * IZR n = IZR (k * n) * / IZR (2 ^ 53)).
  { change (-53)%Z with (- (53))%Z. rewrite bpow_opp, bpow_IZR by lia. rewrite mult_IZR. ring. }
  rewrite V.
  assert (T : 0 < IZR (2 ^ 53)) by (apply IZR_lt; lia).
  split.
  - apply rnd64_ge_fmt; [apply fmt64_int; lia|].
    apply Rmult_le_reg_r with (IZR (2 ^ 53)); [exact T|]. rewrite Rmult_assoc, Rinv_l, Rmult_1_r by lra.
    rewrite <- mult_IZR. apply IZR_le. nia.
  - apply Rle_lt_trans with (IZR i + / 2).
    + apply rnd64_le_fmt.
      * replace (IZR i + / 2) with (IZR (2 * i + 1) * bpow radix2 (-1)).
        { apply fmt_scaled; [exact prec64_gt_0| |vm_compute; discriminate].
          change (2 ^ prec64)%Z with (2 ^ 53)%Z. lia. }
        rewrite plus_IZR, mult_IZR. change (bpow radix2 (-1)) with (/ 2). lra.
      * apply Rmult_le_reg_r with (IZR (2 ^ 53)); [exact T|]. rewrite Rmult_assoc, Rinv_l, Rmult_1_r by lra.
        replace ((IZR i + / 2) * IZR (2 ^ 53)) with (IZR ((2 * i + 1) * 2 ^ 52)).
        { apply IZR_le. lia. }
        change (2 ^ 53)%Z with (2 * 2 ^ 52)%Z. rewrite !mult_IZR, plus_IZR, mult_IZR. lra.
    + rewrite plus_IZR. lra.
Qed.
