(** OracleProportion (src/oracle.cpp:24-31) on ranges of more than 65536 values: facts. *)
From Coq Require Import ZArith Reals Lra Lia Psatz.
From Flocq Require Import Core.Core IEEE754.BinarySingleNaN.
From Verif Require Import Base FloatModel FloatFacts Oracle OracleFacts.
Local Open Scope R_scope.

(** The number before an integer is no closer to it than the one before the integer before. *)
Lemma pred_next j : (1 <= j < 8388608)%Z ->
  pred radix2 (SpecFloat.fexp prec32 emax32) (IZR (j + 1))
  <= pred radix2 (SpecFloat.fexp prec32 emax32) (IZR j) + 1.
Proof.
  intros Hj.
  assert (V : Valid_exp (SpecFloat.fexp prec32 emax32)) by exact (fexp_correct prec32 emax32 prec32_gt_0).
  assert (Fj : fmt32 (IZR j)) by (apply fmt32_int; lia).
  assert (Fj1 : fmt32 (IZR (j + 1))) by (apply fmt32_int; lia).
  set (fx := SpecFloat.fexp prec32 emax32) in *.
  set (q := pred radix2 fx (IZR (j + 1))).
  assert (Fq : fmt32 q) by (apply generic_format_pred; assumption).
  assert (J1 : 1 <= IZR j) by (apply IZR_le; lia).
  assert (Jp : IZR (j + 1) = IZR j + 1) by apply plus_IZR.
  assert (Qj : IZR j <= q) by (apply pred_ge_gt; try assumption; lra).
  assert (Ql : q < IZR (j + 1)) by (apply pred_lt_id; lra).
  cut (q - 1 <= pred radix2 fx (IZR j)); [lra|].
  apply pred_ge_gt; try assumption; [|lra].
  (* q is a multiple of a power of two that is at most 1 *)
  set (m := Ztrunc (scaled_mantissa radix2 fx q)). set (e := cexp radix2 fx q).
  assert (Eq : q = IZR m * bpow radix2 e) by exact Fq.
  assert (Me : (e <= 0 /\ -148 <= e)%Z).
  { unfold e, cexp, fx, SpecFloat.fexp, SpecFloat.emin.
    assert (mag radix2 q <= 24)%Z.
    { apply mag_le_bpow; [lra|]. rewrite Rabs_pos_eq by lra.
      change (bpow radix2 24) with 16777216. assert (IZR (j + 1) <= 16777216) by (apply IZR_le; lia). lra. }
    change prec32 with 24%Z. change emax32 with 128%Z. assert (1 <= mag radix2 q)%Z.
    { apply mag_ge_bpow. rewrite Rabs_pos_eq by lra. change (bpow radix2 (1 - 1)) with 1. lra. }
    lia. }
  assert (E1 : 1 = IZR (2 ^ (- e)) * bpow radix2 e).
  { change 2%Z with (radix_val radix2). rewrite IZR_Zpower by lia. rewrite <- bpow_plus.
    replace (- e + e)%Z with 0%Z by lia. reflexivity. }
  rewrite E1 at 1. rewrite Eq, <- Rmult_minus_distr_r, <- minus_IZR.
  apply (fmt_scaled prec32 emax32 prec32_gt_0).
  - assert (B : Rabs (IZR m) <= IZR (2 ^ prec32)).
    { assert (S : Rabs (scaled_mantissa radix2 fx q) < bpow radix2 24).
      { eapply Rlt_le_trans; [apply scaled_mantissa_lt_bpow|]. apply bpow_le. fold e.
        unfold e, cexp, fx, SpecFloat.fexp. change prec32 with 24%Z. lia. }
      unfold m. rewrite <- scaled_mantissa_generic by exact Fq. apply Rlt_le.
      change (IZR (2 ^ prec32)) with (bpow radix2 24). exact S. }
    rewrite <- abs_IZR in B. apply le_IZR in B.
    assert (Mp : (2 ^ (- e) <= m)%Z).
    { apply le_IZR. apply Rmult_le_reg_r with (bpow radix2 e); [apply bpow_gt_0|]. rewrite <- E1, <- Eq. lra. }
    assert (0 < 2 ^ (- e))%Z by lia. lia.
  - change prec32 with 24%Z. change emax32 with 128%Z. lia.
Qed.

(** A number that is rounded up to an integer, and one closer to the next integer. *)
Lemma round_next x y j : (1 <= j < 8388608)%Z -> IZR j <= rnd32 x -> x + 1 < y -> IZR (j + 1) <= rnd32 y.
Proof.
  intros Hj Hx Hy.
  assert (V : Valid_exp (SpecFloat.fexp prec32 emax32)) by exact (fexp_correct prec32 emax32 prec32_gt_0).
  assert (Fj : fmt32 (IZR j)) by (apply fmt32_int; lia).
  assert (Fj1 : fmt32 (IZR (j + 1))) by (apply fmt32_int; lia).
  assert (P := pred_next j Hj).
  assert (J1 : 1 <= IZR j) by (apply IZR_le; lia).
  assert (Jp : IZR (j + 1) = IZR j + 1) by apply plus_IZR.
  set (fx := SpecFloat.fexp prec32 emax32) in *.
  apply round_N_ge_midp; [assumption|assumption|].
  assert (X : (IZR j + pred radix2 fx (IZR j)) / 2 <= x); [|lra].
  apply Rnot_lt_le. intros L.
  assert (Rx : rnd32 x <= pred radix2 fx (IZR j)).
  { apply round_N_le_midp; [assumption|apply generic_format_pred; assumption|].
    rewrite succ_pred by assumption. lra. }
  assert (pred radix2 fx (IZR j) < IZR j) by (apply pred_lt_id; lra).
  apply (Rlt_irrefl (IZR j)). apply Rle_lt_trans with (1 := Hx). apply Rle_lt_trans with (1 := Rx). assumption.
Qed.

(** One oracle more, at least one more: ranges of 65537 .. 131071 values ... *)
Lemma step_small o n : (0 <= o < 65535)%Z -> (65536 < n < 131072)%Z ->
  (Zfloor (portion o n) < Zfloor (portion (o + 1) n))%Z.
Proof.
  intros Ho Hn. unfold portion. rewrite (rnd32_int n) by lia.
  assert (N := IZR_lt _ _ (proj1 Hn)). assert (N2 := IZR_lt _ _ (proj2 Hn)).
  assert (O0 := IZR_le _ _ (proj1 Ho)). assert (O1 := IZR_lt _ _ (proj2 Ho)).
  set (p := IZR o / 65536 * IZR n).
  assert (P' : IZR (o + 1) / 65536 * IZR n = p + IZR n / 65536).
  { unfold p. rewrite plus_IZR. field. }
  rewrite P'. assert (P0 : 0 <= p) by (apply Rmult_le_pos; lra).
  assert (Pu : p <= 131072).
  { apply Rle_trans with (1 * IZR n); [apply Rmult_le_compat_r|]; lra. }
  set (j := Zfloor (rnd32 p)).
  assert (J : IZR j <= rnd32 p) by apply Zfloor_lb.
  assert (J0 : (0 <= j)%Z).
  { apply Zfloor_lub. apply rnd_ge; [exact prec32_gt_0|apply (fmt32_int 0); lia|exact P0]. }
  assert (Ju : (j <= 131072)%Z).
  { apply le_IZR. apply Rle_trans with (1 := J).
    apply rnd_le_gen; [exact prec32_gt_0|apply (fmt32_int 131072); lia|exact Pu]. }
  cut (IZR (j + 1) <= rnd32 (p + IZR n / 65536)).
  { intros K. apply Zfloor_lub in K. lia. }
  destruct (Z.eq_dec j 0) as [->|Nj].
  - apply rnd_ge; [exact prec32_gt_0|apply fmt32_int; lia|]. simpl. lra.
  - apply round_next with p; [lia|exact J|lra].
Qed.

(** ... and of 131072 or more. *)
Lemma step_large o n : (0 <= o < 65535)%Z -> (131072 <= n < 2 ^ 64)%Z ->
  (Zfloor (portion o n) < Zfloor (portion (o + 1) n))%Z.
Proof.
  intros Ho Hn. unfold portion.
  destruct (rnd32_rel_Z n) as [Hl _]; [lia|].
  assert (N := IZR_le _ _ (proj1 Hn)).
  assert (O0 := IZR_le _ _ (proj1 Ho)). assert (O1 := IZR_lt _ _ (proj2 Ho)).
  set (r := rnd32 (IZR n)) in *.
  change (bpow radix2 (- prec32)) with (/ 16777216) in *.
  assert (R1 : 131000 <= r) by lra. clear Hl N.
  assert (E : forall a, 0 <= a <= 65536 ->
    a / 65536 * r * (1 - / 16777216) <= rnd32 (a / 65536 * r) <= a / 65536 * r * (1 + / 16777216) \/ 0 < a < 1).
  { intros a Ha. destruct (Rlt_or_le 0 a) as [Pa|Pa].
    - destruct (Rlt_or_le a 1) as [Q|Q]; [right; lra|left].
      apply (rnd_rel_pos prec32 emax32 prec32_gt_0 (a / 65536 * r)).
      + apply Rmult_le_pos; lra.
      + right. apply Rle_trans with 1; [|assert (/ 65536 * r <= a / 65536 * r) by (apply Rmult_le_compat_r; lra); lra].
        change 1 with (bpow radix2 0). apply bpow_le. vm_compute. discriminate.
    - left. replace a with 0 by lra. unfold Rdiv. rewrite !Rmult_0_l, rnd_0 by exact prec32_gt_0. lra. }
  rewrite plus_IZR.
  assert (I : ~ 0 < IZR o < 1) by (intros [A B]; apply (lt_IZR 0) in A; apply (lt_IZR _ 1) in B; lia).
  destruct (E (IZR o)) as [[_ A]|X]; [lra| |tauto].
  destruct (E (IZR o + 1)) as [[B _]|X]; [lra| |lra].
  set (x := rnd32 (IZR o / 65536 * r)) in *. set (y := rnd32 ((IZR o + 1) / 65536 * r)) in *.
  assert (U : IZR o / 65536 * r <= r).
  { apply Rle_trans with (1 * r); [apply Rmult_le_compat_r; lra|lra]. }
  assert (W : (IZR o + 1) / 65536 * r = IZR o / 65536 * r + r / 65536) by field.
  rewrite W in B. set (p := IZR o / 65536 * r) in *.
  assert (D : x + 1 <= y) by lra.
  cut (IZR (Zfloor x + 1) <= y).
  { intros K. apply Zfloor_lub in K. lia. }
  rewrite plus_IZR. assert (L := Zfloor_lb x). lra.
Qed.

Lemma portion_strict o o' n : (0 <= o < o')%Z -> (o' <= 65535)%Z -> (65536 < n < 2 ^ 64)%Z ->
  (Zfloor (portion o n) < Zfloor (portion o' n))%Z.
Proof.
  intros Ho Ho' Hn. apply Z.lt_le_trans with (Zfloor (portion (o + 1) n)).
  - destruct (Z.lt_ge_cases n 131072); [apply step_small|apply step_large]; lia.
  - apply Zfloor_le. apply portion_mono; lia.
Qed.

(** A strictly increasing function of 65536 values misses one of more values. *)
Lemma misses (f : Z -> Z) (mn mx : Z) : (65536 < mx - mn + 1)%Z ->
  (forall o, 0 <= o <= 65535 -> mn <= f o)%Z ->
  (forall o o', 0 <= o < o' -> o' <= 65535 -> f o < f o')%Z ->
  exists v, (mn <= v <= mx /\ forall o, 0 <= o <= 65535 -> f o <> v)%Z.
Proof.
  intros Hn Hl Hs.
  assert (C : forall k : nat, (Z.of_nat k <= 65536)%Z ->
    (exists v, mn <= v <= mx /\ forall o, 0 <= o <= 65535 -> f o <> v)%Z
    \/ (forall o, 0 <= o < Z.of_nat k -> f o = mn + o)%Z).
  { induction k as [|k IH]; intros Hk; [right; lia|].
    destruct IH as [IH|IH]; [lia|left; exact IH|].
    destruct (Z.eq_dec (f (Z.of_nat k)) (mn + Z.of_nat k)) as [E|NE].
    - right. intros o Ho. destruct (Z.eq_dec o (Z.of_nat k)) as [->|]; [exact E|apply IH; lia].
    - left. exists (mn + Z.of_nat k)%Z. split; [lia|]. intros o Ho X.
      assert (G : (mn + Z.of_nat k <= f (Z.of_nat k))%Z).
      { destruct k as [|k']; [specialize (Hl 0%Z); simpl in *; lia|].
        assert (A := IH (Z.of_nat k')). assert (B := Hs (Z.of_nat k') (Z.of_nat (S k'))). lia. }
      destruct (Z.lt_trichotomy o (Z.of_nat k)) as [L|[->|L]].
      + rewrite IH in X by lia. lia.
      + contradiction.
      + assert (B := Hs (Z.of_nat k) o). lia. }
  destruct (C (Z.to_nat 65536)) as [E|E]; [lia|exact E|].
  exists mx. split; [lia|]. intros o Ho X. rewrite E in X by lia. lia.
Qed.

(** The last oracle gives the last value exactly if there are at most 65792 values. *)
Lemma last_reached n : (65536 < n <= 65792)%Z -> (n - 1 <= Zfloor (portion 65535 n))%Z.
Proof.
  intros Hn. destruct (Z.eq_dec n 65792) as [->|N1].
  { destruct (hits_spec 65535 65791 65792) as [_ H]; [lia|vm_compute; reflexivity|]. lia. }
  apply Zfloor_lub. unfold portion. rewrite (rnd32_int n) by lia.
  assert (A := IZR_lt _ _ (proj1 Hn)). assert (B : IZR n <= 65791) by (apply IZR_le; lia).
  destruct (Z.eq_dec n 65537) as [->|N2].
  - change (65537 - 1)%Z with 65536%Z. apply rnd32_ge_int with 16%Z; [lia|lia|]. change (bpow radix2 (16 - 24)) with (/ 256). lra.
  - apply rnd32_ge_int with 17%Z; [lia|lia|]. change (bpow radix2 (17 - 24)) with (/ 128).
    rewrite minus_IZR. lra.
Qed.

Lemma last_missed n : (65792 < n < 2 ^ 64)%Z -> (Zfloor (portion 65535 n) < n - 1)%Z.
Proof.
  intros Hn. apply lt_IZR. apply Rle_lt_trans with (1 := Zfloor_lb _). unfold portion.
  destruct (Z.lt_ge_cases n 66060) as [S|L].
  - rewrite (rnd32_int n) by lia. assert (A : 65793 <= IZR n) by (apply IZR_le; lia).
    apply rnd32_lt_int with 17%Z; [lia|lia|]. change (bpow radix2 (17 - 24)) with (/ 128).
    rewrite minus_IZR. lra.
  - destruct (rnd32_rel_Z n) as [Hl Hu]; [lia|]. assert (A := IZR_le _ _ L).
    set (r := rnd32 (IZR n)) in *. change (bpow radix2 (- prec32)) with (/ 16777216) in *.
    destruct (rnd_rel_pos prec32 emax32 prec32_gt_0 (65535 / 65536 * r)) as [_ U].
    + apply Rmult_le_pos; lra.
    + right. apply Rle_trans with 1; [|lra].
      change 1 with (bpow radix2 0). apply bpow_le. vm_compute. discriminate.
    + change (bpow radix2 (- prec32)) with (/ 16777216) in *. rewrite minus_IZR. lra.
Qed.

Lemma portion_0 n : Zfloor (portion 0 n) = 0%Z.
Proof. unfold portion, Rdiv. rewrite !Rmult_0_l, rnd_0 by exact prec32_gt_0. exact (Zfloor_IZR 0). Qed.
