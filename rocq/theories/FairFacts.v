(** Facts about even shares. *)
From Coq Require Import ZArith Reals Lia Lra Psatz.
From Flocq Require Import Core.Core IEEE754.BinarySingleNaN.
From Verif Require Import Base BaseFacts FloatModel FloatFacts Oracle OracleFacts Arithm StampDict PickFacts FairSpec.

Section Cut.
  Local Open Scope Z_scope.

  (** Where a monotone function reaches [j]. *)
  Fixpoint count_below (g : Z -> Z) (j : Z) (k : nat) : Z :=
    match k with O => 0 | S k' => count_below g j k' + (if g (Z.of_nat k') <? j then 1 else 0) end.

  Lemma count_below_spec g j k : (forall o o', 0 <= o <= o' -> o' < Z.of_nat k -> g o <= g o') ->
    0 <= count_below g j k <= Z.of_nat k /\ forall o, 0 <= o < Z.of_nat k -> (count_below g j k <= o <-> j <= g o).
  Proof.
    induction k as [|k IH]; intros M; [split; [cbn; lia|intros; lia]|].
    cbn [count_below]. destruct IH as [I1 I2]; [intros; apply M; lia|].
    destruct (Z.ltb_spec (g (Z.of_nat k)) j) as [L|G].
    - assert (F : count_below g j k = Z.of_nat k).
      { destruct (Z.eq_dec (count_below g j k) (Z.of_nat k)) as [|N]; [assumption|exfalso].
        specialize (I2 (Z.of_nat k - 1) ltac:(lia)). specialize (M (Z.of_nat k - 1) (Z.of_nat k) ltac:(lia) ltac:(lia)). lia. }
      split; [lia|]. intros o Ho. destruct (Z.eq_dec o (Z.of_nat k)) as [->|N]; [lia|].
      specialize (M o (Z.of_nat k) ltac:(lia) ltac:(lia)). lia.
    - split; [lia|]. intros o Ho. destruct (Z.eq_dec o (Z.of_nat k)) as [->|N]; [lia|].
      rewrite <- I2 by lia. lia.
  Qed.

  (** The cut of 0 .. N-1 by a monotone function to 0 .. n-1 that is close to o * n / B. *)
  Lemma cut g N n B lo hi : 1 <= n -> 0 <= N -> (forall o o', 0 <= o <= o' -> o' < N -> g o <= g o') ->
    (forall o, 0 <= o < N -> 0 <= g o < n) ->
    (forall j o, 0 < j < n -> 0 <= o < N -> j * B + hi <= o * n -> j <= g o) ->
    (forall j o, 0 < j < n -> 0 <= o < N -> j <= g o -> j * B - lo <= o * n) ->
    0 <= lo -> 0 <= n + hi - 1 -> (n - 1) * B - lo <= N * n -> - lo <= N * n - n * B <= n + hi - 1 ->
    exists t, t 0 = 0 /\ t n = N
      /\ (forall i, 0 <= i < n -> t i <= t (i + 1) /\ B - lo - (n + hi - 1) <= (t (i + 1) - t i) * n <= B + lo + (n + hi - 1))
      /\ forall i o, 0 <= i < n -> 0 <= o < N -> (t i <= o < t (i + 1) <-> g o = i).
  Proof.
    intros Hn HN M R A C L0 H0 HL HE. set (k := Z.to_nat N). assert (K : Z.of_nat k = N) by (unfold k; lia).
    exists (fun j => count_below g j k).
    assert (S : forall j, 0 <= count_below g j k <= N /\ forall o, 0 <= o < N -> (count_below g j k <= o <-> j <= g o)).
    { intros j. pose proof (count_below_spec g j k) as X. rewrite K in X. apply X. exact M. }
    assert (T0 : count_below g 0 k = 0).
    { destruct (S 0) as [S1 S2]. destruct (Z.eq_dec (count_below g 0 k) 0) as [|X]; [assumption|].
      specialize (S2 0 ltac:(lia)). specialize (R 0 ltac:(lia)). lia. }
    assert (TN : count_below g n k = N).
    { destruct (S n) as [S1 S2]. destruct (Z.eq_dec (count_below g n k) N) as [|X]; [assumption|].
      specialize (S2 (count_below g n k) ltac:(lia)). specialize (R (count_below g n k) ltac:(lia)). lia. }
    assert (D : forall j, 0 <= j <= n -> j * B - lo <= count_below g j k * n <= j * B + (n + hi - 1)).
    { intros j Hj. destruct (Z.eq_dec j 0) as [->|J0]; [rewrite T0; lia|].
      destruct (Z.eq_dec j n) as [->|Jn]; [rewrite TN; nia|]. destruct (S j) as [S1 S2]. set (c := count_below g j k) in *. split.
      - destruct (Z.eq_dec c N) as [E|E].
        + rewrite E. nia.
        + apply C; [lia|lia|]. apply S2; lia.
      - destruct (Z.eq_dec c 0) as [->|E]; [nia|].
        assert (X : ~ j <= g (c - 1)) by (rewrite <- S2 by lia; lia).
        destruct (Z_le_gt_dec (j * B + hi) ((c - 1) * n)) as [Y|Y]; [exfalso; apply X, A; lia|lia]. }
    split; [exact T0|]. split; [exact TN|]. split.
    - intros i Hi. pose proof (D i ltac:(lia)). pose proof (D (i + 1) ltac:(lia)). split; [|lia].
      destruct (S i) as [S1 S2]. destruct (S (i + 1)) as [S3 S4].
      destruct (Z_le_gt_dec (count_below g i k) (count_below g (i + 1) k)) as [|G]; [assumption|exfalso].
      specialize (S2 (count_below g (i + 1) k) ltac:(lia)). specialize (S4 (count_below g (i + 1) k) ltac:(lia)). lia.
    - intros i o Hi Ho. destruct (S i) as [S1 S2]. destruct (S (i + 1)) as [S3 S4].
      specialize (S2 o Ho). specialize (S4 o Ho). lia.
  Qed.
End Cut.

Local Open Scope R_scope.

(** ** OracleProportion *)
Lemma portion_up o n j : (1 <= n <= 65536)%Z -> (0 <= j <= 65536)%Z -> (j * 65536 <= o * n)%Z -> (j <= Zfloor (portion o n))%Z.
Proof.
  intros Hn Hj H. rewrite portion_exact by lia. apply Zfloor_lub. apply rnd_ge; [exact prec32_gt_0|apply fmt32_int; lia|].
  apply IZR_le in H. rewrite mult_IZR in H at 1. lra.
Qed.

Lemma portion_down o n j : (1 <= n <= 65536)%Z -> (0 < j < 65536)%Z -> (j <= Zfloor (portion o n))%Z -> (j * 65536 - 128 <= o * n)%Z.
Proof.
  intros Hn Hj H. destruct (Z_lt_le_dec (o * n) (j * 65536 - 128)) as [L|G]; [exfalso|exact G].
  assert (X : rnd32 (IZR (o * n) / 65536) < IZR j).
  { assert (U : IZR (o * n) / 65536 <= IZR j - 129 / 65536).
    { assert (B : (o * n <= j * 65536 - 129)%Z) by lia. apply IZR_le in B. rewrite minus_IZR, (mult_IZR j) in B. lra. }
    assert (G : forall i, (0 < i <= 16)%Z -> (2 ^ (i - 1) < j <= 2 ^ i)%Z -> rnd32 (IZR (o * n) / 65536) < IZR j).
    { intros i Hi Hb. apply rnd32_lt_int with i; try lia. apply Rle_lt_trans with (1 := U).
      assert (bpow radix2 (i - 24) <= bpow radix2 (-8)) by (apply bpow_le; lia).
      change (bpow radix2 (-8)) with (/ 256) in *. lra. }
    destruct (Z.eq_dec j 1) as [->|Nj].
    + apply Rle_lt_trans with (rnd32 (1 - / 1024)).
      * apply rnd_le; [exact prec32_gt_0|lra].
      * rewrite rnd_id; [lra|]. replace (1 - / 1024) with (IZR 1023 * bpow radix2 (-10)).
        apply fmt_scaled; [exact prec32_gt_0|vm_compute; discriminate|vm_compute; discriminate].
        change (bpow radix2 (-10)) with (/ 1024). lra.
    + destruct (binade j) as [(i & Hi & E)|(i & Hi & E)]; [lia| |].
      * apply (G i).
        { assert (i <> 0)%Z by (intros ->; cbn in E; lia). assert (i < 17)%Z; [|lia]. apply (Z.pow_lt_mono_r_iff 2); lia. }
        rewrite E. assert (i <> 0)%Z by (intros ->; cbn in E; lia). split; [|lia]. apply Z.pow_lt_mono_r; lia.
      * apply (G i); [|lia]. split; [lia|]. assert (i - 1 < 16)%Z; [|lia]. apply (Z.pow_lt_mono_r_iff 2); lia. }
  rewrite portion_exact in H by lia. apply IZR_le in H. pose proof (Zfloor_lb (rnd32 (IZR (o * n) / 65536))). lra.
Qed.

(** Up to 256 values nothing is rounded. *)
Lemma portion_small o n : (0 <= o <= 65535)%Z -> (1 <= n <= 256)%Z -> Zfloor (portion o n) = (o * n / 65536)%Z.
Proof.
  intros Ho Hn. rewrite portion_exact by lia. rewrite rnd_id.
  - apply (Zfloor_div (o * n) 65536). lia.
  - replace (IZR (o * n) / 65536) with (IZR (o * n) * bpow radix2 (-16)) by (change (bpow radix2 (-16)) with (/ 65536); reflexivity).
    apply fmt_scaled; [exact prec32_gt_0| |vm_compute; discriminate]. change (2 ^ prec32)%Z with 16777216%Z. nia.
Qed.

Lemma oracle_cut n : (1 <= n <= 65536)%Z ->
  exists t, even_parts 65536 n (n + 127) t /\ ((n <= 256)%Z -> even_parts 65536 n (n - 1) t)
    /\ forall i o, (0 <= i < n)%Z -> (0 <= o < 65536)%Z -> ((t i <= o < t (i + 1))%Z <-> Zfloor (portion o n) = i).
Proof.
  intros Hn.
  assert (M : forall o o', (0 <= o <= o')%Z -> (o' < 65536)%Z -> (Zfloor (portion o n) <= Zfloor (portion o' n))%Z).
  { intros o o' H1 H2. apply Zfloor_le. apply portion_mono; lia. }
  assert (R : forall o, (0 <= o < 65536)%Z -> (0 <= Zfloor (portion o n) < n)%Z).
  { intros o Ho. destruct (portion_range o n) as [R1 R2]; [lia|lia|]. split; [apply Zfloor_lub; exact R1|].
    apply lt_IZR. apply Rle_lt_trans with (1 := Zfloor_lb _). exact R2. }
  assert (A : forall j o, (0 < j < n)%Z -> (0 <= o < 65536)%Z -> (j * 65536 + 0 <= o * n)%Z -> (j <= Zfloor (portion o n))%Z).
  { intros j o Hj Ho H. apply portion_up; lia. }
  destruct (Z_le_gt_dec n 256) as [S|S].
  - destruct (cut (fun o => Zfloor (portion o n)) 65536 n 65536 0 0) as (t & T0 & TN & T1 & T2); try lia; try assumption.
    { intros j o Hj Ho H. rewrite portion_small in H by lia. pose proof (Z.mul_div_le (o * n) 65536 ltac:(lia)). nia. }
    exists t. split; [|split; [|exact T2]].
    + split; [exact T0|]. split; [exact TN|]. intros i Hi. specialize (T1 i Hi). lia.
    + intros _. split; [exact T0|]. split; [exact TN|]. intros i Hi. specialize (T1 i Hi). lia.
  - destruct (cut (fun o => Zfloor (portion o n)) 65536 n 65536 128 0) as (t & T0 & TN & T1 & T2); try lia; try assumption.
    { intros j o Hj Ho H. apply portion_down; lia. }
    exists t. split; [|split; [|exact T2]].
    + split; [exact T0|]. split; [exact TN|]. intros i Hi. specialize (T1 i Hi). lia.
    + lia.
Qed.

(** ** Dictionaries and lotteries *)
Definition pick_floor (o mx n : Z) : Z := step_inside (Zfloor (pick_real o mx n)) n.

Lemma pick_real_mono o o' mx n : (0 <= o <= o')%Z -> (o' <= mx)%Z -> (1 <= mx)%Z -> (0 <= n)%Z -> pick_real o mx n <= pick_real o' mx n.
Proof.
  intros Ho Hm H1 Hn. unfold pick_real. apply rnd64_le. apply Rmult_le_compat_r; [apply IZR_le; lia|]. apply rnd64_le.
  assert (M : 1 <= rnd64 (IZR mx)) by (apply rnd64_ge_fmt; [exact fmt64_1|apply IZR_le; lia]).
  apply Rmult_le_compat_r; [left; apply Rinv_0_lt_compat; lra|]. apply rnd64_le. apply IZR_le. lia.
Qed.

Lemma pick_cut mx n : (1 <= n <= mx + 1)%Z -> (1 <= mx <= 65535)%Z ->
  exists t, even_parts (mx + 1) n (n + 1) t
    /\ forall i o, (0 <= i < n)%Z -> (0 <= o <= mx)%Z -> ((t i <= o < t (i + 1))%Z <-> pick_index o mx n = Ok i).
Proof.
  intros Hn Hm.
  assert (V : forall o, (0 <= o < mx + 1)%Z -> (0 <= Zfloor (pick_real o mx n) <= n)%Z).
  { intros o Ho. assert (V := pick_real_range o mx n ltac:(lia) ltac:(lia) ltac:(lia)).
    split; [apply Zfloor_lub; tauto|]. apply le_IZR. apply Rle_trans with (1 := Zfloor_lb _). tauto. }
  assert (MX : 0 < IZR mx) by (apply IZR_lt; lia).
  assert (IM : / 65535 <= / IZR mx) by (apply Rinv_le; [lra|apply IZR_le; lia]).
  destruct (cut (fun o => pick_floor o mx n) (mx + 1) n mx 0 1) as (t & T0 & TN & T1 & T2); try lia.
  - intros o o' H1 H2. pose proof (V o ltac:(lia)). pose proof (V o' ltac:(lia)).
    assert (X : (Zfloor (pick_real o mx n) <= Zfloor (pick_real o' mx n))%Z) by (apply Zfloor_le, pick_real_mono; lia).
    unfold pick_floor, step_inside. destruct (Z.eqb_spec (Zfloor (pick_real o mx n)) n), (Z.eqb_spec (Zfloor (pick_real o' mx n)) n); lia.
  - intros o Ho. pose proof (V o Ho). unfold pick_floor, step_inside. destruct (Z.eqb_spec (Zfloor (pick_real o mx n)) n); lia.
  - intros j o Hj Ho H.
    assert (Er := pick_real_err o mx n ltac:(lia) ltac:(lia) ltac:(lia)). apply Rabs_le_inv in Er.
    assert (U : IZR j + / IZR mx <= IZR (o * n) / IZR mx).
    { apply Rmult_le_reg_r with (IZR mx); [lra|]. unfold Rdiv. rewrite Rmult_plus_distr_r, Rmult_assoc, !Rinv_l by lra.
      rewrite Rmult_1_r, <- mult_IZR, <- (plus_IZR _ 1). apply IZR_le. lia. }
    assert (F : (j <= Zfloor (pick_real o mx n))%Z) by (apply Zfloor_lub; lra).
    unfold pick_floor, step_inside. destruct (Z.eqb_spec (Zfloor (pick_real o mx n)) n); lia.
  - intros j o Hj Ho H.
    assert (F : (j <= Zfloor (pick_real o mx n))%Z).
    { unfold pick_floor, step_inside in H. destruct (Z.eqb_spec (Zfloor (pick_real o mx n)) n); lia. }
    assert (Er := pick_real_err o mx n ltac:(lia) ltac:(lia) ltac:(lia)). apply Rabs_le_inv in Er.
    destruct (Z_le_gt_dec (j * mx) (o * n)) as [|G]; [lia|exfalso].
    assert (U : IZR (o * n) / IZR mx <= IZR j - / IZR mx).
    { apply Rmult_le_reg_r with (IZR mx); [lra|]. unfold Rdiv. rewrite Rmult_minus_distr_r, Rmult_assoc, !Rinv_l by lra.
      rewrite Rmult_1_r, <- mult_IZR, <- (minus_IZR _ 1). apply IZR_le. lia. }
    apply IZR_le in F. pose proof (Zfloor_lb (pick_real o mx n)). lra.
  - exists t. split.
    + split; [exact T0|]. split; [exact TN|]. intros i Hi. specialize (T1 i Hi). lia.
    + intros i o Hi Ho. rewrite pick_eq by lia. rewrite T2 by lia. unfold pick_floor. split; [intros ->; reflexivity|]. intros X. injection X as X. exact X.
Qed.
