(** Facts about OracleProportion. *)
From Coq Require Import ZArith Reals Lia Lra Psatz.
From Flocq Require Import Core.Core IEEE754.BinarySingleNaN.
From Verif Require Import Base BaseFacts FloatModel FloatFacts Oracle.
Local Open Scope R_scope.

(** The real number whose floor is added to [min]. *)
Definition portion (o n : Z) : R := rnd32 (IZR o / 65536 * rnd32 (IZR n)).

Lemma frac_fmt o : (0 <= o <= 65535)%Z -> fmt32 (IZR o / 65536).
Proof.
  intros Ho. replace (IZR o / 65536) with (IZR o * bpow radix2 (-16)).
  - apply fmt_scaled; [exact prec32_gt_0| |vm_compute; discriminate].
    change (2 ^ prec32)%Z with 16777216%Z. lia.
  - change (bpow radix2 (-16)) with (/ 65536). reflexivity.
Qed.

Lemma rnd32_rel_Z n : (0 <= n)%Z ->
  IZR n * (1 - / 16777216) <= rnd32 (IZR n) <= IZR n * (1 + / 16777216).
Proof.
  intros Hn. change (/ 16777216) with (bpow radix2 (- prec32)).
  apply rnd_rel_pos. exact prec32_gt_0. apply IZR_le; exact Hn.
  destruct (Z.eq_dec n 0) as [->|N]; [left; reflexivity|right].
  apply Rle_trans with 1.
  - change 1 with (bpow radix2 0). apply bpow_le. vm_compute. discriminate.
  - apply IZR_le. lia.
Qed.

Lemma tiny_ok z : bpow radix2 (2 - emax32) <= bpow radix2 z <-> (2 - emax32 <= z)%Z.
Proof. split; intros H. now apply le_bpow in H. now apply bpow_le. Qed.

Lemma rnd32_int n : (Z.abs n <= 16777216)%Z -> rnd32 (IZR n) = IZR n.
Proof. intros H. apply rnd_id. apply fmt_int. exact prec32_gt_0. exact prec32_lt_emax. exact H. Qed.

Lemma fmt32_int n : (Z.abs n <= 16777216)%Z -> fmt32 (IZR n).
Proof. intros H. apply fmt_int. exact prec32_gt_0. exact prec32_lt_emax. exact H. Qed.

Lemma oracle_denominator : fin (f32_add (f32_of_Z ORACLE_MAX) (f32_of_Z 1)) 65536.
Proof.
  rewrite <- (rnd32_int 65536) by lia. change 65536%Z with (65535 + 1)%Z. rewrite plus_IZR.
  apply plus_fin with (k := 17%Z).
  - apply of_Z_exact. vm_compute. discriminate.
  - apply of_Z_exact. vm_compute. discriminate.
  - vm_compute. split; [discriminate|reflexivity].
  - rewrite Rabs_pos_eq by lra. change (bpow radix2 17) with 131072. lra.
Qed.

(** Strictly below the number of values. *)
Lemma portion_range o n : (0 <= o <= 65535)%Z -> (1 <= n < 2 ^ 64)%Z ->
  0 <= portion o n < IZR n.
Proof.
  intros Ho Hn. unfold portion.
  destruct (rnd32_rel_Z n) as [Hl Hu]; [lia|].
  assert (O0 := IZR_le _ _ (proj1 Ho)). assert (O1 := IZR_le _ _ (proj2 Ho)).
  assert (N1 := IZR_le _ _ (proj1 Hn)).
  destruct (Z.eq_dec o 0) as [->|No].
  - unfold Rdiv. rewrite !Rmult_0_l, rnd_0 by exact prec32_gt_0. lra.
  - assert (O2 : 1 <= IZR o) by (apply IZR_le; lia).
    set (r := rnd32 (IZR n)) in *.
    assert (P : / 65536 * / 2 <= IZR o / 65536 * r).
    { unfold Rdiv. apply Rmult_le_compat; lra. }
    destruct (rnd_rel_pos prec32 emax32 prec32_gt_0 (IZR o / 65536 * r)) as [A B].
    + lra.
    + right. apply Rle_trans with (2 := P). replace (/ 65536 * / 2) with (bpow radix2 (-17)).
      apply bpow_le; vm_compute; discriminate.
      change (bpow radix2 (-17)) with (/ 131072). lra.
    + change (bpow radix2 (- prec32)) with (/ 16777216) in *.
      split; [nra|].
      assert (Q : IZR o / 65536 * r <= 65535 / 65536 * (IZR n * (1 + / 16777216))).
      { apply Rmult_le_compat; lra. }
      nra.
Qed.

Lemma bpow64_abs x n : 0 <= x < IZR n -> (n < 2 ^ 64)%Z -> Rabs x <= bpow radix2 65.
Proof.
  intros H Hn. rewrite Rabs_pos_eq by lra. rewrite bpow_IZR by lia.
  assert (Q := IZR_lt _ _ Hn). change (2 ^ 65)%Z with (2 * 2 ^ 64)%Z. rewrite mult_IZR. lra.
Qed.

Lemma oracle_eq o mn mx : (0 <= o <= 65535)%Z -> (0 <= mn <= mx)%Z -> (mx < 2 ^ 64)%Z ->
  (mx - mn + 1 < 2 ^ 64)%Z ->
  OracleProportion o mn mx = Ok (mn + Zfloor (portion o (mx - mn + 1)))%Z
  /\ (0 <= Zfloor (portion o (mx - mn + 1)) <= mx - mn)%Z.
Proof.
  intros Ho H1 H2 H3. set (n := (mx - mn + 1)%Z) in *.
  assert (Hn : (1 <= n < 2 ^ 64)%Z) by lia.
  assert (R := portion_range o n Ho Hn).
  assert (F : (0 <= Zfloor (portion o n) <= mx - mn)%Z).
  { split.
    - apply Zfloor_lub. simpl. tauto.
    - assert (L : (Zfloor (portion o n) < n)%Z).
      { apply lt_IZR. apply Rle_lt_trans with (1 := Zfloor_lb _). tauto. }
      lia. }
  split; [|exact F].
  unfold OracleProportion.
  assert (D : u64 (u64 (mx - mn) + 1) = n).
  { unfold u64. rewrite (Z.mod_small (mx - mn)) by lia. apply Z.mod_small. lia. }
  rewrite D. clear D.
  assert (A1 : fin (f32_of_Z o) (IZR o)).
  { apply of_Z_exact. change (2 ^ prec32)%Z with 16777216%Z. lia. }
  assert (A2 : fin (f32_add (f32_of_Z ORACLE_MAX) (f32_of_Z 1)) 65536).
  { exact oracle_denominator. }
  assert (A3 : fin (f32_div (f32_of_Z o) (f32_add (f32_of_Z ORACLE_MAX) (f32_of_Z 1))) (IZR o / 65536)).
  { rewrite <- (rnd_id prec32 emax32 _ (frac_fmt o Ho)).
    apply (div_fin _ _ _ _ _ _ _ _ 1%Z A1 A2); [intros X; lra|vm_compute; split; [discriminate|reflexivity]|].
    assert (O0 := IZR_le _ _ (proj1 Ho)). assert (O1 := IZR_le _ _ (proj2 Ho)).
    rewrite Rabs_pos_eq; [|lra]. change (bpow radix2 1) with 2. lra. }
  assert (A4 : fin (f32_of_Z n) (rnd32 (IZR n))).
  { apply of_Z_fin with (k := 64%Z); [vm_compute; split; [discriminate|reflexivity]|lia]. }
  assert (A5 : fin (f32_mul (f32_div (f32_of_Z o) (f32_add (f32_of_Z ORACLE_MAX) (f32_of_Z 1))) (f32_of_Z n)) (portion o n)).
  { apply (mult_fin _ _ _ _ _ _ _ _ 66%Z A3 A4); [vm_compute; split; [discriminate|reflexivity]|].
    destruct (rnd32_rel_Z n) as [Hl Hu]; [lia|].
    assert (O0 := IZR_le _ _ (proj1 Ho)). assert (O1 := IZR_le _ _ (proj2 Ho)).
    assert (N1 := IZR_le _ _ (proj1 Hn)). assert (N2 := IZR_lt _ _ (proj2 Hn)).
    assert (0 <= rnd32 (IZR n)) by lra.
    rewrite Rabs_pos_eq by (apply Rmult_le_pos; lra).
    rewrite bpow_IZR by lia. change (2 ^ 66)%Z with (4 * 2 ^ 64)%Z. rewrite mult_IZR.
    apply Rle_trans with (1 * rnd32 (IZR n)).
    - apply Rmult_le_compat_r; lra.
    - lra. }
  rewrite (floor_fin _ _ _ _ A5). cbn [to_size].
  replace ((0 <=? Zfloor (portion o n))%Z && (Zfloor (portion o n) <? 2 ^ 64)%Z) with true.
  - cbn [rbind]. unfold u64. f_equal. apply Z.mod_small. lia.
  - symmetry. apply andb_true_intro. split; [apply Z.leb_le|apply Z.ltb_lt]; lia.
Qed.

Lemma oracle_full o : (0 <= o <= 65535)%Z -> OracleProportion o 0 (2 ^ 64 - 1) = Ok 0%Z.
Proof.
  intros Ho. unfold OracleProportion.
  change (u64 (u64 (2 ^ 64 - 1 - 0) + 1)) with 0%Z.
  assert (A1 : fin (f32_of_Z o) (IZR o)).
  { apply of_Z_exact. change (2 ^ prec32)%Z with 16777216%Z. lia. }
  assert (A2 : fin (f32_add (f32_of_Z ORACLE_MAX) (f32_of_Z 1)) 65536).
  { exact oracle_denominator. }
  assert (A3 : fin (f32_div (f32_of_Z o) (f32_add (f32_of_Z ORACLE_MAX) (f32_of_Z 1))) (IZR o / 65536)).
  { rewrite <- (rnd_id prec32 emax32 _ (frac_fmt o Ho)).
    apply (div_fin _ _ _ _ _ _ _ _ 1%Z A1 A2); [intros X; lra|vm_compute; split; [discriminate|reflexivity]|].
    assert (O0 := IZR_le _ _ (proj1 Ho)). assert (O1 := IZR_le _ _ (proj2 Ho)).
    rewrite Rabs_pos_eq; [|lra]. change (bpow radix2 1) with 2. lra. }
  assert (A0 : fin (f32_of_Z 0) 0) by (split; reflexivity).
  assert (A5 : fin (f32_mul (f32_div (f32_of_Z o) (f32_add (f32_of_Z ORACLE_MAX) (f32_of_Z 1))) (f32_of_Z 0)) 0).
  { rewrite <- (rnd_0 prec32 emax32). rewrite <- (Rmult_0_r (IZR o / 65536)).
    apply (mult_fin _ _ _ _ _ _ _ _ 1%Z A3 A0); [vm_compute; split; [discriminate|reflexivity]|].
    rewrite Rmult_0_r, Rabs_R0. apply bpow_ge_0. }
  rewrite (floor_fin _ _ _ _ A5). rewrite Zfloor_IZR. reflexivity.
Qed.

Lemma portion_mono o o' n : (0 <= o <= o')%Z -> (0 <= n)%Z -> portion o n <= portion o' n.
Proof.
  intros Ho Hn. unfold portion. apply rnd_le. exact prec32_gt_0.
  destruct (rnd32_rel_Z n Hn) as [Hl _].
  assert (N := IZR_le _ _ Hn). assert (O := IZR_le _ _ (proj2 Ho)).
  apply Rmult_le_compat_r; lra.
Qed.

Lemma portion_exact o n : (0 <= n <= 65536)%Z -> portion o n = rnd32 (IZR (o * n) / 65536).
Proof.
  intros Hn. unfold portion. rewrite rnd32_int by lia. f_equal. rewrite mult_IZR. field.
Qed.

Lemma floor_portion_last n : (1 <= n <= 65536)%Z -> (n - 1 <= Zfloor (portion 65535 n))%Z.
Proof.
  intros Hn. rewrite portion_exact by lia. apply Zfloor_lub.
  apply rnd_ge. exact prec32_gt_0. apply fmt32_int; lia.
  rewrite mult_IZR, minus_IZR. destruct Hn as [_ Hn]. apply IZR_le in Hn. lra.
Qed.

(** ** Every value is reached *)

Lemma rnd32_lt_int y j i : (0 < i <= 24)%Z -> (2 ^ (i - 1) < j <= 2 ^ i)%Z ->
  y < IZR j - bpow radix2 (i - 24) / 2 -> rnd32 y < IZR j.
Proof. apply (rnd_lt_int prec32 emax32 prec32_gt_0 prec32_lt_emax). Qed.

Lemma rnd32_ge_int y j i : (0 < i <= 24)%Z -> (2 ^ (i - 1) < j <= 2 ^ i)%Z ->
  IZR j - bpow radix2 (i - 24) / 2 < y -> IZR j <= rnd32 y.
Proof. apply (rnd_ge_int prec32 emax32 prec32_gt_0 prec32_lt_emax). Qed.

(** The least oracle with o*n/65536 >= j. *)
Definition least_oracle (j n : Z) : Z := ((j * 65536 + n - 1) / n)%Z.

Lemma least_oracle_spec j n : (0 <= j < n)%Z -> (1 <= n <= 65536)%Z ->
  (0 <= least_oracle j n <= 65536)%Z
  /\ (j * 65536 <= least_oracle j n * n <= j * 65536 + n - 1)%Z.
Proof.
  intros Hj Hn. unfold least_oracle.
  assert (E := Z.div_mod (j * 65536 + n - 1) n). assert (M := Z.mod_pos_bound (j * 65536 + n - 1) n).
  set (q := ((j * 65536 + n - 1) / n)%Z) in *. nia.
Qed.

Lemma oracle_lt j n : (0 <= j < n)%Z -> (1 <= n <= 65536)%Z -> (least_oracle j n <= 65535)%Z.
Proof.
  intros Hj Hn. unfold least_oracle.
  assert ((j * 65536 + n - 1) / n < 65536)%Z; [|lia].
  apply Z.div_lt_upper_bound; nia.
Qed.

Lemma floor_eq y j : IZR j <= y < IZR (j + 1) -> Zfloor y = j.
Proof. intros H. apply Zfloor_imp. exact H. Qed.

(** Not a power of two: either the least oracle or the one before it gives [j]. *)
Lemma reach_general j i n : (1 <= n <= 65536)%Z -> (j < n)%Z ->
  (0 < i <= 16)%Z -> (2 ^ (i - 1) < j < 2 ^ i)%Z ->
  exists o, (0 <= o <= 65535)%Z /\ Zfloor (portion o n) = j.
Proof.
  intros Hn Hj Hi Hb.
  assert (P0 : (0 < 2 ^ (i - 1))%Z) by lia.
  destruct (least_oracle_spec j n) as [A B]; try lia.
  assert (C : (least_oracle j n <= 65535)%Z) by (apply oracle_lt; lia).
  set (o := least_oracle j n) in *.
  assert (Fj : fmt32 (IZR j)) by (apply fmt32_int; lia).
  assert (Y : IZR j <= IZR (o * n) / 65536).
  { destruct B as [B _]. apply IZR_le in B. rewrite mult_IZR in B at 1. lra. }
  destruct (Rlt_or_le (rnd32 (IZR (o * n) / 65536)) (IZR (j + 1))) as [L|G].
  - exists o. split; [lia|]. rewrite portion_exact by lia. apply floor_eq. split; auto.
    apply rnd_ge; auto. exact prec32_gt_0.
  - assert (Y2 : IZR (j + 1) - bpow radix2 (i - 24) / 2 <= IZR (o * n) / 65536).
    { apply Rnot_lt_le. intros X. apply (Rlt_irrefl (IZR (j + 1))).
      apply Rle_lt_trans with (1 := G). apply rnd32_lt_int with i; try lia. exact X. }
    assert (n <> 65536)%Z.
    { intros ->. assert (B' : (o * 65536 = j * 65536)%Z) by lia.
      rewrite B' in G. rewrite mult_IZR in G.
      replace (IZR j * 65536 / 65536) with (IZR j) in G by field.
      rewrite rnd32_int in G by lia. apply le_IZR in G. lia. }
    assert (o <> 0)%Z by nia.
    exists (o - 1)%Z. split; [lia|]. rewrite portion_exact by lia.
    assert (E : IZR ((o - 1) * n) / 65536 = IZR (o * n) / 65536 - IZR n / 65536).
    { rewrite !mult_IZR, minus_IZR. lra. }
    assert (N : IZR n <= 65535) by (apply IZR_le; lia).
    apply floor_eq. split.
    + apply rnd32_ge_int with i; try lia. rewrite E. rewrite plus_IZR in Y2. lra.
    + apply Rle_lt_trans with (IZR j); [|apply IZR_lt; lia].
      apply rnd_le_gen; auto. exact prec32_gt_0.
      rewrite E.
      assert (B' : IZR (o * n) <= IZR j * 65536 + IZR n - 1).
      { rewrite <- mult_IZR, <- plus_IZR, <- minus_IZR. apply IZR_le. lia. }
      lra.
Qed.

(** Few values: the least oracle gives [j], whatever [j] is. *)
Lemma reach_small j n : (1 <= n <= 65408)%Z -> (0 <= j < n)%Z ->
  exists o, (0 <= o <= 65535)%Z /\ Zfloor (portion o n) = j.
Proof.
  intros Hn Hj.
  destruct (least_oracle_spec j n) as [A B]; try lia.
  assert (C : (least_oracle j n <= 65535)%Z) by (apply oracle_lt; lia).
  set (o := least_oracle j n) in *.
  assert (Fj : fmt32 (IZR j)) by (apply fmt32_int; lia).
  exists o. split; [lia|]. rewrite portion_exact by lia. apply floor_eq. split.
  - apply rnd_ge; auto. exact prec32_gt_0. destruct B as [B _]. apply IZR_le in B.
    rewrite mult_IZR in B at 1. lra.
  - assert (U : IZR (o * n) / 65536 <= IZR (j + 1) - 129 / 65536).
    { destruct B as [_ B]. assert (B' : (o * n <= (j + 1) * 65536 - 129)%Z) by lia.
      apply IZR_le in B'. rewrite minus_IZR, (mult_IZR (j + 1)) in B'. lra. }
    assert (G : forall i, (0 < i <= 16)%Z -> (2 ^ (i - 1) < j + 1 <= 2 ^ i)%Z ->
                rnd32 (IZR (o * n) / 65536) < IZR (j + 1)).
    { intros i Hi Hb. apply rnd32_lt_int with i; try lia.
      apply Rle_lt_trans with (1 := U).
      assert (bpow radix2 (i - 24) <= bpow radix2 (-8)) by (apply bpow_le; lia).
      change (bpow radix2 (-8)) with (/ 256) in *. lra. }
    destruct (Z.eq_dec j 0) as [->|Nj].
    + apply Rle_lt_trans with (rnd32 (1 - / 1024)).
      * apply rnd_le. exact prec32_gt_0. rewrite plus_IZR in U. lra.
      * rewrite rnd_id; [change (IZR (0 + 1)) with 1; lra|].
        replace (1 - / 1024) with (IZR 1023 * bpow radix2 (-10)).
        apply fmt_scaled; [exact prec32_gt_0|vm_compute; discriminate|vm_compute; discriminate].
        change (bpow radix2 (-10)) with (/ 1024). lra.
    + destruct (binade (j + 1)) as [(i & Hi & E)|(i & Hi & E)]; [lia| |].
      * apply (G i).
        { assert (i <> 0)%Z by (intros ->; cbn in E; lia).
          assert (i < 17)%Z; [|lia]. apply (Z.pow_lt_mono_r_iff 2); lia. }
        rewrite E. assert (i <> 0)%Z by (intros ->; cbn in E; lia).
        split; [|lia]. apply Z.pow_lt_mono_r; lia.
      * apply (G i); [|lia]. split; [lia|].
        assert (i - 1 < 16)%Z; [|lia]. apply (Z.pow_lt_mono_r_iff 2); lia.
Qed.

(** Powers of two in ranges of 65409 .. 65536 values: 128 * 16 cases. *)
Definition hits (o j n : Z) : bool :=
  (0 <=? o)%Z && (o <=? 65535)%Z &&
  match OracleProportion o 0 (n - 1) with Ok r => (r =? j)%Z | _ => false end.

Definition exceptional (n : Z) : bool := (n =? 65522)%Z || (n =? 65524)%Z.

(** For the power 2^i, in integers: the least oracle stays below 2^i + 1 after rounding, or the one
    before it is rounded up to 2^i. *)
Definition check_power (i n : Z) : bool :=
  let o := least_oracle (2 ^ i) n in
  exceptional n || (n <=? 2 ^ i)%Z ||
  (o * n * 2 ^ 8 <? (2 ^ i + 1) * 2 ^ 24 - 2 ^ i)%Z ||
  ((0 <? i)%Z && (2 ^ i * 2 ^ 25 - 2 ^ i <? (o - 1) * n * 2 ^ 9)%Z).

Definition check_all : bool :=
  forallb (fun k => forallb (fun i => check_power (Z.of_nat i) (65409 + Z.of_nat k)) (seq 0 17))
          (seq 0 128).

Lemma check_all_ok : check_all = true.
Proof. vm_cast_no_check (eq_refl true). Qed.

Lemma hits_spec o j n : (1 <= n < 2 ^ 64)%Z -> hits o j n = true ->
  (0 <= o <= 65535)%Z /\ Zfloor (portion o n) = j.
Proof.
  intros Hn H. unfold hits in H. apply andb_prop in H as [H1 H]. apply andb_prop in H1 as [H1 H2].
  apply Z.leb_le in H1, H2. split; [lia|].
  destruct (oracle_eq o 0 (n - 1)) as [E _]; try lia. rewrite E in H.
  apply Z.eqb_eq in H. replace (n - 1 - 0 + 1)%Z with n in H by lia. lia.
Qed.

Lemma reach_power i n : (0 <= i <= 16)%Z -> (65409 <= n <= 65536)%Z -> exceptional n = false ->
  (2 ^ i < n)%Z -> exists o, (0 <= o <= 65535)%Z /\ Zfloor (portion o n) = (2 ^ i)%Z.
Proof.
  intros Hi Hn He Hp. assert (C := check_all_ok). unfold check_all in C.
  rewrite forallb_forall in C. specialize (C (Z.to_nat (n - 65409))).
  rewrite in_seq, forallb_forall in C. specialize (C ltac:(lia) (Z.to_nat i)).
  rewrite in_seq in C. specialize (C ltac:(lia)).
  rewrite !Z2Nat.id in C by lia. replace (65409 + (n - 65409))%Z with n in C by lia.
  unfold check_power in C. rewrite He in C. cbn [orb] in C.
  destruct (least_oracle_spec (2 ^ i) n) as [A B]; try lia.
  assert (Ho : (least_oracle (2 ^ i) n <= 65535)%Z) by (apply oracle_lt; lia).
  set (o := least_oracle (2 ^ i) n) in *. set (j := (2 ^ i)%Z) in *.
  assert (Pj : (1 <= j <= 65536)%Z).
  { subst j. split; [lia|]. change 65536%Z with (2 ^ 16)%Z. apply Z.pow_le_mono_r; lia. }
  assert (Fj : fmt32 (IZR j)) by (apply fmt32_int; lia).
  assert (Bj : bpow radix2 i = IZR j) by (subst j; apply bpow_IZR; lia).
  assert (Bi : bpow radix2 (i - 24) * 16777216 = IZR j).
  { rewrite <- Bj. change 16777216 with (bpow radix2 24). rewrite <- bpow_plus. f_equal. lia. }
  apply orb_prop in C as [C|C]; [apply orb_prop in C as [C|C]|].
  - apply Z.leb_le in C. lia.
  - apply Z.ltb_lt, IZR_lt in C. rewrite minus_IZR, !mult_IZR, plus_IZR in C.
    exists o. split; [lia|]. rewrite portion_exact by lia. apply floor_eq. split.
    + apply rnd_ge; auto. exact prec32_gt_0. destruct B as [B _]. apply IZR_le in B.
      rewrite mult_IZR in B at 1. lra.
    + apply rnd32_lt_int with (i + 1)%Z; [lia| |].
      * replace (i + 1 - 1)%Z with i by lia. fold j. split; [lia|].
        rewrite Z.pow_add_r by lia. fold j. lia.
      * replace (i + 1 - 24)%Z with ((i - 24) + 1)%Z by lia. rewrite bpow_plus.
        change (bpow radix2 1) with 2. rewrite mult_IZR, plus_IZR. lra.
  - apply andb_prop in C as [C1 C]. apply Z.ltb_lt in C1.
    apply Z.ltb_lt, IZR_lt in C. rewrite minus_IZR, !mult_IZR, minus_IZR in C.
    exists (o - 1)%Z. split; [nia|]. rewrite portion_exact by lia. apply floor_eq. split.
    + apply rnd32_ge_int with i; [lia| |].
      * fold j. split; [|lia]. subst j. apply Z.pow_lt_mono_r; lia.
      * rewrite mult_IZR, minus_IZR. lra.
    + apply Rle_lt_trans with (IZR j); [|apply IZR_lt; lia].
      apply rnd_le_gen; auto. exact prec32_gt_0.
      assert (B' : ((o - 1) * n <= j * 65536)%Z) by lia.
      apply IZR_le in B'. rewrite (mult_IZR j) in B'. lra.
Qed.

Lemma reach_all j n : (1 <= n <= 65536)%Z -> exceptional n = false -> (0 <= j < n)%Z ->
  exists o, (0 <= o <= 65535)%Z /\ Zfloor (portion o n) = j.
Proof.
  intros Hn He Hj. destruct (Z_le_gt_dec n 65408) as [L|G].
  - apply reach_small; lia.
  - destruct (Z.eq_dec j 0) as [->|Nj].
    + exists 0%Z. split; [lia|]. rewrite portion_exact by lia.
      replace (IZR (0 * n) / 65536) with 0 by (rewrite Z.mul_0_l; lra).
      rewrite rnd_0 by exact prec32_gt_0. apply Zfloor_IZR.
    + destruct (binade j) as [(i & Hi & E)|(i & Hi & E)]; [lia| |].
      * rewrite E in *. apply reach_power; try lia.
        split; [lia|]. apply (Z.pow_le_mono_r_iff 2); lia.
      * apply (reach_general j i n); try lia. split; [lia|].
        assert (i - 1 < 16)%Z; [|lia]. apply (Z.pow_lt_mono_r_iff 2); lia.
Qed.

(** A jump of the floor over [j] between two consecutive oracles. *)
Lemma jump o j n : (1 <= n <= 65536)%Z -> hits o (j - 1) n = true -> hits (o + 1) (j + 1) n = true ->
  forall o', (0 <= o' <= 65535)%Z -> Zfloor (portion o' n) <> j.
Proof.
  intros Hn H1 H2 o' Ho'.
  destruct (hits_spec o (j - 1) n) as [A1 A2]; try lia; auto.
  destruct (hits_spec (o + 1) (j + 1) n) as [B1 B2]; try lia; auto.
  destruct (Z_le_gt_dec o' o) as [L|G].
  - assert (X : portion o' n <= portion o n) by (apply portion_mono; lia).
    apply Zfloor_le in X. lia.
  - assert (X : portion (o + 1) n <= portion o' n) by (apply portion_mono; lia).
    apply Zfloor_le in X. lia.
Qed.
