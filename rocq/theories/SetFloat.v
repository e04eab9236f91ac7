(** The double arithmetic of GalleySet: proportional shares with carried remainder. *)
From Coq Require Import ZArith Reals Lia Lra.
From Flocq Require Import Core.Core IEEE754.BinarySingleNaN.
From Verif Require Import Base BaseFacts FloatModel FloatFacts PickFacts Oracle Galley VectorSpec.
Local Open Scope R_scope.

(** Unit roundoff of double. *)
Notation v := (/ 9007199254740992).

(** ** round() *)
Lemma cround_err r : Rabs (r - IZR (cround r)) <= / 2.
Proof.
  unfold cround. destruct (Rlt_bool_spec r 0) as [H|H].
  - pose proof (Zfloor_lb (- r + / 2)). pose proof (Zfloor_ub (- r + / 2)). rewrite opp_IZR. apply Rabs_le. lra.
  - pose proof (Zfloor_lb (r + / 2)). pose proof (Zfloor_ub (r + / 2)). apply Rabs_le. lra.
Qed.

Lemma cround_int z : cround (IZR z) = z.
Proof.
  unfold cround. destruct (Rlt_bool_spec (IZR z) 0) as [H|H].
  - rewrite <- (Z.opp_involutive z) at 2. f_equal. apply Zfloor_imp. rewrite plus_IZR, opp_IZR. lra.
  - apply Zfloor_imp. rewrite plus_IZR. lra.
Qed.

Lemma cround_nonneg r : - / 2 < r -> (0 <= cround r)%Z.
Proof.
  intros H. unfold cround. destruct (Rlt_bool_spec r 0) as [H0|H0].
  - replace (Zfloor (- r + / 2)) with 0%Z; [lia|]. symmetry. apply Zfloor_imp. cbn [Z.add]. lra.
  - apply Zfloor_lub. lra.
Qed.

Lemma cround_0 r : Rabs r < / 2 -> cround r = 0%Z.
Proof.
  intros H. apply Rabs_lt_inv in H. unfold cround. destruct (Rlt_bool_spec r 0) as [H0|H0].
  - replace (Zfloor (- r + / 2)) with 0%Z; [reflexivity|]. symmetry. apply Zfloor_imp. cbn [Z.add]. lra.
  - apply Zfloor_imp. cbn [Z.add]. lra.
Qed.

(** Subtracting the nearest integer is exact. *)
Lemma sub_int_fmt64 x r : fmt64 x -> (forall z, x = IZR z -> r = z) -> Rabs (x - IZR r) <= Rabs x -> fmt64 (x - IZR r).
Proof.
  intros F Hr Ha. rewrite (fexp_FLT prec64 emax64) in F |- *.
  apply FLT.FLT_format_generic in F; [|exact prec64_gt_0]. destruct F as [[m e] F1 F2 F3]. cbn [Fnum Fexp] in *.
  destruct (Z_le_gt_dec 0 e) as [He|He].
  - assert (x = IZR (m * 2 ^ e)) as E.
    { rewrite F1. unfold F2R. cbn [Fnum Fexp]. rewrite mult_IZR, <- (IZR_Zpower radix2) by lia. reflexivity. }
    rewrite (Hr _ E), E, Rminus_diag_eq by reflexivity. apply generic_format_0.
  - assert (E : x - IZR r = F2R (Defs.Float radix2 (m - r * 2 ^ (- e)) e)).
    { rewrite F1. unfold F2R. cbn [Fnum Fexp]. rewrite minus_IZR, mult_IZR, Rmult_minus_distr_r.
      rewrite (IZR_Zpower radix2) by lia. rewrite Rmult_assoc, <- bpow_plus.
      replace (- e + e)%Z with 0%Z by lia. cbn [bpow]. ring. }
    apply FLT.generic_format_FLT. exists (Defs.Float radix2 (m - r * 2 ^ (- e)) e); [exact E| |exact F3].
    cbn [Fnum]. apply Z.le_lt_trans with (2 := F2). apply le_IZR. rewrite !abs_IZR.
    rewrite E, F1 in Ha. unfold F2R in Ha. cbn [Fnum Fexp] in Ha. rewrite !Rabs_mult in Ha.
    apply Rmult_le_reg_r with (2 := Ha). apply Rabs_pos_lt. apply Rgt_not_eq. apply bpow_gt_0.
Qed.

Lemma cround_exact x : fmt64 x -> fmt64 (x - IZR (cround x)).
Proof.
  intros F. apply sub_int_fmt64; [exact F|intros z ->; apply cround_int|].
  destruct (Rlt_le_dec (Rabs x) (/ 2)) as [H|H].
  - rewrite cround_0 by exact H. rewrite Rminus_0_r. lra.
  - apply Rle_trans with (1 := cround_err x). exact H.
Qed.

(** ** Relative error *)
Definition near (e x y : R) : Prop := y * (1 - e) <= x <= y * (1 + e).

Lemma near_mul e1 e2 e x y x' y' : near e1 x y -> near e2 x' y' -> 0 <= y -> 0 <= y' ->
  0 <= e1 <= 1 -> 0 <= e2 <= 1 -> e1 + e2 + e1 * e2 <= e -> near e (x * x') (y * y').
Proof.
  intros [A1 A2] [B1 B2] Hy Hy' He1 He2 He. unfold near.
  assert (P : 0 <= y * y') by (apply Rmult_le_pos; assumption).
  assert (x0 : 0 <= x). { apply Rle_trans with (2 := A1). apply Rmult_le_pos; lra. }
  assert (x0' : 0 <= x'). { apply Rle_trans with (2 := B1). apply Rmult_le_pos; lra. }
  split.
  - apply Rle_trans with ((y * (1 - e1)) * (y' * (1 - e2))).
    + replace ((y * (1 - e1)) * (y' * (1 - e2))) with (y * y' * ((1 - e1) * (1 - e2))) by ring.
      apply Rmult_le_compat_l; [exact P|].
      assert (0 <= e1 * e2) by (apply Rmult_le_pos; lra). lra.
    + apply Rmult_le_compat; [apply Rmult_le_pos; lra|apply Rmult_le_pos; lra|exact A1|exact B1].
  - apply Rle_trans with ((y * (1 + e1)) * (y' * (1 + e2))).
    + apply Rmult_le_compat; assumption.
    + replace ((y * (1 + e1)) * (y' * (1 + e2))) with (y * y' * ((1 + e1) * (1 + e2))) by ring.
      apply Rmult_le_compat_l; [exact P|]. lra.
Qed.

Lemma near_inv e e' x y : near e x y -> 0 < y -> 0 <= e <= / 4 -> e + 2 * e * e <= e' -> near e' (/ x) (/ y).
Proof.
  intros [A1 A2] Hy He He'. assert (x0 : 0 < x). { apply Rlt_le_trans with (2 := A1). apply Rmult_lt_0_compat; lra. }
  assert (Hi : 0 < / y) by (apply Rinv_0_lt_compat; exact Hy). assert (Q : 0 <= e * e) by (apply Rmult_le_pos; lra).
  split; apply Rmult_le_reg_r with x; try exact x0; rewrite Rinv_l by lra.
  - apply Rle_trans with (/ y * (1 - e) * x).
    + apply Rmult_le_compat_r; [lra|]. apply Rmult_le_compat_l; lra.
    + apply Rle_trans with (/ y * (1 - e) * (y * (1 + e))).
      * apply Rmult_le_compat_l; [apply Rmult_le_pos; lra|exact A2].
      * replace (/ y * (1 - e) * (y * (1 + e))) with (1 - e * e) by (field; lra). lra.
  - apply Rle_trans with (/ y * (1 + (e + 2 * e * e)) * (y * (1 - e))).
    + replace (/ y * (1 + (e + 2 * e * e)) * (y * (1 - e))) with (1 + e * e * (1 - 2 * e)) by (field; lra).
      assert (0 <= e * e * (1 - 2 * e)) by (apply Rmult_le_pos; lra). lra.
    + apply Rle_trans with (/ y * (1 + e') * (y * (1 - e))).
      * apply Rmult_le_compat_r; [apply Rmult_le_pos; lra|]. apply Rmult_le_compat_l; lra.
      * apply Rmult_le_compat_l; [apply Rmult_le_pos; lra|exact A1].
Qed.

Lemma near_trans e1 e2 e x y z : near e1 x y -> near e2 y z -> 0 <= z -> 0 <= e1 <= 1 -> 0 <= e2 <= 1 ->
  e1 + e2 + e1 * e2 <= e -> near e x z.
Proof.
  intros [A B] [C D] Hz H1 H2 He. assert (Q : 0 <= e1 * e2) by (apply Rmult_le_pos; lra).
  assert (z * (e1 + e2 + e1 * e2) <= z * e) by (apply Rmult_le_compat_l; assumption).
  assert (0 <= z * (e1 * e2)) by (apply Rmult_le_pos; assumption).
  split.
  - apply Rle_trans with (2 := A). apply Rle_trans with (z * (1 - e2) * (1 - e1)); [|apply Rmult_le_compat_r; lra]. lra.
  - apply Rle_trans with (1 := B). apply Rle_trans with (z * (1 + e2) * (1 + e1)); [apply Rmult_le_compat_r; lra|]. lra.
Qed.

Lemma near_weak e e' x y : near e x y -> 0 <= y -> e <= e' -> near e' x y.
Proof.
  intros [A B] Hy He. assert (y * e <= y * e') by (apply Rmult_le_compat_l; assumption). unfold near. lra.
Qed.

Lemma near_refl x : near 0 x x.
Proof. unfold near. lra. Qed.

(** Zero or not very small. *)
Definition big (x : R) : Prop := x = 0 \/ bpow radix2 (-200) <= x.

Lemma fmt_big : fmt64 (bpow radix2 (-200)).
Proof. apply generic_format_bpow. vm_compute. discriminate. Qed.

Lemma big_pos x : big x -> 0 <= x.
Proof. intros [->|H]; [lra|]. pose proof (bpow_gt_0 radix2 (-200)). lra. Qed.

Lemma big_rnd x : big x -> big (rnd64 x).
Proof.
  intros [->|H]; [left; apply (rnd_0 prec64 emax64)|right]. apply rnd64_ge_fmt; [apply fmt_big|exact H].
Qed.

Lemma big_plus x y : big x -> big y -> big (x + y).
Proof.
  intros Hx Hy. pose proof (big_pos _ Hx). pose proof (big_pos _ Hy).
  destruct Hx as [->|Hx]; [rewrite Rplus_0_l; exact Hy|right; lra].
Qed.

Lemma near_rnd x : big x -> near v (rnd64 x) x.
Proof.
  intros H. pose proof (big_pos _ H) as H0. generalize (rnd_rel_pos prec64 emax64 prec64_gt_0 x H0).
  change (bpow radix2 (- prec64)) with v. intros G. apply G. destruct H as [H|H]; [left; exact H|right].
  apply Rle_trans with (2 := H). apply bpow_le. vm_compute. discriminate.
Qed.

Lemma near_rnd' e e' x y : big x -> near e x y -> 0 <= y -> 0 <= e <= 1 -> e + v + e * v <= e' -> near e' (rnd64 x) y.
Proof.
  intros Hb H Hy He He'. pose proof (near_rnd _ Hb) as [A B]. destruct H as [C D].
  assert (P : 0 <= y * e) by (apply Rmult_le_pos; lra).
  assert (Q : y * (e + v + e * v) <= y * e') by (apply Rmult_le_compat_l; assumption).
  split.
  - apply Rle_trans with (2 := A). apply Rle_trans with (y * (1 - e) * (1 - v)); [|apply Rmult_le_compat_r; lra]. lra.
  - apply Rle_trans with (1 := B). apply Rle_trans with (y * (1 + e) * (1 + v)); [apply Rmult_le_compat_r; lra|]. lra.
Qed.

(** ** Floating sums *)
Fixpoint rsum (l : list R) : R := match l with [] => 0 | x :: r => x + rsum r end.

Lemma fold_near (xs : list f64) : forall rs t tr s i, Forall2 fin xs rs -> Forall big rs ->
  fin t tr -> big tr -> 0 <= s -> 0 <= i -> i + IZR (zlen xs) <= 70000 -> near (i * (2 * v)) tr s ->
  s + rsum rs <= bpow radix2 60 ->
  exists tr', fin (fold_left f64_add xs t) tr' /\ big tr' /\ near ((i + IZR (zlen xs)) * (2 * v)) tr' (s + rsum rs).
Proof.
  induction xs as [|x xs IH]; intros rs t tr s i Hx Hb Ft Bt Hs Hi Hn Ht Hm.
  - inversion Hx; subst. exists tr. cbn [fold_left rsum]. change (zlen []) with 0%Z.
    rewrite !Rplus_0_r. split; [exact Ft|]. split; [exact Bt|exact Ht].
  - inversion Hx as [|? r0 ? rs' Fx Hx' ]; subst. rename rs' into rs. cbn [rsum fold_left] in *.
    pose proof (Forall_inv Hb) as B0. apply Forall_inv_tail in Hb. cbv beta in B0. pose proof (big_pos _ B0) as P0.
    assert (Pr : 0 <= rsum rs). { clear - Hb. induction Hb as [|a l Ha H IH']; cbn [rsum]; [lra|]. pose proof (big_pos _ Ha). lra. }
    rewrite zlen_cons, plus_IZR in *. pose proof (IZR_le _ _ (zlen_nonneg xs)) as Z0. cbn [IZR] in Z0.
    change (IZR 0) with 0 in *.
    assert (Bs : big (tr + r0)) by (apply big_plus; assumption).
    assert (V0 : 0 <= i * (2 * v)) by (apply Rmult_le_pos; lra).
    assert (Hi2 : i * (2 * v) <= 70000 * (2 * v)) by (apply Rmult_le_compat_r; lra).
    assert (Tup : tr <= s * 2). { destruct Ht as [_ Ht]. apply Rle_trans with (1 := Ht). apply Rmult_le_compat_l; lra. }
    assert (F' : fin (f64_add t x) (rnd64 (tr + r0))).
    { apply (plus_fin _ _ _ _ _ _ _ _ 62%Z Ft Fx); [vm_compute; split; [discriminate|reflexivity]|].
      rewrite Rabs_pos_eq by (apply big_pos; exact Bs).
      replace (bpow radix2 62) with (4 * bpow radix2 60) by (change 62%Z with (2 + 60)%Z; rewrite bpow_plus; reflexivity).
      pose proof (bpow_gt_0 radix2 60). lra. }
    assert (N1 : near (i * (2 * v)) (tr + r0) (s + r0)).
    { destruct Ht as [T1 T2]. assert (0 <= r0 * (i * (2 * v))) by (apply Rmult_le_pos; lra). unfold near. lra. }
    assert (N2 : near ((i + 1) * (2 * v)) (rnd64 (tr + r0)) (s + r0)).
    { apply near_rnd' with (e := i * (2 * v)); [exact Bs|exact N1|lra|lra|].
      assert (i * (2 * v) * v <= 1 * v) by (apply Rmult_le_compat_r; lra). lra. }
    destruct (IH rs (f64_add t x) _ (s + r0) (i + 1) Hx' Hb F' (big_rnd _ Bs)) as (tr' & F2 & B2 & N3); try lra.
    { exact N2. }
    exists tr'. split; [exact F2|]. split; [exact B2|].
    replace (i + (IZR (zlen xs) + 1)) with (i + 1 + IZR (zlen xs)) by ring.
    replace (s + (r0 + rsum rs)) with (s + r0 + rsum rs) by ring. exact N3.
Qed.

(** ** Sizes with carried remainder *)
Fixpoint shares (k : f64) (xs : list f64) (rem : f64) : res (list Z) :=
  match xs with
  | [] => Ok []
  | a :: xs' =>
      el <-- to_int (Bround_Z (f64_add (f64_mul a k) rem)) ;;
      r <-- shares k xs' (f64_sub (f64_add (f64_mul a k) rem) (f64_of_Z el)) ;;
      Ok (el :: r)
  end.

(** The same without the limits of [int]. *)
Fixpoint rounds (k : f64) (xs : list f64) (rem : f64) : res (list Z) :=
  match xs with
  | [] => Ok []
  | a :: xs' =>
      el <-- match Bround_Z (f64_add (f64_mul a k) rem) with Some z => Ok z | None => UB end ;;
      r <-- rounds k xs' (f64_sub (f64_add (f64_mul a k) rem) (f64_of_Z el)) ;;
      Ok (el :: r)
  end.

Lemma shares_rounds k xs : forall rem es, rounds k xs rem = Ok es -> Forall (fun e => - 2 ^ 31 <= e < 2 ^ 31)%Z es -> shares k xs rem = Ok es.
Proof.
  induction xs as [|a xs IH]; intros rem es H Hi; [exact H|]. cbn [rounds shares] in *.
  destruct (Bround_Z (f64_add (f64_mul a k) rem)) as [z|]; [|discriminate H]. cbn [rbind] in H.
  destruct (rounds k xs (f64_sub (f64_add (f64_mul a k) rem) (f64_of_Z z))) as [es'| | | |] eqn:E; try discriminate H.
  injection H as <-. pose proof (Forall_inv Hi) as Hz. apply Forall_inv_tail in Hi. cbv beta in Hz.
  cbn [to_int]. rewrite int_op_ok by lia. cbn [rbind]. rewrite (IH _ _ E Hi). reflexivity.
Qed.

Notation dl := (/ 34359738368).     (* 2^-35 *)
Notation step := (/ 4194304).       (* 2^-22 *)

(** The part of weight [w] out of [W]. *)
Definition part (F W w : Z) : R := IZR F * (IZR w / IZR W).

Definition good (F W : Z) (k : f64) (a : f64) (w : Z) : Prop :=
  exists x, fin (f64_mul a k) x /\ near dl x (part F W w).

Lemma part_add F W a c : part F W (a + c) = part F W a + part F W c.
Proof. unfold part. rewrite plus_IZR. unfold Rdiv. ring. Qed.

Lemma part_range F W w : (0 <= F)%Z -> (0 < W)%Z -> (0 <= w <= W)%Z -> 0 <= part F W w <= IZR F.
Proof.
  intros HF HW Hw. unfold part. assert (A := IZR_le _ _ HF). assert (D := IZR_lt _ _ HW). cbn [IZR] in *.
  assert (B := IZR_le _ _ (proj1 Hw)). assert (C := IZR_le _ _ (proj2 Hw)). change (IZR 0) with 0 in *.
  assert (0 <= IZR w / IZR W) by (apply Rmult_le_pos; [lra|left; apply Rinv_0_lt_compat; lra]).
  assert (IZR w / IZR W <= 1) by (apply Rmult_le_reg_r with (IZR W); [lra|]; unfold Rdiv; rewrite Rmult_assoc, Rinv_l; lra).
  split; [apply Rmult_le_pos; lra|]. rewrite <- (Rmult_1_r (IZR F)) at 2. apply Rmult_le_compat_l; lra.
Qed.

Lemma part_cross F W w z : (0 < W)%Z -> Rabs (IZR z - part F W w) <= 5 / 8 ->
  (8 * Z.abs (z * W - F * w) <= 5 * W)%Z.
Proof.
  intros HW H. assert (D := IZR_lt _ _ HW). change (IZR 0) with 0 in D. apply le_IZR.
  rewrite !mult_IZR, abs_IZR, minus_IZR, !mult_IZR.
  replace (IZR z * IZR W - IZR F * IZR w) with ((IZR z - part F W w) * IZR W) by (unfold part; field; lra).
  rewrite Rabs_mult, (Rabs_pos_eq (IZR W)) by lra.
  assert (Rabs (IZR z - part F W w) * IZR W <= 5 / 8 * IZR W) by (apply Rmult_le_compat_r; lra). lra.
Qed.

Lemma fmt_half : fmt64 (- / 2 + bpow radix2 (-49)).
Proof.
  replace (- / 2 + bpow radix2 (-49)) with (IZR (- 281474976710655) * bpow radix2 (-49)).
  - apply fmt_scaled; [exact prec64_gt_0|vm_compute; discriminate|vm_compute; discriminate].
  - change (- / 2) with (- bpow radix2 (-1)). change (-1)%Z with (48 + -49)%Z. rewrite bpow_plus.
    change (bpow radix2 48) with 281474976710656. ring.
Qed.

Lemma rounds_run F W k : (0 <= F <= 2 ^ 31)%Z -> (0 < W <= 2 ^ 48)%Z ->
  forall xs ws pre C rem r j, Forall2 (good F W k) xs ws -> Forall (fun w => 0 <= w)%Z ws ->
  (0 <= pre)%Z -> (pre + sum ws <= W)%Z -> fin rem r -> Rabs r <= / 2 -> (F = 0%Z -> r = 0) ->
  Rabs (IZR C + r - part F W pre) <= dl * part F W pre + IZR j * step ->
  (0 <= j)%Z -> (j + zlen xs <= 65536)%Z ->
  exists es, rounds k xs rem = Ok es /\ Forall (fun e => - F <= e <= F)%Z es /\ Forall2 (fun w e => w <> 0 -> 0 <= e)%Z ws es
    /\ forall m, (8 * Z.abs ((C + sum (firstn m es)) * W - F * (pre + sum (firstn m ws))) <= 5 * W)%Z.
Proof.
  intros HF HW.
  assert (F0 := IZR_le _ _ (proj1 HF)). assert (F1 := IZR_le _ _ (proj2 HF)). change (2 ^ 31)%Z with 2147483648%Z in F1.
  change (IZR 0) with 0 in F0.
  assert (Close : forall C r pre j, Rabs r <= / 2 -> (0 <= j <= 65536)%Z -> (0 <= pre <= W)%Z ->
    Rabs (IZR C + r - part F W pre) <= dl * part F W pre + IZR j * step -> Rabs (IZR C - part F W pre) <= 5 / 8).
  { intros C r pre j Hr Hj Hp H. pose proof (part_range F W pre (proj1 HF) ltac:(lia) Hp).
    assert (J := IZR_le _ _ (proj2 Hj)). apply Rabs_le_inv in Hr. apply Rabs_le_inv in H. apply Rabs_le. lra. }
  assert (Range : forall C r pre j, Rabs r <= / 2 -> (0 <= j <= 65536)%Z -> (0 <= pre <= W)%Z ->
    Rabs (IZR C + r - part F W pre) <= dl * part F W pre + IZR j * step -> (0 <= C <= F)%Z).
  { intros C r pre j Hr Hj Hp H. pose proof (Close _ _ _ _ Hr Hj Hp H) as K. pose proof (part_range F W pre (proj1 HF) ltac:(lia) Hp).
    apply Rabs_le_inv in K. split.
    - apply Zlt_succ_le. unfold Z.succ. apply lt_IZR. rewrite plus_IZR. lra.
    - apply Zlt_succ_le. unfold Z.succ. apply lt_IZR. rewrite plus_IZR. lra. }
  induction xs as [|x xs IH]; intros ws pre C rem r j Hg Hw Hp Hpw Fr Hr Hz Hc Hj Hn.
  - inversion Hg; subst. exists []. split; [reflexivity|]. split; [constructor|]. split; [constructor|].
    change (zlen []) with 0%Z in Hn. cbn [sum fold_right] in Hpw.
    intros m. rewrite !firstn_nil. cbn [sum fold_right]. rewrite !Z.add_0_r.
    apply part_cross; [lia|]. apply (Close C r pre j); auto; lia.
  - inversion Hg as [|? w ? ws' G Hg']; subst. rename ws' into ws. cbn [sum fold_right] in Hpw. fold (sum ws) in Hpw.
    pose proof (Forall_inv Hw) as Hw0. apply Forall_inv_tail in Hw. cbv beta in Hw0.
    assert (S0 : (0 <= sum ws)%Z). { clear - Hw. induction Hw; [cbn; lia|]. cbn [sum fold_right]. fold (sum l). lia. }
    rewrite zlen_cons in Hn. pose proof (zlen_nonneg xs) as Hx0.
    destruct G as (y & Fy & Ny).
    pose proof (part_range F W w (proj1 HF) ltac:(lia) ltac:(lia)) as Pw.
    pose proof (part_range F W (pre + w) (proj1 HF) ltac:(lia) ltac:(lia)) as Pp. rewrite part_add in Pp.
    set (Y := part F W w) in *. set (P := part F W pre) in *.
    assert (Yb : 0 <= y). { destruct Ny as [A _]. apply Rle_trans with (2 := A). apply Rmult_le_pos; lra. }
    assert (Yu : y - Y <= Y * dl /\ Y - y <= Y * dl) by (destruct Ny; split; lra).
    pose proof (Rabs_le_inv _ _ Hr) as Hr2.
    assert (Fl : fin (f64_add (f64_mul x k) rem) (rnd64 (y + r))).
    { apply (plus_fin _ _ _ _ _ _ _ _ 32%Z Fy Fr); [vm_compute; split; [discriminate|reflexivity]|].
      change (bpow radix2 32) with 4294967296. apply Rabs_le. lra. }
    assert (El : Rabs (rnd64 (y + r) - (y + r)) <= step).
    { replace step with (bpow radix2 (32 - prec64) / 2).
      - apply rnd_err; [exact prec64_gt_0|vm_compute; discriminate|].
        change (bpow radix2 32) with 4294967296. apply Rabs_lt. lra.
      - change (bpow radix2 (32 - prec64)) with (/ 2097152). field. }
    set (len := rnd64 (y + r)) in *. set (e := cround len).
    assert (Ee : Rabs (len - IZR e) <= / 2) by apply cround_err.
    assert (Hc' : Rabs (IZR (C + e) + (len - IZR e) - part F W (pre + w)) <= dl * part F W (pre + w) + IZR (j + 1) * step).
    { rewrite !part_add, !plus_IZR. fold Y P. replace (IZR C + IZR e + (len - IZR e) - (P + Y)) with (IZR C + len - (P + Y)) by ring.
      apply Rabs_le_inv in Hc. apply Rabs_le_inv in El. apply Rabs_le. lra. }
    pose proof (Range C r pre j Hr ltac:(lia) ltac:(lia) Hc) as RC.
    pose proof (Range (C + e)%Z (len - IZR e) (pre + w)%Z (j + 1)%Z Ee ltac:(lia) ltac:(lia) Hc') as RC'.
    assert (Ti : Bround_Z (f64_add (f64_mul x k) rem) = Some e).
    { rewrite (round_fin _ _ _ _ Fl). reflexivity. }
    assert (Fe : fin (f64_of_Z e) (IZR e)) by (apply of_Z_exact; change (2 ^ prec64)%Z with 9007199254740992%Z; lia).
    assert (Fs : fin (f64_sub (f64_add (f64_mul x k) rem) (f64_of_Z e)) (len - IZR e)).
    { rewrite <- (rnd_id prec64 emax64 (len - IZR e)) by (apply cround_exact; apply (fin_fmt _ _ _ _ Fl)).
      apply (minus_fin _ _ _ _ _ _ _ _ 1%Z Fl Fe); [vm_compute; split; [discriminate|reflexivity]|].
      change (bpow radix2 1) with 2. lra. }
    destruct (IH ws (pre + w)%Z (C + e)%Z _ _ (j + 1)%Z Hg' Hw ltac:(lia) ltac:(lia) Fs Ee) as (es & Es & Ei & En & Ec); try lia.
    { intros HF0. pose proof (Hz HF0) as R0. assert (Y = 0) by (unfold Y, part; rewrite HF0; ring).
      assert (len = 0) as L0. { unfold len. replace (y + r) with 0 by lra. apply (rnd_0 prec64 emax64). }
      unfold e. rewrite L0, (cround_int 0). ring. }
    { exact Hc'. }
    exists (e :: es). split.
    { cbn [rounds]. rewrite Ti. cbn [rbind]. rewrite Es. reflexivity. }
    split; [constructor; [lia|exact Ei]|]. split.
    { constructor; [|exact En]. intros Hw1. destruct (Z.eq_dec F 0) as [HF0|HF0].
      - pose proof (Hz HF0) as R0. assert (Y = 0) by (unfold Y, part; rewrite HF0; ring).
        unfold e. replace len with (IZR 0); [rewrite cround_int; lia|].
        unfold len. replace (y + r) with 0 by lra. symmetry. apply (rnd_0 prec64 emax64).
      - apply cround_nonneg. apply Rlt_le_trans with (- / 2 + bpow radix2 (-49)).
        + pose proof (bpow_gt_0 radix2 (-49)). lra.
        + apply rnd64_ge_fmt; [apply fmt_half|]. assert (bpow radix2 (-49) <= y); [|lra].
          assert (HY : bpow radix2 (-48) <= Y).
          { unfold Y, part. change (bpow radix2 (-48)) with (/ 281474976710656).
            assert (A : 1 <= IZR F) by (apply IZR_le; lia). assert (B : 1 <= IZR w) by (apply IZR_le; lia).
            assert (D := IZR_lt _ _ (proj1 HW)). assert (E := IZR_le _ _ (proj2 HW)). change (2 ^ 48)%Z with 281474976710656%Z in E.
            change (IZR 0) with 0 in D.
            assert (I : / 281474976710656 <= / IZR W) by (apply Rinv_le; lra).
            assert (0 < / IZR W) by (apply Rinv_0_lt_compat; lra).
            apply Rle_trans with (1 := I). unfold Rdiv. rewrite <- Rmult_assoc.
            rewrite <- (Rmult_1_l (/ IZR W)) at 1. apply Rmult_le_compat_r; [lra|].
            rewrite <- (Rmult_1_r 1). apply Rmult_le_compat; lra. }
          change (bpow radix2 (-49)) with (/ 562949953421312). change (bpow radix2 (-48)) with (/ 281474976710656) in HY.
          destruct Ny as [A _]. lra. }
    intros [|m].
    + cbn [firstn sum fold_right]. rewrite !Z.add_0_r. apply part_cross; [lia|]. apply (Close C r pre j); auto; lia.
    + cbn [firstn sum fold_right]. fold (sum (firstn m es)). fold (sum (firstn m ws)).
      rewrite !Z.add_assoc. apply Ec.
Qed.

Lemma shares_run F W k : (0 <= F < 2 ^ 31)%Z -> (0 < W <= 2 ^ 48)%Z ->
  forall xs ws pre C rem r j, Forall2 (good F W k) xs ws -> Forall (fun w => 0 <= w)%Z ws ->
  (0 <= pre)%Z -> (pre + sum ws <= W)%Z -> fin rem r -> Rabs r <= / 2 -> (F = 0%Z -> r = 0) ->
  Rabs (IZR C + r - part F W pre) <= dl * part F W pre + IZR j * step ->
  (0 <= j)%Z -> (j + zlen xs <= 65536)%Z ->
  exists es, shares k xs rem = Ok es /\ Forall2 (fun w e => w <> 0 -> 0 <= e)%Z ws es
    /\ forall m, (8 * Z.abs ((C + sum (firstn m es)) * W - F * (pre + sum (firstn m ws))) <= 5 * W)%Z.
Proof.
  intros HF HW xs ws pre C rem r j Hg Hw Hp Hpw Fr Hr Hz Hc Hj Hn.
  destruct (rounds_run F W k ltac:(lia) HW xs ws pre C rem r j Hg Hw Hp Hpw Fr Hr Hz Hc Hj Hn) as (es & E & I & P & Q).
  exists es. split; [|split; assumption]. apply shares_rounds; [exact E|]. eapply Forall_impl; [|exact I]. cbv beta. intros. lia.
Qed.

(** ** The coefficients *)
(** [x] is (nearly) [c] times the weight [w]. *)
Definition scaled (c : R) (x : f64) (w : Z) : Prop := exists r, fin x r /\ near (4 * v) r (c * IZR w).

Lemma bpow_big k : (-200 <= k)%Z -> bpow radix2 (-200) <= bpow radix2 k.
Proof. intros H. apply bpow_le. exact H. Qed.

Lemma scaled_reals c xs ws : bpow radix2 (-20) <= c -> Forall (fun w => 0 <= w)%Z ws -> Forall2 (scaled c) xs ws ->
  exists rs, Forall2 fin xs rs /\ Forall (fun r => r = 0 \/ bpow radix2 (-21) <= r) rs
    /\ near (4 * v) (rsum rs) (c * IZR (sum ws)).
Proof.
  intros Hc Hw H. change (bpow radix2 (-20)) with (/ 1048576) in Hc. change (bpow radix2 (-21)) with (/ 2097152).
  induction H as [|x w xs ws (r & Fr & Nr) H IH].
  - exists []. split; [constructor|]. split; [constructor|]. cbn [rsum sum fold_right]. unfold near. change (IZR 0) with 0. lra.
  - pose proof (Forall_inv Hw) as H0. apply Forall_inv_tail in Hw. cbv beta in H0.
    destruct (IH Hw) as (rs & R1 & R2 & R3). exists (r :: rs). split; [constructor; assumption|]. split.
    + constructor; [|exact R2]. destruct Nr as [A B]. destruct (Z.eq_dec w 0) as [->|N].
      * left. change (IZR 0) with 0 in *. lra.
      * right. assert (1 <= IZR w) by (apply IZR_le; lia).
        assert (c * 1 <= c * IZR w) by (apply Rmult_le_compat_l; lra).
        assert ((c * IZR w) * (1 - 4 * v) >= / 1048576 * (1 - 4 * v)) by (apply Rle_ge; apply Rmult_le_compat_r; lra). lra.
    + cbn [rsum sum fold_right]. fold (sum ws). rewrite plus_IZR. destruct Nr, R3. unfold near. lra.
Qed.

Lemma shares_good F c xs ws : (0 <= F <= 2 ^ 31)%Z -> bpow radix2 (-20) <= c <= 1 ->
  Forall (fun w => 0 <= w)%Z ws -> (1 <= sum ws <= 2 ^ 48)%Z -> Forall2 (scaled c) xs ws -> (zlen xs <= 65536)%Z ->
  let T := fold_left f64_add xs (f64_of_Z 0) in
  exists t, fin T t /\ 0 < t /\ near (/ 60000000000) t (c * IZR (sum ws))
    /\ Forall2 (good F (sum ws) (f64_div (f64_of_Z F) T)) xs ws.
Proof.
  intros HF Hc Hw HW Hs Hn T.
  destruct (scaled_reals c xs ws (proj1 Hc) Hw Hs) as (rs & R1 & R2 & R3).
  change (bpow radix2 (-20)) with (/ 1048576) in Hc. change (bpow radix2 (-21)) with (/ 2097152) in R2.
  assert (W0 := IZR_le _ _ (proj1 HW)). assert (W1 := IZR_le _ _ (proj2 HW)). change (2 ^ 48)%Z with 281474976710656%Z in W1.
  assert (F0 := IZR_le _ _ (proj1 HF)). assert (F1 := IZR_le _ _ (proj2 HF)). change (2 ^ 31)%Z with 2147483648%Z in F1.
  change (IZR 0) with 0 in F0. set (W := IZR (sum ws)) in *.
  assert (cW0 : / 1048576 <= c * W) by (rewrite <- (Rmult_1_r (/ 1048576)); apply Rmult_le_compat; lra).
  assert (cW1 : c * W <= 281474976710656) by (rewrite <- (Rmult_1_l 281474976710656); apply Rmult_le_compat; lra).
  assert (B200 : bpow radix2 (-200) <= / 2097152) by (change (/ 2097152) with (bpow radix2 (-21)); apply bpow_big; lia).
  assert (Bg : Forall big rs).
  { eapply Forall_impl; [|exact R2]. intros a [Ha|Ha]; [left; exact Ha|right; lra]. }
  assert (Fz : fin (f64_of_Z 0) 0) by (apply of_Z_exact; vm_compute; discriminate).
  assert (Hn' := IZR_le _ _ Hn). assert (Hn0 := IZR_le _ _ (zlen_nonneg xs)). change (IZR 0) with 0 in Hn0.
  assert (B60 : bpow radix2 60 = 1152921504606846976) by reflexivity.
  destruct (fold_near xs rs (f64_of_Z 0) 0 0 0 R1 Bg Fz (or_introl eq_refl)) as (t & Ft & Bt & Nt); try lra.
  { unfold near. lra. } { rewrite B60. destruct R3 as [_ R3]. lra. }
  rewrite !Rplus_0_l in Nt.
  assert (Rs0 : 0 <= rsum rs). { destruct R3 as [R3 _]. lra. }
  assert (Nt2 : near (65536 * (2 * v)) t (rsum rs)).
  { apply near_weak with (1 := Nt); [exact Rs0|]. apply Rmult_le_compat_r; lra. }
  assert (Nt3 : near (/ 68719476736 + 5 * v) t (c * W)).
  { apply near_trans with (1 := Nt2) (2 := R3); lra. }
  assert (T0 : / 2097152 <= t) by (destruct Nt3 as [A _]; lra).
  assert (T1 : t <= 562949953421312) by (destruct Nt3 as [_ A]; lra).
  exists t. split; [exact Ft|]. split; [lra|]. split; [apply near_weak with (1 := Nt3); lra|].
  assert (It0 : 0 < / t) by (apply Rinv_0_lt_compat; lra).
  assert (It : / t <= 2097152).
  { replace 2097152 with (/ / 2097152) by (field). apply Rinv_le; lra. }
  assert (FF : fin (f64_of_Z F) (IZR F)) by (apply of_Z_exact; change (2 ^ prec64)%Z with 9007199254740992%Z; lia).
  assert (Q0 : 0 <= IZR F / t) by (apply Rmult_le_pos; lra).
  assert (Q1 : IZR F / t <= 4503599627370496).
  { replace 4503599627370496 with (2147483648 * 2097152) by ring. apply Rmult_le_compat; lra. }
  set (kr := rnd64 (IZR F / t)).
  assert (Fk : fin (f64_div (f64_of_Z F) T) kr).
  { apply (div_fin _ _ _ _ _ _ _ _ 60%Z FF Ft); [intros X; lra|vm_compute; split; [discriminate|reflexivity]|].
    rewrite B60, Rabs_pos_eq; lra. }
  assert (Bq : IZR F / t = 0 \/ bpow radix2 (-50) <= IZR F / t).
  { destruct (Z.eq_dec F 0) as [->|N]; [left; change (IZR 0) with 0; unfold Rdiv; ring|right].
    change (bpow radix2 (-50)) with (/ 1125899906842624). assert (1 <= IZR F) by (apply IZR_le; lia).
    assert (/ 562949953421312 <= / t) by (apply Rinv_le; lra).
    apply Rle_trans with (1 * / t); [lra|]. apply Rmult_le_compat_r; lra. }
  assert (Bq' : big (IZR F / t)).
  { destruct Bq as [Bq|Bq]; [left; exact Bq|right]. apply Rle_trans with (2 := Bq). apply bpow_big. lia. }
  assert (Bk : kr = 0 \/ bpow radix2 (-50) <= kr).
  { destruct Bq as [Bq|Bq]; [left; unfold kr; rewrite Bq; apply (rnd_0 prec64 emax64)|right].
    apply rnd64_ge_fmt; [apply generic_format_bpow; vm_compute; discriminate|exact Bq]. }
  assert (Nk : near (/ 68719476736 + 8 * v) kr (IZR F * / (c * W))).
  { assert (I1 : near (/ 68719476736 + 6 * v) (/ t) (/ (c * W))) by (apply near_inv with (1 := Nt3); lra).
    assert (P0 : 0 < / (c * W)) by (apply Rinv_0_lt_compat; lra).
    apply near_rnd' with (e := / 68719476736 + 6 * v); [exact Bq'| |apply Rmult_le_pos; lra|lra|lra].
    apply (near_mul 0 (/ 68719476736 + 6 * v)); try lra; [apply near_refl|exact I1]. }
  assert (Pt : forall x w, (0 <= w <= sum ws)%Z -> scaled c x w -> good F (sum ws) (f64_div (f64_of_Z F) T) x w).
  { intros x w Hw1 (r & Fr & Nr). exists (rnd64 (r * kr)).
    assert (w0 := IZR_le _ _ (proj1 Hw1)). assert (w1 := IZR_le _ _ (proj2 Hw1)). fold W in w1. change (IZR 0) with 0 in w0.
    assert (cw : 0 <= c * IZR w) by (apply Rmult_le_pos; lra).
    assert (P0 : 0 < / (c * W)) by (apply Rinv_0_lt_compat; lra).
    assert (FP : 0 <= IZR F * / (c * W)) by (apply Rmult_le_pos; lra).
    assert (Ep : c * IZR w * (IZR F * / (c * W)) = part F (sum ws) w).
    { unfold part. fold W. field. split; intros X; lra. }
    assert (Np : near (/ 68719476736 + 13 * v) (r * kr) (part F (sum ws) w)).
    { rewrite <- Ep. apply (near_mul (4 * v) (/ 68719476736 + 8 * v)); try lra; [exact Nr|exact Nk]. }
    pose proof (part_range F (sum ws) w (proj1 HF) ltac:(lia) Hw1) as Pr.
    assert (r0 : r = 0 \/ bpow radix2 (-21) <= r).
    { destruct (Z.eq_dec w 0) as [->|N].
      - left. destruct Nr as [A B]. change (IZR 0) with 0 in *. lra.
      - right. change (bpow radix2 (-21)) with (/ 2097152). assert (1 <= IZR w) by (apply IZR_le; lia).
        assert (/ 1048576 * 1 <= c * IZR w) by (apply Rmult_le_compat; lra). destruct Nr as [A B]. lra. }
    assert (Bp : big (r * kr)).
    { destruct r0 as [->|r0]; [left; ring|]. destruct Bk as [->|Bk]; [left; ring|right].
      apply Rle_trans with (bpow radix2 (-21) * bpow radix2 (-50)).
      - rewrite <- bpow_plus. apply bpow_big. lia.
      - apply Rmult_le_compat; try apply bpow_ge_0; assumption. }
    split.
    - apply (mult_fin _ _ _ _ _ _ _ _ 60%Z Fr Fk); [vm_compute; split; [discriminate|reflexivity]|].
      rewrite B60, Rabs_pos_eq by (apply big_pos; exact Bp). destruct Np as [_ A]. lra.
    - apply near_rnd' with (1 := Bp) (2 := Np); lra. }
  assert (Sw : Forall (fun w => 0 <= w <= sum ws)%Z ws).
  { clear - Hw. induction Hw as [|w ws Hw H IH]; constructor; cbn [sum fold_right]; fold (sum ws).
    - assert (0 <= sum ws)%Z by (clear - H; induction H; [cbn; lia|]; cbn [sum fold_right]; fold (sum l); lia). lia.
    - eapply Forall_impl; [|exact IH]. cbv beta. intros. lia. }
  clearbody T. clear - Sw Hs Pt. revert Sw Pt. generalize (sum ws). intros S Sw Pt.
  induction Hs as [|x w xs ws Hx H IH]; constructor.
  - apply Pt; [exact (Forall_inv Sw)|exact Hx].
  - apply IH. exact (Forall_inv_tail Sw).
Qed.

(** ** Modifiers *)
Lemma scaled_oracle o : oracle16 o -> scaled (/ 65535) (f64_div (f64_of_Z o) (f64_of_Z ORACLE_MAX)) o.
Proof.
  intros [H0 H1]. assert (A := IZR_le _ _ H0). assert (B := IZR_le _ _ H1). change (IZR 0) with 0 in A.
  assert (F1 : fin (f64_of_Z o) (IZR o)) by (apply of_Z_exact; change (2 ^ prec64)%Z with 9007199254740992%Z; lia).
  assert (F2 : fin (f64_of_Z ORACLE_MAX) 65535) by (apply of_Z_exact; vm_compute; discriminate).
  exists (rnd64 (IZR o / 65535)). split.
  - apply (div_fin _ _ _ _ _ _ _ _ 1%Z F1 F2); [intros X; lra|vm_compute; split; [discriminate|reflexivity]|].
    change (bpow radix2 1) with 2. rewrite Rabs_pos_eq; lra.
  - assert (Bg : big (IZR o / 65535)).
    { destruct (Z.eq_dec o 0) as [->|N]; [left; change (IZR 0) with 0; lra|right].
      apply Rle_trans with (bpow radix2 (-17)); [apply bpow_big; lia|]. change (bpow radix2 (-17)) with (/ 131072).
      assert (1 <= IZR o) by (apply IZR_le; lia). lra. }
    replace (/ 65535 * IZR o) with (IZR o / 65535) by (unfold Rdiv; ring).
    apply near_weak with (1 := near_rnd _ Bg); [apply big_pos; exact Bg|lra].
Qed.

Lemma scaled_mul o d : oracle16 o -> (0 <= d < 2 ^ 31)%Z ->
  scaled (/ 65535) (f64_mul (f64_of_Z d) (f64_div (f64_of_Z o) (f64_of_Z ORACLE_MAX))) (d * o).
Proof.
  intros Ho Hd. destruct (scaled_oracle o Ho) as (r & Fr & _).
  assert (Nr : near v r (/ 65535 * IZR o) /\ big r).
  { destruct Ho as [H0 H1]. assert (A := IZR_le _ _ H0). assert (B := IZR_le _ _ H1). change (IZR 0) with 0 in A.
    assert (F1 : fin (f64_of_Z o) (IZR o)) by (apply of_Z_exact; change (2 ^ prec64)%Z with 9007199254740992%Z; lia).
    assert (F2 : fin (f64_of_Z ORACLE_MAX) 65535) by (apply of_Z_exact; vm_compute; discriminate).
    assert (F3 : fin (f64_div (f64_of_Z o) (f64_of_Z ORACLE_MAX)) (rnd64 (IZR o / 65535))).
    { apply (div_fin _ _ _ _ _ _ _ _ 1%Z F1 F2); [intros X; lra|vm_compute; split; [discriminate|reflexivity]|].
      change (bpow radix2 1) with 2. rewrite Rabs_pos_eq; lra. }
    destruct F3 as [_ F3]. destruct Fr as [_ Fr]. rewrite F3 in Fr. subst r.
    assert (Bg : big (IZR o / 65535)).
    { destruct (Z.eq_dec o 0) as [->|N]; [left; change (IZR 0) with 0; lra|right].
      apply Rle_trans with (bpow radix2 (-17)); [apply bpow_big; lia|]. change (bpow radix2 (-17)) with (/ 131072).
      assert (1 <= IZR o) by (apply IZR_le; lia). lra. }
    replace (/ 65535 * IZR o) with (IZR o / 65535) by (unfold Rdiv; ring).
    split; [apply near_rnd; exact Bg|apply big_rnd; exact Bg]. }
  destruct Nr as [Nr Bg]. assert (D0 := IZR_le _ _ (proj1 Hd)). assert (D1 := IZR_lt _ _ (proj2 Hd)). change (2 ^ 31)%Z with 2147483648%Z in D1.
  change (IZR 0) with 0 in D0.
  assert (O0 : 0 <= IZR o) by (apply IZR_le; unfold oracle16 in Ho; lia).
  assert (O1 : IZR o <= 65535) by (apply IZR_le; unfold oracle16 in Ho; lia).
  assert (Fd : fin (f64_of_Z d) (IZR d)) by (apply of_Z_exact; change (2 ^ prec64)%Z with 9007199254740992%Z; lia).
  pose proof (big_pos _ Bg) as r0. assert (r1 : r <= 2) by (destruct Nr; lra).
  assert (Bp : big (IZR d * r)).
  { destruct (Z.eq_dec d 0) as [->|N]; [left; change (IZR 0) with 0; ring|].
    destruct Bg as [->|Bg]; [left; ring|right]. assert (1 <= IZR d) by (apply IZR_le; lia).
    apply Rle_trans with (1 * r); [lra|]. apply Rmult_le_compat_r; lra. }
  exists (rnd64 (IZR d * r)). split.
  - apply (mult_fin _ _ _ _ _ _ _ _ 33%Z Fd Fr); [vm_compute; split; [discriminate|reflexivity]|].
    change (bpow radix2 33) with 8589934592. rewrite Rabs_pos_eq by (apply big_pos; exact Bp).
    apply Rle_trans with (2147483648 * 2); [apply Rmult_le_compat; lra|lra].
  - rewrite mult_IZR. replace (/ 65535 * (IZR d * IZR o)) with (IZR d * (/ 65535 * IZR o)) by ring.
    assert (0 <= IZR d * (/ 65535 * IZR o)) by (apply Rmult_le_pos; lra).
    apply near_rnd' with (e := v); [exact Bp| |assumption|lra|lra].
    apply (near_mul 0 v); try lra; [apply near_refl|exact Nr].
Qed.

Lemma scaled_one : scaled 1 (f64_of_Z 1) 1.
Proof.
  exists 1. split; [apply of_Z_exact; vm_compute; discriminate|]. unfold near. lra.
Qed.

(** A zero weight has modifier zero. *)
Lemma scaled_zero c x : scaled c x 0 -> fin x 0.
Proof. intros (r & Fr & A & B). change (IZR 0) with 0 in *. replace 0 with r by lra. exact Fr. Qed.
