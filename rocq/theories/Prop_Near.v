(** C76: what is() and isnt() of the test library take for equal floating point numbers. *)
From Coq Require Import ZArith Reals Lia Lra.
From Flocq Require Import Core.Core Plus_error IEEE754.BinarySingleNaN.
From Verif Require Import Base FloatModel FloatFacts TapFloat NearFacts.
Local Open Scope R_scope.

(** The answer does not depend on the order. *)
Theorem C76_symmetric : forall eps, (forall x y : f64, nearly_equal64 eps x y = nearly_equal64 eps y x)
  /\ (forall x y : f32, nearly_equal32 eps x y = nearly_equal32 eps y x).
Proof.
  assert (E : forall x y : f64, f64_eq x y = f64_eq y x).
  { intros x y. destruct (is_finite x) eqn:Fx; [destruct (is_finite y) eqn:Fy|].
    - unfold f64_eq. rewrite !Beqb_correct by assumption. destruct (Req_bool_spec (B2R x) (B2R y)), (Req_bool_spec (B2R y) (B2R x)); congruence.
    - destruct x as [|[]| |[]], y as [|[]| |[]]; try discriminate; reflexivity.
    - destruct x as [|[]| |[]], y as [|[]| |[]]; try discriminate; reflexivity. }
  assert (N : forall eps tiny huge l r d, near eps tiny huge l r d = near eps tiny huge r l d).
  { intros. unfold near. rewrite (E l r), (total_swap l r), (orb_comm (f64_eq l _) (f64_eq r _)). reflexivity. }
  intros eps. split; intros x y.
  - unfold nearly_equal64, f64_sub. rewrite (diff_swap _ _ x y). apply N.
  - unfold nearly_equal32, f32_sub. rewrite (diff_swap _ _ x y). apply N.
Qed.
Print Assumptions C76_symmetric.

(** Numbers equal by == are equal; a NaN is equal to nothing; an infinity only to itself. *)
Theorem C76_special : forall eps (x y : f64),
  (Beqb x y = true -> nearly_equal64 eps x y = true)
  /\ (is_nan x = true \/ is_nan y = true -> nearly_equal64 eps x y = false)
  /\ (forall s, x = B754_infinity s \/ y = B754_infinity s -> nearly_equal64 eps x y = Beqb x y).
Proof.
  intros eps x y.
  assert (I : forall e : f64, f64_lt (B754_infinity false) e = false) by (intros [|[]| |[]]; reflexivity).
  assert (NN : forall e : f64, f64_lt B754_nan e = false) by reflexivity.
  assert (MN : f64_mul (f64_of_Z 2) B754_nan = B754_nan) by (unfold f64_mul; destruct (f64_of_Z 2); reflexivity).
  assert (MI : f64_mul (f64_of_Z 2) (B754_infinity false) = B754_infinity false) by reflexivity.
  assert (DI : f64_div (B754_infinity false) max64 = B754_infinity false) by reflexivity.
  split; [|split].
  - intros H. unfold nearly_equal64, near. change (f64_eq x y) with (Beqb x y). rewrite H. reflexivity.
  - intros H. assert (Dn : Babs (f64_sub x y) = B754_nan) by (destruct x, y; destruct H; try discriminate; reflexivity).
    assert (En : f64_eq x y = false) by (destruct x as [|[]| |[]], y as [|[]| |[]]; destruct H; try discriminate; reflexivity).
    unfold nearly_equal64, near. rewrite Dn, En, MN, !NN, Bool.andb_false_r. reflexivity.
  - intros s H. unfold nearly_equal64, near. change (f64_eq x y) with (Beqb x y). destruct (Beqb x y) eqn:Q; [reflexivity|]. cbn [orb].
    assert (Dn : Babs (f64_sub x y) = B754_nan \/ Babs (f64_sub x y) = B754_infinity false).
    { destruct H as [-> | ->]; [destruct y as [|s'| |]|destruct x as [|s'| |]]; try (right; reflexivity); try (left; reflexivity); destruct s, s'; auto. }
    destruct Dn as [-> | ->].
    + rewrite MN, !NN, Bool.andb_false_r. reflexivity.
    + rewrite MI, !I, Bool.andb_false_r. cbn [orb].
      destruct (is_nan (f64_add (Babs x) (Babs y))) eqn:Nn.
      * unfold fmin. rewrite Nn, DI. apply I.
      * assert (Sm : f64_add (Babs x) (Babs y) = B754_infinity false) by (destruct H as [-> | ->]; [destruct y|destruct x]; try discriminate; reflexivity).
        rewrite Sm. change (fmin (B754_infinity false) max64) with max64. rewrite DI. apply I.
Qed.
Print Assumptions C76_special.
Example C76_special_case : nearly_equal64 EPSILON (B754_infinity true) (B754_infinity true) = true /\ nearly_equal64 EPSILON (B754_infinity true) (f64_of_Z 7) = false
  /\ nearly_equal64 EPSILON B754_nan B754_nan = false.
Proof. repeat split; reflexivity. Qed.

Theorem C76_special_float : forall eps (x y : f32),
  (Beqb x y = true -> nearly_equal32 eps x y = true)
  /\ (is_nan x = true \/ is_nan y = true -> nearly_equal32 eps x y = false)
  /\ (forall s, x = B754_infinity s \/ y = B754_infinity s -> nearly_equal32 eps x y = Beqb x y).
Proof.
  intros eps x y.
  assert (I : forall e : f64, f64_lt (B754_infinity false) e = false) by (intros [|[]| |[]]; reflexivity).
  assert (NN : forall e : f64, f64_lt B754_nan e = false) by reflexivity.
  assert (MN : f64_mul (f64_of_Z 2) B754_nan = B754_nan) by (unfold f64_mul; destruct (f64_of_Z 2); reflexivity).
  assert (MI : f64_mul (f64_of_Z 2) (B754_infinity false) = B754_infinity false) by reflexivity.
  assert (DI : f64_div (B754_infinity false) max32 = B754_infinity false) by reflexivity.
  assert (Q0 : f64_eq (f64_of_f32 x) (f64_of_f32 y) = Beqb x y).
  { destruct (is_finite x) eqn:Fx; [destruct (is_finite y) eqn:Fy|].
    - destruct (conv_fin x Fx) as [Cx Ex], (conv_fin y Fy) as [Cy Ey]. unfold f64_eq. rewrite !Beqb_correct by assumption. rewrite Ex, Ey. reflexivity.
    - destruct (conv_other x) as (_ & X2 & X3). destruct y as [|s| |]; try discriminate; cbn [f64_of_f32].
      + rewrite Fx in X2. destruct x as [| | |], (f64_of_f32 _) as [| | |]; try discriminate; destruct s; reflexivity.
      + destruct (f64_of_f32 x) as [|[]| |[]], x as [|[]| |[]]; reflexivity.
    - destruct (conv_other y) as (Y1 & Y2 & Y3). destruct x as [|s| |]; try discriminate; cbn [f64_of_f32].
      + destruct y as [|s'| |]; cbn [f64_of_f32]; try (destruct s; reflexivity).
        cbn [f64_of_f32 is_finite is_nan] in Y2. destruct (binary_normalize _ _ _ _ _ _ _ _) as [| | |]; try discriminate; destruct s; reflexivity.
      + destruct (f64_of_f32 y) as [|[]| |[]], y as [|[]| |[]]; reflexivity. }
  split; [|split].
  - intros H. unfold nearly_equal32, near. rewrite Q0, H. reflexivity.
  - intros H. assert (Dn : f64_of_f32 (Babs (f32_sub x y)) = B754_nan) by (destruct x, y; destruct H; try discriminate; reflexivity).
    assert (En : Beqb x y = false) by (destruct x as [|[]| |[]], y as [|[]| |[]]; destruct H; try discriminate; reflexivity).
    unfold nearly_equal32, near. rewrite Q0, Dn, En, MN, !NN, Bool.andb_false_r. reflexivity.
  - intros s H. unfold nearly_equal32, near. rewrite Q0. destruct (Beqb x y) eqn:Q; [reflexivity|]. cbn [orb].
    assert (Dn : f64_of_f32 (Babs (f32_sub x y)) = B754_nan \/ f64_of_f32 (Babs (f32_sub x y)) = B754_infinity false).
    { destruct H as [-> | ->]; [destruct y as [|s'| |]|destruct x as [|s'| |]]; try (right; reflexivity); try (left; reflexivity); destruct s, s'; auto. }
    destruct Dn as [-> | ->].
    + rewrite MN, !NN, Bool.andb_false_r. reflexivity.
    + rewrite MI, !I, Bool.andb_false_r. cbn [orb].
      destruct (is_nan (f64_add (Babs (f64_of_f32 x)) (Babs (f64_of_f32 y)))) eqn:Nn.
      * unfold fmin. rewrite Nn, DI. apply I.
      * assert (Sm : f64_add (Babs (f64_of_f32 x)) (Babs (f64_of_f32 y)) = B754_infinity false).
        { destruct H as [-> | ->]; cbn [f64_of_f32 Babs] in *; [destruct (f64_of_f32 y)|destruct (f64_of_f32 x)]; try discriminate; reflexivity. }
        rewrite Sm. change (fmin (B754_infinity false) max32) with max32. rewrite DI. apply I.
Qed.
Print Assumptions C76_special_float.

(** double: what is taken for equal is equal within the relative error EPSILON, but for the rounding of the
    comparison itself, or closer than EPSILON times the smallest normal number. *)
Theorem C76_sound_double : forall eps x y : f64, is_finite eps = true -> 0 < B2R eps <= 1 -> is_finite x = true -> is_finite y = true ->
  nearly_equal64 eps x y = true ->
  B2R x = B2R y
  \/ Rabs (B2R x - B2R y) <= B2R eps * bpow radix2 (-1022) + bpow radix2 (-1075)
  \/ Rabs (B2R x - B2R y) < B2R eps * (1 + bpow radix2 (-51)) * ((Rabs (B2R x) + Rabs (B2R y)) / 2).
Proof.
  intros eps x y Fe Pe Fx Fy N. destruct max64_fin as (h & [Fh Eh] & Lh). pose proof (bpow_gt_0 radix2 1023) as B0.
  assert (D : (is_finite (Babs (f64_sub x y)) = true /\ 0 <= B2R (Babs (f64_sub x y))) \/ Babs (f64_sub x y) = B754_infinity false).
  { destruct (diff_cases _ _ x y Fx Fy) as [[A1 A2]|[A1 _]]; [left|right; exact A1]. split; [exact A1|]. unfold f64_sub. rewrite A2. apply Rabs_pos. }
  destruct (near_parts eps min64 max64 x y _ Fx Fy Fe Fh ltac:(rewrite Eh; lra) D N) as [E|[[Fd K]|[Fd K]]]; [left; exact E| |].
  - right. left. destruct (diff_cases _ _ x y Fx Fy) as [[A1 A2]|[A1 _]]; [|unfold f64_sub in Fd; rewrite A1 in Fd; discriminate].
    destruct min64_fin as [Fm Em].
    assert (Z : Rabs (B2R eps * bpow radix2 (-1022)) < bpow radix2 (-1021)).
    { rewrite Rabs_pos_eq by (apply Rmult_le_pos; [lra|apply bpow_ge_0]). change (-1021)%Z with (1 + -1022)%Z. rewrite bpow_plus. change (bpow radix2 1) with 2.
      pose proof (bpow_gt_0 radix2 (-1022)). nra. }
    destruct (mult_fin prec64 emax64 _ _ eps min64 (B2R eps) (bpow radix2 (-1022)) 0 (conj Fe eq_refl) (conj Fm Em)) as [Fp Ep];
      [unfold emax64; lia|apply Rlt_le, Rlt_trans with (1 := Z), bpow_lt; lia|].
    unfold f64_lt, f64_mul in K. rewrite Bltb_correct in K by assumption. unfold f64_sub in K. rewrite A2 in K.
    destruct (Rlt_bool_spec (Rabs (r64 (B2R x - B2R y))) (B2R (Bmult mode_NE eps min64))) as [L|L]; [|discriminate].
    apply (diff_below prec64_gt_0) in L; [|apply generic_format_B2R]. rewrite Ep in L.
    pose proof (rnd_err prec64 emax64 _ _ (-1021) ltac:(unfold emax64; lia) Z) as R. apply Rabs_le_inv in R.
    change (-1021 - prec64)%Z with (1 + -1075)%Z in R. rewrite bpow_plus in R. change (bpow radix2 1) with 2 in R. lra.
  - right. right. destruct (diff_cases _ _ x y Fx Fy) as [[A1 A2]|[A1 _]]; [|unfold f64_sub in Fd; rewrite A1 in Fd; discriminate].
    unfold f64_sub in K. rewrite A2 in K.
    destruct (diff_rel (emax := emax64) prec64_gt_0 (B2R x) (B2R y) (generic_format_B2R _ _ x) (generic_format_B2R _ _ y)) as [D1 _].
    destruct (total_rel (emax := emax64) prec64_gt_0 (Rabs (B2R x)) (Rabs (B2R y)) (fmt_abs _ (generic_format_B2R _ _ x)) (fmt_abs _ (generic_format_B2R _ _ y)) (Rabs_pos _) (Rabs_pos _)) as [_ T].
    pose proof u53_small as U. pose proof (Rabs_pos (B2R x)). pose proof (Rabs_pos (B2R y)).
    apply (relative_error _ _ (r64 (Rabs (B2R x) + Rabs (B2R y))) _ (bpow radix2 (- prec64)) (bpow radix2 (- prec64))); try lra; [apply Rabs_pos| |].
    + change (-51)%Z with (2 + - prec64)%Z. rewrite bpow_plus. change (bpow radix2 2) with 4. nra.
    + apply Rle_lt_trans with (2 * Rabs (r64 (B2R x - B2R y))); [lra|]. apply Rlt_le_trans with (1 := K). apply Rmult_le_compat_l; [lra|apply Rmin_l].
Qed.
Print Assumptions C76_sound_double.

(** And what is within it is taken for equal, unless the sum of the two overflows. *)
Theorem C76_complete_double : forall eps x y : f64, is_finite eps = true -> bpow radix2 (-1021) <= B2R eps <= 1 -> is_finite x = true -> is_finite y = true ->
  Rabs (B2R x) + Rabs (B2R y) <= bpow radix2 1023 ->
  Rabs (B2R x - B2R y) <= B2R eps * (1 - bpow radix2 (-50)) * ((Rabs (B2R x) + Rabs (B2R y)) / 2) ->
  nearly_equal64 eps x y = true.
Proof.
  intros eps x y Fe Pe Fx Fy Hs Hd. destruct (Req_dec (B2R x) (B2R y)) as [E|E].
  { apply (proj1 (C76_special eps x y)). rewrite Beqb_correct by assumption. apply Req_bool_true. exact E. }
  destruct max64_fin as (h & [Fh Eh] & Lh). pose proof (bpow_gt_0 radix2 (-1021)) as B0. pose proof (bpow_gt_0 radix2 1023) as B1. pose proof u53_small as U.
  pose proof (Rabs_pos (B2R x)) as P1. pose proof (Rabs_pos (B2R y)) as P2. pose proof (Rabs_pos (B2R x - B2R y)) as P3. pose proof (bpow_gt_0 radix2 (-50)) as B2.
  assert (B3 : bpow radix2 (-50) <= / 2) by (change (/ 2) with (bpow radix2 (-1)); apply bpow_le; lia).
  assert (S0 : 0 < Rabs (B2R x) + Rabs (B2R y)).
  { destruct (Req_dec (B2R x) 0) as [Zx|Zx]; [|apply Rabs_pos_lt in Zx; lra]. destruct (Req_dec (B2R y) 0) as [Zy|Zy]; [congruence|apply Rabs_pos_lt in Zy; lra]. }
  destruct (diff_rel (emax := emax64) prec64_gt_0 (B2R x) (B2R y) (generic_format_B2R _ _ x) (generic_format_B2R _ _ y)) as [_ D1].
  destruct (total_rel (emax := emax64) prec64_gt_0 (Rabs (B2R x)) (Rabs (B2R y)) (fmt_abs _ (generic_format_B2R _ _ x)) (fmt_abs _ (generic_format_B2R _ _ y)) P1 P2) as [T1 T2].
  assert (Sm : Rabs (B2R x - B2R y) <= bpow radix2 1023 / 2).
  { apply Rle_trans with (1 := Hd). apply Rle_trans with (1 * ((Rabs (B2R x) + Rabs (B2R y)) / 2)); [|lra]. apply Rmult_le_compat_r; [lra|]. nra. }
  assert (Dl : Rabs (r64 (B2R x - B2R y)) < bpow radix2 1023) by nra.
  unfold nearly_equal64. destruct (diff_cases _ _ x y Fx Fy) as [[A1 A2]|[_ A2]].
  - apply near_third; try assumption; unfold f64_sub; rewrite ?A2.
    + apply Rabs_pos.
    + exact Dl.
    + lra.
    + split; [nra|]. rewrite Eh. apply Rle_trans with (2 := Lh). apply (rnd_le_gen prec64 emax64 _); [|exact Hs]. apply fmt_pow; [exact prec64_gt_0|exact prec64_lt_emax|lia].
    + apply (error_relative (Rabs (B2R x - B2R y)) ((Rabs (B2R x) + Rabs (B2R y)) / 2) _ _ _ (bpow radix2 (- prec64)) _ (bpow radix2 (-50))); try assumption; try lra.
      change (-50)%Z with (3 + - prec64)%Z. rewrite bpow_plus. change (bpow radix2 3) with 8. nra.
  - exfalso. assert (bpow radix2 1023 < bpow radix2 emax64) by (apply bpow_lt; reflexivity). lra.
Qed.
Print Assumptions C76_complete_double.

(** The same for float, whose difference is rounded to float. *)
Theorem C76_sound_float : forall (eps : f64) (x y : f32), is_finite eps = true -> 0 < B2R eps <= 1 -> is_finite x = true -> is_finite y = true ->
  nearly_equal32 eps x y = true ->
  B2R x = B2R y
  \/ Rabs (B2R x - B2R y) * (1 - bpow radix2 (-24)) <= B2R eps * bpow radix2 (-126) + bpow radix2 (-179)
  \/ Rabs (B2R x - B2R y) < B2R eps * (1 + bpow radix2 (-22)) * ((Rabs (B2R x) + Rabs (B2R y)) / 2).
Proof.
  intros eps x y Fe Pe Fx Fy N. destruct max32_fin as (h & [Fh Eh] & Lh). pose proof (bpow_gt_0 radix2 127) as B0.
  destruct (conv_fin x Fx) as [Cx Ex]. destruct (conv_fin y Fy) as [Cy Ey].
  assert (D : (is_finite (f64_of_f32 (Babs (f32_sub x y))) = true /\ B2R (f64_of_f32 (Babs (f32_sub x y))) = Rabs (r32 (B2R x - B2R y))) \/ f64_of_f32 (Babs (f32_sub x y)) = B754_infinity false).
  { destruct (diff_cases _ _ x y Fx Fy) as [[A1 A2]|[A1 _]]; [left|right; unfold f32_sub; rewrite A1; reflexivity].
    destruct (conv_fin _ A1) as [C1 C2]. unfold f32_sub. split; [exact C1|]. rewrite C2. exact A2. }
  assert (D' : (is_finite (f64_of_f32 (Babs (f32_sub x y))) = true /\ 0 <= B2R (f64_of_f32 (Babs (f32_sub x y)))) \/ f64_of_f32 (Babs (f32_sub x y)) = B754_infinity false).
  { destruct D as [[D1 D2]|D1]; [left; split; [exact D1|rewrite D2; apply Rabs_pos]|right; exact D1]. }
  pose proof (diff_rel (emax := emax32) prec32_gt_0 (B2R x) (B2R y) (generic_format_B2R _ _ x) (generic_format_B2R _ _ y)) as [R1 _].
  destruct (near_parts eps min32 max32 _ _ _ Cx Cy Fe Fh ltac:(rewrite Eh; lra) D' N) as [E|[[Fd K]|[Fd K]]]; [left; congruence| |];
    (destruct D as [[_ A2]|A1]; [|rewrite A1 in Fd; discriminate]).
  - right. left. destruct min32_fin as [Fm Em].
    assert (Z : Rabs (B2R eps * bpow radix2 (-126)) < bpow radix2 (-125)).
    { rewrite Rabs_pos_eq by (apply Rmult_le_pos; [lra|apply bpow_ge_0]). change (-125)%Z with (1 + -126)%Z. rewrite bpow_plus. change (bpow radix2 1) with 2.
      pose proof (bpow_gt_0 radix2 (-126)). nra. }
    destruct (mult_fin prec64 emax64 _ _ eps min32 (B2R eps) (bpow radix2 (-126)) 0 (conj Fe eq_refl) (conj Fm Em)) as [Fp Ep];
      [unfold emax64; lia|apply Rlt_le, Rlt_trans with (1 := Z), bpow_lt; lia|].
    unfold f64_lt, f64_mul in K. rewrite Bltb_correct in K by assumption. rewrite A2 in K.
    destruct (Rlt_bool_spec (Rabs (r32 (B2R x - B2R y))) (B2R (Bmult mode_NE eps min32))) as [L|L]; [|discriminate]. rewrite Ep in L.
    pose proof (rnd_err prec64 emax64 _ _ (-125) ltac:(unfold emax64; lia) Z) as R. apply Rabs_le_inv in R.
    change (-125 - prec64)%Z with (1 + -179)%Z in R. rewrite bpow_plus in R. change (bpow radix2 1) with 2 in R. change (- prec32)%Z with (-24)%Z in R1. lra.
  - right. right. rewrite A2, Ex, Ey in K.
    assert (Gx : F64 (B2R x)) by (rewrite <- Ex; apply generic_format_B2R). assert (Gy : F64 (B2R y)) by (rewrite <- Ey; apply generic_format_B2R).
    destruct (total_rel (emax := emax64) prec64_gt_0 (Rabs (B2R x)) (Rabs (B2R y)) (fmt_abs _ Gx) (fmt_abs _ Gy) (Rabs_pos _) (Rabs_pos _)) as [_ T].
    pose proof u53_small as U. pose proof (Rabs_pos (B2R x)). pose proof (Rabs_pos (B2R y)).
    assert (U3 : bpow radix2 (- prec64) <= bpow radix2 (- prec32)) by (apply bpow_le; vm_compute; discriminate).
    assert (U2 : 0 < bpow radix2 (- prec32) <= / 1024) by (split; [apply bpow_gt_0|replace (/ 1024) with (bpow radix2 (-10)) by (cbn; lra); apply bpow_le; vm_compute; discriminate]).
    apply (relative_error _ _ (r64 (Rabs (B2R x) + Rabs (B2R y))) _ (bpow radix2 (- prec32)) (bpow radix2 (- prec64))); try lra; [apply Rabs_pos| |].
    + change (-22)%Z with (2 + - prec32)%Z. rewrite bpow_plus. change (bpow radix2 2) with 4. nra.
    + apply Rle_lt_trans with (2 * Rabs (r32 (B2R x - B2R y))); [lra|]. apply Rlt_le_trans with (1 := K). apply Rmult_le_compat_l; [lra|apply Rmin_l].
Qed.
Print Assumptions C76_sound_float.

Theorem C76_complete_float : forall (eps : f64) (x y : f32), is_finite eps = true -> bpow radix2 (-1021) <= B2R eps <= 1 -> is_finite x = true -> is_finite y = true ->
  Rabs (B2R x) + Rabs (B2R y) <= bpow radix2 127 ->
  Rabs (B2R x - B2R y) <= B2R eps * (1 - bpow radix2 (-21)) * ((Rabs (B2R x) + Rabs (B2R y)) / 2) ->
  nearly_equal32 eps x y = true.
Proof.
  intros eps x y Fe Pe Fx Fy Hs Hd. destruct (conv_fin x Fx) as [Cx Ex]. destruct (conv_fin y Fy) as [Cy Ey].
  destruct (Req_dec (B2R x) (B2R y)) as [E|E].
  { unfold nearly_equal32, near. replace (f64_eq (f64_of_f32 x) (f64_of_f32 y)) with true; [reflexivity|]. unfold f64_eq. rewrite Beqb_correct by assumption.
    symmetry. apply Req_bool_true. congruence. }
  destruct max32_fin as (h & [Fh Eh] & Lh). pose proof (bpow_gt_0 radix2 (-1021)) as B0. pose proof (bpow_gt_0 radix2 127) as B1. pose proof u53_small as U.
  pose proof (Rabs_pos (B2R x)) as P1. pose proof (Rabs_pos (B2R y)) as P2. pose proof (Rabs_pos (B2R x - B2R y)) as P3. pose proof (bpow_gt_0 radix2 (-21)) as B2.
  assert (B3 : bpow radix2 (-21) <= / 2) by (change (/ 2) with (bpow radix2 (-1)); apply bpow_le; lia).
  assert (U3 : bpow radix2 (- prec64) <= bpow radix2 (- prec32)) by (apply bpow_le; vm_compute; discriminate).
  assert (U2 : 0 < bpow radix2 (- prec32) <= / 1024) by (split; [apply bpow_gt_0|replace (/ 1024) with (bpow radix2 (-10)) by (cbn; lra); apply bpow_le; vm_compute; discriminate]).
  assert (S0 : 0 < Rabs (B2R x) + Rabs (B2R y)).
  { destruct (Req_dec (B2R x) 0) as [Zx|Zx]; [|apply Rabs_pos_lt in Zx; lra]. destruct (Req_dec (B2R y) 0) as [Zy|Zy]; [congruence|apply Rabs_pos_lt in Zy; lra]. }
  assert (Gx : F64 (B2R x)) by (rewrite <- Ex; apply generic_format_B2R). assert (Gy : F64 (B2R y)) by (rewrite <- Ey; apply generic_format_B2R).
  destruct (diff_rel (emax := emax32) prec32_gt_0 (B2R x) (B2R y) (generic_format_B2R _ _ x) (generic_format_B2R _ _ y)) as [_ D1].
  destruct (total_rel (emax := emax64) prec64_gt_0 (Rabs (B2R x)) (Rabs (B2R y)) (fmt_abs _ Gx) (fmt_abs _ Gy) P1 P2) as [T1 T2].
  assert (Sm : Rabs (B2R x - B2R y) <= bpow radix2 127 / 2).
  { apply Rle_trans with (1 := Hd). apply Rle_trans with (1 * ((Rabs (B2R x) + Rabs (B2R y)) / 2)); [|lra]. apply Rmult_le_compat_r; [lra|]. nra. }
  assert (Dl : Rabs (r32 (B2R x - B2R y)) < bpow radix2 127) by nra.
  unfold nearly_equal32. destruct (diff_cases _ _ x y Fx Fy) as [[A1 A2]|[_ A2]].
  - destruct (conv_fin _ A1) as [C1 C2]. rewrite A2 in C2.
    apply near_third; try assumption; unfold f32_sub; rewrite ?C2, ?Ex, ?Ey.
    + apply Rabs_pos.
    + apply Rlt_trans with (1 := Dl), bpow_lt. lia.
    + lra.
    + split; [nra|]. rewrite Eh. apply Rle_trans with (2 := Lh). apply (rnd_le_gen prec64 emax64 _); [|exact Hs]. apply fmt_pow; [exact prec64_gt_0|exact prec64_lt_emax|lia].
    + apply (error_relative (Rabs (B2R x - B2R y)) ((Rabs (B2R x) + Rabs (B2R y)) / 2) _ _ _ (bpow radix2 (- prec32)) _ (bpow radix2 (-21))); try assumption; try lra.
      change (-21)%Z with (3 + - prec32)%Z. rewrite bpow_plus. change (bpow radix2 3) with 8. nra.
  - exfalso. assert (bpow radix2 127 < bpow radix2 emax32) by (apply bpow_lt; reflexivity). lra.
Qed.
Print Assumptions C76_complete_float.

(** Close to zero the relative error does not count: what is closer than EPSILON times the smallest normal number is
    equal, whatever the numbers. *)
Theorem C76_tiny : forall eps : f64, is_finite eps = true -> 0 < B2R eps <= 1 ->
  (forall x y : f64, is_finite x = true -> is_finite y = true ->
     Rabs (B2R x - B2R y) < B2R eps * bpow radix2 (-1022) - bpow radix2 (-1075) -> nearly_equal64 eps x y = true)
  /\ (forall x y : f32, is_finite x = true -> is_finite y = true ->
     Rabs (B2R x - B2R y) < B2R eps * bpow radix2 (-126) - bpow radix2 (-179) -> nearly_equal32 eps x y = true).
Proof.
  intros eps Fe Pe.
  assert (T : forall k (tiny huge l r d : f64) e0, fin64 tiny (bpow radix2 k) -> (-1022 <= k <= 0)%Z -> is_finite d = true ->
      B2R d < B2R eps * bpow radix2 k - e0 -> bpow radix2 (k + 1 - prec64) / 2 <= e0 -> near eps tiny huge l r d = true).
  { intros k tiny huge l r d e0 [Ft Et] Hk Fd Hd He. pose proof (bpow_gt_0 radix2 k) as B0. pose proof (bpow_gt_0 radix2 (k + 1 - prec64)) as B1.
    assert (Z : Rabs (B2R eps * bpow radix2 k) < bpow radix2 (k + 1)).
    { rewrite Rabs_pos_eq by (apply Rmult_le_pos; [lra|apply bpow_ge_0]). rewrite bpow_plus. change (bpow radix2 1) with 2. nra. }
    destruct (mult_fin prec64 emax64 _ _ eps tiny (B2R eps) (bpow radix2 k) 2 (conj Fe eq_refl) (conj Ft Et)) as [Fp Ep];
      [unfold emax64; lia|apply Rlt_le, Rlt_trans with (1 := Z), bpow_lt; lia|].
    pose proof (rnd_err prec64 emax64 _ _ (k + 1) ltac:(unfold emax64; lia) Z) as R. apply Rabs_le_inv in R.
    unfold near. assert (L1 : f64_lt d tiny = true).
    { unfold f64_lt. rewrite Bltb_correct by assumption. apply Rlt_bool_true. rewrite Et. nra. }
    assert (L2 : f64_lt d (f64_mul eps tiny) = true).
    { unfold f64_lt, f64_mul. rewrite Bltb_correct by assumption. apply Rlt_bool_true. rewrite Ep. lra. }
    rewrite L1, L2. rewrite !Bool.orb_true_r. cbn [andb]. rewrite ?Bool.orb_true_r. reflexivity. }
  split; intros x y Fx Fy H.
  - pose proof (bpow_gt_0 radix2 (-1022)). pose proof (bpow_gt_0 radix2 (-1075)).
    assert (Hb : Rabs (B2R x - B2R y) <= bpow radix2 (-1021)).
    { change (-1021)%Z with (1 + -1022)%Z. rewrite bpow_plus. change (bpow radix2 1) with 2. nra. }
    assert (G : F64 (B2R x - B2R y)).
    { apply (FLT_format_plus_small radix2 (-1074) prec64 (B2R x) (- B2R y)); [apply generic_format_B2R|apply generic_format_opp, generic_format_B2R|exact Hb]. }
    destruct (diff_cases _ _ x y Fx Fy) as [[A1 A2]|[_ A2]]; rewrite (rnd_id prec64 emax64 _ G) in A2.
    + apply (T (-1022)%Z _ _ _ _ _ (bpow radix2 (-1075)) min64_fin ltac:(lia) A1).
      * unfold f64_sub. rewrite A2. exact H.
      * change (-1022 + 1 - prec64)%Z with (1 + -1075)%Z. rewrite bpow_plus. change (bpow radix2 1) with 2. lra.
    + exfalso. assert (bpow radix2 (-1021) < bpow radix2 emax64) by (apply bpow_lt; reflexivity). lra.
  - pose proof (bpow_gt_0 radix2 (-126)). pose proof (bpow_gt_0 radix2 (-179)).
    assert (Hb : Rabs (B2R x - B2R y) <= bpow radix2 (-125)).
    { change (-125)%Z with (1 + -126)%Z. rewrite bpow_plus. change (bpow radix2 1) with 2. nra. }
    assert (G : F32 (B2R x - B2R y)).
    { apply (FLT_format_plus_small radix2 (-149) prec32 (B2R x) (- B2R y)); [apply generic_format_B2R|apply generic_format_opp, generic_format_B2R|exact Hb]. }
    destruct (diff_cases _ _ x y Fx Fy) as [[A1 A2]|[_ A2]]; rewrite (rnd_id prec32 emax32 _ G) in A2.
    + destruct (conv_fin _ A1) as [C1 C2]. apply (T (-126)%Z _ _ _ _ _ (bpow radix2 (-179)) min32_fin ltac:(lia) C1).
      * unfold f32_sub. rewrite C2, A2. exact H.
      * change (-126 + 1 - prec64)%Z with (1 + -179)%Z. rewrite bpow_plus. change (bpow radix2 1) with 2. lra.
    + exfalso. assert (bpow radix2 (-125) < bpow radix2 emax32) by (apply bpow_lt; reflexivity). lra.
Qed.
Print Assumptions C76_tiny.
Example C76_tiny_case : nearly_equal64 EPSILON (B754_zero false) (f64_mul (f64_of_Z 3) (f64_mul min64 (f64_div (f64_of_Z 1) (f64_of_Z 100000)))) = true
  /\ nearly_equal64 EPSILON (B754_zero false) min64 = false.
Proof. split; reflexivity. Qed.

(** EPSILON, as it is set at first, is the double nearest to 1/10000. *)
Theorem C76_default : is_finite EPSILON = true /\ Rabs (B2R EPSILON - / 10000) <= bpow radix2 (-67).
Proof.
  destruct (of_Z_exact prec64 emax64 prec64_gt_0 prec64_lt_emax 1 ltac:(cbn; lia)) as [A1 B1]. destruct (of_Z_exact prec64 emax64 prec64_gt_0 prec64_lt_emax 10000 ltac:(cbn; lia)) as [A2 B2].
  destruct (div_fin prec64 emax64 prec64_gt_0 prec64_lt_emax (f64_of_Z 1) (f64_of_Z 10000) 1 10000 0) as [A B]; [split; assumption|split; assumption|lra|unfold emax64; lia|cbn; rewrite Rabs_pos_eq by lra; lra|].
  split; [exact A|]. unfold EPSILON, f64_div. rewrite B. replace (/ 10000) with (1 / 10000) by field.
  apply Rle_trans with (1 := rnd_err prec64 emax64 _ (1 / 10000) (-13) ltac:(unfold emax64; lia) ltac:(rewrite Rabs_pos_eq by lra; cbn; lra)).
  change (-13 - prec64)%Z with (1 + -67)%Z. rewrite bpow_plus. change (bpow radix2 1) with 2. lra.
Qed.
Print Assumptions C76_default.

(** EPSILON as it is set meets the hypotheses; and neighbours, in either type, are equal. *)
Example C76_epsilon : is_finite EPSILON = true /\ bpow radix2 (-1021) <= B2R EPSILON <= 1 /\ 0 < B2R EPSILON.
Proof.
  destruct EPSILON_fin as [A [B C]]. split; [exact A|]. pose proof (bpow_gt_0 radix2 (-14)).
  assert (bpow radix2 (-1021) <= bpow radix2 (-14)) by (apply bpow_le; lia). assert (bpow radix2 (-13) <= 1) by (change 1 with (bpow radix2 0); apply bpow_le; lia). lra.
Qed.
Example C76_cases : nearly_equal64 EPSILON (f64_of_Z 31415) (f64_of_Z 31416) = true /\ nearly_equal64 EPSILON (f64_of_Z 3141) (f64_of_Z 3142) = false
  /\ nearly_equal32 EPSILON (f32_of_Z 31415) (f32_of_Z 31416) = true /\ nearly_equal32 EPSILON (f32_of_Z 3141) (f32_of_Z 3142) = false.
Proof. repeat split; reflexivity. Qed.

(** Near the end of the range the divisor stops at the largest number: two numbers within the relative error may
    differ all the same. *)
Theorem C76_overflow_refuted : exists x y : f64, is_finite x = true /\ is_finite y = true
  /\ Rabs (B2R x - B2R y) <= B2R EPSILON * (1 - bpow radix2 (-50)) * ((Rabs (B2R x) + Rabs (B2R y)) / 2) /\ nearly_equal64 EPSILON x y = false.
Proof.
  set (m := (2 ^ 53 - 1)%Z). set (k := (2 ^ 53 - 1 - 500000000000)%Z).
  exists (binary_normalize prec64 emax64 prec64_gt_0 prec64_lt_emax mode_NE m 971 false), (binary_normalize prec64 emax64 prec64_gt_0 prec64_lt_emax mode_NE k 971 false).
  assert (B : forall z, (0 <= z <= 2 ^ 53 - 1)%Z -> fin64 (binary_normalize prec64 emax64 prec64_gt_0 prec64_lt_emax mode_NE z 971 false) (IZR z * bpow radix2 971)).
  { intros z Hz. apply normal_fin; [lia|lia|]. rewrite Rabs_pos_eq by (apply Rmult_le_pos; [apply IZR_le; lia|apply bpow_ge_0]).
    apply Rle_lt_trans with (IZR (2 ^ 53 - 1) * bpow radix2 971); [apply Rmult_le_compat_r; [apply bpow_ge_0|apply IZR_le; lia]|apply (below_pow 53 971); lia]. }
  destruct (B m ltac:(unfold m; lia)) as [F1 E1]. destruct (B k ltac:(unfold k; lia)) as [F2 E2].
  split; [exact F1|]. split; [exact F2|]. split; [|vm_compute; reflexivity].
  rewrite E1, E2. pose proof (bpow_gt_0 radix2 971) as Bp. rewrite !Rabs_mult, (Rabs_pos_eq (bpow radix2 971)) by apply bpow_ge_0.
  replace (IZR m * bpow radix2 971 - IZR k * bpow radix2 971) with (500000000000 * bpow radix2 971) by (unfold m, k; rewrite !minus_IZR; ring).
  rewrite Rabs_mult, (Rabs_pos_eq (bpow radix2 971)) by apply bpow_ge_0.
  rewrite !Rabs_pos_eq by (apply IZR_le; unfold m, k; lia).
  destruct EPSILON_fin as [_ [Le _]].
  apply Rle_trans with (bpow radix2 (-14) * (1 - bpow radix2 (-50)) * ((IZR m * bpow radix2 971 + IZR k * bpow radix2 971) / 2)).
  - replace ((IZR m * bpow radix2 971 + IZR k * bpow radix2 971) / 2) with ((IZR m + IZR k) / 2 * bpow radix2 971) by field. rewrite <- Rmult_assoc.
    apply Rmult_le_compat_r; [lra|]. unfold m, k. cbn. lra.
  - assert (B3 : bpow radix2 (-50) <= 1) by (change 1 with (bpow radix2 0); apply bpow_le; lia).
    apply Rmult_le_compat_r; [|apply Rmult_le_compat_r; lra].
    assert (0 <= IZR m) by (apply IZR_le; unfold m; lia). assert (0 <= IZR k) by (apply IZR_le; unfold k; lia). nra.
Qed.
Print Assumptions C76_overflow_refuted.
