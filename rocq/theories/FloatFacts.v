(** Real-number meaning of the floating point operations of FloatModel.v. *)
From Coq Require Import ZArith Reals Lia Lra Psatz.
From Flocq Require Import Core.Core Relative Sterbenz IEEE754.BinarySingleNaN.
From Verif Require Import Base FloatModel.
Local Open Scope R_scope.

Section Generic.
  Variables prec emax : Z.
  Context (prec_pos : FLX.Prec_gt_0 prec) (prec_emax : Prec_lt_emax prec emax).

  Notation fexp := (SpecFloat.fexp prec emax).
  Notation rnd := (round radix2 fexp ZnearestE).
  Notation fmt := (generic_format radix2 fexp).

  Lemma fexp_FLT : fexp = FLT.FLT_exp (3 - emax - prec) prec.
  Proof. reflexivity. Qed.

  Lemma fexp_valid : Valid_exp fexp.
  Proof. rewrite fexp_FLT. apply FLT.FLT_exp_valid. exact prec_pos. Qed.
  Local Existing Instance fexp_valid.

  Lemma fexp_monotone : Monotone_exp fexp.
  Proof. rewrite fexp_FLT. apply FLT.FLT_exp_monotone. Qed.
  Local Existing Instance fexp_monotone.

  Lemma rnd_le x y : x <= y -> rnd x <= rnd y.
  Proof. apply round_le; typeclasses eauto. Qed.

  Lemma rnd_id x : fmt x -> rnd x = x.
  Proof. apply round_generic; typeclasses eauto. Qed.

  Lemma rnd_ge x y : fmt x -> x <= y -> x <= rnd y.
  Proof. intros H L. apply round_ge_generic; auto; typeclasses eauto. Qed.

  Lemma rnd_le_gen x y : fmt y -> x <= y -> rnd x <= y.
  Proof. intros H L. apply round_le_generic; auto; typeclasses eauto. Qed.

  Lemma rnd_fmt x : fmt (rnd x).
  Proof. apply generic_format_round; typeclasses eauto. Qed.

  (** Integers below 2^prec times a power of two are exact. *)
  Lemma fmt_scaled m e : (Z.abs m <= 2 ^ prec)%Z -> (3 - emax - prec <= e)%Z ->
    fmt (IZR m * bpow radix2 e).
  Proof.
    intros Hm He. rewrite fexp_FLT.
    destruct (Z.eq_dec (Z.abs m) (2 ^ prec)) as [E|NE].
    - assert (P : (0 < prec)%Z) by exact prec_pos.
      assert (B : fmt (bpow radix2 (prec + e))).
      { apply generic_format_bpow. rewrite fexp_FLT. unfold FLT.FLT_exp. lia. }
      rewrite bpow_plus in B. change (bpow radix2 prec) with (bpow radix2 prec) in B.
      rewrite <- (IZR_Zpower radix2) in B by lia. change (radix2 ^ prec)%Z with (2 ^ prec)%Z in B.
      rewrite <- E in B. rewrite fexp_FLT in B.
      destruct (Z.abs_eq_or_opp m) as [X|X]; rewrite X in B.
      + exact B.
      + apply generic_format_opp in B. rewrite opp_IZR in B.
        replace (IZR m * bpow radix2 e) with (- (- IZR m * bpow radix2 e)) by ring. exact B.
    - apply FLT.generic_format_FLT. exists (Float radix2 m e).
      + reflexivity.
      + cbn. change (Zpower_pos radix2) with (Zpower_pos 2). change (Z.abs m < 2 ^ prec)%Z. lia.
      + cbn. exact He.
  Qed.

  Lemma emin_neg : (3 - emax - prec <= 0)%Z.
  Proof. assert (P : (0 < prec)%Z) by exact prec_pos.
         assert (Q : (prec < emax)%Z) by exact prec_emax. lia. Qed.

  Lemma fmt_int m : (Z.abs m <= 2 ^ prec)%Z -> fmt (IZR m).
  Proof.
    intros H. generalize (fmt_scaled m 0 H emin_neg). cbn. now rewrite Rmult_1_r.
  Qed.

  Lemma fmt_pow k : (0 <= k)%Z -> fmt (bpow radix2 k).
  Proof.
    intros H. apply generic_format_bpow. rewrite fexp_FLT. unfold FLT.FLT_exp.
    assert (P : (0 < prec)%Z) by exact prec_pos. generalize emin_neg. lia.
  Qed.

  (** Relative error outside the subnormal range. *)
  Lemma rnd_rel x : bpow radix2 (2 - emax) <= Rabs x ->
    Rabs (rnd x - x) <= bpow radix2 (- prec) * Rabs x.
  Proof.
    intros H. rewrite fexp_FLT.
    assert (E : / 2 * bpow radix2 (- prec + 1) = bpow radix2 (- prec)).
    { rewrite bpow_plus. change (bpow radix2 1) with 2. field. }
    rewrite <- E. apply relative_error_N_FLT. exact prec_pos.
    replace (3 - emax - prec + prec - 1)%Z with (2 - emax)%Z by lia. exact H.
  Qed.

  Lemma rnd_0 : rnd 0 = 0.
  Proof. apply round_0; typeclasses eauto. Qed.

  (** The same for numbers known to be 0 or not tiny, as two inequalities for non-negative ones. *)
  Lemma rnd_rel_pos x : 0 <= x -> (x = 0 \/ bpow radix2 (2 - emax) <= x) ->
    x * (1 - bpow radix2 (- prec)) <= rnd x <= x * (1 + bpow radix2 (- prec)).
  Proof.
    intros H0 [->|H].
    - rewrite rnd_0. lra.
    - assert (Hx : Rabs x = x) by (apply Rabs_pos_eq; exact H0).
      generalize (rnd_rel x). rewrite Hx. intros E. specialize (E H).
      apply Rabs_le_inv in E. split; lra.
  Qed.

  (** ** Rounding around an integer *)
  Lemma bpow_IZR k : (0 <= k)%Z -> bpow radix2 k = IZR (2 ^ k).
  Proof. intros H. rewrite <- (IZR_Zpower radix2) by exact H. reflexivity. Qed.

  Lemma fexp_normal e : (3 - emax <= e)%Z -> fexp e = (e - prec)%Z.
  Proof. intros H. rewrite fexp_FLT. unfold FLT.FLT_exp. lia. Qed.

  (** The float just below an integer of the binade [2^(i-1), 2^i]. *)
  Lemma pred_int j i : (0 < i <= prec)%Z -> (2 ^ (i - 1) < j <= 2 ^ i)%Z ->
    pred radix2 fexp (IZR j) = IZR j - bpow radix2 (i - prec).
  Proof.
    intros Hi Hj. assert (Em := emin_neg). assert (P : (0 < prec)%Z) by exact prec_pos.
    assert (Q : (prec < emax)%Z) by exact prec_emax.
    assert (J0 : 0 < IZR j) by (apply IZR_lt; lia).
    rewrite pred_eq_pos by lra. unfold pred_pos.
    destruct (Z.eq_dec j (2 ^ i)) as [E|NE].
    - assert (JE : IZR j = bpow radix2 i) by (rewrite E, bpow_IZR by lia; reflexivity).
      rewrite JE, mag_bpow. replace (i + 1 - 1)%Z with i by lia.
      rewrite Req_bool_true by reflexivity. f_equal. f_equal. apply fexp_normal. lia.
    - assert (M : mag radix2 (IZR j) = i :> Z).
      { apply mag_unique_pos. rewrite !bpow_IZR by lia. split; [apply IZR_le|apply IZR_lt]; lia. }
      rewrite M. rewrite Req_bool_false.
      + rewrite ulp_neq_0 by lra. unfold cexp. rewrite M. f_equal. f_equal. apply fexp_normal. lia.
      + rewrite bpow_IZR by lia. intros X. apply eq_IZR in X. lia.
  Qed.

  Lemma fmt_binade j i : (0 < i <= prec)%Z -> (2 ^ (i - 1) < j <= 2 ^ i)%Z -> fmt (IZR j).
  Proof.
    intros Hi Hj. apply fmt_int.
    assert (2 ^ i <= 2 ^ prec)%Z by (apply Z.pow_le_mono_r; lia).
    assert (0 < 2 ^ (i - 1))%Z by lia. lia.
  Qed.

  Lemma rnd_lt_int y j i : (0 < i <= prec)%Z -> (2 ^ (i - 1) < j <= 2 ^ i)%Z ->
    y < IZR j - bpow radix2 (i - prec) / 2 -> rnd y < IZR j.
  Proof.
    intros Hi Hj Hy. assert (P := pred_int j i Hi Hj). assert (Fj := fmt_binade j i Hi Hj).
    apply Rle_lt_trans with (pred radix2 fexp (IZR j)).
    - apply round_N_le_midp; try typeclasses eauto.
      + apply generic_format_pred; auto; typeclasses eauto.
      + rewrite succ_pred by (auto; typeclasses eauto). rewrite P. lra.
    - rewrite P. assert (B := bpow_gt_0 radix2 (i - prec)). lra.
  Qed.

  Lemma rnd_ge_int y j i : (0 < i <= prec)%Z -> (2 ^ (i - 1) < j <= 2 ^ i)%Z ->
    IZR j - bpow radix2 (i - prec) / 2 < y -> IZR j <= rnd y.
  Proof.
    intros Hi Hj Hy. assert (P := pred_int j i Hi Hj). assert (Fj := fmt_binade j i Hi Hj).
    apply round_N_ge_midp; try typeclasses eauto; auto. rewrite P. lra.
  Qed.

  (** Error of rounding a number below 2^e. *)
  Lemma rnd_err x e : (3 - emax <= e)%Z -> Rabs x < bpow radix2 e ->
    Rabs (rnd x - x) <= bpow radix2 (e - prec) / 2.
  Proof.
    intros He Hx. destruct (Req_dec x 0) as [->|N].
    { rewrite rnd_0, Rminus_0_r, Rabs_R0. assert (B := bpow_gt_0 radix2 (e - prec)). lra. }
    apply Rle_trans with (/ 2 * ulp radix2 fexp x).
    - apply error_le_half_ulp. typeclasses eauto.
    - assert (U : ulp radix2 fexp x <= bpow radix2 (e - prec)).
      { rewrite ulp_neq_0 by exact N. apply bpow_le. unfold cexp.
        rewrite <- (fexp_normal e He). apply fexp_monotone.
        apply mag_le_bpow; auto. }
      lra.
  Qed.

  (** Integers are powers of two or lie inside a binade. *)
  Lemma binade j : (1 <= j)%Z -> (exists i, 0 <= i /\ j = 2 ^ i)%Z
    \/ (exists i, 0 < i /\ 2 ^ (i - 1) < j < 2 ^ i)%Z.
  Proof.
    intros Hj. destruct (Z.log2_spec j) as [A B]; [lia|]. assert (C := Z.log2_nonneg j).
    destruct (Z.eq_dec j (2 ^ Z.log2 j)) as [E|NE].
    - left. exists (Z.log2 j). split; auto.
    - right. exists (Z.log2 j + 1)%Z. replace (Z.log2 j + 1 - 1)%Z with (Z.log2 j) by lia.
      replace (Z.succ (Z.log2 j)) with (Z.log2 j + 1)%Z in B by lia. lia.
  Qed.

  (** Overflow does not occur when the exact result is bounded by a representable power. *)
  Lemma no_overflow x k : (0 <= k < emax)%Z -> Rabs x <= bpow radix2 k ->
    Rlt_bool (Rabs (rnd x)) (bpow radix2 emax) = true.
  Proof.
    intros Hk Hx. apply Rlt_bool_true.
    apply Rle_lt_trans with (bpow radix2 k).
    - apply abs_round_le_generic; try typeclasses eauto. apply fmt_pow; lia. exact Hx.
    - apply bpow_lt. lia.
  Qed.

  Definition fin (x : binary_float prec emax) (r : R) : Prop :=
    is_finite x = true /\ B2R x = r.

  Lemma fin_fmt x r : fin x r -> fmt r.
  Proof. intros [_ <-]. apply generic_format_B2R. Qed.

  Lemma of_Z_fin z k : (0 <= k < emax)%Z -> (Z.abs z <= 2 ^ k)%Z ->
    fin (binary_normalize prec emax prec_pos prec_emax mode_NE z 0 false) (rnd (IZR z)).
  Proof.
    intros Hk Hz.
    generalize (binary_normalize_correct prec emax prec_pos prec_emax mode_NE z 0 false).
    cbv zeta. unfold F2R; cbn [Fnum Fexp bpow]. rewrite Rmult_1_r.
    change (round_mode mode_NE) with ZnearestE.
    rewrite (no_overflow (IZR z) k Hk).
    - intros (A & B & _). split; assumption.
    - rewrite <- abs_IZR. change 2%Z with (radix_val radix2) in Hz.
      rewrite <- IZR_Zpower by lia. now apply IZR_le.
  Qed.

  Lemma of_Z_exact z : (Z.abs z <= 2 ^ prec)%Z ->
    fin (binary_normalize prec emax prec_pos prec_emax mode_NE z 0 false) (IZR z).
  Proof.
    intros Hz.
    assert (P : (0 < prec)%Z) by exact prec_pos.
    assert (Q : (prec < emax)%Z) by exact prec_emax.
    destruct (of_Z_fin z prec) as [A B]; try lia.
    split; auto. rewrite B. apply rnd_id. now apply fmt_int.
  Qed.

  Lemma plus_fin x y a b k : fin x a -> fin y b -> (0 <= k < emax)%Z ->
    Rabs (a + b) <= bpow radix2 k -> fin (Bplus mode_NE x y) (rnd (a + b)).
  Proof.
    intros [Fx <-] [Fy <-] Hk Hb. generalize (Bplus_correct prec emax prec_pos prec_emax mode_NE x y Fx Fy).
    change (round_mode mode_NE) with ZnearestE. rewrite (no_overflow _ k Hk Hb).
    intros (A & B & _). split; assumption.
  Qed.

  Lemma minus_fin x y a b k : fin x a -> fin y b -> (0 <= k < emax)%Z ->
    Rabs (a - b) <= bpow radix2 k -> fin (Bminus mode_NE x y) (rnd (a - b)).
  Proof.
    intros [Fx <-] [Fy <-] Hk Hb. generalize (Bminus_correct prec emax prec_pos prec_emax mode_NE x y Fx Fy).
    change (round_mode mode_NE) with ZnearestE. rewrite (no_overflow _ k Hk Hb).
    intros (A & B & _). split; assumption.
  Qed.

  Lemma mult_fin x y a b k : fin x a -> fin y b -> (0 <= k < emax)%Z ->
    Rabs (a * b) <= bpow radix2 k -> fin (Bmult mode_NE x y) (rnd (a * b)).
  Proof.
    intros [Fx <-] [Fy <-] Hk Hb. generalize (Bmult_correct prec emax prec_pos prec_emax mode_NE x y).
    change (round_mode mode_NE) with ZnearestE. rewrite (no_overflow _ k Hk Hb).
    intros (A & B & _). split; auto. rewrite B, Fx, Fy. reflexivity.
  Qed.

  Lemma div_fin x y a b k : fin x a -> fin y b -> b <> 0 -> (0 <= k < emax)%Z ->
    Rabs (a / b) <= bpow radix2 k -> fin (Bdiv mode_NE x y) (rnd (a / b)).
  Proof.
    intros [Fx <-] [Fy <-] Hn Hk Hb. generalize (Bdiv_correct prec emax prec_pos prec_emax mode_NE x y Hn).
    change (round_mode mode_NE) with ZnearestE. rewrite (no_overflow _ k Hk Hb).
    intros (A & B & _). split; auto. now rewrite B.
  Qed.

  (** Integer part functions. *)
  Lemma fden_pos e : (0 < fden e)%Z.
  Proof. unfold fden. destruct (0 <=? e)%Z eqn:E; lia. Qed.

  Lemma fnum_fden s m e H : B2R (B754_finite s m e H : binary_float prec emax) =
    IZR (cond_Zopp s (fnum m e)) / IZR (fden e).
  Proof.
    cbn [B2R]. unfold F2R, fnum, fden; cbn [Fnum Fexp].
    destruct (0 <=? e)%Z eqn:E.
    - apply Z.leb_le in E. rewrite <- (IZR_Zpower radix2) by lia.
      rewrite <- mult_IZR. change (radix_val radix2) with 2%Z. unfold Rdiv. rewrite Rinv_1, Rmult_1_r.
      f_equal. destruct s; cbn [cond_Zopp]; lia.
    - apply Z.leb_gt in E. replace e with (- (- e))%Z at 1 by lia. rewrite bpow_opp.
      rewrite <- (IZR_Zpower radix2) by lia. reflexivity.
  Qed.

  Lemma Zfloor_div_IZR a b : (0 < b)%Z -> Zfloor (IZR a / IZR b) = (a / b)%Z.
  Proof. intros H. apply Zfloor_div. lia. Qed.

  Lemma floor_fin x r : fin x r -> Bfloor_Z x = Some (Zfloor r).
  Proof.
    intros [F <-]. destruct x as [s|s| |s m e H]; try discriminate.
    - cbn. now rewrite Zfloor_IZR.
    - rewrite fnum_fden. cbn [Bfloor_Z]. f_equal. rewrite Zfloor_div_IZR by apply fden_pos. reflexivity.
  Qed.

  Lemma trunc_fin x r : fin x r -> 0 <= r -> Btrunc_Z x = Some (Zfloor r).
  Proof.
    intros [F <-] Hp. destruct x as [s|s| |s m e H]; try discriminate.
    - cbn. now rewrite Zfloor_IZR.
    - rewrite fnum_fden in *. cbn [Btrunc_Z]. f_equal. rewrite Zfloor_div_IZR by apply fden_pos.
      destruct s; cbn [cond_Zopp] in *; auto.
      exfalso.
      assert (D := fden_pos e). apply IZR_lt in D.
      assert (N : (0 < fnum m e)%Z).
      { unfold fnum. destruct (0 <=? e)%Z eqn:E; lia. }
      rewrite opp_IZR in Hp. apply IZR_lt in N.
      assert (0 < IZR (fnum m e) / IZR (fden e)) by (apply Rdiv_lt_0_compat; auto).
      unfold Rdiv in *. rewrite Ropp_mult_distr_l_reverse in Hp. lra.
  Qed.

  (** [round()] of the C library: nearest, ties away from zero. *)
  Definition cround (r : R) : Z := if Rlt_bool r 0 then (- Zfloor (- r + / 2))%Z else Zfloor (r + / 2).

  Lemma round_fin x r : fin x r -> Bround_Z x = Some (cround r).
  Proof.
    intros [F <-]. destruct x as [s|s| |s m e H]; try discriminate.
    - cbn [Bround_Z B2R]. unfold cround. rewrite Rlt_bool_false by lra.
      rewrite Rplus_0_l. f_equal. symmetry. apply Zfloor_imp. split; simpl; lra.
    - rewrite fnum_fden. cbn [Bround_Z]. f_equal. unfold cround.
      assert (D := fden_pos e).
      assert (N : (0 < fnum m e)%Z).
      { unfold fnum. destruct (0 <=? e)%Z eqn:E; lia. }
      assert (DR := IZR_lt _ _ D). assert (NR := IZR_lt _ _ N).
      assert (Q : 0 < IZR (fnum m e) / IZR (fden e)) by (apply Rdiv_lt_0_compat; auto).
      assert (S : IZR (fnum m e) / IZR (fden e) + / 2 =
                  IZR (2 * fnum m e + fden e) / IZR (2 * fden e)).
      { rewrite plus_IZR, !mult_IZR. field. lra. }
      destruct s; cbn [cond_Zopp].
      + rewrite opp_IZR. unfold Rdiv at 1 2. rewrite Ropp_mult_distr_l_reverse.
        fold (IZR (fnum m e) / IZR (fden e)).
        rewrite Rlt_bool_true by lra. rewrite Ropp_involutive, S, Zfloor_div_IZR by lia. reflexivity.
      + rewrite Rlt_bool_false by lra. rewrite S, Zfloor_div_IZR by lia. reflexivity.
  Qed.
End Generic.

Arguments fin {prec emax} x r.

Lemma valid32 : Valid_exp (SpecFloat.fexp prec32 emax32).
Proof. apply fexp_valid. apply prec32_gt_0. Qed.
Lemma mono32 : Monotone_exp (SpecFloat.fexp prec32 emax32).
Proof. apply fexp_monotone. Qed.
Lemma valid64 : Valid_exp (SpecFloat.fexp prec64 emax64).
Proof. apply fexp_valid. apply prec64_gt_0. Qed.
Lemma mono64 : Monotone_exp (SpecFloat.fexp prec64 emax64).
Proof. apply fexp_monotone. Qed.
Global Existing Instances valid32 mono32 valid64 mono64.

(** Notation for the two formats. *)
Notation fexp32 := (SpecFloat.fexp prec32 emax32).
Notation fexp64 := (SpecFloat.fexp prec64 emax64).
Notation rnd32 := (round radix2 (SpecFloat.fexp prec32 emax32) ZnearestE).
Notation rnd64 := (round radix2 (SpecFloat.fexp prec64 emax64) ZnearestE).
Notation fmt32 := (generic_format radix2 (SpecFloat.fexp prec32 emax32)).
Notation fmt64 := (generic_format radix2 (SpecFloat.fexp prec64 emax64)).
