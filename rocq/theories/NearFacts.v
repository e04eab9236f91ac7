(** Facts about the comparison of floating point numbers (C76). *)
From Coq Require Import ZArith Reals Lia Lra Psatz.
From Flocq Require Import Core.Core Relative Plus_error IEEE754.BinarySingleNaN.
From Verif Require Import Base FloatModel FloatFacts TapFloat.
Local Open Scope R_scope.

Notation r64 := (round radix2 (SpecFloat.fexp prec64 emax64) ZnearestE).
Notation r32 := (round radix2 (SpecFloat.fexp prec32 emax32) ZnearestE).
Notation F64 := (generic_format radix2 (SpecFloat.fexp prec64 emax64)).
Notation F32 := (generic_format radix2 (SpecFloat.fexp prec32 emax32)).

(** ** Sums *)
Section Sums.
  Context {prec emax : Z} (P : FLX.Prec_gt_0 prec) (Q : Prec_lt_emax prec emax).
  Notation rnd := (round radix2 (SpecFloat.fexp prec emax) ZnearestE).
  Notation fmt := (generic_format radix2 (SpecFloat.fexp prec emax)).

  Lemma sum_rel x y : fmt x -> fmt y ->
    Rabs (rnd (x + y) - (x + y)) <= bpow radix2 (- prec) * Rabs (x + y).
  Proof.
    intros Fx Fy. destruct (FLT_plus_error_N_ex radix2 (3 - emax - prec) prec (fun z => negb (Z.even z)) x y Fx Fy) as (e & He & E).
    change (FLT_exp (3 - emax - prec) prec) with (SpecFloat.fexp prec emax) in E. rewrite E.
    replace ((x + y) * (1 + e) - (x + y)) with (e * (x + y)) by ring. rewrite Rabs_mult. apply Rmult_le_compat_r; [apply Rabs_pos|].
    apply Rle_trans with (1 := He). unfold u_ro. replace (/ 2 * bpow radix2 (- prec + 1)) with (bpow radix2 (- prec)) by (rewrite bpow_plus; change (bpow radix2 1) with 2; field).
    pose proof (bpow_gt_0 radix2 (- prec)) as B. apply Rmult_le_reg_r with (1 + bpow radix2 (- prec)); [lra|]. unfold Rdiv. rewrite Rmult_assoc, Rinv_l by lra. nra.
  Qed.

  Lemma diff_rel x y : fmt x -> fmt y ->
    Rabs (x - y) * (1 - bpow radix2 (- prec)) <= Rabs (rnd (x - y)) <= Rabs (x - y) * (1 + bpow radix2 (- prec)).
  Proof.
    intros Fx Fy. pose proof (sum_rel x (- y) Fx (generic_format_opp _ _ _ Fy)) as H. change (x + - y) with (x - y) in H.
    pose proof (Rabs_triang_inv (x - y) (rnd (x - y))) as A. pose proof (Rabs_triang_inv (rnd (x - y)) (x - y)) as B.
    rewrite (Rabs_minus_sym (x - y) (rnd (x - y))) in A. lra.
  Qed.

  Lemma total_rel x y : fmt x -> fmt y -> 0 <= x -> 0 <= y ->
    (x + y) * (1 - bpow radix2 (- prec)) <= rnd (x + y) <= (x + y) * (1 + bpow radix2 (- prec)).
  Proof.
    intros Fx Fy Hx Hy. pose proof (sum_rel x y Fx Fy) as H. rewrite (Rabs_pos_eq (x + y)) in H by lra. apply Rabs_le_inv in H. lra.
  Qed.

  Lemma fmt_abs x : fmt x -> fmt (Rabs x).
  Proof. apply generic_format_abs. Qed.

  Lemma rnd_abs x : Rabs (rnd x) = rnd (Rabs x).
  Proof. symmetry. apply round_NE_abs. apply fexp_valid; assumption. Qed.

  Lemma fmt_double x : fmt x -> fmt (2 * x).
  Proof.
    intros H. change (SpecFloat.fexp prec emax) with (FLT_exp (3 - emax - prec) prec) in *.
    apply FLT_format_generic in H; [|exact P]. destruct H as [f E1 E2 E3]. apply generic_format_FLT.
    exists (Float radix2 (Fnum f) (Fexp f + 1)); [|exact E2|cbn [Fexp]; apply Z.le_trans with (1 := E3); apply Z.le_succ_diag_r].
    rewrite E1. unfold F2R. cbn [Fnum Fexp]. rewrite bpow_plus. change (bpow radix2 1) with 2. ring.
  Qed.

  Lemma big_infinite (x : binary_float prec emax) s : B2SF x = SpecFloat.S754_infinity s -> x = B754_infinity s.
  Proof. destruct x; cbn; intros H; try discriminate. injection H as ->. reflexivity. Qed.

  (** |x - y| as computed. *)
  Lemma diff_cases (x y : binary_float prec emax) : is_finite x = true -> is_finite y = true ->
    (is_finite (Babs (Bminus mode_NE x y)) = true /\ B2R (Babs (Bminus mode_NE x y)) = Rabs (rnd (B2R x - B2R y)))
    \/ (Babs (Bminus mode_NE x y) = B754_infinity false /\ bpow radix2 emax <= Rabs (rnd (B2R x - B2R y))).
  Proof.
    intros Fx Fy. generalize (Bminus_correct prec emax P Q mode_NE x y Fx Fy). change (round_mode mode_NE) with ZnearestE.
    destruct (Rlt_bool_spec (Rabs (rnd (B2R x - B2R y))) (bpow radix2 emax)) as [L|L].
    - intros (A & B & _). left. rewrite is_finite_Babs, B2R_Babs, A. split; [exact B|reflexivity].
    - intros (A & _). right. split; [|exact L]. cbn in A. rewrite (big_infinite _ _ A). reflexivity.
  Qed.

  Lemma diff_swap (x y : binary_float prec emax) : Babs (Bminus mode_NE x y) = Babs (Bminus mode_NE y x).
  Proof.
    destruct (is_finite x) eqn:Fx.
    - destruct (is_finite y) eqn:Fy; [|destruct x as [s|s| |s m e H], y as [s'|s'| |s' m' e' H']; try discriminate; reflexivity].
      assert (E : Rabs (rnd (B2R x - B2R y)) = Rabs (rnd (B2R y - B2R x))).
      { rewrite !rnd_abs. f_equal. apply Rabs_minus_sym. }
      destruct (diff_cases x y Fx Fy) as [[A1 A2]|[A1 A2]], (diff_cases y x Fy Fx) as [[B1 B2]|[B1 B2]].
      + apply B2R_Bsign_inj; [exact A1|exact B1|congruence|].
        assert (SA : forall t : binary_float prec emax, is_finite (Babs t) = true -> Bsign (Babs t) = false) by (intros [| | |] K; try discriminate K; reflexivity).
        rewrite !SA by assumption. reflexivity.
      + exfalso. pose proof (abs_B2R_lt_emax prec emax (Babs (Bminus mode_NE x y))) as L. rewrite A2, Rabs_Rabsolu in L. lra.
      + exfalso. pose proof (abs_B2R_lt_emax prec emax (Babs (Bminus mode_NE y x))) as L. rewrite B2, Rabs_Rabsolu in L. lra.
      + congruence.
    - destruct x as [s|s| |s m e H]; try discriminate; destruct y as [s'|s'| |s' m' e' H']; try reflexivity. cbn. destruct s, s'; reflexivity.
  Qed.
End Sums.

(** ** The three parts of the comparison *)
Notation fin64 := (@fin prec64 emax64).

Lemma total_cases (l r : f64) : is_finite l = true -> is_finite r = true ->
  fin64 (f64_add (Babs l) (Babs r)) (r64 (Rabs (B2R l) + Rabs (B2R r)))
  \/ (f64_add (Babs l) (Babs r) = B754_infinity false /\ bpow radix2 emax64 <= r64 (Rabs (B2R l) + Rabs (B2R r))).
Proof.
  intros Fl Fr. assert (Al : is_finite (Babs l) = true) by (rewrite is_finite_Babs; exact Fl). assert (Ar : is_finite (Babs r) = true) by (rewrite is_finite_Babs; exact Fr).
  generalize (Bplus_correct prec64 emax64 _ _ mode_NE (Babs l) (Babs r) Al Ar). change (round_mode mode_NE) with ZnearestE. rewrite !B2R_Babs.
  assert (Pos : 0 <= r64 (Rabs (B2R l) + Rabs (B2R r))).
  { apply (rnd_ge prec64 emax64 _ _); [apply generic_format_0|]. pose proof (Rabs_pos (B2R l)). pose proof (Rabs_pos (B2R r)). lra. }
  rewrite (Rabs_pos_eq (r64 _)) by exact Pos.
  destruct (Rlt_bool_spec (r64 (Rabs (B2R l) + Rabs (B2R r))) (bpow radix2 emax64)) as [L|L].
  - intros (A & B & _). left. split; assumption.
  - intros (A & _). right. split; [|exact L]. rewrite Bsign_Babs in A. exact (big_infinite _ _ A).
Qed.

Lemma total_swap (l r : f64) : f64_add (Babs l) (Babs r) = f64_add (Babs r) (Babs l).
Proof.
  destruct (is_finite l) eqn:Fl; [destruct (is_finite r) eqn:Fr|].
  - destruct (total_cases l r Fl Fr) as [[A1 A2]|[A1 A2]], (total_cases r l Fr Fl) as [[B1 B2]|[B1 B2]]; rewrite (Rplus_comm (Rabs (B2R r))) in B2.
    + apply B2R_Bsign_inj; [exact A1|exact B1|congruence|].
      assert (S : forall x y : f64, is_finite x = true -> is_finite y = true -> is_finite (f64_add (Babs x) (Babs y)) = true -> Bsign (f64_add (Babs x) (Babs y)) = false).
      { intros x y Fx Fy F. assert (Ax : is_finite (Babs x) = true) by (rewrite is_finite_Babs; exact Fx). assert (Ay : is_finite (Babs y) = true) by (rewrite is_finite_Babs; exact Fy).
        generalize (Bplus_correct prec64 emax64 _ _ mode_NE (Babs x) (Babs y) Ax Ay). destruct (Rlt_bool _ _).
        - intros (_ & _ & S). unfold f64_add. rewrite S, !Bsign_Babs, !B2R_Babs. pose proof (Rabs_pos (B2R x)). pose proof (Rabs_pos (B2R y)).
          destruct (Rcompare_spec (Rabs (B2R x) + Rabs (B2R y)) 0); try reflexivity. lra.
        - intros (A & _). unfold f64_add in F. rewrite Bsign_Babs in A. rewrite (big_infinite _ _ A) in F. discriminate. }
      rewrite !S by assumption. reflexivity.
    + exfalso. pose proof (abs_B2R_lt_emax prec64 emax64 (f64_add (Babs l) (Babs r))) as L. rewrite A2 in L. pose proof (Rle_abs (r64 (Rabs (B2R l) + Rabs (B2R r)))). lra.
    + exfalso. pose proof (abs_B2R_lt_emax prec64 emax64 (f64_add (Babs r) (Babs l))) as L. rewrite B2 in L. pose proof (Rle_abs (r64 (Rabs (B2R l) + Rabs (B2R r)))). lra.
    + congruence.
  - destruct l as [s|s| |s m e H], r as [s'|s'| |s' m' e' H']; try discriminate; reflexivity.
  - destruct l as [s|s| |s m e H], r as [s'|s'| |s' m' e' H']; try discriminate; reflexivity.
Qed.

Lemma fin_not_nan (x : f64) : is_finite x = true -> is_nan x = false.
Proof. destruct x; cbn; congruence. Qed.

Lemma fmin_fin (l r huge : f64) : is_finite l = true -> is_finite r = true -> is_finite huge = true ->
  fin64 (fmin (f64_add (Babs l) (Babs r)) huge) (Rmin (r64 (Rabs (B2R l) + Rabs (B2R r))) (B2R huge)).
Proof.
  intros Fl Fr Fh. unfold fmin. destruct (total_cases l r Fl Fr) as [[A1 A2]|[A1 A2]].
  - rewrite !fin_not_nan by assumption. unfold f64_lt. rewrite Bltb_correct by assumption. rewrite A2.
    destruct (Rlt_bool_spec (B2R huge) (r64 (Rabs (B2R l) + Rabs (B2R r)))) as [L|L].
    + rewrite Rmin_right by lra. split; [exact Fh|reflexivity].
    + rewrite Rmin_left by lra. split; assumption.
  - rewrite A1. cbn [is_nan]. rewrite fin_not_nan by assumption.
    replace (f64_lt huge (B754_infinity false)) with true by (destruct huge as [|[]| |[]]; try discriminate; reflexivity).
    pose proof (abs_B2R_lt_emax prec64 emax64 huge) as L. pose proof (Rle_abs (B2R huge)). rewrite Rmin_right by lra. split; [exact Fh|reflexivity].
Qed.

Lemma two_fin : fin64 (f64_of_Z 2) 2.
Proof. apply of_Z_exact. cbn. lia. Qed.

Lemma double_cases (d : f64) : is_finite d = true -> 0 <= B2R d ->
  fin64 (f64_mul (f64_of_Z 2) d) (2 * B2R d) \/ (exists s, f64_mul (f64_of_Z 2) d = B754_infinity s) /\ bpow radix2 emax64 <= 2 * B2R d.
Proof.
  intros Fd Pd. destruct two_fin as [F2 E2]. generalize (Bmult_correct prec64 emax64 _ _ mode_NE (f64_of_Z 2) d). change (round_mode mode_NE) with ZnearestE. rewrite E2.
  rewrite (rnd_id prec64 emax64 (2 * B2R d)) by (apply (fmt_double prec64_gt_0), generic_format_B2R). rewrite Rabs_pos_eq by lra.
  destruct (Rlt_bool_spec (2 * B2R d) (bpow radix2 emax64)) as [L|L].
  - intros (A & B & _). left. split; [rewrite F2, Fd in B; exact B|exact A].
  - intros A. right. split; [|exact L]. eexists. exact (big_infinite _ _ A).
Qed.

Lemma ratio_lt (t s eps : f64) a b : fin64 t a -> fin64 s b -> 0 <= a -> 0 < b -> is_finite eps = true ->
  (f64_lt (f64_div t s) eps = true -> a < B2R eps * b)
  /\ (r64 (a / b) < B2R eps -> f64_lt (f64_div t s) eps = true).
Proof.
  intros [Ft <-] [Fs <-] Pa Pb Fe. assert (Nb : B2R s <> 0) by lra.
  assert (Pq : 0 <= B2R t / B2R s) by (apply Rmult_le_pos; [exact Pa|apply Rlt_le, Rinv_0_lt_compat, Pb]).
  assert (Pr : 0 <= r64 (B2R t / B2R s)) by (apply (rnd_ge prec64 emax64 _ _); [apply generic_format_0|exact Pq]).
  generalize (Bdiv_correct prec64 emax64 _ _ mode_NE t s Nb). change (round_mode mode_NE) with ZnearestE. rewrite Rabs_pos_eq by exact Pr.
  pose proof (abs_B2R_lt_emax prec64 emax64 eps) as Le. pose proof (Rle_abs (B2R eps)) as Le2.
  destruct (Rlt_bool_spec (r64 (B2R t / B2R s)) (bpow radix2 emax64)) as [L|L].
  - intros (A & B & _). rewrite Ft in B. unfold f64_lt, f64_div. rewrite Bltb_correct by assumption. rewrite A. split.
    + intros K. destruct (Rlt_bool_spec (r64 (B2R t / B2R s)) (B2R eps)) as [K2|K2]; [|discriminate].
      destruct (Rlt_or_le (B2R t / B2R s) (B2R eps)) as [K3|K3].
      * apply Rmult_lt_compat_r with (r := B2R s) in K3; [|exact Pb]. unfold Rdiv in K3. rewrite Rmult_assoc, Rinv_l, Rmult_1_r in K3 by exact Nb. exact K3.
      * exfalso. apply (rnd_ge prec64 emax64 _ _) in K3; [lra|apply generic_format_B2R].
    + intros K. apply Rlt_bool_true. exact K.
  - intros A. assert (I : exists q, f64_div t s = B754_infinity q) by (eexists; exact (big_infinite _ _ A)).
    split; [|intros K; lra]. destruct I as [q I]. rewrite I. intros K. exfalso.
    assert (Sg : q = false).
    { pose proof (big_infinite _ _ A) as I2. unfold f64_div in I. rewrite I in I2. injection I2 as ->.
      assert (NS : forall x : f64, is_finite x = true -> 0 < B2R x -> Bsign x = false).
      { intros [sx|sx| |sx m e H] Fx Px; try discriminate; cbn in Px; [lra|]. destruct sx; [|reflexivity]. exfalso.
        unfold F2R in Px. cbn [Fnum Fexp cond_Zopp] in Px. pose proof (bpow_gt_0 radix2 e). assert (IZR (Z.neg m) < 0) by (apply IZR_lt; reflexivity). cbn in Px. nra. }
      assert (Pt : 0 < B2R t).
      { destruct (Rle_lt_or_eq_dec _ _ Pa) as [Q|Q]; [exact Q|]. exfalso. rewrite <- Q in L. unfold Rdiv in L. rewrite Rmult_0_l, round_0 in L by typeclasses eauto.
        pose proof (bpow_gt_0 radix2 emax64). lra. }
      rewrite !NS by assumption. reflexivity. }
    subst q. destruct eps as [|[]| |[]]; discriminate.
Qed.

Notation u53 := (bpow radix2 (- prec64)).

Lemma u53_small : 0 < u53 <= / 1024.
Proof. split; [apply bpow_gt_0|]. change (/ 1024) with (bpow radix2 (-10)) || replace (/ 1024) with (bpow radix2 (-10)) by (cbn; lra). apply bpow_le. reflexivity || (vm_compute; discriminate). Qed.

Lemma near_parts eps tiny huge l r d :
  is_finite l = true -> is_finite r = true -> is_finite eps = true -> is_finite huge = true -> 0 < B2R huge ->
  (is_finite d = true /\ 0 <= B2R d) \/ d = B754_infinity false ->
  near eps tiny huge l r d = true ->
  B2R l = B2R r
  \/ (is_finite d = true /\ f64_lt d (f64_mul eps tiny) = true)
  \/ (is_finite d = true /\ 2 * B2R d < B2R eps * Rmin (r64 (Rabs (B2R l) + Rabs (B2R r))) (B2R huge)).
Proof.
  intros Fl Fr Fe Fh Ph Hd. unfold near. intros N.
  apply orb_true_iff in N as [N|N]; [apply orb_true_iff in N as [N|N]|].
  - left. unfold f64_eq in N. rewrite Beqb_correct in N by assumption. destruct (Req_bool_spec (B2R l) (B2R r)) as [E|E]; [exact E|discriminate].
  - apply andb_true_iff in N as [_ N]. right. left. split; [|exact N]. destruct Hd as [[K _]| ->]; [exact K|].
    exfalso. destruct (f64_mul eps tiny) as [|[]| |[]]; discriminate.
  - destruct (Req_dec (B2R l) (B2R r)) as [E|E]; [left; exact E|]. right. right.
    pose proof (fmin_fin l r huge Fl Fr Fh) as Fm. set (s := fmin _ huge) in *.
    assert (Ps : 0 < Rmin (r64 (Rabs (B2R l) + Rabs (B2R r))) (B2R huge)).
    { apply Rmin_glb_lt; [|exact Ph]. pose proof (Rabs_pos (B2R l)) as A1. pose proof (Rabs_pos (B2R r)) as A2.
      assert (0 < Rabs (B2R l) + Rabs (B2R r)).
      { destruct (Rle_lt_or_eq_dec _ _ A1) as [Q|Q]; [lra|]. destruct (Rle_lt_or_eq_dec _ _ A2) as [Q2|Q2]; [lra|].
        exfalso. apply E. destruct (Req_dec (B2R l) 0) as [->|X]; [|apply Rabs_pos_lt in X; lra].
        destruct (Req_dec (B2R r) 0) as [->|X]; [reflexivity|apply Rabs_pos_lt in X; lra]. }
      pose proof (total_rel (emax := emax64) prec64_gt_0 (Rabs (B2R l)) (Rabs (B2R r)) (fmt_abs _ (generic_format_B2R _ _ l)) (fmt_abs _ (generic_format_B2R _ _ r)) A1 A2) as [T _].
      pose proof u53_small. nra. }
    assert (Ns : forall b, f64_div (B754_infinity b) s = B754_infinity (xorb b (Bsign s))).
    { destruct Fm as [Fs Es]. intros b. destruct s; try discriminate; reflexivity. }
    assert (Pos : Bsign s = false).
    { destruct Fm as [Fs Es]. destruct s as [sx|sx| |sx m e H]; try discriminate; cbn in Es; [lra|]. destruct sx; [|reflexivity]. exfalso.
      unfold F2R in Es. cbn [Fnum Fexp cond_Zopp] in Es. pose proof (bpow_gt_0 radix2 e). assert (IZR (Z.neg m) < 0) by (apply IZR_lt; reflexivity). cbn in Es. nra. }
    assert (Inf : forall b, f64_mul (f64_of_Z 2) d = B754_infinity b -> b = false -> False).
    { intros b Q ->. rewrite Q, Ns, Pos in N. cbn [xorb] in N. destruct eps as [|[]| |[]]; discriminate. }
    destruct Hd as [[Fd Pd]| ->].
    + split; [exact Fd|]. destruct (double_cases d Fd Pd) as [D|[[b D] Big]].
      * exact (proj1 (ratio_lt _ _ eps _ _ D Fm ltac:(lra) Ps Fe) N).
      * exfalso. destruct b; [|exact (Inf false D eq_refl)].
        assert (Sd : Bsign d = false).
        { destruct d as [sx|sx| |sx m e H]; try discriminate. destruct sx; [|reflexivity]. exfalso.
          cbn in Pd. unfold F2R in Pd. cbn [Fnum Fexp cond_Zopp] in Pd. pose proof (bpow_gt_0 radix2 e). assert (IZR (Z.neg m) < 0) by (apply IZR_lt; reflexivity). cbn in Pd. nra. }
        generalize (Bmult_correct prec64 emax64 _ _ mode_NE (f64_of_Z 2) d). destruct (Rlt_bool _ _).
        -- intros (_ & K & _). unfold f64_mul in D. rewrite D in K. destruct two_fin as [K2 _]. rewrite K2, Fd in K. discriminate.
        -- intros K. unfold f64_mul in D. rewrite D, Sd in K. discriminate.
    + exfalso. apply (Inf false); reflexivity.
Qed.

Lemma near_third eps tiny huge l r d :
  is_finite l = true -> is_finite r = true -> is_finite eps = true -> is_finite huge = true ->
  is_finite d = true -> 0 <= B2R d -> B2R d < bpow radix2 1023 -> bpow radix2 (-1021) <= B2R eps ->
  0 < r64 (Rabs (B2R l) + Rabs (B2R r)) <= B2R huge ->
  2 * B2R d <= B2R eps * (1 - 2 * u53) * r64 (Rabs (B2R l) + Rabs (B2R r)) ->
  near eps tiny huge l r d = true.
Proof.
  intros Fl Fr Fe Fh Fd Pd Bd Le Ls H. unfold near. apply orb_true_iff. right.
  pose proof (fmin_fin l r huge Fl Fr Fh) as Fm. rewrite Rmin_left in Fm by lra. set (s := fmin _ huge) in *. set (S := r64 _) in *.
  destruct (double_cases d Fd Pd) as [D|[_ Big]].
  - apply (proj2 (ratio_lt _ _ eps _ _ D Fm ltac:(lra) (proj1 Ls) Fe)).
    assert (Q : 2 * B2R d / S <= B2R eps * (1 - 2 * u53)).
    { apply Rmult_le_reg_r with S; [lra|]. unfold Rdiv. rewrite Rmult_assoc, Rinv_l by lra. lra. }
    apply (rnd_le prec64 emax64 _ _) in Q. apply Rle_lt_trans with (1 := Q).
    pose proof u53_small as U. pose proof (bpow_gt_0 radix2 (-1021)) as B1.
    assert (Lz : bpow radix2 (2 - emax64) <= B2R eps * (1 - 2 * u53)).
    { change (2 - emax64)%Z with (-1 + -1021)%Z. rewrite bpow_plus. change (bpow radix2 (-1)) with (/ 2). nra. }
    assert (Pz : 0 <= B2R eps * (1 - 2 * u53)) by nra.
    destruct (rnd_rel_pos prec64 emax64 _ _ Pz (or_intror Lz)) as [_ K]. apply Rle_lt_trans with (1 := K).
    assert (Pe : 0 < B2R eps) by lra. rewrite Rmult_assoc. rewrite <- (Rmult_1_r (B2R eps)) at 2. apply Rmult_lt_compat_l; [exact Pe|]. nra.
  - exfalso. change (bpow radix2 emax64) with (bpow radix2 (1 + 1023)) in Big. rewrite bpow_plus in Big. change (bpow radix2 1) with 2 in Big. lra.
Qed.

(** ** The numbers of the types *)
Lemma normal_fin m e s : (Z.abs m <= 2 ^ 53)%Z -> (-1074 <= e)%Z -> Rabs (IZR m * bpow radix2 e) < bpow radix2 1024 ->
  fin64 (binary_normalize prec64 emax64 prec64_gt_0 prec64_lt_emax mode_NE m e s) (IZR m * bpow radix2 e).
Proof.
  intros Hm He Hb. generalize (binary_normalize_correct prec64 emax64 _ _ mode_NE m e s). cbv zeta. unfold F2R. cbn [Fnum Fexp]. change (round_mode mode_NE) with ZnearestE.
  rewrite (rnd_id prec64 emax64) by (apply fmt_scaled; [exact prec64_gt_0|exact Hm|exact He]). rewrite Rlt_bool_true by exact Hb.
  intros (A & B & _). split; assumption.
Qed.

Lemma min64_fin : fin64 min64 (bpow radix2 (-1022)).
Proof.
  rewrite <- (Rmult_1_l (bpow radix2 (-1022))). apply normal_fin; [cbn; lia|lia|]. rewrite Rmult_1_l, Rabs_pos_eq by apply bpow_ge_0. apply bpow_lt. lia.
Qed.
Lemma min32_fin : fin64 min32 (bpow radix2 (-126)).
Proof.
  rewrite <- (Rmult_1_l (bpow radix2 (-126))). apply normal_fin; [cbn; lia|lia|]. rewrite Rmult_1_l, Rabs_pos_eq by apply bpow_ge_0. apply bpow_lt. lia.
Qed.
Lemma below_pow k e : (0 <= k)%Z -> IZR (2 ^ k - 1) * bpow radix2 e < bpow radix2 (k + e).
Proof.
  intros Hk. rewrite bpow_plus. apply Rmult_lt_compat_r; [apply bpow_gt_0|]. rewrite (bpow_IZR k) by exact Hk. apply IZR_lt. lia.
Qed.
Lemma above_pow k e : (1 <= k)%Z -> bpow radix2 (k - 1 + e) <= IZR (2 ^ k - 1) * bpow radix2 e.
Proof.
  intros Hk. rewrite bpow_plus. apply Rmult_le_compat_r; [apply bpow_ge_0|]. rewrite (bpow_IZR (k - 1)) by lia. apply IZR_le.
  replace (2 ^ k)%Z with (2 * 2 ^ (k - 1))%Z by (rewrite <- Z.pow_succ_r by lia; f_equal; lia). assert (0 < 2 ^ (k - 1))%Z by (apply Z.pow_pos_nonneg; lia). lia.
Qed.
Lemma max64_fin : exists h, fin64 max64 h /\ bpow radix2 1023 <= h.
Proof.
  exists (IZR (2 ^ 53 - 1) * bpow radix2 971). split; [|apply (above_pow 53 971); lia]. apply normal_fin; [cbn; lia|lia|].
  rewrite Rabs_pos_eq by (apply Rmult_le_pos; [apply IZR_le; cbn; lia|apply bpow_ge_0]). apply (below_pow 53 971). lia.
Qed.
Lemma max32_fin : exists h, fin64 max32 h /\ bpow radix2 127 <= h.
Proof.
  exists (IZR (2 ^ 24 - 1) * bpow radix2 104). split; [|apply (above_pow 24 104); lia]. apply normal_fin; [cbn; lia|lia|].
  rewrite Rabs_pos_eq by (apply Rmult_le_pos; [apply IZR_le; cbn; lia|apply bpow_ge_0]). apply Rlt_trans with (1 := below_pow 24 104 ltac:(lia)). apply bpow_lt. lia.
Qed.

(** float to double is exact. *)
Lemma conv_fin (x : f32) : is_finite x = true -> fin64 (f64_of_f32 x) (B2R x).
Proof.
  intros Fx. destruct x as [s|s| |s m e H]; try discriminate; [split; reflexivity|].
  pose proof (abs_B2R_lt_emax prec32 emax32 (B754_finite s m e H)) as L. cbn [f64_of_f32 B2R] in *. unfold F2R in *. cbn [Fnum Fexp] in *.
  pose proof H as H2. unfold SpecFloat.bounded in H2. apply andb_true_iff in H2 as [C _].
  unfold SpecFloat.canonical_mantissa in C. apply Zeq_bool_eq in C. unfold SpecFloat.fexp, SpecFloat.emin in C. rewrite Digits.Zpos_digits2_pos in C.
  change prec32 with 24%Z in C. change emax32 with 128%Z in C.
  assert (He : (-149 <= e)%Z) by lia. assert (Hd : (Digits.Zdigits radix2 (Z.pos m) <= 24)%Z) by lia.
  apply normal_fin; [|lia|apply Rlt_trans with (1 := L), bpow_lt; reflexivity].
  rewrite abs_cond_Zopp. pose proof (Digits.Zdigits_correct radix2 (Z.pos m)) as [_ K].
  apply Z.lt_le_incl, Z.lt_le_trans with (1 := K). change (Z.abs (Z.pos m)) with (Z.pos m) in *. change (radix_val radix2) with 2%Z. apply Z.pow_le_mono_r; lia.
Qed.

Lemma conv_other (x : f32) : is_nan (f64_of_f32 x) = is_nan x /\ is_finite (f64_of_f32 x) = is_finite x
  /\ (forall s, x = B754_infinity s -> f64_of_f32 x = B754_infinity s).
Proof.
  destruct (is_finite x) eqn:F.
  - destruct (conv_fin x F) as [A _]. rewrite A. split; [rewrite fin_not_nan by exact A; destruct x; try discriminate; reflexivity|]. split; [reflexivity|]. intros s ->. discriminate.
  - destruct x; try discriminate; (split; [reflexivity|]); (split; [reflexivity|]); intros s' K; inversion K; reflexivity.
Qed.

Lemma EPSILON_fin : is_finite EPSILON = true /\ bpow radix2 (-14) <= B2R EPSILON <= bpow radix2 (-13).
Proof.
  destruct (of_Z_exact prec64 emax64 prec64_gt_0 prec64_lt_emax 1 ltac:(cbn; lia)) as [A1 B1]. destruct (of_Z_exact prec64 emax64 prec64_gt_0 prec64_lt_emax 10000 ltac:(cbn; lia)) as [A2 B2].
  destruct (div_fin prec64 emax64 prec64_gt_0 prec64_lt_emax (f64_of_Z 1) (f64_of_Z 10000) 1 10000 0) as [A B]; [split; assumption|split; assumption|lra|unfold emax64; lia|cbn; rewrite Rabs_pos_eq by lra; lra|].
  split; [exact A|]. unfold EPSILON, f64_div. rewrite B.
  assert (G : forall k, (-1074 <= k)%Z -> F64 (bpow radix2 k)).
  { intros k Hk. rewrite <- (Rmult_1_l (bpow radix2 k)). apply fmt_scaled; [exact prec64_gt_0|cbn; lia|exact Hk]. }
  split; [apply (rnd_ge prec64 emax64 _ _); [apply G; lia|cbn; lra]|apply (rnd_le_gen prec64 emax64 _ _); [apply G; lia|cbn; lra]].
Qed.

(** ** What the answer means *)
Section Meaning.
  Context {prec emax : Z} (P : FLX.Prec_gt_0 prec) (Q : Prec_lt_emax prec emax).
  Notation rnd := (round radix2 (SpecFloat.fexp prec emax) ZnearestE).
  Notation fmt := (generic_format radix2 (SpecFloat.fexp prec emax)).

  (** A difference rounded to less than a number of the format is less than it. *)
  Lemma diff_below a b c : fmt c -> Rabs (rnd (a - b)) < c -> Rabs (a - b) < c.
  Proof.
    intros Fc H. destruct (Rlt_or_le (Rabs (a - b)) c) as [K|K]; [exact K|]. exfalso. rewrite rnd_abs in H by exact P.
    apply (rnd_ge prec emax P) in K; [lra|exact Fc].
  Qed.
End Meaning.

(** From the third part to the relative error. *)
Lemma relative_error A B S e u v w : 0 <= A -> 0 <= B -> 0 < e -> 0 < u < / 4 -> 0 <= v -> (1 + v) <= (1 + w) * (1 - u) ->
  2 * (A * (1 - u)) < e * S -> S <= 2 * B * (1 + v) -> A < e * (1 + w) * B.
Proof.
  intros HA HB He Hu Hv Hw H1 H2.
  assert (K : A * (1 - u) < e * B * ((1 + w) * (1 - u))).
  { apply Rlt_le_trans with (e * B * (1 + v)).
    - assert (e * S <= e * (2 * B * (1 + v))) by (apply Rmult_le_compat_l; lra). lra.
    - apply Rmult_le_compat_l; [apply Rmult_le_pos; lra|exact Hw]. }
  apply Rmult_lt_reg_r with (1 - u); [lra|]. lra.
Qed.

Lemma error_relative A B S d e u v w : 0 <= A -> 0 <= B -> 0 < e -> 0 < u -> 0 < v < / 4 -> 0 < w -> (1 - w) * (1 + u) <= (1 - 2 * v) * (1 - v) ->
  A <= e * (1 - w) * B -> d <= A * (1 + u) -> 2 * B * (1 - v) <= S -> 2 * d <= e * (1 - 2 * v) * S.
Proof.
  intros HA HB He Hu Hv Hw H H1 H2 H3.
  assert (K1 : 2 * d <= 2 * (e * (1 - w) * B * (1 + u))) by nra.
  assert (K2 : e * B * ((1 - w) * (1 + u)) <= e * B * ((1 - 2 * v) * (1 - v))) by (apply Rmult_le_compat_l; [apply Rmult_le_pos; lra|exact H]).
  assert (K3 : e * (1 - 2 * v) * (2 * B * (1 - v)) <= e * (1 - 2 * v) * S) by (apply Rmult_le_compat_l; [apply Rmult_le_pos; lra|exact H3]).
  lra.
Qed.
