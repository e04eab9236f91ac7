(** The float arithmetic of GalleyVector over unbounded stamps. *)
From Coq Require Import ZArith Reals Lia Lra.
From Flocq Require Import Core.Core IEEE754.BinarySingleNaN.
From Verif Require Import Base BaseFacts FloatModel FloatFacts Oracle OracleFacts Arithm Sim Galley VectorSpec VectorFacts.
Local Open Scope R_scope.

(** Unit roundoff. *)
Notation u := (/ 16777216).

Lemma rel32 x : 0 <= x -> (x = 0 \/ bpow radix2 (-100) <= x) -> x * (1 - u) <= rnd32 x <= x * (1 + u).
Proof.
  intros H0 H. generalize (rnd_rel_pos prec32 emax32 prec32_gt_0 x H0).
  change (bpow radix2 (- prec32)) with u. intros G. apply G. destruct H as [H|H]; [left; exact H|right].
  apply Rle_trans with (2 := H). apply bpow_le. vm_compute. discriminate.
Qed.

Lemma tiny : bpow radix2 (-100) <= u * u.
Proof.
  replace (u * u) with (bpow radix2 (-48)). apply bpow_le. lia.
  change (-48)%Z with (-24 + -24)%Z. rewrite bpow_plus. change (bpow radix2 (-24)) with u. reflexivity.
Qed.

Lemma fmt_tiny : fmt32 (bpow radix2 (-100)).
Proof. apply generic_format_bpow. vm_compute. discriminate. Qed.

(** Including tiny numbers. *)
Lemma abs32 x : 0 <= x -> x * (1 - u) - u * u <= rnd32 x <= x * (1 + u) + u * u.
Proof.
  intros H0. pose proof tiny as T. pose proof (bpow_gt_0 radix2 (-100)) as P.
  destruct (Rle_lt_dec (bpow radix2 (-100)) x) as [H|H].
  - pose proof (rel32 x H0 (or_intror H)). lra.
  - assert (rnd32 x <= bpow radix2 (-100)) by (apply rnd_le_gen; [exact prec32_gt_0|exact fmt_tiny|lra]).
    assert (0 <= rnd32 x) by (rewrite <- (rnd_0 prec32 emax32); apply rnd_le; [exact prec32_gt_0|exact H0]).
    split; lra.
Qed.

Lemma pos32 x : 0 <= x -> 0 <= rnd32 x.
Proof. intros H. rewrite <- (rnd_0 prec32 emax32). apply rnd_le; [exact prec32_gt_0|exact H]. Qed.

Lemma scale_up x y z A B C : 0 <= y -> x <= y * A -> z <= x * B -> 0 <= B -> A * B <= C -> z <= y * C.
Proof. intros. assert (x * B <= y * A * B) by (apply Rmult_le_compat_r; assumption). assert (y * (A * B) <= y * C) by (apply Rmult_le_compat_l; assumption). lra. Qed.

Lemma scale_dn x y z A B C : 0 <= y -> y * A <= x -> x * B <= z -> 0 <= B -> C <= A * B -> y * C <= z.
Proof. intros. assert (y * A * B <= x * B) by (apply Rmult_le_compat_r; assumption). assert (y * C <= y * (A * B)) by (apply Rmult_le_compat_l; assumption). lra. Qed.

(** Subtracting the integer part (or a nearest integer) is exact. *)
Lemma sub_int_fmt x r : fmt32 x -> (forall z, x = IZR z -> r = z) -> Rabs (x - IZR r) <= Rabs x -> fmt32 (x - IZR r).
Proof.
  intros F Hr Ha. rewrite (fexp_FLT prec32 emax32) in F |- *.
  apply FLT.FLT_format_generic in F; [|exact prec32_gt_0]. destruct F as [[m e] F1 F2 F3]. cbn [Fnum Fexp] in *.
  destruct (Z_le_gt_dec 0 e) as [He|He].
  - assert (x = IZR (m * 2 ^ e)) as E.
    { rewrite F1. unfold F2R. cbn [Fnum Fexp]. rewrite mult_IZR, <- (IZR_Zpower radix2) by lia. reflexivity. }
    rewrite (Hr _ E), E, Rminus_diag_eq by reflexivity. apply generic_format_0.
  - assert (E : x - IZR r = F2R (Defs.Float radix2 (m - r * 2 ^ (- e)) e)).
    { rewrite F1. unfold F2R. cbn [Fnum Fexp]. rewrite minus_IZR, mult_IZR, Rmult_minus_distr_r.
      rewrite (IZR_Zpower radix2) by lia. rewrite Rmult_assoc, <- bpow_plus.
      replace (- e + e)%Z with 0%Z by lia. cbn [bpow]. ring. }
    apply FLT.generic_format_FLT. exists (Defs.Float radix2 (m - r * 2 ^ (- e)) e); [exact E| |exact F3].
    cbn [Fnum]. apply Z.le_lt_trans with (2 := F2). apply le_IZR. rewrite !abs_IZR.
    rewrite E, F1 in Ha. unfold F2R in Ha. cbn [Fnum Fexp] in Ha. rewrite !Rabs_mult in Ha.
    apply Rmult_le_reg_r with (2 := Ha). apply Rabs_pos_lt. apply Rgt_not_eq. apply bpow_gt_0.
Qed.

Lemma frac_exact x : fmt32 x -> 0 <= x -> fmt32 (x - IZR (Zfloor x)).
Proof.
  intros F H. apply sub_int_fmt; [exact F| |].
  - intros z ->. apply Zfloor_IZR.
  - pose proof (Zfloor_lb x). assert (0 <= IZR (Zfloor x)) by (apply IZR_le; apply Zfloor_lub; exact H).
    rewrite !Rabs_pos_eq; lra.
Qed.

(** ** One size *)
Definition el_float (mn total var o : Z) (rem : f32) : f32 :=
  f32_add (f32_add (f32_of_Z mn) (f32_mul (f32_div (f32_of_Z o) (f32_of_Z total)) (f32_of_Z var))) rem.

Lemma el_step mn total var o rem r : (0 <= mn)%Z -> (0 <= var)%Z -> (mn + var <= 2097152)%Z ->
  (1 <= total < 2 ^ 31)%Z -> (0 <= o <= 65535)%Z -> (o <= total)%Z -> fin rem r -> 0 <= r < 1 ->
  let w := IZR mn + IZR var * (IZR o / IZR total) in
  exists e, fin (el_float mn total var o rem) e
    /\ w * (1 - 7 * u) + r - 2 * u <= e <= w * (1 + 7 * u) + r + 2 * u
    /\ IZR mn <= e
    /\ to_int (Btrunc_Z (el_float mn total var o rem)) = Ok (Zfloor e)
    /\ fin (f32_sub (el_float mn total var o rem) (f32_of_Z (Zfloor e))) (e - IZR (Zfloor e)).
Proof.
  intros Hm Hv Hmv Ht Ho Hot Fr Hr w.
  assert (M0 := IZR_le _ _ Hm). assert (V0 := IZR_le _ _ Hv). assert (MV := IZR_le _ _ Hmv). rewrite plus_IZR in MV.
  assert (T1 := IZR_le _ _ (proj1 Ht)). assert (T2 := IZR_lt _ _ (proj2 Ht)). change (2 ^ 31)%Z with 2147483648%Z in T2.
  assert (O0 := IZR_le _ _ (proj1 Ho)). assert (O1 := IZR_le _ _ (proj2 Ho)). assert (OT := IZR_le _ _ Hot).
  assert (O2 : IZR o = 0 \/ 1 <= IZR o).
  { destruct (Z.eq_dec o 0) as [->|N]; [left; reflexivity|right; apply IZR_le; lia]. }
  assert (V2 : IZR var = 0 \/ 1 <= IZR var).
  { destruct (Z.eq_dec var 0) as [->|N]; [left; reflexivity|right; apply IZR_le; lia]. }
  set (m := IZR mn) in *. set (v := IZR var) in *. set (T := IZR total) in *. set (a := IZR o) in *.
  assert (B100 : forall k, (-100 <= k)%Z -> bpow radix2 (-100) <= bpow radix2 k) by (intros; apply bpow_le; lia).
  (* total as float *)
  set (t := rnd32 T).
  assert (Ft : fin (f32_of_Z total) t).
  { apply of_Z_fin with (k := 31%Z); [vm_compute; split; [discriminate|reflexivity]|lia]. }
  assert (Rt : T * (1 - u) <= t <= T * (1 + u)).
  { apply rel32; [lra|right]. apply Rle_trans with 1; [|lra]. change 1 with (bpow radix2 0). apply B100. lia. }
  assert (t1 : 1 <= t) by (apply rnd_ge; [exact prec32_gt_0|apply (fmt32_int 1); lia|lra]).
  (* the ratio *)
  set (x := a / T). assert (x0 : 0 <= x) by (apply Rmult_le_pos; [lra|left; apply Rinv_0_lt_compat; lra]).
  assert (x1 : x <= 1) by (unfold x; apply Rmult_le_reg_r with T; [lra|]; unfold Rdiv; rewrite Rmult_assoc, Rinv_l; lra).
  assert (Exa : a = x * T) by (unfold x; field; lra).
  assert (Eq : a / t <= x * (1 + 2 * u) /\ x * (1 - u) <= a / t).
  { split; apply Rmult_le_reg_r with t; try lra; unfold Rdiv; rewrite (Rmult_assoc a), Rinv_l, Rmult_1_r by lra; rewrite Exa.
    - assert (T * 1 <= t * (1 + 2 * u)) by (apply Rle_trans with (T * ((1 - u) * (1 + 2 * u))); [apply Rmult_le_compat_l; lra|rewrite <- Rmult_assoc; apply Rmult_le_compat_r; lra]).
      assert (x * T <= x * (t * (1 + 2 * u))) by (apply Rmult_le_compat_l; lra). lra.
    - assert (t * (1 - u) <= T) by (apply Rle_trans with (T * ((1 + u) * (1 - u))); [rewrite <- Rmult_assoc; apply Rmult_le_compat_r; lra|rewrite <- (Rmult_1_r T) at 2; apply Rmult_le_compat_l; lra]).
      assert (x * (t * (1 - u)) <= x * T) by (apply Rmult_le_compat_l; lra). lra. }
  assert (q0 : 0 <= a / t) by (apply Rmult_le_pos; [lra|left; apply Rinv_0_lt_compat; lra]).
  set (q := rnd32 (a / t)).
  assert (Fa : fin (f32_of_Z o) a) by (apply of_Z_exact; change (2 ^ prec32)%Z with 16777216%Z; lia).
  assert (Fq : fin (f32_div (f32_of_Z o) (f32_of_Z total)) q).
  { apply (div_fin _ _ _ _ _ _ _ _ 1%Z Fa Ft); [intros X; lra|vm_compute; split; [discriminate|reflexivity]|].
    rewrite Rabs_pos_eq by lra. change (bpow radix2 1) with 2. lra. }
  assert (tq : a / t = 0 \/ bpow radix2 (-40) <= a / t).
  { destruct O2 as [->|O2]; [left; unfold Rdiv; lra|right].
    apply Rle_trans with (/ t).
    - replace (bpow radix2 (-40)) with (/ bpow radix2 40) by (symmetry; apply (bpow_opp radix2 40)).
      apply Rinv_le; [lra|]. rewrite bpow_IZR by lia. change (2 ^ 40)%Z with 1099511627776%Z. lra.
    - unfold Rdiv. rewrite <- (Rmult_1_l (/ t)) at 1. apply Rmult_le_compat_r; [left; apply Rinv_0_lt_compat|]; lra. }
  assert (Rq : a / t * (1 - u) <= q <= a / t * (1 + u)).
  { apply rel32; [lra|]. destruct tq as [->|tq]; [left; reflexivity|right]. apply Rle_trans with (2 := tq). apply B100. lia. }
  assert (Uq : q <= x * (1 + 31 / 10 * u)) by (apply (scale_up (a / t) x q (1 + 2 * u) (1 + u)); lra).
  assert (Lq : x * (1 - 21 / 10 * u) <= q) by (apply (scale_dn (a / t) x q (1 - u) (1 - u)); lra).
  assert (qn : 0 <= q) by (apply pos32; lra).
  (* times var *)
  assert (Fv : fin (f32_of_Z var) v) by (apply of_Z_exact; change (2 ^ prec32)%Z with 16777216%Z; lia).
  set (p := rnd32 (q * v)).
  assert (qv0 : 0 <= q * v) by (apply Rmult_le_pos; lra).
  assert (qv1 : q * v <= 2 * v) by (apply Rmult_le_compat_r; lra).
  assert (Fp : fin (f32_mul (f32_div (f32_of_Z o) (f32_of_Z total)) (f32_of_Z var)) p).
  { apply (mult_fin _ _ _ _ _ _ _ _ 23%Z Fq Fv); [vm_compute; split; [discriminate|reflexivity]|].
    rewrite Rabs_pos_eq by lra. change (bpow radix2 23) with 8388608. lra. }
  assert (tp : q * v = 0 \/ bpow radix2 (-50) <= q * v).
  { destruct V2 as [->|V2]; [left; lra|]. destruct tq as [tq|tq].
    - left. rewrite tq in Rq. replace q with 0 by lra. lra.
    - right. apply Rle_trans with (a / t * (1 - u) * v).
      + change (-50)%Z with (-10 + -40)%Z. rewrite bpow_plus. change (bpow radix2 (-10)) with (/ 1024).
        pose proof (bpow_gt_0 radix2 (-40)).
        apply Rle_trans with (bpow radix2 (-40) * (1 - u)); [lra|].
        apply Rle_trans with (a / t * (1 - u)); [apply Rmult_le_compat_r; lra|].
        rewrite <- (Rmult_1_r (a / t * (1 - u))) at 1. apply Rmult_le_compat_l; lra.
      + apply Rmult_le_compat_r; lra. }
  assert (Rp : q * v * (1 - u) <= p <= q * v * (1 + u)).
  { apply rel32; [lra|]. destruct tp as [->|tp]; [left; reflexivity|right]. apply Rle_trans with (2 := tp). apply B100. lia. }
  set (z := v * x). assert (z0 : 0 <= z) by (apply Rmult_le_pos; lra).
  assert (Uz : q * v <= z * (1 + 31 / 10 * u)).
  { unfold z. assert (q * v <= x * (1 + 31 / 10 * u) * v) by (apply Rmult_le_compat_r; lra). lra. }
  assert (Lz : z * (1 - 21 / 10 * u) <= q * v).
  { unfold z. assert (x * (1 - 21 / 10 * u) * v <= q * v) by (apply Rmult_le_compat_r; lra). lra. }
  assert (Up : p <= z * (1 + 42 / 10 * u)) by (apply (scale_up (q * v) z p (1 + 31 / 10 * u) (1 + u)); lra).
  assert (Lp : z * (1 - 32 / 10 * u) <= p) by (apply (scale_dn (q * v) z p (1 - 21 / 10 * u) (1 - u)); lra).
  assert (p0 : 0 <= p) by (apply pos32; lra).
  (* plus mn *)
  assert (Fm : fin (f32_of_Z mn) m) by (apply of_Z_exact; change (2 ^ prec32)%Z with 16777216%Z; lia).
  set (y := rnd32 (m + p)).
  assert (Fy : fin (f32_add (f32_of_Z mn) (f32_mul (f32_div (f32_of_Z o) (f32_of_Z total)) (f32_of_Z var))) y).
  { apply (plus_fin _ _ _ _ _ _ _ _ 24%Z Fm Fp); [vm_compute; split; [discriminate|reflexivity]|].
    rewrite Rabs_pos_eq by lra. change (bpow radix2 24) with 16777216. lra. }
  assert (Ry : (m + p) * (1 - u) - u * u <= y <= (m + p) * (1 + u) + u * u) by (apply abs32; lra).
  assert (my : m <= y) by (apply rnd_ge; [exact prec32_gt_0|apply fmt32_int; lia|lra]).
  assert (Ew : w = m + z) by reflexivity.
  assert (w0 : 0 <= w) by lra.
  assert (w1 : w <= 2097152). { assert (z <= v * 1) by (apply Rmult_le_compat_l; lra). lra. }
  assert (Uy : y <= w * (1 + 53 / 10 * u) + u * u).
  { assert (m + p <= w * (1 + 42 / 10 * u)) by (rewrite Ew; lra).
    assert ((m + p) * (1 + u) <= w * (1 + 53 / 10 * u)) by (apply (scale_up (m + p) w _ (1 + 42 / 10 * u) (1 + u)); lra). lra. }
  assert (Ly : w * (1 - 43 / 10 * u) - u * u <= y).
  { assert (w * (1 - 32 / 10 * u) <= m + p) by (rewrite Ew; lra).
    assert (w * (1 - 43 / 10 * u) <= (m + p) * (1 - u)) by (apply (scale_dn (m + p) w _ (1 - 32 / 10 * u) (1 - u)); lra). lra. }
  (* plus remainder *)
  set (e := rnd32 (y + r)).
  assert (Fe : fin (el_float mn total var o rem) e).
  { apply (plus_fin _ _ _ _ _ _ _ _ 25%Z Fy Fr); [vm_compute; split; [discriminate|reflexivity]|].
    rewrite Rabs_pos_eq by lra. change (bpow radix2 25) with 33554432. lra. }
  assert (Re : (y + r) * (1 - u) - u * u <= e <= (y + r) * (1 + u) + u * u) by (apply abs32; lra).
  assert (me : m <= e) by (apply rnd_ge; [exact prec32_gt_0|apply fmt32_int; lia|lra]).
  exists e. split; [exact Fe|]. split.
  { assert (y * (1 + u) <= (w * (1 + 53 / 10 * u) + u * u) * (1 + u)) by (apply Rmult_le_compat_r; lra).
    assert (w * ((1 + 53 / 10 * u) * (1 + u)) <= w * (1 + 7 * u)) by (apply Rmult_le_compat_l; lra).
    assert ((w * (1 - 43 / 10 * u) - u * u) * (1 - u) <= y * (1 - u)) by (apply Rmult_le_compat_r; lra).
    assert (w * (1 - 7 * u) <= w * ((1 - 43 / 10 * u) * (1 - u))) by (apply Rmult_le_compat_l; lra).
    split; lra. }
  split; [exact me|].
  assert (Fl : (0 <= Zfloor e < 2 ^ 31)%Z).
  { split; [apply Zfloor_lub; lra|]. apply lt_IZR. apply Rle_lt_trans with (1 := Zfloor_lb e).
    change (2 ^ 31)%Z with 2147483648%Z. lra. }
  split.
  { rewrite (trunc_fin _ _ _ _ Fe) by lra. cbn [to_int]. unfold int_op, in_i32. destruct (_ && _) eqn:E; [reflexivity|lia]. }
  assert (Fz : fin (f32_of_Z (Zfloor e)) (IZR (Zfloor e))).
  { apply of_Z_exact. change (2 ^ prec32)%Z with 16777216%Z. rewrite Z.abs_eq by lia. apply le_IZR.
    apply Rle_trans with (1 := Zfloor_lb e). lra. }
  pose proof (Zfloor_lb e). pose proof (Zfloor_ub e).
  assert (Fs : fmt32 (e - IZR (Zfloor e))) by (apply frac_exact; [apply (fin_fmt _ _ _ _ Fe)|lra]).
  rewrite <- (rnd_id prec32 emax32 _ Fs).
  apply (minus_fin _ _ _ _ _ _ _ _ 1%Z Fe Fz); [vm_compute; split; [discriminate|reflexivity]|].
  rewrite Rabs_pos_eq by lra. change (bpow radix2 1) with 2. lra.
Qed.
