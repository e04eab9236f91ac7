(** WeightedRefPicker of t/320-galley-recursion-experiments.cpp. *)
From Coq Require Import ZArith Reals Lia Lra.
From Flocq Require Import Core.Core IEEE754.BinarySingleNaN.
From Verif Require Import Base BaseFacts FloatModel FloatFacts PickFacts Oracle Galley VectorSpec SetFacts SetFloat Arithm Experiment ExperimentSpec ExperimentFacts Weighted WeightedSpec.
Local Open Scope R_scope.
Notation e44 := (/ 17592186044416).

Lemma close_addw T : (1 <= T <= 1048576)%Z -> forall s x g w, fin s x -> close T x g -> (0 <= g)%Z -> (0 <= w)%Z -> (g + w <= T)%Z ->
  exists x', fin (f64_add s (f64_mul (f64_div (f64_of_Z 255) (f64_of_Z T)) (f64_of_Z w))) x' /\ close T x' (g + w).
Proof.
  intros HT s x g w Fs C Hg Hw Hgw. destruct (step_fin T HT) as (st & Fst & E & R). pose proof (close_range T x g HT ltac:(lia) C) as X.
  assert (Fw : fin (f64_of_Z w) (IZR w)) by (apply of_Z_exact; change (2 ^ prec64)%Z with 9007199254740992%Z; lia).
  assert (T0 := IZR_le _ _ (proj1 HT)). assert (T1 := IZR_le _ _ (proj2 HT)). assert (W0 := IZR_le _ _ Hw). assert (W1 : IZR w <= IZR T) by (apply IZR_le; lia). change (IZR 0) with 0 in *.
  assert (I0 : 0 < / IZR T) by (apply Rinv_0_lt_compat; lra).
  assert (Q0 : 0 <= IZR w * / IZR T) by (apply Rmult_le_pos; lra).
  assert (Q1 : IZR w * / IZR T <= 1). { rewrite <- (Rinv_r (IZR T)) by lra. apply Rmult_le_compat_r; lra. }
  assert (EP : Rabs (st * IZR w - 255 * IZR w / IZR T) <= IZR w * (e44 / 4)).
  { replace (st * IZR w - 255 * IZR w / IZR T) with (IZR w * (st - 255 / IZR T)) by (field; lra). rewrite Rabs_mult, (Rabs_pos_eq (IZR w)) by lra. apply Rmult_le_compat_l; lra. }
  assert (EP' := Rabs_le_inv _ _ EP). replace (255 * IZR w / IZR T) with (255 * (IZR w * / IZR T)) in EP' by (unfold Rdiv; ring).
  assert (SW : 0 <= st * IZR w) by (apply Rmult_le_pos; lra).
  assert (FM : fin (f64_mul (f64_div (f64_of_Z 255) (f64_of_Z T)) (f64_of_Z w)) (rnd64 (st * IZR w))).
  { apply (mult_fin _ _ _ _ _ _ _ _ 8%Z Fst Fw); [vm_compute; split; [discriminate|reflexivity]|]. change (bpow radix2 8) with 256. apply Rabs_le. lra. }
  assert (DM : Rabs (rnd64 (st * IZR w) - st * IZR w) <= e44 / 4).
  { replace (e44 / 4) with (bpow radix2 (8 - prec64) / 2).
    - apply rnd_err; [exact prec64_gt_0|vm_compute; discriminate|]. change (bpow radix2 8) with 256. apply Rabs_lt. lra.
    - change (bpow radix2 (8 - prec64)) with (/ 35184372088832). field. }
  assert (DM' := Rabs_le_inv _ _ DM).
  set (p := rnd64 (st * IZR w)) in *.
  exists (rnd64 (x + p)). split.
  { apply (plus_fin _ _ _ _ _ _ _ _ 10%Z Fs FM); [vm_compute; split; [discriminate|reflexivity]|]. change (bpow radix2 10) with 1024. apply Rabs_le. lra. }
  destruct (Z.eq_dec w 0) as [->|N].
  { assert (P0 : p = 0) by (unfold p; rewrite Rmult_0_r; apply rnd_0). rewrite P0, Rplus_0_r, Z.add_0_r. rewrite rnd_id; [exact C|]. destruct Fs as [_ <-]. apply generic_format_B2R. }
  assert (W2 : 1 <= IZR w) by (apply IZR_le; lia).
  assert (G0 := IZR_le _ _ Hg). assert (G1 : IZR g + IZR w <= IZR T) by (rewrite <- plus_IZR; apply IZR_le; lia). change (IZR 0) with 0 in *.
  assert (GQ : IZR g * / IZR T + IZR w * / IZR T <= 1). { rewrite <- Rmult_plus_distr_r, <- (Rinv_r (IZR T)) by lra. apply Rmult_le_compat_r; lra. }
  assert (C' := Rabs_le_inv _ _ C). replace (255 * IZR g / IZR T) with (255 * (IZR g * / IZR T)) in C' by (unfold Rdiv; ring).
  assert (GP : 0 <= IZR g * / IZR T) by (apply Rmult_le_pos; lra).
  assert (D : Rabs (rnd64 (x + p) - (x + p)) <= e44 / 2).
  { replace (e44 / 2) with (bpow radix2 (9 - prec64) / 2).
    - apply rnd_err; [exact prec64_gt_0|vm_compute; discriminate|]. change (bpow radix2 9) with 512. apply Rabs_lt. lra.
    - change (bpow radix2 (9 - prec64)) with (/ 17592186044416). field. }
  assert (D' := Rabs_le_inv _ _ D). unfold close. rewrite plus_IZR.
  replace (255 * (IZR g + IZR w) / IZR T) with (255 * (IZR g * / IZR T) + 255 * (IZR w * / IZR T)) by (field; lra). apply Rabs_le. lra.
Qed.
Local Open Scope Z_scope.

Lemma weights_run ws : Forall (fun w => 0 <= w) ws -> forall a, 0 <= a -> a + sum ws < 2 ^ 31 -> weights_total a ws = Ok (a + sum ws).
Proof.
  intros H. induction H as [|w ws Hw H IH]; intros a Ha Hb; cbn [weights_total].
  - change (sum []) with 0. rewrite Z.add_0_r. reflexivity.
  - change (sum (w :: ws)) with (w + sum ws) in *. assert (N : 0 <= sum ws) by (apply sum_nonneg; exact H).
    rewrite int_op_ok by lia. cbn [rbind]. rewrite IH by lia. f_equal. lia.
Qed.
Lemma weight_before_le ws : Forall (fun w => 0 <= w) ws -> forall k w, nth_error ws k = Some w -> 0 <= weight_before ws k /\ weight_before ws k + w <= sum ws.
Proof.
  intros H. induction H as [|v ws Hw H IH]; intros k w E; [destruct k; discriminate E|]. change (sum (v :: ws)) with (v + sum ws).
  assert (N : 0 <= sum ws) by (apply sum_nonneg; exact H).
  destruct k as [|k]; [injection E as ->; change (weight_before (w :: ws) 0) with 0; lia|].
  change (weight_before (v :: ws) (S k)) with (v + weight_before ws k). specialize (IH k w E). lia.
Qed.
Lemma weight_before_mono ws : Forall (fun w => 0 <= w) ws -> forall j k w, (j < k)%nat -> (k <= length ws)%nat -> nth_error ws j = Some w -> weight_before ws j + w <= weight_before ws k.
Proof.
  intros H. induction H as [|v ws Hw H IH]; intros j k w L Lk E; [destruct j; discriminate E|]. destruct k as [|k]; [lia|]. cbn [length] in Lk.
  change (weight_before (v :: ws) (S k)) with (v + weight_before ws k).
  assert (N : 0 <= weight_before ws k) by (apply sum_nonneg, Forall_forall; intros z Hz; rewrite Forall_forall in H; apply H; rewrite <- (firstn_skipn k ws); apply in_or_app; left; exact Hz).
  destruct j as [|j]; [injection E as ->; change (weight_before (w :: ws) 0) with 0; lia|].
  change (weight_before (v :: ws) (S j)) with (v + weight_before ws j). specialize (IH j k w ltac:(lia) ltac:(lia) E). lia.
Qed.

Section Loop.
  Context (T seed : Z) (Hseed : 0 <= seed <= 255) (step : f64) (near : R -> Z -> Prop)
          (near_add : forall s x g w, fin s x -> near x g -> 0 <= g -> 0 <= w -> g + w <= T -> exists x', fin (f64_add s (f64_mul step (f64_of_Z w))) x' /\ near x' (g + w)).

  Lemma wloop_run ws : Forall (fun w => 0 <= w) ws -> forall k g s x, fin s x -> near x g -> 0 <= g -> g + sum ws <= T -> low seed near g ->
    match weighted_loop ws k seed step s with
    | inl j => exists m w, j = (k + m)%nat /\ nth_error ws m = Some w /\ low seed near (g + weight_before ws m) /\ high seed near (g + weight_before ws m + w)
                 /\ (m = 0%nat \/ exists y, near y (g + weight_before ws m) /\ (y < IZR seed)%R)
    | inr s' => exists x', fin s' x' /\ near x' (g + sum ws) /\ low seed near (g + sum ws)
    end.
  Proof.
    intros H. induction H as [|w ws Hw H IH]; intros k g s x Fs C Hg Hn L; cbn [weighted_loop].
    - exists x. change (sum []) with 0. rewrite Z.add_0_r. split; [exact Fs|]. split; assumption.
    - change (sum (w :: ws)) with (w + sum ws) in *. assert (N : 0 <= sum ws) by (apply sum_nonneg; exact H).
      destruct (near_add s x g w Fs C Hg Hw ltac:(lia)) as (x' & Fx & Cx). rewrite (leb_fin seed Hseed _ _ Fx).
      destruct (Rle_bool_spec (IZR seed) x') as [Q|Q].
      + exists 0%nat, w. rewrite Nat.add_0_r. split; [reflexivity|]. split; [reflexivity|]. change (weight_before (w :: ws) 0) with 0. rewrite Z.add_0_r.
        split; [exact L|]. split; [exists x'; split; assumption|left; reflexivity].
      + assert (L2 : low seed near (g + w)) by (right; exists x'; split; assumption).
        specialize (IH (S k) (g + w) _ x' Fx Cx ltac:(lia) ltac:(lia) L2). rewrite Z.add_assoc.
        destruct (weighted_loop ws (S k) seed step _) as [j|s']; [|exact IH].
        destruct IH as (m & v & -> & E & Lo & Hi & Z). exists (S m), v. split; [lia|]. split; [exact E|].
        change (weight_before (w :: ws) (S m)) with (w + weight_before ws m). rewrite Z.add_assoc. split; [exact Lo|]. split; [exact Hi|]. right.
        destruct Z as [->|Z]; [|exact Z]. exists x'. change (weight_before ws 0) with 0. rewrite Z.add_0_r. split; assumption.
  Qed.
End Loop.

Lemma last_exists {A} (l : list A) : l <> [] -> exists x, nth_error l (length l - 1) = Some x.
Proof. intros N. destruct (nth_error l (length l - 1)) eqn:E; [eauto|]. apply nth_error_None in E. destruct l; [congruence|cbn [length] in E; lia]. Qed.
Lemma before_last_sum ws x : nth_error ws (length ws - 1) = Some x -> weight_before ws (length ws - 1) + x = sum ws.
Proof.
  unfold weight_before. intros E. induction ws as [|w ws IH]; [discriminate E|]. destruct ws as [|v ws]; [injection E as ->; cbn; lia|].
  replace (length (w :: v :: ws) - 1)%nat with (S (length (v :: ws) - 1)) in * by (cbn [length]; lia). cbn [nth_error] in E. specialize (IH E).
  cbn [firstn]. change (w + sum (firstn (length (v :: ws) - 1) (v :: ws)) + x = w + sum (v :: ws)). lia.
Qed.

Lemma weighted_run ws c : Forall (fun w => 0 <= w) ws -> 1 <= sum ws <= 1048576 -> 0 <= c <= 255 ->
  exists k w, WeightedPick ws c = Ok k /\ nth_error ws k = Some w /\ 255 * weight_before ws k <= c * sum ws <= 255 * (weight_before ws k + w).
Proof.
  intros H HT Hs. unfold WeightedPick. rewrite (weights_run ws H 0) by lia. cbn [rbind Z.add].
  assert (F0 : fin (f64_of_Z 0) 0%R) by (apply of_Z_exact; vm_compute; discriminate).
  pose proof (wloop_run (sum ws) c Hs _ _ (close_addw _ HT) ws H 0 0 (f64_of_Z 0) 0%R F0 (close_0 _) ltac:(lia) ltac:(lia) (or_introl eq_refl)) as O.
  destruct (weighted_loop _ _ _ _ _) as [j|s'].
  - destruct O as (m & w & -> & E & Lo & Hg & _). cbn [Nat.add Z.add] in *. pose proof (weight_before_le ws H m w E).
    assert (0 <= w) by (rewrite Forall_forall in H; apply H; exact (nth_error_In _ _ E)).
    apply (low_cross _ _ _ HT) in Lo; [|lia|lia]. apply (high_cross _ _ _ HT) in Hg; [|lia]. exists m, w. split; [reflexivity|]. split; [exact E|]. lia.
  - destruct O as (x & Fx & Cx & Lx). cbn [Z.add] in *.
    pose proof (low_cross _ c (sum ws) HT ltac:(lia) (proj1 Hs) Lx) as S. assert (S255 : c = 255) by nia. subst c.
    rewrite (near_enough 255 s' x Hs Fx).
    + destruct ws as [|w0 ws]; [change (sum []) with 0 in HT; lia|]. destruct (last_exists (w0 :: ws)) as (w & E); [discriminate|].
      exists (length (w0 :: ws) - 1)%nat, w. split; [reflexivity|]. split; [exact E|]. pose proof (before_last_sum _ _ E).
      assert (0 <= w) by (rewrite Forall_forall in H; apply H; exact (nth_error_In _ _ E)). lia.
    + unfold close in Cx. assert (T0 := IZR_le _ _ (proj1 HT)). assert (T1 := IZR_le _ _ (proj2 HT)).
      replace (255 * IZR (sum ws) / IZR (sum ws))%R with 255%R in Cx by (field; lra).
      apply Rabs_le_inv in Cx. apply Rabs_le. lra.
Qed.

(** ** Without rounding *)
Lemma exact_addw T c : (1 <= T)%Z -> T * c = 255 -> forall s x g w, fin s x -> exact c x g -> 0 <= g -> 0 <= w -> g + w <= T ->
  exists x', fin (f64_add s (f64_mul (f64_div (f64_of_Z 255) (f64_of_Z T)) (f64_of_Z w))) x' /\ exact c x' (g + w).
Proof.
  intros HT Hc s x g w Fs C Hg Hw Hgw. assert (Hc0 : 1 <= c <= 255) by nia. unfold exact in C. subst x.
  assert (F1 : fin (f64_of_Z 255) 255%R) by (apply of_Z_exact; vm_compute; discriminate).
  assert (F2 : fin (f64_of_Z T) (IZR T)) by (apply of_Z_exact; change (2 ^ prec64)%Z with 9007199254740992%Z; nia).
  assert (Fw : fin (f64_of_Z w) (IZR w)) by (apply of_Z_exact; change (2 ^ prec64)%Z with 9007199254740992%Z; nia).
  assert (T0 : (1 <= IZR T)%R) by (apply IZR_le; lia).
  assert (Q : (255 / IZR T = IZR c)%R). { change 255%R with (IZR 255). rewrite <- Hc, mult_IZR. field. lra. }
  assert (C0 : (1 <= IZR c <= 255)%R) by (split; apply IZR_le; lia).
  assert (Fst : fin (f64_div (f64_of_Z 255) (f64_of_Z T)) (IZR c)).
  { rewrite <- (rnd_id prec64 emax64 (IZR c)) by (apply fmt_int; [exact prec64_gt_0|exact prec64_lt_emax|change (2 ^ prec64)%Z with 9007199254740992%Z; lia]).
    rewrite <- Q. apply (div_fin _ _ _ _ _ _ _ _ 8%Z F1 F2); [intros X; lra|vm_compute; split; [discriminate|reflexivity]|].
    rewrite Q. change (bpow radix2 8) with 256%R. apply Rabs_le. lra. }
  assert (FM : fin (f64_mul (f64_div (f64_of_Z 255) (f64_of_Z T)) (f64_of_Z w)) (IZR (c * w))).
  { rewrite <- (rnd_id prec64 emax64 (IZR (c * w))) by (apply fmt_int; [exact prec64_gt_0|exact prec64_lt_emax|change (2 ^ prec64)%Z with 9007199254740992%Z; nia]).
    rewrite mult_IZR. apply (mult_fin _ _ _ _ _ _ _ _ 8%Z Fst Fw); [vm_compute; split; [discriminate|reflexivity]|]. rewrite <- mult_IZR.
    change (bpow radix2 8) with 256%R. assert (0 <= IZR (c * w) <= 255)%R by (split; apply IZR_le; nia). apply Rabs_le. lra. }
  assert (E : (IZR (c * g) + IZR (c * w) = IZR (c * (g + w)))%R) by (rewrite <- plus_IZR; f_equal; lia).
  exists (IZR (c * (g + w))). split; [|reflexivity].
  rewrite <- (rnd_id prec64 emax64 (IZR (c * (g + w)))) by (apply fmt_int; [exact prec64_gt_0|exact prec64_lt_emax|change (2 ^ prec64)%Z with 9007199254740992%Z; nia]).
  rewrite <- E. apply (plus_fin _ _ _ _ _ _ _ _ 8%Z Fs FM); [vm_compute; split; [discriminate|reflexivity]|].
  rewrite E. change (bpow radix2 8) with 256%R. assert (0 <= IZR (c * (g + w)) <= 255)%R by (split; apply IZR_le; nia). apply Rabs_le. lra.
Qed.
Lemma weighted_exact ws c : Forall (fun w => 0 <= w) ws -> 1 <= sum ws -> (sum ws | 255) -> 0 <= c <= 255 ->
  exists k w, WeightedPick ws c = Ok k /\ nth_error ws k = Some w /\ (k = 0%nat \/ 255 * weight_before ws k < c * sum ws) /\ c * sum ws <= 255 * (weight_before ws k + w).
Proof.
  intros H HT (q & Hq) Hs. assert (Hq' : sum ws * q = 255) by (rewrite Hq; ring). assert (Hq1 : 1 <= q) by (destruct (Z_le_gt_dec q 0); nia). assert (HT2 : sum ws <= 255) by nia.
  unfold WeightedPick. rewrite (weights_run ws H 0) by lia. cbn [rbind Z.add].
  assert (F0 : fin (f64_of_Z 0) 0%R) by (apply of_Z_exact; vm_compute; discriminate).
  pose proof (wloop_run (sum ws) c Hs _ _ (exact_addw _ q HT Hq') ws H 0 0 (f64_of_Z 0) 0%R F0) as O.
  specialize (O ltac:(unfold exact; rewrite Z.mul_0_r; reflexivity) ltac:(lia) ltac:(lia) (or_introl eq_refl)).
  destruct (weighted_loop _ _ _ _ _) as [j|s'].
  - destruct O as (m & w & -> & E & _ & (x & Hx & Hg) & D). cbn [Nat.add Z.add] in *. unfold exact in Hx. subst x. apply le_IZR in Hg.
    exists m, w. split; [reflexivity|]. split; [exact E|]. split; [|nia]. destruct D as [D|(y & Hy & D)]; [left; exact D|right]. unfold exact in Hy. subst y. apply lt_IZR in D. nia.
  - destruct O as (x & Fx & Cx & [L|(y & Hy & L)]); cbn [Z.add] in *; [lia|]. unfold exact in Hy. subst y. apply lt_IZR in L. nia.
Qed.

(** ** Shares *)
Lemma count_upper (p : Z -> bool) a b n : (forall c, 0 <= c < Z.of_nat n -> p c = true -> a <= c <= b) ->
  zlen (filter p (map Z.of_nat (seq 0 n))) <= Z.max 0 (Z.min b (Z.of_nat n - 1) - a + 1).
Proof.
  induction n as [|n IH]; intros H; [change (0 <= Z.max 0 (Z.min b (Z.of_nat 0 - 1) - a + 1)); lia|].
  rewrite seq_S, map_app, filter_app, zlen_app. cbn [map plus]. specialize (IH ltac:(intros c Hc; apply H; lia)).
  cbn [filter]. destruct (p (Z.of_nat n)) eqn:E; [|change (zlen (@nil Z)) with 0; lia]. specialize (H (Z.of_nat n) ltac:(lia) E). change (zlen [Z.of_nat n]) with 1. lia.
Qed.
Lemma count_lower (p : Z -> bool) a b n : 0 <= a -> (forall c, 0 <= c < Z.of_nat n -> a <= c <= b -> p c = true) ->
  Z.min b (Z.of_nat n - 1) - a + 1 <= zlen (filter p (map Z.of_nat (seq 0 n))).
Proof.
  intros Ha. induction n as [|n IH]; intros H; [change (Z.min b (Z.of_nat 0 - 1) - a + 1 <= 0); lia|].
  rewrite seq_S, map_app, filter_app, zlen_app. cbn [map plus]. specialize (IH ltac:(intros c Hc; apply H; lia)).
  pose proof (zlen_nonneg (filter p (map Z.of_nat (seq 0 n)))). cbn [filter].
  destruct (p (Z.of_nat n)) eqn:E; [change (zlen [Z.of_nat n]) with 1; lia|]. change (zlen (@nil Z)) with 0.
  assert (~ a <= Z.of_nat n <= b) by (intros Q; rewrite (H (Z.of_nat n)) in E by lia; discriminate). lia.
Qed.

Lemma wloop_first T : 1 <= T <= 1048576 -> forall ws k, weighted_loop (0 :: ws) k 0 (f64_div (f64_of_Z 255) (f64_of_Z T)) (f64_of_Z 0) = inl k.
Proof.
  intros HT ws k. assert (F0 : fin (f64_of_Z 0) 0%R) by (apply of_Z_exact; vm_compute; discriminate). destruct (step_fin T HT) as (st & Fst & _ & _).
  assert (FM : fin (f64_mul (f64_div (f64_of_Z 255) (f64_of_Z T)) (f64_of_Z 0)) 0%R).
  { rewrite <- (rnd_0 prec64 emax64), <- (Rmult_0_r st). apply (mult_fin _ _ _ _ _ _ _ _ 8%Z Fst F0); [vm_compute; split; [discriminate|reflexivity]|].
    rewrite Rmult_0_r, Rabs_R0. apply bpow_ge_0. }
  assert (FA : fin (f64_add (f64_of_Z 0) (f64_mul (f64_div (f64_of_Z 255) (f64_of_Z T)) (f64_of_Z 0))) 0%R).
  { rewrite <- (rnd_0 prec64 emax64), <- (Rplus_0_r 0) at 1. apply (plus_fin _ _ _ _ _ _ _ _ 8%Z F0 FM); [vm_compute; split; [discriminate|reflexivity]|].
    rewrite Rplus_0_r, Rabs_R0. apply bpow_ge_0. }
  cbn [weighted_loop]. rewrite (leb_fin 0 ltac:(lia) _ _ FA). rewrite Rle_bool_true; [reflexivity|apply Rle_refl].
Qed.
Lemma no_weights c : 1 <= c <= 255 -> WeightedPick [] c = Abort.
Proof.
  intros Hc. unfold WeightedPick. cbn [weights_total rbind weighted_loop].
  assert (F0 : fin (f64_of_Z 0) 0%R) by (apply of_Z_exact; vm_compute; discriminate).
  assert (Fc : fin (f64_of_Z c) (IZR c)) by (apply of_Z_exact; change (2 ^ prec64)%Z with 9007199254740992%Z; lia).
  assert (C1 : (1 <= IZR c <= 255)%R) by (split; apply IZR_le; lia).
  assert (FS : fin (f64_sub (f64_of_Z c) (f64_of_Z 0)) (IZR c)).
  { rewrite <- (rnd_id prec64 emax64 (IZR c)) by (apply fmt_int; [exact prec64_gt_0|exact prec64_lt_emax|change (2 ^ prec64)%Z with 9007199254740992%Z; lia]).
    rewrite <- (Rminus_0_r (IZR c)). apply (minus_fin _ _ _ _ _ _ _ _ 8%Z Fc F0); [vm_compute; split; [discriminate|reflexivity]|].
    rewrite Rminus_0_r. change (bpow radix2 8) with 256%R. apply Rabs_le. lra. }
  assert (FT : fin tenth (rnd64 (1 / 10))).
  { assert (F1 : fin (f64_of_Z 1) 1%R) by (apply of_Z_exact; vm_compute; discriminate). assert (F2 : fin (f64_of_Z 10) 10%R) by (apply of_Z_exact; vm_compute; discriminate).
    apply (div_fin _ _ _ _ _ _ _ _ 1%Z F1 F2); [lra|vm_compute; split; [discriminate|reflexivity]|]. change (bpow radix2 1) with 2%R. apply Rabs_le. lra. }
  assert (LT : (rnd64 (1 / 10) <= / 2)%R).
  { apply (rnd_le_gen prec64 emax64); [exact prec64_gt_0| |lra]. change (/ 2)%R with (bpow radix2 (-1)). apply generic_format_bpow. vm_compute. discriminate. }
  destruct FT as [Ff Ft], FS as [Gf Gt]. unfold f64_lt. rewrite Bltb_correct; [|exact Ff|rewrite is_finite_Babs; exact Gf].
  rewrite B2R_Babs, Ft, Gt, Rabs_pos_eq by lra. rewrite Rlt_bool_true by lra. reflexivity.
Qed.

Lemma how_many_upper p a b : (forall c, 0 <= c <= 255 -> p c = true -> a <= c <= b) -> how_many p <= Z.max 0 (b - a + 1).
Proof.
  intros H. unfold how_many. etransitivity; [apply (count_upper p a b 256)|].
  - intros c Hc. apply H. change (Z.of_nat 256) with 256 in Hc. lia.
  - lia.
Qed.
Lemma how_many_lower p a b : 0 <= a -> b <= 255 -> (forall c, 0 <= c <= 255 -> a <= c <= b -> p c = true) -> b - a + 1 <= how_many p.
Proof.
  intros Ha Hb H. unfold how_many. etransitivity; [|apply (count_lower p a b 256 Ha)].
  - change (Z.of_nat 256) with 256. lia.
  - intros c Hc. apply H. change (Z.of_nat 256) with 256 in Hc. lia.
Qed.

Lemma zero_total n : weights_total 0 (repeat 0 n) = Ok 0.
Proof. induction n as [|n IH]; cbn [repeat weights_total]; [reflexivity|]. exact IH. Qed.
Lemma nan_loop c n : 0 <= c <= 255 -> forall k, weighted_loop (repeat 0 n) k c (f64_div (f64_of_Z 255) (f64_of_Z 0)) B754_nan = inr B754_nan.
Proof.
  intros Hc. replace (f64_div (f64_of_Z 255) (f64_of_Z 0)) with (B754_infinity false : f64) by (vm_compute; reflexivity).
  induction n as [|n IH]; intros k; cbn [repeat weighted_loop]; [reflexivity|].
  change (f64_add B754_nan (f64_mul (B754_infinity false) (f64_of_Z 0))) with (B754_nan : f64).
  destruct (Bleb (f64_of_Z c) B754_nan) eqn:E; [|apply IH]. exfalso. unfold Bleb, SpecFloat.SFleb in E. destruct (f64_of_Z c); discriminate E.
Qed.
Lemma zero_weights c n : 0 <= c <= 255 -> WeightedPick (repeat 0 (S n)) c = Ok n.
Proof.
  intros Hc. unfold WeightedPick. rewrite zero_total. cbn [rbind].
  assert (E : weighted_loop (repeat 0 (S n)) 0 c (f64_div (f64_of_Z 255) (f64_of_Z 0)) (f64_of_Z 0) = inr B754_nan).
  { cbn [repeat weighted_loop]. replace (f64_add (f64_of_Z 0) (f64_mul (f64_div (f64_of_Z 255) (f64_of_Z 0)) (f64_of_Z 0))) with (B754_nan : f64) by (vm_compute; reflexivity).
    replace (Bleb (f64_of_Z c) B754_nan) with false; [apply nan_loop; exact Hc|]. unfold Bleb, SpecFloat.SFleb. destruct (f64_of_Z c); reflexivity. }
  rewrite E. replace (Babs (f64_sub (f64_of_Z c) B754_nan)) with (B754_nan : f64) by (destruct (f64_of_Z c); reflexivity).
  replace (f64_lt tenth B754_nan) with false by (vm_compute; reflexivity). cbn [repeat]. rewrite <- (repeat_length 0 n) at 2. cbn [length]. rewrite Nat.sub_succ, Nat.sub_0_r. reflexivity.
Qed.
