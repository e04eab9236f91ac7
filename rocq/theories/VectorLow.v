(** GalleyVector over unbounded stamps never hands out less than minSize(), whatever the rounding. *)
From Coq Require Import ZArith Reals Lia Lra.
From Flocq Require Import Core.Core IEEE754.BinarySingleNaN.
From Verif Require Import Base BaseFacts FloatModel FloatFacts Oracle OracleFacts Arithm Sim Galley VectorSpec VectorFacts VectorFloat VectorUnbounded.
Local Open Scope Z_scope.

Lemma bind_ok_inv' {B A C} (m : M B A) (k : A -> M B C) b v b2 : (x <- m ;; k x) b = (Ok v, b2) ->
  exists a b1, m b = (Ok a, b1) /\ k a b1 = (Ok v, b2).
Proof. unfold bind. destruct (m b) as [[a| | | |] b1]; try discriminate. intros E. exists a, b1. split; [reflexivity|exact E]. Qed.

Lemma lift_ok_inv' {B A} (r : res A) (b : B) v b2 : lift r b = (Ok v, b2) -> r = Ok v /\ b2 = b.
Proof. unfold lift. intros E. split; congruence. Qed.

Lemma floor_fmt x : fmt32 x -> (0 <= x)%R -> fmt32 (IZR (Zfloor x)).
Proof.
  intros F H. destruct (Rlt_le_dec x 16777216) as [C|C].
  - apply fmt32_int. assert (0 <= Zfloor x) by (apply Zfloor_lub; exact H).
    assert (Zfloor x < 16777216) by (apply lt_IZR; apply Rle_lt_trans with (1 := Zfloor_lb x); exact C). lia.
  - pose proof F as F'. rewrite (fexp_FLT prec32 emax32) in F. apply FLT.FLT_format_generic in F; [|exact prec32_gt_0]. destruct F as [[m e] F1 F2 F3]. cbn [Fnum Fexp] in *.
    destruct (Z_le_gt_dec 0 e) as [He|He].
    + assert (E : x = IZR (m * 2 ^ e)) by (rewrite F1; unfold F2R; cbn [Fnum Fexp]; rewrite mult_IZR, <- (IZR_Zpower radix2) by lia; reflexivity).
      rewrite E, Zfloor_IZR, <- E. exact F'.
    + exfalso. apply (Rlt_irrefl x). apply Rlt_le_trans with (2 := C). rewrite F1. unfold F2R. cbn [Fnum Fexp].
      assert (M : (IZR m < 16777216)%R) by (apply IZR_lt; change (radix2 ^ prec32) with 16777216 in F2; lia).
      assert (B : (bpow radix2 e <= 1)%R) by (change 1%R with (bpow radix2 0); apply bpow_le; lia). pose proof (bpow_gt_0 radix2 e) as B0.
      destruct (Rle_lt_dec (IZR m) 0) as [N|N].
      * assert (IZR m * bpow radix2 e <= 0 * bpow radix2 e)%R by (apply Rmult_le_compat_r; lra). lra.
      * assert (IZR m * bpow radix2 e <= IZR m * 1)%R by (apply Rmult_le_compat_l; lra). lra.
Qed.

Lemma el_low mn total var o rem r k : 0 <= mn <= 16777216 -> 0 <= var < 2 ^ 31 -> 1 <= total < 2 ^ 31 -> 0 <= o <= 65535 -> o <= total -> fin rem r -> (0 <= r < 1)%R ->
  to_int (Btrunc_Z (el_float mn total var o rem)) = Ok k ->
  mn <= k < 2 ^ 31 /\ exists r', fin (f32_sub (el_float mn total var o rem) (f32_of_Z k)) r' /\ (0 <= r' < 1)%R.
Proof.
  intros Hm Hv Ht Ho Hot Fr Hr Ti.
  assert (K : forall j, 0 <= j <= 40 -> 0 <= j < emax32) by (intros j Hj; change emax32 with 128; lia).
  assert (P31 : bpow radix2 31 = 2147483648%R) by reflexivity.
  assert (FI : forall j, 0 <= j <= 60 -> fmt32 (bpow radix2 j)) by (intros j Hj; apply generic_format_bpow; change (SpecFloat.fexp prec32 emax32 (j + 1) <= j); unfold SpecFloat.fexp, SpecFloat.emin; change prec32 with 24; change emax32 with 128; lia).
  (* total *)
  set (t := rnd32 (IZR total)).
  assert (Ft : fin (f32_of_Z total) t) by (apply of_Z_fin with (k := 31); [apply K; lia|lia]).
  assert (Fo : fin (f32_of_Z o) (IZR o)) by (apply of_Z_exact; change (2 ^ prec32) with 16777216; lia).
  assert (Fm : fin (f32_of_Z mn) (IZR mn)) by (apply of_Z_exact; change (2 ^ prec32) with 16777216; lia).
  assert (O0 : (0 <= IZR o <= 65535)%R) by (split; apply IZR_le; lia).
  assert (t1 : (1 <= t)%R) by (apply rnd_ge; [exact prec32_gt_0|apply (fmt32_int 1); lia|apply IZR_le; lia]).
  assert (ot : (IZR o <= t)%R) by (apply rnd_ge; [exact prec32_gt_0|apply fmt32_int; lia|apply IZR_le; lia]).
  (* the quotient *)
  assert (q0 : (0 <= IZR o / t <= 1)%R).
  { split; [apply Rmult_le_pos; [lra|left; apply Rinv_0_lt_compat; lra]|]. apply Rmult_le_reg_r with t; [lra|]. unfold Rdiv. rewrite Rmult_assoc, Rinv_l; lra. }
  set (q := rnd32 (IZR o / t)).
  assert (Fq : fin (f32_div (f32_of_Z o) (f32_of_Z total)) q).
  { apply (div_fin _ _ _ _ _ _ _ _ 1 Fo Ft); [intros X; lra|apply K; lia|]. rewrite Rabs_pos_eq by lra. change (bpow radix2 1) with 2%R. lra. }
  assert (q1 : (0 <= q <= 1)%R).
  { split; [apply pos32; lra|]. apply rnd_le_gen; [exact prec32_gt_0|apply (fmt32_int 1); lia|lra]. }
  (* times var *)
  set (v := rnd32 (IZR var)).
  assert (Fv : fin (f32_of_Z var) v) by (apply of_Z_fin with (k := 31); [apply K; lia|lia]).
  assert (V0 : (0 <= IZR var <= 2147483648)%R) by (split; apply IZR_le; lia).
  assert (v1 : (0 <= v <= 2147483648)%R).
  { split; [apply pos32; lra|]. rewrite <- P31. apply rnd_le_gen; [exact prec32_gt_0|apply FI; lia|rewrite P31; lra]. }
  assert (qv : (0 <= q * v <= 2147483648)%R).
  { split; [apply Rmult_le_pos; lra|]. assert (q * v <= 1 * v)%R by (apply Rmult_le_compat_r; lra). lra. }
  set (p := rnd32 (q * v)).
  assert (Fp : fin (f32_mul (f32_div (f32_of_Z o) (f32_of_Z total)) (f32_of_Z var)) p).
  { apply (mult_fin _ _ _ _ _ _ _ _ 31 Fq Fv); [apply K; lia|]. rewrite Rabs_pos_eq by lra. rewrite P31. lra. }
  assert (p1 : (0 <= p <= 2147483648)%R).
  { split; [apply pos32; lra|]. rewrite <- P31. apply rnd_le_gen; [exact prec32_gt_0|apply FI; lia|rewrite P31; lra]. }
  (* plus mn *)
  assert (M0 : (0 <= IZR mn <= 16777216)%R) by (split; apply IZR_le; lia).
  set (y := rnd32 (IZR mn + p)).
  assert (Fy : fin (f32_add (f32_of_Z mn) (f32_mul (f32_div (f32_of_Z o) (f32_of_Z total)) (f32_of_Z var))) y).
  { apply (plus_fin _ _ _ _ _ _ _ _ 32 Fm Fp); [apply K; lia|]. rewrite Rabs_pos_eq by lra. change (bpow radix2 32) with 4294967296%R. lra. }
  assert (y1 : (IZR mn <= y <= 4294967296)%R).
  { split; [apply rnd_ge; [exact prec32_gt_0|apply fmt32_int; lia|lra]|]. change 4294967296%R with (bpow radix2 32). apply rnd_le_gen; [exact prec32_gt_0|apply FI; lia|]. change (bpow radix2 32) with 4294967296%R. lra. }
  (* plus the remainder *)
  set (e := rnd32 (y + r)).
  assert (Fe : fin (el_float mn total var o rem) e).
  { apply (plus_fin _ _ _ _ _ _ _ _ 33 Fy Fr); [apply K; lia|]. rewrite Rabs_pos_eq by lra. change (bpow radix2 33) with 8589934592%R. lra. }
  assert (e1 : (IZR mn <= e)%R) by (apply rnd_ge; [exact prec32_gt_0|apply fmt32_int; lia|lra]).
  rewrite (trunc_fin _ _ _ _ Fe) in Ti by lra. cbn [to_int] in Ti. unfold int_op, in_i32 in Ti. destruct (_ && _) eqn:R in Ti; [|discriminate Ti]. injection Ti as <-.
  assert (Kl : mn <= Zfloor e) by (apply Zfloor_lub; exact e1).
  split; [lia|]. pose proof (fin_fmt _ _ _ _ Fe) as Fme.
  assert (Fk : fin (f32_of_Z (Zfloor e)) (IZR (Zfloor e))).
  { rewrite <- (rnd_id prec32 emax32 _ (floor_fmt e Fme ltac:(lra))). apply of_Z_fin with (k := 31); [apply K; lia|lia]. }
  assert (Fs : fmt32 (e - IZR (Zfloor e))) by (apply frac_exact; [exact Fme|lra]).
  pose proof (Zfloor_lb e). pose proof (Zfloor_ub e).
  exists (e - IZR (Zfloor e))%R. split; [|split; lra].
  rewrite <- (rnd_id prec32 emax32 _ Fs). apply (minus_fin _ _ _ _ _ _ _ _ 1 Fe Fk); [apply K; lia|]. rewrite Rabs_pos_eq by lra. change (bpow radix2 1) with 2%R. lra.
Qed.

Lemma loop_low mn total var : 0 <= mn <= 16777216 -> 0 <= var < 2 ^ 31 -> 1 <= total < 2 ^ 31 -> forall os rem r (l : bytes) cs l',
  Forall oracle16 os -> Forall (fun o => o <= total) os -> fin rem r -> (0 <= r < 1)%R ->
  unbounded_loop mn total var os rem l = (Ok cs, l') -> Forall (fun c => mn <= zlen c) cs.
Proof.
  intros Hm Hv Ht. induction os as [|o os IH]; intros rem r l cs l' Ho Hot Fr Hr E; cbn [unbounded_loop] in E.
  - injection E as <- _. constructor.
  - apply bind_ok_inv' in E as (k & l1 & E1 & E). apply lift_ok_inv' in E1 as [E1 ->]. cbv zeta in E. fold (el_float mn total var o rem) in E1, E.
    pose proof (Forall_inv Ho) as Ho1. pose proof (Forall_inv Hot) as Hot1. unfold oracle16 in Ho1. cbv beta in Hot1.
    destruct (el_low mn total var o rem r k Hm Hv Ht Ho1 Hot1 Fr Hr E1) as (Hk & r' & Fr' & Hr').
    apply bind_ok_inv' in E as (c & l2 & E2 & E). apply bind_ok_inv' in E as (cs' & l3 & E3 & E). injection E as <- <-.
    constructor; [|exact (IH _ _ _ _ _ (Forall_inv_tail Ho) (Forall_inv_tail Hot) Fr' Hr' E3)].
    rewrite u64_id in E2 by lia. cbn [Chop ListOps] in E2.
    destruct (zlen l <? k) eqn:C; [discriminate E2|]. injection E2 as <- _. rewrite zlen_firstn; lia.
Qed.

Lemma oracles_sum n : forall t (l : bytes) os s l', 0 <= t < 2 ^ 31 -> read_oracles n t l = (Ok (os, s), l') -> Forall oracle16 os /\ s = t + sum os /\ s < 2 ^ 31 /\ length os = n /\ zlen l = 2 * Z.of_nat n + zlen l'.
Proof.
  induction n as [|n IH]; intros t l os s l' Ht E; cbn [read_oracles] in E.
  - injection E as <- <- <-. cbn [sum fold_right length]. repeat split; try lia. constructor.
  - apply bind_ok_inv' in E as (o & l1 & E1 & E). apply bind_ok_inv' in E as (t1 & l2 & E2 & E). apply lift_ok_inv' in E2 as [E2 ->].
    apply bind_ok_inv' in E as ([os' s'] & l3 & E3 & E). cbn [fst snd] in E. injection E as <- <- <-.
    destruct (Z_lt_le_dec (zlen l) 2) as [C|C]; [rewrite (list_oracle_ood l C) in E1; discriminate E1|].
    destruct (list_oracle_ex l C) as (o' & r & -> & Ho). pose proof (eq_trans (eq_sym (list_oracle o' r Ho)) E1) as X. injection X as <- <-.
    unfold int_op, in_i32 in E2. destruct (_ && _) eqn:R in E2; [|discriminate E2]. injection E2 as <-. unfold oracle16 in Ho.
    destruct (IH (t + o') _ _ _ _ ltac:(lia) E3) as (I1 & I2 & I3 & I4 & I5). split; [constructor; assumption|]. cbn [sum fold_right]. fold (sum os').
    rewrite zlen_app, le16_len. cbn [length]. repeat split; lia.
Qed.

Lemma vector_low mn (l : bytes) cs l' : 0 <= mn <= 16777216 -> zlen l < 2 ^ 31 -> vector_extract mn (-1) l = (Ok cs, l') ->
  Forall (fun c => mn <= zlen c) cs.
Proof.
  intros Hm Hl E. unfold vector_extract in E. destruct (Size l <? u64 mn); [discriminate E|].
  unfold isFixedSize in E. destruct (mn =? -1) eqn:Q; [lia|]. change (isUnbounded mn (-1)) with true in E. cbv iota in E.
  unfold vector_unbounded in E. apply bind_ok_inv' in E as (sz & l0 & E0 & E). injection E0 as <- <-.
  unfold ORACLE_SIZE in E. rewrite u64_id in E by lia. destruct (mn + 2 =? 0) eqn:Q2; [lia|].
  apply bind_ok_inv' in E as (o & l1 & E1 & E). cbv zeta in E.
  destruct (Z_lt_le_dec (zlen l) 2) as [C|C]; [rewrite (list_oracle_ood l C) in E1; discriminate E1|].
  destruct (list_oracle_ex l C) as (o' & r & El & Ho). rewrite El in E1. pose proof (eq_trans (eq_sym (list_oracle o' r Ho)) E1) as X. injection X as <- <-. clear E1.
  match type of E with context [count_target mn ?z o'] => set (n := count_target mn z o') in * end. assert (En : n = count_target mn (zlen l) o') by reflexivity. clearbody n.
  assert (Lr : zlen l = 2 + zlen r) by (rewrite El, zlen_app, le16_len; reflexivity). pose proof (zlen_nonneg r) as R0.
  assert (N1 : 0 <= n /\ n * (mn + 2) <= zlen r).
  { assert (0 <= zlen r / (mn + 2)) by (apply Z.div_pos; lia).
    assert (0 <= n <= zlen r / (mn + 2)).
    { rewrite En. unfold count_target, ORACLE_SIZE. rewrite !u64_id by lia. rewrite Lr. replace (2 + zlen r - 2) with (zlen r) by lia. cbv zeta.
      set (N := zlen r / (mn + 2)) in *. unfold u16. change (2 ^ 16) with 65536.
      pose proof (Z.mod_pos_bound (u64 (N * o') / ORACLE_MAX + 1) 65536 ltac:(lia)). pose proof (Z.mod_pos_bound N 65536 ltac:(lia)). pose proof (Z.mod_le N 65536 ltac:(lia) ltac:(lia)).
      destruct (N <? _) eqn:Q3; lia. }
    split; [lia|]. pose proof (Z.mul_div_le (zlen r) (mn + 2) ltac:(lia)). nia. }
  apply bind_ok_inv' in E as ([os s] & l2 & E2 & E). apply bind_ok_inv' in E as (s2 & l3 & E3 & E). injection E3 as <- <-. cbn [fst snd] in E.
  destruct (oracles_sum _ 0 _ _ _ _ ltac:(lia) E2) as (O1 & O2 & O3 & O4 & O5). rewrite Z.add_0_l in O2. subst s.
  assert (Zos : zlen os = n) by (unfold zlen; lia). cbn [Size ListOps] in E. rewrite Z2Nat.id in O5 by lia. pose proof (zlen_nonneg l2).
  rewrite i32_id in E by lia.
  apply bind_ok_inv' in E as (f1 & l4 & E4 & E). apply lift_ok_inv' in E4 as [E4 ->]. unfold int_op, in_i32 in E4. destruct (_ && _) in E4; [|discriminate E4]. injection E4 as <-.
  apply bind_ok_inv' in E as (f2 & l5 & E5 & E). apply lift_ok_inv' in E5 as [E5 ->]. unfold int_op, in_i32 in E5. destruct (_ && _) in E5; [|discriminate E5]. injection E5 as <-.
  fold (weights os) in E. replace (if sum os =? 0 then n else sum os) with (sum (weights os)) in E.
  2:{ unfold weights. destruct (sum os =? 0); [rewrite sum_ones; exact Zos|reflexivity]. }
  assert (F0 : fin (f32_of_Z 0) 0%R) by (apply of_Z_exact; change (2 ^ prec32) with 16777216; lia).
  destruct os as [|o1 os]; [cbn in E; injection E as <- _; constructor|].
  assert (W : Forall oracle16 (weights (o1 :: os)) /\ 1 <= sum (weights (o1 :: os)) < 2 ^ 31).
  { unfold weights. pose proof (sum_bound _ O1). destruct (sum (o1 :: os) =? 0) eqn:Z0; [|split; [exact O1|lia]].
    rewrite sum_ones, Zos. split; [|pose proof (zlen_nonneg os); rewrite zlen_cons in Zos; nia].
    apply Forall_map. apply Forall_forall. intros. unfold oracle16. lia. }
  destruct W as [W1 W2].
  refine (loop_low mn (sum (weights (o1 :: os))) _ Hm _ W2 (weights (o1 :: os)) _ _ _ _ _ W1 _ F0 ltac:(lra) E); [nia|].
  apply Forall_forall. intros a Ha. apply (sum_in _ _ W1 Ha).
Qed.

Lemma vector_some mn (l : bytes) cs l' : 0 <= mn -> mn + 4 <= zlen l < 2 ^ 63 -> parts mn (zlen l) <= 65534 -> mn < 2 ^ 31 -> vector_extract mn (-1) l = (Ok cs, l') -> cs <> [].
Proof.
  intros Hm Hl Hp Hm2 E. unfold vector_extract in E. destruct (Size l <? u64 mn); [discriminate E|].
  unfold isFixedSize in E. destruct (mn =? -1) eqn:Q; [lia|]. change (isUnbounded mn (-1)) with true in E. cbv iota in E.
  unfold vector_unbounded in E. apply bind_ok_inv' in E as (sz & l0 & E0 & E). injection E0 as <- <-.
  unfold ORACLE_SIZE in E. rewrite u64_id in E by lia. destruct (mn + 2 =? 0) eqn:Q2; [lia|].
  apply bind_ok_inv' in E as (o & l1 & E1 & E). cbv zeta in E.
  destruct (list_oracle_ex l ltac:(lia)) as (o' & r & El & Ho). rewrite El in E1. pose proof (eq_trans (eq_sym (list_oracle o' r Ho)) E1) as X. injection X as <- <-. clear E1.
  destruct (count_ok mn (zlen l) o' Hm ltac:(lia) ltac:(lia) Hp Ho) as [_ C]. cbn [Size ListOps] in E.
  apply bind_ok_inv' in E as ([os s] & l2 & E2 & E). destruct (oracles_sum _ 0 _ _ _ _ ltac:(lia) E2) as (_ & _ & _ & O4 & _).
  apply bind_ok_inv' in E as (s2 & l3 & E3 & E). cbn [fst snd] in E.
  apply bind_ok_inv' in E as (f1 & l4 & E4 & E). apply bind_ok_inv' in E as (f2 & l5 & E5 & E).
  intros ->. assert (O : os <> []) by (intros ->; cbn [length] in O4; lia).
  destruct os as [|o1 os]; [congruence|].
  assert (G : exists a w, (if s =? 0 then map (fun _ => 1) (o1 :: os) else o1 :: os) = a :: w) by (destruct (s =? 0); cbn [map]; eexists _, _; reflexivity).
  destruct G as (a & w & G). rewrite G in E. cbn [unbounded_loop] in E.
  apply bind_ok_inv' in E as (k & l6 & E6 & E). cbv zeta in E. apply bind_ok_inv' in E as (c & l7 & E7 & E). apply bind_ok_inv' in E as (x & l8 & E8 & E). discriminate E.
Qed.
