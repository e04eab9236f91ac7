(** GalleyVector over unbounded stamps, data whose size is negative as an [int] (C77). *)
From Coq Require Import ZArith Reals Lia Lra.
From Flocq Require Import Core.Core IEEE754.BinarySingleNaN.
From Verif Require Import Base BaseFacts FloatModel FloatFacts Oracle OracleFacts Arithm Sim Galley VectorSpec VectorFacts VectorFloat VectorUnbounded VectorLimits
  VectorAllSpec VectorAll.
Local Open Scope R_scope.

Lemma trunc_neg (x : f32) r : fin x r -> r < 0 -> Btrunc_Z x = Some (- Zfloor (- r))%Z.
Proof.
  intros [F <-] Hp. destruct x as [s|s| |s m e H]; try discriminate.
  - cbn in Hp. lra.
  - rewrite fnum_fden in *. cbn [Btrunc_Z]. f_equal.
    assert (D := fden_pos e). assert (D' := IZR_lt _ _ D).
    assert (N : (0 < fnum m e)%Z) by (unfold fnum; destruct (0 <=? e)%Z eqn:E; lia).
    assert (N' := IZR_lt _ _ N).
    assert (0 < IZR (fnum m e) / IZR (fden e)) by (apply Rdiv_lt_0_compat; auto).
    destruct s; cbn [cond_Zopp] in *; [|lra].
    f_equal. rewrite opp_IZR. unfold Rdiv. rewrite Ropp_mult_distr_l_reverse, Ropp_involutive.
    symmetry. apply Zfloor_div_IZR. exact D.
Qed.

Lemma rnd32_opp x : rnd32 (- x) = - rnd32 x.
Proof. apply round_NE_opp. Qed.

Lemma err32 x : Rabs (rnd32 x - x) <= Rabs x * u + u * u.
Proof.
  destruct (Rle_lt_dec 0 x) as [H|H].
  - pose proof (abs32 x H). rewrite (Rabs_pos_eq x H). apply Rabs_le. lra.
  - pose proof (abs32 (- x) ltac:(lra)) as A. rewrite rnd32_opp in A. rewrite (Rabs_left x H). apply Rabs_le. lra.
Qed.

(** A multiple of 2^7 below 2^31 is a float. *)
Lemma fmt_block k : (Z.abs k <= 16777216)%Z -> fmt32 (IZR (k * 128)).
Proof.
  intros H. rewrite mult_IZR. change 128 with (bpow radix2 7).
  apply fmt_scaled; [exact prec32_gt_0|exact H|vm_compute; discriminate].
Qed.

Ltac fblock := match goal with |- fmt32 ?c => match c with
  | IZR ?z => let k := eval vm_compute in (z / 128)%Z in change (fmt32 (IZR (k * 128))); apply fmt_block; vm_compute; discriminate
  | - IZR ?z => let k := eval vm_compute in (z / 128)%Z in change (fmt32 (- IZR (k * 128))); rewrite <- opp_IZR, <- Z.mul_opp_l; apply fmt_block; vm_compute; discriminate
  end end.

Lemma el_neg mn total v o rem r : (0 <= mn <= 2 ^ 30)%Z -> (0 <= v <= 2147483392)%Z ->
  (1 <= total < 2 ^ 31)%Z -> (0 <= o <= 65535)%Z -> (o <= total)%Z -> fin rem r -> -1 <= r <= 1 ->
  let s := IZR v * (IZR o / IZR total) in
  exists e k, fin (el_float mn total (- v) o rem) e
    /\ e <= IZR mn - s + r + 8 * u * (IZR mn + s + 2)
    /\ to_int (Btrunc_Z (el_float mn total (- v) o rem)) = Ok k /\ (- 2 ^ 31 <= k < 2 ^ 31)%Z
    /\ ((0 <= k)%Z -> -1 <= e - IZR k <= 1 /\ fin (f32_sub (el_float mn total (- v) o rem) (f32_of_Z k)) (e - IZR k)).
Proof.
  intros Hm Hv Ht Ho Hot Fr Hr s.
  assert (M0 := IZR_le _ _ (proj1 Hm)). assert (M1 := IZR_le _ _ (proj2 Hm)). change (2 ^ 30)%Z with 1073741824%Z in M1.
  assert (V0 := IZR_le _ _ (proj1 Hv)). assert (V1 := IZR_le _ _ (proj2 Hv)).
  assert (T1 := IZR_le _ _ (proj1 Ht)). assert (T2 := IZR_lt _ _ (proj2 Ht)). change (2 ^ 31)%Z with 2147483648%Z in T2.
  assert (O0 := IZR_le _ _ (proj1 Ho)). assert (O1 := IZR_le _ _ (proj2 Ho)). assert (OT := IZR_le _ _ Hot).
  set (m := IZR mn) in *. set (V := IZR v) in *. set (T := IZR total) in *. set (a := IZR o) in *.
  set (x := a / T) in *. assert (x0 : 0 <= x) by (apply Rmult_le_pos; [lra|left; apply Rinv_0_lt_compat; lra]).
  assert (x1 : x <= 1) by (unfold x; apply Rmult_le_reg_r with T; [lra|]; unfold Rdiv; rewrite Rmult_assoc, Rinv_l; lra).
  assert (Exa : a = x * T) by (unfold x; field; lra).
  assert (s0 : 0 <= s) by (apply Rmult_le_pos; lra).
  assert (O2 : a = 0 \/ 1 <= a).
  { unfold a. destruct (Z.eq_dec o 0) as [->|N]; [left; reflexivity|right; apply IZR_le; lia]. }
  assert (V2 : V = 0 \/ 1 <= V).
  { unfold V. destruct (Z.eq_dec v 0) as [->|N]; [left; reflexivity|right; apply IZR_le; lia]. }
  assert (B100 : forall k, (-100 <= k)%Z -> bpow radix2 (-100) <= bpow radix2 k) by (intros; apply bpow_le; lia).
  assert (B1 : bpow radix2 (-100) <= 1) by (change 1 with (bpow radix2 0); apply B100; lia).
  set (t := rnd32 T).
  assert (Ft : fin (f32_of_Z total) t).
  { apply of_Z_fin with (k := 31%Z); [vm_compute; split; [discriminate|reflexivity]|lia]. }
  assert (Rt : T * (1 - u) <= t <= T * (1 + u)) by (apply rel32; [lra|right; lra]).
  assert (at_ : a <= t) by (apply rnd_ge; [exact prec32_gt_0|apply fmt32_int; lia|exact OT]).
  assert (t1 : 1 <= t) by (apply rnd_ge; [exact prec32_gt_0|apply (fmt32_int 1); lia|lra]).
  set (v' := rnd32 V).
  assert (Fv : fin (f32_of_Z (- v)) (- v')).
  { unfold v'. rewrite <- rnd32_opp. unfold V. rewrite <- opp_IZR. apply of_Z_fin with (k := 31%Z); [vm_compute; split; [discriminate|reflexivity]|lia]. }
  assert (Rv : V * (1 - u) <= v' <= V * (1 + u)) by (apply rel32; [lra|destruct V2; [left|right]; lra]).
  assert (v0 : 0 <= v') by (apply pos32; lra).
  assert (v1 : v' <= 2147483392) by (apply rnd_le_gen; [exact prec32_gt_0|fblock|exact V1]).
  set (m' := rnd32 m).
  assert (Fm : fin (f32_of_Z mn) m') by (apply of_Z_fin with (k := 31%Z); [vm_compute; split; [discriminate|reflexivity]|lia]).
  assert (Rm : Rabs (m' - m) <= Rabs m * u + u * u) by apply err32. rewrite (Rabs_pos_eq m M0) in Rm. apply Rabs_le_inv in Rm.
  assert (m0 : 0 <= m') by (apply pos32; lra).
  assert (m1 : m' <= 1073741824) by (apply rnd_le_gen; [exact prec32_gt_0|fblock|exact M1]).
  (* the ratio *)
  assert (Eq : a / t <= x * (1 + 2 * u) /\ x * (1 - u) <= a / t).
  { split; apply Rmult_le_reg_r with t; try lra; unfold Rdiv; rewrite (Rmult_assoc a), Rinv_l, Rmult_1_r by lra; rewrite Exa.
    - assert (T * 1 <= t * (1 + 2 * u)) by (apply Rle_trans with (T * ((1 - u) * (1 + 2 * u))); [apply Rmult_le_compat_l; lra|rewrite <- Rmult_assoc; apply Rmult_le_compat_r; lra]).
      assert (x * T <= x * (t * (1 + 2 * u))) by (apply Rmult_le_compat_l; lra). lra.
    - assert (t * (1 - u) <= T) by (apply Rle_trans with (T * ((1 + u) * (1 - u))); [rewrite <- Rmult_assoc; apply Rmult_le_compat_r; lra|rewrite <- (Rmult_1_r T) at 2; apply Rmult_le_compat_l; lra]).
      assert (x * (t * (1 - u)) <= x * T) by (apply Rmult_le_compat_l; lra). lra. }
  assert (q0 : 0 <= a / t) by (apply Rmult_le_pos; [lra|left; apply Rinv_0_lt_compat; lra]).
  assert (qt : a / t <= 1) by (apply Rmult_le_reg_r with t; [lra|]; unfold Rdiv; rewrite Rmult_assoc, Rinv_l; lra).
  set (q := rnd32 (a / t)).
  assert (q1 : q <= 1) by (apply rnd_le_gen; [exact prec32_gt_0|apply (fmt32_int 1); lia|exact qt]).
  assert (Fa : fin (f32_of_Z o) a) by (apply of_Z_exact; change (2 ^ prec32)%Z with 16777216%Z; lia).
  assert (Fq : fin (f32_div (f32_of_Z o) (f32_of_Z total)) q).
  { apply (div_fin _ _ _ _ _ _ _ _ 1%Z Fa Ft); [intros X; lra|vm_compute; split; [discriminate|reflexivity]|].
    rewrite Rabs_pos_eq by lra. change (bpow radix2 1) with 2. lra. }
  assert (tq : a / t = 0 \/ bpow radix2 (-40) <= a / t).
  { destruct O2 as [->|O2]; [left; unfold Rdiv; lra|right].
    apply Rle_trans with (/ t).
    - replace (bpow radix2 (-40)) with (/ bpow radix2 40) by (symmetry; apply (bpow_opp radix2 40)).
      apply Rinv_le; [lra|]. rewrite bpow_IZR by lia. change (2 ^ 40)%Z with 1099511627776%Z. lra.
    - unfold Rdiv. rewrite <- (Rmult_1_l (/ t)) at 1. apply Rmult_le_compat_r; [left; apply Rinv_0_lt_compat|]; lra. }
  assert (Rq : a / t * (1 - u) <= q <= a / t * (1 + u)).
  { apply rel32; [lra|]. destruct tq as [->|tq]; [left; reflexivity|right]. apply Rle_trans with (2 := tq). apply B100. lia. }
  assert (Uq : q <= x * (1 + 31 / 10 * u)) by (apply (scale_up (a / t) x q (1 + 2 * u) (1 + u)); lra).
  assert (Lq : x * (1 - 21 / 10 * u) <= q) by (apply (scale_dn (a / t) x q (1 - u) (1 - u)); lra).
  assert (qn : 0 <= q) by (apply pos32; lra).
  (* times var *)
  set (p := rnd32 (q * v')).
  assert (qv0 : 0 <= q * v') by (apply Rmult_le_pos; lra).
  assert (qv1 : q * v' <= 1 * v') by (apply Rmult_le_compat_r; lra).
  assert (Fp : fin (f32_mul (f32_div (f32_of_Z o) (f32_of_Z total)) (f32_of_Z (- v))) (- p)).
  { unfold p. rewrite <- rnd32_opp. replace (- (q * v')) with (q * - v') by ring.
    apply (mult_fin _ _ _ _ _ _ _ _ 33%Z Fq Fv); [vm_compute; split; [discriminate|reflexivity]|].
    replace (q * - v') with (- (q * v')) by ring. rewrite Rabs_Ropp, Rabs_pos_eq by lra. change (bpow radix2 33) with 8589934592. lra. }
  assert (p0 : 0 <= p) by (apply pos32; lra).
  assert (p1 : p <= 2147483392) by (apply rnd_le_gen; [exact prec32_gt_0|fblock|lra]).
  assert (Bq : s * (1 - 32 / 10 * u) <= q * v').
  { apply Rle_trans with ((x * (1 - 21 / 10 * u)) * (V * (1 - u))).
    - unfold s. replace ((x * (1 - 21 / 10 * u)) * (V * (1 - u))) with ((V * x) * ((1 - 21 / 10 * u) * (1 - u))) by ring.
      apply Rmult_le_compat_l; [exact s0|lra].
    - apply Rmult_le_compat; [apply Rmult_le_pos; lra|apply Rmult_le_pos; lra|exact Lq|lra]. }
  assert (Cq : q * v' <= s * (1 + 42 / 10 * u)).
  { apply Rle_trans with ((x * (1 + 31 / 10 * u)) * (V * (1 + u))).
    - apply Rmult_le_compat; [exact qn|exact v0|exact Uq|lra].
    - unfold s. replace ((x * (1 + 31 / 10 * u)) * (V * (1 + u))) with ((V * x) * ((1 + 31 / 10 * u) * (1 + u))) by ring.
      apply Rmult_le_compat_l; [exact s0|lra]. }
  assert (Rp : Rabs (p - q * v') <= Rabs (q * v') * u + u * u) by apply err32. rewrite (Rabs_pos_eq _ qv0) in Rp. apply Rabs_le_inv in Rp.
  (* plus mn *)
  set (y := rnd32 (m' + - p)).
  assert (Fy : fin (f32_add (f32_of_Z mn) (f32_mul (f32_div (f32_of_Z o) (f32_of_Z total)) (f32_of_Z (- v)))) y).
  { apply (plus_fin _ _ _ _ _ _ _ _ 37%Z Fm Fp); [vm_compute; split; [discriminate|reflexivity]|].
    change (bpow radix2 37) with 137438953472. apply Rabs_le. lra. }
  assert (y1 : y <= 1073741824) by (apply rnd_le_gen; [exact prec32_gt_0|fblock|lra]).
  assert (y2 : - 2147483392 <= y) by (apply rnd_ge; [exact prec32_gt_0|fblock|lra]).
  assert (Ay : Rabs (m' + - p) <= m' + p) by (apply Rabs_le; lra).
  assert (Ry : Rabs (y - (m' + - p)) <= Rabs (m' + - p) * u + u * u) by apply err32. apply Rabs_le_inv in Ry.
  assert (Ay' : Rabs (m' + - p) * u <= (m' + p) * u) by (apply Rmult_le_compat_r; lra).
  (* plus remainder *)
  set (e := rnd32 (y + r)).
  assert (Fe : fin (el_float mn total (- v) o rem) e).
  { apply (plus_fin _ _ _ _ _ _ _ _ 37%Z Fy Fr); [vm_compute; split; [discriminate|reflexivity]|].
    change (bpow radix2 37) with 137438953472. apply Rabs_le. lra. }
  assert (e1 : e <= 1073741952) by (apply rnd_le_gen; [exact prec32_gt_0|fblock|lra]).
  assert (e2 : - 2147483520 <= e) by (apply rnd_ge; [exact prec32_gt_0|fblock|lra]).
  assert (Re : Rabs (e - (y + r)) <= Rabs (y + r) * u + u * u) by apply err32. apply Rabs_le_inv in Re.
  assert (Ae : Rabs (y + r) * u <= ((m' + p) * (1 + u) + u * u + 1) * u).
  { apply Rmult_le_compat_r; [lra|]. apply Rabs_le. lra. }
  assert (Be : e <= m - s + r + 8 * u * (m + s + 2)) by lra.
  set (k := if Rlt_bool e 0 then (- Zfloor (- e))%Z else Zfloor e).
  exists e, k. split; [exact Fe|]. split; [exact Be|].
  assert (Tk : Btrunc_Z (el_float mn total (- v) o rem) = Some k).
  { unfold k. destruct (Rlt_bool_spec e 0) as [N|N]; [apply trunc_neg; assumption|apply trunc_fin; assumption]. }
  assert (Hk : (- 2 ^ 31 <= k < 2 ^ 31)%Z).
  { change (2 ^ 31)%Z with 2147483648%Z. unfold k. destruct (Rlt_bool_spec e 0) as [N|N].
    - assert (A : (0 <= Zfloor (- e))%Z) by (apply Zfloor_lub; lra). assert (Z.lt (Zfloor (- e)) 2147483648); [|lia].
      apply lt_IZR. pose proof (Zfloor_lb (- e)). lra.
    - assert (A : (0 <= Zfloor e)%Z) by (apply Zfloor_lub; lra). assert (Z.lt (Zfloor e) 2147483648); [|lia].
      apply lt_IZR. pose proof (Zfloor_lb e). lra. }
  split; [rewrite Tk; cbn [to_int]; unfold int_op, in_i32; destruct (_ && _) eqn:E; [reflexivity|lia]|].
  split; [exact Hk|]. intros K0.
  assert (Fmt := fin_fmt _ _ _ _ Fe).
  assert (G : -1 <= e - IZR k <= 1 /\ fin (f32_of_Z k) (IZR k) /\ fmt32 (e - IZR k)).
  { revert K0. unfold k. destruct (Rlt_bool_spec e 0) as [N|N]; intros K0.
    - assert (A : (0 <= Zfloor (- e))%Z) by (apply Zfloor_lub; lra). assert (E0 : Zfloor (- e) = 0%Z) by lia.
      pose proof (Zfloor_ub (- e)) as Ub. rewrite E0 in *. change (- 0)%Z with 0%Z. rewrite Rminus_0_r.
      split; [lra|]. split; [apply of_Z_exact; change (2 ^ prec32)%Z with 16777216%Z; lia|exact Fmt].
    - pose proof (Zfloor_lb e) as Lb. pose proof (Zfloor_ub e) as Ub. split; [lra|]. split; [|apply frac_exact; [exact Fmt|lra]].
      destruct (Z_le_gt_dec (Zfloor e) 16777216) as [Hs|Hs].
      + apply of_Z_exact. change (2 ^ prec32)%Z with 16777216%Z. rewrite Z.abs_eq by lia. exact Hs.
      + assert (Ei : IZR (Zfloor e) = e) by (apply big_int; [exact Fmt|assert (H := IZR_lt 16777216 (Zfloor e) ltac:(lia)); lra]).
        rewrite <- (rnd_id prec32 emax32 (IZR (Zfloor e))) by (rewrite Ei; exact Fmt).
        apply of_Z_fin with (k := 31%Z); [vm_compute; split; [discriminate|reflexivity]|].
        unfold k in Hk. lia. }
  destruct G as (G1 & G2 & G3). split; [exact G1|].
  rewrite <- (rnd_id prec32 emax32 _ G3).
  apply (minus_fin _ _ _ _ _ _ _ _ 1%Z Fe G2); [vm_compute; split; [discriminate|reflexivity]|].
  change (bpow radix2 1) with 2. apply Rabs_le. lra.
Qed.
Local Open Scope Z_scope.

Lemma loop_neg mn total v : 0 <= mn <= 2 ^ 30 -> 0 <= v <= 2147483392 -> 1 <= total < 2 ^ 31 ->
  forall os rem r (l : bytes), Forall oracle16 os -> Forall (fun o => o <= total) os -> fin rem r -> (-1 <= r <= 1)%R ->
  zlen l < 2 ^ 63 ->
  (exists rest, unbounded_loop mn total (- v) os rem l = (OutOfData, rest))
  \/ (let n := IZR (zlen os) in let S := IZR v * (IZR (sum os) / IZR total) in
      0 <= n * IZR mn - S + r + 1 + 8 * u * (n * IZR mn + S + 2 * n))%R.
Proof.
  intros Hm Hv Ht. induction os as [|o os IH]; intros rem r l Hos Hot Fr Hr Hl.
  - right. cbn [sum fold_right]. change (zlen (@nil Z)) with 0. cbv zeta.
    replace (IZR v * (IZR 0 / IZR total))%R with 0%R by (unfold Rdiv; ring). lra.
  - assert (Ho := Forall_inv Hos). assert (Ho' := Forall_inv Hot). cbv beta in Ho'.
    apply Forall_inv_tail in Hos. apply Forall_inv_tail in Hot.
    destruct (el_neg mn total v o rem r Hm Hv Ht Ho Ho' Fr Hr) as (e & k & Fe & Be & Ti & Hk & Fs).
    cbn [unbounded_loop]. fold (el_float mn total (- v) o rem). rewrite (bind_lift_ok _ _ _ _ Ti).
    destruct (Z_lt_le_dec k 0) as [N|K0].
    { left. exists l. apply bind_ood. apply list_chop_ood. unfold u64. rewrite <- (Z_mod_plus_full k 1), Z.mul_1_l.
      rewrite Z.mod_small by lia. lia. }
    destruct (Fs K0) as [Hr' Fs']. rewrite u64_id by lia.
    destruct (Z_lt_le_dec (zlen l) k) as [L|L].
    + left. exists l. apply bind_ood. apply list_chop_ood. exact L.
    + destruct (list_split l k ltac:(lia)) as (c & l' & -> & Ec).
      rewrite (bind_ok _ _ _ _ _ (list_chop c l' k (eq_sym Ec))). rewrite zlen_app in Hl. pose proof (zlen_nonneg c).
      destruct (IH _ _ l' Hos Hot Fs' Hr' ltac:(lia)) as [(rest & Run)|B].
      * left. exists rest. apply bind_ood. exact Run.
      * right. rewrite zlen_cons. cbn [sum fold_right]. fold (sum os). cbv zeta in B |- *. rewrite !plus_IZR.
        set (n := IZR (zlen os)) in *. assert (T1 := IZR_le _ _ (proj1 Ht)).
        replace (IZR v * ((IZR o + IZR (sum os)) / IZR total))%R
          with (IZR v * (IZR o / IZR total) + IZR v * (IZR (sum os) / IZR total))%R by (field; lra).
        assert (K := IZR_le _ _ K0).
        set (S := (IZR v * (IZR (sum os) / IZR total))%R) in *. set (s := (IZR v * (IZR o / IZR total))%R) in *. lra.
Qed.

(** Up to the loop, whatever the size. *)
Lemma to_the_loop_huge mn o os (l : bytes) : 0 <= mn < 2 ^ 31 -> oracle16 o -> Forall oracle16 os -> os <> [] ->
  let data := le16 o ++ concat (map le16 os) ++ l in
  mn <= zlen data < 2 ^ 46 -> zlen os = part_count mn (zlen data) o -> sum os < 2 ^ 31 ->
  vector_extract mn (-1) data =
   (fixed_data_size <- lift (int_op (mn * zlen os)) ;;
    var_data_size <- lift (int_op (i32 (zlen l) - fixed_data_size)) ;;
    unbounded_loop mn (sum (weights os)) var_data_size (weights os) (f32_of_Z 0)) l.
Proof.
  intros Hm Ho Hos Onil data Hl Hn Hs.
  assert (Ld : zlen data = 2 + (2 * zlen os + zlen l)) by (unfold data; rewrite !zlen_app, le16_len, oracles_len; reflexivity).
  pose proof (zlen_nonneg l) as L0. pose proof (zlen_nonneg os) as N0.
  rewrite start_unbounded by lia. unfold data in *. rewrite step_unbounded by (try assumption; lia).
  rewrite count_all, <- Hn by (try assumption; lia). cbv zeta.
  replace (Z.to_nat (zlen os)) with (length os) by (unfold zlen; lia).
  pose proof (sum_bound os Hos).
  rewrite (bind_ok _ _ _ _ _ (read_oracles_run os 0 l Hos ltac:(lia) ltac:(lia))). cbn [fst snd].
  rewrite Z.add_0_l, bind_gets. cbn [Size ListOps]. fold (weights os).
  replace (if sum os =? 0 then zlen os else sum os) with (sum (weights os)) by (unfold weights; destruct (sum os =? 0); [apply sum_ones|reflexivity]).
  reflexivity.
Qed.

Lemma i32_high z : 2 ^ 31 <= z mod 2 ^ 32 -> i32 z = z mod 2 ^ 32 - 2 ^ 32.
Proof.
  intros H. unfold i32. pose proof (Z.mod_pos_bound z (2 ^ 32) ltac:(lia)). pose proof (Z.div_mod z (2 ^ 32) ltac:(lia)).
  replace (z + 2 ^ 31) with ((z mod 2 ^ 32 - 2 ^ 31) + (z / 2 ^ 32 + 1) * 2 ^ 32) by lia.
  rewrite Z_mod_plus_full, Z.mod_small by lia. lia.
Qed.

(** Shares of much less than there is: nothing runs out. *)
Lemma loop_room mn total var : 0 <= mn -> 0 <= var -> mn + var <= 2147479552 -> 1 <= total < 2 ^ 31 ->
  forall os rem r (l : bytes), Forall oracle16 os -> Forall (fun o => o <= total) os -> fin rem r -> (0 <= r < 1)%R ->
  (let W := IZR (zlen os) * IZR mn + IZR var * (IZR (sum os) / IZR total) in
   W * (1 + 8 * u) + r + IZR (zlen os) * (2 * u) <= IZR (zlen l))%R ->
  exists cs rest, unbounded_loop mn total var os rem l = (Ok cs, rest) /\ l = concat cs ++ rest
     /\ Forall2 (fun o c => roughly_share mn var total o (zlen c)) os cs
     /\ (let W := (IZR (zlen os) * IZR mn + IZR var * (IZR (sum os) / IZR total))%R in
         W * (1 - 8 * u) + r - 1 - IZR (zlen os) * (2 * u) <= IZR (zlen (concat cs))
           <= W * (1 + 8 * u) + r + IZR (zlen os) * (2 * u))%R.
Proof.
  intros Hm Hv Hmv Ht. induction os as [|o os IH]; intros rem r l Hos Hot Fr Hr HW.
  - exists [], l. split; [reflexivity|]. split; [reflexivity|]. split; [constructor|].
    cbn [sum fold_right concat]. change (zlen (@nil byte)) with 0. change (zlen (@nil Z)) with 0. cbv zeta.
    replace (IZR 0 * IZR mn + IZR var * (IZR 0 / IZR total))%R with 0%R by (unfold Rdiv; ring). lra.
  - assert (Ho := Forall_inv Hos). assert (Ho' := Forall_inv Hot). cbv beta in Ho'.
    apply Forall_inv_tail in Hos. apply Forall_inv_tail in Hot.
    destruct (el_step_any mn total var o rem r Hm Hv Hmv Ht Ho Ho' Fr Hr) as (e & Fe & Be & Pe & Ti & Fs).
    set (k := Zfloor e) in *. assert (Lb := Zfloor_lb e). assert (Ub := Zfloor_ub e). fold k in Lb, Ub.
    assert (K0 : 0 <= k) by (apply Zfloor_lub; exact Pe).
    assert (K1 : k < 2 ^ 31).
    { revert Ti. unfold to_int, int_op, in_i32. destruct (Btrunc_Z _); [|discriminate].
      destruct (_ && _) eqn:E0; [|discriminate]. intros [= ->]. lia. }
    assert (M0 := IZR_le _ _ Hm). assert (V0 := IZR_le _ _ Hv). assert (T1 := IZR_le _ _ (proj1 Ht)).
    assert (O0 := IZR_le _ _ (proj1 Ho)). assert (S0 := IZR_le _ _ (proj1 (sum_bound os Hos))).
    assert (N0 := IZR_le _ _ (zlen_nonneg os)).
    rewrite zlen_cons in HW |- *. cbn [sum fold_right] in HW |- *. fold (sum os) in HW |- *. cbv zeta in HW, IH |- *.
    rewrite !plus_IZR in HW |- *. set (n := IZR (zlen os)) in *. set (s := IZR (sum os)) in *.
    replace ((n + 1) * IZR mn + IZR var * ((IZR o + s) / IZR total))%R
      with ((n * IZR mn + IZR var * (s / IZR total)) + (IZR mn + IZR var * (IZR o / IZR total)))%R in HW |- * by (field; lra).
    assert (Ws : (0 <= n * IZR mn + IZR var * (s / IZR total))%R).
    { assert (0 <= n * IZR mn)%R by (apply Rmult_le_pos; lra).
      assert (0 <= IZR var * (s / IZR total))%R by (apply Rmult_le_pos; [lra|apply Rmult_le_pos; [lra|left; apply Rinv_0_lt_compat; lra]]). lra. }
    assert (wn : (0 <= IZR mn + IZR var * (IZR o / IZR total))%R).
    { assert (0 <= IZR var * (IZR o / IZR total))%R by (apply Rmult_le_pos; [lra|apply Rmult_le_pos; [lra|left; apply Rinv_0_lt_compat; lra]]). lra. }
    set (W := (n * IZR mn + IZR var * (s / IZR total))%R) in *.
    set (w := (IZR mn + IZR var * (IZR o / IZR total))%R) in *.
    cbn [unbounded_loop]. fold (el_float mn total var o rem). rewrite (bind_lift_ok _ _ _ _ Ti). fold k. rewrite u64_id by lia.
    assert (L : k <= zlen l) by (apply le_IZR; lra).
    destruct (list_split l k ltac:(lia)) as (c & l' & -> & Ec).
    rewrite (bind_ok _ _ _ _ _ (list_chop c l' k (eq_sym Ec))). rewrite zlen_app, plus_IZR, Ec in HW.
    destruct (IH _ _ l' Hos Hot Fs ltac:(split; lra) ltac:(lra)) as (cs & rest & Run & El & Hks & Bs).
    exists (c :: cs), rest. split; [rewrite (bind_ok _ _ _ _ _ Run); reflexivity|].
    split; [cbn [concat]; rewrite <- app_assoc, <- El; reflexivity|]. split.
    + constructor; [|exact Hks]. rewrite Ec. apply IZR_rough; [lia|]. fold w.
      assert (A : (Rabs (IZR k - w) <= w * (8 * u) + 1 + 4 * u)%R) by (apply Rabs_le; lra). lra.
    + cbn [concat]. rewrite zlen_app, Ec, plus_IZR. lra.
Qed.

Lemma negative_size mn o os (l : bytes) : 0 <= mn <= 2 ^ 30 -> oracle16 o -> Forall oracle16 os -> os <> [] ->
  let data := le16 o ++ concat (map le16 os) ++ l in
  mn <= zlen data < 2 ^ 46 -> zlen os = part_count mn (zlen data) o -> sum os < 2 ^ 31 ->
  2 ^ 31 + mn * zlen os + 256 <= zlen l mod 2 ^ 32 <= 2 ^ 32 - 4096 ->
  exists rest, vector_extract mn (-1) data = (OutOfData, rest).
Proof.
  intros Hm Ho Hos Onil data Hl Hn Hs Hz.
  assert (Ld : zlen data = 2 + (2 * zlen os + zlen l)) by (unfold data; rewrite !zlen_app, le16_len, oracles_len; reflexivity).
  pose proof (zlen_nonneg l) as L0. pose proof (zlen_nonneg os) as N0.
  assert (Bn : zlen os <= 65535). { rewrite Hn. apply part_count_le; [lia|lia|exact Ho]. }
  destruct (weights_any os Hos Onil Bn Hs) as (Wo & Ws & Wl).
  unfold data. rewrite to_the_loop_huge by (try assumption; fold data; lia).
  assert (Hf : 0 <= mn * zlen os) by nia.
  rewrite i32_high by lia. set (z := zlen l mod 2 ^ 32) in *. set (f := mn * zlen os) in *.
  rewrite (bind_lift_ok _ _ _ f) by (unfold int_op, in_i32; destruct (_ && _) eqn:E; [reflexivity|lia]).
  set (v := 2 ^ 32 - z + f).
  rewrite (bind_lift_ok _ _ _ (- v)) by (unfold int_op, in_i32, v; destruct (_ && _) eqn:E; [f_equal; lia|lia]).
  assert (F0 : fin (f32_of_Z 0) 0%R) by (apply of_Z_exact; change (2 ^ prec32) with 16777216; lia).
  destruct (loop_neg mn (sum (weights os)) v Hm ltac:(unfold v; lia) Ws (weights os) (f32_of_Z 0) 0%R l Wo) as [X|B].
  { apply Forall_forall. intros a Ha. apply (sum_in _ _ Wo Ha). }
  { exact F0. } { lra. } { lia. }
  - exact X.
  - exfalso. cbv zeta in B. rewrite Wl in B. assert (T1 := IZR_le _ _ (proj1 Ws)).
    replace (IZR (sum (weights os)) / IZR (sum (weights os)))%R with 1%R in B by (field; lra).
    rewrite Rmult_1_r, <- mult_IZR, (Z.mul_comm (zlen os) mn) in B. fold f in B.
    assert (E : (IZR f - IZR v)%R = IZR (z - 2 ^ 32)) by (rewrite <- minus_IZR; f_equal; unfold v; lia).
    assert (A1 : (IZR (z - 2 ^ 32) <= -4096)%R) by (apply IZR_le; lia).
    assert (A2 : (IZR f + IZR v + 2 * IZR (zlen os) <= IZR 4300000000)%R).
    { rewrite <- !plus_IZR, <- mult_IZR, <- plus_IZR. apply IZR_le. unfold v. lia. }
    lra.
Qed.

Lemma wrapped_size mn o os (l : bytes) : 0 <= mn < 2 ^ 31 -> oracle16 o -> Forall oracle16 os -> os <> [] ->
  let data := le16 o ++ concat (map le16 os) ++ l in
  mn <= zlen data < 2 ^ 46 -> zlen os = part_count mn (zlen data) o -> sum os < 2 ^ 31 -> 2 ^ 32 <= zlen l ->
  let z := zlen l mod 2 ^ 32 in mn * zlen os <= z <= 2147479552 ->
  exists cs rest, vector_extract mn (-1) data = (Ok cs, rest) /\ l = concat cs ++ rest
    /\ 1000000 * Z.abs (zlen (concat cs) - z) <= 2000000 + z
    /\ Forall2 (fun w c => roughly_share mn (z - mn * zlen os) (sum (weights os)) w (zlen c)) (weights os) cs.
Proof.
  intros Hm Ho Hos Onil data Hl Hn Hs Hbig z Hz.
  assert (Ld : zlen data = 2 + (2 * zlen os + zlen l)) by (unfold data; rewrite !zlen_app, le16_len, oracles_len; reflexivity).
  pose proof (zlen_nonneg l) as L0.
  assert (N1 : 1 <= zlen os) by (destruct os; [congruence|rewrite zlen_cons; pose proof (zlen_nonneg os); lia]).
  assert (Bn : zlen os <= 65535). { rewrite Hn. apply part_count_le; [lia|lia|exact Ho]. }
  destruct (weights_any os Hos Onil Bn Hs) as (Wo & Ws & Wl).
  unfold data. rewrite to_the_loop_huge by (try assumption; fold data; lia).
  assert (Hf : mn <= mn * zlen os) by nia.
  assert (Ei : i32 (zlen l) = z).
  { unfold i32. pose proof (Z.div_mod (zlen l) (2 ^ 32) ltac:(lia)). fold z in H.
    replace (zlen l + 2 ^ 31) with ((z + 2 ^ 31) + (zlen l / 2 ^ 32) * 2 ^ 32) by lia.
    rewrite Z_mod_plus_full, Z.mod_small by lia. lia. }
  rewrite Ei. set (f := mn * zlen os) in *.
  rewrite (bind_lift_ok _ _ _ f) by (unfold int_op, in_i32; destruct (_ && _) eqn:E; [reflexivity|lia]).
  rewrite (bind_lift_ok _ _ _ (z - f)) by (unfold int_op, in_i32; destruct (_ && _) eqn:E; [reflexivity|lia]).
  assert (F0 : fin (f32_of_Z 0) 0%R) by (apply of_Z_exact; change (2 ^ prec32) with 16777216; lia).
  assert (T1 := IZR_le _ _ (proj1 Ws)).
  assert (EW : (IZR (zlen os) * IZR mn + IZR (z - f) * (IZR (sum (weights os)) / IZR (sum (weights os))))%R = IZR z).
  { replace (IZR (sum (weights os)) / IZR (sum (weights os)))%R with 1%R by (field; lra).
    unfold f. rewrite minus_IZR, mult_IZR. ring. }
  assert (N2 : (0 <= IZR (zlen os) <= 65535)%R) by (split; apply IZR_le; lia).
  assert (Z2 : (0 <= IZR z <= 2147479552)%R) by (split; apply IZR_le; lia).
  assert (L2 : (4294967296 <= IZR (zlen l))%R) by (apply IZR_le; lia).
  destruct (loop_room mn (sum (weights os)) (z - f) ltac:(lia) ltac:(lia) ltac:(lia) Ws (weights os) (f32_of_Z 0) 0%R l Wo) as (cs & rest & Run & El & H2 & Bk).
  { apply Forall_forall. intros a Ha. apply (sum_in _ _ Wo Ha). }
  { exact F0. } { lra. } { cbv zeta. rewrite Wl, EW. lra. }
  exists cs, rest. split; [exact Run|]. split; [exact El|]. split; [|exact H2].
  cbv zeta in Bk. rewrite Wl, EW in Bk.
  apply le_IZR. rewrite plus_IZR, mult_IZR, abs_IZR, minus_IZR.
  assert (A : (Rabs (IZR (zlen (concat cs)) - IZR z) <= IZR z * (8 * u) + 1 + 65535 * (2 * u))%R) by (apply Rabs_le; lra). lra.
Qed.
