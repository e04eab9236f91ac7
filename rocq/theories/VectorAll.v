(** GalleyVector over unbounded stamps: any number of parts, any size. *)
From Coq Require Import ZArith Reals Lia Lra.
From Flocq Require Import Core.Core IEEE754.BinarySingleNaN.
From Verif Require Import Base BaseFacts FloatModel FloatFacts Oracle OracleFacts Arithm Sim Galley VectorSpec VectorFacts VectorFloat VectorUnbounded VectorLimits
  VectorAllSpec.
Local Open Scope Z_scope.

Lemma count_all mn sz o : 0 <= mn < 2 ^ 31 -> 2 <= sz < 2 ^ 46 -> oracle16 o -> count_target mn sz o = part_count mn sz o.
Proof.
  intros Hm Hs Ho. unfold count_target, part_count, ORACLE_SIZE, ORACLE_MAX. rewrite !(u64_id (_ - 2)), !(u64_id (mn + 2)) by lia.
  fold (parts mn sz). unfold oracle16 in Ho.
  assert (P : 0 <= parts mn sz < 2 ^ 46).
  { unfold parts. split; [apply Z.div_pos; lia|]. apply Z.div_lt_upper_bound; [lia|]. nia. }
  set (N := parts mn sz) in *. rewrite (u64_id (N * o)) by nia. cbv zeta. change ((N * o / 65535 + 1) mod 65536) with (u16 (N * o / 65535 + 1)).
  assert (R : 0 <= u16 (N * o / 65535 + 1) < 65536) by (unfold u16; apply Z.mod_pos_bound; reflexivity).
  set (t := u16 (N * o / 65535 + 1)) in *. destruct (N <? t) eqn:E; [|lia].
  unfold u16. rewrite Z.mod_small by lia. lia.
Qed.

Lemma part_count_le mn sz o : 0 <= mn -> 2 <= sz -> oracle16 o -> 0 <= part_count mn sz o <= 65535 /\ part_count mn sz o * (mn + 2) <= sz - 2.
Proof.
  intros Hm Hs Ho. unfold part_count. assert (P : 0 <= parts mn sz) by (unfold parts; apply Z.div_pos; lia).
  pose proof (Z.mod_pos_bound (parts mn sz * o / 65535 + 1) 65536 ltac:(lia)).
  assert (HN : parts mn sz * (mn + 2) <= sz - 2) by (unfold parts; rewrite Z.mul_comm; apply Z.mul_div_le; lia).
  split; [lia|]. etransitivity; [|exact HN]. apply Z.mul_le_mono_nonneg_r; lia.
Qed.

Lemma weights_any os : Forall oracle16 os -> os <> [] -> zlen os <= 65535 -> sum os < 2 ^ 31 ->
  Forall oracle16 (weights os) /\ 1 <= sum (weights os) < 2 ^ 31 /\ zlen (weights os) = zlen os.
Proof.
  intros H Hn Hl Hs. pose proof (sum_bound os H). unfold weights. destruct (sum os =? 0) eqn:E.
  - rewrite sum_ones, zlen_map. split; [|split; [|reflexivity]].
    + clear. induction os; constructor; auto. unfold oracle16. lia.
    + destruct os; [congruence|]. rewrite zlen_cons in *. pose proof (zlen_nonneg os). lia.
  - split; [exact H|]. split; [lia|reflexivity].
Qed.

(** Up to the loop. *)
Lemma to_the_loop mn o os (l : bytes) : 0 <= mn < 2 ^ 31 -> oracle16 o -> Forall oracle16 os -> os <> [] ->
  let data := le16 o ++ concat (map le16 os) ++ l in
  mn <= zlen data < 2 ^ 31 -> zlen os = part_count mn (zlen data) o -> sum os < 2 ^ 31 ->
  0 <= zlen l - mn * zlen os
  /\ vector_extract mn (-1) data = unbounded_loop mn (sum (weights os)) (zlen l - mn * zlen os) (weights os) (f32_of_Z 0) l.
Proof.
  intros Hm Ho Hos Onil data Hl Hn Hs.
  assert (Ld : zlen data = 2 + (2 * zlen os + zlen l)) by (unfold data; rewrite !zlen_app, le16_len, oracles_len; reflexivity).
  pose proof (zlen_nonneg l) as L0. pose proof (zlen_nonneg os) as N0.
  destruct (part_count_le mn (zlen data) o ltac:(lia) ltac:(lia) Ho) as [Bn Bm]. rewrite <- Hn in Bn, Bm.
  assert (V0 : 0 <= zlen l - mn * zlen os) by lia. split; [exact V0|].
  rewrite start_unbounded by lia. unfold data in *. rewrite step_unbounded by (try assumption; lia).
  rewrite count_all, <- Hn by (try assumption; lia). cbv zeta.
  replace (Z.to_nat (zlen os)) with (length os) by (unfold zlen; lia).
  pose proof (sum_bound os Hos).
  rewrite (bind_ok _ _ _ _ _ (read_oracles_run os 0 l Hos ltac:(lia) ltac:(lia))). cbn [fst snd].
  rewrite Z.add_0_l, bind_gets. cbn [Size ListOps]. fold (weights os).
  replace (if sum os =? 0 then zlen os else sum os) with (sum (weights os)) by (unfold weights; destruct (sum os =? 0); [apply sum_ones|reflexivity]).
  rewrite (i32_id (zlen l)) by lia.
  assert (In1 : forall a, - 2 ^ 31 <= a < 2 ^ 31 -> int_op a = Ok a) by (intros a Ha; unfold int_op, in_i32; destruct (_ && _) eqn:E; [reflexivity|lia]).
  rewrite (bind_lift_ok _ _ _ (mn * zlen os)) by (apply In1; nia).
  rewrite (bind_lift_ok _ _ _ (zlen l - mn * zlen os)) by (apply In1; lia). reflexivity.
Qed.

(** Up to 2 MiB. *)
Lemma all_counts mn o os (l : bytes) : 0 <= mn < 2 ^ 31 -> oracle16 o -> Forall oracle16 os -> os <> [] ->
  let data := le16 o ++ concat (map le16 os) ++ l in
  mn <= zlen data <= 2097152 -> zlen os = part_count mn (zlen data) o -> sum os < 2 ^ 31 ->
  exists cs rest, vector_extract mn (-1) data = (Ok cs, rest) /\ l = concat cs ++ rest /\ zlen rest <= 1
    /\ Forall2 (fun w c => mn <= zlen c /\ near_share mn (zlen l - mn * zlen os) (sum (weights os)) w (zlen c)) (weights os) cs.
Proof.
  intros Hm Ho Hos Onil data Hl Hn Hs. destruct (to_the_loop mn o os l Hm Ho Hos Onil ltac:(fold data; lia) Hn Hs) as [V0 E].
  fold data in E.
  assert (Ld : zlen data = 2 + (2 * zlen os + zlen l)) by (unfold data; rewrite !zlen_app, le16_len, oracles_len; reflexivity).
  pose proof (zlen_nonneg l) as L0. pose proof (zlen_nonneg os) as N0.
  assert (Bn : zlen os <= 65535). { rewrite Hn. apply part_count_le; [lia|lia|exact Ho]. }
  assert (N1 : 1 <= zlen os) by (destruct os; [congruence|rewrite zlen_cons; pose proof (zlen_nonneg os); lia]).
  destruct (weights_any os Hos Onil Bn Hs) as (Wo & Ws & Wl).
  set (V := zlen l - mn * zlen os) in *. assert (MV : mn + V <= 2097152) by (unfold V; nia).
  assert (F0 : fin (f32_of_Z 0) 0%R) by (apply of_Z_exact; change (2 ^ prec32) with 16777216; lia).
  destruct (loop_run mn (sum (weights os)) V ltac:(lia) V0 MV Ws (weights os) (f32_of_Z 0) 0%R Wo) as (ks & Hks & Bk & Run).
  { apply Forall_forall. intros a Ha. apply (sum_in _ _ Wo Ha). }
  { exact F0. } { lra. }
  rewrite Wl in Bk. cbv zeta in Bk.
  assert (EW : (IZR (zlen os) * IZR mn + IZR V * (IZR (sum (weights os)) / IZR (sum (weights os))))%R = IZR (zlen l)).
  { assert (T1 := IZR_le _ _ (proj1 Ws)). replace (IZR (sum (weights os)) / IZR (sum (weights os)))%R with 1%R by (field; lra).
    unfold V. rewrite minus_IZR, mult_IZR. ring. }
  rewrite EW in Bk.
  assert (D0 : (0 <= IZR (zlen l) <= 2097152)%R) by (split; apply IZR_le; lia).
  assert (N2 : (0 <= IZR (zlen os) <= 65535)%R) by (split; apply IZR_le; lia).
  assert (Sk : zlen l - 1 <= sum ks <= zlen l).
  { assert (A1 : sum ks < zlen l + 1) by (apply lt_IZR; rewrite plus_IZR; lra).
    assert (A2 : zlen l - 2 < sum ks) by (apply lt_IZR; rewrite minus_IZR; lra). lia. }
  assert (Kn : Forall (fun k => 0 <= k) ks).
  { clear - Hks Hm. induction Hks as [|a k ws ks [H1 H2] H IH]; constructor; auto. lia. }
  destruct (cut_ex ks l Kn ltac:(lia)) as (cs & rest & El & Ek).
  exists cs, rest. split; [|split; [exact El|split]].
  - rewrite E, El at 1. apply Run. exact Ek.
  - rewrite El, zlen_app, concat_sum, Ek in Sk. lia.
  - clear - Hks Ek. set (T := sum (weights os)) in *. clearbody T. revert cs Ek. induction Hks as [|w k ws ks H Hks IH]; intros [|c cs] Ek; try discriminate; [constructor|].
    cbn [map] in Ek. injection Ek as <- Ek. constructor; [exact H|]. apply IH. exact Ek.
Qed.

(** ** Larger *)
Local Open Scope R_scope.
Lemma big_int x : fmt32 x -> 16777216 <= x -> IZR (Zfloor x) = x.
Proof.
  intros F H. rewrite (fexp_FLT prec32 emax32) in F. apply FLT.FLT_format_generic in F; [|exact prec32_gt_0].
  destruct F as [[m e] F1 F2 F3]. cbn [Fnum Fexp] in *.
  destruct (Z_le_gt_dec 0 e) as [He|He].
  - assert (x = IZR (m * 2 ^ e)) as E.
    { rewrite F1. unfold F2R. cbn [Fnum Fexp]. rewrite mult_IZR, <- (IZR_Zpower radix2) by lia. reflexivity. }
    rewrite E, Zfloor_IZR. reflexivity.
  - exfalso. assert (M : IZR m < 16777216) by (apply IZR_lt; change (radix2 ^ prec32)%Z with 16777216%Z in F2; lia).
    assert (P : bpow radix2 e <= 1) by (change 1 with (bpow radix2 0); apply bpow_le; lia). pose proof (bpow_gt_0 radix2 e).
    rewrite F1 in H. unfold F2R in H. cbn [Fnum Fexp] in H. assert (0 < IZR m) by (apply Rnot_le_lt; intros X; assert (IZR m * bpow radix2 e <= 0 * bpow radix2 e) by (apply Rmult_le_compat_r; lra); lra).
    assert (IZR m * bpow radix2 e <= IZR m * 1) by (apply Rmult_le_compat_l; lra). lra.
Qed.

Lemma el_step_any mn total var o rem r : (0 <= mn)%Z -> (0 <= var)%Z -> (mn + var <= 2147479552)%Z ->
  (1 <= total < 2 ^ 31)%Z -> (0 <= o <= 65535)%Z -> (o <= total)%Z -> fin rem r -> 0 <= r < 1 ->
  let w := IZR mn + IZR var * (IZR o / IZR total) in
  exists e, fin (el_float mn total var o rem) e
    /\ w * (1 - 8 * u) + r - 2 * u <= e <= w * (1 + 8 * u) + r + 2 * u
    /\ 0 <= e
    /\ to_int (Btrunc_Z (el_float mn total var o rem)) = Ok (Zfloor e)
    /\ fin (f32_sub (el_float mn total var o rem) (f32_of_Z (Zfloor e))) (e - IZR (Zfloor e)).
Proof.
  intros Hm Hv Hmv Ht Ho Hot Fr Hr w.
  assert (M0 := IZR_le _ _ Hm). assert (V0 := IZR_le _ _ Hv). assert (MV := IZR_le _ _ Hmv). rewrite plus_IZR in MV.
  assert (T1 := IZR_le _ _ (proj1 Ht)). assert (T2 := IZR_lt _ _ (proj2 Ht)). change (2 ^ 31)%Z with 2147483648%Z in T2.
  assert (O0 := IZR_le _ _ (proj1 Ho)). assert (O1 := IZR_le _ _ (proj2 Ho)). assert (OT := IZR_le _ _ Hot).
  assert (O2 : IZR o = 0 \/ 1 <= IZR o).
  { destruct (Z.eq_dec o 0) as [->|N]; [left; reflexivity|right; apply IZR_le; lia]. }
  assert (V2 : IZR var = 0 \/ 1 <= IZR var).
  { destruct (Z.eq_dec var 0) as [->|N]; [left; reflexivity|right; apply IZR_le; lia]. }
  assert (M2 : IZR mn = 0 \/ 1 <= IZR mn).
  { destruct (Z.eq_dec mn 0) as [->|N]; [left; reflexivity|right; apply IZR_le; lia]. }
  set (m := IZR mn) in *. set (v := IZR var) in *. set (T := IZR total) in *. set (a := IZR o) in *.
  assert (B100 : forall k, (-100 <= k)%Z -> bpow radix2 (-100) <= bpow radix2 k) by (intros; apply bpow_le; lia).
  assert (B1 : bpow radix2 (-100) <= 1) by (change 1 with (bpow radix2 0); apply B100; lia).
  (* total, var and mn as floats *)
  set (t := rnd32 T).
  assert (Ft : fin (f32_of_Z total) t).
  { apply of_Z_fin with (k := 31%Z); [vm_compute; split; [discriminate|reflexivity]|lia]. }
  assert (Rt : T * (1 - u) <= t <= T * (1 + u)) by (apply rel32; [lra|right; lra]).
  assert (t1 : 1 <= t) by (apply rnd_ge; [exact prec32_gt_0|apply (fmt32_int 1); lia|lra]).
  set (v' := rnd32 v).
  assert (Fv : fin (f32_of_Z var) v') by (apply of_Z_fin with (k := 31%Z); [vm_compute; split; [discriminate|reflexivity]|lia]).
  assert (Rv : v * (1 - u) <= v' <= v * (1 + u)) by (apply rel32; [lra|destruct V2; [left|right]; lra]).
  assert (v0 : 0 <= v') by (apply pos32; lra).
  set (m' := rnd32 m).
  assert (Fm : fin (f32_of_Z mn) m') by (apply of_Z_fin with (k := 31%Z); [vm_compute; split; [discriminate|reflexivity]|lia]).
  assert (Rm : m * (1 - u) <= m' <= m * (1 + u)) by (apply rel32; [lra|destruct M2; [left|right]; lra]).
  assert (m0 : 0 <= m') by (apply pos32; lra).
  (* the ratio *)
  set (x := a / T). assert (x0 : 0 <= x) by (apply Rmult_le_pos; [lra|left; apply Rinv_0_lt_compat; lra]).
  assert (x1 : x <= 1) by (unfold x; apply Rmult_le_reg_r with T; [lra|]; unfold Rdiv; rewrite Rmult_assoc, Rinv_l; lra).
  assert (Exa : a = x * T) by (unfold x; field; lra).
  assert (Eq : a / t <= x * (1 + 2 * u) /\ x * (1 - u) <= a / t).
  { split; apply Rmult_le_reg_r with t; try lra; unfold Rdiv; rewrite (Rmult_assoc a), Rinv_l, Rmult_1_r by lra; rewrite Exa.
    - assert (T * 1 <= t * (1 + 2 * u)) by (apply Rle_trans with (T * ((1 - u) * (1 + 2 * u))); [apply Rmult_le_compat_l; lra|rewrite <- Rmult_assoc; apply Rmult_le_compat_r; lra]).
      assert (x * T <= x * (t * (1 + 2 * u))) by (apply Rmult_le_compat_l; lra). lra.
    - assert (t * (1 - u) <= T) by (apply Rle_trans with (T * ((1 + u) * (1 - u))); [rewrite <- Rmult_assoc; apply Rmult_le_compat_r; lra|rewrite <- (Rmult_1_r T) at 2; apply Rmult_le_compat_l; lra]).
      assert (x * (t * (1 - u)) <= x * T) by (apply Rmult_le_compat_l; lra). lra. }
  assert (q0 : 0 <= a / t) by (apply Rmult_le_pos; [lra|left; apply Rinv_0_lt_compat; lra]).
  set (q := rnd32 (a / t)).
  assert (Fa : fin (f32_of_Z o) a) by (apply of_Z_exact; change (2 ^ prec32)%Z with 16777216%Z; lia).
  assert (Fq : fin (f32_div (f32_of_Z o) (f32_of_Z total)) q).
  { apply (div_fin _ _ _ _ _ _ _ _ 1%Z Fa Ft); [intros X; lra|vm_compute; split; [discriminate|reflexivity]|].
    rewrite Rabs_pos_eq by lra. change (bpow radix2 1) with 2. lra. }
  assert (tq : a / t = 0 \/ bpow radix2 (-40) <= a / t).
  { destruct O2 as [->|O2]; [left; unfold Rdiv; lra|right].
    apply Rle_trans with (/ t).
    - replace (bpow radix2 (-40)) with (/ bpow radix2 40) by (symmetry; apply (bpow_opp radix2 40)).
      apply Rinv_le; [lra|]. rewrite bpow_IZR by lia. change (2 ^ 40)%Z with 1099511627776%Z. lra.
    - unfold Rdiv. rewrite <- (Rmult_1_l (/ t)) at 1. apply Rmult_le_compat_r; [left; apply Rinv_0_lt_compat|]; lra. }
  assert (Rq : a / t * (1 - u) <= q <= a / t * (1 + u)).
  { apply rel32; [lra|]. destruct tq as [->|tq]; [left; reflexivity|right]. apply Rle_trans with (2 := tq). apply B100. lia. }
  assert (Uq : q <= x * (1 + 31 / 10 * u)) by (apply (scale_up (a / t) x q (1 + 2 * u) (1 + u)); lra).
  assert (Lq : x * (1 - 21 / 10 * u) <= q) by (apply (scale_dn (a / t) x q (1 - u) (1 - u)); lra).
  assert (qn : 0 <= q) by (apply pos32; lra).
  (* times var *)
  set (p := rnd32 (q * v')).
  assert (qv0 : 0 <= q * v') by (apply Rmult_le_pos; lra).
  assert (qv1 : q * v' <= 2 * v') by (apply Rmult_le_compat_r; lra).
  assert (Fp : fin (f32_mul (f32_div (f32_of_Z o) (f32_of_Z total)) (f32_of_Z var)) p).
  { apply (mult_fin _ _ _ _ _ _ _ _ 33%Z Fq Fv); [vm_compute; split; [discriminate|reflexivity]|].
    rewrite Rabs_pos_eq by lra. change (bpow radix2 33) with 8589934592. lra. }
  assert (tp : q * v' = 0 \/ bpow radix2 (-50) <= q * v').
  { destruct V2 as [V2|V2]; [left; replace v' with 0 by lra; lra|]. destruct tq as [tq|tq].
    - left. rewrite tq in Rq. replace q with 0 by lra. lra.
    - right. assert (A1 : bpow radix2 (-40) * (/ 2) <= q).
      { apply Rle_trans with (a / t * (1 - u)); [|lra]. pose proof (bpow_gt_0 radix2 (-40)).
        apply Rle_trans with (bpow radix2 (-40) * (1 - u)); [apply Rmult_le_compat_l; lra|apply Rmult_le_compat_r; lra]. }
      assert (A2 : / 2 <= v') by lra. pose proof (bpow_gt_0 radix2 (-40)).
      apply Rle_trans with (bpow radix2 (-40) * / 2 * / 2).
      + change (-50)%Z with (-40 + -10)%Z. rewrite bpow_plus. change (bpow radix2 (-10)) with (/ 1024). lra.
      + apply Rmult_le_compat; lra. }
  assert (Rp : q * v' * (1 - u) <= p <= q * v' * (1 + u)).
  { apply rel32; [lra|]. destruct tp as [->|tp]; [left; reflexivity|right]. apply Rle_trans with (2 := tp). apply B100. lia. }
  set (z := v * x). assert (z0 : 0 <= z) by (apply Rmult_le_pos; lra).
  assert (Uz : q * v' <= z * (1 + 42 / 10 * u)).
  { assert (q * v' <= x * (1 + 31 / 10 * u) * (v * (1 + u))) by (apply Rmult_le_compat; lra).
    assert (z * ((1 + 31 / 10 * u) * (1 + u)) <= z * (1 + 42 / 10 * u)) by (apply Rmult_le_compat_l; lra). unfold z in *. lra. }
  assert (Lz : z * (1 - 32 / 10 * u) <= q * v').
  { assert (x * (1 - 21 / 10 * u) * (v * (1 - u)) <= q * v').
    { apply Rmult_le_compat; try lra; apply Rmult_le_pos; lra. }
    assert (z * (1 - 32 / 10 * u) <= z * ((1 - 21 / 10 * u) * (1 - u))) by (apply Rmult_le_compat_l; lra). unfold z in *. lra. }
  assert (Up : p <= z * (1 + 53 / 10 * u)) by (apply (scale_up (q * v') z p (1 + 42 / 10 * u) (1 + u)); lra).
  assert (Lp : z * (1 - 43 / 10 * u) <= p) by (apply (scale_dn (q * v') z p (1 - 32 / 10 * u) (1 - u)); lra).
  assert (p0 : 0 <= p) by (apply pos32; lra).
  (* plus mn *)
  set (y := rnd32 (m' + p)).
  assert (Fy : fin (f32_add (f32_of_Z mn) (f32_mul (f32_div (f32_of_Z o) (f32_of_Z total)) (f32_of_Z var))) y).
  { apply (plus_fin _ _ _ _ _ _ _ _ 35%Z Fm Fp); [vm_compute; split; [discriminate|reflexivity]|].
    rewrite Rabs_pos_eq by lra. change (bpow radix2 35) with 34359738368. lra. }
  assert (Ry : (m' + p) * (1 - u) - u * u <= y <= (m' + p) * (1 + u) + u * u) by (apply abs32; lra).
  assert (y0 : 0 <= y) by (apply pos32; lra).
  assert (Ew : w = m + z) by reflexivity.
  assert (w0 : 0 <= w) by lra.
  assert (w1 : w <= 2147479552). { assert (z <= v * 1) by (apply Rmult_le_compat_l; lra). lra. }
  assert (Uy : y <= w * (1 + 64 / 10 * u) + u * u).
  { assert (m' + p <= w * (1 + 53 / 10 * u)) by (rewrite Ew; lra).
    assert ((m' + p) * (1 + u) <= w * (1 + 64 / 10 * u)) by (apply (scale_up (m' + p) w _ (1 + 53 / 10 * u) (1 + u)); lra). lra. }
  assert (Ly : w * (1 - 54 / 10 * u) - u * u <= y).
  { assert (w * (1 - 43 / 10 * u) <= m' + p) by (rewrite Ew; lra).
    assert (w * (1 - 54 / 10 * u) <= (m' + p) * (1 - u)) by (apply (scale_dn (m' + p) w _ (1 - 43 / 10 * u) (1 - u)); lra). lra. }
  (* plus remainder *)
  set (e := rnd32 (y + r)).
  assert (Fe : fin (el_float mn total var o rem) e).
  { apply (plus_fin _ _ _ _ _ _ _ _ 37%Z Fy Fr); [vm_compute; split; [discriminate|reflexivity]|].
    rewrite Rabs_pos_eq by lra. change (bpow radix2 37) with 137438953472. lra. }
  assert (Re : (y + r) * (1 - u) - u * u <= e <= (y + r) * (1 + u) + u * u) by (apply abs32; lra).
  assert (e0 : 0 <= e) by (apply pos32; lra).
  assert (Be : w * (1 - 8 * u) + r - 2 * u <= e <= w * (1 + 8 * u) + r + 2 * u).
  { assert (y * (1 + u) <= (w * (1 + 64 / 10 * u) + u * u) * (1 + u)) by (apply Rmult_le_compat_r; lra).
    assert (w * ((1 + 64 / 10 * u) * (1 + u)) <= w * (1 + 8 * u)) by (apply Rmult_le_compat_l; lra).
    assert ((w * (1 - 54 / 10 * u) - u * u) * (1 - u) <= y * (1 - u)) by (apply Rmult_le_compat_r; lra).
    assert (w * (1 - 8 * u) <= w * ((1 - 54 / 10 * u) * (1 - u))) by (apply Rmult_le_compat_l; lra).
    split; lra. }
  exists e. split; [exact Fe|]. split; [exact Be|]. split; [exact e0|].
  assert (Fl : (0 <= Zfloor e < 2 ^ 31)%Z).
  { split; [apply Zfloor_lub; lra|]. apply lt_IZR. apply Rle_lt_trans with (1 := Zfloor_lb e).
    change (2 ^ 31)%Z with 2147483648%Z. lra. }
  split.
  { rewrite (trunc_fin _ _ _ _ Fe) by lra. cbn [to_int]. unfold int_op, in_i32. destruct (_ && _) eqn:E; [reflexivity|lia]. }
  pose proof (Zfloor_lb e) as Lb. pose proof (Zfloor_ub e) as Ub.
  assert (Fz : fin (f32_of_Z (Zfloor e)) (IZR (Zfloor e))).
  { destruct (Z_le_gt_dec (Zfloor e) 16777216) as [Hs|Hs].
    - apply of_Z_exact. change (2 ^ prec32)%Z with 16777216%Z. rewrite Z.abs_eq by lia. exact Hs.
    - assert (Ei : IZR (Zfloor e) = e) by (apply big_int; [apply (fin_fmt _ _ _ _ Fe)|assert (H := IZR_lt 16777216 (Zfloor e) ltac:(lia)); lra]).
      rewrite <- (rnd_id prec32 emax32 (IZR (Zfloor e))) by (rewrite Ei; apply (fin_fmt _ _ _ _ Fe)).
      apply of_Z_fin with (k := 31%Z); [vm_compute; split; [discriminate|reflexivity]|lia]. }
  assert (Fs : fmt32 (e - IZR (Zfloor e))) by (apply frac_exact; [apply (fin_fmt _ _ _ _ Fe)|lra]).
  rewrite <- (rnd_id prec32 emax32 _ Fs).
  apply (minus_fin _ _ _ _ _ _ _ _ 1%Z Fe Fz); [vm_compute; split; [discriminate|reflexivity]|].
  rewrite Rabs_pos_eq by lra. change (bpow radix2 1) with 2. lra.
Qed.
Local Open Scope Z_scope.

Lemma IZR_rough mn var total o k : (0 < total)%Z ->
  (Rabs (IZR k - (IZR mn + IZR var * (IZR o / IZR total))) * 1000000 < 2000000 + (IZR mn + IZR var * (IZR o / IZR total)))%R ->
  roughly_share mn var total o k.
Proof.
  intros Ht H. unfold roughly_share. apply lt_IZR. rewrite plus_IZR, !mult_IZR, abs_IZR, minus_IZR, !plus_IZR, !mult_IZR.
  assert (T0 := IZR_lt _ _ Ht).
  assert (E : (IZR mn * IZR total + IZR var * IZR o)%R = ((IZR mn + IZR var * (IZR o / IZR total)) * IZR total)%R) by (field; lra).
  rewrite E. rewrite <- Rmult_minus_distr_r, Rabs_mult, (Rabs_pos_eq (IZR total)) by lra.
  set (w := (IZR mn + IZR var * (IZR o / IZR total))%R) in *.
  apply (Rmult_lt_compat_r (IZR total)) in H; [|exact T0]. lra.
Qed.

Lemma loop_any mn total var : 0 <= mn -> 0 <= var -> mn + var <= 2147479552 -> 1 <= total < 2 ^ 31 ->
  forall os rem r (l : bytes), Forall oracle16 os -> Forall (fun o => o <= total) os -> fin rem r -> (0 <= r < 1)%R ->
  (exists cs rest, unbounded_loop mn total var os rem l = (Ok cs, rest) /\ l = concat cs ++ rest
     /\ Forall2 (fun o c => roughly_share mn var total o (zlen c)) os cs
     /\ (let W := (IZR (zlen os) * IZR mn + IZR var * (IZR (sum os) / IZR total))%R in
         W * (1 - 8 * u) + r - 1 - IZR (zlen os) * (2 * u) <= IZR (zlen (concat cs)))%R)
  \/ exists rest, unbounded_loop mn total var os rem l = (OutOfData, rest).
Proof.
  intros Hm Hv Hmv Ht. induction os as [|o os IH]; intros rem r l Hos Hot Fr Hr.
  - left. exists [], l. split; [reflexivity|]. split; [reflexivity|]. split; [constructor|].
    cbn [sum fold_right concat]. change (zlen (@nil byte)) with 0. change (zlen (@nil Z)) with 0. cbv zeta.
    replace (IZR 0 * IZR mn + IZR var * (IZR 0 / IZR total))%R with 0%R by (unfold Rdiv; ring). lra.
  - assert (Ho := Forall_inv Hos). assert (Ho' := Forall_inv Hot). cbv beta in Ho'.
    apply Forall_inv_tail in Hos. apply Forall_inv_tail in Hot.
    destruct (el_step_any mn total var o rem r Hm Hv Hmv Ht Ho Ho' Fr Hr) as (e & Fe & Be & Pe & Ti & Fs).
    set (k := Zfloor e) in *. assert (Lb := Zfloor_lb e). assert (Ub := Zfloor_ub e). fold k in Lb, Ub.
    assert (K0 : 0 <= k) by (apply Zfloor_lub; exact Pe).
    assert (K1 : k < 2 ^ 31).
    { revert Ti. unfold to_int, int_op, in_i32. destruct (Btrunc_Z _); [|discriminate].
      destruct (_ && _) eqn:E0; [|discriminate]. intros [= ->]. lia. }
    cbn [unbounded_loop]. fold (el_float mn total var o rem). rewrite (bind_lift_ok _ _ _ _ Ti). fold k. rewrite u64_id by lia.
    destruct (Z_lt_le_dec (zlen l) k) as [L|L].
    + right. exists l. apply bind_ood. apply list_chop_ood. exact L.
    + destruct (list_split l k ltac:(lia)) as (c & l' & -> & Ec).
      rewrite (bind_ok _ _ _ _ _ (list_chop c l' k (eq_sym Ec))).
      destruct (IH _ _ l' Hos Hot Fs ltac:(split; lra)) as [(cs & rest & Run & El & Hks & Bs)|(rest & Run)].
      * left. exists (c :: cs), rest. split; [rewrite (bind_ok _ _ _ _ _ Run); reflexivity|].
        split; [cbn [concat]; rewrite <- app_assoc, <- El; reflexivity|]. split.
        { constructor; [|exact Hks]. rewrite Ec. apply IZR_rough; [lia|].
          assert (M0 := IZR_le _ _ Hm). assert (V0 := IZR_le _ _ Hv). assert (T1 := IZR_le _ _ (proj1 Ht)). unfold oracle16 in Ho.
          assert (O0 := IZR_le _ _ (proj1 Ho)).
          assert (x0 : (0 <= IZR o / IZR total)%R) by (apply Rmult_le_pos; [lra|left; apply Rinv_0_lt_compat; lra]).
          assert (0 <= IZR var * (IZR o / IZR total))%R by (apply Rmult_le_pos; lra).
          set (w := (IZR mn + IZR var * (IZR o / IZR total))%R) in *. assert (w0 : (0 <= w)%R) by (unfold w; lra).
          assert (A : (Rabs (IZR k - w) <= w * (8 * u) + 1 + 4 * u)%R) by (apply Rabs_le; lra). lra. }
        { rewrite zlen_cons. cbn [sum fold_right concat]. fold (sum os). rewrite zlen_app, Ec. cbv zeta in Bs |- *.
          rewrite !plus_IZR. set (n := IZR (zlen os)) in *. set (s := IZR (sum os)) in *.
          assert (T1 := IZR_le _ _ (proj1 Ht)).
          replace ((n + 1) * IZR mn + IZR var * ((IZR o + s) / IZR total))%R
            with ((n * IZR mn + IZR var * (s / IZR total)) + (IZR mn + IZR var * (IZR o / IZR total)))%R by (field; lra).
          set (W := (n * IZR mn + IZR var * (s / IZR total))%R) in *.
          set (w := (IZR mn + IZR var * (IZR o / IZR total))%R) in *. lra. }
      * right. exists rest. apply bind_ood. exact Run.
Qed.

(** Up to 4 KiB less than 2 GiB. *)
Lemma any_size mn o os (l : bytes) : 0 <= mn < 2 ^ 31 -> oracle16 o -> Forall oracle16 os -> os <> [] ->
  let data := le16 o ++ concat (map le16 os) ++ l in
  mn <= zlen data <= 2147479552 -> zlen os = part_count mn (zlen data) o -> sum os < 2 ^ 31 ->
  (exists cs rest, vector_extract mn (-1) data = (Ok cs, rest) /\ l = concat cs ++ rest /\ 1000000 * zlen rest <= 2000000 + zlen l
    /\ Forall2 (fun w c => roughly_share mn (zlen l - mn * zlen os) (sum (weights os)) w (zlen c)) (weights os) cs)
  \/ exists rest, vector_extract mn (-1) data = (OutOfData, rest).
Proof.
  intros Hm Ho Hos Onil data Hl Hn Hs. destruct (to_the_loop mn o os l Hm Ho Hos Onil ltac:(fold data; lia) Hn Hs) as [V0 E].
  fold data in E.
  assert (Ld : zlen data = 2 + (2 * zlen os + zlen l)) by (unfold data; rewrite !zlen_app, le16_len, oracles_len; reflexivity).
  pose proof (zlen_nonneg l) as L0. pose proof (zlen_nonneg os) as N0.
  assert (Bn : zlen os <= 65535). { rewrite Hn. apply part_count_le; [lia|lia|exact Ho]. }
  assert (N1 : 1 <= zlen os) by (destruct os; [congruence|rewrite zlen_cons; pose proof (zlen_nonneg os); lia]).
  destruct (weights_any os Hos Onil Bn Hs) as (Wo & Ws & Wl).
  set (V := zlen l - mn * zlen os) in *. assert (MV : mn + V <= 2147479552) by (unfold V; nia).
  assert (F0 : fin (f32_of_Z 0) 0%R) by (apply of_Z_exact; change (2 ^ prec32) with 16777216; lia).
  destruct (loop_any mn (sum (weights os)) V ltac:(lia) V0 MV Ws (weights os) (f32_of_Z 0) 0%R l Wo) as [(cs & rest & Run & El & H2 & Bk)|(rest & Run)].
  { apply Forall_forall. intros a Ha. apply (sum_in _ _ Wo Ha). }
  { exact F0. } { lra. }
  - left. exists cs, rest. split; [rewrite E; exact Run|]. split; [exact El|]. split; [|exact H2].
    rewrite Wl in Bk. cbv zeta in Bk.
    assert (EW : (IZR (zlen os) * IZR mn + IZR V * (IZR (sum (weights os)) / IZR (sum (weights os))))%R = IZR (zlen l)).
    { assert (T1 := IZR_le _ _ (proj1 Ws)). replace (IZR (sum (weights os)) / IZR (sum (weights os)))%R with 1%R by (field; lra).
      unfold V. rewrite minus_IZR, mult_IZR. ring. }
    rewrite EW in Bk. assert (N2 : (0 <= IZR (zlen os) <= 65535)%R) by (split; apply IZR_le; lia).
    assert (Ll : zlen l = zlen (concat cs) + zlen rest) by (rewrite El at 1; apply zlen_app).
    apply le_IZR. rewrite plus_IZR, mult_IZR. apply (f_equal IZR) in Ll. rewrite plus_IZR in Ll.
    assert (P := IZR_le _ _ L0). lra.
  - right. exists rest. rewrite E. exact Run.
Qed.

(** ** A minSize() that is not a float *)
Lemma rnd_down : rnd32 (IZR 16777217) = 16777216%R.
Proof.
  assert (K : 0 <= 25 < emax32) by (vm_compute; split; [discriminate|reflexivity]).
  destruct (of_Z_fin prec32 emax32 prec32_gt_0 prec32_lt_emax 16777217 25 K ltac:(lia)) as [_ E1].
  destruct (of_Z_fin prec32 emax32 prec32_gt_0 prec32_lt_emax 16777216 25 K ltac:(lia)) as [_ E2].
  rewrite <- E1. rewrite <- (SF2R_B2SF prec32 emax32).
  replace (B2SF (binary_normalize prec32 emax32 prec32_gt_0 prec32_lt_emax mode_NE 16777217 0 false))
    with (B2SF (binary_normalize prec32 emax32 prec32_gt_0 prec32_lt_emax mode_NE 16777216 0 false)) by (vm_compute; reflexivity).
  rewrite SF2R_B2SF, E2. apply rnd_id. apply (even_fmt 16777216); [lia|reflexivity].
Qed.

Lemma undershoot w : 1 <= w <= 65535 -> to_int (Btrunc_Z (el_float 16777217 w 0 w (f32_of_Z 0))) = Ok 16777216.
Proof.
  intros Hw.
  assert (EX : forall z, Z.abs z <= 16777216 -> fin (f32_of_Z z) (IZR z)) by (intros; apply of_Z_exact; exact H).
  assert (Fw := EX w ltac:(lia)). assert (F0 := EX 0 ltac:(lia)). assert (W1 := IZR_le _ _ (proj1 Hw)).
  assert (Fq : fin (f32_div (f32_of_Z w) (f32_of_Z w)) 1%R).
  { rewrite <- (rnd32_int 1) by lia. replace (IZR 1) with (IZR w / IZR w)%R by (field; lra).
    apply (div_fin _ _ _ _ _ _ _ _ 1 Fw Fw); [intros X; lra|vm_compute; split; [discriminate|reflexivity]|].
    replace (IZR w / IZR w)%R with 1%R by (field; lra). rewrite Rabs_pos_eq by lra. change (bpow radix2 1) with 2%R. lra. }
  assert (Fm : fin (f32_of_Z 16777217) 16777216%R).
  { rewrite <- rnd_down. apply of_Z_fin with (k := 25); [vm_compute; split; [discriminate|reflexivity]|lia]. }
  assert (Fp : fin (f32_mul (f32_div (f32_of_Z w) (f32_of_Z w)) (f32_of_Z 0)) 0%R).
  { rewrite <- (rnd32_int 0) by lia. replace (IZR 0) with (1 * 0)%R by (cbn; lra).
    apply (mult_fin _ _ _ _ _ _ _ _ 1 Fq F0); [vm_compute; split; [discriminate|reflexivity]|].
    rewrite Rmult_1_l, Rabs_R0. apply bpow_ge_0. }
  assert (Es : fmt32 16777216%R) by (apply (even_fmt 16777216); [lia|reflexivity]).
  assert (ADD : forall x y, fin x 16777216%R -> fin y 0%R -> fin (f32_add x y) 16777216%R).
  { intros x y Fx Fy. rewrite <- (rnd_id prec32 emax32 _ Es). replace 16777216%R with (16777216 + 0)%R by lra.
    apply (plus_fin _ _ _ _ _ _ _ _ 25 Fx Fy); [vm_compute; split; [discriminate|reflexivity]|].
    rewrite Rplus_0_r, Rabs_pos_eq by lra. change (bpow radix2 25) with 33554432%R. lra. }
  assert (Fe : fin (el_float 16777217 w 0 w (f32_of_Z 0)) 16777216%R) by (apply ADD; [apply ADD; assumption|exact F0]).
  rewrite (trunc_fin _ _ _ _ Fe) by lra. change 16777216%R with (IZR 16777216). rewrite Zfloor_IZR. reflexivity.
Qed.

Lemma min_missed o o' (c : bytes) x : oracle16 o -> oracle16 o' -> zlen c = 16777216 ->
  vector_extract 16777217 (-1) (le16 o ++ le16 o' ++ c ++ [x]) = (Ok [c], [x]).
Proof.
  intros Ho Ho' Hc. set (l := c ++ [x]). assert (Ll : zlen l = 16777217) by (unfold l; rewrite zlen_app, Hc; reflexivity).
  assert (Ld : zlen (le16 o ++ concat (map le16 [o']) ++ l) = 16777221) by (cbn [map concat]; rewrite app_nil_r, !zlen_app, !le16_len, Ll; reflexivity).
  assert (Pc : part_count 16777217 16777221 o = 1).
  { unfold part_count. change (parts 16777217 16777221) with 1. unfold oracle16 in Ho. rewrite Z.mul_1_l.
    destruct (Z.eq_dec o 65535) as [->|N]; [reflexivity|]. rewrite (Z.div_small o) by lia. reflexivity. }
  assert (S1 : sum [o'] = o') by (unfold sum; cbn [fold_right]; lia). unfold oracle16 in Ho'.
  destruct (to_the_loop 16777217 o [o'] l ltac:(lia) Ho ltac:(repeat constructor; apply Ho') ltac:(discriminate) ltac:(rewrite Ld; lia) ltac:(rewrite Ld, Pc; reflexivity) ltac:(lia)) as [_ E].
  cbn [map concat] in E. rewrite app_nil_r in E. rewrite E. clear E. rewrite Ll. change (zlen [o']) with 1. change (16777217 - 16777217 * 1) with 0.
  set (w := if o' =? 0 then 1 else o'). assert (Hw : 1 <= w <= 65535) by (unfold w; destruct (o' =? 0) eqn:E; lia).
  replace (weights [o']) with [w] by (unfold weights, w; rewrite S1; destruct (o' =? 0); reflexivity).
  replace (sum [w]) with w by (unfold sum; cbn [fold_right]; lia).
  cbn [unbounded_loop]. fold (el_float 16777217 w 0 w (f32_of_Z 0)). rewrite (bind_lift_ok _ _ _ _ (undershoot w Hw)). rewrite u64_id by lia.
  unfold l. rewrite (bind_ok _ _ _ _ _ (list_chop c [x] 16777216 (eq_sym Hc))). reflexivity.
Qed.

Lemma layout_ex mn (l : bytes) : 0 <= mn -> 2 <= zlen l ->
  exists o os r, l = le16 o ++ concat (map le16 os) ++ r /\ oracle16 o /\ Forall oracle16 os /\ zlen os = part_count mn (zlen l) o.
Proof.
  intros Hm Hl. destruct (list_oracle_ex l Hl) as (o & r & El & Ho).
  destruct (part_count_le mn (zlen l) o Hm Hl Ho) as [B1 B2].
  assert (Lr : zlen l = 2 + zlen r) by (rewrite El, zlen_app, le16_len; reflexivity).
  destruct (oracles_ex (Z.to_nat (part_count mn (zlen l) o)) r ltac:(nia)) as (os & r2 & Er & Hos & Los).
  exists o, os, r2. rewrite <- Er. split; [exact El|]. split; [exact Ho|]. split; [exact Hos|]. unfold zlen at 1. lia.
Qed.
