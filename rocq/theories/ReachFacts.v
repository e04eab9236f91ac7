(** Choosing the oracles of a GalleyVector over unbounded stamps so that the parts get given sizes. *)
From Coq Require Import ZArith Reals Lia Lra.
From Flocq Require Import Core.Core IEEE754.BinarySingleNaN.
From Verif Require Import Base BaseFacts FloatModel FloatFacts Oracle OracleFacts Arithm Sim Galley VectorSpec VectorFacts VectorFloat VectorUnbounded.
Local Open Scope Z_scope.

(** ** One part: exactly the data *)
Lemma el_one mn var : 0 <= mn -> 0 <= var -> mn + var <= 2097152 ->
  to_int (Btrunc_Z (el_float mn 1 var 1 (f32_of_Z 0))) = Ok (mn + var).
Proof.
  intros Hm Hv Hmv.
  assert (EX : forall z, 0 <= z <= 2097152 -> fin (f32_of_Z z) (IZR z)) by (intros z Hz; apply of_Z_exact; change (2 ^ prec32) with 16777216; lia).
  assert (RI : forall z, 0 <= z <= 2097152 -> rnd32 (IZR z) = IZR z) by (intros z Hz; apply rnd_id, fmt32_int; lia).
  assert (PB : forall z, 0 <= z <= 2097152 -> (Rabs (IZR z) <= bpow radix2 25)%R).
  { intros z Hz. rewrite Rabs_pos_eq by (apply IZR_le; lia). change (bpow radix2 25) with 33554432%R. apply IZR_le. lia. }
  assert (K : 0 <= 25 < emax32) by (vm_compute; split; [discriminate|reflexivity]).
  assert (F1 : fin (f32_div (f32_of_Z 1) (f32_of_Z 1)) 1%R).
  { pose proof (div_fin _ _ _ _ _ _ _ _ 25 (EX 1 ltac:(lia)) (EX 1 ltac:(lia)) ltac:(lra) K) as F. replace (1 / 1)%R with 1%R in F by field.
    rewrite (RI 1) in F by lia. apply F. apply (PB 1). lia. }
  assert (F2 : fin (f32_mul (f32_div (f32_of_Z 1) (f32_of_Z 1)) (f32_of_Z var)) (IZR var)).
  { pose proof (mult_fin _ _ _ _ _ _ _ _ 25 F1 (EX var ltac:(lia)) K) as F. rewrite Rmult_1_l, (RI var) in F by lia. apply F. apply PB. lia. }
  assert (F3 : fin (f32_add (f32_of_Z mn) (f32_mul (f32_div (f32_of_Z 1) (f32_of_Z 1)) (f32_of_Z var))) (IZR (mn + var))).
  { pose proof (plus_fin _ _ _ _ _ _ _ _ 25 (EX mn ltac:(lia)) F2 K) as F. rewrite <- plus_IZR, (RI (mn + var)) in F by lia. apply F. apply PB. lia. }
  assert (F4 : fin (el_float mn 1 var 1 (f32_of_Z 0)) (IZR (mn + var))).
  { pose proof (plus_fin _ _ _ _ _ _ _ _ 25 F3 (EX 0 ltac:(lia)) K) as F. rewrite Rplus_0_r, (RI (mn + var)) in F by lia. apply F. apply PB. lia. }
  rewrite (trunc_fin _ _ _ _ F4) by (apply IZR_le; lia). rewrite Zfloor_IZR. cbn [to_int]. unfold int_op, in_i32. destruct (_ && _) eqn:E; [reflexivity|lia].
Qed.

(** ** Several parts: total = 2 * var; the running sums of the sizes lie halfway between integers *)
Lemma loop_cons mn total var o os rem k (c l : bytes) cs l' : to_int (Btrunc_Z (el_float mn total var o rem)) = Ok k -> zlen c = k -> k < 2 ^ 31 ->
  unbounded_loop mn total var os (f32_sub (el_float mn total var o rem) (f32_of_Z k)) l = (Ok cs, l') ->
  unbounded_loop mn total var (o :: os) rem (c ++ l) = (Ok (c :: cs), l').
Proof.
  intros Ti Hc Hk E. pose proof (zlen_nonneg c). cbn [unbounded_loop]. fold (el_float mn total var o rem). rewrite (bind_lift_ok _ _ _ _ Ti). cbv zeta.
  rewrite u64_id by lia. rewrite (bind_ok _ _ _ _ _ (list_chop c l k (eq_sym Hc))). rewrite (bind_ok _ _ _ _ _ E). reflexivity.
Qed.

Lemma half_share mn var o : (0 < var)%Z -> (IZR mn + IZR var * (IZR o / IZR (2 * var)))%R = (IZR mn + IZR o / 2)%R.
Proof. intros H. rewrite mult_IZR. apply IZR_lt in H. field. lra. Qed.

Lemma loop_mids mn var : 0 <= mn -> 0 < var -> mn + var <= 2097152 -> forall ks kn rem r,
  Forall (fun k => mn <= k /\ 2 * (k - mn) <= 65535 /\ k - mn <= var) ks -> mn + 1 <= kn -> 2 * (kn - mn) <= 65535 -> kn - mn <= var ->
  fin rem r -> (0 <= r < 1)%R -> (Rabs (r - / 2) + (IZR (sum ks + kn) * 7 + IZR (zlen ks + 1) * 2) * u <= / 4)%R ->
  exists k', (k' = kn \/ k' = kn - 1) /\ forall cs c rest, map zlen cs = ks -> zlen c = k' ->
    unbounded_loop mn (2 * var) var (map (fun k => 2 * (k - mn)) ks ++ [2 * (kn - mn) - 1]) rem (concat cs ++ c ++ rest) = (Ok (cs ++ [c]), rest).
Proof.
  intros Hm Hv Hmv. induction ks as [|k ks IH]; intros kn rem r Hks Hkn Hkn2 Hkn3 Fr Hr Be.
  - destruct (el_step mn (2 * var) var (2 * (kn - mn) - 1) rem r Hm ltac:(lia) Hmv ltac:(lia) ltac:(lia) ltac:(lia) Fr Hr) as (e & Fe & B & Me & Ti & _).
    rewrite half_share in B by lia.
    assert (W : (IZR mn + IZR (2 * (kn - mn) - 1) / 2)%R = (IZR kn - / 2)%R) by (rewrite minus_IZR, mult_IZR, minus_IZR; field).
    rewrite W in B. cbn [sum fold_right] in Be. change (zlen []) with 0 in Be. rewrite !Z.add_0_l in Be.
    assert (K0 : (1 <= IZR kn)%R) by (apply IZR_le; lia).
    assert (A : (Rabs (r - / 2) <= / 4 - IZR kn * 7 * u - 2 * u)%R) by lra. apply Rabs_le_inv in A.
    exists (Zfloor e). split.
    + assert (A1 : kn - 2 < Zfloor e).
      { assert (kn - 1 <= Zfloor e) by (apply Zfloor_lub; rewrite minus_IZR; lra). lia. }
      assert (A2 : Zfloor e < kn + 1) by (apply lt_IZR; rewrite plus_IZR; apply Rle_lt_trans with (1 := Zfloor_lb e); lra). lia.
    + intros [|? ?] c rest E Hc; [|discriminate E]. cbn [map concat app].
      assert (Kb : Zfloor e < 2 ^ 31).
      { apply lt_IZR. apply Rle_lt_trans with (1 := Zfloor_lb e). assert (IZR kn <= 2097152)%R by (apply IZR_le; lia). change (2 ^ 31) with 2147483648. lra. }
      apply (loop_cons _ _ _ _ _ _ _ _ _ _ _ Ti Hc Kb). reflexivity.
  - destruct (Forall_inv Hks) as (Hk1 & Hk2 & Hk3). apply Forall_inv_tail in Hks.
    destruct (el_step mn (2 * var) var (2 * (k - mn)) rem r Hm ltac:(lia) Hmv ltac:(lia) ltac:(lia) ltac:(lia) Fr Hr) as (e & Fe & B & Me & Ti & Fs).
    rewrite half_share in B by lia.
    assert (W : (IZR mn + IZR (2 * (k - mn)) / 2)%R = IZR k) by (rewrite mult_IZR, minus_IZR; field). rewrite W in B.
    cbn [sum fold_right] in Be. fold (sum ks) in Be. rewrite zlen_cons in Be. rewrite !plus_IZR in Be.
    assert (K0 : (0 <= IZR k)%R) by (apply IZR_le; lia). assert (KN : (0 <= IZR kn)%R) by (apply IZR_le; lia).
    assert (S0 : (0 <= IZR (sum ks))%R).
    { apply IZR_le. clear - Hks Hm. induction Hks as [|a ks H Hks IHk]; [change (@zlen Z []) with 0; cbn [map sum fold_right]; lia|]. cbn [sum fold_right]. fold (sum ks). lia. }
    assert (N0 : (0 <= IZR (zlen ks))%R) by (apply IZR_le, zlen_nonneg).
    assert (A : (Rabs (r - / 2) <= / 4 - ((IZR k + IZR (sum ks) + IZR kn) * 7 + (1 + IZR (zlen ks) + 1) * 2) * u)%R) by lra.
    assert (E : Zfloor e = k).
    { apply Rabs_le_inv in A. apply Zfloor_imp. rewrite plus_IZR. split; lra. }
    rewrite E in Ti, Fs.
    assert (A' : (Rabs (e - IZR k - / 2) <= Rabs (r - / 2) + (IZR k * 7 + 2) * u)%R).
    { replace (e - IZR k - / 2)%R with ((r - / 2) + (e - IZR k - r))%R by ring. apply Rle_trans with (1 := Rabs_triang _ _). apply Rplus_le_compat_l. apply Rabs_le. lra. }
    destruct (IH kn _ _ Hks Hkn Hkn2 Hkn3 Fs) as (k' & Hk' & Run).
    { pose proof (Rabs_le_inv _ _ A). split; lra. }
    { rewrite !plus_IZR. lra. }
    exists k'. split; [exact Hk'|]. intros cs c rest Ec Hc. destruct cs as [|c1 cs]; [discriminate Ec|]. cbn [map] in Ec. injection Ec as Ec1 Ec.
    cbn [map concat app]. rewrite <- app_assoc.
    assert (Kb : k < 2 ^ 31) by lia.
    apply (loop_cons _ _ _ _ _ _ _ _ _ _ _ Ti Ec1 Kb). exact (Run cs c rest Ec Hc).
Qed.

(** ** The whole vector *)
(** Oracles for parts of sizes [ks], the last one possibly a byte smaller. *)
Definition wanted (mn : Z) (ks : list Z) (kn : Z) : list Z :=
  match ks with
  | [] => [1]
  | k :: ks' => 2 * (k - mn) + 1 :: map (fun k => 2 * (k - mn)) ks' ++ [2 * (kn - mn) - 1]
  end.

Lemma sum_map_app (f : Z -> Z) l m : sum (map f l ++ m) = sum (map f l) + sum m.
Proof. apply sum_app. Qed.

Lemma wanted_sum mn ks kn : ks <> [] -> sum (wanted mn ks kn) = 2 * (sum ks + kn - mn * (zlen ks + 1)).
Proof.
  destruct ks as [|k ks]; [congruence|intros _]. unfold wanted. cbn [sum fold_right]. fold (sum (map (fun k => 2 * (k - mn)) ks ++ [2 * (kn - mn) - 1])). fold (sum ks).
  rewrite sum_map_app. cbn [sum fold_right].
  assert (E : sum (map (fun k => 2 * (k - mn)) ks) = 2 * (sum ks - mn * zlen ks)).
  { clear. induction ks as [|a ks IH]; [change (@zlen Z []) with 0; cbn [map sum fold_right]; lia|]. cbn [map sum fold_right]. fold (sum (map (fun k => 2 * (k - mn)) ks)). fold (sum ks). rewrite zlen_cons. lia. }
  rewrite E, zlen_cons. lia.
Qed.

Lemma wanted_len mn ks kn : zlen (wanted mn ks kn) = zlen ks + 1.
Proof.
  destruct ks as [|k ks]; [reflexivity|]. unfold wanted. rewrite !zlen_cons, zlen_app, zlen_map. change (zlen [2 * (kn - mn) - 1]) with 1. lia.
Qed.

Lemma count_for N n : 1 <= n <= N -> N <= 65535 -> exists o, oracle16 o /\ Z.min N (N * o / 65535 + 1) = n.
Proof.
  intros Hn HN. set (o := ((n - 1) * 65535 + (N - 1)) / N).
  assert (B := Z.mul_div_le ((n - 1) * 65535 + (N - 1)) N ltac:(lia)). fold o in B.
  assert (C := Z.mul_succ_div_gt ((n - 1) * 65535 + (N - 1)) N ltac:(lia)). fold o in C. unfold Z.succ in C. rewrite Z.mul_add_distr_l in C.
  exists o. assert (E : N * o / 65535 = n - 1).
  { symmetry. apply (Z.div_unique_pos _ _ _ (N * o - 65535 * (n - 1))); lia. }
  split; [|rewrite E; lia]. split; [apply Z.div_pos; lia|]. apply Z.div_le_upper_bound; nia.
Qed.

Lemma vector_start mn o os (l : bytes) : 0 <= mn < 2 ^ 31 - 4 -> oracle16 o -> Forall oracle16 os -> os <> [] -> zlen os <= 32768 ->
  let data := le16 o ++ concat (map le16 os) ++ l in
  mn * zlen os <= zlen l -> zlen data <= 2097152 -> parts mn (zlen data) <= 65534 -> Z.min (parts mn (zlen data)) (parts mn (zlen data) * o / 65535 + 1) = zlen os ->
  vector_extract mn (-1) data = unbounded_loop mn (sum (weights os)) (zlen l - mn * zlen os) (weights os) (f32_of_Z 0) l.
Proof.
  intros Hm Ho Hos Onil Los data Hl Hd Hp Hc.
  assert (Ld : zlen data = 2 + (2 * zlen os + zlen l)) by (unfold data; rewrite !zlen_app, le16_len, oracles_len; reflexivity).
  assert (N1 : 1 <= zlen os) by (destruct os; [congruence|rewrite zlen_cons; pose proof (zlen_nonneg os); lia]).
  destruct (count_ok mn (zlen data) o ltac:(lia) ltac:(nia) ltac:(lia) Hp Ho) as (Ec & _). rewrite Hc in Ec.
  pose proof (sum_bound os Hos) as Bs.
  destruct (weights_ok os Hos Onil Los) as (Wo & Ws & Wl).
  assert (In1 : forall a, - 2 ^ 31 <= a < 2 ^ 31 -> int_op a = Ok a).
  { intros a Ha. unfold int_op, in_i32. destruct (_ && _) eqn:E; [reflexivity|lia]. }
  unfold vector_extract. cbn [Size ListOps]. rewrite u64_id by lia.
  destruct (zlen data <? mn) eqn:E0; [nia|]. unfold isFixedSize, isUnbounded.
  destruct (mn =? -1) eqn:E1; [lia|]. cbn [Z.eqb Pos.eqb].
  unfold vector_unbounded. rewrite bind_gets. cbn [Size ListOps]. unfold ORACLE_SIZE. rewrite u64_id by lia.
  destruct (mn + 2 =? 0) eqn:E2; [lia|].
  assert (EO : GetOracle data = (Ok o, concat (map le16 os) ++ l)) by (apply list_oracle; exact Ho).
  rewrite (bind_ok _ _ _ _ _ EO). rewrite Ec. cbv zeta.
  assert (ER : read_oracles (Z.to_nat (zlen os)) 0 (concat (map le16 os) ++ l) = (Ok (os, 0 + sum os), l)).
  { unfold zlen. rewrite Nat2Z.id. apply read_oracles_run; auto; lia. }
  rewrite (bind_ok _ _ _ _ _ ER). cbn [fst snd].
  rewrite Z.add_0_l. rewrite bind_gets. cbn [Size ListOps].
  fold (weights os). replace (if sum os =? 0 then zlen os else sum os) with (sum (weights os)).
  2:{ unfold weights. destruct (sum os =? 0); [rewrite sum_ones|]; reflexivity. }
  pose proof (zlen_nonneg l). rewrite (i32_id (zlen l)) by lia.
  rewrite (bind_lift_ok _ _ _ (mn * zlen os)) by (apply In1; nia).
  rewrite (bind_lift_ok _ _ _ (zlen l - mn * zlen os)) by (apply In1; nia).
  reflexivity.
Qed.

(** Any sizes from [mn] on, 32767 in all, with the last one at least mn + 1 unless it is the only one; the last part may
    turn out one byte smaller, unless it is the only one. *)
Lemma vector_reach_any mn ks kn : 0 <= mn -> zlen ks < 16384 -> Forall (fun k => mn <= k) ks -> mn <= kn -> (ks <> [] -> mn + 1 <= kn) -> sum ks + kn <= 32767 ->
  exists head k', zlen head = 4 + 2 * zlen ks /\ (k' = kn \/ (k' = kn - 1 /\ ks <> []))
    /\ forall cs c rest, map zlen cs = ks -> zlen c = k' -> zlen (c ++ rest) = kn -> vector_extract mn (-1) (head ++ concat cs ++ c ++ rest) = (Ok (cs ++ [c]), rest).
Proof.
  intros Hm Hn16 Hks Hkn Hkn' Hs. pose proof (zlen_nonneg ks) as N0.
  assert (SL : mn * zlen ks <= sum ks).
  { clear - Hks. induction Hks as [|k ks H Hks IH]; [change (@zlen Z []) with 0; cbn [map sum fold_right]; lia|]. cbn [sum fold_right]. fold (sum ks). rewrite zlen_cons. lia. }
  set (n := zlen ks + 1). set (D := 2 + 2 * n + (sum ks + kn)).
  assert (Pn : n <= parts mn D <= 32767).
  { unfold parts, D, n. split; [apply Z.div_le_lower_bound; lia|]. apply Z.lt_succ_r, Z.div_lt_upper_bound; [lia|]. nia. }
  destruct (count_for (parts mn D) n ltac:(lia) ltac:(lia)) as (o & Ho & Ec).
  set (os := wanted mn ks kn). assert (Los : zlen os = n) by apply wanted_len.
  assert (Bk : Forall (fun k => mn <= k /\ k <= 32767) ks /\ Forall (fun k => k - mn <= sum ks - mn * zlen ks) ks).
  { assert (X : sum ks <= 32767) by lia. revert X SL. clear - Hks Hm. induction Hks as [|k ks H Hks IH]; [split; constructor|].
    cbn [sum fold_right]. fold (sum ks). rewrite zlen_cons. intros X SL.
    assert (Y : mn * zlen ks <= sum ks) by (clear - Hks; induction Hks as [|k ks H Hks IH]; [change (@zlen Z []) with 0; cbn [map sum fold_right]; lia|]; cbn [sum fold_right]; fold (sum ks); rewrite zlen_cons; lia).
    pose proof (zlen_nonneg ks). destruct (IH ltac:(lia) ltac:(lia)) as [I1 I2]. split; constructor; try lia; try assumption. eapply Forall_impl; [|exact I2]. cbv beta. intros a Ha. lia. }
  destruct Bk as [Bk Bk2].
  assert (Oos : Forall oracle16 os).
  { unfold os, wanted. destruct ks as [|k ks]; [repeat constructor; unfold oracle16; lia|]. specialize (Hkn' ltac:(discriminate)).
    pose proof (Forall_inv Bk) as B1. cbv beta in B1. apply Forall_inv_tail in Bk. cbn [sum fold_right] in Hs. fold (sum ks) in Hs.
    assert (0 <= sum ks) by (clear - Bk Hm; induction Bk; [change (@zlen Z []) with 0; cbn [map sum fold_right]; lia|]; cbn [sum fold_right]; fold (sum l); lia).
    constructor; [unfold oracle16; lia|]. apply Forall_app. split; [|repeat constructor; unfold oracle16; lia].
    apply Forall_map. eapply Forall_impl; [|exact Bk]. cbv beta. unfold oracle16. intros; lia. }
  assert (Onil : os <> []) by (unfold os, wanted; destruct ks; discriminate).
  exists (le16 o ++ concat (map le16 os)).
  assert (ST : forall l : bytes, zlen l = sum ks + kn ->
    vector_extract mn (-1) ((le16 o ++ concat (map le16 os)) ++ l) = unbounded_loop mn (sum (weights os)) (sum ks + kn - mn * n) (weights os) (f32_of_Z 0) l).
  { intros l Hl. rewrite <- app_assoc.
    assert (ED : zlen (le16 o ++ concat (map le16 os) ++ l) = D) by (rewrite !zlen_app, le16_len, oracles_len; unfold D; lia).
    pose proof (vector_start mn o os l ltac:(lia) Ho Oos Onil ltac:(lia)) as V. cbv zeta in V. rewrite ED, Los, Hl in V. apply V; [unfold n; nia|unfold D; lia|lia|exact Ec]. }
  assert (HL : zlen (le16 o ++ concat (map le16 os)) = 4 + 2 * zlen ks) by (rewrite zlen_app, le16_len, oracles_len; unfold n in Los; lia).
  assert (F0 : fin (f32_of_Z 0) 0%R) by (apply of_Z_exact; change (2 ^ prec32) with 16777216; lia).
  destruct ks as [|k ks].
  - exists kn. split; [exact HL|]. split; [left; reflexivity|]. intros cs c rest Ecs Hc Hr. destruct cs; [|discriminate Ecs].
    change (concat [] ++ c ++ rest) with (c ++ rest).
    rewrite ST by (rewrite Hr; reflexivity). unfold os, wanted, n. change (weights [1]) with [1]. change (sum [1]) with 1. change (sum []) with 0. change (zlen []) with 0.
    rewrite Z.add_0_l. pose proof (el_one mn (kn - mn * (0 + 1)) ltac:(lia) ltac:(lia) ltac:(change (sum []) with 0 in Hs; lia)) as E1.
    replace (mn + (kn - mn * (0 + 1))) with kn in E1 by lia.
    assert (Kb : kn < 2 ^ 31) by (change (sum []) with 0 in Hs; lia).
    apply (loop_cons _ _ _ _ _ _ _ _ _ _ _ E1 Hc Kb). reflexivity.
  - specialize (Hkn' ltac:(discriminate)). set (V := sum (k :: ks) + kn - mn * n).
    assert (SW : sum os = 2 * V) by (unfold os; rewrite wanted_sum by discriminate; unfold V, n; lia).
    assert (V0 : 0 < V) by (unfold V, n; nia).
    assert (WW : weights os = os) by (unfold weights; rewrite SW; destruct (2 * V =? 0) eqn:Q; [lia|reflexivity]).
    rewrite WW, SW in ST. fold V in ST.
    assert (EV : V = (k + sum ks) + kn - mn * (zlen ks + 2)).
    { unfold V, n. rewrite zlen_cons. cbn [sum fold_right]. fold (sum ks). lia. }
    clearbody V.
    destruct (Forall_inv Bk) as [B1 B1']. pose proof (Forall_inv Bk2) as B2. cbv beta in B2. apply Forall_inv_tail in Bk. apply Forall_inv_tail in Bk2.
    rewrite zlen_cons in *. cbn [sum fold_right] in *. fold (sum ks) in *.
    assert (S0 : mn * zlen ks <= sum ks) by (clear - Bk; induction Bk as [|a ks H Bk IH]; [change (@zlen Z []) with 0; cbn [map sum fold_right]; lia|]; cbn [sum fold_right]; fold (sum ks); rewrite zlen_cons; lia).
    pose proof (zlen_nonneg ks) as N1.
    assert (MV : mn + V <= 2097152) by nia.
    destruct (el_step mn (2 * V) V (2 * (k - mn) + 1) (f32_of_Z 0) 0%R ltac:(lia) ltac:(lia) MV ltac:(lia) ltac:(lia) ltac:(nia) F0 ltac:(lra)) as (e & Fe & B & Me & Ti & Fs).
    rewrite half_share in B by lia.
    assert (W : (IZR mn + IZR (2 * (k - mn) + 1) / 2)%R = (IZR k + / 2)%R) by (rewrite plus_IZR, mult_IZR, minus_IZR; field). rewrite W in B.
    assert (R1 : (0 <= IZR k)%R) by (apply IZR_le; lia). assert (R2 : (0 <= IZR (sum ks))%R) by (apply IZR_le; lia). assert (R3 : (0 <= IZR kn)%R) by (apply IZR_le; lia).
    assert (R4 : (IZR k + IZR (sum ks) + IZR kn <= 32767)%R) by (rewrite <- !plus_IZR; apply IZR_le; lia).
    assert (R5 : (0 <= IZR (zlen ks) <= 32767)%R) by (split; apply IZR_le; nia).
    assert (E : Zfloor e = k) by (apply Zfloor_imp; rewrite plus_IZR; split; lra). rewrite E in Ti, Fs.
    assert (G1 : Forall (fun k => mn <= k /\ 2 * (k - mn) <= 65535 /\ k - mn <= V) ks).
    { apply Forall_forall. intros a Ha. rewrite Forall_forall in Bk, Bk2. specialize (Bk a Ha). specialize (Bk2 a Ha). cbv beta in Bk, Bk2. split; [lia|]. split; [lia|]. nia. }
    assert (G2 : (Rabs (e - IZR k - / 2) + (IZR (sum ks + kn) * 7 + IZR (zlen ks + 1) * 2) * u <= / 4)%R).
    { rewrite !plus_IZR. assert (Rabs (e - IZR k - / 2) <= (IZR k + / 2) * 7 * u + 2 * u)%R by (apply Rabs_le; lra). lra. }
    destruct (loop_mids mn V ltac:(lia) V0 MV ks kn _ _ G1 Hkn' ltac:(lia) ltac:(nia) Fs ltac:(split; lra) G2) as (k' & Hk' & Run).
    exists k'. split; [exact HL|]. split; [destruct Hk' as [->| ->]; [left; reflexivity|right; split; [reflexivity|discriminate]]|].
    intros cs c rest Ecs Hc Hr. destruct cs as [|c1 cs]; [discriminate Ecs|]. cbn [map] in Ecs. injection Ecs as Ec1 Ecs.
    rewrite ST.
    2:{ rewrite zlen_app, Hr, concat_sum. cbn [map sum fold_right]. fold (sum (map zlen cs)). rewrite Ec1, Ecs. reflexivity. }
    unfold os, wanted. cbn [concat app]. rewrite <- app_assoc.
    assert (Kb : k < 2 ^ 31) by lia.
    apply (loop_cons _ _ _ _ _ _ _ _ _ _ _ Ti Ec1 Kb). exact (Run cs c rest Ecs Hc).
Qed.

Lemma vector_reach mn ks kn : 10 <= mn < 100 -> Forall (fun k => mn <= k) ks -> mn <= kn -> (ks <> [] -> mn + 1 <= kn) -> sum ks + kn <= 32767 ->
  exists head k', zlen head = 4 + 2 * zlen ks /\ (k' = kn \/ (k' = kn - 1 /\ ks <> []))
    /\ forall cs c rest, map zlen cs = ks -> zlen c = k' -> zlen (c ++ rest) = kn -> vector_extract mn (-1) (head ++ concat cs ++ c ++ rest) = (Ok (cs ++ [c]), rest).
Proof.
  intros Hm Hks Hkn Hkn' Hs. apply vector_reach_any; try assumption; [lia|].
  assert (SL : mn * zlen ks <= sum ks).
  { clear - Hks. induction Hks as [|k ks H Hks IH]; [change (@zlen Z []) with 0; cbn [map sum fold_right]; lia|]. cbn [sum fold_right]. fold (sum ks). rewrite zlen_cons. lia. }
  nia.
Qed.
