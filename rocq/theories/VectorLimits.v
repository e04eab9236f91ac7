(** Where the guarantees of GalleyVector end. *)
From Coq Require Import ZArith Reals Lia Lra.
From Flocq Require Import Core.Core IEEE754.BinarySingleNaN.
From Verif Require Import Base BaseFacts FloatModel FloatFacts Oracle OracleFacts Arithm Sim Galley VectorSpec VectorFacts VectorFloat VectorUnbounded.
Local Open Scope Z_scope.

Lemma start_unbounded mn (l : bytes) : 0 <= mn < 2 ^ 31 -> mn <= zlen l < 2 ^ 63 ->
  vector_extract mn (-1) l = vector_unbounded mn l.
Proof.
  intros Hm Hl. unfold vector_extract. cbn [Size ListOps]. rewrite u64_id by lia.
  destruct (zlen l <? mn) eqn:E0; [lia|]. unfold isFixedSize, isUnbounded.
  destruct (mn =? -1) eqn:E1; [lia|]. reflexivity.
Qed.

Lemma step_unbounded mn o (l : bytes) : 0 <= mn < 2 ^ 31 -> oracle16 o -> mn <= zlen (le16 o ++ l) < 2 ^ 63 ->
  vector_unbounded mn (le16 o ++ l) =
  (let n := count_target mn (zlen (le16 o ++ l)) o in
   ot <- read_oracles (Z.to_nat n) 0 ;;
   let os := if snd ot =? 0 then map (fun _ => 1) (fst ot) else fst ot in
   let total := if snd ot =? 0 then n else snd ot in
   sz2 <- gets Size ;;
   let data_size := i32 sz2 in
   fixed_data_size <- lift (int_op (mn * n)) ;;
   var_data_size <- lift (int_op (data_size - fixed_data_size)) ;;
   unbounded_loop mn total var_data_size os (f32_of_Z 0)) l.
Proof.
  intros Hm Ho Hl. unfold vector_unbounded. rewrite bind_gets. cbn [Size ListOps]. unfold ORACLE_SIZE at 1.
  rewrite u64_id by lia. destruct (mn + 2 =? 0) eqn:E2; [lia|].
  rewrite (bind_ok _ _ _ _ _ (list_oracle o l Ho)). reflexivity.
Qed.

(** No parts: nothing but the count oracle is consumed. *)
Lemma no_parts mn o (l : bytes) : 0 <= mn < 2 ^ 31 -> oracle16 o -> mn <= zlen (le16 o ++ l) < 2 ^ 63 ->
  count_target mn (zlen (le16 o ++ l)) o = 0 -> vector_extract mn (-1) (le16 o ++ l) = (Ok [], l).
Proof.
  intros Hm Ho Hl Hc. rewrite start_unbounded, step_unbounded by assumption. rewrite Hc. cbv zeta.
  change (Z.to_nat 0) with 0%nat. cbn [read_oracles]. rewrite bind_ret. cbn [fst snd Z.eqb map].
  rewrite bind_gets. rewrite Z.mul_0_r.
  rewrite (bind_lift_ok _ _ _ 0) by reflexivity.
  rewrite (bind_lift_ok _ _ _ (i32 (Size l))); [reflexivity|].
  rewrite Z.sub_0_r. unfold int_op, in_i32. pose proof (i32_range (Size l)). destruct (_ && _) eqn:E; [reflexivity|lia].
Qed.

Lemma count_gap mn sz o : 0 <= mn < 2 ^ 31 -> oracle16 o -> 2 <= sz < mn + 4 -> count_target mn sz o = 0.
Proof.
  intros Hm Ho Hs. unfold count_target, ORACLE_SIZE. rewrite !u64_id by lia.
  rewrite (Z.div_small (sz - 2)) by lia. rewrite Z.mul_0_l. reflexivity.
Qed.

Lemma gap_unbounded mn (l : bytes) : 0 <= mn < 2 ^ 31 -> mn <= zlen l < mn + 4 -> 2 <= zlen l ->
  vector_extract mn (-1) l = (Ok [], skipn 2 l).
Proof.
  intros Hm Hl H2. destruct (list_oracle_ex l H2) as (o & r & -> & Ho).
  rewrite no_parts; auto; [lia|]. apply count_gap; auto. lia.
Qed.

Lemma gap_short mn (l : bytes) : 0 <= mn -> mn <= zlen l < 2 -> vector_extract mn (-1) l = (OutOfData, l).
Proof.
  intros Hm Hl. rewrite start_unbounded by lia. unfold vector_unbounded. rewrite bind_gets. cbn [Size ListOps]. unfold ORACLE_SIZE at 1.
  rewrite u64_id by lia. destruct (mn + 2 =? 0) eqn:E2; [lia|]. apply bind_ood. apply list_oracle_ood. lia.
Qed.

(** ** The part count wraps *)
Lemma count_wraps mn sz : 0 <= mn < 2 ^ 31 -> parts mn sz = 65535 -> 2 <= sz < 2 ^ 63 -> count_target mn sz 65535 = 0.
Proof.
  intros Hm Hp Hs. unfold count_target, ORACLE_SIZE. rewrite !u64_id by lia.
  unfold parts in Hp. rewrite Hp. reflexivity.
Qed.

(** ** The sum of the oracles overflows *)
Lemma read_oracles_ub os : forall t (l : bytes), Forall oracle16 os -> 0 <= t < 2 ^ 31 -> 2 ^ 31 <= t + sum os ->
  fst (read_oracles (length os) t (concat (map le16 os) ++ l)) = UB.
Proof.
  induction os as [|o os IH]; intros t l Hos Ht Hs; cbn [length read_oracles].
  - cbn [sum fold_right] in Hs. lia.
  - cbn [map concat]. rewrite <- app_assoc. cbn [sum fold_right] in *. fold (sum os) in *.
    pose proof (Forall_inv Hos) as Ho. apply Forall_inv_tail in Hos. unfold oracle16 in Ho.
    rewrite (bind_ok _ _ _ _ _ (list_oracle o _ Ho)).
    destruct (Z_lt_le_dec (t + o) (2 ^ 31)) as [H|H].
    + rewrite (bind_lift_ok _ _ _ (t + o)) by (unfold int_op, in_i32; destruct (_ && _) eqn:E; [reflexivity|lia]).
      unfold bind. specialize (IH (t + o) l Hos ltac:(lia) ltac:(lia)).
      destruct (read_oracles _ _ _) as [r b]. cbn [fst] in IH. subst r. reflexivity.
    + unfold int_op, in_i32. destruct (_ && _) eqn:E; [lia|]. reflexivity.
Qed.

Lemma oracles_overflow mn o os (l : bytes) : 0 <= mn < 2 ^ 31 -> oracle16 o -> Forall oracle16 os ->
  let data := le16 o ++ concat (map le16 os) ++ l in
  mn <= zlen data < 2 ^ 63 -> zlen os = count_target mn (zlen data) o -> 2 ^ 31 <= sum os ->
  fst (vector_extract mn (-1) data) = UB.
Proof.
  intros Hm Ho Hos data Hd Hn Hs. rewrite start_unbounded by assumption. unfold data in *.
  rewrite step_unbounded by assumption. rewrite <- Hn. cbv zeta.
  replace (Z.to_nat (zlen os)) with (length os) by (unfold zlen; lia).
  pose proof (read_oracles_ub os 0 l Hos ltac:(lia) ltac:(lia)) as R. unfold bind at 1.
  destruct (read_oracles _ _ _) as [r b]. cbn [fst] in R. subst r. reflexivity.
Qed.

(** ** Float rounding asks for more than there is *)
Lemma rnd_up : rnd32 (IZR 16777219) = 16777220%R.
Proof.
  assert (K : 0 <= 25 < emax32) by (vm_compute; split; [discriminate|reflexivity]).
  destruct (of_Z_fin prec32 emax32 prec32_gt_0 prec32_lt_emax 16777219 25 K ltac:(lia)) as [_ E1].
  destruct (of_Z_fin prec32 emax32 prec32_gt_0 prec32_lt_emax 16777220 25 K ltac:(lia)) as [_ E2].
  rewrite <- E1. rewrite <- (SF2R_B2SF prec32 emax32).
  replace (B2SF (binary_normalize prec32 emax32 prec32_gt_0 prec32_lt_emax mode_NE 16777219 0 false))
    with (B2SF (binary_normalize prec32 emax32 prec32_gt_0 prec32_lt_emax mode_NE 16777220 0 false)) by (vm_compute; reflexivity).
  rewrite SF2R_B2SF, E2. apply rnd_id.
  replace (IZR 16777220) with (IZR 4194305 * bpow radix2 2)%R by (change (bpow radix2 2) with 4%R; lra).
  apply fmt_scaled; [exact prec32_gt_0|vm_compute; discriminate|vm_compute; discriminate].
Qed.

Lemma even_fmt z : 0 <= z <= 33554432 -> Z.even z = true -> fmt32 (IZR z).
Proof.
  intros Hz He. apply Z.even_spec in He. destruct He as [k ->].
  rewrite mult_IZR, Rmult_comm. change (IZR 2) with (bpow radix2 1).
  apply fmt_scaled; [exact prec32_gt_0| |vm_compute; discriminate].
  change (2 ^ prec32) with 16777216. lia.
Qed.

Lemma overshoot mn w : 0 <= mn <= 1048576 -> Z.even mn = true -> 1 <= w <= 65535 ->
  to_int (Btrunc_Z (el_float mn w 16777219 w (f32_of_Z 0))) = Ok (mn + 16777220).
Proof.
  intros Hm He Hw.
  assert (EX : forall z, Z.abs z <= 16777216 -> fin (f32_of_Z z) (IZR z)) by (intros; apply of_Z_exact; exact H).
  assert (Fw := EX w ltac:(lia)). assert (Fm := EX mn ltac:(lia)). assert (F0 := EX 0 ltac:(lia)).
  assert (W1 := IZR_le _ _ (proj1 Hw)). assert (M0 := IZR_le _ _ (proj1 Hm)). assert (M1 := IZR_le _ _ (proj2 Hm)).
  assert (Fq : fin (f32_div (f32_of_Z w) (f32_of_Z w)) 1%R).
  { rewrite <- (rnd32_int 1) by lia. replace (IZR 1) with (IZR w / IZR w)%R by (field; lra).
    apply (div_fin _ _ _ _ _ _ _ _ 1 Fw Fw); [intros X; lra|vm_compute; split; [discriminate|reflexivity]|].
    replace (IZR w / IZR w)%R with 1%R by (field; lra). rewrite Rabs_pos_eq by lra. change (bpow radix2 1) with 2%R. lra. }
  assert (Fv : fin (f32_of_Z 16777219) 16777220%R).
  { rewrite <- rnd_up. apply of_Z_fin with (k := 25); [vm_compute; split; [discriminate|reflexivity]|lia]. }
  assert (E20 : fmt32 16777220%R) by (apply (even_fmt 16777220); [lia|reflexivity]).
  assert (Fp : fin (f32_mul (f32_div (f32_of_Z w) (f32_of_Z w)) (f32_of_Z 16777219)) 16777220%R).
  { rewrite <- (rnd_id prec32 emax32 _ E20). replace 16777220%R with (1 * 16777220)%R by lra.
    apply (mult_fin _ _ _ _ _ _ _ _ 25 Fq Fv); [vm_compute; split; [discriminate|reflexivity]|].
    rewrite Rabs_pos_eq by lra. change (bpow radix2 25) with 33554432%R. lra. }
  assert (Es : fmt32 (IZR (mn + 16777220))) by (apply even_fmt; [lia|rewrite Z.even_add, He; reflexivity]).
  assert (Fy : fin (f32_add (f32_of_Z mn) (f32_mul (f32_div (f32_of_Z w) (f32_of_Z w)) (f32_of_Z 16777219))) (IZR (mn + 16777220))).
  { rewrite <- (rnd_id prec32 emax32 _ Es). rewrite plus_IZR.
    apply (plus_fin _ _ _ _ _ _ _ _ 25 Fm Fp); [vm_compute; split; [discriminate|reflexivity]|].
    rewrite Rabs_pos_eq by lra. change (bpow radix2 25) with 33554432%R. lra. }
  assert (Fe : fin (el_float mn w 16777219 w (f32_of_Z 0)) (IZR (mn + 16777220))).
  { rewrite <- (rnd_id prec32 emax32 _ Es). replace (IZR (mn + 16777220)) with (IZR (mn + 16777220) + IZR 0)%R by lra.
    apply (plus_fin _ _ _ _ _ _ _ _ 25 Fy F0); [vm_compute; split; [discriminate|reflexivity]|].
    rewrite plus_IZR. rewrite Rabs_pos_eq by lra. change (bpow radix2 25) with 33554432%R. lra. }
  rewrite (trunc_fin _ _ _ _ Fe) by (apply IZR_le; lia). rewrite Zfloor_IZR. cbn [to_int].
  unfold int_op, in_i32. destruct (_ && _) eqn:E; [reflexivity|lia].
Qed.

Lemma rounding_fails mn o (l : bytes) : 0 <= mn <= 1048576 -> Z.even mn = true -> oracle16 o ->
  zlen l = mn + 16777219 -> vector_extract mn (-1) (le16 0 ++ le16 o ++ l) = (OutOfData, l).
Proof.
  intros Hm He Ho Hl. rewrite start_unbounded by (try rewrite !zlen_app, !le16_len; lia).
  rewrite step_unbounded by (try rewrite !zlen_app, !le16_len; unfold oracle16; lia).
  assert (Lt : zlen (le16 0 ++ le16 o ++ l) = mn + 16777223) by (rewrite !zlen_app, !le16_len; lia).
  rewrite Lt.
  assert (Ec : count_target mn (mn + 16777223) 0 = 1).
  { unfold count_target, ORACLE_SIZE. rewrite Z.mul_0_r. change (u16 (u64 0 / ORACLE_MAX + 1)) with 1.
    rewrite !u64_id by lia. assert (1 <= (mn + 16777223 - 2) / (mn + 2)) by (apply Z.div_le_lower_bound; lia).
    cbv zeta. destruct (_ <? 1) eqn:E; [lia|reflexivity]. }
  rewrite Ec. cbv zeta. change (Z.to_nat 1) with (length [o]).
  assert (So : sum [o] = o) by (unfold sum; cbn [fold_right]; lia).
  assert (ER : read_oracles (length [o]) 0 (le16 o ++ l) = (Ok ([o], 0 + sum [o]), l)).
  { change (le16 o ++ l) with (concat (map le16 [o]) ++ l). unfold oracle16 in Ho. apply read_oracles_run; [repeat constructor; apply Ho|lia|lia]. }
  rewrite (bind_ok _ _ _ _ _ ER). cbn [fst snd]. rewrite So, Z.add_0_l.
  rewrite bind_gets. cbn [Size ListOps]. rewrite Hl. rewrite i32_id by lia.
  rewrite (bind_lift_ok _ _ _ mn) by (unfold int_op, in_i32; rewrite Z.mul_1_r; destruct (_ && _) eqn:E; [reflexivity|lia]).
  rewrite (bind_lift_ok _ _ _ 16777219) by (replace (mn + 16777219 - mn) with 16777219 by lia; reflexivity).
  set (w := if o =? 0 then 1 else o). unfold oracle16 in Ho.
  assert (Hw : 1 <= w <= 65535) by (unfold w; destruct (o =? 0) eqn:E; lia).
  replace (if o =? 0 then map (fun _ => 1) [o] else [o]) with [w] by (unfold w; destruct (o =? 0); reflexivity).
  fold w. cbn [unbounded_loop]. fold (el_float mn w 16777219 w (f32_of_Z 0)).
  rewrite (bind_lift_ok _ _ _ _ (overshoot mn w Hm He Hw)). rewrite u64_id by lia.
  apply bind_ood. apply list_chop_ood. lia.
Qed.
