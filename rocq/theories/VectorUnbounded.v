(** GalleyVector over unbounded stamps. *)
From Coq Require Import ZArith Reals Lia Lra.
From Flocq Require Import Core.Core IEEE754.BinarySingleNaN.
From Verif Require Import Base BaseFacts FloatModel FloatFacts Oracle OracleFacts Arithm Sim Galley VectorSpec VectorFacts VectorFloat.
Local Open Scope Z_scope.

Lemma sum_app a c : sum (a ++ c) = sum a + sum c.
Proof. unfold sum. rewrite fold_right_app. induction a; cbn [fold_right]; lia. Qed.

Lemma sum_bound os : Forall oracle16 os -> 0 <= sum os <= 65535 * zlen os.
Proof. induction 1 as [|o os Ho H IH]; [cbn; lia|]. cbn [sum fold_right]. fold (sum os). rewrite zlen_cons. unfold oracle16 in Ho. lia. Qed.

Lemma sum_in os o : Forall oracle16 os -> In o os -> o <= sum os.
Proof.
  induction 1 as [|p os Hp H IH]; [intros []|]. pose proof (sum_bound os H). cbn [sum fold_right]. fold (sum os). unfold oracle16 in Hp.
  intros [->|Hi]; [lia|]. specialize (IH Hi). lia.
Qed.

Lemma sum_ones {A} (os : list A) : sum (map (fun _ => 1) os) = zlen os.
Proof. induction os; [reflexivity|]. cbn [map sum fold_right]. fold (sum (map (fun _ : A => 1) os)). rewrite zlen_cons. lia. Qed.

Lemma weights_ok os : Forall oracle16 os -> os <> [] -> zlen os <= 32768 ->
  Forall oracle16 (weights os) /\ 1 <= sum (weights os) < 2 ^ 31 /\ zlen (weights os) = zlen os.
Proof.
  intros H Hn Hl. pose proof (sum_bound os H). unfold weights. destruct (sum os =? 0) eqn:E.
  - rewrite sum_ones, zlen_map. split; [|split; [|reflexivity]].
    + clear. induction os; constructor; auto. unfold oracle16. lia.
    + destruct os; [congruence|]. rewrite zlen_cons in *. pose proof (zlen_nonneg os). lia.
  - split; [exact H|]. split; [lia|reflexivity].
Qed.

(** ** Oracles *)
Lemma oracles_ex n : forall (l : bytes), 2 * Z.of_nat n <= zlen l ->
  exists os r, l = concat (map le16 os) ++ r /\ Forall oracle16 os /\ length os = n.
Proof.
  induction n as [|n IH]; intros l H.
  - exists [], l. split; [reflexivity|]. split; [constructor|reflexivity].
  - destruct (list_oracle_ex l ltac:(lia)) as (o & r & -> & Ho). rewrite zlen_app, le16_len in H.
    destruct (IH r ltac:(lia)) as (os & r' & -> & Hos & Hl).
    exists (o :: os), r'. split; [|split; [constructor; assumption|cbn [length]; lia]].
    cbn [map concat]. rewrite <- app_assoc. reflexivity.
Qed.

Lemma oracles_len os : zlen (concat (map le16 os)) = 2 * zlen os.
Proof. induction os as [|o os IH]; [reflexivity|]. cbn [map concat]. rewrite zlen_app, IH, zlen_cons, le16_len. lia. Qed.

Lemma read_oracles_run os : forall t (l : bytes), Forall oracle16 os -> 0 <= t -> t + sum os < 2 ^ 31 ->
  read_oracles (length os) t (concat (map le16 os) ++ l) = (Ok (os, t + sum os), l).
Proof.
  induction os as [|o os IH]; intros t l Hos Ht Hs; cbn [length read_oracles].
  - cbn [map concat app sum fold_right]. rewrite Z.add_0_r. reflexivity.
  - cbn [map concat]. rewrite <- app_assoc. cbn [sum fold_right] in *. fold (sum os) in *.
    pose proof (Forall_inv Hos) as Ho. apply Forall_inv_tail in Hos. pose proof (sum_bound os Hos).
    rewrite (bind_ok _ _ _ _ _ (list_oracle o _ Ho)). unfold oracle16 in Ho.
    rewrite (bind_lift_ok _ _ _ (t + o)) by (unfold int_op, in_i32; destruct (_ && _) eqn:E; [reflexivity|lia]).
    rewrite (bind_ok _ _ _ _ _ (IH (t + o) l Hos ltac:(lia) ltac:(lia))). cbn [fst snd ret].
    unfold ret. rewrite <- Z.add_assoc. reflexivity.
Qed.

(** ** The loop *)
Lemma IZR_share mn var total o k : (0 < total)%Z ->
  (Rabs (IZR k - (IZR mn + IZR var * (IZR o / IZR total))) < 2)%R -> near_share mn var total o k.
Proof.
  intros Ht H. unfold near_share. apply lt_IZR. rewrite abs_IZR, minus_IZR, !mult_IZR, minus_IZR.
  assert (T0 := IZR_lt _ _ Ht).
  replace ((IZR k - IZR mn) * IZR total - IZR var * IZR o)%R
    with ((IZR k - (IZR mn + IZR var * (IZR o / IZR total))) * IZR total)%R by (field; lra).
  rewrite Rabs_mult, (Rabs_pos_eq (IZR total)) by lra. apply Rmult_lt_compat_r; lra.
Qed.

Lemma loop_run mn total var : 0 <= mn -> 0 <= var -> mn + var <= 2097152 -> 1 <= total < 2 ^ 31 ->
  forall os rem r, Forall oracle16 os -> Forall (fun o => o <= total) os -> fin rem r -> (0 <= r < 1)%R ->
  exists ks, Forall2 (fun o k => mn <= k /\ near_share mn var total o k) os ks
    /\ (let W := (IZR (zlen os) * IZR mn + IZR var * (IZR (sum os) / IZR total))%R in
        W * (1 - 7 * u) + r - 1 - IZR (zlen os) * (2 * u) <= IZR (sum ks)
        <= W * (1 + 7 * u) + r + IZR (zlen os) * (2 * u))%R
    /\ forall cs rest, map zlen cs = ks ->
         unbounded_loop mn total var os rem (concat cs ++ rest) = (Ok cs, rest).
Proof.
  intros Hm Hv Hmv Ht. induction os as [|o os IH]; intros rem r Hos Hot Fr Hr.
  - exists []. split; [constructor|]. split.
    + cbn [zlen length Z.of_nat sum fold_right]. change (zlen []) with 0. cbv zeta.
      replace (IZR 0 * IZR mn + IZR var * (IZR 0 / IZR total))%R with 0%R by (unfold Rdiv; ring). lra.
    + intros [|c cs] rest E; [reflexivity|discriminate].
  - assert (Ho := Forall_inv Hos). assert (Ho' := Forall_inv Hot). cbv beta in Ho'.
    apply Forall_inv_tail in Hos. apply Forall_inv_tail in Hot.
    destruct (el_step mn total var o rem r Hm Hv Hmv Ht Ho Ho' Fr Hr) as (e & Fe & Be & Me & Ti & Fs).
    set (k := Zfloor e) in *. assert (Lb := Zfloor_lb e). assert (Ub := Zfloor_ub e). fold k in Lb, Ub.
    destruct (IH _ _ Hos Hot Fs ltac:(split; lra)) as (ks & Hks & Bs & Run).
    exists (k :: ks). split; [|split].
    + constructor; [|exact Hks]. split; [apply Zfloor_lub; exact Me|].
      apply IZR_share; [lia|].
      assert (M0 := IZR_le _ _ Hm). assert (V0 := IZR_le _ _ Hv). assert (MV := IZR_le _ _ Hmv). rewrite plus_IZR in MV.
      assert (T1 := IZR_le _ _ (proj1 Ht)). unfold oracle16 in Ho.
      assert (O0 := IZR_le _ _ (proj1 Ho)). assert (O1 := IZR_le _ _ Ho').
      set (x := (IZR o / IZR total)%R) in *.
      assert (x0 : (0 <= x)%R) by (apply Rmult_le_pos; [lra|left; apply Rinv_0_lt_compat; lra]).
      assert (x1 : (x <= 1)%R) by (unfold x; apply Rmult_le_reg_r with (IZR total); [lra|]; unfold Rdiv; rewrite Rmult_assoc, Rinv_l; lra).
      assert (0 <= IZR var * x)%R by (apply Rmult_le_pos; lra).
      assert (IZR var * x <= IZR var * 1)%R by (apply Rmult_le_compat_l; lra).
      assert (W1 : (0 <= IZR mn + IZR var * x <= 2097152)%R) by lra.
      set (w := (IZR mn + IZR var * x)%R) in *. apply Rabs_def1; lra.
    + rewrite zlen_cons. cbn [sum fold_right]. fold (sum os). fold (sum ks). cbv zeta in Bs |- *.
      rewrite !plus_IZR. set (n := IZR (zlen os)) in *. set (s := IZR (sum os)) in *.
      assert (T1 := IZR_le _ _ (proj1 Ht)).
      replace ((n + 1) * IZR mn + IZR var * ((IZR o + s) / IZR total))%R
        with ((n * IZR mn + IZR var * (s / IZR total)) + (IZR mn + IZR var * (IZR o / IZR total)))%R by (field; lra).
      set (W := (n * IZR mn + IZR var * (s / IZR total))%R) in *.
      set (w := (IZR mn + IZR var * (IZR o / IZR total))%R) in *. lra.
    + intros cs rest E. destruct cs as [|c cs]; [discriminate|]. cbn [map] in E. injection E as Ec E.
      cbn [concat unbounded_loop]. rewrite <- app_assoc. fold (el_float mn total var o rem).
      rewrite (bind_lift_ok _ _ _ _ Ti). fold k.
      assert (K0 : 0 <= k) by (rewrite <- Ec; apply zlen_nonneg).
      assert (K1 : k < 2 ^ 31).
      { assert (Q : fst (@lift unit Z (to_int (Btrunc_Z (el_float mn total var o rem))) tt) = Ok k) by (rewrite Ti; reflexivity).
        cbn [lift fst] in Q. revert Q. unfold to_int, int_op, in_i32. destruct (Btrunc_Z _); [|discriminate].
        destruct (_ && _) eqn:E0; [|discriminate]. intros [= ->]. lia. }
      rewrite u64_id by lia.
      rewrite (bind_ok _ _ _ _ _ (list_chop c _ k (eq_sym Ec))).
      rewrite (bind_ok _ _ _ _ _ (Run cs rest E)). reflexivity.
Qed.

(** ** Cutting a list *)
Lemma cut_ex ks : forall (l : bytes), Forall (fun k => 0 <= k) ks -> sum ks <= zlen l ->
  exists cs rest, l = concat cs ++ rest /\ map zlen cs = ks.
Proof.
  induction ks as [|k ks IH]; intros l H Hl.
  - exists [], l. split; reflexivity.
  - cbn [sum fold_right] in Hl. fold (sum ks) in Hl. pose proof (Forall_inv H). apply Forall_inv_tail in H. cbv beta in H0.
    assert (0 <= sum ks). { clear - H. induction H; [cbn; lia|]. cbn [sum fold_right]. fold (sum l). lia. }
    destruct (list_split l k ltac:(lia)) as (c & r & -> & Hc). rewrite zlen_app in Hl.
    destruct (IH r H ltac:(lia)) as (cs & rest & -> & E).
    exists (c :: cs), rest. cbn [concat map]. rewrite <- app_assoc, E, Hc. split; reflexivity.
Qed.

Lemma concat_sum (cs : list bytes) : zlen (concat cs) = sum (map zlen cs).
Proof. induction cs as [|c cs IH]; [reflexivity|]. cbn [concat map sum fold_right]. fold (sum (map zlen cs)). rewrite zlen_app, IH. reflexivity. Qed.

Lemma count_ok mn sz o : 0 <= mn -> mn + 4 <= sz -> sz < 2 ^ 63 -> parts mn sz <= 65534 -> oracle16 o ->
  count_target mn sz o = Z.min (parts mn sz) (parts mn sz * o / 65535 + 1)
  /\ 1 <= count_target mn sz o <= parts mn sz.
Proof.
  intros Hm Hs Hs2 Hp Ho. unfold count_target, ORACLE_SIZE, ORACLE_MAX. rewrite !u64_id by lia.
  fold (parts mn sz). unfold oracle16 in Ho.
  assert (P1 : 1 <= parts mn sz) by (apply Z.div_le_lower_bound; lia).
  set (N := parts mn sz) in *. rewrite (u64_id (N * o)) by nia. cbv zeta.
  assert (0 <= N * o / 65535 <= N) by (split; [apply Z.div_pos; nia|apply Z.div_le_upper_bound; nia]).
  assert (E1 : u16 (N * o / 65535 + 1) = N * o / 65535 + 1) by (unfold u16; apply Z.mod_small; lia).
  assert (E2 : u16 N = N) by (unfold u16; apply Z.mod_small; lia).
  rewrite E1, E2. destruct (N <? N * o / 65535 + 1) eqn:E; lia.
Qed.

Lemma Forall2_len {A C} (P : A -> C -> Prop) l m : Forall2 P l m -> zlen l = zlen m.
Proof. induction 1; [reflexivity|]. rewrite !zlen_cons. lia. Qed.

Lemma unbounded_run mn (l : bytes) : 0 <= mn -> mn + 4 <= zlen l <= 2097152 -> parts mn (zlen l) <= 32768 ->
  exists o os cs rest, vector_extract mn (-1) l = (Ok cs, rest) /\ unbounded_cut mn l o os cs rest.
Proof.
  intros Hm Hl Hp.
  destruct (list_oracle_ex l ltac:(lia)) as (o & r & El & Ho).
  destruct (count_ok mn (zlen l) o Hm ltac:(lia) ltac:(lia) ltac:(lia) Ho) as (Ec & Bc).
  set (n := count_target mn (zlen l) o) in *. set (N := parts mn (zlen l)) in *.
  assert (HN : N * (mn + 2) <= zlen l - 2).
  { unfold N, parts. rewrite Z.mul_comm. apply Z.mul_div_le. lia. }
  assert (Lr : zlen l = 2 + zlen r) by (rewrite El, zlen_app, le16_len; reflexivity).
  assert (nb : n * (mn + 2) <= zlen r) by nia.
  destruct (oracles_ex (Z.to_nat n) r ltac:(nia)) as (os & r2 & Er & Hos & Los).
  assert (Zos : zlen os = n) by (unfold zlen; lia).
  assert (Lr2 : zlen r = 2 * n + zlen r2) by (rewrite Er, zlen_app, oracles_len, Zos; reflexivity).
  pose proof (sum_bound os Hos) as Bs.
  assert (Onil : os <> []) by (intros ->; rewrite zlen_nil in Zos; lia).
  destruct (weights_ok os Hos Onil ltac:(lia)) as (Wo & Ws & Wl).
  assert (In1 : forall a, - 2 ^ 31 <= a < 2 ^ 31 -> int_op a = Ok a).
  { intros a Ha. unfold int_op, in_i32. destruct (_ && _) eqn:E; [reflexivity|lia]. }
  set (V := zlen r2 - mn * n). assert (V0 : 0 <= V) by (unfold V; lia).
  assert (MV : mn + V <= 2097152) by (unfold V; nia).
  assert (F0 : fin (f32_of_Z 0) 0%R) by (apply of_Z_exact; change (2 ^ prec32) with 16777216; lia).
  destruct (loop_run mn (sum (weights os)) V Hm V0 MV Ws (weights os) (f32_of_Z 0) 0%R Wo) as (ks & Hks & Bk & Run).
  { apply Forall_forall. intros a Ha. apply (sum_in _ _ Wo Ha). }
  { exact F0. } { lra. }
  rewrite Wl, Zos in Bk. cbv zeta in Bk.
  assert (EW : (IZR n * IZR mn + IZR V * (IZR (sum (weights os)) / IZR (sum (weights os))))%R = IZR (zlen r2)).
  { assert (T1 := IZR_le _ _ (proj1 Ws)). replace (IZR (sum (weights os)) / IZR (sum (weights os)))%R with 1%R by (field; lra).
    unfold V. rewrite minus_IZR, mult_IZR. ring. }
  rewrite EW in Bk.
  assert (D0 : (0 <= IZR (zlen r2) <= 2097152)%R) by (split; apply IZR_le; pose proof (zlen_nonneg r2); lia).
  assert (N0 : (0 <= IZR n <= 32768)%R) by (split; apply IZR_le; lia).
  assert (Sk : zlen r2 - 1 <= sum ks <= zlen r2).
  { assert (A1 : sum ks < zlen r2 + 1) by (apply lt_IZR; rewrite plus_IZR; lra).
    assert (A2 : zlen r2 - 2 < sum ks) by (apply lt_IZR; rewrite minus_IZR; lra). lia. }
  assert (Kn : Forall (fun k => 0 <= k) ks).
  { clear - Hks Hm. induction Hks as [|a k ws ks [H1 H2] H IH]; constructor; auto. lia. }
  destruct (cut_ex ks r2 Kn ltac:(lia)) as (cs & rest & Er2 & Ek).
  exists o, os, cs, rest. split.
  { unfold vector_extract. cbn [Size ListOps]. rewrite u64_id by lia.
  destruct (zlen l <? mn) eqn:E0; [lia|]. unfold isFixedSize, isUnbounded.
  destruct (mn =? -1) eqn:E1; [lia|]. cbn [Z.eqb Pos.eqb].
  unfold vector_unbounded. rewrite bind_gets. cbn [Size ListOps]. unfold ORACLE_SIZE. rewrite u64_id by lia.
  destruct (mn + 2 =? 0) eqn:E2; [lia|].
    assert (EO : GetOracle l = (Ok o, r)) by (rewrite El; apply list_oracle; exact Ho).
    rewrite (bind_ok _ _ _ _ _ EO). fold n. cbv zeta.
    assert (ER : read_oracles (Z.to_nat n) 0 r = (Ok (os, 0 + sum os), r2)).
    { rewrite Er, <- Los. apply read_oracles_run; auto; lia. }
    rewrite (bind_ok _ _ _ _ _ ER). cbn [fst snd].
    rewrite Z.add_0_l. rewrite bind_gets. cbn [Size ListOps].
    fold (weights os). replace (if sum os =? 0 then n else sum os) with (sum (weights os)).
  2:{ unfold weights. destruct (sum os =? 0); [rewrite sum_ones; exact Zos|reflexivity]. }
  rewrite (i32_id (zlen r2)) by (pose proof (zlen_nonneg r2); lia).
  rewrite (bind_lift_ok _ _ _ (mn * n)) by (apply In1; nia).
  rewrite (bind_lift_ok _ _ _ V) by (apply In1; unfold V in *; nia).
    rewrite Er2. apply Run. exact Ek. }
  unfold unbounded_cut. fold N. rewrite Zos.
  split; [rewrite El, Er, Er2; reflexivity|]. split; [exact Ho|]. split; [exact Hos|]. split; [exact Ec|]. split.
  - replace (zlen l - 2 - (mn + 2) * n) with V by (unfold V; lia).
    clear - Hks Ek. revert ks Ek Hks. generalize (weights os) at 2 4. intros ws. revert cs.
    induction ws as [|w ws IH]; intros cs ks Ek H; inversion H; subst; (destruct cs as [|c cs]; [|try discriminate]); try discriminate; [constructor|].
    cbn [map] in *. match goal with E : _ :: _ = _ :: _ |- _ => injection E as E1 E2 end. subst. constructor; [assumption|].
    eapply IH; [reflexivity|eassumption].
  - rewrite Er2, zlen_app, concat_sum, Ek in Sk. lia.
Qed.
