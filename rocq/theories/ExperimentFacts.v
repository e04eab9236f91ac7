(** t/320-galley-recursion-experiments.cpp. *)
From Coq Require Import ZArith Reals Lia Lra.
From Flocq Require Import Core.Core IEEE754.BinarySingleNaN.
From Verif Require Import Base BaseFacts FloatModel FloatFacts PickFacts Oracle Galley VectorSpec SetFacts SetFloat Arithm Experiment ExperimentSpec.
Local Open Scope R_scope.

(** ** fit_sizes *)
Lemma fit_good F W w : (0 <= F < 2 ^ 31)%Z -> (0 < W <= 2 ^ 48)%Z -> (0 <= w <= W)%Z -> (w < 2 ^ 31)%Z ->
  good F W (f64_div (f64_of_Z F) (f64_of_Z W)) (f64_of_Z w) w.
Proof.
  intros HF HW Hw Hw2.
  assert (W0 : 1 <= IZR W) by (apply IZR_le; lia). assert (W1 := IZR_le _ _ (proj2 HW)). change (2 ^ 48)%Z with 281474976710656%Z in W1.
  assert (F0 := IZR_le _ _ (proj1 HF)). assert (F1 := IZR_lt _ _ (proj2 HF)). change (2 ^ 31)%Z with 2147483648%Z in F1.
  assert (w0 := IZR_le _ _ (proj1 Hw)). assert (w1 := IZR_le _ _ (proj2 Hw)). assert (w2 := IZR_lt _ _ Hw2). change (2 ^ 31)%Z with 2147483648%Z in w2.
  change (IZR 0) with 0 in *.
  assert (FF : fin (f64_of_Z F) (IZR F)) by (apply of_Z_exact; change (2 ^ prec64)%Z with 9007199254740992%Z; lia).
  assert (FW : fin (f64_of_Z W) (IZR W)) by (apply of_Z_exact; change (2 ^ prec64)%Z with 9007199254740992%Z; lia).
  assert (Fw : fin (f64_of_Z w) (IZR w)) by (apply of_Z_exact; change (2 ^ prec64)%Z with 9007199254740992%Z; lia).
  assert (I0 : 0 < / IZR W) by (apply Rinv_0_lt_compat; lra).
  assert (I1 : / IZR W <= 1) by (rewrite <- Rinv_1; apply Rinv_le; lra).
  assert (I2 : / 281474976710656 <= / IZR W) by (apply Rinv_le; lra).
  assert (Q0 : 0 <= IZR F / IZR W) by (apply Rmult_le_pos; lra).
  assert (Q1 : IZR F / IZR W <= 2147483648).
  { rewrite <- (Rmult_1_r 2147483648). apply Rmult_le_compat; lra. }
  assert (B60 : bpow radix2 60 = 1152921504606846976) by reflexivity. assert (B63 : bpow radix2 63 = 9223372036854775808) by reflexivity.
  set (kr := rnd64 (IZR F / IZR W)).
  assert (Fk : fin (f64_div (f64_of_Z F) (f64_of_Z W)) kr).
  { apply (div_fin _ _ _ _ _ _ _ _ 60%Z FF FW); [intros X; lra|vm_compute; split; [discriminate|reflexivity]|].
    rewrite B60, Rabs_pos_eq; lra. }
  assert (Bq : IZR F / IZR W = 0 \/ bpow radix2 (-50) <= IZR F / IZR W).
  { destruct (Z.eq_dec F 0) as [->|N]; [left; change (IZR 0) with 0; unfold Rdiv; ring|right].
    change (bpow radix2 (-50)) with (/ 1125899906842624). assert (1 <= IZR F) by (apply IZR_le; lia).
    apply Rle_trans with (1 * / IZR W); [lra|]. apply Rmult_le_compat_r; lra. }
  assert (Bq' : big (IZR F / IZR W)).
  { destruct Bq as [Bq|Bq]; [left; exact Bq|right]. apply Rle_trans with (2 := Bq). apply bpow_big. lia. }
  assert (Bk : kr = 0 \/ bpow radix2 (-50) <= kr).
  { destruct Bq as [Bq|Bq]; [left; unfold kr; rewrite Bq; apply (rnd_0 prec64 emax64)|right].
    apply rnd64_ge_fmt; [apply generic_format_bpow; vm_compute; discriminate|exact Bq]. }
  assert (Nk : near v kr (IZR F / IZR W)) by (apply near_rnd; exact Bq').
  exists (rnd64 (IZR w * kr)).
  assert (Ep : IZR w * (IZR F / IZR W) = part F W w) by (unfold part; field; intros X; lra).
  assert (Np : near v (IZR w * kr) (part F W w)).
  { rewrite <- Ep. apply (near_mul 0 v); try lra; [apply near_refl|exact Nk]. }
  pose proof (part_range F W w (proj1 HF) ltac:(lia) Hw) as Pr.
  assert (Bp : big (IZR w * kr)).
  { destruct (Z.eq_dec w 0) as [->|N]; [left; change (IZR 0) with 0; ring|]. destruct Bk as [->|Bk]; [left; ring|right].
    assert (1 <= IZR w) by (apply IZR_le; lia).
    apply Rle_trans with (1 * bpow radix2 (-50)).
    - rewrite Rmult_1_l. apply bpow_big. lia.
    - apply Rmult_le_compat; try apply bpow_ge_0; try assumption; lra. }
  split.
  - apply (mult_fin _ _ _ _ _ _ _ _ 60%Z Fw Fk); [vm_compute; split; [discriminate|reflexivity]|].
    rewrite B60, Rabs_pos_eq by (apply big_pos; exact Bp). destruct Np as [_ A]. lra.
  - apply near_rnd' with (1 := Bp) (2 := Np); lra.
Qed.

Local Open Scope Z_scope.

Lemma sum_app l1 l2 : sum (l1 ++ l2) = sum l1 + sum l2.
Proof. induction l1 as [|x l IH]; [reflexivity|]. cbn [app]. rewrite !sum_cons, IH. lia. Qed.

Lemma seeds_sum_eq seeds : Forall (fun s => 0 <= s < 2 ^ 31) seeds -> seeds_sum seeds = sum seeds.
Proof.
  intros H. unfold seeds_sum. assert (G : forall a, fold_left (fun s seed => s + i32 seed) seeds a = a + sum seeds); [|apply G].
  induction H as [|s seeds Hs H IH]; intros a; [cbn; lia|]. cbn [fold_left]. rewrite IH, sum_cons, i32_id by lia. lia.
Qed.

(** The loop gives the shares, as long as none is negative. *)
Lemma fit_loop_shares k seeds : forall rem es a, Forall (fun s => 0 <= s < 2 ^ 31) seeds ->
  shares k (map f64_of_Z seeds) rem = Ok es -> Forall (fun e => 0 <= e) es -> 0 <= a -> a + sum es < 2 ^ 31 ->
  fit_loop k seeds rem a = Ok (es, a + sum es).
Proof.
  induction seeds as [|s seeds IH]; intros rem es a Hs E He Ha Hb.
  - injection E as <-. cbn. rewrite Z.add_0_r. reflexivity.
  - cbn [map shares] in E. apply rbind_inv in E. destruct E as (e & E1 & E). apply rbind_inv in E. destruct E as (es' & E2 & E).
    injection E as <-. pose proof (Forall_inv Hs) as Hs0. apply Forall_inv_tail in Hs. pose proof (Forall_inv He) as He0. apply Forall_inv_tail in He.
    cbv beta in Hs0, He0. rewrite sum_cons in Hb |- *. pose proof (sum_nonneg _ He).
    cbn [fit_loop]. rewrite (i32_id s) by lia.
    assert (U : to_uint (Bround_Z (f64_add (f64_mul (f64_of_Z s) k) rem)) = Ok e).
    { destruct (Bround_Z _) as [z|]; [|discriminate E1]. cbn [to_int to_uint] in *. unfold int_op in E1. destruct (in_i32 z); [|discriminate E1].
      injection E1 as ->. replace ((0 <=? e) && (e <? 2 ^ 32)) with true by lia. reflexivity. }
    rewrite U. cbn [rbind]. rewrite (i32_id (a + e)) by lia. rewrite (IH _ es' (a + e) Hs E2 He) by lia. cbn [rbind fst snd].
    do 2 f_equal. lia.
Qed.

(** A negative share is an undefined conversion. *)
Lemma fit_loop_neg k seeds : forall rem es a, Forall (fun s => 0 <= s < 2 ^ 31) seeds ->
  shares k (map f64_of_Z seeds) rem = Ok es -> ~ Forall (fun e => 0 <= e) es -> fit_loop k seeds rem a = UB.
Proof.
  induction seeds as [|s seeds IH]; intros rem es a Hs E He.
  - injection E as <-. destruct He. constructor.
  - cbn [map shares] in E. apply rbind_inv in E. destruct E as (e & E1 & E). apply rbind_inv in E. destruct E as (es' & E2 & E).
    injection E as <-. pose proof (Forall_inv Hs) as Hs0. apply Forall_inv_tail in Hs. cbv beta in Hs0.
    cbn [fit_loop]. rewrite (i32_id s) by lia.
    assert (B : exists z, Bround_Z (f64_add (f64_mul (f64_of_Z s) k) rem) = Some z /\ z = e /\ in_i32 z = true).
    { destruct (Bround_Z _) as [z|]; [|discriminate E1]. exists z. cbn [to_int] in E1. unfold int_op in E1. destruct (in_i32 z); [|discriminate E1].
      injection E1 as ->. repeat split. }
    destruct B as (z & B & -> & B2). rewrite B. cbn [to_uint].
    destruct (Z_lt_le_dec e 0) as [N|N].
    + replace ((0 <=? e) && (e <? 2 ^ 32)) with false by lia. reflexivity.
    + unfold in_i32 in B2. replace ((0 <=? e) && (e <? 2 ^ 32)) with true by lia. cbn [rbind].
      rewrite (IH _ es' _ Hs E2); [reflexivity|]. intros C. apply He. constructor; assumption.
Qed.

Lemma fit_shares seeds fit_in : Forall (fun s => 0 <= s < 2 ^ 31) seeds -> 0 < sum seeds -> zlen seeds <= 65536 -> 0 <= fit_in < 2 ^ 31 ->
  exists es, shares (f64_div (f64_of_Z fit_in) (f64_of_Z (sum seeds))) (map f64_of_Z seeds) (f64_of_Z 0) = Ok es
    /\ Forall2 (fun w e => w <> 0 -> 0 <= e) seeds es /\ sum es = fit_in
    /\ forall m, 8 * Z.abs (sum (firstn m es) * sum seeds - fit_in * sum (firstn m seeds)) <= 5 * sum seeds.
Proof.
  intros Hs Hp Hn HF.
  assert (Nn : Forall (fun s => 0 <= s) seeds) by (eapply Forall_impl; [|exact Hs]; cbv beta; intros; lia).
  assert (HW : sum seeds <= 2 ^ 48).
  { assert (G : sum seeds <= 2 ^ 31 * zlen seeds).
    { clear - Hs. induction Hs as [|s seeds Hs H IH]; [cbn; lia|]. rewrite sum_cons, zlen_cons. lia. }
    lia. }
  assert (Hg : Forall2 (good fit_in (sum seeds) (f64_div (f64_of_Z fit_in) (f64_of_Z (sum seeds)))) (map f64_of_Z seeds) seeds).
  { assert (B : Forall (fun s => 0 <= s <= sum seeds /\ s < 2 ^ 31) seeds).
    { clear - Hs Nn. induction Hs as [|s seeds Hs H IH]; constructor.
      - rewrite sum_cons. pose proof (sum_nonneg _ (Forall_inv_tail Nn)). lia.
      - eapply Forall_impl; [|exact (IH (Forall_inv_tail Nn))]. cbv beta. intros x. rewrite sum_cons. lia. }
    set (W := sum seeds) in *. assert (GW : 0 < W <= 2 ^ 48) by lia. clearbody W. clear - B GW HF. induction B as [|s seeds (Bs & B2) B IH]; constructor; [|exact IH].
    apply fit_good; assumption. }
  assert (F0 : fin (f64_of_Z 0) 0%R) by (apply of_Z_exact; vm_compute; discriminate).
  destruct (shares_run fit_in (sum seeds) _ HF (conj Hp HW) _ seeds 0 0 (f64_of_Z 0) 0%R 0 Hg Nn) as (es & E & P & C); try lia.
  { exact F0. } { rewrite Rabs_R0. lra. } { reflexivity. }
  { unfold part. rewrite Rmult_0_l. unfold Rdiv. rewrite Rmult_0_l, Rmult_0_r, !Rplus_0_l, Rmult_0_r, Rminus_0_r, Rabs_R0. lra. }
  { unfold zlen in *. rewrite map_length. lia. }
  exists es. split; [exact E|]. split; [exact P|]. cbn [Z.add] in C.
  assert (L : length es = length seeds).
  { clear - P. induction P; cbn [length]; congruence. }
  split; [|exact C]. pose proof (C (length seeds)) as D. rewrite <- L in D at 1. rewrite !firstn_all in D. nia.
Qed.

Lemma fit_nonneg seeds es F W : Forall2 (fun w e => w <> 0 -> 0 <= e) seeds es -> zeros_outside seeds -> W = sum seeds -> 0 < W ->
  (forall m, 8 * Z.abs (sum (firstn m es) * W - F * sum (firstn m seeds)) <= 5 * W) -> Forall (fun e => 0 <= e) es.
Proof.
  intros P Z0 EW HW C. apply Forall_forall. intros e He. apply in_split in He. destruct He as (ea & eb & ->).
  assert (G : exists a w b, seeds = a ++ w :: b /\ length a = length ea /\ (w <> 0 -> 0 <= e)).
  { apply Forall2_app_inv_r in P. destruct P as (a & wb & P1 & P2 & ->). inversion P2 as [|w ? b ? Pw Pb]; subst. exists a, w, b. split; [reflexivity|].
    split; [|exact Pw]. clear - P1. induction P1; cbn [length]; congruence. }
  destruct G as (a & w & b & -> & La & Pw). destruct (Z.eq_dec w 0) as [->|N]; [|exact (Pw N)].
  assert (S0 : forall (l1 l2 : list Z), firstn (length l1) (l1 ++ l2) = l1).
  { intros l1 l2. rewrite firstn_app, Nat.sub_diag, firstn_all. apply app_nil_r. }
  assert (S1 : forall (l1 l2 : list Z) x, sum (firstn (S (length l1)) (l1 ++ x :: l2)) = sum l1 + x).
  { intros l1 l2 x. change (x :: l2) with ([x] ++ l2). rewrite app_assoc. replace (S (length l1)) with (length (l1 ++ [x])) by (rewrite app_length; cbn; lia).
    rewrite S0, sum_app. cbn. lia. }
  pose proof (C (length a)) as C1. pose proof (C (S (length a))) as C2.
  rewrite La in C1 at 1. rewrite La in C2 at 1. rewrite !S0 in C1. rewrite !S1 in C2. rewrite sum_app, sum_cons in EW.
  assert (K : forall x y, 8 * Z.abs (x * W - y * W) <= 5 * W -> x = y).
  { intros x y H. rewrite <- Z.mul_sub_distr_r, Z.abs_mul in H. nia. }
  destruct (Z0 a b eq_refl) as [A|A].
  - replace (F * sum a) with (0 * W) in C1 by (rewrite A; lia). replace (F * (sum a + 0)) with (0 * W) in C2 by (rewrite A; lia).
    apply K in C1. apply K in C2. lia.
  - rewrite A in EW. replace (sum a) with W in C1, C2 by lia. rewrite (Z.add_0_r W) in C2.
    apply K in C1. apply K in C2. lia.
Qed.

Lemma fit_ok seeds fit_in : Forall (fun s => 0 <= s < 2 ^ 31) seeds -> 0 < sum seeds -> zlen seeds <= 65536 -> 0 <= fit_in < 2 ^ 31 ->
  zeros_outside seeds -> exists sizes, fit_sizes seeds fit_in = Ok sizes /\ divides_up fit_in seeds sizes.
Proof.
  intros Hs Hp Hn HF Z0. destruct (fit_shares seeds fit_in Hs Hp Hn HF) as (es & E & P & S & C).
  pose proof (fit_nonneg seeds es fit_in _ P Z0 eq_refl Hp C) as N.
  exists es. split.
  - unfold fit_sizes. rewrite seeds_sum_eq by exact Hs. rewrite (fit_loop_shares _ _ _ es 0 Hs E N) by lia. cbn [rbind fst snd Z.add].
    unfold u32. rewrite S, Z.mod_small, Z.eqb_refl by lia. reflexivity.
  - split; [clear - P; induction P; cbn [length]; congruence|]. split; [exact N|]. split; [exact S|exact C].
Qed.

Lemma fit_any seeds fit_in : Forall (fun s => 0 <= s < 2 ^ 31) seeds -> 0 < sum seeds -> zlen seeds <= 65536 -> 0 <= fit_in < 2 ^ 31 ->
  (exists sizes, fit_sizes seeds fit_in = Ok sizes /\ divides_up fit_in seeds sizes) \/ fit_sizes seeds fit_in = UB.
Proof.
  intros Hs Hp Hn HF. destruct (fit_shares seeds fit_in Hs Hp Hn HF) as (es & E & P & S & C).
  destruct (Forall_dec (fun e => 0 <= e) (fun e => Z_le_dec 0 e) es) as [N|N].
  - left. exists es. split.
    + unfold fit_sizes. rewrite seeds_sum_eq by exact Hs. rewrite (fit_loop_shares _ _ _ es 0 Hs E N) by lia. cbn [rbind fst snd Z.add].
      unfold u32. rewrite S, Z.mod_small, Z.eqb_refl by lia. reflexivity.
    + split; [clear - P; induction P; cbn [length]; congruence|]. split; [exact N|]. split; [exact S|exact C].
  - right. unfold fit_sizes. rewrite seeds_sum_eq by exact Hs. rewrite (fit_loop_neg _ _ _ es 0 Hs E N). reflexivity.
Qed.

(** ** VariantPicker *)
Section Picker.
  Context (T : Z) (HT : 1 <= T) (seed : Z) (Hseed : 0 <= seed <= 255) (step : f64).
  (** The sum after [g] steps. *)
  Context (close : R -> Z -> Prop)
          (close_add : forall s x g, fin s x -> close x g -> 0 <= g < T -> exists x', fin (f64_add s step) x' /\ close x' (g + 1)).

  Definition low (g : Z) : Prop := g = 0 \/ exists x, close x g /\ (x < IZR seed)%R.
  Definition high (g : Z) : Prop := exists x, close x g /\ (IZR seed <= x)%R.

  Lemma leb_fin s x : fin s x -> Bleb (f64_of_Z seed) s = Rle_bool (IZR seed) x.
  Proof.
    intros [Fs <-]. assert (F : fin (f64_of_Z seed) (IZR seed)) by (apply of_Z_exact; change (2 ^ prec64)%Z with 9007199254740992%Z; lia).
    destruct F as [Ff <-]. apply Bleb_correct; assumption.
  Qed.

  Lemma inner_run n : forall i g s x, fin s x -> close x g -> 0 <= g -> g + Z.of_nat n <= T -> low g ->
    match variants_inner n i seed step s with
    | (Some j, _) => i <= j < i + Z.of_nat n /\ low (g + (j - i)) /\ high (g + (j - i) + 1)
    | (None, s') => exists x', fin s' x' /\ close x' (g + Z.of_nat n) /\ low (g + Z.of_nat n)
    end.
  Proof.
    induction n as [|n IH]; intros i g s x Fs C Hg Hn L; cbn [variants_inner].
    - exists x. rewrite Z.add_0_r. repeat split; try assumption; apply Fs.
    - destruct (close_add s x g Fs C ltac:(lia)) as (x' & Fx & Cx). rewrite (leb_fin _ _ Fx).
      destruct (Rle_bool_spec (IZR seed) x') as [H|H].
      + rewrite Z.sub_diag, Z.add_0_r. split; [lia|]. split; [exact L|]. exists x'. split; assumption.
      + specialize (IH (i + 1) (g + 1) _ x' Fx Cx ltac:(lia) ltac:(lia) (or_intror (ex_intro _ x' (conj Cx H)))).
        replace (g + Z.of_nat (S n)) with (g + 1 + Z.of_nat n) by lia.
        destruct (variants_inner n (i + 1) seed step (f64_add s step)) as [[j|] s']; [|exact IH].
        replace (g + (j - i)) with (g + 1 + (j - (i + 1))) by lia. destruct IH as (A & B & D). split; [lia|]. split; assumption.
  Qed.

  Lemma outer_run vs : Forall (fun v => 0 <= offers v) vs -> forall k last g s x, fin s x -> close x g -> 0 <= g -> g + total_offers vs <= T -> low g ->
    match variants_outer vs k last seed step s with
    | inl (j, i) => exists m, j = (k + m)%nat /\ offered vs m i /\ low (g + offers_before vs m + i) /\ high (g + offers_before vs m + i + 1)
    | inr (s', last') => exists x', fin s' x' /\ close x' (g + total_offers vs) /\ low (g + total_offers vs)
        /\ (last' = last /\ total_offers vs = 0
            \/ exists m v, last' = Some (k + m)%nat /\ nth_error vs m = Some v /\ 1 <= offers v /\ offers_before vs m + offers v = total_offers vs)
    end.
  Proof.
    intros H. induction H as [|v vs Hv H IH]; intros k last g s x Fs C Hg Hn L; cbn [variants_outer].
    - exists x. change (total_offers []) with 0. rewrite Z.add_0_r. split; [exact Fs|]. split; [exact C|]. split; [exact L|]. left. split; reflexivity.
    - change (total_offers (v :: vs)) with (offers v + total_offers vs) in *. change (GetVariantCount v) with (offers v).
      assert (N : 0 <= total_offers vs).
      { apply sum_nonneg. rewrite Forall_map. exact H. }
      destruct (offers v =? 0) eqn:E.
      + apply Z.eqb_eq in E. specialize (IH (S k) last g s x Fs C Hg ltac:(lia) L). rewrite E.
        destruct (variants_outer vs (S k) last seed step s) as [[j i]|[s' last']].
        * destruct IH as (m & -> & O & Lo & Hi). exists (S m). split; [lia|]. split; [exact O|].
          change (offers_before (v :: vs) (S m)) with (offers v + offers_before vs m). rewrite E. split; assumption.
        * destruct IH as (x' & F' & C' & L' & D). exists x'. cbn [Z.add]. split; [exact F'|]. split; [exact C'|]. split; [exact L'|].
          destruct D as [D|(m & w & D1 & D2 & D3 & D4)]; [left; exact D|right]. exists (S m), w. split; [rewrite D1; f_equal; lia|]. split; [exact D2|]. split; [exact D3|].
          change (offers_before (v :: vs) (S m)) with (offers v + offers_before vs m). lia.
      + apply Z.eqb_neq in E. pose proof (inner_run (Z.to_nat (offers v)) 0 g s x Fs C Hg ltac:(lia) L) as I. rewrite Z2Nat.id in I by lia.
        destruct (variants_inner (Z.to_nat (offers v)) 0 seed step s) as [[i|] s1].
        * exists 0%nat. split; [lia|]. destruct I as (I1 & I2 & I3). rewrite Z.sub_0_r in I2, I3. split; [exists v; split; [reflexivity|lia]|].
          change (offers_before (v :: vs) 0) with 0. rewrite Z.add_0_r. split; assumption.
        * destruct I as (x1 & F1 & C1 & L1). specialize (IH (S k) (Some k) (g + offers v) s1 x1 F1 C1 ltac:(lia) ltac:(lia) L1).
          rewrite Z.add_assoc. destruct (variants_outer vs (S k) (Some k) seed step s1) as [[j i]|[s' last']].
          -- destruct IH as (m & -> & O & Lo & Hi). exists (S m). split; [lia|]. split; [exact O|].
             change (offers_before (v :: vs) (S m)) with (offers v + offers_before vs m). rewrite Z.add_assoc. split; assumption.
          -- destruct IH as (x' & F' & C' & L' & D). exists x'. split; [exact F'|]. split; [exact C'|]. split; [exact L'|]. right.
             destruct D as [[D1 D2]|(m & w & D1 & D2 & D3 & D4)].
             ++ exists 0%nat, v. split; [rewrite D1; f_equal; lia|]. split; [reflexivity|]. split; [lia|]. change (offers_before (v :: vs) 0) with 0. lia.
             ++ exists (S m), w. split; [rewrite D1; f_equal; lia|]. split; [exact D2|]. split; [exact D3|].
                change (offers_before (v :: vs) (S m)) with (offers v + offers_before vs m). lia.
  Qed.
End Picker.

Lemma total_run vs : Forall (fun v => 0 <= offers v) vs -> forall a, 0 <= a -> a + total_offers vs < 2 ^ 31 -> variants_total a vs = Ok (a + total_offers vs).
Proof.
  intros H. induction H as [|v vs Hv H IH]; intros a Ha Hb; cbn [variants_total].
  - change (total_offers []) with 0. rewrite Z.add_0_r. reflexivity.
  - change (total_offers (v :: vs)) with (offers v + total_offers vs) in *. change (GetVariantCount v) with (offers v).
    assert (N : 0 <= total_offers vs) by (apply sum_nonneg; rewrite Forall_map; exact H).
    rewrite int_op_ok by lia. cbn [rbind]. rewrite IH by lia. f_equal. lia.
Qed.

Lemma select_ok vs k i v : nth_error vs k = Some v -> selected vs k i (select vs k i).
Proof.
  intros E. unfold select. rewrite E. assert (L : (k < length vs)%nat) by (apply nth_error_Some; congruence).
  assert (Lf : length (firstn k vs) = k) by (apply firstn_length_le; lia).
  split; [|split].
  - rewrite app_length, Lf. cbn [length]. rewrite skipn_length. lia.
  - exists v. split; [exact E|]. rewrite nth_error_app2 by lia. rewrite Lf, Nat.sub_diag. reflexivity.
  - intros m Hm. destruct (Nat.lt_ge_cases m k) as [H|H].
    + rewrite nth_error_app1 by lia. rewrite <- (firstn_skipn k vs) at 2. rewrite nth_error_app1 by lia. reflexivity.
    + rewrite nth_error_app2, Lf by lia. destruct (m - k)%nat as [|j] eqn:J; [lia|]. cbn [nth_error].
      rewrite <- (firstn_skipn (S k) vs) at 2. rewrite nth_error_app2; rewrite firstn_length_le by lia; [f_equal|]; lia.
Qed.

Local Open Scope R_scope.
Notation e44 := (/ 17592186044416).

Lemma step_fin T : (1 <= T <= 1048576)%Z ->
  exists st, fin (f64_div (f64_of_Z 255) (f64_of_Z T)) st /\ Rabs (st - 255 / IZR T) <= e44 / 4 /\ 0 <= st <= 255.
Proof.
  intros HT. assert (T0 := IZR_le _ _ (proj1 HT)). assert (T1 := IZR_le _ _ (proj2 HT)).
  assert (F1 : fin (f64_of_Z 255) 255) by (apply of_Z_exact; vm_compute; discriminate).
  assert (F2 : fin (f64_of_Z T) (IZR T)) by (apply of_Z_exact; change (2 ^ prec64)%Z with 9007199254740992%Z; lia).
  assert (I0 : 0 < / IZR T) by (apply Rinv_0_lt_compat; lra). assert (I1 : / IZR T <= 1) by (rewrite <- Rinv_1; apply Rinv_le; lra).
  assert (Q : 0 <= 255 / IZR T <= 255) by (unfold Rdiv; lra).
  exists (rnd64 (255 / IZR T)). split; [|split].
  - apply (div_fin _ _ _ _ _ _ _ _ 8%Z F1 F2); [intros X; lra|vm_compute; split; [discriminate|reflexivity]|].
    change (bpow radix2 8) with 256. apply Rabs_le. lra.
  - replace (e44 / 4) with (bpow radix2 (8 - prec64) / 2).
    + apply rnd_err; [exact prec64_gt_0|vm_compute; discriminate|]. change (bpow radix2 8) with 256. apply Rabs_lt. lra.
    + change (bpow radix2 (8 - prec64)) with (/ 35184372088832). field.
  - split.
    + apply rnd64_ge_fmt; [apply generic_format_0|lra].
    + apply (rnd_le_gen prec64 emax64); [exact prec64_gt_0| |lra]. apply fmt_int; [exact prec64_gt_0|exact prec64_lt_emax|vm_compute; discriminate].
Qed.

Definition close (T : Z) (x : R) (g : Z) : Prop := Rabs (x - 255 * IZR g / IZR T) <= IZR g * e44.

Lemma close_range T x g : (1 <= T <= 1048576)%Z -> (0 <= g <= T)%Z -> close T x g -> -1 <= x <= 256.
Proof.
  intros HT Hg C. assert (T0 := IZR_le _ _ (proj1 HT)). assert (T1 := IZR_le _ _ (proj2 HT)).
  assert (G0 := IZR_le _ _ (proj1 Hg)). assert (G1 := IZR_le _ _ (proj2 Hg)). change (IZR 0) with 0 in *.
  assert (I0 : 0 < / IZR T) by (apply Rinv_0_lt_compat; lra).
  assert (Q0 : 0 <= IZR g * / IZR T) by (apply Rmult_le_pos; lra).
  assert (Q1 : IZR g * / IZR T <= 1). { rewrite <- (Rinv_r (IZR T)) by lra. apply Rmult_le_compat_r; lra. }
  unfold close in C. replace (255 * IZR g / IZR T) with (255 * (IZR g * / IZR T)) in C by (unfold Rdiv; ring).
  apply Rabs_le_inv in C. lra.
Qed.

Lemma close_add T : (1 <= T <= 1048576)%Z -> forall s x g, fin s x -> close T x g -> (0 <= g < T)%Z ->
  exists x', fin (f64_add s (f64_div (f64_of_Z 255) (f64_of_Z T))) x' /\ close T x' (g + 1).
Proof.
  intros HT s x g Fs C Hg. destruct (step_fin T HT) as (st & Fst & E & R). pose proof (close_range T x g HT ltac:(lia) C) as X.
  exists (rnd64 (x + st)). split.
  - apply (plus_fin _ _ _ _ _ _ _ _ 9%Z Fs Fst); [vm_compute; split; [discriminate|reflexivity]|]. change (bpow radix2 9) with 512. apply Rabs_le. lra.
  - assert (D : Rabs (rnd64 (x + st) - (x + st)) <= e44 / 2).
    { replace (e44 / 2) with (bpow radix2 (9 - prec64) / 2).
      - apply rnd_err; [exact prec64_gt_0|vm_compute; discriminate|]. change (bpow radix2 9) with 512. apply Rabs_lt. lra.
      - change (bpow radix2 (9 - prec64)) with (/ 17592186044416). field. }
    unfold close in *. rewrite plus_IZR. assert (T0 := IZR_le _ _ (proj1 HT)).
    replace (255 * (IZR g + 1) / IZR T) with (255 * IZR g / IZR T + 255 / IZR T) by (field; lra).
    apply Rabs_le_inv in C. apply Rabs_le_inv in D. apply Rabs_le_inv in E. apply Rabs_le. lra.
Qed.

Lemma close_0 T : close T 0 0.
Proof. unfold close. change (IZR 0) with 0. unfold Rdiv. rewrite !Rmult_0_r, !Rmult_0_l, Rminus_0_r, Rabs_R0. lra. Qed.

Lemma close_cross T x g : (1 <= T <= 1048576)%Z -> (0 <= g <= T)%Z -> close T x g -> Rabs (x * IZR T - IZR (255 * g)) < 1.
Proof.
  intros HT Hg C. assert (T0 := IZR_le _ _ (proj1 HT)). assert (T1 := IZR_le _ _ (proj2 HT)).
  assert (G0 := IZR_le _ _ (proj1 Hg)). assert (G1 := IZR_le _ _ (proj2 Hg)). change (IZR 0) with 0 in *.
  rewrite mult_IZR. replace (x * IZR T - 255 * IZR g) with ((x - 255 * IZR g / IZR T) * IZR T) by (field; lra).
  rewrite Rabs_mult, (Rabs_pos_eq (IZR T)) by lra. unfold close in C.
  apply Rle_lt_trans with (IZR g * e44 * IZR T); [apply Rmult_le_compat_r; lra|].
  apply Rle_lt_trans with (1048576 * e44 * 1048576); [|lra].
  apply Rmult_le_compat; lra.
Qed.

Lemma low_cross T seed g : (1 <= T <= 1048576)%Z -> (0 <= g <= T)%Z -> (0 <= seed)%Z -> low seed (close T) g -> (255 * g <= seed * T)%Z.
Proof.
  intros HT Hg Hs [->|(x & C & L)]; [nia|]. pose proof (close_cross T x g HT Hg C) as D. apply Rabs_lt_inv in D.
  assert (T0 := IZR_le _ _ (proj1 HT)). apply Z.lt_succ_r. unfold Z.succ. apply lt_IZR. rewrite (plus_IZR (seed * T)), (mult_IZR seed).
  assert (x * IZR T <= IZR seed * IZR T) by (apply Rmult_le_compat_r; lra). lra.
Qed.

Lemma high_cross T seed g : (1 <= T <= 1048576)%Z -> (0 <= g <= T)%Z -> high seed (close T) g -> (seed * T <= 255 * g)%Z.
Proof.
  intros HT Hg (x & C & L). pose proof (close_cross T x g HT Hg C) as D. apply Rabs_lt_inv in D.
  assert (T0 := IZR_le _ _ (proj1 HT)). apply Z.lt_succ_r. unfold Z.succ. apply lt_IZR. rewrite (plus_IZR (255 * g)), (mult_IZR seed).
  assert (IZR seed * IZR T <= x * IZR T) by (apply Rmult_le_compat_r; lra). lra.
Qed.

Lemma tenth_fin : exists t, fin tenth t /\ / 16 <= t.
Proof.
  assert (F1 : fin (f64_of_Z 1) 1) by (apply of_Z_exact; vm_compute; discriminate).
  assert (F2 : fin (f64_of_Z 10) 10) by (apply of_Z_exact; vm_compute; discriminate).
  exists (rnd64 (1 / 10)). split.
  - apply (div_fin _ _ _ _ _ _ _ _ 1%Z F1 F2); [lra|vm_compute; split; [discriminate|reflexivity]|]. change (bpow radix2 1) with 2. apply Rabs_le. lra.
  - apply rnd64_ge_fmt; [|lra]. change (/ 16) with (bpow radix2 (-4)). apply generic_format_bpow. vm_compute. discriminate.
Qed.

Lemma near_enough seed s x : (0 <= seed <= 255)%Z -> fin s x -> Rabs (IZR seed - x) <= / 32 ->
  f64_lt tenth (Babs (f64_sub (f64_of_Z seed) s)) = false.
Proof.
  intros Hs Fs D. destruct tenth_fin as (t & Ft & Ht).
  assert (F1 : fin (f64_of_Z seed) (IZR seed)) by (apply of_Z_exact; change (2 ^ prec64)%Z with 9007199254740992%Z; lia).
  assert (F2 : fin (f64_sub (f64_of_Z seed) s) (rnd64 (IZR seed - x))).
  { apply (minus_fin _ _ _ _ _ _ _ _ 1%Z F1 Fs); [vm_compute; split; [discriminate|reflexivity]|]. change (bpow radix2 1) with 2. lra. }
  assert (D2 : Rabs (rnd64 (IZR seed - x)) <= / 32).
  { apply abs_round_le_generic; try typeclasses eauto; [|exact D]. change (/ 32) with (bpow radix2 (-5)). apply generic_format_bpow. vm_compute. discriminate. }
  destruct Ft as [Ff Ft], F2 as [Gf Gt]. unfold f64_lt. rewrite Bltb_correct; [|exact Ff|rewrite is_finite_Babs; exact Gf].
  rewrite B2R_Babs, Ft, Gt. apply Rlt_bool_false. lra.
Qed.

Local Open Scope Z_scope.

Lemma before_le vs : Forall (fun v => 0 <= offers v) vs -> forall m v, nth_error vs m = Some v -> 0 <= offers_before vs m /\ offers_before vs m + offers v <= total_offers vs.
Proof.
  intros H. induction H as [|w vs Hw H IH]; intros m v E; [destruct m; discriminate E|].
  change (total_offers (w :: vs)) with (offers w + total_offers vs).
  assert (N : 0 <= total_offers vs) by (apply sum_nonneg; rewrite Forall_map; exact H).
  destruct m as [|m]; [injection E as ->; change (offers_before (v :: vs) 0) with 0; lia|].
  change (offers_before (w :: vs) (S m)) with (offers w + offers_before vs m). specialize (IH m v E). lia.
Qed.

Lemma before_last vs : Forall (fun v => 0 <= offers v) vs -> forall m v w, nth_error vs m = Some v -> offers_before vs m + offers v = total_offers vs ->
  nth_error vs (length vs - 1) = Some w -> 1 <= offers w -> m = (length vs - 1)%nat.
Proof.
  intros H m v w E S L O. assert (Lm : (m < length vs)%nat) by (apply nth_error_Some; congruence).
  destruct (Nat.eq_dec m (length vs - 1)) as [X|X]; [exact X|].
  pose proof (before_le vs H _ _ L) as B.
  assert (G : offers_before vs m + offers v <= offers_before vs (length vs - 1)); [|lia].
  clear - H E X Lm. assert (Hm : (S m <= length vs - 1)%nat) by lia. clear X Lm. generalize dependent (length vs - 1)%nat. revert m v E.
  induction H as [|u vs Hu H IH]; intros m v E k Hk; [destruct m; discriminate E|].
  destruct k as [|k]; [lia|]. change (offers_before (u :: vs) (S k)) with (offers u + offers_before vs k).
  assert (N : forall j, 0 <= offers_before vs j).
  { intros j. apply sum_nonneg. rewrite Forall_map. apply Forall_forall. intros z Hz. rewrite Forall_forall in H. apply H. rewrite <- (firstn_skipn j vs). apply in_or_app. left. exact Hz. }
  destruct m as [|m].
  - injection E as ->. change (offers_before (v :: vs) 0) with 0. specialize (N k). lia.
  - change (offers_before (u :: vs) (S m)) with (offers u + offers_before vs m). specialize (IH m v E k ltac:(lia)). lia.
Qed.

Lemma pick_run vs seed : Forall (fun v => 0 <= offers v) vs -> 1 <= total_offers vs <= 1048576 -> 0 <= seed <= 255 ->
  exists j k i vs', VariantPicker vs seed = Ok (j, vs') /\ selected vs k i vs' /\ offered vs k i
    /\ 255 * (offers_before vs k + i) <= seed * total_offers vs <= 255 * (offers_before vs k + i + 1)
    /\ (j = k \/ j = (length vs - 1)%nat /\ seed = 255 /\ offers_before vs k + i + 1 = total_offers vs).
Proof.
  intros H HT Hs. unfold VariantPicker. rewrite (total_run vs H 0) by lia. cbn [rbind Z.add].
  assert (F0 : fin (f64_of_Z 0) 0%R) by (apply of_Z_exact; vm_compute; discriminate).
  pose proof (outer_run (total_offers vs) seed Hs _ _ (close_add _ HT) vs H 0 None 0 (f64_of_Z 0) 0%R F0 (close_0 _) ltac:(lia) ltac:(lia) (or_introl eq_refl)) as O.
  destruct (variants_outer _ _ _ _ _ _) as [[j i]|[s' last']].
  - destruct O as (m & -> & (v & E & Hi) & Lo & Hg). cbn [Nat.add Z.add] in *. pose proof (before_le vs H m v E).
    apply (low_cross _ _ _ HT) in Lo; [|lia|lia]. apply (high_cross _ _ _ HT) in Hg; [|lia].
    exists m, m, i, (select vs m i). split; [reflexivity|]. split; [exact (select_ok vs m i v E)|]. split; [exists v; split; assumption|].
    split; [lia|]. left. reflexivity.
  - destruct O as (x & Fx & Cx & Lx & D). cbn [Z.add] in *. destruct D as [[_ D]|(m & v & -> & E & O & D)]; [lia|].
    pose proof (low_cross _ seed (total_offers vs) HT ltac:(lia) (proj1 Hs) Lx) as S. assert (S255 : seed = 255) by nia. subst seed.
    rewrite (near_enough 255 s' x Hs Fx).
    + cbn [Nat.add]. rewrite E. change (GetVariantCount v) with (offers v). pose proof (before_le vs H m v E) as B. rewrite int_op_ok by lia. cbn [rbind].
      exists (length vs - 1)%nat, m, (offers v - 1), (select vs m (offers v - 1)). split; [reflexivity|]. split; [exact (select_ok vs m _ v E)|].
      split; [exists v; split; [exact E|lia]|]. split; [lia|]. right. split; [reflexivity|]. split; [reflexivity|]. lia.
    + unfold close in Cx. assert (T0 := IZR_le _ _ (proj1 HT)). assert (T1 := IZR_le _ _ (proj2 HT)).
      replace (255 * IZR (total_offers vs) / IZR (total_offers vs))%R with 255%R in Cx by (field; lra).
      apply Rabs_le_inv in Cx. apply Rabs_le. lra.
Qed.

(** ** Without rounding *)
Definition exact (c : Z) (x : R) (g : Z) : Prop := x = IZR (c * g).

Lemma exact_add T c : (1 <= T)%Z -> T * c = 255 -> forall s x g, fin s x -> exact c x g -> 0 <= g < T ->
  exists x', fin (f64_add s (f64_div (f64_of_Z 255) (f64_of_Z T))) x' /\ exact c x' (g + 1).
Proof.
  intros HT Hc s x g Fs C Hg. assert (Hc0 : 1 <= c <= 255) by nia. unfold exact in C. subst x.
  assert (F1 : fin (f64_of_Z 255) 255%R) by (apply of_Z_exact; vm_compute; discriminate).
  assert (F2 : fin (f64_of_Z T) (IZR T)) by (apply of_Z_exact; change (2 ^ prec64)%Z with 9007199254740992%Z; nia).
  assert (T0 : (1 <= IZR T)%R) by (apply IZR_le; lia).
  assert (Q : (255 / IZR T = IZR c)%R). { change 255%R with (IZR 255). rewrite <- Hc, mult_IZR. field. lra. }
  assert (C0 : (1 <= IZR c <= 255)%R) by (split; apply IZR_le; lia).
  assert (Fst : fin (f64_div (f64_of_Z 255) (f64_of_Z T)) (IZR c)).
  { rewrite <- (rnd_id prec64 emax64 (IZR c)) by (apply fmt_int; [exact prec64_gt_0|exact prec64_lt_emax|change (2 ^ prec64)%Z with 9007199254740992%Z; lia]).
    rewrite <- Q. apply (div_fin _ _ _ _ _ _ _ _ 8%Z F1 F2); [intros X; lra|vm_compute; split; [discriminate|reflexivity]|].
    rewrite Q. change (bpow radix2 8) with 256%R. apply Rabs_le. lra. }
  assert (E : (IZR (c * g) + IZR c = IZR (c * (g + 1)))%R) by (rewrite <- plus_IZR; f_equal; lia).
  exists (IZR (c * (g + 1))). split; [|reflexivity].
  rewrite <- (rnd_id prec64 emax64 (IZR (c * (g + 1)))) by (apply fmt_int; [exact prec64_gt_0|exact prec64_lt_emax|change (2 ^ prec64)%Z with 9007199254740992%Z; nia]).
  rewrite <- E. apply (plus_fin _ _ _ _ _ _ _ _ 8%Z Fs Fst); [vm_compute; split; [discriminate|reflexivity]|].
  rewrite E. change (bpow radix2 8) with 256%R. assert (0 <= IZR (c * (g + 1)) <= 255)%R by (split; apply IZR_le; nia). apply Rabs_le. lra.
Qed.

Lemma pick_exact vs seed : Forall (fun v => 0 <= offers v) vs -> 1 <= total_offers vs -> (total_offers vs | 255) -> 0 <= seed <= 255 ->
  exists k i vs', VariantPicker vs seed = Ok (k, vs') /\ selected vs k i vs' /\ offered vs k i
    /\ (offers_before vs k + i = 0 \/ 255 * (offers_before vs k + i) < seed * total_offers vs)
    /\ seed * total_offers vs <= 255 * (offers_before vs k + i + 1).
Proof.
  intros H HT (c & Hc) Hs. assert (Hc' : total_offers vs * c = 255) by (rewrite Hc; ring). assert (Hc1 : 1 <= c) by (destruct (Z_le_gt_dec c 0); nia). assert (HT2 : total_offers vs <= 255) by nia.
  unfold VariantPicker. rewrite (total_run vs H 0) by lia. cbn [rbind Z.add].
  assert (F0 : fin (f64_of_Z 0) 0%R) by (apply of_Z_exact; vm_compute; discriminate).
  pose proof (outer_run (total_offers vs) seed Hs _ _ (exact_add _ c HT Hc') vs H 0 None 0 (f64_of_Z 0) 0%R F0) as O.
  specialize (O ltac:(unfold exact; rewrite Z.mul_0_r; reflexivity) ltac:(lia) ltac:(lia) (or_introl eq_refl)).
  destruct (variants_outer _ _ _ _ _ _) as [[j i]|[s' last']].
  - destruct O as (m & -> & (v & E & Hi) & Lo & (x & Hx & Hg)). cbn [Nat.add Z.add] in *. unfold exact in Hx. subst x. apply le_IZR in Hg.
    exists m, i, (select vs m i). split; [reflexivity|]. split; [exact (select_ok vs m i v E)|]. split; [exists v; split; assumption|].
    split; [|nia]. destruct Lo as [Lo|(x & Hx & Lo)]; [left; exact Lo|right]. unfold exact in Hx. subst x. apply lt_IZR in Lo. nia.
  - destruct O as (x & Fx & Cx & Lx & D). cbn [Z.add] in *. exfalso. destruct Lx as [Lx|(y & Hy & Lx)]; [lia|]. unfold exact in Hy. subst y. apply lt_IZR in Lx. nia.
Qed.
