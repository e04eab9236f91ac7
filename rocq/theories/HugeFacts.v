(** Galleys and data of 2 GiB and more. *)
From Coq Require Import ZArith Reals Lia Lra.
From Flocq Require Import Core.Core IEEE754.BinarySingleNaN.
From Verif Require Import Base BaseFacts FloatModel FloatFacts Oracle Arithm Sim Galley VectorSpec VectorFacts VectorUnbounded SetSpec SetFloat SetFacts SetRun SetLimits HugeSpec.
Local Open Scope Z_scope.

(** ** Operations that succeed do the same with more data behind *)
Definition stretch {A} (f : M bytes A) : Prop := forall (l : bytes) v l', f l = (Ok v, l') -> forall q : bytes, f (l ++ q) = (Ok v, l' ++ q).

Lemma st_ret {A} (a : A) : stretch (ret a).
Proof. intros l v l' [= <- <-] q. reflexivity. Qed.
Lemma st_lift {A} (r : res A) : stretch (lift r).
Proof. intros l v l' [= -> <-] q. reflexivity. Qed.
Lemma st_bind {A C} (f : M bytes A) (g : A -> M bytes C) : stretch f -> (forall a, stretch (g a)) -> stretch (bind f g).
Proof.
  intros F G l v l' E q. unfold bind in *. destruct (f l) as [[a| | | |] l1] eqn:Q; try discriminate. rewrite (F _ _ _ Q q). apply G. exact E.
Qed.
Lemma st_chop n : stretch (Chop n).
Proof.
  intros l v l' E q. cbn [Chop ListOps] in *. destruct (zlen l <? n) eqn:Q; [discriminate|]. injection E as <- <-.
  pose proof (zlen_nonneg q). replace (zlen (l ++ q) <? n) with false by (rewrite zlen_app; lia).
  assert (L : (Z.to_nat n <= length l)%nat) by (unfold zlen in Q; lia).
  rewrite firstn_app, skipn_app. replace (Z.to_nat n - length l)%nat with 0%nat by lia. cbn [firstn skipn]. rewrite app_nil_r. reflexivity.
Qed.
Lemma st_oracle : stretch GetOracle.
Proof. apply st_bind; [apply st_chop|]. intros c. apply st_bind; [apply st_lift|]. intros w. apply st_ret. Qed.

Lemma st_modifiers nu L : forall p t, stretch (read_modifiers nu L p t).
Proof.
  induction L as [|[mn mx] L IH]; intros p t; cbn [read_modifiers]; [apply st_ret|]. destruct (isFixedSize mn mx).
  - apply st_bind; [apply IH|]. intros x. apply st_ret.
  - apply st_bind.
    + destruct (isUnbounded mn mx && (nu <=? 1)); [apply st_ret|]. apply st_bind; [apply st_oracle|]. intros o. apply st_ret.
    + intros m. apply st_bind; [|intros x; apply st_ret]. destruct (isUnbounded mn mx); [apply IH|]. apply st_bind; [apply st_lift|]. intros d. apply IH.
Qed.

Lemma st_chunks L : forall ms kv ku vr ur, stretch (set_chunks L ms kv ku vr ur).
Proof.
  induction L as [|[mn mx] L IH]; intros [|m ms] kv ku vr ur; cbn [set_chunks]; try apply st_ret.
  apply st_bind; [apply st_lift|]. intros s. apply st_bind; [apply st_chop|]. intros c. apply st_bind; [apply IH|]. intros r. apply st_ret.
Qed.

(** ** Sets without variated stamps *)

(** The division of [F] bytes above the minimum. *)
Definition divide (L : list (Z * Z)) (F : Z) : M bytes (list bytes) :=
  x <- read_modifiers (count unb L) L (f64_of_Z 0) (f64_of_Z 0) ;;
  let mt := if f64_eq (snd x) (f64_of_Z 0) then reset_modifiers L (fst (fst x)) (f64_of_Z 0) else (fst (fst x), snd x) in
  set_chunks L (fst mt) (f64_of_Z 1) (if 0 <? count unb L then f64_div (f64_of_Z F) (snd mt) else f64_of_Z 1) (f64_of_Z 0) (f64_of_Z 0).

Lemma st_divide L F : stretch (divide L F).
Proof. apply st_bind; [apply st_modifiers|]. intros x. apply st_chunks. Qed.

Lemma no_prediction nu L : Forall stamp_ok L -> count var L = 0 -> forall p t (l : bytes) x l',
  read_modifiers nu L p t l = (Ok x, l') -> snd (fst x) = p.
Proof.
  induction L as [|s L IH]; intros HL HV p t l x l' E.
  - cbn in E. injection E as <- <-. reflexivity.
  - pose proof (Forall_inv HL) as Hs. apply Forall_inv_tail in HL. rewrite count_cons in HV. pose proof (count_nonneg var L) as V0.
    assert (Vs : var s = false) by (destruct (var s); [lia|reflexivity]). rewrite Vs in HV. destruct s as [mn mx]. cbn [read_modifiers] in E.
    change (isFixedSize mn mx) with (fixed (mn, mx)) in E. change (isUnbounded mn mx) with (unb (mn, mx)) in E.
    destruct (kind_cases _ Hs) as [(-> & KU & _ & _)|[(-> & KU & _ & _)|(_ & _ & K & _)]] in E.
    + unfold bind in E. destruct (read_modifiers nu L p t l) as [[y| | | |] l1] eqn:Q; try discriminate. injection E as <- <-. exact (IH HL HV _ _ _ _ _ Q).
    + rewrite KU in E. unfold bind at 1 in E. match type of E with context [match ?f l with _ => _ end] => destruct (f l) as [[m| | | |] l1] end; try discriminate. unfold bind at 1 in E.
      destruct (read_modifiers nu L p (f64_add t m) l1) as [[y| | | |] l2] eqn:Q; try discriminate. injection E as <- <-. exact (IH HL HV _ _ _ _ _ Q).
    + congruence.
Qed.

Lemma below_zero z : - 2 ^ 31 <= z <= 0 -> f64_lt (f64_of_Z 0) (f64_of_Z z) = false.
Proof.
  intros H. pose proof (of_Z_exact prec64 emax64 prec64_gt_0 prec64_lt_emax z ltac:(cbn; lia)) as E.
  pose proof (of_Z_exact prec64 emax64 prec64_gt_0 prec64_lt_emax 0 ltac:(cbn; lia)) as E0.
  apply (eq_trans (blt_fin _ _ _ _ E0 E)). apply Rlt_bool_false. apply IZR_le. lia.
Qed.

Lemma set_divide L (l : bytes) : set_ok L -> count var L = 0 -> min_total L <= zlen l < 2 ^ 64 ->
  set_extract L l = divide L (Z.max 0 (i32 (zlen l - min_total L))) l.
Proof.
  intros (HL & Hm & HX) HV Hl. pose proof (min_total_ge L HL) as MT. pose proof (max_extra_nonneg L) as X0.
  pose proof (i32_range (zlen l - min_total L)) as RA. unfold set_extract.
  rewrite (bind_lift_ok _ _ _ _ (set_totals_run L (mkTotals 0 0 0 0) HL ltac:(cbn; lia) ltac:(cbn; lia) ltac:(cbn [t_fixed]; lia) ltac:(cbn [t_maxvar]; lia))).
  cbn [t_fixed t_maxvar t_unb t_var]. rewrite !Z.add_0_l. rewrite set_fixed_total_run by assumption.
  rewrite bind_gets. cbn [Size ListOps]. rewrite u64_id by lia.
  destruct (zlen l <? min_total L) eqn:Q; [lia|]. rewrite HV. change (0 <? 0) with false. cbn [andb].
  assert (EX : max_extra L = 0).
  { clear - HL HV. induction L as [|s L IH]; [reflexivity|]. pose proof (count_nonneg var L) as V0. rewrite count_cons in HV.
    assert (Vs : var s = false) by (destruct (var s); [lia|reflexivity]). rewrite Vs in HV. rewrite max_extra_cons, Vs, IH; [reflexivity|exact (Forall_inv_tail HL)|lia]. }
  rewrite EX. set (A := i32 (zlen l - min_total L)) in *. rewrite bind_ret.
  assert (Hlim : (if A <? 0 then A else 0) = Z.min A 0) by (destruct (A <? 0) eqn:C; lia). rewrite Hlim. unfold divide.
  unfold bind at 1 4. destruct (read_modifiers (count unb L) L (f64_of_Z 0) (f64_of_Z 0) l) as [[x| | | |] l1] eqn:R; try reflexivity.
  rewrite (no_prediction _ L HL HV _ _ _ _ _ R). rewrite below_zero by lia.
  rewrite (bind_lift_ok _ _ _ (Z.min A 0)) by reflexivity.
  rewrite (bind_lift_ok _ _ _ (Z.max 0 A)); [reflexivity|]. rewrite int_op_ok by lia. f_equal. lia.
Qed.

(** ** Nothing above the minimum: everyone gets the minimum *)
Lemma fair_zero ws es k e : fair 0 ws es -> 0 < sum ws -> nth_error es k = Some e -> e = 0.
Proof.
  intros [_ H] W0 He. pose proof (H k) as H0. pose proof (H (S k)) as H1.
  assert (Q : forall (xs : list Z) x, nth_error xs k = Some x -> sum (firstn (S k) xs) = sum (firstn k xs) + x).
  { clear. induction k as [|k IH]; intros [|y xs] x Hx; try discriminate; cbn [nth_error] in Hx.
    - injection Hx as ->. cbn. lia.
    - rewrite firstn_cons, sum_cons, (IH xs x Hx). rewrite firstn_cons, sum_cons. lia. }
  rewrite (Q _ _ He) in H1. rewrite Z.mul_0_l, Z.sub_0_r in *. set (a := sum (firstn k es)) in *.
  assert (Y : forall b, 8 * Z.abs (b * sum ws) <= 5 * sum ws -> b = 0) by (intros b; rewrite Z.abs_mul, (Z.abs_eq (sum ws)) by lia; nia).
  pose proof (Y _ H0). pose proof (Y _ H1). lia.
Qed.

Lemma cut_minimum L l o0 os cs rest Fv Fu : set_ok L -> zlen L <= 65536 -> count var L = 0 -> set_cut L l o0 os cs rest Fv Fu ->
  zlen l = min_total L -> forall s c, In (s, c) (combine L cs) -> zlen c = fst s.
Proof.
  intros HS HN HV C Hl s c Hi. pose proof HS as (HL & Hm & HX).
  assert (Hs : stamp_ok s) by (rewrite Forall_forall in HL; apply HL; exact (in_combine_l _ _ _ _ Hi)).
  destruct (kind_cases _ Hs) as [(K & _)|[(_ & K & _)|(_ & _ & K & _)]].
  - exact (cut_fixed_size _ _ _ _ _ _ _ _ C s c Hi K).
  - destruct C as [C1 (C2 & C3 & C4 & C5) C6 C7 C8 C9 C10 [C11 C11'] [C12 C13]].
    destruct (weights_empty L os HV C4) as [_ M0]. unfold limit in C11. rewrite M0 in C11.
    assert (both L = false) as B0 by (unfold both; rewrite HV; reflexivity). rewrite B0 in C11. unfold avail in *.
    assert (Fu = 0) as -> by lia.
    destruct (unb_mods L os HL C3 C4 HN) as (_ & _ & _ & q & _ & _ & Wn & Ws & _).
    destruct (kind_position unb L Z os cs s c C4 C5 Hi K) as (k & w & H1 & H2 & H3).
    assert (0 < count unb L). { rewrite <- (of_kind_len unb L os C4). destruct (of_kind unb L os); [destruct k; discriminate|]. rewrite zlen_cons. pose proof (zlen_nonneg l0). lia. }
    pose proof (fair_zero _ _ _ _ C8 ltac:(specialize (Ws H); lia) H2). lia.
  - exfalso. clear - HV Hi K. apply in_combine_l in Hi. unfold count in HV. assert (In s (filter var L)) as X by (apply filter_In; auto).
    destruct (filter var L); [destruct X|]. rewrite zlen_cons in HV. pose proof (zlen_nonneg l). lia.
Qed.

(** ** Any set: the front of the data decides *)
Definition steady {A} (f : M bytes A) : Prop := stretch f /\ forall l q : bytes, fst (f l) = UB -> fst (f (l ++ q)) = UB.

Lemma sd_ret {A} (a : A) : steady (ret a).
Proof. split; [apply st_ret|]. intros l q H. discriminate H. Qed.
Lemma sd_lift {A} (r : res A) : steady (lift r).
Proof. split; [apply st_lift|]. intros l q H. exact H. Qed.
Lemma sd_bind {A C} (f : M bytes A) (g : A -> M bytes C) : steady f -> (forall a, steady (g a)) -> steady (bind f g).
Proof.
  intros [F1 F2] G. split; [apply st_bind; [exact F1|]; intros a; apply G|]. intros l q H. unfold bind in *.
  specialize (F2 l q). destruct (f l) as [[a| | | |] l1] eqn:Q; try discriminate.
  - rewrite (F1 _ _ _ Q q). apply G. exact H.
  - specialize (F2 eq_refl). destruct (f (l ++ q)) as [[a| | | |] l2]; try discriminate F2. reflexivity.
Qed.
Lemma sd_chop n : steady (Chop n).
Proof. split; [apply st_chop|]. intros l q H. cbn [Chop ListOps] in H. destruct (zlen l <? n); discriminate H. Qed.
Lemma sd_oracle : steady GetOracle.
Proof. apply sd_bind; [apply sd_chop|]. intros c. apply sd_bind; [apply sd_lift|]. intros w. apply sd_ret. Qed.

Lemma sd_modifiers nu L : forall p t, steady (read_modifiers nu L p t).
Proof.
  induction L as [|[mn mx] L IH]; intros p t; cbn [read_modifiers]; [apply sd_ret|]. destruct (isFixedSize mn mx).
  - apply sd_bind; [apply IH|]. intros x. apply sd_ret.
  - apply sd_bind.
    + destruct (isUnbounded mn mx && (nu <=? 1)); [apply sd_ret|]. apply sd_bind; [apply sd_oracle|]. intros o. apply sd_ret.
    + intros m. apply sd_bind; [|intros x; apply sd_ret]. destruct (isUnbounded mn mx); [apply IH|]. apply sd_bind; [apply sd_lift|]. intros d. apply IH.
Qed.

Lemma sd_chunks L : forall ms kv ku vr ur, steady (set_chunks L ms kv ku vr ur).
Proof.
  induction L as [|[mn mx] L IH]; intros [|m ms] kv ku vr ur; cbn [set_chunks]; try apply sd_ret.
  apply sd_bind; [apply sd_lift|]. intros s. apply sd_bind; [apply sd_chop|]. intros c. apply sd_bind; [apply IH|]. intros r. apply sd_ret.
Qed.

Definition body (L : list (Z * Z)) (t : totals) (avail : Z) : M bytes (list bytes) :=
  let has_var := 0 <? t_var t in
  let has_unb := 0 <? t_unb t in
  let limit0 := if avail <? t_maxvar t then avail else t_maxvar t in
  limit <- (if has_var && has_unb then
              o <- GetOracle ;;
              p <- lift (to_int (Bround_Z (f64_mul (f64_div (f64_of_Z o) (f64_of_Z ORACLE_MAX)) (f64_of_Z avail)))) ;;
              ret (if p <? limit0 then p else limit0)
            else ret limit0) ;;
  x <- read_modifiers (t_unb t) L (f64_of_Z 0) (f64_of_Z 0) ;;
  let mods0 := fst (fst x) in
  let pred := snd (fst x) in
  let totu0 := snd x in
  let mt := if f64_eq totu0 (f64_of_Z 0) then reset_modifiers L mods0 (f64_of_Z 0) else (mods0, totu0) in
  final_var <- lift (if f64_lt pred (f64_of_Z limit) then to_int (Bround_Z pred) else Ok limit) ;;
  let kv := if has_var then f64_div (f64_of_Z final_var) pred else f64_of_Z 1 in
  final_unb <- lift (int_op (avail - final_var)) ;;
  let ku := if has_unb then f64_div (f64_of_Z final_unb) (snd mt) else f64_of_Z 1 in
  set_chunks L (fst mt) kv ku (f64_of_Z 0) (f64_of_Z 0).

Lemma sd_body L t a : steady (body L t a).
Proof.
  unfold body. cbv zeta. apply sd_bind.
  - destruct (_ && _); [|apply sd_ret]. apply sd_bind; [apply sd_oracle|]. intros o. apply sd_bind; [apply sd_lift|]. intros p. apply sd_ret.
  - intros lim. apply sd_bind; [apply sd_modifiers|]. intros x. apply sd_bind; [apply sd_lift|]. intros fv.
    apply sd_bind; [apply sd_lift|]. intros fu. apply sd_chunks.
Qed.

Lemma set_body L : set_ok L -> exists t, forall l : bytes, min_total L <= zlen l < 2 ^ 64 ->
  set_extract L l = body L t (i32 (zlen l - min_total L)) l.
Proof.
  intros (HL & Hm & HX). pose proof (min_total_ge L HL) as MT. pose proof (max_extra_nonneg L) as X0.
  exists (mkTotals 0 (max_extra L) (count unb L) (count var L)). intros l Hl. unfold set_extract.
  rewrite (bind_lift_ok _ _ _ _ (set_totals_run L (mkTotals 0 0 0 0) HL ltac:(cbn; lia) ltac:(cbn; lia) ltac:(cbn [t_fixed]; lia) ltac:(cbn [t_maxvar]; lia))).
  rewrite bind_gets. cbn [Size ListOps]. cbn [t_fixed t_maxvar t_unb t_var]. rewrite !Z.add_0_l. rewrite set_fixed_total_run by assumption. rewrite u64_id by lia.
  destruct (zlen l <? min_total L) eqn:Q; [lia|]. reflexivity.
Qed.

(** The size as an int does not change with 2^32 bytes more. *)
Lemma set_front L (p q : bytes) : set_ok L -> min_total L <= zlen p -> zlen (p ++ q) < 2 ^ 64 -> zlen q mod 2 ^ 32 = 0 ->
  (forall cs rest, set_extract L p = (Ok cs, rest) -> set_extract L (p ++ q : bytes) = (Ok cs, rest ++ q))
  /\ (fst (set_extract L p) = UB -> fst (set_extract L (p ++ q : bytes)) = UB).
Proof.
  intros HS Hp Hl Hq. destruct (set_body L HS) as (t & T). pose proof (zlen_nonneg q) as Q0. rewrite zlen_app in Hl.
  rewrite (T p) by lia. pose proof (T (p ++ q) ltac:(rewrite zlen_app; lia)) as Tq.
  change (@set_extract (list byte)) with (@set_extract bytes) in *. rewrite Tq.
  replace (i32 (zlen (p ++ q) - min_total L)) with (i32 (zlen p - min_total L)).
  - destruct (sd_body L t (i32 (zlen p - min_total L))) as [S1 S2]. split; [intros cs rest E; exact (S1 _ _ _ E q)|apply S2].
  - rewrite zlen_app. unfold i32. pose proof (Z.div_mod (zlen q) (2 ^ 32) ltac:(lia)) as D. rewrite Hq in D.
    replace (zlen p + zlen q - min_total L + 2 ^ 31) with (zlen p - min_total L + 2 ^ 31 + (zlen q / 2 ^ 32) * 2 ^ 32) by lia.
    rewrite Z_mod_plus_full. reflexivity.
Qed.
