(** Even shares of 8-byte oracles. *)
From Coq Require Import ZArith Reals Lia Lra Psatz.
From Flocq Require Import Core.Core Mult_error IEEE754.BinarySingleNaN.
From Verif Require Import Base BaseFacts FloatModel FloatFacts Arithm StampDict PickFacts FairSpec FairFacts.
Local Open Scope R_scope.

(** The quotient by 2^64 is not rounded. *)
Lemma quotient_exact o : (0 <= o)%Z -> rnd64 (rnd64 (IZR o) / bpow radix2 64) = rnd64 (IZR o) / bpow radix2 64.
Proof.
  intros Ho. destruct (Z.eq_dec o 0) as [->|N].
  - rewrite (rnd64_int 0) by lia. unfold Rdiv. rewrite Rmult_0_l. apply (rnd64_int 0). lia.
  - assert (F : fmt64 (rnd64 (IZR o))) by (apply rnd_fmt; exact prec64_gt_0).
    assert (G : 1 <= rnd64 (IZR o)) by (apply rnd64_ge_fmt; [exact fmt64_1|apply IZR_le; lia]).
    revert F G. generalize (rnd64 (IZR o)). intros r F G.
    apply rnd_id. unfold Rdiv. rewrite <- bpow_opp. rewrite fexp_FLT in *.
    apply (mult_bpow_exact_FLT radix2 (3 - emax64 - prec64) prec64); [exact F|].
    assert (M : (1 <= mag radix2 r)%Z).
    { apply mag_ge_bpow. rewrite Rabs_pos_eq by lra. exact G. }
    unfold emax64, prec64 in *. lia.
Qed.

Lemma pick_real_8 o n : (0 <= o <= 2 ^ 64 - 1)%Z -> (1 <= n <= 2 ^ 53)%Z ->
  Rabs (pick_real o (2 ^ 64 - 1) n * IZR (2 ^ 64) - IZR (o * n)) <= 4097 * IZR n.
Proof.
  intros Ho Hn. unfold pick_real. rewrite rnd64_max, quotient_exact by lia.
  set (ro := rnd64 (IZR o)).
  assert (B : bpow radix2 64 = IZR (2 ^ 64)) by (apply bpow_IZR; lia). rewrite B.
  set (T := IZR (2 ^ 64)) in *. assert (HT : T = 18446744073709551616) by reflexivity.
  assert (O0 : 0 <= IZR o <= T) by (split; apply IZR_le; lia).
  assert (N0 : 1 <= IZR n) by (apply IZR_le; lia).
  assert (E1 : IZR o * (1 - bpow radix2 (- prec64)) <= ro <= IZR o * (1 + bpow radix2 (- prec64))).
  { apply rnd_rel_pos; [exact prec64_gt_0|tauto|]. destruct (Z.eq_dec o 0) as [->|N]; [left; reflexivity|right].
    apply Rle_trans with 1; [apply (bpow_le radix2 _ 0); vm_compute; discriminate|apply IZR_le; lia]. }
  assert (R0 : 0 <= ro) by (apply rnd64_ge_fmt; [exact fmt64_0|tauto]).
  assert (R1 : ro = 0 \/ 1 <= ro).
  { destruct (Z.eq_dec o 0) as [->|N]; [left; unfold ro; apply (rnd64_int 0); lia|right].
    apply rnd64_ge_fmt; [exact fmt64_1|apply IZR_le; lia]. }
  set (p := ro / T * IZR n).
  assert (P0 : 0 <= p).
  { unfold p. apply Rmult_le_pos; [|lra]. apply Rmult_le_pos; [exact R0|]. left. apply Rinv_0_lt_compat. lra. }
  assert (E2 : p * (1 - bpow radix2 (- prec64)) <= rnd64 p <= p * (1 + bpow radix2 (- prec64))).
  { apply rnd_rel_pos; [exact prec64_gt_0|exact P0|]. destruct R1 as [R1|R1]; [left; unfold p; rewrite R1; unfold Rdiv; ring|right].
    apply Rle_trans with (bpow radix2 (-64)); [apply bpow_le; vm_compute; discriminate|].
    change (-64)%Z with (- (64))%Z. rewrite bpow_opp, B. unfold p, Rdiv.
    assert (I : 0 < / T) by (apply Rinv_0_lt_compat; lra). 
    replace (ro * / T * IZR n) with (/ T * (ro * IZR n)) by ring. rewrite <- (Rmult_1_r (/ T)) at 1.
    apply Rmult_le_compat_l; [lra|]. clear - R1 N0. nra. }
  assert (Ee : bpow radix2 (- prec64) = / 9007199254740992) by reflexivity. rewrite Ee in *. clear Ee B.
  assert (PT : p * T = ro * IZR n) by (unfold p; field; lra).
  rewrite mult_IZR. set (x := rnd64 p) in *.
  assert (X : ro * IZR n * (1 - / 9007199254740992) <= x * T <= ro * IZR n * (1 + / 9007199254740992)) by (rewrite <- PT; nra).
  assert (Y : IZR o * IZR n * (1 - / 9007199254740992) <= ro * IZR n <= IZR o * IZR n * (1 + / 9007199254740992)) by nra.
  assert (Z0 : 0 <= IZR o * IZR n <= 18446744073709551616 * IZR n) by nra.
  apply Rabs_le. clear - X Y Z0. lra.
Qed.

Lemma pick_cut_8 n : (1 <= n <= 2 ^ 53)%Z ->
  exists t, even_parts (2 ^ 64) n (n * 8195) t
    /\ forall i o, (0 <= i < n)%Z -> (0 <= o <= 2 ^ 64 - 1)%Z -> ((t i <= o < t (i + 1))%Z <-> pick_index o (2 ^ 64 - 1) n = Ok i).
Proof.
  intros Hn. set (mx := (2 ^ 64 - 1)%Z).
  assert (V : forall o, (0 <= o < 2 ^ 64)%Z -> (0 <= Zfloor (pick_real o mx n) <= n)%Z).
  { intros o Ho. assert (V := pick_real_range o mx n ltac:(unfold mx; lia) ltac:(unfold mx; lia) ltac:(lia)).
    split; [apply Zfloor_lub; tauto|]. apply le_IZR. apply Rle_trans with (1 := Zfloor_lb _). tauto. }
  assert (TP : 0 < IZR (2 ^ 64)) by (apply IZR_lt; lia).
  destruct (cut (fun o => pick_floor o mx n) (2 ^ 64) n (2 ^ 64) (4097 * n) (4097 * n)) as (t & T0 & TN & T1 & T2); try lia.
  - intros o o' H1 H2. pose proof (V o ltac:(lia)). pose proof (V o' ltac:(lia)).
    assert (X : (Zfloor (pick_real o mx n) <= Zfloor (pick_real o' mx n))%Z) by (apply Zfloor_le, pick_real_mono; unfold mx; lia).
    unfold pick_floor, step_inside. destruct (Z.eqb_spec (Zfloor (pick_real o mx n)) n), (Z.eqb_spec (Zfloor (pick_real o' mx n)) n); lia.
  - intros o Ho. pose proof (V o Ho). unfold pick_floor, step_inside. destruct (Z.eqb_spec (Zfloor (pick_real o mx n)) n); lia.
  - intros j o Hj Ho H.
    assert (Er := pick_real_8 o n ltac:(lia) ltac:(lia)). apply Rabs_le_inv in Er. fold mx in Er.
    assert (F : (j <= Zfloor (pick_real o mx n))%Z).
    { apply Zfloor_lub. apply Rmult_le_reg_r with (IZR (2 ^ 64)); [exact TP|]. apply IZR_le in H.
      rewrite plus_IZR, !mult_IZR in H. rewrite !mult_IZR in Er. lra. }
    unfold pick_floor, step_inside. destruct (Z.eqb_spec (Zfloor (pick_real o mx n)) n); lia.
  - intros j o Hj Ho H.
    assert (F : (j <= Zfloor (pick_real o mx n))%Z).
    { unfold pick_floor, step_inside in H. destruct (Z.eqb_spec (Zfloor (pick_real o mx n)) n); lia. }
    assert (Er := pick_real_8 o n ltac:(lia) ltac:(lia)). apply Rabs_le_inv in Er. fold mx in Er.
    apply IZR_le in F. pose proof (Zfloor_lb (pick_real o mx n)) as L.
    apply le_IZR. rewrite minus_IZR, !mult_IZR. rewrite mult_IZR in Er.
    assert (X : IZR j * IZR (2 ^ 64) <= pick_real o mx n * IZR (2 ^ 64)) by (apply Rmult_le_compat_r; lra). lra.
  - exists t. split.
    + split; [exact T0|]. split; [exact TN|]. intros i Hi. specialize (T1 i Hi). lia.
    + intros i o Hi Ho. rewrite pick_eq by (unfold mx; lia). rewrite T2 by (unfold mx in Ho; lia). unfold pick_floor.
      split; [intros ->; reflexivity|]. intros X. injection X as X. exact X.
Qed.

(** ** Oracles of 4 bytes *)
Lemma pick_real_4 o n : (0 <= o <= 2 ^ 32 - 1)%Z -> (1 <= n <= 2 ^ 53)%Z ->
  Rabs (pick_real o (2 ^ 32 - 1) n * IZR (2 ^ 32 - 1) - IZR (o * n)) <= IZR n / 524288.
Proof.
  intros Ho Hn. unfold pick_real. rewrite !rnd64_int by lia.
  set (T := IZR (2 ^ 32 - 1)) in *. assert (HT : T = 4294967295) by reflexivity.
  assert (O0 : 0 <= IZR o <= T) by (split; apply IZR_le; lia).
  assert (N0 : 1 <= IZR n) by (apply IZR_le; lia).
  assert (O1 : IZR o = 0 \/ 1 <= IZR o) by (destruct (Z.eq_dec o 0) as [->|N]; [left; reflexivity|right; apply IZR_le; lia]).
  set (q := IZR o / T). assert (IT : 0 < / T) by (apply Rinv_0_lt_compat; lra).
  assert (Ee : bpow radix2 (- prec64) = / 9007199254740992) by reflexivity.
  assert (B2 : bpow radix2 (2 - emax64) <= bpow radix2 (-40)) by (apply bpow_le; vm_compute; discriminate).
  change (bpow radix2 (-40)) with (/ 1099511627776) in B2.
  assert (Q0 : 0 <= q) by (unfold q, Rdiv; nra).
  assert (QT : q * T = IZR o) by (unfold q; field; lra).
  assert (Q1 : q = 0 \/ / 4294967296 <= q).
  { destruct O1 as [O1|O1]; [left; unfold q; rewrite O1; unfold Rdiv; ring|right].
    apply Rmult_le_reg_r with T; [lra|]. rewrite QT. lra. }
  assert (E1 : q * (1 - bpow radix2 (- prec64)) <= rnd64 q <= q * (1 + bpow radix2 (- prec64))).
  { apply rnd_rel_pos; [exact prec64_gt_0|exact Q0|]. destruct Q1 as [Q1|Q1]; [left; exact Q1|right]. lra. }
  rewrite Ee in E1. set (x := rnd64 q) in *.
  assert (X0 : 0 <= x) by (clear - E1 Q0; nra).
  assert (X1 : x = 0 \/ / 1099511627776 <= x) by (destruct Q1 as [Q1|Q1]; [left; rewrite Q1 in E1; lra|right; lra]).
  assert (E2 : x * IZR n * (1 - bpow radix2 (- prec64)) <= rnd64 (x * IZR n) <= x * IZR n * (1 + bpow radix2 (- prec64))).
  { apply rnd_rel_pos; [exact prec64_gt_0|nra|]. destruct X1 as [X1|X1]; [left; rewrite X1; ring|right]. nra. }
  rewrite Ee in E2. set (y := rnd64 (x * IZR n)) in *. rewrite mult_IZR, <- QT.
  assert (P : x * IZR n * T * (1 - / 9007199254740992) <= y * T <= x * IZR n * T * (1 + / 9007199254740992)) by (clear - E2 HT; nra).
  assert (P' : q * T * IZR n * (1 - / 9007199254740992) <= x * IZR n * T <= q * T * IZR n * (1 + / 9007199254740992)).
  { assert (NT : 0 <= IZR n * T) by nra. clear - E1 NT. nra. }
  assert (Z0 : 0 <= q * T * IZR n <= 4294967295 * IZR n) by (rewrite QT; nra).
  apply Rabs_le. clear - P P' Z0. lra.
Qed.

Lemma pick_cut_4 n : (1 <= n <= 2 ^ 32 - 1)%Z ->
  exists t, even_parts (2 ^ 32) n (n + n / 262144 + 3) t
    /\ forall i o, (0 <= i < n)%Z -> (0 <= o <= 2 ^ 32 - 1)%Z -> ((t i <= o < t (i + 1))%Z <-> pick_index o (2 ^ 32 - 1) n = Ok i).
Proof.
  intros Hn. set (mx := (2 ^ 32 - 1)%Z).
  assert (V : forall o, (0 <= o < 2 ^ 32)%Z -> (0 <= Zfloor (pick_real o mx n) <= n)%Z).
  { intros o Ho. assert (V := pick_real_range o mx n ltac:(unfold mx; lia) ltac:(unfold mx; lia) ltac:(lia)).
    split; [apply Zfloor_lub; tauto|]. apply le_IZR. apply Rle_trans with (1 := Zfloor_lb _). tauto. }
  assert (TP : 0 < IZR mx) by (apply IZR_lt; unfold mx; lia).
  set (e := (n / 524288 + 1)%Z).
  assert (De : (n <= e * 524288)%Z) by (unfold e; pose proof (Z.mod_pos_bound n 524288 ltac:(lia)); pose proof (Z.div_mod n 524288 ltac:(lia)); lia).
  assert (Re : IZR n / 524288 <= IZR e) by (apply IZR_le in De; rewrite mult_IZR in De; lra).
  assert (e0 : (1 <= e)%Z) by (unfold e; pose proof (Z.div_pos n 524288 ltac:(lia) ltac:(lia)); lia).
  assert (e2 : (2 * e <= n / 262144 + 2)%Z).
  { assert (2 * (n / 524288) <= n / 262144)%Z; [|unfold e; lia]. apply Z.div_le_lower_bound; [lia|]. pose proof (Z.mul_div_le n 524288 ltac:(lia)). lia. }
  destruct (cut (fun o => pick_floor o mx n) (2 ^ 32) n mx e e) as (t & T0 & TN & T1 & T2); try (unfold mx; lia).
  - intros o o' H1 H2. pose proof (V o ltac:(lia)). pose proof (V o' ltac:(lia)).
    assert (X : (Zfloor (pick_real o mx n) <= Zfloor (pick_real o' mx n))%Z) by (apply Zfloor_le, pick_real_mono; unfold mx; lia).
    unfold pick_floor, step_inside. destruct (Z.eqb_spec (Zfloor (pick_real o mx n)) n), (Z.eqb_spec (Zfloor (pick_real o' mx n)) n); lia.
  - intros o Ho. pose proof (V o Ho). unfold pick_floor, step_inside. destruct (Z.eqb_spec (Zfloor (pick_real o mx n)) n); lia.
  - intros j o Hj Ho H.
    assert (Er := pick_real_4 o n ltac:(lia) ltac:(lia)). apply Rabs_le_inv in Er. fold mx in Er.
    assert (F : (j <= Zfloor (pick_real o mx n))%Z).
    { apply Zfloor_lub. apply Rmult_le_reg_r with (IZR mx); [exact TP|]. apply IZR_le in H.
      rewrite plus_IZR, !mult_IZR in H. rewrite !mult_IZR in Er. lra. }
    unfold pick_floor, step_inside. destruct (Z.eqb_spec (Zfloor (pick_real o mx n)) n); lia.
  - intros j o Hj Ho H.
    assert (F : (j <= Zfloor (pick_real o mx n))%Z).
    { unfold pick_floor, step_inside in H. destruct (Z.eqb_spec (Zfloor (pick_real o mx n)) n); lia. }
    assert (Er := pick_real_4 o n ltac:(lia) ltac:(lia)). apply Rabs_le_inv in Er. fold mx in Er.
    apply IZR_le in F. pose proof (Zfloor_lb (pick_real o mx n)) as L.
    apply le_IZR. rewrite minus_IZR, !mult_IZR. rewrite mult_IZR in Er.
    assert (X : IZR j * IZR mx <= pick_real o mx n * IZR mx) by (apply Rmult_le_compat_r; lra). lra.
  - exists t. split.
    + split; [exact T0|]. split; [exact TN|]. intros i Hi. specialize (T1 i Hi). unfold mx in T1. lia.
    + intros i o Hi Ho. rewrite pick_eq by (unfold mx; lia). rewrite T2 by (unfold mx in Ho; lia). unfold pick_floor.
      split; [intros ->; reflexivity|]. intros X. injection X as X. exact X.
Qed.
