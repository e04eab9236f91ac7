(** The "%.999g" text of a double denotes the double exactly. *)
From Flocq Require Import Core.Core.
From Coq Require Import Lra.
From Verif Require Import Base BaseFacts ArithSpec ArithFacts FloatTextSpec Arithm Fmt.
Local Open Scope Z_scope.

(** ** Digit lists *)
Lemma zeros_isd n : Forall isd (zeros n).
Proof. unfold zeros. apply Forall_forall. intros d Hd. apply repeat_spec in Hd. subst d. split; lia. Qed.

Lemma zlen_zeros n : 0 <= n -> zlen (zeros n) = n.
Proof. intros H. unfold zeros. rewrite zlen_repeat. lia. Qed.

Lemma dvalue_zeros n acc : 0 <= n -> dvalue acc (zeros n) = acc * 10 ^ n.
Proof.
  intros Hn. rewrite dvalue_acc, zlen_zeros by exact Hn.
  assert (E : forall k, dvalue 0 (repeat 0 k) = 0) by (induction k as [|k IH]; [reflexivity|exact IH]).
  unfold zeros. rewrite E. lia.
Qed.

Lemma strip0_spec ds : exists n, 0 <= n /\ ds = strip0 ds ++ zeros n.
Proof.
  induction ds as [|d ds (n & Hn & IH)]; cbn [strip0].
  - exists 0. split; [lia|reflexivity].
  - destruct (strip0 ds) as [|s r] eqn:E.
    + destruct (d =? 0) eqn:Ed.
      * exists (n + 1). split; [lia|]. cbn [app] in *. unfold zeros.
        replace (Z.to_nat (n + 1)) with (S (Z.to_nat n)) by lia. cbn [repeat]. f_equal; [lia|exact IH].
      * exists n. split; [exact Hn|]. cbn [app] in *. f_equal. exact IH.
    + exists n. split; [exact Hn|]. cbn [app] in *. f_equal. exact IH.
Qed.

(** Positive canonical digit lists. *)
Lemma canon_head ds : canon ds -> 0 < dvalue 0 ds -> exists d r, ds = d :: r /\ 1 <= d <= 9.
Proof.
  intros [HF Hc] Hv. destruct ds as [|d r]; [tauto|]. exists d, r. split; [reflexivity|].
  pose proof (Forall_inv HF) as Hd. unfold isd in Hd. destruct r; [cbn in Hv; lia|lia].
Qed.

(** Lists starting with a non-zero digit are canonical. *)
Lemma head_canon d r : 1 <= d <= 9 -> Forall isd r -> canon (d :: r).
Proof.
  intros Hd HF. split; [constructor; [split; lia|exact HF]|]. destruct r; [exact I|lia].
Qed.

Lemma powerRZ_bpow n : 0 <= n -> powerRZ 10 n = IZR (10 ^ n).
Proof.
  intros H. destruct n as [|p|p]; [reflexivity| |lia].
  cbn [powerRZ].
  rewrite <- (positive_nat_Z p). rewrite <- Zpower_nat_Z.
  induction (Pos.to_nat p) as [|k IH]; [reflexivity|].
  rewrite Zpower_nat_succ_r, mult_IZR. cbn [pow]. rewrite IH. reflexivity.
Qed.

Lemma ten_nz : (10 <> 0)%R.
Proof. lra. Qed.

Lemma powerRZ_add10 a b : powerRZ 10 (a + b) = (powerRZ 10 a * powerRZ 10 b)%R.
Proof. apply powerRZ_add. exact ten_nz. Qed.

(** ** Pieces of text *)
Lemma read_nat_sig ds : canon ds -> read_nat (map digit ds) = Some (dvalue 0 ds).
Proof. intros H. apply read_nat_iff. exists ds. repeat split; try apply H. Qed.

Lemma digit_string_map ds : ds <> [] -> Forall isd ds -> digit_string (map digit ds) (dvalue 0 ds).
Proof.
  intros Hn HF. split; [|apply read_digits_map; exact HF]. destruct ds; [congruence|discriminate].
Qed.

Lemma firstn_isd n ds : Forall isd ds -> Forall isd (firstn n ds).
Proof. intros H. rewrite <- (firstn_skipn n ds) in H. apply Forall_app in H. apply H. Qed.

Lemma skipn_isd n ds : Forall isd ds -> Forall isd (skipn n ds).
Proof. intros H. rewrite <- (firstn_skipn n ds) in H. apply Forall_app in H. apply H. Qed.

(** A canonical list cut into integer part and decimal places. *)
Lemma mantissa_cut ip fp : canon ip -> Forall isd fp ->
  mantissa (map digit ip ++ frac_part fp)
    (IZR (dvalue 0 (ip ++ fp)) * powerRZ 10 (- zlen fp)).
Proof.
  intros Hi Hf. destruct fp as [|f fp].
  - rewrite !app_nil_r. cbn [zlen length Z.of_nat Z.opp powerRZ]. rewrite Rmult_1_r.
    apply mant_int. apply read_nat_sig. exact Hi.
  - unfold frac_part. rewrite dvalue_app, dvalue_acc, plus_IZR, mult_IZR, Rmult_plus_distr_r.
    rewrite <- powerRZ_bpow by apply zlen_nonneg.
    rewrite Rmult_assoc, <- powerRZ_add10, Z.add_opp_diag_r. cbn [powerRZ]. rewrite Rmult_1_r.
    replace (zlen (f :: fp)) with (zlen (map digit (f :: fp))) by apply zlen_map.
    apply mant_frac; [apply read_nat_sig; exact Hi|]. apply digit_string_map; [discriminate|exact Hf].
Qed.

Lemma fmt_exp_text s x X : mantissa s x -> magnitude (s ++ fmt_exp X) (x * powerRZ 10 X).
Proof.
  intros Hs. unfold fmt_exp. destruct (digits_canon (Z.abs X)) as [[HF Hc] Hv]; [lia|].
  set (t := (if Z.abs X <? 10 then lit "0" else []) ++ map digit (digits (Z.abs X))).
  assert (Ht : digit_string t (Z.abs X)).
  { assert (Hd : digits (Z.abs X) <> []) by (intros H0; rewrite H0 in Hc; exact Hc).
    destruct (digit_string_map _ Hd HF) as [Hn Hr]. rewrite Hv in Hr.
    unfold t. destruct (Z.abs X <? 10); [|split; assumption].
    split; [discriminate|]. cbn [app lit]. exact Hr. }
  destruct (X <? 0) eqn:E.
  - change (lit "e" ++ lit "-" ++ t) with (lit "e-" ++ t).
    replace (powerRZ 10 X) with (powerRZ 10 (- Z.abs X)) by (f_equal; lia). apply mag_down; assumption.
  - change (lit "e" ++ lit "+" ++ t) with (lit "e+" ++ t).
    replace (powerRZ 10 X) with (powerRZ 10 (Z.abs X)) by (f_equal; lia). apply mag_up; assumption.
Qed.

(** ** The whole text *)
Lemma fmt_g_styles d r X : 1 <= d <= 9 -> Forall isd r ->
  let sig := d :: r in
  let v := (IZR (dvalue 0 sig) * powerRZ 10 (X + 1 - zlen sig))%R in
  (0 <= X -> magnitude (map digit (firstn (Z.to_nat (X + 1)) (sig ++ zeros (X + 1 - zlen sig)))
                        ++ frac_part (skipn (Z.to_nat (X + 1)) sig)) v) /\
  (X < 0 -> magnitude (lit "0" ++ frac_part (zeros (- X - 1) ++ sig)) v) /\
  magnitude (map digit (firstn 1 sig) ++ frac_part (skipn 1 sig) ++ fmt_exp X) v.
Proof.
  intros Hd Hr. cbn zeta. set (sig := d :: r). pose proof (head_canon d r Hd Hr) as Hc. fold sig in Hc.
  assert (HF : Forall isd sig) by apply Hc.
  split; [|split].
  - intros HX. apply mag_plain. destruct (Z_le_gt_dec (zlen sig) (X + 1)) as [Hle|Hgt].
    + set (n := X + 1 - zlen sig).
      assert (El : length (sig ++ zeros n) = Z.to_nat (X + 1)).
      { assert (E : zlen (sig ++ zeros n) = X + 1) by (rewrite zlen_app, zlen_zeros by lia; lia).
        unfold zlen in E. lia. }
      rewrite <- El at 1. rewrite firstn_all.
      rewrite skipn_all2 by (unfold zlen in Hle; lia).
      replace (IZR (dvalue 0 sig) * powerRZ 10 n)%R
        with (IZR (dvalue 0 ((sig ++ zeros n) ++ [])) * powerRZ 10 (- zlen (@nil Z)))%R.
      * apply mantissa_cut; [|constructor]. unfold sig. cbn [app]. apply head_canon; [exact Hd|].
        apply Forall_app. split; [exact Hr|apply zeros_isd].
      * rewrite app_nil_r, dvalue_app, dvalue_zeros by lia. rewrite mult_IZR, <- powerRZ_bpow by lia.
        cbn [zlen length Z.of_nat Z.opp powerRZ]. rewrite Rmult_1_r. reflexivity.
    + replace (zeros (X + 1 - zlen sig)) with (@nil Z) by (unfold zeros; replace (Z.to_nat _) with 0%nat by lia; reflexivity).
      rewrite app_nil_r.
      replace (X + 1 - zlen sig) with (- zlen (skipn (Z.to_nat (X + 1)) sig)) by (rewrite zlen_skipn by lia; lia).
      rewrite <- (firstn_skipn (Z.to_nat (X + 1)) sig) at 3.
      apply mantissa_cut; [|apply skipn_isd; exact HF].
      replace (Z.to_nat (X + 1)) with (S (Z.to_nat X)) by lia. unfold sig. cbn [firstn].
      apply head_canon; [exact Hd|apply firstn_isd; exact Hr].
  - intros HX. apply mag_plain.
    replace (IZR (dvalue 0 sig) * powerRZ 10 (X + 1 - zlen sig))%R
      with (IZR (dvalue 0 ([0%Z] ++ zeros (- X - 1) ++ sig)) * powerRZ 10 (- zlen (zeros (- X - 1) ++ sig)))%R.
    + change (lit "0") with (map digit [0]). apply mantissa_cut.
      * split; [constructor; [split; lia|constructor]|exact I].
      * apply Forall_app. split; [apply zeros_isd|exact HF].
    + rewrite !dvalue_app, dvalue_zeros by lia. change (dvalue 0 [0]) with 0.
      rewrite Z.mul_0_l, zlen_app, zlen_zeros by lia. f_equal. f_equal. lia.
  - rewrite app_assoc.
    replace (IZR (dvalue 0 sig) * powerRZ 10 (X + 1 - zlen sig))%R
      with (IZR (dvalue 0 (firstn 1 sig ++ skipn 1 sig)) * powerRZ 10 (- zlen (skipn 1 sig)) * powerRZ 10 X)%R.
    + apply fmt_exp_text. apply mantissa_cut; [|apply skipn_isd; exact HF].
      unfold sig. cbn [firstn]. apply head_canon; [exact Hd|constructor].
    + rewrite firstn_skipn, Rmult_assoc, <- powerRZ_add10. f_equal. f_equal.
      unfold sig. cbn [skipn]. rewrite zlen_cons. lia.
Qed.

Lemma zlen_frac_part l : zlen (frac_part l) <= zlen l + 1.
Proof.
  destruct l as [|x l]; [cbn; lia|]. unfold frac_part. rewrite zlen_app, zlen_map. change (zlen (lit ".")) with 1. lia.
Qed.

Lemma zlen_fmt_exp X : Z.abs X < 10000 -> zlen (fmt_exp X) <= 7.
Proof.
  intros H. unfold fmt_exp. rewrite !zlen_app, zlen_map. destruct (digits_canon (Z.abs X)) as [Hc Hv]; [lia|].
  pose proof (canon_len_bound _ 3 Hc ltac:(lia)) as Hl. rewrite Hv in Hl. change (10 ^ (3 + 1)) with 10000 in Hl.
  change (zlen (lit "e")) with 1.
  replace (zlen (if X <? 0 then lit "-" else lit "+")) with 1 by (destruct (X <? 0); reflexivity).
  destruct (Z.abs X <? 10) eqn:E.
  - pose proof (canon_len_bound _ 0 Hc ltac:(lia)) as Hl0. rewrite Hv in Hl0.
    change (10 ^ (0 + 1)) with 10 in Hl0. change (zlen (lit "0")) with 1. lia.
  - rewrite zlen_nil. lia.
Qed.

Lemma bpow_ten e : e < 0 -> (bpow radix2 e = IZR (5 ^ (- e)) * powerRZ 10 e)%R.
Proof.
  intros He. replace e with (- (- e)) at 1 3 by lia. set (k := - e). assert (Hk : 0 <= k) by lia.
  rewrite bpow_opp. rewrite powerRZ_neg'.
  rewrite powerRZ_bpow by exact Hk. rewrite <- IZR_Zpower by exact Hk.
  change (radix2 ^ k) with (2 ^ k). replace (10 ^ k) with (5 ^ k * 2 ^ k) by (rewrite <- Z.pow_mul_l; reflexivity).
  rewrite mult_IZR.
  assert (IZR (5 ^ k) <> 0%R) by (apply IZR_neq; pose proof (Z.pow_pos_nonneg 5 k); lia).
  assert (IZR (2 ^ k) <> 0%R) by (apply IZR_neq; pose proof (Z.pow_pos_nonneg 2 k); lia).
  field. split; assumption.
Qed.

Lemma fmt_g_pos_correct P m e N : 0 < m -> 0 <= N <= P -> N < 10000 -> - 9000 <= e ->
  (if 0 <=? e then m * 2 ^ e else m * 5 ^ (- e)) < 10 ^ N ->
  exists s, fmt_g_pos P m e = Some s /\ magnitude s (IZR m * bpow radix2 e) /\ zlen s <= N + 9.
Proof.
  intros Hm HN HN' He HD. unfold fmt_g_pos.
  set (k := if 0 <=? e then 0 else - e) in *.
  set (D := if 0 <=? e then m * 2 ^ e else m * 5 ^ (- e)) in *.
  assert (HDpos : 0 < D).
  { unfold D. destruct (0 <=? e) eqn:E; apply Z.mul_pos_pos; try exact Hm; apply Z.pow_pos_nonneg; lia. }
  assert (Hk : 0 <= k <= 9000) by (unfold k; destruct (0 <=? e) eqn:E; lia).
  destruct (digits_canon D) as [Hc Hv]; [lia|].
  set (ds := digits D) in *.
  assert (HL : zlen ds <= N).
  { destruct (Z.eq_dec N 0) as [-> |HN0]; [cbn in HD; lia|].
    replace N with (N - 1 + 1) by lia. apply canon_len_bound; [exact Hc|lia|].
    rewrite Hv. replace (N - 1 + 1) with N by lia. exact HD. }
  destruct (canon_head ds Hc) as (d & r0 & Eds & Hd); [lia|].
  assert (HL1 : 1 <= zlen ds) by (rewrite Eds, zlen_cons; pose proof (zlen_nonneg r0); lia).
  destruct (strip0_spec ds) as (n & Hn & Esig).
  assert (Hsig : exists r, strip0 ds = d :: r /\ Forall isd r).
  { rewrite Eds. cbn [strip0]. destruct (strip0 r0) as [|x y] eqn:Er.
    - replace (d =? 0) with false by lia. exists []. split; [reflexivity|constructor].
    - exists (x :: y). split; [reflexivity|]. destruct (strip0_spec r0) as (n0 & _ & E0). rewrite Er in E0.
      destruct Hc as [HF _]. rewrite Eds, E0 in HF. apply Forall_inv_tail in HF. apply Forall_app in HF. apply HF. }
  destruct Hsig as (r & Es & Hr). set (sig := strip0 ds) in *.
  assert (Hls : zlen ds = zlen sig + n) by (rewrite Esig at 1; rewrite zlen_app, zlen_zeros; lia).
  set (X := zlen ds - 1 - k).
  assert (Hval : (IZR m * bpow radix2 e = IZR (dvalue 0 sig) * powerRZ 10 (X + 1 - zlen sig))%R).
  { assert (E1 : (IZR m * bpow radix2 e = IZR D * powerRZ 10 (- k))%R).
    { unfold D, k. destruct (0 <=? e) eqn:E.
      - rewrite mult_IZR. cbn [Z.opp powerRZ]. rewrite Rmult_1_r.
        rewrite <- IZR_Zpower by lia. reflexivity.
      - rewrite mult_IZR, Z.opp_involutive, bpow_ten by lia. ring. }
    rewrite E1, <- Hv, Esig, dvalue_app, dvalue_zeros, mult_IZR, <- powerRZ_bpow by lia.
    rewrite Rmult_assoc, <- powerRZ_add10. f_equal. f_equal. unfold X. lia. }
  destruct (fmt_g_styles d r X Hd Hr) as (S1 & S2 & S3). cbn zeta in S1, S2, S3. rewrite <- Es in S1, S2, S3.
  rewrite <- Hval in S1, S2, S3.
  replace (P <? zlen sig) with false by lia.
  assert (Hsig1 : 1 <= zlen sig) by (rewrite Es, zlen_cons; pose proof (zlen_nonneg r); lia).
  destruct ((X <? P) && (-4 <=? X)) eqn:Ef.
  - destruct (0 <=? X) eqn:E0.
    + eexists. split; [reflexivity|]. split; [apply S1; lia|].
      rewrite zlen_app, zlen_map.
      destruct (Z_le_gt_dec (zlen sig) (X + 1)) as [Hle|Hgt].
      * rewrite zlen_firstn by (rewrite zlen_app, zlen_zeros by lia; lia).
        rewrite skipn_all2 by (unfold zlen in Hle; lia). cbn [frac_part zlen length Z.of_nat]. unfold X. lia.
      * rewrite zlen_firstn by (rewrite zlen_app; pose proof (zlen_nonneg (zeros (X + 1 - zlen sig))); lia).
        pose proof (zlen_frac_part (skipn (Z.to_nat (X + 1)) sig)) as H1. rewrite zlen_skipn in H1 by lia. lia.
    + eexists. split; [reflexivity|]. split; [apply S2; lia|].
      rewrite zlen_app. change (zlen (lit "0")) with 1.
      pose proof (zlen_frac_part (zeros (- X - 1) ++ sig)) as H1. rewrite zlen_app, zlen_zeros in H1 by lia. lia.
  - eexists. split; [reflexivity|]. split; [exact S3|].
    rewrite !zlen_app, zlen_map. pose proof (zlen_frac_part (skipn 1 sig)) as H1.
    assert (H2 : zlen (skipn 1 sig) = zlen sig - 1) by (rewrite Es, zlen_cons; cbn [skipn]; lia).
    assert (H3 : zlen (firstn 1 sig) = 1) by (rewrite Es; reflexivity).
    pose proof (zlen_fmt_exp X ltac:(unfold X; lia)). lia.
Qed.

(** ** Decoding the bits *)
From Flocq Require Import IEEE754.Binary IEEE754.Bits.

Lemma fp_decode_flocq mw ew bits : 0 < mw -> 1 < ew -> 0 <= bits < 2 ^ (mw + ew + 1) ->
  let F := binary_float_of_bits_aux mw ew bits in
  match fp_decode mw ew bits with
  | FpFinite neg m e => is_finite_FF F = true /\ sign_FF F = neg
      /\ FF2R radix2 F = ((if neg then -1 else 1) * (IZR m * bpow radix2 e))%R
      /\ 0 <= m < 2 ^ (mw + 1) /\ 2 - 2 ^ (ew - 1) - mw <= e <= 2 ^ (ew - 1) - 1 - mw
  | FpInf neg => F = F754_infinity neg
  | FpNan neg => exists pl, F = F754_nan neg pl
  end.
Proof.
  intros Hmw Hew Hb. cbn zeta. unfold fp_decode, binary_float_of_bits_aux, split_bits.
  set (neg := Z.odd (bits / 2 ^ (mw + ew))).
  assert (Hp : 0 < 2 ^ mw) by (apply Z.pow_pos_nonneg; lia).
  assert (Hq : 0 < 2 ^ ew) by (apply Z.pow_pos_nonneg; lia).
  assert (Hew2 : 2 ^ ew = 2 * 2 ^ (ew - 1)).
  { replace ew with (1 + (ew - 1)) at 1 by lia. rewrite Z.pow_add_r by lia. reflexivity. }
  assert (Hew3 : 2 <= 2 ^ (ew - 1)) by (change 2 with (2 ^ 1) at 1; apply Z.pow_le_mono_r; lia).
  assert (Hneg : Zle_bool (2 ^ mw * 2 ^ ew) bits = neg).
  { unfold neg. rewrite <- Z.pow_add_r by lia.
    rewrite !Z.pow_add_r in Hb by lia. rewrite <- Z.pow_add_r in Hb by lia. change (2 ^ 1) with 2 in Hb.
    set (T := 2 ^ (mw + ew)) in *. assert (0 < T) by (apply Z.pow_pos_nonneg; lia).
    destruct (T <=? bits) eqn:E.
    - replace (bits / T) with 1 by (apply (Z.div_unique _ _ _ (bits - T)); lia). reflexivity.
    - rewrite Z.div_small by lia. reflexivity. }
  rewrite Hneg. set (ex := (bits / 2 ^ mw) mod 2 ^ ew). set (fr := bits mod 2 ^ mw).
  assert (Hex : 0 <= ex < 2 ^ ew) by (apply Z.mod_pos_bound; lia).
  assert (Hfr : 0 <= fr < 2 ^ mw) by (apply Z.mod_pos_bound; lia).
  assert (Hmw1 : 2 ^ (mw + 1) = 2 * 2 ^ mw) by (rewrite Z.pow_add_r by lia; lia).
  destruct (ex =? 2 ^ ew - 1) eqn:E1.
  - rewrite (Zeq_bool_false ex 0) by lia. rewrite Zeq_bool_true by lia.
    destruct (fr =? 0) eqn:E2.
    + replace fr with 0 by lia. reflexivity.
    + destruct fr as [|p|p] eqn:Ef; [lia| |lia]. exists p. reflexivity.
  - destruct (ex =? 0) eqn:E0.
    + rewrite (Zeq_bool_true ex 0) by lia.
      assert (HR : 0 <= fr < 2 ^ (mw + 1)
        /\ 2 - 2 ^ (ew - 1) - mw <= 1 - (2 ^ (ew - 1) - 1) - mw <= 2 ^ (ew - 1) - 1 - mw) by lia.
      destruct fr as [|p|p] eqn:Ef; [| |lia].
      * split; [reflexivity|]. split; [reflexivity|]. split; [|exact HR]. cbn [FF2R]. ring.
      * split; [reflexivity|]. split; [reflexivity|]. split; [|exact HR]. cbn [FF2R].
        unfold F2R, SpecFloat.emin. cbn [Fnum Fexp].
        replace (3 - 2 ^ (ew - 1) - (mw + 1)) with (1 - (2 ^ (ew - 1) - 1) - mw) by lia.
        unfold cond_Zopp. destruct neg; [|ring]. rewrite opp_IZR. ring.
    + rewrite (Zeq_bool_false ex 0) by lia. rewrite Zeq_bool_false by lia.
      assert (HR : 0 <= fr + 2 ^ mw < 2 ^ (mw + 1)
        /\ 2 - 2 ^ (ew - 1) - mw <= ex - (2 ^ (ew - 1) - 1) - mw <= 2 ^ (ew - 1) - 1 - mw) by lia.
      destruct (fr + 2 ^ mw) as [|p|p] eqn:Ef; [lia| |lia].
      split; [reflexivity|]. split; [reflexivity|]. split; [|exact HR]. cbn [FF2R].
      unfold F2R, SpecFloat.emin. cbn [Fnum Fexp].
      replace (ex + (3 - 2 ^ (ew - 1) - (mw + 1)) - 1) with (ex - (2 ^ (ew - 1) - 1) - mw) by lia.
      unfold cond_Zopp. destruct neg; [|ring]. rewrite opp_IZR. ring.
Qed.

(** The two formats. *)
Lemma double_digits m e : 0 <= m < 2 ^ 53 -> -1074 <= e <= 971 ->
  (if 0 <=? e then m * 2 ^ e else m * 5 ^ (- e)) < 10 ^ 767.
Proof.
  intros Hm He. destruct (0 <=? e) eqn:E.
  - assert (2 ^ e <= 2 ^ 971) by (apply Z.pow_le_mono_r; lia).
    assert (0 < 2 ^ e) by (apply Z.pow_pos_nonneg; lia).
    assert (2 ^ 53 * 2 ^ 971 < 10 ^ 767) by (vm_compute; reflexivity). nia.
  - assert (5 ^ (- e) <= 5 ^ 1074) by (apply Z.pow_le_mono_r; lia).
    assert (0 < 5 ^ (- e)) by (apply Z.pow_pos_nonneg; lia).
    assert (2 ^ 53 * 5 ^ 1074 < 10 ^ 767) by (vm_compute; reflexivity). nia.
Qed.

Lemma float_digits m e : 0 <= m < 2 ^ 24 -> -149 <= e <= 104 ->
  (if 0 <=? e then m * 2 ^ e else m * 5 ^ (- e)) < 10 ^ 112.
Proof.
  intros Hm He. destruct (0 <=? e) eqn:E.
  - assert (2 ^ e <= 2 ^ 104) by (apply Z.pow_le_mono_r; lia).
    assert (0 < 2 ^ e) by (apply Z.pow_pos_nonneg; lia).
    assert (2 ^ 24 * 2 ^ 104 < 10 ^ 112) by (vm_compute; reflexivity). nia.
  - assert (5 ^ (- e) <= 5 ^ 149) by (apply Z.pow_le_mono_r; lia).
    assert (0 < 5 ^ (- e)) by (apply Z.pow_pos_nonneg; lia).
    assert (2 ^ 24 * 5 ^ 149 < 10 ^ 112) by (vm_compute; reflexivity). nia.
Qed.

(** Sign and zero. *)
Lemma fmt_g_correct neg m e N : 0 <= m -> 0 <= N <= 999 -> - 9000 <= e ->
  (if 0 <=? e then m * 2 ^ e else m * 5 ^ (- e)) < 10 ^ N ->
  exists s, fmt_g 999 (FpFinite neg m e) = Some s
    /\ number_text neg s ((if neg then -1 else 1) * (IZR m * bpow radix2 e)) /\ zlen s <= N + 10.
Proof.
  intros Hm HN He HD. unfold fmt_g.
  assert (G : exists t, (if m =? 0 then Some (lit "0") else fmt_g_pos 999 m e) = Some t
            /\ magnitude t (IZR m * bpow radix2 e) /\ zlen t <= N + 9).
  { destruct (m =? 0) eqn:E.
    - exists (lit "0"). split; [reflexivity|]. split; [|change (zlen (lit "0")) with 1; lia].
      replace m with 0 by lia. rewrite Rmult_0_l. apply mag_plain, (mant_int _ 0). reflexivity.
    - apply fmt_g_pos_correct; lia. }
  destruct G as (t & Et & Ht & Hl). exists ((if neg then lit "-" else []) ++ t). split; [|split].
  - destruct (m =? 0); [injection Et as <-; reflexivity|rewrite Et; reflexivity].
  - unfold number_text. destruct neg.
    + exists t. split; [reflexivity|]. replace (- (-1 * (IZR m * bpow radix2 e)))%R with (IZR m * bpow radix2 e)%R by ring.
      exact Ht.
    + rewrite Rmult_1_l. exact Ht.
  - rewrite zlen_app. destruct neg; cbn [zlen length Z.of_nat]; [change (zlen (lit "-")) with 1|]; lia.
Qed.
