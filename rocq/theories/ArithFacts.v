(** Facts about integer stamps. *)
From Verif Require Import Base BaseFacts Fmt Arithm Sim ArithSpec.

(** ** Extraction on byte lists *)
Lemma list_ExtractValue t l : sizeof t <= zlen l ->
  ExtractValue t l = (Ok (decode t (firstn (Z.to_nat (sizeof t)) l)), skipn (Z.to_nat (sizeof t)) l).
Proof.
  intros H. unfold ExtractValue, bind. cbn [Chop ListOps].
  replace (zlen l <? sizeof t) with false by lia. reflexivity.
Qed.

Lemma list_ExtractValue_ood t l : zlen l < sizeof t -> ExtractValue t l = (OutOfData, l).
Proof.
  intros H. unfold ExtractValue, bind. cbn [Chop ListOps].
  replace (zlen l <? sizeof t) with true by lia. reflexivity.
Qed.

(** ** Little endian *)
Lemma le_decode_range l : 0 <= le_decode l < 2 ^ (8 * zlen l).
Proof.
  induction l as [|b l IH]; cbn [le_decode]; [split; reflexivity|].
  rewrite zlen_cons. replace (8 * (zlen l + 1)) with (8 + 8 * zlen l) by lia.
  pose proof (zlen_nonneg l). rewrite Z.pow_add_r by lia. pose proof (bval_range b).
  change (2 ^ 8) with 256. nia.
Qed.

Lemma le_encode_decode l : le_encode (length l) (le_decode l) = l.
Proof.
  induction l as [|b l IH]; cbn [length le_encode le_decode]; [reflexivity|].
  pose proof (bval_range b). f_equal.
  - unfold byte_of_Z. replace (bval b + 256 * le_decode l) with (bval b + le_decode l * 256) by lia.
    rewrite Z_mod_plus_full, Z.mod_small by lia. rewrite <- (Z.mod_small (bval b) 256) by lia.
    apply byte_of_bval.
  - replace (bval b + 256 * le_decode l) with (bval b + le_decode l * 256) by lia.
    rewrite Z_div_plus_full, Z.div_small, Z.add_0_l by lia. exact IH.
Qed.

Lemma le_encode_mod n z : le_encode n (z mod 2 ^ (8 * Z.of_nat n)) = le_encode n z.
Proof.
  revert z. induction n as [|n IH]; intros z; [reflexivity|]. cbn [le_encode].
  replace (8 * Z.of_nat (S n)) with (8 + 8 * Z.of_nat n) by lia. rewrite Z.pow_add_r by lia.
  change (2 ^ 8) with 256. set (P := 2 ^ (8 * Z.of_nat n)).
  assert (HP : 0 < P) by (apply Z.pow_pos_nonneg; lia).
  rewrite Z.rem_mul_r by lia. f_equal.
  - unfold byte_of_Z. rewrite Z.mul_comm, Z_mod_plus_full, Zmod_mod. reflexivity.
  - rewrite Z.mul_comm, Z_div_plus_full, (Z.div_small (z mod 256)) by (try apply Z.mod_pos_bound; lia).
    rewrite Z.add_0_l. apply IH.
Qed.

Lemma sizeof_range t : 1 <= sizeof t <= 16.
Proof. destruct t; cbn; lia. Qed.

Lemma width_sizeof t : width t = sizeof t.
Proof. destruct t; reflexivity. Qed.

Lemma signed_is_signed t : signed t = is_signed t.
Proof. destruct t; reflexivity. Qed.

Lemma encode_decode t l : zlen l = sizeof t -> encode t (decode t l) = l.
Proof.
  intros H. unfold encode, decode. pose proof (sizeof_range t).
  assert (Hn : Z.to_nat (sizeof t) = length l) by (unfold zlen in H; lia). rewrite Hn.
  destruct (is_signed t && (2 ^ (8 * sizeof t - 1) <=? le_decode l)).
  - rewrite <- le_encode_mod. replace (8 * Z.of_nat (length l)) with (8 * sizeof t) by (unfold zlen in H; lia).
    rewrite Zminus_mod, Z_mod_same_full, Z.sub_0_r, Zmod_mod.
    rewrite Z.mod_small by (rewrite <- H; apply le_decode_range). apply le_encode_decode.
  - apply le_encode_decode.
Qed.

Lemma le_decode_bit l k : 0 <= k < 8 * zlen l ->
  exists c, nth_error l (Z.to_nat (k / 8)) = Some c
    /\ Z.testbit (le_decode l) k = Z.testbit (bval c) (k mod 8).
Proof.
  revert k. induction l as [|b l IH]; intros k Hk.
  { cbn in Hk. lia. }
  rewrite zlen_cons in Hk. pose proof (bval_range b) as Hb. cbn [le_decode].
  replace (bval b + 256 * le_decode l) with (bval b + le_decode l * 2 ^ 8) by lia.
  destruct (Z_lt_ge_dec k 8) as [Hlt|Hge].
  - exists b. rewrite Z.div_small, Z.mod_small by lia. split; [reflexivity|].
    rewrite <- (Z.mod_pow2_bits_low _ 8 k) by lia.
    rewrite Z_mod_plus_full. rewrite Z.mod_pow2_bits_low by lia. reflexivity.
  - destruct (IH (k - 8)) as (c & Hc & Hbit); [lia|]. exists c.
    replace (k / 8) with (Z.succ ((k - 8) / 8)) by (Z.to_euclidean_division_equations; lia).
    rewrite Z2Nat.inj_succ by (apply Z.div_pos; lia). cbn [nth_error]. split; [exact Hc|].
    replace (k mod 8) with ((k - 8) mod 8) by (Z.to_euclidean_division_equations; lia).
    rewrite <- Hbit. replace k with ((k - 8) + 8) at 1 by lia.
    rewrite <- Z.div_pow2_bits by lia.
    rewrite Z_div_plus_full by lia. rewrite Z.div_small by lia. reflexivity.
Qed.

Lemma testbit_high_nonneg v n k : 0 <= v < 2 ^ n -> 0 <= n <= k -> Z.testbit v k = false.
Proof.
  intros Hv Hk. rewrite <- (Z.mod_small v (2 ^ n)) by lia. apply Z.mod_pow2_bits_high. lia.
Qed.

Lemma testbit_high_neg v n k : - 2 ^ n <= v < 0 -> 0 <= n <= k -> Z.testbit v k = true.
Proof.
  intros Hv Hk. rewrite <- (Z.lnot_involutive v), Z.lnot_spec by lia.
  rewrite (testbit_high_nonneg _ n k); [reflexivity|unfold Z.lnot; lia|lia].
Qed.

Lemma decode_bits t l : zlen l = sizeof t -> represents t (decode t l) l
  /\ lowest t <= decode t l <= highest t.
Proof.
  intros H. pose proof (sizeof_range t) as Hs. pose proof (le_decode_range l) as Hr.
  set (n := 8 * sizeof t) in *. replace (8 * zlen l) with n in Hr by lia.
  assert (Hn : 2 ^ n = 2 * 2 ^ (n - 1)).
  { replace n with (1 + (n - 1)) at 1 by lia. rewrite Z.pow_add_r by lia. reflexivity. }
  assert (Hp : 0 < 2 ^ (n - 1)) by (apply Z.pow_pos_nonneg; lia).
  assert (Hlow : forall k, 0 <= k < n -> Z.testbit (decode t l) k = Z.testbit (le_decode l) k).
  { intros k Hk. unfold decode. fold n. destruct (is_signed t && (2 ^ (n - 1) <=? le_decode l)); [|reflexivity].
    rewrite <- (Z.mod_pow2_bits_low (le_decode l - 2 ^ n) n k) by lia.
    rewrite Zminus_mod, Z_mod_same_full, Z.sub_0_r, Zmod_mod.
    apply Z.mod_pow2_bits_low. lia. }
  unfold represents, lowest, highest. rewrite width_sizeof, signed_is_signed.
  split; [split; [exact H|split]|].
  - intros k Hk. rewrite Hlow by (fold n in Hk; lia). apply le_decode_bit. fold n in Hk. lia.
  - intros k Hk. fold n in Hk |- *. unfold decode. fold n.
    destruct (is_signed t) eqn:Es; cbn [andb].
    + destruct (2 ^ (n - 1) <=? le_decode l) eqn:E.
      * rewrite (testbit_high_neg _ (n - 1) k), (testbit_high_neg _ (n - 1) (n - 1)); lia.
      * rewrite (testbit_high_nonneg _ (n - 1) k), (testbit_high_nonneg _ (n - 1) (n - 1)); lia.
    + apply (testbit_high_nonneg _ n k); lia.
  - unfold decode. fold n. destruct (is_signed t); cbn [andb]; [|lia].
    destruct (2 ^ (n - 1) <=? le_decode l) eqn:E; lia.
Qed.

(** The value is determined by the bytes. *)
Lemma represents_inj t v w l : represents t v l -> represents t w l -> v = w.
Proof.
  unfold represents. rewrite width_sizeof, signed_is_signed.
  intros (_ & Hv & Hv') (_ & Hw & Hw'). pose proof (sizeof_range t).
  assert (E : forall k, 0 <= k < 8 * sizeof t -> Z.testbit v k = Z.testbit w k).
  { intros k Hk. destruct (Hv k Hk) as (c & Hc & ->), (Hw k Hk) as (d & Hd & ->).
    rewrite Hc in Hd. injection Hd as ->. reflexivity. }
  apply Z.bits_inj'. intros k Hk. destruct (Z_lt_ge_dec k (8 * sizeof t)) as [Hlt|Hge].
  - apply E. lia.
  - rewrite Hv', Hw' by lia. f_equal. apply E. lia.
Qed.

Lemma represents_decode t v l : represents t v l -> decode t l = v.
Proof.
  intros H. apply (represents_inj t _ _ l); [|exact H]. apply decode_bits. rewrite <- width_sizeof. exact (proj1 H).
Qed.

(** Every value of the type has a representation. *)
Lemma le_encode_len n z : zlen (le_encode n z) = Z.of_nat n.
Proof. revert z. induction n as [|n IH]; intros z; cbn [le_encode]; [reflexivity|]. rewrite zlen_cons, IH. lia. Qed.

Lemma le_decode_encode n z : le_decode (le_encode n z) = z mod 2 ^ (8 * Z.of_nat n).
Proof.
  revert z. induction n as [|n IH]; intros z; cbn [le_encode le_decode]; [rewrite Z.mod_1_r; reflexivity|].
  rewrite IH, bval_byte_of_Z. replace (8 * Z.of_nat (S n)) with (8 + 8 * Z.of_nat n) by lia.
  rewrite Z.pow_add_r by lia. change (2 ^ 8) with 256.
  rewrite Z.rem_mul_r by (try apply Z.pow_nonzero; try apply Z.pow_pos_nonneg; lia). reflexivity.
Qed.

Lemma encode_represents t v : lowest t <= v <= highest t -> represents t v (encode t v).
Proof.
  intros Hv. pose proof (sizeof_range t) as Hs.
  assert (Hl : zlen (encode t v) = sizeof t) by (unfold encode; rewrite le_encode_len; lia).
  replace v with (decode t (encode t v)) at 1; [apply decode_bits; exact Hl|].
  unfold decode, encode. rewrite le_decode_encode, Z2Nat.id by lia.
  unfold lowest, highest in Hv. rewrite width_sizeof, signed_is_signed in Hv. set (n := 8 * sizeof t) in *.
  assert (Hn : 2 ^ n = 2 * 2 ^ (n - 1)).
  { replace n with (1 + (n - 1)) at 1 by lia. rewrite Z.pow_add_r by lia. reflexivity. }
  assert (Hp : 0 < 2 ^ (n - 1)) by (apply Z.pow_pos_nonneg; lia).
  destruct (is_signed t); cbn [andb].
  - destruct (Z_lt_ge_dec v 0) as [Hneg|Hpos].
    + replace (v mod 2 ^ n) with (v + 2 ^ n) by
        (rewrite <- (Z.mod_small (v + 2 ^ n) (2 ^ n)) by lia; rewrite Zplus_mod, Z_mod_same_full, Z.add_0_r, Zmod_mod; reflexivity).
      replace (2 ^ (n - 1) <=? v + 2 ^ n) with true by lia. lia.
    + rewrite Z.mod_small by lia. replace (2 ^ (n - 1) <=? v) with false by lia. reflexivity.
  - apply Z.mod_small. lia.
Qed.

(** ** Decimal numerals *)
Definition isd (d : Z) : Prop := 0 <= d <= 9.
Definition dvalue (acc : Z) (ds : list Z) : Z := fold_left (fun a d => 10 * a + d) ds acc.

Lemma bval_digit d : isd d -> bval (digit d) = 48 + d.
Proof. intros [H1 H2]. unfold digit. rewrite bval_byte_of_Z, Z.mod_small; lia. Qed.

Lemma digit_of_digit d : isd d -> digit_of (digit d) = Some d.
Proof.
  intros H. unfold digit_of. rewrite bval_digit by exact H. destruct H.
  replace _ with true by lia. f_equal. lia.
Qed.

Lemma read_digits_map acc ds : Forall isd ds -> read_digits acc (map digit ds) = Some (dvalue acc ds).
Proof.
  intros H. revert acc. induction H as [|d ds Hd H IH]; intros acc; [reflexivity|].
  cbn [map read_digits]. rewrite digit_of_digit by exact Hd. apply IH.
Qed.

Lemma read_digits_inv acc s v : read_digits acc s = Some v ->
  exists ds, s = map digit ds /\ Forall isd ds /\ v = dvalue acc ds.
Proof.
  revert acc. induction s as [|c s IH]; intros acc H; cbn [read_digits] in H.
  - injection H as <-. exists []. repeat split; constructor.
  - destruct (digit_of c) as [d|] eqn:E; [|discriminate]. destruct (IH _ H) as (ds & -> & Hd & ->).
    unfold digit_of in E. destruct ((48 <=? bval c) && (bval c <=? 57)) eqn:E2; [|discriminate].
    injection E as <-. exists (bval c - 48 :: ds). split; [|split; [constructor; [split; lia|exact Hd]|reflexivity]].
    cbn [map]. f_equal. apply bval_inj. rewrite bval_digit by (split; lia). lia.
Qed.

Lemma dvalue_app acc a b : dvalue acc (a ++ b) = dvalue (dvalue acc a) b.
Proof. apply fold_left_app. Qed.

Lemma dvalue_acc ds : forall acc, dvalue acc ds = acc * 10 ^ zlen ds + dvalue 0 ds.
Proof.
  induction ds as [|d ds IH]; intros acc; [cbn; lia|].
  change (dvalue acc (d :: ds)) with (dvalue (10 * acc + d) ds).
  change (dvalue 0 (d :: ds)) with (dvalue (10 * 0 + d) ds).
  rewrite (IH (10 * acc + d)), (IH (10 * 0 + d)), zlen_cons.
  pose proof (zlen_nonneg ds). rewrite Z.pow_add_r by lia. ring.
Qed.

Lemma dvalue_range ds : Forall isd ds -> 0 <= dvalue 0 ds < 10 ^ zlen ds.
Proof.
  intros H. induction H as [|d ds Hd H IH]; [cbn; lia|].
  change (dvalue 0 (d :: ds)) with (dvalue (10 * 0 + d) ds).
  rewrite dvalue_acc, zlen_cons. pose proof (zlen_nonneg ds). rewrite Z.pow_add_r by lia. unfold isd in Hd. nia.
Qed.

(** Digit lists without a superfluous leading zero. *)
Definition canon (ds : list Z) : Prop :=
  Forall isd ds /\ match ds with [] => False | [_] => True | d :: _ => d <> 0 end.

Lemma canon_low ds d1 d2 : canon (d1 :: d2 :: ds) -> 10 ^ (zlen ds + 1) <= dvalue 0 (d1 :: d2 :: ds).
Proof.
  intros [HF Hn]. apply Forall_cons_iff in HF. destruct HF as [Hd HF].
  change (dvalue 0 (d1 :: d2 :: ds)) with (dvalue (10 * 0 + d1) (d2 :: ds)).
  rewrite dvalue_acc, zlen_cons. pose proof (dvalue_range _ HF). unfold isd in Hd.
  pose proof (zlen_nonneg ds). assert (0 < 10 ^ (zlen ds + 1)) by (apply Z.pow_pos_nonneg; lia). nia.
Qed.

Lemma digits_acc_S f z acc : digits_acc (S f) z acc =
  if z <? 10 then z :: acc else digits_acc f (z / 10) (z mod 10 :: acc).
Proof. reflexivity. Qed.

Lemma digits_acc_canon f z acc : 0 <= z -> z < 2 ^ Z.of_nat (S f) ->
  exists ds, digits_acc (S f) z acc = ds ++ acc /\ canon ds /\ dvalue 0 ds = z.
Proof.
  revert z acc. induction f as [|f IH]; intros z acc Hz Hf; rewrite digits_acc_S.
  - change (2 ^ Z.of_nat 1) with 2 in Hf. replace (z <? 10) with true by lia.
    exists [z]. split; [reflexivity|]. split; [|cbn; lia]. split; [|exact I].
    constructor; [split; lia|constructor].
  - destruct (z <? 10) eqn:E.
    + exists [z]. split; [reflexivity|]. split; [|cbn; lia]. split; [|exact I].
      constructor; [split; lia|constructor].
    + destruct (IH (z / 10) (z mod 10 :: acc)) as (ds & Hds & Hc & Hv).
      { apply Z.div_pos; lia. }
      { rewrite (Nat2Z.inj_succ (S f)), Z.pow_succ_r in Hf by lia. apply Z.div_lt_upper_bound; lia. }
      exists (ds ++ [z mod 10]). split; [rewrite Hds, <- app_assoc; reflexivity|].
      pose proof (Z.mod_pos_bound z 10 eq_refl) as Hm. split.
      * destruct Hc as [HF Hn]. split; [apply Forall_app; split; [exact HF|constructor; [split; lia|constructor]]|].
        destruct ds as [|d [|d' ds]]; cbn [app]; [tauto| |exact Hn].
        cbn in Hv. assert (z / 10 <> 0); [|lia].
        intros H0. apply Z.div_small_iff in H0; lia.
      * rewrite dvalue_app, Hv. change (10 * (z / 10) + z mod 10 = z).
        symmetry. apply Z.div_mod. discriminate.
Qed.

Lemma digits_canon z : 0 <= z -> canon (digits z) /\ dvalue 0 (digits z) = z.
Proof.
  intros Hz. unfold digits.
  destruct (digits_acc_canon (Z.to_nat (Z.log2 z)) z []) as (ds & -> & Hc & Hv); [exact Hz| |].
  - destruct (Z.eq_dec z 0) as [->|Hnz]; [reflexivity|].
    rewrite Nat2Z.inj_succ, Z2Nat.id by apply Z.log2_nonneg.
    apply Z.log2_spec. lia.
  - rewrite app_nil_r. split; assumption.
Qed.

(** Canonical digit lists are determined by their value. *)
Lemma canon_len ds es : canon ds -> canon es -> dvalue 0 ds = dvalue 0 es -> zlen ds <= zlen es.
Proof.
  intros Hd He E. destruct (Z_le_gt_dec (zlen ds) (zlen es)) as [H|H]; [exact H|exfalso].
  destruct ds as [|d1 [|d2 ds]]; [destruct Hd; tauto| |].
  - rewrite zlen_cons, zlen_nil in H. pose proof (zlen_nonneg es). destruct es as [|e es]; [destruct He; tauto|].
    rewrite zlen_cons in *. pose proof (zlen_nonneg es). lia.
  - pose proof (canon_low _ _ _ Hd) as Hl. pose proof (dvalue_range es (proj1 He)) as Hr.
    rewrite !zlen_cons in H. pose proof (zlen_nonneg ds). pose proof (zlen_nonneg es).
    assert (10 ^ zlen es <= 10 ^ (zlen ds + 1)) by (apply Z.pow_le_mono_r; lia). lia.
Qed.

Lemma same_len_inj ds : forall es, length ds = length es -> Forall isd ds -> Forall isd es ->
  dvalue 0 ds = dvalue 0 es -> ds = es.
Proof.
  induction ds as [|d ds IH]; intros [|e es] Hl Hd He E; try discriminate; [reflexivity|].
  injection Hl as Hl. apply Forall_cons_iff in Hd. apply Forall_cons_iff in He.
  destruct Hd as [Hd Hds], He as [He Hes].
  change (dvalue 0 (d :: ds)) with (dvalue (10 * 0 + d) ds) in E.
  change (dvalue 0 (e :: es)) with (dvalue (10 * 0 + e) es) in E.
  rewrite (dvalue_acc ds), (dvalue_acc es) in E.
  assert (Hz : zlen ds = zlen es) by (unfold zlen; lia). rewrite Hz in E.
  pose proof (dvalue_range ds Hds) as R1. pose proof (dvalue_range es Hes) as R2. rewrite Hz in R1.
  assert (d = e) by nia. subst e. f_equal. apply IH; try assumption. lia.
Qed.

Lemma canon_inj ds es : canon ds -> canon es -> dvalue 0 ds = dvalue 0 es -> ds = es.
Proof.
  intros Hd He E. apply same_len_inj; [|apply Hd|apply He|exact E].
  pose proof (canon_len ds es Hd He E). pose proof (canon_len es ds He Hd (eq_sym E)). unfold zlen in *. lia.
Qed.

(** read_nat / read_int against the model's printing. *)
Lemma read_nat_iff s z : read_nat s = Some z <-> exists ds, s = map digit ds /\ canon ds /\ dvalue 0 ds = z.
Proof.
  split.
  - destruct s as [|c s]; [discriminate|]. unfold read_nat.
    destruct ((bval c =? 48) && _) eqn:E0; [discriminate|]. intros H.
    destruct (read_digits_inv 0 (c :: s) z H) as (ds & Es & Hd & ->). exists ds. split; [exact Es|].
    split; [|reflexivity]. split; [exact Hd|].
    destruct ds as [|d [|d2 ds]]; [discriminate|exact I|]. injection Es as -> ->.
    apply Forall_cons_iff in Hd. destruct Hd as [Hd _]. rewrite bval_digit in E0 by exact Hd.
    cbn [map] in E0. cbn [negb] in E0. intros ->. lia.
  - intros (ds & -> & [Hd Hc] & <-). destruct ds as [|d ds]; [tauto|]. unfold read_nat. cbn [map].
    pose proof (Forall_inv Hd) as Hd1. rewrite bval_digit by exact Hd1.
    destruct ((48 + d =? 48) && _) eqn:E.
    + exfalso. destruct ds as [|d2 ds]; cbn [map negb] in E; lia.
    + exact (read_digits_map 0 (d :: ds) Hd).
Qed.

Lemma read_nat_digits z : 0 <= z -> read_nat (map digit (digits z)) = Some z.
Proof. intros H. apply read_nat_iff. exists (digits z). split; [reflexivity|apply digits_canon; exact H]. Qed.

Lemma read_nat_unique s z : read_nat s = Some z -> s = map digit (digits z) /\ 0 <= z.
Proof.
  intros H. apply read_nat_iff in H. destruct H as (ds & -> & Hc & Hv).
  assert (0 <= z) by (rewrite <- Hv; apply dvalue_range, Hc). split; [|assumption]. f_equal.
  destruct (digits_canon z) as [Hc' Hv']; [assumption|]. apply canon_inj; try assumption. congruence.
Qed.

Lemma digit_not_minus ds d r : canon ds -> map digit ds = d :: r -> bval d <> 45.
Proof.
  intros [HF Hc]. destruct ds as [|e ds]; [tauto|]. intros [= <- <-].
  rewrite bval_digit by exact (Forall_inv HF). apply Forall_inv in HF. unfold isd in HF. lia.
Qed.

Lemma read_int_fmt z : read_int (fmt_int z) = Some z.
Proof.
  unfold fmt_int. destruct (z <? 0) eqn:E.
  - unfold read_int. rewrite bval_byte_of_Z. change (45 mod 256 =? 45) with true. cbn iota.
    rewrite read_nat_digits by lia. replace (- z =? 0) with false by lia. f_equal. lia.
  - pose proof (read_nat_digits z ltac:(lia)) as H. destruct (digits_canon z ltac:(lia)) as [Hc _].
    destruct (map digit (digits z)) as [|c r] eqn:Em; [discriminate|].
    unfold read_int. pose proof (digit_not_minus _ _ _ Hc Em). replace (bval c =? 45) with false by lia.
    exact H.
Qed.

Lemma read_int_unique s z : read_int s = Some z -> s = fmt_int z.
Proof.
  unfold read_int. destruct s as [|c r]; [discriminate|]. destruct (bval c =? 45) eqn:E.
  - destruct (read_nat r) as [n|] eqn:En; [|discriminate]. destruct (n =? 0) eqn:E0; [discriminate|].
    intros [= <-]. destruct (read_nat_unique r n En) as [-> Hn]. unfold fmt_int.
    replace (- n <? 0) with true by lia. rewrite Z.opp_involutive. f_equal.
    apply bval_inj. rewrite bval_byte_of_Z. cbn. lia.
  - intros H. destruct (read_nat_unique _ _ H) as [-> Hz]. unfold fmt_int.
    replace (z <? 0) with false by lia. reflexivity.
Qed.

(** Number of digits. *)
Lemma canon_len_bound ds k : canon ds -> 0 <= k -> dvalue 0 ds < 10 ^ (k + 1) -> zlen ds <= k + 1.
Proof.
  intros Hc Hk Hv. destruct ds as [|d1 [|d2 ds]]; [destruct Hc; tauto|rewrite zlen_cons, zlen_nil; lia|].
  pose proof (canon_low _ _ _ Hc) as Hl. rewrite !zlen_cons in *.
  destruct (Z_le_gt_dec (zlen ds + 1 + 1) (k + 1)) as [H|H]; [exact H|exfalso].
  assert (10 ^ (k + 1) <= 10 ^ (zlen ds + 1)) by (apply Z.pow_le_mono_r; lia). lia.
Qed.

Lemma canon_len_bound_low ds k : canon ds -> 0 <= k -> 10 ^ k <= dvalue 0 ds -> k + 1 <= zlen ds.
Proof.
  intros Hc Hk Hv. pose proof (dvalue_range ds (proj1 Hc)) as Hr. pose proof (zlen_nonneg ds).
  destruct (Z_le_gt_dec (k + 1) (zlen ds)) as [H1|H1]; [exact H1|exfalso].
  assert (10 ^ zlen ds <= 10 ^ k) by (apply Z.pow_le_mono_r; lia). lia.
Qed.
