(** C08: texts of double and float values.  The meaning of the bits is Flocq's [b64_of_bits] and
    [b32_of_bits]; the meaning of a text is FloatTextSpec.v. *)
From Flocq Require Import Core.Core IEEE754.Binary IEEE754.Bits.
From Verif Require Import Base BaseFacts Blob BlobSpec RunSpec RunFacts Sim ArithSpec ArithFacts
  FloatTextSpec FloatTextFacts FloatTextUnique Arithm Fmt.
Local Open Scope Z_scope.

Theorem C08_double : forall b r rest bits, represents ULong bits r -> holds b (r ++ rest) ->
  (is_finite 53 1024 (b64_of_bits bits) = true ->
   exists s, runs (ArithExtractStr Double) b (Ok s) rest
     /\ number_text (Bsign 53 1024 (b64_of_bits bits)) s (B2R 53 1024 (b64_of_bits bits))) /\
  (is_nan 53 1024 (b64_of_bits bits) = true ->
   runs (ArithExtractStr Double) b
     (Ok (if Bsign 53 1024 (b64_of_bits bits) then lit "-nan" else lit "nan")) rest) /\
  (is_nan 53 1024 (b64_of_bits bits) = false -> is_finite 53 1024 (b64_of_bits bits) = false ->
   runs (ArithExtractStr Double) b
     (Ok (if Bsign 53 1024 (b64_of_bits bits) then lit "-inf" else lit "inf")) rest).
Proof.
  intros b r rest bits Hr Hb.
  assert (Hd : decode Double r = bits) by exact (represents_decode ULong bits r Hr).
  assert (Hrange : 0 <= bits < 2 ^ (52 + 11 + 1)).
  { rewrite <- (represents_decode ULong bits r Hr). pose proof (decode_bits ULong r (proj1 Hr)) as [_ H].
    change (0 <= decode ULong r <= 2 ^ 64 - 1) in H. change (2 ^ _) with (2 ^ 64). lia. }
  assert (E : ExtractValue Double (r ++ rest) = (Ok bits, rest)).
  { assert (Hn : Z.to_nat (sizeof Double) = length r) by (destruct Hr as [Hr _]; unfold zlen in Hr; cbn in Hr |- *; lia).
    rewrite list_ExtractValue by (rewrite zlen_app; pose proof (zlen_nonneg rest); destruct Hr as [Hr _]; cbn in Hr |- *; lia).
    rewrite Hn, firstn_app, skipn_app, Nat.sub_diag, firstn_all, skipn_all, app_nil_r, Hd. reflexivity. }
  assert (R : forall s, to_string_precise Double bits = Ok s -> runs (ArithExtractStr Double) b (Ok s) rest).
  { intros s Hs. apply (run_transfer _ _ b _ _ _ (sim_ArithExtractStr Double) Hb).
    unfold ArithExtractStr. rewrite (bind_ok _ _ _ _ _ E). unfold lift. rewrite Hs. reflexivity. }
  unfold b64_of_bits, binary_float_of_bits. rewrite is_finite_FF2B, is_nan_FF2B, Bsign_FF2B, B2R_FF2B.
  pose proof (fp_decode_flocq 52 11 bits eq_refl eq_refl Hrange) as H. cbn zeta in H.
  unfold to_string_precise in R.
  destruct (fp_decode 52 11 bits) as [neg m e|neg|neg].
  - destruct H as (H1 & H2 & H3 & H4 & H5).
    destruct (fmt_g_correct neg m e 767) as (s & Es & Hs & Hl); [lia|lia|cbn in H5; lia|apply double_digits; cbn in H4, H5; lia|].
    rewrite H2, H3. split; [|split].
    + intros _. exists s. split; [|exact Hs]. apply R. rewrite Es. unfold to_xstring.
      replace (zlen s <? 308 + 999 + 20) with true by lia. reflexivity.
    + intros Hn. destruct (binary_float_of_bits_aux 52 11 bits); discriminate.
    + intros _ Hn. congruence.
  - rewrite H. split; [discriminate|split; [discriminate|]]. intros _ _. apply R. destruct neg; reflexivity.
  - destruct H as (pl & ->). split; [discriminate|split; [|discriminate]]. intros _. apply R. destruct neg; reflexivity.
Qed.
Print Assumptions C08_double.

Theorem C08_float : forall b r rest bits, represents UInt bits r -> holds b (r ++ rest) ->
  (is_finite 24 128 (b32_of_bits bits) = true ->
   exists s, runs (ArithExtractStr Float) b (Ok s) rest
     /\ number_text (Bsign 24 128 (b32_of_bits bits)) s (B2R 24 128 (b32_of_bits bits))) /\
  (is_nan 24 128 (b32_of_bits bits) = true ->
   runs (ArithExtractStr Float) b
     (Ok (if Bsign 24 128 (b32_of_bits bits) then lit "-nan" else lit "nan")) rest) /\
  (is_nan 24 128 (b32_of_bits bits) = false -> is_finite 24 128 (b32_of_bits bits) = false ->
   runs (ArithExtractStr Float) b
     (Ok (if Bsign 24 128 (b32_of_bits bits) then lit "-inf" else lit "inf")) rest).
Proof.
  intros b r rest bits Hr Hb.
  assert (Hd : decode Float r = bits) by exact (represents_decode UInt bits r Hr).
  assert (Hrange : 0 <= bits < 2 ^ (23 + 8 + 1)).
  { rewrite <- (represents_decode UInt bits r Hr). pose proof (decode_bits UInt r (proj1 Hr)) as [_ H].
    change (0 <= decode UInt r <= 2 ^ 32 - 1) in H. change (2 ^ _) with (2 ^ 32). lia. }
  assert (E : ExtractValue Float (r ++ rest) = (Ok bits, rest)).
  { assert (Hn : Z.to_nat (sizeof Float) = length r) by (destruct Hr as [Hr _]; unfold zlen in Hr; cbn in Hr |- *; lia).
    rewrite list_ExtractValue by (rewrite zlen_app; pose proof (zlen_nonneg rest); destruct Hr as [Hr _]; cbn in Hr |- *; lia).
    rewrite Hn, firstn_app, skipn_app, Nat.sub_diag, firstn_all, skipn_all, app_nil_r, Hd. reflexivity. }
  assert (R : forall s, to_string_precise Float bits = Ok s -> runs (ArithExtractStr Float) b (Ok s) rest).
  { intros s Hs. apply (run_transfer _ _ b _ _ _ (sim_ArithExtractStr Float) Hb).
    unfold ArithExtractStr. rewrite (bind_ok _ _ _ _ _ E). unfold lift. rewrite Hs. reflexivity. }
  unfold b32_of_bits, binary_float_of_bits. rewrite is_finite_FF2B, is_nan_FF2B, Bsign_FF2B, B2R_FF2B.
  pose proof (fp_decode_flocq 23 8 bits eq_refl eq_refl Hrange) as H. cbn zeta in H.
  unfold to_string_precise in R.
  destruct (fp_decode 23 8 bits) as [neg m e|neg|neg].
  - destruct H as (H1 & H2 & H3 & H4 & H5).
    destruct (fmt_g_correct neg m e 112) as (s & Es & Hs & Hl); [lia|lia|cbn in H5; lia|apply float_digits; cbn in H4, H5; lia|].
    rewrite H2, H3. split; [|split].
    + intros _. exists s. split; [|exact Hs]. apply R. rewrite Es. unfold to_xstring.
      replace (zlen s <? 38 + 999 + 20) with true by lia. reflexivity.
    + intros Hn. destruct (binary_float_of_bits_aux 23 8 bits); discriminate.
    + intros _ Hn. congruence.
  - rewrite H. split; [discriminate|split; [discriminate|]]. intros _ _. apply R. destruct neg; reflexivity.
  - destruct H as (pl & ->). split; [discriminate|split; [|discriminate]]. intros _. apply R. destruct neg; reflexivity.
Qed.
Print Assumptions C08_float.

(** Two values have the same text exactly if they are the same bits, or both NaN with the same sign. *)
Theorem C08_same_text_double : forall b1 b2 r1 r2 rest1 rest2 bits1 bits2, represents ULong bits1 r1 -> represents ULong bits2 r2 ->
  holds b1 (r1 ++ rest1) -> holds b2 (r2 ++ rest2) ->
  (fst (ArithExtractStr Double b1) = fst (ArithExtractStr Double b2) <->
   bits1 = bits2 \/ (is_nan 53 1024 (b64_of_bits bits1) = true /\ is_nan 53 1024 (b64_of_bits bits2) = true
                    /\ Bsign 53 1024 (b64_of_bits bits1) = Bsign 53 1024 (b64_of_bits bits2))).
Proof.
  assert (K : forall b r rest bits, represents ULong bits r -> holds b (r ++ rest) ->
    exists s, fst (ArithExtractStr Double b) = Ok s /\ text_of_float 53 1024 (b64_of_bits bits) s).
  { intros b r rest bits Hr Hb. destruct (C08_double b r rest bits Hr Hb) as (H1 & H2 & H3).
    destruct (is_finite 53 1024 (b64_of_bits bits)) eqn:F.
    - destruct (H1 eq_refl) as (s & (b' & E & _) & T). exists s. rewrite E. split; [reflexivity|]. left. split; [exact F|exact T].
    - destruct (is_nan 53 1024 (b64_of_bits bits)) eqn:N.
      + destruct (H2 eq_refl) as (b' & E & _). eexists. rewrite E. split; [reflexivity|]. right. left. split; [exact N|reflexivity].
      + destruct (H3 eq_refl eq_refl) as (b' & E & _). eexists. rewrite E. split; [reflexivity|]. right. right. split; [exact N|]. split; [exact F|reflexivity]. }
  assert (I : forall bits r, represents ULong bits r -> bits_of_binary_float 52 11 (b64_of_bits bits) = bits).
  { intros bits r Hr. apply bits_of_binary_float_of_bits. rewrite <- (represents_decode ULong bits r Hr).
    pose proof (decode_bits ULong r (proj1 Hr)) as [_ H]. exact (conj (proj1 H) (proj2 (Z.lt_succ_r _ _) (proj2 H))). }
  intros b1 b2 r1 r2 rest1 rest2 bits1 bits2 R1 R2 Hb1 Hb2.
  destruct (K _ _ _ _ R1 Hb1) as (s1 & E1 & T1). destruct (K _ _ _ _ R2 Hb2) as (s2 & E2 & T2). rewrite E1, E2. split.
  - intros E. injection E as ->. destruct (text_of_float_inj _ _ _ _ _ T1 T2) as [E|E]; [left|right; exact E].
    rewrite <- (I _ _ R1), <- (I _ _ R2), E. reflexivity.
  - intros [->|(N1 & N2 & ES)]; f_equal.
    + rewrite (arith_text Double b1 r1 rest1 (proj1 R1) Hb1) in E1. rewrite (arith_text Double b2 r2 rest2 (proj1 R2) Hb2) in E2.
      change (decode Double r1) with (decode ULong r1) in E1. change (decode Double r2) with (decode ULong r2) in E2.
      rewrite (represents_decode _ _ _ R1) in E1. rewrite (represents_decode _ _ _ R2) in E2. congruence.
    + destruct T1 as [[F _]|[[_ ->]|(N & _)]]; [|rewrite ES; clear - N2 T2|congruence].
      * destruct (b64_of_bits bits1); discriminate.
      * destruct T2 as [[F _]|[[_ ->]|(N & _)]]; [destruct (b64_of_bits bits2); discriminate|reflexivity|congruence].
Qed.
Print Assumptions C08_same_text_double.

Theorem C08_same_text_float : forall b1 b2 r1 r2 rest1 rest2 bits1 bits2, represents UInt bits1 r1 -> represents UInt bits2 r2 ->
  holds b1 (r1 ++ rest1) -> holds b2 (r2 ++ rest2) ->
  (fst (ArithExtractStr Float b1) = fst (ArithExtractStr Float b2) <->
   bits1 = bits2 \/ (is_nan 24 128 (b32_of_bits bits1) = true /\ is_nan 24 128 (b32_of_bits bits2) = true
                    /\ Bsign 24 128 (b32_of_bits bits1) = Bsign 24 128 (b32_of_bits bits2))).
Proof.
  assert (K : forall b r rest bits, represents UInt bits r -> holds b (r ++ rest) ->
    exists s, fst (ArithExtractStr Float b) = Ok s /\ text_of_float 24 128 (b32_of_bits bits) s).
  { intros b r rest bits Hr Hb. destruct (C08_float b r rest bits Hr Hb) as (H1 & H2 & H3).
    destruct (is_finite 24 128 (b32_of_bits bits)) eqn:F.
    - destruct (H1 eq_refl) as (s & (b' & E & _) & T). exists s. rewrite E. split; [reflexivity|]. left. split; [exact F|exact T].
    - destruct (is_nan 24 128 (b32_of_bits bits)) eqn:N.
      + destruct (H2 eq_refl) as (b' & E & _). eexists. rewrite E. split; [reflexivity|]. right. left. split; [exact N|reflexivity].
      + destruct (H3 eq_refl eq_refl) as (b' & E & _). eexists. rewrite E. split; [reflexivity|]. right. right. split; [exact N|]. split; [exact F|reflexivity]. }
  assert (I : forall bits r, represents UInt bits r -> bits_of_binary_float 23 8 (b32_of_bits bits) = bits).
  { intros bits r Hr. apply bits_of_binary_float_of_bits. rewrite <- (represents_decode UInt bits r Hr).
    pose proof (decode_bits UInt r (proj1 Hr)) as [_ H]. exact (conj (proj1 H) (proj2 (Z.lt_succ_r _ _) (proj2 H))). }
  intros b1 b2 r1 r2 rest1 rest2 bits1 bits2 R1 R2 Hb1 Hb2.
  destruct (K _ _ _ _ R1 Hb1) as (s1 & E1 & T1). destruct (K _ _ _ _ R2 Hb2) as (s2 & E2 & T2). rewrite E1, E2. split.
  - intros E. injection E as ->. destruct (text_of_float_inj _ _ _ _ _ T1 T2) as [E|E]; [left|right; exact E].
    rewrite <- (I _ _ R1), <- (I _ _ R2), E. reflexivity.
  - intros [->|(N1 & N2 & ES)]; f_equal.
    + rewrite (arith_text Float b1 r1 rest1 (proj1 R1) Hb1) in E1. rewrite (arith_text Float b2 r2 rest2 (proj1 R2) Hb2) in E2.
      change (decode Float r1) with (decode UInt r1) in E1. change (decode Float r2) with (decode UInt r2) in E2.
      rewrite (represents_decode _ _ _ R1) in E1. rewrite (represents_decode _ _ _ R2) in E2. congruence.
    + destruct T1 as [[F _]|[[_ ->]|(N & _)]]; [|rewrite ES; clear - N2 T2|congruence].
      * destruct (b32_of_bits bits1); discriminate.
      * destruct T2 as [[F _]|[[_ ->]|(N & _)]]; [destruct (b32_of_bits bits2); discriminate|reflexivity|congruence].
Qed.
Print Assumptions C08_same_text_float.

(** 0.1 as a double. *)
Example C08_case :
  represents ULong 4591870180066957722 [x9a; x99; x99; x99; x99; x99; xb9; x3f]
  /\ is_finite 53 1024 (b64_of_bits 4591870180066957722) = true
  /\ fst (ArithExtractStr Double (blob_of [x9a; x99; x99; x99; x99; x99; xb9; x3f]))
     = Ok (lit "0.1000000000000000055511151231257827021181583404541015625").
Proof.
  split; [|split; [vm_compute; reflexivity|vm_compute; reflexivity]].
  apply (encode_represents ULong 4591870180066957722). vm_compute. split; discriminate.
Qed.
