(** C06, C07: integer stamps. *)
From Verif Require Import Base BaseFacts Fmt Arithm Blob BlobSpec RunSpec RunFacts Sim ArithSpec ArithFacts.

(** C06.  Enough data: the value whose representation is at the front of the blob, that many bytes
    consumed, and ExtractBin gives these bytes back. *)
Theorem C06_extract : forall t b l, int_type t -> holds b l -> width t <= zlen l ->
  let front := firstn (Z.to_nat (width t)) l in
  let rest := skipn (Z.to_nat (width t)) l in
  exists v, runs (ExtractValue t) b (Ok v) rest
    /\ represents t v front /\ lowest t <= v <= highest t
    /\ runs (ArithExtractBin t) b (Ok front) rest
    /\ runs (ArithExtractPValue t) b (Ok (front, width t)) rest
    /\ runs (PVExtractBin (ArithExtractPValue t)) b (Ok front) rest.
Proof.
  intros t b l _ Hb Hl. rewrite width_sizeof in *. cbn zeta. pose proof (sizeof_range t).
  set (front := firstn (Z.to_nat (sizeof t)) l). set (rest := skipn (Z.to_nat (sizeof t)) l).
  assert (Hf : zlen front = sizeof t) by (apply zlen_firstn; lia).
  pose proof (list_ExtractValue t l Hl) as E. fold front rest in E.
  exists (decode t front). split; [|split; [|split; [|split; [|split]]]].
  - exact (run_transfer _ _ b l _ _ (sim_ExtractValue t) Hb E).
  - apply decode_bits. exact Hf.
  - apply decode_bits. exact Hf.
  - apply (run_transfer _ _ b l _ _ (sim_ArithExtractBin t) Hb).
    unfold ArithExtractBin. rewrite (bind_ok _ _ _ _ _ E). unfold ret. rewrite encode_decode by exact Hf.
    reflexivity.
  - apply (run_transfer _ _ b l _ _ (sim_ArithExtractPValue t) Hb).
    unfold ArithExtractPValue. rewrite (bind_ok _ _ _ _ _ E). unfold ret. rewrite encode_decode by exact Hf.
    reflexivity.
  - apply (run_transfer _ (PVExtractBin (ArithExtractPValue t)) b l _ _); [|exact Hb|].
    + apply sim_bind_eq; [apply sim_ArithExtractPValue|]. intros p. apply sim_ret. reflexivity.
    + unfold PVExtractBin. rewrite (bind_ok _ _ l (encode t (decode t front), sizeof t) rest).
      2:{ unfold ArithExtractPValue. rewrite (bind_ok _ _ _ _ _ E). reflexivity. }
      unfold ret. cbn [fst snd]. rewrite encode_decode by exact Hf. rewrite <- Hf. unfold zlen. rewrite Nat2Z.id, firstn_all. reflexivity.
Qed.
Print Assumptions C06_extract.

(** Round trip: bytes representing [v] are read as [v]; every value has such bytes. *)
Theorem C06_round_trip : forall t b v r rest, int_type t -> represents t v r -> holds b (r ++ rest) ->
  runs (ExtractValue t) b (Ok v) rest.
Proof.
  intros t b v r rest _ Hr Hb. pose proof (sizeof_range t).
  assert (Hn : Z.to_nat (sizeof t) = length r) by (destruct Hr as [Hr _]; rewrite width_sizeof in Hr; unfold zlen in Hr; lia).
  apply (run_transfer _ _ b _ _ _ (sim_ExtractValue t) Hb).
  rewrite list_ExtractValue by (rewrite zlen_app; pose proof (zlen_nonneg rest); pose proof (width_sizeof t); destruct Hr; lia).
  rewrite Hn, firstn_app, skipn_app, Nat.sub_diag, firstn_all, skipn_all, app_nil_r.
  rewrite (represents_decode t v r Hr). reflexivity.
Qed.
Print Assumptions C06_round_trip.

Theorem C06_every_value : forall t v, int_type t -> lowest t <= v <= highest t ->
  exists r, represents t v r.
Proof. intros t v _ Hv. exists (encode t v). apply encode_represents. exact Hv. Qed.
Print Assumptions C06_every_value.

Theorem C06_short : forall t b l, holds b l -> zlen l < width t ->
  runs (ExtractValue t) b OutOfData l /\ runs (ArithExtractBin t) b OutOfData l
  /\ runs (ArithExtractStr t) b OutOfData l /\ runs (ArithExtractPValue t) b OutOfData l.
Proof.
  intros t b l Hb Hl. rewrite width_sizeof in Hl. pose proof (list_ExtractValue_ood t l Hl) as E.
  split; [|split; [|split]].
  - exact (run_transfer _ _ b l _ _ (sim_ExtractValue t) Hb E).
  - apply (run_transfer _ _ b l _ _ (sim_ArithExtractBin t) Hb). exact (bind_ood _ _ _ _ E).
  - apply (run_transfer _ _ b l _ _ (sim_ArithExtractStr t) Hb). exact (bind_ood _ _ _ _ E).
  - apply (run_transfer _ _ b l _ _ (sim_ArithExtractPValue t) Hb). exact (bind_ood _ _ _ _ E).
Qed.
Print Assumptions C06_short.

Example C06_case :
  holds (blob_of [xfe; xff; x01]) [xfe; xff; x01] /\ represents Short (-2) [xfe; xff]
  /\ fst (ExtractValue Short (blob_of [xfe; xff; x01])) = Ok (-2)
  /\ fst (ExtractValue UShort (blob_of [xfe; xff; x01])) = Ok 65534.
Proof.
  split; [apply holds_blob_of; reflexivity|]. split; [|vm_compute; split; reflexivity].
  apply (encode_represents Short (-2)). vm_compute. split; discriminate.
Qed.

(** C07.  All types but the two signed 8-bit ones: the numeral of the value. *)
Theorem C07_decimal : forall t b r rest v, int_type t -> t <> Char -> t <> SChar ->
  represents t v r -> holds b (r ++ rest) ->
  exists s, runs (ArithExtractStr t) b (Ok s) rest /\ read_int s = Some v.
Proof.
  intros t b r rest v Ht H1 H2 Hr Hb. exists (fmt_int v). split; [|apply read_int_fmt].
  destruct (C06_round_trip t b v r rest Ht Hr Hb) as (b' & E & Hw & Hc).
  exists b'. split; [|split; assumption]. unfold ArithExtractStr. rewrite (bind_ok _ _ _ _ _ E).
  destruct Ht as (T1 & T2 & T3). destruct t; try congruence; reflexivity.
Qed.
Print Assumptions C07_decimal.

(** Signed 8-bit types: the numeral, or its first three characters and a NUL. *)
Theorem C07_char : forall t b r rest v, t = Char \/ t = SChar ->
  represents t v r -> holds b (r ++ rest) ->
  (-99 <= v -> exists s, runs (ArithExtractStr t) b (Ok s) rest /\ read_int s = Some v) /\
  (v < -99 -> exists s, read_int s = Some v /\ zlen s = 4
                /\ runs (ArithExtractStr t) b (Ok (firstn 3 s ++ [x00])) rest
                /\ read_int (firstn 3 s ++ [x00]) = None).
Proof.
  intros t b r rest v Ht Hr Hb.
  assert (Hi : int_type t) by (destruct Ht as [-> | ->]; repeat split; discriminate).
  destruct (C06_round_trip t b v r rest Hi Hr Hb) as (b' & E & Hw & Hc).
  assert (Hv : lowest t <= v <= highest t).
  { rewrite <- (represents_decode t v r Hr). apply decode_bits. rewrite <- width_sizeof. exact (proj1 Hr). }
  assert (Hv' : -128 <= v <= 127) by (destruct Ht as [-> | ->]; exact Hv).
  assert (Es : forall s, to_xstring 4 (fmt_int v) = Ok s -> runs (ArithExtractStr t) b (Ok s) rest).
  { intros s Hs. exists b'. split; [|split; assumption]. unfold ArithExtractStr. rewrite (bind_ok _ _ _ _ _ E).
    unfold lift. f_equal. destruct Ht as [-> | ->]; exact Hs. }
  assert (HL : forall k, 0 <= k -> Z.abs v < 10 ^ (k + 1) -> zlen (map digit (digits (Z.abs v))) <= k + 1).
  { intros k Hk Hlt. destruct (digits_canon (Z.abs v)) as [C D]; [lia|]. rewrite zlen_map.
    apply canon_len_bound; [exact C|exact Hk|rewrite D; exact Hlt]. }
  assert (HG : 100 <= Z.abs v -> 3 <= zlen (map digit (digits (Z.abs v)))).
  { intros Hlt. destruct (digits_canon (Z.abs v)) as [C D]; [lia|]. rewrite zlen_map.
    apply (canon_len_bound_low _ 2); [exact C|lia|rewrite D; exact Hlt]. }
  split; intros Hlt.
  - exists (fmt_int v). split; [|apply read_int_fmt]. apply Es. unfold to_xstring.
    replace (zlen (fmt_int v) <? 4) with true; [reflexivity|]. symmetry. apply Z.ltb_lt.
    unfold fmt_int. destruct (v <? 0) eqn:Eneg.
    + rewrite zlen_cons. replace (- v) with (Z.abs v) by lia. pose proof (HL 1 ltac:(lia) ltac:(cbn; lia)). lia.
    + pose proof (HL 2 ltac:(lia) ltac:(change (10 ^ (2 + 1)) with 1000; lia)) as H3. replace (Z.abs v) with v in H3 by lia. lia.
  - assert (Hz : zlen (fmt_int v) = 4).
    { unfold fmt_int. replace (v <? 0) with true by lia. rewrite zlen_cons.
      replace (- v) with (Z.abs v) by lia. pose proof (HL 2 ltac:(lia) ltac:(change (10 ^ (2 + 1)) with 1000; lia)). lia. }
    exists (fmt_int v). split; [apply read_int_fmt|]. split; [exact Hz|].
    split.
    + apply Es. unfold to_xstring. rewrite Hz. reflexivity.
    + destruct (read_int (firstn 3 (fmt_int v) ++ [x00])) as [w|] eqn:Er; [exfalso|reflexivity].
      apply read_int_unique in Er. revert Er. unfold fmt_int at 2.
      assert (Hd : forall z, 0 <= z -> ~ In x00 (map digit (digits z))).
      { intros z Hz0 Hin. apply in_map_iff in Hin. destruct Hin as (d & Ed & Hin).
        destruct (digits_canon z Hz0) as [[HF _] _]. rewrite Forall_forall in HF. specialize (HF d Hin).
        apply (f_equal bval) in Ed. rewrite bval_digit in Ed by exact HF. change (bval x00) with 0 in Ed. unfold isd in HF. lia. }
      assert (Hin : In x00 (firstn 3 (fmt_int v) ++ [x00])) by (apply in_or_app; right; left; reflexivity).
      destruct (w <? 0) eqn:Ew; intros Er; rewrite Er in Hin.
      * destruct Hin as [H0|Hin]; [discriminate|]. exact (Hd (- w) ltac:(lia) Hin).
      * exact (Hd w ltac:(lia) Hin).
Qed.
Print Assumptions C07_char.

(** The numeral of a value is unique, so the statements above fix the text completely. *)
Theorem C07_numeral_unique : forall s1 s2 v, read_int s1 = Some v -> read_int s2 = Some v -> s1 = s2.
Proof. intros s1 s2 v H1 H2. rewrite (read_int_unique _ _ H1). symmetry. apply read_int_unique. exact H2. Qed.
Print Assumptions C07_numeral_unique.

Example C07_case :
  fst (ArithExtractStr Long (blob_of [x00; x00; x00; x00; x00; x00; x00; x80])) = Ok (lit "-9223372036854775808")
  /\ fst (ArithExtractStr SChar (blob_of [x9d])) = Ok (lit "-99")
  /\ fst (ArithExtractStr SChar (blob_of [x9c])) = Ok (lit "-10" ++ [x00])
  /\ represents SChar (-100) [x9c].
Proof.
  split; [vm_compute; reflexivity|]. split; [vm_compute; reflexivity|]. split; [vm_compute; reflexivity|].
  apply (encode_represents SChar (-100)). vm_compute. split; discriminate.
Qed.
