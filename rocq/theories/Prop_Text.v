(** C16: text stamps. *)
From Verif Require Import Base BaseFacts Blob BlobSpec RunSpec RunFacts Sim StampText TextSpec TextFacts.

Theorem C16_latin1 : forall b l, holds b l -> l <> [] ->
  exists s, runs Latin1ExtractStr b (Ok s) [] /\ Forall2 latin1_byte l s
    /\ zlen s = zlen l /\ Forall (fun c => bval c <> 0) s.
Proof.
  intros b l Hb Hl. pose proof (holds_small b l Hb). pose proof (zlen_nonneg l).
  assert (zlen l <> 0) by (intros E; apply zlen_0_nil in E; contradiction).
  exists (map nul_to_space l). pose proof (latin1_spec l) as S. split; [|split; [exact S|split]].
  - exact (run_transfer _ _ b l _ _ sim_Latin1 Hb (list_text _ l ltac:(lia))).
  - apply zlen_map.
  - exact (latin1_no_nul _ _ S).
Qed.
Print Assumptions C16_latin1.

Theorem C16_ascii : forall b l, holds b l -> l <> [] ->
  exists s, runs ASCIIExtractStr b (Ok s) [] /\ Forall2 ascii_byte l s
    /\ zlen s = zlen l /\ Forall (fun c => 1 <= bval c <= 127) s.
Proof.
  intros b l Hb Hl. pose proof (holds_small b l Hb). pose proof (zlen_nonneg l).
  assert (zlen l <> 0) by (intros E; apply zlen_0_nil in E; contradiction).
  exists (map (fun c => nul_to_space (strip_high c)) l). pose proof (ascii_spec l) as S.
  split; [|split; [exact S|split]].
  - exact (run_transfer _ _ b l _ _ sim_ASCII Hb (list_text _ l ltac:(lia))).
  - apply zlen_map.
  - exact (ascii_range _ _ S).
Qed.
Print Assumptions C16_ascii.

Theorem C16_empty : forall b, holds b [] ->
  runs Latin1ExtractStr b OutOfData [] /\ runs ASCIIExtractStr b OutOfData [].
Proof.
  intros b Hb. split.
  - exact (run_transfer _ _ b [] _ _ sim_Latin1 Hb (list_text_empty _)).
  - exact (run_transfer _ _ b [] _ _ sim_ASCII Hb (list_text_empty _)).
Qed.
Print Assumptions C16_empty.

Example C16_case :
  holds (blob_of [x41; x00; xc2; x80]) [x41; x00; xc2; x80]
  /\ fst (Latin1ExtractStr (blob_of [x41; x00; xc2; x80])) = Ok [x41; x20; xc2; x80]
  /\ fst (ASCIIExtractStr (blob_of [x41; x00; xc2; x80])) = Ok [x41; x20; x42; x20].
Proof. split; [apply holds_blob_of; reflexivity|]. vm_compute. split; reflexivity. Qed.
