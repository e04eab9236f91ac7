(** C12, C13, C14, C15: dictionary stamps. *)
From Coq Require Import Sorted.
From Verif Require Import Base BaseFacts Blob BlobSpec RunSpec RunFacts Sim StampDict DictWords DictSpec DictFacts.

(** C12.  A word of the dictionary, at the cost of exactly minSize() bytes. *)
Theorem C12_word : forall d b l, d <> [] -> zlen d <= 2 ^ 53 -> holds b l -> DictMinSize d <= zlen l ->
  exists w, In w d /\ runs (DictExtractStr d) b (Ok w) (skipn (Z.to_nat (DictMinSize d)) l).
Proof.
  intros d b l Hd Hs Hb Hl. destruct (list_dict d l Hd Hs Hl) as (w & Hw & E).
  exists w. split; [exact Hw|]. exact (run_transfer _ _ b l _ _ (sim_DictExtractStr d) Hb E).
Qed.
Print Assumptions C12_word.

Theorem C12_short : forall d b l, holds b l -> zlen l < DictMinSize d ->
  runs (DictExtractStr d) b OutOfData l.
Proof.
  intros d b l Hb Hl. exact (run_transfer _ _ b l _ _ (sim_DictExtractStr d) Hb (list_dict_short d l Hl)).
Qed.
Print Assumptions C12_short.

Theorem C12_empty_dictionary : forall b l, holds b l -> DictMinSize [] <= zlen l ->
  fst (DictExtractStr [] b) = UB.
Proof.
  intros b l Hb Hl. exact (run_transfer_ub _ _ _ b l (sim_DictExtractStr []) Hb (list_dict_empty l Hl)).
Qed.
Print Assumptions C12_empty_dictionary.

Example C12_case :
  fst (DictExtractStr [lit "one"; lit "two"; lit "three"] (blob_of [x56; x00])) = Ok (lit "two")
  /\ fst (DictExtractStr [lit "one"; lit "two"; lit "three"] (blob_of [xff; x00])) = Ok (lit "three")
  /\ DictMinSize [lit "one"; lit "two"; lit "three"] = 1.
Proof. vm_compute. repeat split; reflexivity. Qed.

(** C13.  Every word is selected by some bytes, whatever follows them. *)
Theorem C13_reachable : forall d i w, zlen d <= 2 ^ 52 -> nth_error d i = Some w ->
  exists front, zlen front = DictMinSize d
    /\ forall b rest, holds b (front ++ rest) -> runs (DictExtractStr d) b (Ok w) rest.
Proof.
  intros d i w Hd Hw. destruct (dict_reach d i w Hd Hw) as (front & Hf & E).
  exists front. split; [exact Hf|]. intros b rest Hb.
  exact (run_transfer _ _ b _ _ _ (sim_DictExtractStr d) Hb (E rest)).
Qed.
Print Assumptions C13_reachable.

Example C13_case : nth_error DictLCAlphaSmall 253 = Some (lit "zanier")
  /\ fst (DictExtractStr DictLCAlphaSmall (blob_of [xff])) = Ok (lit "zanier").
Proof. vm_compute. split; reflexivity. Qed.

(** C14.  1, 2 or 8 bytes; never 4. *)
Theorem C14_width : forall d,
  (zlen d <= 256 -> DictMinSize d = 1)
  /\ (256 < zlen d <= 65536 -> DictMinSize d = 2)
  /\ (65536 < zlen d -> DictMinSize d = 8)
  /\ DictMaxSize d = DictMinSize d.
Proof.
  intros d. unfold DictMaxSize, DictMinSize. rewrite choose_cases.
  destruct (Z.leb_spec (zlen d) 256); [|destruct (Z.leb_spec (zlen d) 65536)]; cbn [fst]; repeat split; lia.
Qed.
Print Assumptions C14_width.

Example C14_case : exists d e f : list bytes,
  zlen d = 256 /\ DictMinSize d = 1 /\ zlen e = 65536 /\ DictMinSize e = 2 /\ zlen f = 70000 /\ DictMinSize f = 8.
Proof.
  destruct (some_dict 256) as (d & Hd); [lia|]. destruct (some_dict 65536) as (e & He); [lia|].
  destruct (some_dict 70000) as (f & Hf); [lia|]. exists d, e, f.
  destruct (C14_width d) as (D & _), (C14_width e) as (_ & E & _), (C14_width f) as (_ & _ & F & _).
  repeat split; try assumption; [apply D|apply E|apply F]; lia.
Qed.

(** C15.  The words of DictLCAlphaSmall. *)
Theorem C15_words : Forall plain_word DictLCAlphaSmall /\ NoDup DictLCAlphaSmall
  /\ StronglySorted before DictLCAlphaSmall /\ zlen DictLCAlphaSmall = 254.
Proof.
  split; [exact words_plain|]. split; [exact (sorted_nodup _ words_sorted)|].
  split; [exact words_sorted|exact words_count].
Qed.
Print Assumptions C15_words.

Example C15_case : plain_word (lit "zanier") /\ ~ plain_word (lit "Zanier") /\ before (lit "wets") (lit "whom")
  /\ In (lit "zanier") DictLCAlphaSmall.
Proof.
  split; [apply plainb_spec; reflexivity|]. split.
  - intros [_ H]. inversion H as [|c r Hc _]. unfold lower_case in Hc. cbn in Hc. lia.
  - split; [apply beforeb_spec; reflexivity|]. apply (nth_error_In _ 253). vm_compute. reflexivity.
Qed.
