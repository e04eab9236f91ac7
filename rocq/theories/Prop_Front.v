(** C60: whatever its outcome, an extraction only takes data from the front of the blob. *)
From Verif Require Import Base BaseFacts Blob BlobSpec BlobFacts RunSpec RunFacts Sim Oracle Arithm StampDict DictWords StampText Galley Stamps
  StampsEq Json LeafSpec TestStamps Points FrontSpec FrontFacts.

(** The library's own operations, every outcome included: values, oracles, dictionary words, texts, strings,
    Load, and the galleys over stamps of any behaviour and any declared sizes. *)
Theorem C60_operations :
  (forall k, 0 <= k -> takes_front (Chop (B := blob) k))
  /\ (forall t, takes_front (ExtractValue (B := blob) t)) /\ (forall t, takes_front (ArithExtractStr (B := blob) t))
  /\ (forall t, takes_front (ArithExtractBin (B := blob) t)) /\ (forall t, takes_front (ArithExtractPValue (B := blob) t))
  /\ (forall d, takes_front (DictExtractStr (B := blob) d))
  /\ takes_front (Latin1ExtractStr (B := blob)) /\ takes_front (ASCIIExtractStr (B := blob))
  /\ takes_front (JSONStringExtractStr (B := blob))
  /\ (forall mn mx, takes_front (Load (B := blob) mn mx))
  /\ (forall A mn mx (ex : M blob A), takes_front (ExtractVector mn mx ex))
  /\ (forall A (l : list (Z * Z * M blob A)), takes_front (ExtractSet l))
  /\ (forall l (st : loads blob), takes_front (LoadAll l st)).
Proof.
  repeat apply conj; intros.
  - apply tf_chop; assumption.
  - apply tf_value.
  - apply tf_arith.
  - unfold ArithExtractBin. apply tf_bind; [apply tf_value|]. intros v. apply tf_ret.
  - unfold ArithExtractPValue. apply tf_bind; [apply tf_value|]. intros v. apply tf_ret.
  - apply tf_dict.
  - apply tf_text. discriminate.
  - apply (tf_text (map (fun c => nul_to_space (strip_high c)))). discriminate.
  - apply tf_string.
  - apply tf_load.
  - unfold ExtractVector. apply tf_bind; [apply tf_vector|]. intros cs. apply tf_lift.
  - unfold ExtractSet. apply tf_bind; [apply tf_set|]. intros cs. apply tf_lift.
  - unfold LoadAll. apply tf_bind; [apply tf_set|]. intros cs. apply tf_ret.
Qed.
Print Assumptions C60_operations.

(** ExtractStr of any stamp of any graph, cyclic or not, over leaves that take from the front only. *)
Theorem C60_graph : forall (h : heap blob) x,
  heap_leaves (fun _ _ ex => takes_front ex) h -> leaves (fun _ _ ex => takes_front ex) x -> takes_front (ExtractStr h x).
Proof. exact tf_ExtractStr. Qed.
Print Assumptions C60_graph.

(** So for JSON, on every blob. *)
Theorem C60_json : takes_front (JSONExtractStr (B := blob)).
Proof.
  apply tf_ExtractStr; [|constructor]. split; [|intros ? ? []]. intros P x [<-|[]] Hx.
  destruct Hx as [[= <-]|[[= <-]|[[= <-]|[[= <-]|[[= <-]|[]]]]]]; 
    [apply lv_leaf, tf_arith|apply lv_leaf, tf_arith|apply lv_leaf, tf_string|apply lv_vec, lv_pool
    |apply lv_vec, lv_hashel; [apply lv_leaf, tf_string|apply lv_pool]].
Qed.
Print Assumptions C60_json.

(** A user stamp written as a sequence of such operations, with computations in between, is one too. *)
Theorem C60_compose : forall A C (f : M blob A) (g : A -> M blob C),
  takes_front f -> (forall a, takes_front (g a)) -> takes_front (a <- f ;; g a).
Proof. intros A C f g. exact (tf_bind f g). Qed.
Print Assumptions C60_compose.

(** What a caller sees: after any number of such operations on one blob, some of which may have thrown, the
    blob holds a tail of what it held, and the buffer has not been touched. *)
Theorem C60_tail : forall (fs : list { A : Type & M blob A }) b,
  Forall (fun f => takes_front (projT2 f)) fs -> wf b ->
  wf (run_all fs b) /\ mem (run_all fs b) = mem b /\ exists gone, content b = gone ++ content (run_all fs b).
Proof.
  intros fs b H Hb. enough (K : wf (run_all fs b) /\ further b (run_all fs b)).
  { destruct K as [K1 K2]. split; [exact K1|]. split; [exact (proj1 K2)|]. exact (further_content _ _ Hb K1 K2). }
  revert b Hb. induction H as [|[A f] fs Hf _ IH]; intros b Hb; cbn [run_all]; [split; [exact Hb|apply further_refl]|].
  destruct (Hf b Hb) as [W F]. destruct (IH _ W) as [W' F']. split; [exact W'|exact (further_trans _ _ _ F F')].
Qed.
Print Assumptions C60_tail.

(** A vector whose elements fail: the exception comes after the whole blob was cut up, the blob is left
    empty at its end and the buffer as it was; a second operation then finds nothing. *)
Example C60_case :
  let failing := XLeaf (B := blob) 1 1 (lift OutOfData) in
  let h := mkHeap (B := blob) [] [] in
  let b := blob_of (lit "abc") in
  let v := XVec (enum_text (lit ",") (lit "(") (lit ")")) failing in
  wf b /\ leaves (fun _ _ ex => takes_front ex) v /\ fst (ExtractStr h v b) = OutOfData
  /\ content (snd (ExtractStr h v b)) = [] /\ mem (snd (ExtractStr h v b)) = lit "abc"
  /\ content (run_all [existT _ _ (ArithExtractStr UChar); existT _ _ (ArithExtractStr Int); existT _ _ (ArithExtractStr UChar)] b)
     = lit "c".
Proof.
  cbn zeta. split; [apply (holds_blob_of (lit "abc")); reflexivity|]. split; [constructor; constructor; apply tf_lift|].
  repeat apply conj; vm_compute; reflexivity.
Qed.
