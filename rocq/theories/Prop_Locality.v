(** C42: extraction depends only on the remaining bytes of the blob. *)
From Verif Require Import Base BaseFacts Blob BlobSpec BlobFacts Arithm StampDict StampText Galley Stamps
  Json Sim SimGraph LocalSpec LocalFacts.

(** The elementary stamps. *)
Theorem C42_elementary : 
  (forall t, local (ExtractValue t) /\ local (ArithExtractStr t) /\ local (ArithExtractBin t)
             /\ local (ArithExtractPValue t)) /\
  (forall d, local (DictExtractStr d)) /\
  local Latin1ExtractStr /\ local ASCIIExtractStr.
Proof.
  split; [|split; [|split]].
  - intros t. split; [|split; [|split]]; apply sim_local.
    + apply sim_ExtractValue.
    + apply sim_ArithExtractStr.
    + apply sim_ArithExtractBin.
    + apply sim_ArithExtractPValue.
  - intros d. apply sim_local, sim_DictExtractStr.
  - apply sim_local, sim_Latin1.
  - apply sim_local, sim_ASCII.
Qed.
Print Assumptions C42_elementary.

(** The galleys: how the data is cut. *)
Theorem C42_galleys : forall mn mx l,
  local_chunks (vector_extract mn mx) /\ local_chunks (set_extract l).
Proof.
  intros mn mx l. split; apply sim_local_chunks; [apply sim_vector_extract|apply sim_set_extract].
Qed.
Print Assumptions C42_galleys.

(** Every composite stamp over well-behaved user stamps: enumerators, texts, operators, sets, hash
    elements, pools and lotteries, in any graph. *)
Theorem C42_composite : forall h x, good_heap h -> good_sx x -> local (ExtractStr h x).
Proof.
  intros h x Hh Hx. apply sim_local, sim_ExtractStr; [apply good_heap_self|apply good_self]; assumption.
Qed.
Print Assumptions C42_composite.

Theorem C42_json : local JSONExtractStr.
Proof. apply sim_local, sim_JSON. Qed.
Print Assumptions C42_json.

(** The stamps of the library are well-behaved leaves. *)
Theorem C42_library_leaves : forall t d,
  good_leaf (ArithExtractStr t) /\ good_leaf (DictExtractStr d) /\ good_leaf Latin1ExtractStr
  /\ good_leaf ASCIIExtractStr.
Proof.
  assert (G : forall f, simS RelB eq f f -> good_leaf f).
  { intros f H. split; [apply sim_local; exact H|]. intros b Hb.
    destruct (H b b) as (_ & Hw & _); [repeat split; exact Hb|exact Hw]. }
  intros t d. split; [|split; [|split]]; apply G.
  - apply sim_ArithExtractStr.
  - apply sim_DictExtractStr.
  - apply sim_Latin1.
  - apply sim_ASCII.
Qed.
Print Assumptions C42_library_leaves.

(** Same bytes at different places of different buffers. *)
Example C42_case :
  let b1 := newBlob [x01; x80; x41] (Some 0) 2 in
  let b2 := snd (blobChop 1 (newBlob [x07; x07; x07; x01; x80] (Some 2) 3)) in
  wf b1 /\ wf b2 /\ content b1 = content b2 /\ mem b1 <> mem b2
  /\ fst (ArithExtractStr Short b1) = Ok (lit "-32767") /\ fst (ArithExtractStr Short b2) = Ok (lit "-32767").
Proof.
  cbn zeta. split; [apply newBlob_wf; cbn; lia|]. split.
  { exists 2, 3. vm_compute. intuition discriminate. }
  vm_compute. intuition discriminate.
Qed.
