(** C67: what an extraction leaves in the blob does not matter to it, only how much it is. *)
From Verif Require Import Base BaseFacts Blob BlobSpec BlobFacts RunSpec RunFacts Sim Oracle Arithm StampDict DictWords StampText Galley Stamps
  StampsEq Json LeafSpec FrontSpec FrontFacts BlindSpec BlindFacts TermFacts.

(** The library's own operations, every outcome included; galleys over any stamps that behave so. *)
Theorem C67_operations :
  (forall t, blind (ExtractValue (B := blob) t)) /\ (forall t, blind (ArithExtractStr (B := blob) t))
  /\ (forall t, blind (ArithExtractBin (B := blob) t)) /\ (forall t, blind (ArithExtractPValue (B := blob) t))
  /\ (forall d, blind (DictExtractStr (B := blob) d)) /\ blind (Latin1ExtractStr (B := blob)) /\ blind (ASCIIExtractStr (B := blob))
  /\ blind (JSONStringExtractStr (B := blob))
  /\ (forall mn mx, blind_cut (vector_extract (B := blob) mn mx)) /\ (forall L, blind_cut (set_extract (B := blob) L))
  /\ (forall A mn mx (ex : M blob A), takes_front ex -> blind ex -> blind (ExtractVector mn mx ex))
  /\ (forall A (l : list (Z * Z * M blob A)), Forall (fun s => takes_front (snd s) /\ blind (snd s)) l -> blind (ExtractSet l)).
Proof.
  repeat apply conj; intros.
  - apply bl_blind, bl_value.
  - apply bl_blind, bl_arith.
  - apply bl_blind. unfold ArithExtractBin. apply bl_bindeq; [apply bl_value|]. intros v. apply bl_reteq.
  - apply bl_blind. unfold ArithExtractPValue. apply bl_bindeq; [apply bl_value|]. intros v. apply bl_reteq.
  - apply bl_blind, bl_dict.
  - apply bl_blind, bl_latin1.
  - apply bl_blind, bl_ascii.
  - apply bl_blind, bl_string.
  - apply bl_blind_cut, bl_vector.
  - apply bl_blind_cut, bl_set.
  - apply bl_blind, bl_ExtractVector, blind_bl; assumption.
  - apply bl_blind, bl_ExtractSet. rewrite Forall_map. eapply Forall_impl; [|eassumption]. cbv beta. intros s [H1 H2]. apply blind_bl; assumption.
Qed.
Print Assumptions C67_operations.

(** ExtractStr of any stamp of any graph, cyclic or not, over leaves that behave so. *)
Theorem C67_graph : forall (h : heap blob) x,
  heap_leaves (fun _ _ ex => takes_front ex /\ blind ex) h -> leaves (fun _ _ ex => takes_front ex /\ blind ex) x -> blind (ExtractStr h x).
Proof.
  intros h x Hh Hx. apply bl_blind, bl_ExtractStr; [eapply heap_leaves_mono; [|exact Hh]|eapply leaves_mono; [|exact Hx]];
    cbv beta; intros _ _ ex [E1 E2]; apply blind_bl; assumption.
Qed.
Print Assumptions C67_graph.

Theorem C67_json : blind (JSONExtractStr (B := blob)).
Proof.
  apply bl_blind, bl_ExtractStr; [|constructor]. split; [|intros ? ? []]. intros P x [<-|[]] Hx.
  destruct Hx as [[= <-]|[[= <-]|[[= <-]|[[= <-]|[[= <-]|[]]]]]]; 
    [apply lv_leaf, bl_arith|apply lv_leaf, bl_arith|apply lv_leaf, bl_string|apply lv_vec, lv_pool
    |apply lv_vec, lv_hashel; [apply lv_leaf, bl_string|apply lv_pool]].
Qed.
Print Assumptions C67_json.

(** One after another from the same blob. *)
Theorem C67_compose : forall A C (f : M blob A) (g : A -> M blob C), takes_front f -> blind f ->
  (forall a, takes_front (g a) /\ blind (g a)) -> blind (a <- f ;; g a).
Proof.
  intros A C f g T F G. apply bl_blind, bl_bindeq; [apply blind_bl; assumption|]. intros a. apply blind_bl; apply G.
Qed.
Print Assumptions C67_compose.

(** How much is left does matter: with eight more bytes behind it the JSON stamp makes an array of the bytes it would
    otherwise have made a number of. *)
Theorem C67_amount : ~ (forall b taken rest r, holds b (taken ++ rest) -> runs (JSONExtractStr (B := blob)) b r rest ->
  forall b2 rest2, holds b2 (taken ++ rest2) -> exists rest', runs JSONExtractStr b2 r rest').
Proof.
  intros H. pose (t := lit "0~abcdwxyz").
  destruct (H (blob_of t) t [] (fst (JSONExtractStr (blob_of t)))) with (b2 := blob_of (t ++ lit "12345678")) (rest2 := lit "12345678")
    as (rest' & b' & E & _).
  - apply (holds_blob_of t). reflexivity.
  - exists (snd (JSONExtractStr (blob_of t))). split; [destruct (JSONExtractStr (blob_of t)); reflexivity|].
    split; [apply (tf_ExtractStr json_heap (XPool 0))|vm_compute; reflexivity].
    + split; [|intros ? ? []]. intros P x [<-|[]] Hx.
      destruct Hx as [[= <-]|[[= <-]|[[= <-]|[[= <-]|[[= <-]|[]]]]]];
        [apply lv_leaf, tf_arith|apply lv_leaf, tf_arith|apply lv_leaf, tf_string|apply lv_vec, lv_pool
        |apply lv_vec, lv_hashel; [apply lv_leaf, tf_string|apply lv_pool]].
    + constructor.
    + apply (holds_blob_of t). reflexivity.
  - apply (holds_blob_of (t ++ lit "12345678")). reflexivity.
  - apply (f_equal fst) in E. vm_compute in E. discriminate E.
Qed.
Print Assumptions C67_amount.

(** The JSON number made of these ten bytes is the same whichever three bytes follow. *)
Example C67_case :
  let b s := blob_of (lit s) in
  wf (b "00abcdefghjkl"%string) /\ wf (b "00abcdefghxyz"%string)
  /\ JSONExtractStr (b "00abcdefghjkl"%string) = (Ok (lit "7523094288207667809"), snd (JSONExtractStr (b "00abcdefghjkl"%string)))
  /\ content (snd (JSONExtractStr (b "00abcdefghjkl"%string))) = lit "jkl"
  /\ fst (JSONExtractStr (b "00abcdefghxyz"%string)) = Ok (lit "7523094288207667809")
  /\ content (snd (JSONExtractStr (b "00abcdefghxyz"%string))) = lit "xyz".
Proof.
  cbn zeta. split; [apply (holds_blob_of (lit "00abcdefghjkl")); reflexivity|].
  split; [apply (holds_blob_of (lit "00abcdefghxyz")); reflexivity|]. repeat apply conj; vm_compute; reflexivity.
Qed.
