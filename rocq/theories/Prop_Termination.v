(** C46: extraction terminates. *)
From Verif Require Import Base BaseFacts Blob BlobSpec RunSpec RunFacts Sim Oracle Arithm ArithFacts StampDict DictWords
  StampText Galley Stamps StampsEq Json LeafSpec TermSpec QueryFacts ShrinkFacts DepthFacts TermFacts.

Lemma tame_leaf : forall ex, tame ex -> forall n, shr n any ex /\ halts n ex.
Proof.
  intros ex H n. split; intros b [Hb Sb]; destruct (H b Hb) as (H1 & H2 & H3).
  - split; [|intros; exact I]. split; [exact H2|]. change (Size (snd (ex b))) with (blobSize (snd (ex b))).
    change (Size b) with (blobSize b) in Sb. lia.
  - exact H1.
Qed.

(** C46.  Over tame leaves, and with no enumerator over elements of fixed size 0, ExtractStr of any stamp
    in any graph, cyclic or not, ends: it returns a value, throws OutOfData, aborts or is undefined,
    but does not run forever; and the blob has not grown. *)
Theorem C46_terminates : forall (h : heap blob) x b,
  heap_leaves (fun _ _ ex => tame ex) h -> leaves (fun _ _ ex => tame ex) x ->
  heap_no_zero_vec h -> no_zero_vec h x -> wf b ->
  fst (ExtractStr h x b) <> Diverge /\ wf (snd (ExtractStr h x b))
  /\ blobSize (snd (ExtractStr h x b)) <= blobSize b.
Proof.
  intros h x b Hh Hx Zh Zx Hb. assert (Sb : small (Size b) b) by (split; [exact Hb|lia]).
  assert (T : forall (mn mx : Z) ex, tame ex -> forall n, shr n any ex /\ halts n ex) by (intros _ _; exact tame_leaf).
  split; [|revert b Hb Sb; intros b Hb Sb; set (f := S (Z.to_nat (Size b)));
           enough (K : small (Size b) (snd (extract f h x b))) by exact K].
  - apply (halts_extract h) with (n := Size b); auto; try lia.
    + eapply heap_leaves_mono; [exact T|exact Hh].
    + eapply leaves_mono; [exact T|exact Hx].
  - apply (shr_extract h) with (n := Size b); [| |exact Sb].
    + eapply heap_leaves_mono; [|exact Hh]. cbn. intros ? ? ? K n. apply (tame_leaf _ K n).
    + eapply leaves_mono; [|exact Hx]. cbn. intros ? ? ? K n. apply (tame_leaf _ K n).
Qed.
Print Assumptions C46_terminates.

(** The model's recursion depth is no restriction: any depth above the number of bytes in the blob
    gives the same run. *)
Theorem C46_depth : forall (h : heap blob) x b f,
  heap_leaves (fun _ _ ex => tame ex) h -> leaves (fun _ _ ex => tame ex) x -> wf b ->
  blobSize b < Z.of_nat f -> extract f h x b = ExtractStr h x b.
Proof.
  intros h x b f Hh Hx Hb Hf. apply depth_enough; auto.
  - eapply heap_leaves_mono; [|exact Hh]. cbn. intros ? ? ? K n. apply (tame_leaf _ K n).
  - eapply leaves_mono; [|exact Hx]. cbn. intros ? ? ? K n. apply (tame_leaf _ K n).
Qed.
Print Assumptions C46_depth.

(** An enumerator over elements of fixed size 0 never returns, whatever the blob and the number of
    iterations granted. *)
Theorem C46_zero : forall b n, wf b -> fst (fixed_loop n 0 b) = Diverge.
Proof.
  intros b n. revert b. induction n as [|n IH]; intros b Hb; cbn [fixed_loop]; [reflexivity|].
  change (u64 0) with 0. pose proof (@law_size blob _ BlobBlobLaws b Hb) as Es. pose proof (zlen_nonneg (cont b)).
  destruct (0 <=? Size b) eqn:E; [|lia].
  destruct (@law_chop_ok blob _ BlobBlobLaws b 0 Hb ltac:(lia)) as (c & b' & Ec & _ & Hb' & _).
  rewrite (bind_ok _ _ _ _ _ Ec). specialize (IH b' Hb'). unfold bind.
  destruct (fixed_loop n 0 b') as [r b'']. cbn [fst] in IH. rewrite IH. reflexivity.
Qed.
Print Assumptions C46_zero.

(** The library's own leaves are tame. *)
Theorem C46_leaves : (forall t, tame (ArithExtractStr t)) /\ (forall d, tame (DictExtractStr d))
  /\ tame Latin1ExtractStr /\ tame ASCIIExtractStr /\ tame JSONStringExtractStr.
Proof.
  assert (K : forall ex : M blob bytes, (forall n, shr n any ex /\ halts n ex) -> tame ex).
  { intros ex H b Hb. assert (Sb : small (Size b) b) by (split; [exact Hb|lia]).
    destruct (H (Size b)) as [H1 H2]. split; [exact (H2 b Sb)|]. exact (proj1 (H1 b Sb)). }
  split; [|split; [|split; [|split]]].
  - intros t. apply K, arith_tame.
  - intros d. apply K, dict_tame.
  - apply K. exact (text_tame (u64 TextMaxSize) eq_refl _).
  - apply K. exact (text_tame (u64 TextMaxSize) eq_refl _).
  - apply K, string_tame.
Qed.
Print Assumptions C46_leaves.

(** JSON extraction ends on every blob, of any size and content. *)
Theorem C46_json : forall b, wf b -> fst (JSONExtractStr b) <> Diverge /\ blobSize (snd (JSONExtractStr b)) <= blobSize b.
Proof.
  intros b Hb. destruct C46_leaves as (Ta & _ & _ & _ & Ts).
  assert (Hl : forall x, In x [StampJSONInt; StampJSONFloat; StampJSONString; StampJSONArray 0; StampJSONHash 0] ->
    leaves (fun _ _ ex => tame ex) x).
  { intros x [<-|[<-|[<-|[<-|[<-|[]]]]]].
    - constructor. apply Ta.
    - constructor. apply Ta.
    - constructor. exact Ts.
    - constructor. constructor.
    - constructor. constructor; constructor. exact Ts. }
  assert (Hz : forall x, In x [StampJSONInt; StampJSONFloat; StampJSONString; StampJSONArray 0; StampJSONHash 0] ->
    no_zero_vec (B := blob) json_heap x).
  { intros x [<-|[<-|[<-|[<-|[<-|[]]]]]]; try (constructor; fail).
    - constructor; [constructor|]. intros (k & E1 & _ & E2). vm_compute in E1. injection E1 as <-. discriminate E2.
    - constructor; [constructor; constructor|]. intros (k & E1 & _ & E2). vm_compute in E1. injection E1 as <-. discriminate E2. }
  destruct (C46_terminates json_heap StampJSON b) as (H1 & _ & H2).
  - split; [|intros ? ? []]. intros P x [<-|[]] Hx. apply Hl.
    destruct Hx as [[= <-]|[[= <-]|[[= <-]|[[= <-]|[[= <-]|[]]]]]]; cbn; tauto.
  - constructor.
  - split; [|intros ? ? []]. intros P x [<-|[]] Hx. apply Hz.
    destruct Hx as [[= <-]|[[= <-]|[[= <-]|[[= <-]|[[= <-]|[]]]]]]; cbn; tauto.
  - constructor.
  - exact Hb.
  - split; [exact H1|exact H2].
Qed.
Print Assumptions C46_json.

(** A user stamp that reads nothing and is declared to need nothing: fine alone, endless in an
    enumerator. *)
Example C46_case :
  let nothing := XLeaf (B := blob) 0 0 (ret (lit "x")) in
  let h := mkHeap (B := blob) [] [] in
  zero_sized h nothing /\ fst (ExtractStr h nothing (blob_of (lit "ab"))) = Ok (lit "x")
  /\ fst (ExtractStr h (XVec (enum_text [] [] []) nothing) (blob_of (lit "ab"))) = Diverge
  /\ fst (ExtractStr h (XVec (enum_text [] [] []) (XLeaf 1 1 (ArithExtractStr UChar))) (blob_of (lit "ab"))) = Ok (lit "9798").
Proof.
  cbv zeta. split; [exists 0; repeat split|]. split; [reflexivity|]. split; vm_compute; reflexivity.
Qed.
