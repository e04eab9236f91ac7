(** C28: text of enumerators. *)
From Verif Require Import Base BaseFacts Blob BlobSpec RunSpec RunFacts Sim Arithm StampText Galley Stamps
  StampsEq TextSpec TextFacts LeafSpec TermSpec TermFacts NestFacts.

(** StampStrEnumerator: the blob is cut by the galley, every chunk is stamped by the element stamp, and
    the strings are put into the brackets, separated.  Leading empty strings vanish.  It succeeds
    exactly when the galley and all elements do. *)
Theorem C28_enumerator : forall (h : heap blob) y sep left right b s b', tame_graph h y -> wf b ->
  (ExtractStr h (XVec (enum_text sep left right) y) b = (Ok s, b') <->
   exists mn mx chunks strs, minSize h y = Ok mn /\ maxSize h y = Ok mx
     /\ vector_extract mn mx b = (Ok chunks, b')
     /\ Forall2 (fun c t => fst (ExtractStr h y c) = Ok t) chunks strs
     /\ s = left ++ separated sep (drop_empty strs) ++ right).
Proof.
  intros h y sep left right b s b' T Hb. rewrite (vec_iff h y (enum_text sep left right) b s b' T Hb).
  unfold enum_text.
  split; intros (mn & mx & cs & strs & H); exists mn, mx, cs, strs; rewrite join_spec in *; exact H.
Qed.
Print Assumptions C28_enumerator.

(** StampText: words separated by single spaces. *)
Theorem C28_text : forall (h : heap blob) y b s b', tame_graph h y -> wf b ->
  (ExtractStr h (XVec text_text y) b = (Ok s, b') <->
   exists mn mx chunks strs, minSize h y = Ok mn /\ maxSize h y = Ok mx
     /\ vector_extract mn mx b = (Ok chunks, b')
     /\ Forall2 (fun c t => fst (ExtractStr h y c) = Ok t) chunks strs
     /\ s = separated (lit " ") (drop_empty strs)).
Proof.
  intros h y b s b' T Hb. rewrite (vec_iff h y text_text b s b' T Hb). unfold text_text.
  split; intros (mn & mx & cs & strs & H); exists mn, mx, cs, strs; rewrite join_spec in *; exact H.
Qed.
Print Assumptions C28_text.

(** In particular, if the element stamp never makes an empty string the output is exactly the
    separated list. *)
Theorem C28_nonempty : forall (h : heap blob) y sep left right b s b', tame_graph h y -> wf b ->
  (forall c t, fst (ExtractStr h y c) = Ok t -> t <> []) ->
  ExtractStr h (XVec (enum_text sep left right) y) b = (Ok s, b') ->
  exists mn mx chunks strs, minSize h y = Ok mn /\ maxSize h y = Ok mx
     /\ vector_extract mn mx b = (Ok chunks, b')
     /\ Forall2 (fun c t => fst (ExtractStr h y c) = Ok t) chunks strs
     /\ s = left ++ separated sep strs ++ right.
Proof.
  intros h y sep left right b s b' T Hb Ne E. apply C28_enumerator in E; [|assumption..].
  destruct E as (mn & mx & cs & strs & E1 & E2 & E3 & F & ->). exists mn, mx, cs, strs.
  rewrite drop_empty_id; [repeat split; assumption|].
  clear E3. induction F; constructor; [eapply Ne; eassumption|assumption].
Qed.
Print Assumptions C28_nonempty.

(** What is dropped in general: exactly the leading empty strings, with their separators. *)
Theorem C28_dropped : forall (h : heap blob) y sep left right b s b', tame_graph h y -> wf b ->
  ExtractStr h (XVec (enum_text sep left right) y) b = (Ok s, b') ->
  exists mn mx chunks n rest, minSize h y = Ok mn /\ maxSize h y = Ok mx
     /\ vector_extract mn mx b = (Ok chunks, b')
     /\ Forall2 (fun c t => fst (ExtractStr h y c) = Ok t) chunks (repeat [] n ++ rest)
     /\ (rest = [] \/ exists t r, rest = t :: r /\ t <> [])
     /\ s = left ++ separated sep rest ++ right.
Proof.
  intros h y sep left right b s b' T Hb E. apply C28_enumerator in E; [|assumption..].
  destruct E as (mn & mx & cs & strs & E1 & E2 & E3 & F & ->).
  destruct (drop_empty_spec strs) as (n & E & H). exists mn, mx, cs, n, (drop_empty strs).
  rewrite <- E. repeat split; try assumption.
  destruct (drop_empty strs) as [|[|c t] r]; [left; reflexivity|contradiction|right].
  exists (c :: t), r. split; [reflexivity|discriminate].
Qed.
Print Assumptions C28_dropped.

(** A list of bytes in brackets; and a list whose second of three words is empty. *)
Example C28_case :
  let h := mkHeap (B := blob) [] [] in
  let y := XLeaf (B := blob) 1 1 (ArithExtractStr UChar) in
  tame_graph h y
  /\ fst (ExtractStr h (XVec (enum_text (lit ", ") (lit "[") (lit "]")) y) (blob_of [x01; x0a; xff])) = Ok (lit "[1, 10, 255]")
  /\ enum_text (lit ",") (lit "<") (lit ">") [[]; lit "a"; []; lit "b"] = lit "<a,,b>".
Proof.
  cbv zeta. split; [|split].
  - split; [split; intros ? ? []|]. constructor. apply tame_arith.
  - vm_compute. reflexivity.
  - vm_compute. reflexivity.
Qed.
