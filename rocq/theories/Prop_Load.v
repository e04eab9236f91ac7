(** C27: Load and Unload. *)
From Verif Require Import Base BaseFacts Blob BlobSpec RunSpec RunFacts Sim LocalSpec LocalFacts Arithm Galley
  LoadSpec LoadFacts.

(** Enough data: Load moves min(maxSize(), Size()) bytes, everything for an unbounded stamp, from the
    front of the blob into the stamp; other stamps keep their data. *)
Theorem C27_load : forall s mn mx (st : loads blob) b l, sane_sizes mn mx -> holds b l -> mn <= zlen l ->
  let k := if mx =? -1 then zlen l else Z.min mx (zlen l) in
  exists c st', (exists b', LoadInto s mn mx st b = (Ok st', b') /\ holds b' (skipn (Z.to_nat k) l))
    /\ st' s = Some c /\ holds c (firstn (Z.to_nat k) l) /\ forall s', s' <> s -> st' s' = st s'.
Proof.
  intros s mn mx st b l Hs Hb Hl k. destruct (load_ok mn mx b l Hs Hb Hl) as (c & b' & E & H1 & H2).
  exists c, (loads_set st s (Some c)). split.
  - exists b'. unfold LoadInto. rewrite (bind_ok _ _ _ _ _ E). split; [reflexivity|exact H2].
  - unfold loads_set. rewrite Nat.eqb_refl. split; [reflexivity|split; [exact H1|]].
    intros s' N. apply Nat.eqb_neq in N. rewrite N. reflexivity.
Qed.
Print Assumptions C27_load.

(** Too little data: OutOfData; nothing happens to the blob (the very same object state), and the stamp
    keeps what it had, since Load assigns bitten_blob last. *)
Theorem C27_short : forall s mn mx (st : loads blob) b l, sane_sizes mn mx -> holds b l -> zlen l < mn ->
  LoadInto s mn mx st b = (OutOfData, b) /\ do_call (CLoad s mn mx) st b = (OutOfData, st, b).
Proof.
  intros s mn mx st b l Hs Hb Hl.
  assert (E : LoadInto s mn mx st b = (OutOfData, b))
    by (unfold LoadInto; exact (bind_ood _ _ _ b (load_short mn mx b l Hs Hb Hl))).
  split; [exact E|]. cbn [do_call]. rewrite E. reflexivity.
Qed.
Print Assumptions C27_short.

(** UnloadX() gives what ExtractX gives on a blob of just the loaded bytes, for every local extractor. *)
Theorem C27_unload : forall A (ex : M blob A) s (st : loads blob) c d b, local ex ->
  st s = Some c -> holds c d -> holds b d -> fst (Unload ex s st) = fst (ex b).
Proof.
  intros A ex s st c d b He Ec [Wc Cc] [Wb Cb]. unfold Unload. rewrite Ec. cbn.
  apply He; [assumption|assumption|congruence].
Qed.
Print Assumptions C27_unload.

(** Before any Load the pointer is null. *)
Theorem C27_null : forall A (ex : M blob A) s, Unload ex s (fun _ => None) = (UB, fun _ => None).
Proof. reflexivity. Qed.
Print Assumptions C27_null.

(** Any history of Load and Unload calls of any number of stamps on one blob, failed ones included,
    gives the outcomes, the remaining bytes and the loaded bytes which [says_calls] computes. *)
Theorem C27_history : forall calls b l, Forall sane_call calls -> holds b l ->
  let m := do_calls calls (fun _ => None) b in
  let r := says_calls calls (fun _ => None) l in
  fst (fst m) = fst (fst r) /\ ldrel (snd (fst m)) (snd (fst r)) /\ holds (snd m) (snd r).
Proof. intros calls b l Hc Hb. apply calls_says; [exact Hc|intros s; exact I|exact Hb]. Qed.
Print Assumptions C27_history.

(** Two stamps of 1 and 1..3 bytes, one blob of 4: load both, fail to load again, unload, unload. *)
Definition calls_case : list call :=
  [CLoad 0 1 1; CLoad 1 1 3; CLoad 0 1 1; CUnload 0 (ArithExtractStr UChar); CUnload 1 (ArithExtractStr UChar);
   CUnload 0 (ArithExtractStr UChar); CUnload 2 (ArithExtractStr UChar)].

Example C27_case : Forall sane_call calls_case
  /\ fst (fst (do_calls calls_case (fun _ => None) (blob_of [x05; x06; x07; x08])))
     = [Ok []; Ok []; OutOfData; Ok (lit "5"); Ok (lit "6"); OutOfData; UB].
Proof.
  assert (G : good_leaf (ArithExtractStr UChar)).
  { split; [apply sim_local, sim_ArithExtractStr|]. intros b Hb.
    exact (proj1 (proj2 (sim_ArithExtractStr UChar b (content b) (holds_rel b _ (conj Hb eq_refl))))). }
  split; [|vm_compute; reflexivity].
  unfold calls_case. repeat (constructor; [first [exact G|unfold sane_call, sane_sizes; lia]|]). constructor.
Qed.
