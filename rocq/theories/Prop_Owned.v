(** C44: owning pointers. *)
From Verif Require Import Base BaseFacts OwnedPtr OwnedSpec OwnedFacts.

(** Without copying nothing goes wrong, at any point of any history: the next constructing, converting or
    destroying step succeeds (in particular no free of a freed block), and so does a use, unless it is through a
    pointer that gave its block away by conversion (null). *)
Theorem C44_safe : forall ops s op, no_copy ops -> prun pinit ops = Ok s -> is_copy op = false ->
  (exists s', pstep s op = Ok s') \/ (pstep s op = UB /\ exists o, op = Use o /\ holds_null s o).
Proof.
  intros ops s op N E Hc. destruct (step_inv s op (run_inv ops _ _ inv_init N E) Hc) as [(s' & H & _)|H]; eauto.
Qed.
Print Assumptions C44_safe.

(** At every point a block has at most one owner, and it is freed exactly when it has none any more. *)
Theorem C44_once : forall ops s, no_copy ops -> prun pinit ops = Ok s ->
  (forall o1 o2 p, owns s o1 p -> owns s o2 p -> o1 = o2)
  /\ forall p, (p < length (blocks s))%nat -> (freed s p <-> ~ exists o, owns s o p).
Proof.
  intros ops s N E. pose proof (run_inv ops _ _ inv_init N E) as I. split; [apply (inv_one s I)|].
  intros p Hp. destruct (nth_error (blocks s) p) as [blk|] eqn:Eb; [|apply nth_error_None in Eb; lia].
  split.
  - intros (k & H1 & H2) (o & v & H3 & H4). destruct (inv_live s I o v p H3 H4) as (k' & H5 & H6 & _). congruence.
  - intros H. exists blk. split; [exact Eb|]. destruct (blk_freed blk) eqn:Ef; [reflexivity|]. exfalso. apply H.
    apply (inv_own s I). exists blk. auto.
Qed.
Print Assumptions C44_once.

(** So when all objects are gone every block has been freed; none is leaked. *)
Theorem C44_all : forall ops s, no_copy ops -> prun pinit ops = Ok s ->
  (forall v, In v (objs s) -> v = ODead) -> forall p, (p < length (blocks s))%nat -> freed s p.
Proof.
  intros ops s N E D p Hp. apply (proj2 (C44_once ops s N E) p Hp). intros (o & v & H1 & H2).
  apply nth_error_In in H1. rewrite (D v H1) in H2. discriminate.
Qed.
Print Assumptions C44_all.

(** size() of a pointer is the size of the block it owns, also after conversion. *)
Theorem C44_size : forall ops s o p v, no_copy ops -> prun pinit ops = Ok s ->
  nth_error (objs s) o = Some v -> obj_ptr v = Some p ->
  exists blk, nth_error (blocks s) p = Some blk /\ obj_size v = Some (blk_size blk).
Proof.
  intros ops s o p v N E H1 H2. pose proof (run_inv ops _ _ inv_init N E) as I.
  destruct (inv_live s I o v p H1 H2) as (blk & B1 & _ & B3). eauto.
Qed.
Print Assumptions C44_size.

(** Copying any owning pointer and destroying both frees the block twice, in whatever order. *)
Theorem C44_copy : forall ops s o p, no_copy ops -> prun pinit ops = Ok s -> owns s o p ->
  prun s [Copy o; Destroy o; Destroy (length (objs s))] = UB
  /\ prun s [Copy o; Destroy (length (objs s)); Destroy o] = UB.
Proof.
  intros ops s o p N E (v & H1 & H2). pose proof (run_inv ops _ _ inv_init N E) as I.
  destruct (inv_live s I o v p H1 H2) as (blk & B1 & B2 & _). pose proof (nth_lt _ _ _ H1) as L.
  assert (Hn : Nat.eqb o (length (objs s)) = false) by (apply Nat.eqb_neq; lia).
  assert (Hn' : Nat.eqb (length (objs s)) o = false) by (apply Nat.eqb_neq; lia).
  assert (C : pstep s (Copy o) = Ok (mkP (blocks s) (objs s ++ [v]))).
  { cbn [pstep]. rewrite H1. destruct v; try reflexivity. discriminate H2. }
  assert (F : do_free (blocks s) p = Ok (set_nth (blocks s) p (mkBlock (blk_size blk) true)))
    by (unfold do_free; rewrite B1, B2; reflexivity).
  assert (F2 : do_free (set_nth (blocks s) p (mkBlock (blk_size blk) true)) p = UB)
    by (unfold do_free; rewrite nth_set, Nat.eqb_refl, B1; reflexivity).
  split; cbn [prun]; rewrite C; cbn [rbind pstep objs blocks].
  - rewrite nth_snoc, Hn, H1, H2, F. cbn [rbind objs blocks].
    rewrite nth_set, Hn', nth_snoc, Nat.eqb_refl, H2, F2. reflexivity.
  - rewrite nth_snoc, Nat.eqb_refl, H2, F. cbn [rbind objs blocks].
    rewrite nth_set, Hn, nth_snoc, Hn, H1, H2, F2. reflexivity.
Qed.
Print Assumptions C44_copy.

(** Construct, convert, use, destroy both. *)
Definition ptr_case : list pop := [NewVlato 8 3 4; Use 0; Convert 0; Use 1; NewSized 5; Destroy 1; Destroy 0; Destroy 2].

Example C44_case : no_copy ptr_case
  /\ prun pinit ptr_case = Ok (mkP [mkBlock 20 true; mkBlock 5 true] [ODead; ODead; ODead])
  /\ prun pinit [NewVlato 8 3 4; Convert 0; Use 0] = UB
  /\ prun pinit [NewSized 5; Copy 0; Destroy 0; Destroy 1] = UB.
Proof. split; [repeat constructor|]. vm_compute. auto. Qed.
