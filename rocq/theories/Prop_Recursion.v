(** C33, C34, C35: size queries over cyclic stamps. *)
From Verif Require Import Base BaseFacts Blob BlobSpec RunSpec RunFacts Sim Oracle Arithm Galley Stamps StampsEq
  Json QuerySpec QueryFacts RecursionFacts.

(** C33.  On every graph minSize() and maxSize() end: they return and leave the heap (recursion marks
    included) exactly as it was, or they hit undefined behaviour (int overflow, expired or dangling
    pointer).  [qfuel h], the number of pools plus one, is enough recursion depth; more makes no
    difference. *)
Theorem C33_sizes : forall (h : heap blob) x (qmin : bool) f, (qfuel h <= f)%nat ->
  ((exists v, query f qmin x h = (Ok v, h)) \/ fst (query f qmin x h) = UB)
  /\ query f qmin x h = query (qfuel h) qmin x h.
Proof.
  intros h x q f Hf. pose proof (free_fuel h). split.
  - apply good_cases, query_good. lia.
  - apply query_fuel; lia.
Qed.
Print Assumptions C33_sizes.

(** isRecursive() as well; it may only set the "is recursive" cache of pools. *)
Theorem C33_isRecursive : forall (h : heap blob) x f, (qfuel h <= f)%nat ->
  (exists r h', isRecursive f x h = (Ok r, h') /\ heap_kept h h') \/ fst (isRecursive f x h) = UB.
Proof.
  intros h x f Hf. pose proof (free_fuel h).
  pose proof (isRecursive_good f h x ltac:(lia)) as G. unfold good_q in G.
  destruct (isRecursive f x h) as [[r| | | |] h'] eqn:E; try contradiction; [left; eauto|right; reflexivity].
Qed.
Print Assumptions C33_isRecursive.

(** Two pools containing each other, one of them through an enumerator, and a leaf of 3 bytes. *)
Definition two_pools : heap blob :=
  let leaf := XLeaf 3 3 (lift OutOfData) in
  mkHeap [new_pool [XVec (fun _ => []) (XPool 1)]; new_pool [XPool 0; leaf]] [].

Example C33_case : minSize two_pools (XPool 0) = Ok 11 /\ minSize two_pools (XPool 1) = Ok 5
  /\ maxSize two_pools (XPool 0) = Ok (-1)
  /\ query 9 true (XPool 0) two_pools = (Ok 11, two_pools).
Proof. vm_compute. repeat split; reflexivity. Qed.

(** C34.  A pool which has the operator over itself as a member: negative minSize(), whatever the
    other members are; asking the operator itself is a signed overflow; so is any extraction. *)
Theorem C34_negative : forall (h : heap blob) p P op v,
  nth_error (pools h) p = Some P -> is_in_recursion P = false -> int_members P ->
  In (Some (XBinary op (XPool p) (XPool p))) (weak_pool P) ->
  minSize h (XPool p) = Ok v -> v < -2147483600.
Proof.
  intros h p P op v E F IM I1 M. unfold minSize in M. pose proof (free_fuel h) as Hf.
  destruct (query (qfuel h) true (XPool p) h) as [r h'] eqn:Q0. cbn in M. subst r.
  pose proof (pool_self_min _ op p P h v h' E F IM I1 Hf Q0). unfold low in *. lia.
Qed.
Print Assumptions C34_negative.

Theorem C34_overflow : forall (h : heap blob) p P op b l,
  nth_error (pools h) p = Some P -> is_in_recursion P = false -> int_members P ->
  In (Some (XBinary op (XPool p) (XPool p))) (weak_pool P) ->
  holds b l -> 2 <= zlen l ->
  minSize h (XBinary op (XPool p) (XPool p)) = UB /\ fst (ExtractStr h (XPool p) b) = UB.
Proof.
  intros h p P op b l E F IM I1 Hb Hl. split; [exact (binary_min_ub op p P h E F IM I1)|].
  unfold ExtractStr. rewrite extract_pool_S, E. unfold pool_extract.
  destruct (list_GetOracle l Hl) as (o & _ & Eo).
  destruct (run_transfer _ _ b l _ _ sim_GetOracle Hb Eo) as (b' & Eb & _).
  rewrite (bind_ok _ _ _ _ _ Eb), bind_gets. apply bind_ub. cbn [lift fst].
  match goal with |- context [extract ?f h] => set (n := f) end.
  apply (pool_filter_ub _ _ (maxSize h (XBinary op (XPool p) (XPool p)))
           (extract n h (XBinary op (XPool p) (XPool p)))).
  - intros qn qx e Im. apply in_map_iff in Im as ([y|] & Ey & _).
    + injection Ey as <- <- _. split; apply query_res, free_fuel.
    + injection Ey as <- <- _. split; right; reflexivity.
  - apply in_map_iff. eexists. split; [|exact I1]. cbn beta iota.
    rewrite (binary_min_ub op p P h E F IM I1). reflexivity.
Qed.
Print Assumptions C34_overflow.

Definition sum_pool : heap blob :=
  mkHeap [new_pool [XLeaf 4 4 (ArithExtractStr Int); XBinary (lit "+") (XPool 0) (XPool 0)]] [].

Example C34_case : minSize sum_pool (XPool 0) = Ok (-2147483644)
  /\ int_members (new_pool [XLeaf 4 4 (ArithExtractStr Int); XBinary (lit "+") (XPool 0) (XPool 0)] : pool blob).
Proof.
  split; [vm_compute; reflexivity|]. intros x [[= <-]|[[= <-]|[]]].
  - constructor; split; lia.
  - constructor; constructor.
Qed.

(** C35.  On a heap at rest whose cache is clear isRecursive() of a pool is true exactly if it
    reaches, from pool to member pool, a pool which reaches itself that way. *)
Theorem C35_exact : forall (h : heap blob) p, no_dangling h -> at_rest h ->
  (forall P, In P (pools h) -> is_recursive P = false) -> nth_error (pools h) p <> None ->
  exists r h', isRecursive (qfuel h) (XPool p) h = (Ok r, h')
    /\ (r = true <-> exists q, pool_reach h p q /\ on_pool_cycle h q).
Proof.
  intros h p ND AR NF NP.
  destruct (isRecursive_spec (qfuel h) h p ND NP (free_fuel h)) as (r & h' & E & T & F).
  exists r, h'. split; [exact E|]. split.
  - intros R. destruct (T R) as (q & Rq & [(Q & EQ & FQ)|C]); [|exists q; split; assumption].
    pose proof (nth_error_In _ _ EQ) as I1. rewrite (NF Q I1), (AR Q I1) in FQ. discriminate.
  - intros (q & Rq & C). destruct r; [reflexivity|]. exfalso. destruct (F eq_refl) as [_ N]. apply N.
    exists q. split; [exact Rq|right; exact C].
Qed.
Print Assumptions C35_exact.

(** Every other stamp answers false, whatever it contains. *)
Theorem C35_not_a_pool : forall (h : heap blob) x f, (forall p, x <> XPool p) ->
  isRecursive f x h = (Ok false, h).
Proof. intros h x f N. destruct f, x; try reflexivity; exfalso; exact (N _ eq_refl). Qed.
Print Assumptions C35_not_a_pool.

(** Once true, true ever after. *)
Theorem C35_forever : forall (h : heap blob) p f h1, (qfuel h <= f)%nat -> at_rest h ->
  isRecursive f (XPool p) h = (Ok true, h1) ->
  forall h2 f2, heap_kept h1 h2 -> isRecursive (S f2) (XPool p) h2 = (Ok true, h2).
Proof.
  intros h p f h1 Hf AR E h2 f2 K. destruct (isRecursive_sets f h p h1 E AR) as (P1 & N1 & R1).
  destruct (kept_nth h1 h2 p P1 K N1) as (P2 & N2 & _ & _ & R2).
  cbn [isRecursive]. rewrite get_step, N2, (R2 R1). reflexivity.
Qed.
Print Assumptions C35_forever.

(** StampJSON: recursive, as its arrays contain it, but isRecursive() says no. *)
Theorem C35_json :
  isRecursive (qfuel json_heap) (StampJSON : sx blob) json_heap = (Ok false, json_heap)
  /\ exists j, In (Some (XVec j StampJSON)) (weak_pool (json_pool : pool blob)).
Proof.
  split; [reflexivity|]. eexists. do 3 right. left. reflexivity.
Qed.
Print Assumptions C35_json.

Example C35_case : let h : heap blob := mkHeap [new_pool [XPool 1]; new_pool [XPool 0]] [] in
  no_dangling h /\ at_rest h /\ on_pool_cycle h 0
  /\ exists h', isRecursive (qfuel h) (XPool 0) h = (Ok true, h').
Proof.
  cbv zeta. split; [|split; [|split]].
  - intros P m [<-|[<-|[]]] [<-|[]]; eexists; (split; [reflexivity|]); intros q [= <-]; discriminate.
  - intros P [<-|[<-|[]]]; reflexivity.
  - exists 1%nat. split; [eexists; split; [reflexivity|left; reflexivity]|].
    apply reach_step with 0%nat; [eexists; split; [reflexivity|left; reflexivity]|constructor].
  - eexists. vm_compute. reflexivity.
Qed.
