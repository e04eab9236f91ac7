(** StampJSON objects under copy, move, assignment and destruction. *)
From Verif Require Import Base BaseFacts Arithm Galley Stamps StampsEq SimGraph QuerySpec QueryFacts RecursionFacts Json JsonLife
  LifeSpec Oracle Blob BlobSpec RunSpec RunFacts Sim LotSpec LotFacts LeafSpec LocalFacts JsonFacts
  ArithFacts TermSpec NestSpec Prop_Termination Prop_Pool.

Section Life.
  Context {B : Type} `{BlobOps B}.
  Implicit Types (h : heap B) (p r : nat).

  Definition family r : list (option (sx B)) :=
    map Some [StampJSONInt; StampJSONFloat; StampJSONString; StampJSONArray r; StampJSONHash r].

  (** Pool [p] holds the stamps made by the constructor of [r]. *)
  Definition holds_family h p r (m : bool) : Prop := nth_error (pools h) p = Some (mkPool (family r) false m).

  Lemma family_det h p r1 m1 r2 m2 : holds_family h p r1 m1 -> holds_family h p r2 m2 -> r1 = r2.
  Proof.
    unfold holds_family. intros E1 E2. rewrite E1 in E2. injection E2 as E _ _. exact E.
  Qed.

  Definition marked h p r : heap B := set_pool h p (mkPool (family r) false true).

  Lemma nth_upd_other {A} (l : list A) n k v : n <> k -> nth_error (upd l n v) k = nth_error l k.
  Proof. revert n k. induction l as [|x l IH]; intros [|n] [|k] E; cbn; try reflexivity; try congruence. apply IH. congruence. Qed.

  Lemma marked_self h p r m : holds_family h p r m -> holds_family (marked h p r) p r true.
  Proof. intros E. unfold holds_family, marked, set_pool. cbn [pools]. eapply nth_upd. exact E. Qed.

  Lemma marked_other h p r k : k <> p -> nth_error (pools (marked h p r)) k = nth_error (pools h) k.
  Proof. intros E. unfold marked, set_pool. cbn [pools]. apply nth_upd_other. congruence. Qed.

  Lemma marked_free h p r f : holds_family h p r false -> (free h < S f)%nat -> (free (marked h p r) < f)%nat.
  Proof.
    intros E Hf. unfold free in Hf. rewrite (unmarked_upd (pools h) p _ (mkPool (family r) false true) E eq_refl eq_refl) in Hf.
    unfold free, marked, set_pool. cbn [pools]. lia.
  Qed.

  Lemma unmark h p r : holds_family h p r false ->
    set_pool (marked h p r) p (mkPool (family r) false false) = h.
  Proof.
    intros E. unfold marked, set_pool. cbn [pools lots]. rewrite upd_upd, (upd_same _ _ _ E). destruct h; reflexivity.
  Qed.

  (** Sizes of the array and of the object stamp, given those of the object they refer to. *)
  Lemma array_min f h r v w : query f true (XPool r) h = (Ok v, h) -> query f false (XPool r) h = (Ok w, h) ->
    query f true (StampJSONArray r) h = (Ok (if v =? w then v else if w =? -1 then i32 (v + 4) else i32 (v + 2)), h).
  Proof.
    intros Ev Ew. unfold StampJSONArray. rewrite query_vec. unfold q_vector_min, q_fixed, q_unbounded, bind, ret.
    rewrite Ev, Ew. destruct (v =? w); [exact Ev|]. rewrite Ew. destruct (w =? -1); rewrite Ev; reflexivity.
  Qed.

  Lemma object_min f h r v : query f true (XPool r) h = (Ok v, h) -> 0 <= v <= int_max / 2 ->
    query f true (StampJSONHash r) h = (Ok (v + 12), h).
  Proof.
    change (int_max / 2) with 1073741823. intros Ev R. unfold StampJSONHash. rewrite query_vec.
    assert (E : query f true (StampJSONHashEl r) h = (Ok (8 + v), h)).
    { unfold StampJSONHashEl, StampJSONString. rewrite query_hashel, query_leaf. unfold bind, ret, lift. rewrite Ev.
      unfold int_op. replace (in_i32 (8 + v)) with true by (unfold in_i32; lia). reflexivity. }
    assert (E' : query f false (StampJSONHashEl r) h = (Ok (-1), h)).
    { unfold StampJSONHashEl. rewrite query_hashel. reflexivity. }
    unfold q_vector_min, q_fixed, q_unbounded, bind, ret. rewrite E, E'.
    replace (8 + v =? -1) with false by lia. rewrite E'. change (-1 =? -1) with true. cbv iota beta. rewrite E.
    f_equal. f_equal. rewrite i32_id; unfold Oracle.ORACLE_SIZE; lia.
  Qed.

  (** One object. *)
  Lemma json_min f h p r v w : holds_family h p r false ->
    query f true (XPool r) (marked h p r) = (Ok v, marked h p r) -> 8 <= v <= int_max / 2 ->
    query f false (XPool r) (marked h p r) = (Ok w, marked h p r) ->
    query (S f) true (XPool p) h = (Ok 10, h).
  Proof.
    intros E Ev R Ew. rewrite query_pool_S. unfold bind at 1. unfold get_pool. rewrite E. cbn [is_in_recursion].
    unfold bind at 1. unfold mark_in_recursion at 1. rewrite E. cbn [weak_pool is_recursive].
    change (set_pool h p _) with (marked h p r).
    pose proof (array_min _ _ _ _ _ Ev Ew) as Ea. pose proof (object_min _ _ _ _ Ev ltac:(lia)) as Eo.
    change (int_max / 2) with 1073741823 in *.
    set (a := if v =? w then v else _) in Ea. assert (Ra : 8 <= a) by (unfold a; destruct (v =? w); [lia|];
      destruct (w =? -1); rewrite i32_id; lia). clearbody a.
    unfold family. cbn [map option_map q_pool_min].
    unfold StampJSONInt, StampJSONFloat, StampJSONString. rewrite !query_leaf.
    unfold bind, ret. change (sizeof Long) with 8. change (sizeof Double) with 8.
    rewrite Ea, Eo. change (8 <? 1073741823) with true. cbv iota.
    change (8 <? 8) with false. cbv iota. change (8 <? 8) with false. cbv iota.
    replace (a <? 8) with false by lia. cbv iota. replace (v + 12 <? 8) with false by lia.
    unfold mark_in_recursion. rewrite (marked_self _ _ _ _ E). cbn [weak_pool is_recursive].
    rewrite (unmark _ _ _ E). reflexivity.
  Qed.

  Lemma json_max f h p r m : holds_family h p r m -> query (S f) false (XPool p) h = (Ok (-1), h).
  Proof.
    intros E. rewrite query_pool_S. unfold bind at 1. unfold get_pool. rewrite E. cbn [is_in_recursion is_recursive orb].
    destruct m; [reflexivity|].
    unfold bind at 1. unfold mark_in_recursion at 1. rewrite E. cbn [weak_pool is_recursive].
    change (set_pool h p _) with (marked h p r).
    assert (Ea : query f false (StampJSONArray r) (marked h p r) = (Ok (-1), marked h p r)).
    { unfold StampJSONArray. rewrite query_vec. reflexivity. }
    unfold family. cbn [map option_map q_pool_max].
    unfold StampJSONInt, StampJSONFloat, StampJSONString. rewrite !query_leaf.
    unfold bind, ret. change (sizeof Long) with 8. change (sizeof Double) with 8. 
    change (8 =? -1) with false. cbv iota beta.
    rewrite Ea. change (-1 =? -1) with true. cbv iota beta.
    unfold mark_in_recursion. rewrite (marked_self _ _ _ _ E). cbn [weak_pool is_recursive].
    rewrite (unmark _ _ _ E). reflexivity.
  Qed.

  (** ** Every object that is reached has its stamps *)
  Definition closed (S : nat -> Prop) h : Prop := forall p, S p -> exists r m, holds_family h p r m /\ S r.

  Lemma closed_marked S h p r m : closed S h -> holds_family h p r m -> closed S (marked h p r).
  Proof.
    intros C E k Hk. destruct (C k Hk) as (r' & m' & E' & S'). destruct (Nat.eq_dec k p) as [->|N].
    - exists r, true. split; [eapply marked_self; exact E|]. rewrite (family_det _ _ _ _ _ _ E E'). exact S'.
    - exists r', m'. split; [|exact S']. unfold holds_family. rewrite (marked_other _ _ _ _ N). exact E'.
  Qed.

  Lemma closed_min S : forall f h p, closed S h -> S p -> (free h < f)%nat ->
    exists v, query f true (XPool p) h = (Ok v, h) /\ (v = 10 \/ v = int_max / 2)
      /\ (forall P, nth_error (pools h) p = Some P -> is_in_recursion P = false -> v = 10).
  Proof.
    induction f as [|f IH]; intros h p C Sp Hf; [lia|]. destruct (C p Sp) as (r & m & E & Sr). destruct m.
    - exists (int_max / 2). split; [|split; [right; reflexivity|]].
      + rewrite query_pool_S. unfold bind at 1. unfold get_pool. rewrite E. reflexivity.
      + intros P EP FP. exfalso. unfold holds_family in E. rewrite E in EP. injection EP as <-. discriminate FP.
    - exists 10. split; [|split; [left; reflexivity|reflexivity]].
      pose proof (closed_marked _ _ _ _ _ C E) as C1. pose proof (marked_free _ _ _ _ E Hf) as Hf1.
      destruct (IH _ r C1 Sr Hf1) as (v & Ev & Rv & _). destruct (C1 r Sr) as (r2 & m2 & E2 & _).
      destruct f as [|f]; [lia|].
      refine (json_min _ _ _ _ _ _ E Ev _ (json_max _ _ _ _ _ E2)).
      change (int_max / 2) with 1073741823 in *. lia.
  Qed.

  Lemma closed_sizes S h p : closed S h -> at_rest h -> S p -> minSize h (XPool p) = Ok 10 /\ maxSize h (XPool p) = Ok (-1).
  Proof.
    intros C AR Sp. destruct (closed_min S (qfuel h) h p C Sp (free_fuel h)) as (v & Ev & _ & Hv).
    destruct (C p Sp) as (r & m & E & _). split.
    - unfold minSize. rewrite Ev. cbn [fst]. f_equal. apply (Hv _ E). exact (AR _ (nth_error_In _ _ E)).
    - unfold maxSize, qfuel. rewrite (json_max _ _ _ _ _ E). reflexivity.
  Qed.

  Lemma family_sizes h r v w : minSize h (XPool r) = Ok v -> maxSize h (XPool r) = Ok w -> 0 <= v <= int_max / 2 ->
    minSize h (StampJSONArray r) = Ok (if v =? w then v else if w =? -1 then i32 (v + 4) else i32 (v + 2))
    /\ minSize h (StampJSONHash r) = Ok (v + 12).
  Proof.
    intros Ev Ew R. unfold minSize, maxSize in *.
    assert (G : forall q a, fst (query (qfuel h) q (XPool r) h) = Ok a -> query (qfuel h) q (XPool r) h = (Ok a, h)).
    { intros q a Ea. pose proof (query_good (qfuel h) h q (XPool r) (free_fuel h)) as G. unfold good_q in G.
      destruct (query (qfuel h) q (XPool r) h) as [o h']. cbn [fst] in Ea. subst o. congruence. }
    apply G in Ev, Ew. split.
    - rewrite (array_min _ _ _ _ _ Ev Ew). reflexivity.
    - rewrite (object_min _ _ _ _ Ev R). reflexivity.
  Qed.

  Lemma compound_max h r : maxSize h (StampJSONArray r) = Ok (-1) /\ maxSize h (StampJSONHash r) = Ok (-1).
  Proof. unfold maxSize, StampJSONArray, StampJSONHash. rewrite !query_vec. split; reflexivity. Qed.

  Lemma scalar_sizes h y : In y [StampJSONInt; StampJSONFloat; StampJSONString] -> minSize h y = Ok 8 /\ maxSize h y = Ok 8.
  Proof.
    intros [<-|[<-|[<-|[]]]]; unfold minSize, maxSize, StampJSONInt, StampJSONFloat, StampJSONString; rewrite !query_leaf;
      split; reflexivity.
  Qed.

  (** Two such graphs write the same. *)
  Lemma closed_extract S1 h1 S2 h2 : closed S1 h1 -> at_rest h1 -> closed S2 h2 -> at_rest h2 ->
    forall f p1 p2, S1 p1 -> S2 p2 -> extract f h1 (XPool p1) = extract f h2 (XPool p2).
  Proof.
    intros C1 A1 C2 A2. induction f as [|f IH]; intros p1 p2 H1 H2; [reflexivity|].
    destruct (C1 p1 H1) as (r1 & m1 & E1 & R1). destruct (C2 p2 H2) as (r2 & m2 & E2 & R2).
    rewrite !extract_pool_S, E1, E2. cbn [weak_pool].
    destruct (closed_sizes _ _ _ C1 A1 H1) as [-> _]. destruct (closed_sizes _ _ _ C2 A2 H2) as [-> _].
    destruct (closed_sizes _ _ _ C1 A1 R1) as [M1 X1]. destruct (closed_sizes _ _ _ C2 A2 R2) as [M2 X2].
    assert (V : 0 <= 10 <= int_max / 2) by (change (int_max / 2) with 1073741823; lia).
    destruct (family_sizes _ _ _ _ M1 X1 V) as [Va1 Vo1]. destruct (family_sizes _ _ _ _ M2 X2 V) as [Va2 Vo2].
    unfold family. cbn [map]. rewrite Va1, Va2, Vo1, Vo2.
    destruct (compound_max h1 r1) as [-> ->]. destruct (compound_max h2 r2) as [-> ->].
    assert (EA : extract f h1 (StampJSONArray r1) = extract f h2 (StampJSONArray r2)).
    { unfold StampJSONArray. rewrite !extract_vec, M1, M2, X1, X2, (IH r1 r2 R1 R2). reflexivity. }
    assert (EH : extract f h1 (StampJSONHashEl r1) = extract f h2 (StampJSONHashEl r2)).
    { unfold StampJSONHashEl. rewrite !extract_hashel, (IH r1 r2 R1 R2). unfold StampJSONString. rewrite !extract_leaf. reflexivity. }
    assert (EL : forall y, In y [StampJSONInt; StampJSONFloat; StampJSONString] ->
      (minSize h1 y, maxSize h1 y, extract f h1 y) = (minSize h2 y, maxSize h2 y, extract f h2 y)).
    { intros y Hy. destruct (scalar_sizes h1 y Hy) as [-> ->]. destruct (scalar_sizes h2 y Hy) as [-> ->].
      destruct Hy as [<-|[<-|[<-|[]]]]; unfold StampJSONInt, StampJSONFloat, StampJSONString; rewrite !extract_leaf; reflexivity. }
    assert (EO : extract f h1 (StampJSONHash r1) = extract f h2 (StampJSONHash r2)).
    { unfold StampJSONHash. rewrite !extract_vec, EH.
      assert (Q : minSize h1 (StampJSONHashEl r1) = Ok 18 /\ minSize h2 (StampJSONHashEl r2) = Ok 18).
      { split.
        - clear - M1. unfold minSize in *. unfold StampJSONHashEl, StampJSONString. rewrite query_hashel, query_leaf.
          unfold bind, ret. destruct (query (qfuel h1) true (XPool r1) h1) as [o h']. cbn [fst] in M1. subst o. reflexivity.
        - clear - M2. unfold minSize in *. unfold StampJSONHashEl, StampJSONString. rewrite query_hashel, query_leaf.
          unfold bind, ret. destruct (query (qfuel h2) true (XPool r2) h2) as [o h']. cbn [fst] in M2. subst o. reflexivity. }
      destruct Q as [-> ->]. unfold maxSize, StampJSONHashEl. rewrite !query_hashel. reflexivity. }
    rewrite EA, EO. rewrite !(EL _ (or_introl eq_refl)), !(EL _ (or_intror (or_introl eq_refl))),
      !(EL _ (or_intror (or_intror (or_introl eq_refl)))). reflexivity.
  Qed.

  (** ** A reference that leads to an object that does not exist *)
  Fixpoint doomed h (n : nat) (p : nat) : Prop :=
    match n with
    | O => nth_error (pools h) p = Some (mkPool [None] false false)
    | S n => exists r, holds_family h p r false /\ doomed h n r
    end.

  Lemma doomed_unique h : forall n m p, doomed h n p -> doomed h m p -> n = m.
  Proof.
    induction n as [|n IH]; intros [|m] p D1 D2; cbn [doomed] in *; [reflexivity| | |].
    - destruct D2 as (r & E & _). unfold holds_family in E. rewrite D1 in E. discriminate E.
    - destruct D1 as (r & E & _). unfold holds_family in E. rewrite D2 in E. discriminate E.
    - destruct D1 as (r1 & E1 & D1), D2 as (r2 & E2 & D2). f_equal. eapply IH; [exact D1|].
      rewrite (family_det _ _ _ _ _ _ E1 E2). exact D2.
  Qed.

  Lemma doomed_marked h p q n : forall k, (k < n)%nat -> doomed h n p -> forall r, doomed h k r -> doomed (marked h p q) k r.
  Proof.
    induction k as [|k IH]; intros Hk Dp r D; cbn [doomed] in *.
    - rewrite marked_other; [exact D|]. intros ->. pose proof (doomed_unique h 0 n p D Dp). lia.
    - assert (r <> p) by (intros ->; pose proof (doomed_unique h (S k) n p D Dp); lia).
      destruct D as (r' & E & D). exists r'. split; [|apply IH; [lia|assumption|exact D]].
      unfold holds_family. rewrite marked_other by assumption. exact E.
  Qed.

  Lemma doomed_min : forall n f h p, doomed h n p -> (free h < f)%nat -> fst (query f true (XPool p) h) = UB.
  Proof.
    induction n as [|n IH]; intros [|f] h p D Hf; try lia.
    - cbn [doomed] in D. rewrite query_pool_S. unfold bind at 1. unfold get_pool. rewrite D. cbn [is_in_recursion].
      unfold bind at 1. unfold mark_in_recursion at 1. rewrite D. reflexivity.
    - pose proof D as D0. cbn [doomed] in D. destruct D as (r & E & D).
      pose proof (IH f (marked h p r) r (doomed_marked _ _ _ _ _ (Nat.lt_succ_diag_r n) D0 _ D) (marked_free _ _ _ _ E Hf)) as U.
      rewrite query_pool_S. unfold bind at 1. unfold get_pool. rewrite E. cbn [is_in_recursion].
      unfold bind at 1. unfold mark_in_recursion at 1. rewrite E. cbn [weak_pool is_recursive].
      change (set_pool h p _) with (marked h p r).
      apply bind_ub. unfold family. cbn [map option_map q_pool_min].
      unfold StampJSONInt, StampJSONFloat, StampJSONString. rewrite !query_leaf.
      unfold bind, ret. unfold StampJSONArray at 1. rewrite query_vec. unfold q_vector_min, q_fixed, bind.
      destruct (query f true (XPool r) (marked h p r)) as [o h']. cbn [fst] in U. subst o. reflexivity.
  Qed.

  Lemma doomed_array h n r : doomed h n r -> minSize h (StampJSONArray r) = UB.
  Proof.
    intros D. unfold minSize, StampJSONArray. rewrite query_vec. unfold q_vector_min, q_fixed.
    pose proof (doomed_min _ _ _ _ D (free_fuel h)) as U. unfold bind.
    destruct (query (qfuel h) true (XPool r) h) as [o h']. cbn [fst] in U. subst o. reflexivity.
  Qed.
End Life.

(** ** The objects of a program *)
Lemma life_rest t : at_rest (life_heap (B := blob) t).
Proof. intros P I1. apply in_map_iff in I1 as ([|[r|]] & <- & _); reflexivity. Qed.

Lemma life_nth t i s : nth_error t i = Some s -> nth_error (pools (life_heap (B := blob) t)) i = Some (pool_of_slot s).
Proof. intros E. unfold life_heap. cbn [pools]. rewrite nth_error_map, E. reflexivity. Qed.

Lemma life_family t i r : refers t i r -> holds_family (life_heap (B := blob) t) i r false.
Proof. intros E. exact (life_nth _ _ _ E). Qed.

Lemma intact_closed t i : intact t i -> closed (leads t i) (life_heap (B := blob) t).
Proof.
  intros I1 j Hj. destruct (I1 j Hj) as (r & E). exists r, false. split; [apply life_family; exact E|].
  assert (T : forall a b, leads t a b -> forall c, refers t b c -> leads t a c).
  { clear. induction 1 as [a|a r b E L IH]; intros c Hc; [eapply leads_on; [exact Hc|apply leads_self]|].
    eapply leads_on; [exact E|apply IH; exact Hc]. }
  exact (T _ _ Hj _ E).
Qed.

Lemma json_closed : closed (fun p => p = 0%nat) (json_heap (B := blob)).
Proof. intros p ->. exists 0%nat, false. split; reflexivity. Qed.

Lemma json_rest : at_rest (json_heap (B := blob)).
Proof. intros P [<-|[]]. reflexivity. Qed.

Lemma intact_works t i : intact t i -> works t i.
Proof.
  intros I1. pose proof (intact_closed _ _ I1) as C.
  destruct (closed_sizes _ _ _ C (life_rest t) (leads_self t i)) as [M1 M2].
  split; [exact M1|]. split; [exact M2|]. intros b. unfold JSONExtractStr, ExtractStr, StampJSON.
  rewrite (closed_extract _ _ _ _ C (life_rest t) json_closed json_rest _ i 0%nat (leads_self t i) eq_refl). reflexivity.
Qed.

Lemma leads_doomed t i j : leads t i j -> nth_error t j = Some Dead -> exists n, doomed (life_heap (B := blob) t) n i.
Proof.
  induction 1 as [i|i r j E L IH]; intros D.
  - exists 0%nat. exact (life_nth _ _ _ D).
  - destruct (IH D) as (n & Dn). exists (S n). exists r. split; [apply life_family; exact E|exact Dn].
Qed.

Lemma pool_ub (h : heap blob) p P b l y : nth_error (pools h) p = Some P -> In y (weak_pool P) ->
  (forall x, y = Some x -> minSize h x = UB) -> holds b l -> 2 <= zlen l -> fst (ExtractStr h (XPool p) b) = UB.
Proof.
  intros E I1 Hy Hb Hl. unfold ExtractStr. rewrite extract_pool_S, E. unfold pool_extract.
  destruct (list_GetOracle l Hl) as (o & _ & Eo).
  destruct (run_transfer _ _ b l _ _ sim_GetOracle Hb Eo) as (b' & Eb & _).
  rewrite (bind_ok _ _ _ _ _ Eb), bind_gets. apply bind_ub. cbn [lift fst].
  match goal with |- context [extract ?f h] => set (n := f) end.
  assert (Hm : exists qx ex, In (UB, qx, ex)
    (map (fun m => match m with None => (UB, UB, lift UB) | Some y => (minSize h y, maxSize h y, extract n h y) end) (weak_pool P))).
  { destruct y as [x|].
    - exists (maxSize h x), (extract n h x). apply in_map_iff. exists (Some x). split; [|exact I1]. rewrite (Hy x eq_refl). reflexivity.
    - exists UB, (lift UB). apply in_map_iff. exists None. split; [reflexivity|exact I1]. }
  destruct Hm as (qx & ex & Im). refine (pool_filter_ub _ _ qx ex _ Im).
  intros qn qx' e Ie. apply in_map_iff in Ie as ([z|] & Ez & _).
  - injection Ez as <- <- _. split; apply query_res, free_fuel.
  - injection Ez as <- <- _. split; right; reflexivity.
Qed.

Lemma doomed_broken t i n : doomed (life_heap (B := blob) t) n i -> broken t i.
Proof.
  intros D. split; [exact (doomed_min _ _ _ _ D (free_fuel _))|]. intros b l Hb Hl. destruct n as [|n]; cbn [doomed] in D.
  - refine (pool_ub _ _ _ _ _ None D (or_introl eq_refl) _ Hb Hl). discriminate.
  - destruct D as (r & E & D).
    refine (pool_ub _ _ _ _ _ (Some (StampJSONArray r)) E (or_intror (or_intror (or_intror (or_introl eq_refl)))) _ Hb Hl).
    intros x [= <-]. exact (doomed_array _ _ _ D).
Qed.

(** ** Objects moved from *)
Definition emptied (h : heap blob) r : Prop := nth_error (pools h) r = Some (mkPool [] false false).

Lemma emptied_query h r f : emptied h r ->
  query (S f) true (XPool r) h = (Ok (int_max / 2), h) /\ query (S f) false (XPool r) h = (Ok 2, h).
Proof.
  intros E. pose proof E as E0. unfold emptied in E. split.
  all: rewrite query_pool_S; unfold bind at 1; unfold get_pool; rewrite E; cbn [is_in_recursion is_recursive orb].
  all: unfold bind at 1; unfold mark_in_recursion at 1; rewrite E; cbn [weak_pool is_recursive map q_pool_min q_pool_max].
  all: unfold bind, ret; unfold mark_in_recursion, set_pool; cbn [pools lots]; rewrite (nth_upd _ _ _ _ E); cbn [weak_pool is_recursive].
  all: rewrite upd_upd, (upd_same _ _ _ E); destruct h; reflexivity.
Qed.

Lemma emptied_nothing t i : nth_error t i = Some (Live None) -> writes_nothing t i.
Proof.
  intros E. assert (E0 : emptied (life_heap t) i) by exact (life_nth _ _ _ E).
  destruct (emptied_query _ _ (length (pools (life_heap (B := blob) t))) E0) as [M1 M2].
  assert (N1 : minSize (life_heap t) (XPool (B := blob) i) = Ok (2 ^ 30 - 1)) by (unfold minSize, qfuel; rewrite M1; reflexivity).
  split; [exact N1|]. split; [unfold maxSize, qfuel; rewrite M2; reflexivity|].
  intros b l Hb Hl. unfold ExtractStr. rewrite extract_pool_S, E0. cbn [weak_pool map]. unfold pool_extract.
  destruct (Z_lt_le_dec (zlen l) 2) as [L|L].
  - destruct (run_transfer _ _ b l _ _ sim_GetOracle Hb (list_ExtractValue_ood UShort l L)) as (b' & Eb & _).
    unfold bind. rewrite Eb. reflexivity.
  - destruct (list_GetOracle l L) as (o & _ & Eo).
    destruct (run_transfer _ _ b l _ _ sim_GetOracle Hb Eo) as (b' & Eb & Hb' & Cb').
    rewrite (bind_ok _ _ _ _ _ Eb), bind_gets. rewrite N1. cbn [pool_filter].
    pose proof (holds_size b' _ (conj Hb' Cb')) as SZ. rewrite (zlen_skipn 2) in SZ by lia.
    unfold bind, ret, lift. cbn [fst snd].
    match goal with |- context [?s <? u64 (2 ^ 30 - 1)] => change s with (blobSize b') end.
    change (u64 (2 ^ 30 - 1)) with (2 ^ 30 - 1).
    replace (blobSize b' <? 2 ^ 30 - 1) with true by lia. reflexivity.
Qed.

Lemma life_leaves t : heap_leaves (fun _ _ ex => tame ex) (life_heap (B := blob) t).
Proof.
  destruct C46_leaves as (MA & _ & _ & _ & MJ).
  split; [|intros Lo x []]. intros Pl x I1 I2. apply in_map_iff in I1 as ([|[r|]] & <- & _).
  - destruct I2 as [I2|[]]. discriminate I2.
  - destruct I2 as [[= <-]|[[= <-]|[[= <-]|[[= <-]|[[= <-]|[]]]]]].
    + constructor. apply MA.
    + constructor. apply MA.
    + constructor. exact MJ.
    + constructor. constructor.
    + constructor. constructor; constructor. exact MJ.
  - destruct I2.
Qed.

Lemma emptied_scalars t i r : refers t i r -> nth_error t r = Some (Live None) -> writes_scalars t i.
Proof.
  intros Ri Er. set (h := life_heap (B := blob) t). pose proof (life_family _ _ _ Ri) as Ei. fold h in Ei.
  assert (E0 : emptied h r) by exact (life_nth _ _ _ Er).
  assert (N : i <> r) by (intros ->; unfold refers in Ri; congruence).
  assert (E1 : emptied (marked h i r) r) by (unfold emptied; rewrite marked_other by congruence; exact E0).
  assert (V : 8 <= int_max / 2 <= int_max / 2) by (change (int_max / 2) with 1073741823; lia).
  assert (M1 : minSize h (XPool (B := blob) i) = Ok 10).
  { unfold minSize, qfuel. destruct (pools h) as [|P0 ps] eqn:EP; [unfold holds_family in Ei; rewrite EP in Ei; destruct i; discriminate Ei|].
    cbn [length]. destruct (emptied_query _ _ (length ps) E1) as [Q1 Q2].
    rewrite (json_min _ _ _ _ _ _ Ei Q1 V Q2). reflexivity. }
  assert (M2 : maxSize h (XPool (B := blob) i) = Ok (-1)) by (unfold maxSize, qfuel; rewrite (json_max _ _ _ _ _ Ei); reflexivity).
  split; [exact M1|]. split; [exact M2|]. intros b front r0 Hb Hf Hr. fold h.
  assert (Mr : minSize h (XPool (B := blob) r) = Ok (int_max / 2) /\ maxSize h (XPool (B := blob) r) = Ok 2).
  { unfold minSize, maxSize, qfuel. destruct (emptied_query _ _ (length (pools h)) E0) as [-> ->]. split; reflexivity. }
  destruct Mr as [Mr1 Mr2]. destruct (family_sizes h r _ _ Mr1 Mr2 ltac:(lia)) as [Fa Fo]. destruct (compound_max h r) as [Xa Xo].
  destruct (C32_picks h i [StampJSONInt; StampJSONFloat; StampJSONString; StampJSONArray r; StampJSONHash r]
    [(8, 8); (8, 8); (8, 8); (1073741825, -1); (1073741835, -1)] b front r0) as (y & s & b' & Iy & Ry & Fy & _ & Hb' & Ex).
  - exact (life_leaves t).
  - eexists. split; [exact Ei|reflexivity].
  - repeat apply Forall2_cons; try apply Forall2_nil.
    1,2,3: apply scalar_sizes; cbn [In]; tauto.
    + split; [rewrite Fa; reflexivity|exact Xa].
    + split; [rewrite Fo; reflexivity|exact Xo].
  - repeat constructor; cbn [fst snd]; lia.
  - cbn; lia.
  - exact Hb.
  - exact Hf.
  - apply Exists_cons_hd. unfold fits. cbn [fst]. lia.
  - assert (S3 : In y [StampJSONInt; StampJSONFloat; StampJSONString]).
    { destruct Iy as [<-|[<-|[<-|[<-|[<-|[]]]]]]; cbn [In]; try tauto; exfalso; destruct Ry as [Ry _]; unfold fits in Fy.
      - rewrite Fa in Ry. injection Ry as Ry. rewrite <- Ry in Fy. vm_compute i32 in Fy. cbn in Fy. lia.
      - rewrite Fo in Ry. injection Ry as Ry. rewrite <- Ry in Fy. change (int_max / 2) with 1073741823 in Fy. lia. }
    rewrite Ex. destruct S3 as [<-|[<-|[<-|[]]]].
    + exists (ArithExtractStr Long), b'. split; [cbn [In]; tauto|]. split; [exact Hb'|]. unfold ExtractStr, StampJSONInt, StampJSONFloat, StampJSONString.
      rewrite extract_leaf. reflexivity.
    + exists (ArithExtractStr Double), b'. split; [cbn [In]; tauto|]. split; [exact Hb'|]. unfold ExtractStr, StampJSONInt, StampJSONFloat, StampJSONString.
      rewrite extract_leaf. reflexivity.
    + exists JSONStringExtractStr, b'. split; [cbn [In]; tauto|]. split; [exact Hb'|]. unfold ExtractStr, StampJSONInt, StampJSONFloat, StampJSONString.
      rewrite extract_leaf. reflexivity.
Qed.

(** ** Histories *)
Lemma upd_length {A} (l : list A) n v : length (upd l n v) = length l.
Proof. revert n. induction l as [|x l IH]; intros [|n]; cbn; try reflexivity. f_equal. apply IH. Qed.

Lemma step_alone t op t' i : life_step t op = Some t' -> leaves_alone i op -> (i < length t)%nat ->
  nth_error t' i = nth_error t i /\ (length t <= length t')%nat.
Proof.
  intros E L Hi. destruct op as [|s|s|d s|d s|d]; cbn [life_step leaves_alone] in *; unfold option_map in *.
  - injection E as <-. rewrite nth_error_app1, app_length by exact Hi. split; [reflexivity|lia].
  - destruct (alive t s); [|discriminate]. injection E as <-. rewrite nth_error_app1, app_length by exact Hi. split; [reflexivity|lia].
  - destruct (alive t s); [|discriminate]. injection E as <-. rewrite nth_error_app1, app_length, upd_length by (rewrite upd_length; exact Hi).
    rewrite nth_upd_other by exact L. split; [reflexivity|lia].
  - destruct (alive t d); [|discriminate]. destruct (alive t s); [|discriminate]. injection E as <-. rewrite upd_length, nth_upd_other by exact L.
    split; [reflexivity|lia].
  - destruct (Nat.eqb d s); [discriminate|]. destruct (alive t d); [|discriminate]. destruct (alive t s); [|discriminate].
    injection E as <-. rewrite !upd_length, !nth_upd_other by apply L. split; [reflexivity|lia].
  - destruct (alive t d); [|discriminate]. injection E as <-. rewrite upd_length, nth_upd_other by exact L. split; [reflexivity|lia].
Qed.

Lemma run_alone ops : forall t t' i, life_run t ops = Some t' -> Forall (leaves_alone i) ops -> (i < length t)%nat ->
  nth_error t' i = nth_error t i /\ (length t <= length t')%nat.
Proof.
  induction ops as [|op ops IH]; intros t t' i E L Hi; cbn [life_run] in E; [injection E as <-; split; [reflexivity|lia]|].
  inversion L as [|? ? L1 L2]; subst. destruct (life_step t op) as [t1|] eqn:E1; [|discriminate].
  destruct (step_alone _ _ _ _ E1 L1 Hi) as [N1 G1]. destruct (IH _ _ i E L2 ltac:(lia)) as [N2 G2]. split; [congruence|lia].
Qed.

Lemma run_app ops1 ops2 t : life_run t (ops1 ++ ops2) = match life_run t ops1 with Some t' => life_run t' ops2 | None => None end.
Proof. revert t. induction ops1 as [|op ops1 IH]; intros t; cbn [life_run app]; [reflexivity|]. destruct (life_step t op); [apply IH|reflexivity]. Qed.

Lemma own_intact t n : refers t n n -> intact t n.
Proof.
  intros R j L. assert (j = n) as ->; [|exists n; exact R].
  remember n as m eqn:Em in L. induction L as [i|i r j E L IH]; [exact Em|]. subst i. apply IH. unfold refers in *. congruence.
Qed.

Lemma refers_intact t m n : refers t m n -> intact t n -> intact t m.
Proof.
  intros R I1 j L. inversion L as [|? r ? E L2]; subst; [exists n; exact R|]. apply I1.
  unfold refers in *. replace n with r by congruence. exact L2.
Qed.

(** ** Histories *)

Definition table (t : list slot) (past : list life_op) : Prop :=
  length t = made past /\ forall i f, nth_error t i = Some (Live f) <-> has past i f.

Lemma alive_iff t i f : alive t i = Some f <-> nth_error t i = Some (Live f).
Proof. unfold alive. destruct (nth_error t i) as [[|g]|]; split; intros H; try discriminate; congruence. Qed.

Lemma alive_has t past i : table t past -> (exists f, alive t i = Some f) <-> exists f, has past i f.
Proof.
  intros [_ T]. split; intros [f H]; exists f; [apply T, alive_iff|apply alive_iff, T]; exact H.
Qed.

Lemma step_allowed t past op : table t past -> ((exists t', life_step t op = Some t') <-> allowed past op).
Proof.
  intros T. destruct op as [|s|s|d s|d s|i]; cbn [life_step allowed].
  - split; [tauto|]. intros _. eexists. reflexivity.
  - rewrite <- (alive_has t past s T). destruct (alive t s) as [f|]; cbn [option_map].
    + split; intros _; eexists; reflexivity.
    + split; intros [? H]; discriminate.
  - rewrite <- (alive_has t past s T). destruct (alive t s) as [f|]; cbn [option_map].
    + split; intros _; eexists; reflexivity.
    + split; intros [? H]; discriminate.
  - rewrite <- (alive_has t past s T), <- (alive_has t past d T). destruct (alive t d) as [g|], (alive t s) as [f|].
    + split; [intros _; split; eexists; reflexivity|intros _; eexists; reflexivity].
    + split; [intros [? H]; discriminate|intros [_ [? H]]; discriminate].
    + split; [intros [? H]; discriminate|intros [[? H] _]; discriminate].
    + split; [intros [? H]; discriminate|intros [[? H] _]; discriminate].
  - rewrite <- (alive_has t past s T), <- (alive_has t past d T). destruct (Nat.eqb_spec d s) as [->|N].
    + split; [intros [? H]; discriminate|intros [N _]; congruence].
    + destruct (alive t d) as [g|], (alive t s) as [f|].
      * split; [intros _; split; [exact N|]; split; eexists; reflexivity|intros _; eexists; reflexivity].
      * split; [intros [? H]; discriminate|intros [_ [_ [? H]]]; discriminate].
      * split; [intros [? H]; discriminate|intros [_ [[? H] _]]; discriminate].
      * split; [intros [? H]; discriminate|intros [_ [[? H] _]]; discriminate].
  - rewrite <- (alive_has t past i T). destruct (alive t i) as [f|]; cbn [option_map].
    + split; intros _; eexists; reflexivity.
    + split; intros [? H]; discriminate.
Qed.

Lemma nth_snoc {A} (l : list A) x i y : nth_error (l ++ [x]) i = Some y <-> (nth_error l i = Some y \/ (i = length l /\ x = y)).
Proof.
  destruct (Nat.lt_ge_cases i (length l)) as [H|H].
  - rewrite nth_error_app1 by exact H. split; [tauto|]. intros [E|[-> _]]; [exact E|lia].
  - rewrite nth_error_app2 by exact H. assert (nth_error l i = None) as -> by (apply nth_error_None; exact H).
    destruct (i - length l)%nat as [|k] eqn:E; cbn [nth_error].
    + split; [intros X; injection X as ->; right; split; [lia|reflexivity]|intros [X|[_ ->]]; [discriminate|reflexivity]].
    + split; [destruct k; discriminate|intros [X|[-> _]]; [discriminate|lia]].
Qed.

Lemma nth_upd_iff {A} (l : list A) n v i y w : nth_error l n = Some w ->
  (nth_error (upd l n v) i = Some y <-> ((i = n /\ v = y) \/ (i <> n /\ nth_error l i = Some y))).
Proof.
  intros W. destruct (Nat.eq_dec i n) as [->|N].
  - rewrite (QueryFacts.nth_upd _ _ _ _ W). split; [intros X; injection X as ->; tauto|intros [[_ ->]|[X _]]; [reflexivity|congruence]].
  - rewrite nth_upd_other by congruence. tauto.
Qed.

Lemma step_table t past op t' : table t past -> life_step t op = Some t' -> table t' (op :: past).
Proof.
  intros [L T] E. split.
  - destruct op as [|s|s|d s|d s|i]; cbn [life_step] in E; cbn [made].
    + injection E as <-. rewrite app_length. cbn [length]. lia.
    + destruct (alive t s); [|discriminate]. injection E as <-. rewrite app_length. cbn [length]. lia.
    + destruct (alive t s); [|discriminate]. injection E as <-. rewrite app_length, upd_length. cbn [length]. lia.
    + destruct (alive t d), (alive t s); try discriminate. injection E as <-. rewrite upd_length. exact L.
    + destruct (Nat.eqb d s); [discriminate|]. destruct (alive t d), (alive t s); try discriminate. injection E as <-. rewrite !upd_length. exact L.
    + destruct (alive t i); [|discriminate]. injection E as <-. rewrite upd_length. exact L.
  - intros i f. destruct op as [|s|s|d s|d s|k]; cbn [life_step] in E.
    + injection E as <-. rewrite nth_snoc, T, L. split.
      * intros [H|[-> H]]; [apply has_still; [exact H|exact I]|]. injection H as <-. apply has_constructed.
      * intros H. inversion H; subst; [right; split; reflexivity|left; assumption].
    + destruct (alive t s) as [g|] eqn:A; [|discriminate]. apply alive_iff, T in A. injection E as <-. rewrite nth_snoc, T, L. split.
      * intros [H|[-> H]]; [apply has_still; [exact H|exact I]|]. injection H as <-. apply has_copied. exact A.
      * intros H. inversion H as [|? ? ? H1| | | | | |? ? ? ? H1]; subst; [right; split; [reflexivity|]|left; exact H1].
        f_equal. apply T in A, H1. congruence.
    + destruct (alive t s) as [g|] eqn:A; [|discriminate]. apply alive_iff in A. injection E as <-.
      rewrite nth_snoc, upd_length, (nth_upd_iff _ _ _ _ _ _ A), T, L. pose proof (proj1 (T _ _) A) as A'. split.
      * intros [[[-> H]|[N H]]|[-> H]]; [injection H as <-; eapply has_moved_from; exact A'| |injection H as <-; apply has_moved; exact A'].
        apply has_still; [exact H|]. intros X. apply N. symmetry. exact X.
      * intros H. inversion H as [| |? ? ? H1|? ? ? H1| | | |? ? ? ? H1 H2]; subst.
        -- right. split; [reflexivity|]. f_equal. apply T in H1. congruence.
        -- left. left. split; reflexivity.
        -- left. right. split; [intros X; apply H2; symmetry; exact X|exact H1].
    + destruct (alive t d) as [g'|] eqn:D; [|discriminate]. destruct (alive t s) as [g|] eqn:A; [|discriminate]. apply alive_iff in A, D.
      injection E as <-. rewrite (nth_upd_iff _ _ _ _ _ _ D), T. pose proof (proj1 (T _ _) A) as A'. split.
      * intros [[-> H]|[N H]]; [injection H as <-; eapply has_assigned; exact A'|].
        apply has_still; [exact H|]. intros X. apply N. symmetry. exact X.
      * intros H. inversion H as [| | | |? ? ? ? H1| | |? ? ? ? H1 H2]; subst.
        -- left. split; [reflexivity|]. f_equal. apply T in H1. congruence.
        -- right. split; [intros X; apply H2; symmetry; exact X|exact H1].
    + destruct (Nat.eqb_spec d s) as [|N]; [discriminate|].
      destruct (alive t d) as [g'|] eqn:D; [|discriminate]. destruct (alive t s) as [g|] eqn:A; [|discriminate]. apply alive_iff in A, D.
      injection E as <-. assert (D' : nth_error (upd t s (Live None)) d = Some (Live g')) by (rewrite nth_upd_other by congruence; exact D).
      rewrite (nth_upd_iff _ _ _ _ _ _ D'), (nth_upd_iff _ _ _ _ _ _ A), T. pose proof (proj1 (T _ _) A) as A'. split.
      * intros [[-> H]|[N1 [[-> H]|[N2 H]]]]; [injection H as <-; eapply has_move_assigned; exact A'|injection H as <-; eapply has_move_assigned_from; exact A'|].
        apply has_still; [exact H|]. split; congruence.
      * intros H. inversion H as [| | | | |? ? ? ? H1|? ? ? ? H1|? ? ? ? H1 H2]; subst.
        -- left. split; [reflexivity|]. f_equal. apply T in H1. congruence.
        -- right. split; [congruence|]. left. split; reflexivity.
        -- right. destruct H2 as [H2 H3]. split; [congruence|]. right. split; [congruence|exact H1].
    + destruct (alive t k) as [g|] eqn:A; [|discriminate]. apply alive_iff in A. injection E as <-.
      rewrite (nth_upd_iff _ _ _ _ _ _ A), T. split.
      * intros [[-> H]|[N H]]; [discriminate|]. apply has_still; [exact H|]. intros X. apply N. symmetry. exact X.
      * intros H. inversion H as [| | | | | | |? ? ? ? H1 H2]; subst. right. split; [intros X; apply H2; symmetry; exact X|exact H1].
Qed.

Lemma history ops : (legal (rev ops) <-> exists t, life_run [] ops = Some t)
  /\ forall t, life_run [] ops = Some t -> table t (rev ops).
Proof.
  induction ops as [|op ops [IH1 IH2]] using rev_ind.
  - cbn [rev life_run]. split; [split; [intros _; eexists; reflexivity|intros _; apply legal_start]|]. intros t E. injection E as <-.
    split; [reflexivity|]. intros i f. split; [destruct i; discriminate|inversion 1].
  - rewrite rev_app_distr. cbn [rev app]. rewrite run_app. split.
    + split.
      * intros H. inversion H as [|? ? H1 H2]; subst. destruct (proj1 IH1 H1) as [t E]. rewrite E. cbn [life_run].
        destruct (proj2 (step_allowed t (rev ops) op (IH2 t E)) H2) as [t' E']. rewrite E'. exists t'. reflexivity.
      * intros [t' E]. destruct (life_run [] ops) as [t|] eqn:E1; [|discriminate]. cbn [life_run] in E.
        apply legal_next; [apply IH1; eexists; reflexivity|]. apply (step_allowed t (rev ops) op (IH2 t eq_refl)).
        destruct (life_step t op) as [t1|]; [exists t1; reflexivity|discriminate].
    + intros t' E. destruct (life_run [] ops) as [t|] eqn:E1; [|discriminate]. cbn [life_run] in E.
      destruct (life_step t op) as [t1|] eqn:E2; [|discriminate]. injection E as <-. exact (step_table _ _ _ _ (IH2 t eq_refl) E2).
Qed.
