(** C61: the sizes of stamps made of other stamps. *)
From Verif Require Import Base BaseFacts Blob BlobSpec RunSpec Sim Oracle Arithm StampText Galley Stamps StampsEq VectorSpec SetSpec LotSpec LotFacts QuerySpec QueryFacts
  ContractFacts MaxFacts SizesSpec SizesFacts.
Local Open Scope Z_scope.

(** minSize() and maxSize() of every stamp built from leaves by enumerators, texts, operators, sets, hash
    elements, pools and lotteries, no pool being inside itself, are those computed from the parts. *)
Theorem C61_sizes : forall (h : heap blob) x s, sized h [] x s -> minSize h x = Ok (fst s) /\ maxSize h x = Ok (snd s).
Proof.
  intros h x s H. assert (I : inside h [] h).
  { split; [apply more_refl|]. intros p P P1 E E1 M. left. congruence. }
  destruct (sized_answers h (qfuel h) x [] s h H I (free_fuel h)) as [A1 A2]. unfold minSize, maxSize. cbn [fst snd] in *. rewrite A1, A2. split; reflexivity.
Qed.
Print Assumptions C61_sizes.

(** Whatever they are made of, enumerators and texts, operators and hash elements say that they are unbounded. *)
Theorem C61_unbounded : forall (h : heap blob) j op x y,
  maxSize h (XVec j x) = Ok (-1) /\ maxSize h (XUnary op x) = Ok (-1) /\ maxSize h (XBinary op x y) = Ok (-1)
  /\ maxSize h (XHashEl x y) = Ok (-1).
Proof. intros. repeat split. Qed.
Print Assumptions C61_unbounded.

(** Near INT_MAX: the size of an enumerator is reduced to an [int], that of a hash element is undefined. *)
Theorem C61_near_limit : forall (h : heap blob) j x y mn mx mn' mx', minSize h x = Ok mn -> maxSize h x = Ok mx ->
  minSize h y = Ok mn' -> maxSize h y = Ok mx' -> 0 <= mn < 2 ^ 31 -> 0 <= mn' < 2 ^ 31 ->
  (2 ^ 31 <= mn + vec_oracles (mn, mx) -> minSize h (XVec j x) = Ok (mn + vec_oracles (mn, mx) - 2 ^ 32))
  /\ (2 ^ 31 <= mn + mn' -> minSize h (XHashEl x y) = UB).
Proof.
  intros h j x y mn mx mn' mx' E1 E2 E3 E4 Hm Hm'. split; intros HL.
  - rewrite (vec_size h j x (mn, mx) (conj E1 E2)). f_equal. cbn [fst snd]. unfold VectorMinSize, vec_oracles, isFixedSize, isUnbounded, ORACLE_SIZE in *.
    cbn [fst snd] in *. rewrite (Z.eqb_sym mn mx). destruct (mx =? mn); [lia|].
    assert (K : forall z, 2 ^ 31 <= z < 2 ^ 31 + 10 -> i32 z = z - 2 ^ 32).
    { intros z Hz. unfold i32. replace (z + 2 ^ 31) with ((z - 2 ^ 31) + 1 * 2 ^ 32) by lia. rewrite Z.mod_add, Z.mod_small by lia. lia. }
    destruct (mx =? -1); apply K; lia.
  - destruct (report_query h x (mn, mx) (conj E1 E2)) as [A1 _]. destruct (report_query h y (mn', mx') (conj E3 E4)) as [A2 _].
    unfold minSize. rewrite query_hashel. rewrite (bind_ok _ _ _ _ _ A1), (bind_ok _ _ _ _ _ A2). cbn [fst snd]. rewrite int_op_ub by lia. reflexivity.
Qed.
Print Assumptions C61_near_limit.

(** Pool 0 holds a short and a list of stamps of pool 1; pool 1 holds a stamp of five bytes and a set of a two-byte stamp and
    one of two to eight bytes; the whole is a sum of the two pools. *)
Definition nested : heap blob :=
  let short := XLeaf 2 2 (ArithExtractStr Short) in
  mkHeap [mkPool [Some short; Some (XVec text_text (XPool 1))] false false;
          mkPool [Some (XLeaf 5 5 (ArithExtractStr UChar)); Some (XSet text_text [short; XLeaf 2 8 Latin1ExtractStr])] false false] [].

Example C61_case : sized nested [] (XBinary (lit "+") (XPool 0) (XPool 1)) (15, -1)
  /\ minSize nested (XBinary (lit "+") (XPool 0) (XPool 1)) = Ok 15.
Proof.
  assert (K : forall up, ~ In 1%nat up -> sized nested up (XPool 1) (7, 14)).
  { intros up Hu. apply (z_pool nested up 1 _ [XLeaf 5 5 (ArithExtractStr UChar); XSet text_text [XLeaf 2 2 (ArithExtractStr Short); XLeaf 2 8 Latin1ExtractStr]] [(5, 5); (6, 12)] 5 14 eq_refl eq_refl eq_refl eq_refl Hu).
    - constructor; [apply z_leaf|]. constructor; [|constructor].
      apply (z_set nested (1%nat :: up) text_text _ [(2, 2); (2, 8)]).
      + constructor; [apply z_leaf|]. constructor; [apply z_leaf|constructor].
      + split; [repeat constructor; unfold stamp_ok; cbn [fst snd]; lia|]. split; vm_compute; reflexivity.
      + vm_compute. reflexivity.
    - repeat constructor; unfold pool_sane; cbn [fst snd]; lia.
    - split; [left; reflexivity|repeat constructor; cbn [fst snd]; lia].
    - lia.
    - right. split; [reflexivity|]. exists 12. split; [|reflexivity]. split; [right; left; reflexivity|repeat constructor; cbn [fst snd]; lia].
    - lia. }
  assert (Z0 : sized nested [] (XPool 0) (4, -1)).
  { apply (z_pool nested [] 0 _ [XLeaf 2 2 (ArithExtractStr Short); XVec text_text (XPool 1)] [(2, 2); (9, -1)] 2 (-1) eq_refl eq_refl eq_refl eq_refl (fun x => x)).
    - constructor; [apply z_leaf|]. constructor; [|constructor].
      apply (z_vec nested [0%nat] text_text (XPool 1) (7, 14)); [|cbn [fst]; lia|vm_compute; reflexivity].
      apply K. intros [X|[]]. discriminate X.
    - repeat constructor; unfold pool_sane; cbn [fst snd]; lia.
    - split; [left; reflexivity|repeat constructor; cbn [fst snd]; lia].
    - lia.
    - left. split; [vm_compute; reflexivity|reflexivity].
    - lia. }
  split; [|vm_compute; reflexivity].
  apply (z_binary nested [] (lit "+") (XPool 0) (XPool 1) (4, -1) (7, 14)); [exact Z0|apply K; intros []|].
  split; [repeat constructor; unfold stamp_ok; cbn [fst snd]; lia|]. split; vm_compute; reflexivity.
Qed.
