(** C62: a failing part fails the whole, with its own failure, after the whole was cut up. *)
From Verif Require Import Base BaseFacts Blob BlobSpec RunSpec RunFacts Sim Arithm StampText Galley Stamps StampsEq
  LeafSpec TermSpec ShrinkFacts TermFacts NestFacts FailSpec FailFacts.

(** ExtractStrVector, ExtractBinVector, ExtractValuesVector: the first chunk on which the element stamp fails
    decides; the chunks after it are not looked at; the blob is left as the galley left it. *)
Theorem C62_vector : forall A mn mx (ex : M blob A) (outcome : bytes -> res A) b pre w post rest (r : res (list A)),
  cuts (vector_extract mn mx) b (pre ++ w :: post) rest ->
  (forall c v, In v (pre ++ [w]) -> holds c v -> fst (ex c) = outcome v) ->
  Forall (fun v => succeeds (outcome v)) pre -> failure (outcome w) r -> runs (ExtractVector mn mx ex) b r rest.
Proof.
  intros A mn mx ex outcome b pre w post rest r (cs & b' & E & Hw & Hc & Hb & Hr) Ho Hp Hf. exists b'. split; [|split; assumption].
  unfold ExtractVector. rewrite (bind_ok _ _ _ _ _ E). unfold lift. f_equal.
  apply map_eq_app in Hc. destruct Hc as (cpre & c1 & -> & <- & Hc). apply map_eq_cons in Hc. destruct Hc as (c & cpost & -> & <- & <-).
  apply Forall_app in Hw. destruct Hw as [Hw1 Hw2]. pose proof (Forall_inv Hw2) as Wc. apply each_fails.
  - rewrite Forall_map in Hp. rewrite Forall_forall in *. intros a Ha. destruct (Hp a Ha) as (v & Ev). exists v.
    rewrite (Ho a (content a)); [exact Ev| |split; [exact (Hw1 a Ha)|reflexivity]]. apply in_or_app. left. apply in_map. exact Ha.
  - rewrite (Ho c (content c)); [exact Hf| |split; [exact Wc|reflexivity]]. apply in_or_app. right. left. reflexivity.
Qed.
Print Assumptions C62_vector.

(** ExtractStrSet, ExtractBinSet: chunk i is stamped by stamp i; the first failing pair decides. *)
Theorem C62_set : forall A (spre : list (Z * Z * M blob A)) s spost (outs : list (bytes -> res A)) out b pre w post rest (r : res (list A)),
  cuts (set_extract (map fst (spre ++ s :: spost))) b (pre ++ w :: post) rest ->
  length pre = length spre -> length outs = length spre ->
  (forall i st o v c, nth_error spre i = Some st -> nth_error outs i = Some o -> nth_error pre i = Some v -> holds c v ->
     fst (snd st c) = o v /\ succeeds (o v)) ->
  (forall c, holds c w -> fst (snd s c) = out w) -> failure (out w) r ->
  runs (ExtractSet (spre ++ s :: spost)) b r rest.
Proof.
  intros A spre s spost outs out b pre w post rest r (cs & b' & E & Hw & Hc & Hb & Hr) L1 L2 Ho Hs Hf. exists b'. split; [|split; assumption].
  unfold ExtractSet. rewrite (bind_ok _ _ _ _ _ E). unfold lift. f_equal.
  apply map_eq_app in Hc. destruct Hc as (cpre & c1 & -> & <- & Hc). apply map_eq_cons in Hc. destruct Hc as (c & cpost & -> & <- & <-).
  apply Forall_app in Hw. destruct Hw as [Hw1 Hw2]. pose proof (Forall_inv Hw2) as Wc. rewrite map_app. cbn [map]. apply zip_fails.
  - rewrite map_length in L1. clear E. revert spre outs L1 L2 Ho. induction Hw1 as [|a cpre Wa Hw1 IH]; intros [|st spre] [|o outs] L1 L2 Ho; try discriminate; constructor.
    + destruct (Ho 0%nat st o (content a) a eq_refl eq_refl eq_refl (conj Wa eq_refl)) as [-> X]. exact X.
    + apply (IH spre outs); [cbn in L1; lia|cbn in L2; lia|]. intros i st' o' v c' N1 N2 N3. exact (Ho (S i) st' o' v c' N1 N2 N3).
  - rewrite (Hs c); [exact Hf|split; [exact Wc|reflexivity]].
Qed.
Print Assumptions C62_set.

(** The galley itself fails: so does the extraction, and no stamp is tried. *)
Theorem C62_cut : forall A mn mx (ex : M blob A) (l : list (Z * Z * M blob A)) b (k : res (list blob)) (r : res (list A)) b', failure k r ->
  (vector_extract mn mx b = (k, b') -> ExtractVector mn mx ex b = (r, b'))
  /\ (set_extract (map fst l) b = (k, b') -> ExtractSet l b = (r, b')).
Proof.
  intros A mn mx ex l b k r b' Hf. split; intros E; exact (failure_bind _ _ _ _ _ _ E Hf).
Qed.
Print Assumptions C62_cut.

(** Enumerators and texts in any graph. *)
Theorem C62_enumerator : forall (h : heap blob) j y mn mx b pre c post b' (r : res bytes), tame_graph h y -> wf b ->
  minSize h y = Ok mn -> maxSize h y = Ok mx -> vector_extract mn mx b = (Ok (pre ++ c :: post), b') ->
  Forall (fun c => succeeds (fst (ExtractStr h y c))) pre -> failure (fst (ExtractStr h y c)) r ->
  ExtractStr h (XVec j y) b = (r, b').
Proof.
  intros h j y mn mx b pre c post b' r T Hb E1 E2 E3 Hp Hf. assert (Sb : small (Size b) b) by (split; [exact Hb|lia]).
  unfold ExtractStr. rewrite extract_vec. rewrite (bind_lift_ok _ _ _ _ E1), (bind_lift_ok _ _ _ _ E2).
  pose proof (proj2 (shr_vector (Size b) mn mx b Sb) (pre ++ c :: post)) as Sc. rewrite E3 in Sc. specialize (Sc eq_refl).
  apply Forall_app in Sc. destruct Sc as [Sp Sc]. pose proof (Forall_inv Sc) as Hc.
  assert (X : exists k : res (list bytes), failure (fst (ExtractStr h y c)) k) by (destruct (fst (ExtractStr h y c)); [contradiction Hf|exists OutOfData|exists UB|exists Abort|exists Diverge]; exact I).
  destruct X as (k & Hk). apply (failure_bind _ _ b b' k); [|exact (failure_same _ _ _ Hk Hf)].
  unfold ExtractVector. rewrite (bind_ok _ _ _ _ _ E3). unfold lift. f_equal. apply each_fails.
  - rewrite Forall_forall in *. intros a Ha. rewrite (tame_agree h y b a T (Sp a Ha)). exact (Hp a Ha).
  - rewrite (tame_agree h y b c T Hc). exact Hk.
Qed.
Print Assumptions C62_enumerator.

(** Operators: the operand's failure, and for a binary operator the left operand is tried first. *)
Theorem C62_operators : forall (h : heap blob) op x y b b' mn1 mx1 mn2 mx2 c1 c2 (r : res bytes), tame_graph h x -> tame_graph h y -> wf b ->
  (failure (fst (ExtractStr h x b)) r -> ExtractStr h (XUnary op x) b = (r, snd (ExtractStr h x b)))
  /\ (minSize h x = Ok mn1 -> maxSize h x = Ok mx1 -> minSize h y = Ok mn2 -> maxSize h y = Ok mx2 ->
      set_extract [(mn1, mx1); (mn2, mx2)] b = (Ok [c1; c2], b') ->
      failure (fst (ExtractStr h x c1)) r \/ (succeeds (fst (ExtractStr h x c1)) /\ failure (fst (ExtractStr h y c2)) r) ->
      ExtractStr h (XBinary op x y) b = (r, b')).
Proof.
  intros h op x y b b' mn1 mx1 mn2 mx2 c1 c2 r Tx Ty Hb. split.
  - intros Hf. unfold ExtractStr at 1. rewrite extract_unary. apply (failure_bind _ _ b _ (fst (ExtractStr h x b))); [|exact Hf].
    fold (ExtractStr h x b). apply surjective_pairing.
  - intros Q1 Q2 Q3 Q4 E2 Hf. assert (Sb : small (Size b) b) by (split; [exact Hb|lia]).
    unfold ExtractStr. rewrite extract_binary. cbn [sizes_of]. rewrite Q1, Q2, Q3, Q4. cbn [rbind]. rewrite (bind_lift_ok (Ok _) _ _ _ eq_refl).
    pose proof (proj2 (shr_set (Size b) [(mn1, mx1); (mn2, mx2)] b Sb) [c1; c2]) as Sc. rewrite E2 in Sc. specialize (Sc eq_refl).
    inversion Sc as [|? ? Hc1 Sc']; subst. inversion Sc' as [|? ? Hc2 _]; subst.
    rewrite (bind_ok _ _ _ _ _ E2). destruct Hf as [Hf|((v & Ev) & Hf)].
    + rewrite <- (tame_agree h x b c1 Tx Hc1) in Hf. exact (failure_bind (lift _) _ b' b' _ _ eq_refl Hf).
    + rewrite <- (tame_agree h x b c1 Tx Hc1) in Ev. rewrite (bind_lift_ok _ _ _ _ Ev).
      rewrite <- (tame_agree h y b c2 Ty Hc2) in Hf. exact (failure_bind (lift _) _ b' b' _ _ eq_refl Hf).
Qed.
Print Assumptions C62_operators.

(** Sets in any graph. *)
Theorem C62_set_stamp : forall (h : heap blob) j xpre x xpost L b pre c post b' (r : res bytes),
  Forall (tame_graph h) (xpre ++ [x]) -> wf b -> sizes_of h (xpre ++ x :: xpost) = Ok L ->
  set_extract L b = (Ok (pre ++ c :: post), b') ->
  Forall2 (fun y c => succeeds (fst (ExtractStr h y c))) xpre pre -> failure (fst (ExtractStr h x c)) r ->
  ExtractStr h (XSet j (xpre ++ x :: xpost)) b = (r, b').
Proof.
  intros h j xpre x xpost L b pre c post b' r T Hb EL E Hp Hf. assert (Sb : small (Size b) b) by (split; [exact Hb|lia]).
  unfold ExtractStr. rewrite extract_set. rewrite (bind_lift_ok _ _ _ _ EL).
  pose proof (proj2 (shr_set (Size b) L b Sb) (pre ++ c :: post)) as Sc. rewrite E in Sc. specialize (Sc eq_refl).
  apply Forall_app in Sc. destruct Sc as [Sp Sc]. pose proof (Forall_inv Sc) as Hc. apply Forall_app in T. destruct T as [Tp Tx]. apply Forall_inv in Tx.
  rewrite (bind_ok _ _ _ _ _ E).
  assert (X : exists k : res (list bytes), failure (fst (ExtractStr h x c)) k) by (destruct (fst (ExtractStr h x c)); [contradiction Hf|exists OutOfData|exists UB|exists Abort|exists Diverge]; exact I).
  destruct X as (k & Hk). apply (failure_bind (lift _) _ b' b' k); [|exact (failure_same _ _ _ Hk Hf)]. unfold lift. f_equal.
  rewrite map_app. cbn [map]. apply zip_fails.
  - clear - Hp Tp Sp. induction Hp as [|y a xpre pre K Hp IH]; cbn [map]; constructor.
    + rewrite (tame_agree h y b a (Forall_inv Tp) (Forall_inv Sp)). exact K.
    + apply IH; [exact (Forall_inv_tail Tp)|exact (Forall_inv_tail Sp)].
  - rewrite (tame_agree h x b c Tx Hc). exact Hk.
Qed.
Print Assumptions C62_set_stamp.

(** A hash element: the name is taken first and the value from what it leaves; a failing name means that the
    value is not tried. *)
Theorem C62_hashel : forall (h : heap blob) n v b, tame_graph h n -> tame_graph h v -> wf b ->
  (forall t b1 u b2, ExtractStr h n b = (Ok t, b1) -> ExtractStr h v b1 = (Ok u, b2) ->
     ExtractStr h (XHashEl n v) b = (Ok (t ++ lit ": " ++ u), b2))
  /\ (forall r b1, ExtractStr h n b = (r, b1) -> failure r r -> ExtractStr h (XHashEl n v) b = (r, b1))
  /\ (forall t b1 r b2, ExtractStr h n b = (Ok t, b1) -> ExtractStr h v b1 = (r, b2) -> failure r r ->
     ExtractStr h (XHashEl n v) b = (r, b2)).
Proof.
  intros h n v b Tn Tv Hb.
  assert (K : forall t b1, ExtractStr h n b = (Ok t, b1) -> extract (S (Z.to_nat (Size b))) h v b1 = ExtractStr h v b1).
  { intros t b1 E. apply (tame_agree h v b b1 Tv). pose proof (tame_result h n b Tn Hb) as R. rewrite E in R. exact R. }
  repeat split.
  - intros t b1 u b2 E1 E2. pose proof (eq_trans (K t b1 E1) E2) as E3. unfold ExtractStr in E1 |- *. rewrite extract_hashel, (bind_ok _ _ _ _ _ E1), (bind_ok _ _ _ _ _ E3). reflexivity.
  - intros r b1 E1 Hf. unfold ExtractStr in E1 |- *. rewrite extract_hashel. exact (failure_bind _ _ _ _ _ _ E1 Hf).
  - intros t b1 r b2 E1 E2 Hf. pose proof (eq_trans (K t b1 E1) E2) as E3. unfold ExtractStr in E1 |- *. rewrite extract_hashel, (bind_ok _ _ _ _ _ E1).
    exact (failure_bind _ _ _ _ _ _ E3 Hf).
Qed.
Print Assumptions C62_hashel.

(** An element stamp that refuses a zero byte: the list of 1, 0, 2 fails with OutOfData, all three bytes being
    gone, and so do an operator over the list and a set whose second stamp it is; and a hash element
    whose name is missing leaves its data alone. *)
Definition nonzero : M blob bytes := v <- ExtractValue UChar ;; if v =? 0 then lift OutOfData else ret (Fmt.fmt_int v).

Example C62_case :
  let h := mkHeap (B := blob) [] [] in
  let y := XLeaf (B := blob) 1 1 nonzero in
  let list_of := XVec (enum_text (lit ",") (lit "[") (lit "]")) y in
  let out x d := let r := ExtractStr h x (blob_of d) in (fst r, content (snd r)) in
  tame_graph h y
  /\ out list_of [x01; x03; x02] = (Ok (lit "[1,3,2]"), [])
  /\ out list_of [x01; x00; x02] = (OutOfData, [])
  /\ out (XUnary (lit "-") list_of) [x01; x00; x02] = (OutOfData, [])
  /\ out (XSet text_text [y; y]) [x01; x00; x02] = (OutOfData, [x02])
  /\ out (XHashEl (XLeaf 4 4 (ArithExtractStr Int)) y) [x01; x02] = (OutOfData, [x01; x02]).
Proof.
  cbv zeta. split; [|vm_compute; repeat split; reflexivity].
  split; [split; intros ? ? []|]. constructor. intros b Hb. unfold nonzero. destruct (tame_arith UChar b Hb) as (H1 & H2 & H3).
  unfold ArithExtractStr in *. unfold bind in *. destruct (ExtractValue UChar b) as [[v| | | |] b']; cbn [fst snd] in *; try (split; [discriminate|split; assumption]).
  - cbn in H2, H3. destruct (v =? 0); cbn; (split; [discriminate|split; assumption]).
  - contradiction H1. reflexivity.
Qed.
