(** Stamp graphs over two representations of blobs behave alike. *)
From Verif Require Import Base BaseFacts Oracle Arithm StampDict DictWords StampText Galley Stamps StampsEq Json Sim.

(** Induction over stamp expressions, with the members of sets. *)
Section SxInd.
  Context {B : Type} (P : sx B -> Prop).
  Hypothesis HLeaf : forall mn mx ex, P (XLeaf mn mx ex).
  Hypothesis HVec : forall j x, P x -> P (XVec j x).
  Hypothesis HUnary : forall o x, P x -> P (XUnary o x).
  Hypothesis HBinary : forall o x y, P x -> P y -> P (XBinary o x y).
  Hypothesis HSet : forall j xs, Forall P xs -> P (XSet j xs).
  Hypothesis HHashEl : forall n v, P n -> P v -> P (XHashEl n v).
  Hypothesis HPool : forall p, P (XPool p).
  Hypothesis HLot : forall l, P (XLot l).

  Fixpoint sx_ind' (x : sx B) : P x :=
    match x with
    | XLeaf mn mx ex => HLeaf mn mx ex
    | XVec j y => HVec j y (sx_ind' y)
    | XUnary o y => HUnary o y (sx_ind' y)
    | XBinary o y1 y2 => HBinary o y1 y2 (sx_ind' y1) (sx_ind' y2)
    | XSet j ys => HSet j ys ((fix all (l : list (sx B)) : Forall P l :=
                                 match l with
                                 | [] => Forall_nil P
                                 | y :: r => Forall_cons y (sx_ind' y) (all r)
                                 end) ys)
    | XHashEl n v => HHashEl n v (sx_ind' n) (sx_ind' v)
    | XPool p => HPool p
    | XLot l => HLot l
    end.
End SxInd.

Section SimGraph.
  Context {B1 B2 : Type} {O1 : BlobOps B1} {L1 : @BlobLaws B1 O1} {O2 : BlobOps B2} {L2 : @BlobLaws B2 O2}.
  Notation Rel := (@Rel B1 B2 O1 L1 O2 L2).

  Fixpoint sxrel (x : sx B1) (y : sx B2) {struct x} : Prop :=
    match x, y with
    | XLeaf mn mx ex, XLeaf mn' mx' ex' => mn = mn' /\ mx = mx' /\ simS Rel eq ex ex'
    | XVec j a, XVec j' a' => j = j' /\ sxrel a a'
    | XUnary o a, XUnary o' a' => o = o' /\ sxrel a a'
    | XBinary o a b, XBinary o' a' b' => o = o' /\ sxrel a a' /\ sxrel b b'
    | XSet j l, XSet j' l' =>
        j = j' /\ (fix all (l : list (sx B1)) (l' : list (sx B2)) : Prop :=
                     match l, l' with
                     | [], [] => True
                     | a :: r, a' :: r' => sxrel a a' /\ all r r'
                     | _, _ => False
                     end) l l'
    | XHashEl a b, XHashEl a' b' => sxrel a a' /\ sxrel b b'
    | XPool p, XPool p' => p = p'
    | XLot p, XLot p' => p = p'
    | _, _ => False
    end.

  Definition optrel (x : option (sx B1)) (y : option (sx B2)) : Prop :=
    match x, y with Some a, Some b => sxrel a b | None, None => True | _, _ => False end.

  Definition poolrel (P : pool B1) (P' : pool B2) : Prop :=
    Forall2 optrel (weak_pool P) (weak_pool P')
    /\ is_recursive P = is_recursive P' /\ is_in_recursion P = is_in_recursion P'.

  Definition lotrel (L : lottery B1) (L' : lottery B2) : Prop :=
    Forall2 sxrel (lot_members L) (lot_members L')
    /\ lot_nums L = lot_nums L' /\ four_recursion L = four_recursion L'.

  Definition heaprel (h : heap B1) (h' : heap B2) : Prop :=
    Forall2 poolrel (pools h) (pools h') /\ Forall2 lotrel (lots h) (lots h').

  Lemma upd_rel {A1 A2} (R : A1 -> A2 -> Prop) l1 l2 n v1 v2 :
    Forall2 R l1 l2 -> R v1 v2 -> Forall2 R (upd l1 n v1) (upd l2 n v2).
  Proof.
    intros H Hv. revert n. induction H as [|x1 x2 l1 l2 Hx H IH]; intros [|n]; cbn [upd];
      constructor; auto.
  Qed.

  Lemma sim_get_pool p : simS heaprel poolrel (get_pool p) (get_pool p).
  Proof.
    intros h h' Hh. unfold get_pool. pose proof (Forall2_nth _ _ _ p (proj1 Hh)) as Hn.
    destruct (nth_error (pools h) p), (nth_error (pools h') p); try tauto; cbn; auto.
  Qed.

  Lemma sim_get_lot p : simS heaprel lotrel (get_lot p) (get_lot p).
  Proof.
    intros h h' Hh. unfold get_lot. pose proof (Forall2_nth _ _ _ p (proj2 Hh)) as Hn.
    destruct (nth_error (lots h) p), (nth_error (lots h') p); try tauto; cbn; auto.
  Qed.

  Lemma sim_mark p v : simS heaprel eq (mark_in_recursion p v) (mark_in_recursion p v).
  Proof.
    intros h h' Hh. unfold mark_in_recursion. pose proof (Forall2_nth _ _ _ p (proj1 Hh)) as Hn.
    destruct (nth_error (pools h) p) as [P|], (nth_error (pools h') p) as [P'|]; try tauto; cbn; auto.
    split; [reflexivity|]. split; [|exact (proj2 Hh)]. cbn. apply upd_rel; [exact (proj1 Hh)|].
    destruct Hn as (H1 & H2 & H3). repeat split; assumption.
  Qed.

  Lemma sim_mark_rec p : simS heaprel eq (mark_recursive p) (mark_recursive p).
  Proof.
    intros h h' Hh. unfold mark_recursive. pose proof (Forall2_nth _ _ _ p (proj1 Hh)) as Hn.
    destruct (nth_error (pools h) p) as [P|], (nth_error (pools h') p) as [P'|]; try tauto; cbn; auto.
    split; [reflexivity|]. split; [|exact (proj2 Hh)]. cbn. apply upd_rel; [exact (proj1 Hh)|].
    destruct Hn as (H1 & H2 & H3). repeat split; assumption.
  Qed.

  Notation simQ := (simS heaprel eq).

  Lemma sim_q_fixed a a' b b' : simQ a a' -> simQ b b' -> simQ (q_fixed a b) (q_fixed a' b').
  Proof.
    intros Ha Hb. apply sim_bind_eq; [exact Ha|]. intros x. apply sim_bind_eq; [exact Hb|].
    intros y. apply sim_ret. reflexivity.
  Qed.

  Lemma sim_q_unbounded b b' : simQ b b' -> simQ (q_unbounded b) (q_unbounded b').
  Proof. intros Hb. apply sim_bind_eq; [exact Hb|]. intros y. apply sim_ret. reflexivity. Qed.

  Lemma sim_q_variated a a' b b' : simQ a a' -> simQ b b' -> simQ (q_variated a b) (q_variated a' b').
  Proof.
    intros Ha Hb. apply sim_bind_eq; [apply sim_q_fixed; assumption|]. intros x.
    apply sim_if; [apply sim_ret; reflexivity|].
    apply sim_bind_eq; [apply sim_q_unbounded; assumption|]. intros u. apply sim_ret. reflexivity.
  Qed.

  Lemma sim_q_vector_min a a' b b' :
    simQ a a' -> simQ b b' -> simQ (q_vector_min a b) (q_vector_min a' b').
  Proof.
    intros Ha Hb. apply sim_bind_eq; [apply sim_q_fixed; assumption|]. intros x.
    apply sim_if; [exact Ha|].
    apply sim_bind_eq; [apply sim_q_unbounded; assumption|]. intros u.
    apply sim_if; (apply sim_bind_eq; [exact Ha|]; intros m; apply sim_ret; reflexivity).
  Qed.

  Definition qprel (p : Q B1 Z * Q B1 Z) (p' : Q B2 Z * Q B2 Z) : Prop :=
    simQ (fst p) (fst p') /\ simQ (snd p) (snd p').

  Lemma sim_q_set_totals l l' : Forall2 qprel l l' ->
    forall t, simQ (q_set_totals l t) (q_set_totals l' t).
  Proof.
    intros H. induction H as [|[a b] [a' b'] l l' [Ha Hb] H IH]; intros t; cbn [q_set_totals].
    - apply sim_ret. reflexivity.
    - cbn [fst snd] in Ha, Hb. apply sim_bind_eq; [exact Ha|]. intros m.
      apply sim_bind_eq; [apply sim_lift_eq|]. intros f.
      apply sim_bind_eq; [apply sim_q_variated; assumption|]. intros v.
      apply sim_bind_eq; [apply sim_q_unbounded; assumption|]. intros u. apply IH.
  Qed.

  Lemma sim_q_set_min l l' : Forall2 qprel l l' -> simQ (q_set_min l) (q_set_min l').
  Proof.
    intros H. apply sim_bind_eq; [apply sim_q_set_totals; exact H|]. intros t.
    apply sim_ret. reflexivity.
  Qed.

  Lemma sim_q_set_max l l' : Forall2 qprel l l' -> forall r, simQ (q_set_max l r) (q_set_max l' r).
  Proof.
    intros H. induction H as [|[a b] [a' b'] l l' [Ha Hb] H IH]; intros r; cbn [q_set_max].
    - apply sim_ret. reflexivity.
    - cbn [fst snd] in Ha, Hb. apply sim_bind_eq; [exact Hb|]. intros m.
      apply sim_bind_eq; [apply sim_lift_eq|]. intros f.
      apply sim_bind_eq; [apply sim_q_variated; assumption|]. intros v.
      apply sim_bind_eq; [apply sim_q_unbounded; assumption|]. intros u.
      apply sim_if; [apply sim_ret; reflexivity|apply IH].
  Qed.

  Definition oprel (q : option (Q B1 Z)) (q' : option (Q B2 Z)) : Prop :=
    match q, q' with Some a, Some a' => simQ a a' | None, None => True | _, _ => False end.

  Lemma sim_q_pool_min l l' : Forall2 oprel l l' -> forall r, simQ (q_pool_min l r) (q_pool_min l' r).
  Proof.
    intros H. induction H as [|[a|] [a'|] l l' Ha H IH]; intros r; cbn [q_pool_min]; try (cbn in Ha; tauto).
    - apply sim_ret. reflexivity.
    - apply sim_bind_eq; [exact Ha|]. intros c. apply IH.
    - apply sim_lift. exact I.
  Qed.

  Lemma sim_q_pool_max l l' : Forall2 oprel l l' -> forall r, simQ (q_pool_max l r) (q_pool_max l' r).
  Proof.
    intros H. induction H as [|[a|] [a'|] l l' Ha H IH]; intros r; cbn [q_pool_max]; try (cbn in Ha; tauto).
    - apply sim_ret. reflexivity.
    - apply sim_bind_eq; [exact Ha|]. intros c. apply sim_if; [apply sim_ret; reflexivity|apply IH].
    - apply sim_lift. exact I.
  Qed.

  Lemma all_Forall2 l l' :
    (fix all (l : list (sx B1)) (l' : list (sx B2)) : Prop :=
       match l, l' with
       | [], [] => True
       | a :: r, a' :: r' => sxrel a a' /\ all r r'
       | _, _ => False
       end) l l' <-> Forall2 sxrel l l'.
  Proof.
    revert l'. induction l as [|a l IH]; intros [|a' l']; split; intros H; try tauto.
    - constructor.
    - inversion H.
    - inversion H.
    - destruct H as [H1 H2]. constructor; [exact H1|apply IH; exact H2].
    - inversion H; subst. split; [assumption|apply IH; assumption].
  Qed.

  Lemma map_qprel f xs xs' :
    Forall (fun s => forall q y, sxrel s y -> simQ (query f q s) (query f q y)) xs ->
    Forall2 sxrel xs xs' ->
    Forall2 qprel (map (fun y => (query f true y, query f false y)) xs)
                  (map (fun y => (query f true y, query f false y)) xs').
  Proof.
    intros HI HR. induction HR as [|a a' l l' Ha HR IH]; cbn [map]; constructor.
    - apply Forall_inv in HI. split; apply HI; exact Ha.
    - apply IH. exact (Forall_inv_tail HI).
  Qed.

  Lemma sim_query fuel : forall qmin x y, sxrel x y -> simQ (query fuel qmin x) (query fuel qmin y).
  Proof.
    induction fuel as [|f IHf]; intros qmin x; revert qmin;
      induction x as [mn mx ex|j x IH|o x IH|o x1 x2 IH1 IH2|j xs IH|n v IHn IHv|p|l] using sx_ind';
      intros qmin [mn' mx' ex'|j' x'|o' x'|o' x1' x2'|j' xs'|n' v'|p'|l'] HR; cbn [sxrel] in HR; try tauto.
    all: lazymatch type of HR with
    | _ /\ _ /\ simS _ _ _ _ =>
        destruct HR as (<- & <- & _); cbn [query]; apply sim_ret; reflexivity
    | _ /\ _ /\ _ =>
        destruct HR as (<- & H1 & H2); cbn [query]; apply sim_if; [|apply sim_ret; reflexivity];
        apply sim_q_set_min; repeat constructor; cbn [fst snd]; first [apply IH1|apply IH2]; assumption
    | _ = ?y /\ sxrel _ _ =>
        destruct HR as (<- & H1); cbn [query]; apply sim_if; try (apply sim_ret; reflexivity);
        first [apply sim_q_vector_min; apply IH; exact H1 | apply IH; exact H1]
    | _ => idtac
    end.
    all: lazymatch goal with
    | |- simS _ _ (query _ _ (XSet _ _)) _ =>
        destruct HR as (<- & HR); apply all_Forall2 in HR; cbn [query];
        pose proof (map_qprel _ xs xs' IH HR) as HF; cbn [query] in HF;
        apply sim_if; [apply sim_q_set_min|apply sim_q_set_max]; exact HF
    | |- simS _ _ (query _ _ (XHashEl _ _)) _ =>
        destruct HR as (H1 & H2); cbn [query]; apply sim_if; [|apply sim_ret; reflexivity];
        apply sim_bind_eq; [apply IHn; exact H1|intros a];
        apply sim_bind_eq; [apply IHv; exact H2|intros b]; apply sim_lift_eq
    | |- simS _ _ (query _ _ (XLot _)) _ =>
        subst; cbn [query]; eapply sim_bind; [apply sim_get_lot|];
        intros L L' (_ & HL & _); rewrite HL; apply sim_lift_eq
    | |- _ => idtac
    end.
    - subst. cbn [query]. apply sim_lift. exact I.
    - subst. cbn [query]. eapply sim_bind; [apply sim_get_pool|].
      intros P P' (Hm & Hr & Hi). rewrite Hr, Hi.
      assert (HF : forall q, Forall2 oprel (map (option_map (query f q)) (weak_pool P))
                                           (map (option_map (query f q)) (weak_pool P'))).
      { intros q. clear - Hm IHf. induction Hm as [|a a' l l' Ha Hm IH]; cbn [map]; constructor; [|exact IH].
        destruct a, a'; cbn in Ha |- *; try tauto. apply IHf. exact Ha. }
      apply sim_if.
      + apply sim_if; [apply sim_ret; reflexivity|].
        apply sim_bind_eq; [apply sim_mark|]. intros _.
        apply sim_bind_eq; [apply sim_q_pool_min, HF|]. intros r.
        apply sim_bind_eq; [apply sim_mark|]. intros _. apply sim_ret. reflexivity.
      + apply sim_if; [apply sim_ret; reflexivity|].
        apply sim_bind_eq; [apply sim_mark|]. intros _.
        apply sim_bind_eq; [apply sim_q_pool_max, HF|]. intros r.
        apply sim_bind_eq; [apply sim_mark|]. intros _. apply sim_ret. reflexivity.
  Qed.

  Lemma qfuel_rel h h' : heaprel h h' -> qfuel h = qfuel h'.
  Proof.
    intros (H & _). unfold qfuel. f_equal. apply Nat2Z.inj. exact (Forall2_zlen _ _ _ H).
  Qed.

  Lemma minSize_rel h h' x y : heaprel h h' -> sxrel x y -> minSize h x = minSize h' y.
  Proof.
    intros Hh Hx. unfold minSize. rewrite <- (qfuel_rel h h' Hh). apply res_rel_eq.
    exact (proj1 (sim_query _ _ _ _ Hx h h' Hh)).
  Qed.

  Lemma maxSize_rel h h' x y : heaprel h h' -> sxrel x y -> maxSize h x = maxSize h' y.
  Proof.
    intros Hh Hx. unfold maxSize. rewrite <- (qfuel_rel h h' Hh). apply res_rel_eq.
    exact (proj1 (sim_query _ _ _ _ Hx h h' Hh)).
  Qed.

  Lemma sizes_of_rel h h' xs ys : heaprel h h' -> Forall2 sxrel xs ys -> sizes_of h xs = sizes_of h' ys.
  Proof.
    intros Hh H. induction H as [|x y xs ys Hx H IH]; cbn [sizes_of]; [reflexivity|].
    rewrite (minSize_rel h h' x y Hh Hx), (maxSize_rel h h' x y Hh Hx), IH. reflexivity.
  Qed.

  (** ** Extraction *)
  Notation simX := (simS Rel eq).

  Lemma map_simX f h h' xs xs' :
    Forall (fun s => forall y, sxrel s y -> simX (extract f h s) (extract f h' y)) xs ->
    Forall2 sxrel xs xs' ->
    Forall2 simX (map (extract f h) xs) (map (extract f h') xs').
  Proof.
    intros HI HR. induction HR as [|a a' l l' Ha HR IH]; cbn [map]; constructor.
    - apply Forall_inv in HI. apply HI; exact Ha.
    - apply IH. exact (Forall_inv_tail HI).
  Qed.

  Lemma sim_extract fuel h h' : heaprel h h' ->
    forall x y, sxrel x y -> simX (extract fuel h x) (extract fuel h' y).
  Proof.
    intros Hh. induction fuel as [|f IHf]; intros x;
      induction x as [mn mx ex|j x IH|o x IH|o x1 x2 IH1 IH2|j xs IH|n v IHn IHv|p|l] using sx_ind';
      intros [mn' mx' ex'|j' x'|o' x'|o' x1' x2'|j' xs'|n' v'|p'|l'] HR; cbn [sxrel] in HR; try tauto;
      unf_extract.
    all: lazymatch goal with
    | IH1 : (forall y, sxrel ?x1 y -> _), IH2 : (forall y, sxrel ?x2 y -> _) |- simS _ _ (bind (lift (sizes_of _ _)) _) _ =>
        destruct HR as (<- & H1 & H2);
        rewrite (sizes_of_rel h h' [x1; x2] [x1'; x2'] Hh (Forall2_cons _ _ H1 (Forall2_cons _ _ H2 (Forall2_nil _))));
        apply sim_bind_eq; [apply sim_lift_eq|]; intros l;
        eapply sim_bind; [apply sim_set_extract|]; intros c c' Hc;
        destruct Hc as [|a a' c c' Ha Hc]; [apply sim_lift; exact I|];
        destruct Hc as [|b b' c c' Hb Hc]; [apply sim_lift; exact I|];
        destruct Hc as [|d d' c c' Hd Hc]; [|apply sim_lift; exact I];
        rewrite (proj1 (res_rel_eq _ _) (proj1 (IH1 _ H1 a a' Ha)));
        rewrite (proj1 (res_rel_eq _ _) (proj1 (IH2 _ H2 b b' Hb)));
        apply sim_bind_eq; [apply sim_lift_eq|]; intros s1;
        apply sim_bind_eq; [apply sim_lift_eq|]; intros s2; apply sim_ret; reflexivity
    | IHn : (forall y, sxrel ?n y -> _), IHv : (forall y, sxrel ?v y -> _) |- _ =>
        destruct HR as (H1 & H2);
        apply sim_bind_eq; [apply IHn; exact H1|intros a];
        apply sim_bind_eq; [apply IHv; exact H2|intros b]; apply sim_ret; reflexivity
    | IH : Forall _ ?xs |- _ =>
        destruct HR as (<- & HR); apply all_Forall2 in HR;
        rewrite (sizes_of_rel h h' _ _ Hh HR);
        apply sim_bind_eq; [apply sim_lift_eq|]; intros l;
        eapply sim_bind; [apply sim_set_extract|]; intros c c' Hc;
        pose proof (map_simX _ h h' xs xs' IH HR) as HF;
        rewrite (sim_stamp_zip _ _ c c' HF Hc);
        apply sim_bind_eq; [apply sim_lift_eq|]; intros r; apply sim_ret; reflexivity
    | |- simS _ _ (bind (lift (minSize _ _)) _) _ =>
        destruct HR as (<- & H1);
        rewrite (minSize_rel h h' _ _ Hh H1), (maxSize_rel h h' _ _ Hh H1);
        apply sim_bind_eq; [apply sim_lift_eq|]; intros mn;
        apply sim_bind_eq; [apply sim_lift_eq|]; intros mx;
        apply sim_bind_eq; [apply sim_ExtractVector, IH; exact H1|]; intros r; apply sim_ret; reflexivity
    | IH : (forall y, sxrel ?x y -> _) |- _ =>
        destruct HR as (<- & H1);
        apply sim_bind_eq; [apply IH; exact H1|]; intros s; apply sim_ret; reflexivity
    | |- simS _ _ ex _ => destruct HR as (_ & _ & HR); exact HR
    | |- simS _ _ (lift Diverge) _ => apply sim_lift; exact I
    | |- _ => idtac
    end.
    - subst p'. pose proof (Forall2_nth _ _ _ p (proj1 Hh)) as Hn.
      destruct (nth_error (pools h) p) as [P|], (nth_error (pools h') p) as [P'|]; try tauto;
        [|apply sim_lift; exact I].
      rewrite (minSize_rel h h' (XPool p) (XPool p) Hh eq_refl).
      apply sim_pool_extract. destruct Hn as (Hm & _ & _). clear - Hm IHf Hh.
      induction Hm as [|a a' l l' Ha Hm IH]; cbn [map]; constructor; [|exact IH].
      destruct a as [a|], a' as [a'|]; try (cbn in Ha; tauto).
      + split; cbn [fst snd]; [|apply IHf; exact Ha].
        rewrite (minSize_rel h h' a a' Hh Ha), (maxSize_rel h h' a a' Hh Ha). reflexivity.
      + split; [reflexivity|]. apply sim_lift. exact I.
    - subst l'. pose proof (Forall2_nth _ _ _ l (proj2 Hh)) as Hn.
      destruct (nth_error (lots h) l) as [P|], (nth_error (lots h') l) as [P'|]; try tauto;
        [|apply sim_lift; exact I].
      destruct Hn as (Hm & Hnum & Hfr). rewrite Hnum, Hfr.
      apply sim_lot_extract. clear - Hm IHf Hh.
      induction Hm as [|a a' l l' Ha Hm IH]; cbn [map]; constructor; [|exact IH].
      split; cbn [fst snd]; [|apply IHf; exact Ha].
      rewrite (minSize_rel h h' a a' Hh Ha), (maxSize_rel h h' a a' Hh Ha). reflexivity.
  Qed.

  Lemma sim_ExtractStr h h' x y : heaprel h h' -> sxrel x y -> simX (ExtractStr h x) (ExtractStr h' y).
  Proof.
    intros Hh Hx b1 b2 HR. unfold ExtractStr. rewrite <- (Rel_size b1 b2 HR).
    apply sim_extract; assumption.
  Qed.

  (** ** The JSON stamp *)
  Lemma json_heap_rel : heaprel json_heap json_heap.
  Proof.
    assert (HS : simX JSONStringExtractStr JSONStringExtractStr).
    { apply sim_bind_eq; [apply sim_DictExtractStr|]. intros s. apply sim_ret. reflexivity. }
    split; [|constructor]. constructor; [|constructor]. split; [|split; reflexivity].
    cbn [json_pool fold_left add_weak new_pool weak_pool map app].
    repeat (apply Forall2_cons; [cbn [optrel sxrel StampJSONInt StampJSONFloat StampJSONString
                                      StampJSONArray StampJSONHash StampJSONHashEl]|]);
      [| | | | |apply Forall2_nil].
    - split; [reflexivity|split; [reflexivity|]]. apply sim_ArithExtractStr.
    - split; [reflexivity|split; [reflexivity|]]. apply sim_ArithExtractStr.
    - split; [reflexivity|split; [reflexivity|]]. exact HS.
    - split; reflexivity.
    - split; [reflexivity|split; [|reflexivity]].
      split; [reflexivity|split; [reflexivity|]]. exact HS.
  Qed.

  Lemma sim_JSON : simX JSONExtractStr JSONExtractStr.
  Proof. apply sim_ExtractStr; [apply json_heap_rel|reflexivity]. Qed.
End SimGraph.
