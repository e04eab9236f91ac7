(** Size queries terminate and restore the recursion marks. *)
From Verif Require Import Base BaseFacts Oracle Galley Stamps StampsEq SimGraph QuerySpec.

Section Query.
  Context {B : Type} `{BlobOps B}.
  Implicit Types (h : heap B) (x y : sx B).

  (** Outcome Ok with the heap related by R, or undefined behaviour; no divergence. *)
  Definition good_q {A} (R : heap B -> heap B -> Prop) (q : Q B A) h : Prop :=
    match q h with (Ok _, h') => R h h' | (UB, _) => True | _ => False end.

  Lemma good_ret {A} (R : heap B -> heap B -> Prop) (a : A) h : R h h -> good_q R (ret a) h.
  Proof. intros H1. exact H1. Qed.

  Lemma good_lift {A} (R : heap B -> heap B -> Prop) (r : res A) h : R h h -> (exists a, r = Ok a) \/ r = UB -> good_q R (lift r) h.
  Proof. intros H1 [[a ->]| ->]; [exact H1|exact I]. Qed.

  Lemma int_op_cases z : (exists a, int_op z = Ok a) \/ int_op z = UB.
  Proof. unfold int_op. destruct (in_i32 z); eauto. Qed.

  Lemma good_bind {A C} (R : heap B -> heap B -> Prop) (q : Q B A) (k : A -> Q B C) h :
    (forall a b c, R a b -> R b c -> R a c) ->
    good_q R q h -> (forall a h', q h = (Ok a, h') -> R h h' -> good_q R (k a) h') -> good_q R (bind q k) h.
  Proof.
    intros T Hq Hk. unfold good_q in *. unfold bind. destruct (q h) as [[a| | | |] h'] eqn:E; try exact Hq.
    specialize (Hk a h' eq_refl Hq). destruct (k a h') as [[c| | | |] h''] eqn:E2; try exact Hk.
    exact (T _ _ _ Hq Hk).
  Qed.

  (** Pools not marked. *)
  Definition unmarked (l : list (pool B)) : nat := length (filter (fun P => negb (is_in_recursion P)) l).
  Definition free h : nat := unmarked (pools h).

  Lemma upd_same {A} (l : list A) n v : nth_error l n = Some v -> upd l n v = l.
  Proof.
    revert n. induction l as [|x l IH]; intros [|n] E; try discriminate; cbn in *; [congruence|].
    f_equal. apply IH. exact E.
  Qed.

  Lemma upd_upd {A} (l : list A) n v w : upd (upd l n v) n w = upd l n w.
  Proof. revert n. induction l as [|x l IH]; intros [|n]; cbn; try reflexivity. f_equal. apply IH. Qed.

  Lemma nth_upd {A} (l : list A) n v w : nth_error l n = Some w -> nth_error (upd l n v) n = Some v.
  Proof. revert n. induction l as [|x l IH]; intros [|n] E; try discriminate; cbn in *; auto. Qed.

  Lemma unmarked_upd l p P P' : nth_error l p = Some P -> is_in_recursion P = false ->
    is_in_recursion P' = true -> unmarked l = S (unmarked (upd l p P')).
  Proof.
    unfold unmarked. revert p. induction l as [|x l IH]; intros [|p] E F G; try discriminate; cbn in *.
    - injection E as ->. rewrite F, G. reflexivity.
    - specialize (IH p E F G). destruct (is_in_recursion x); cbn [negb length]; [exact IH|].
      cbn [length]. rewrite IH. reflexivity.
  Qed.

  Lemma unmarked_length l : (unmarked l <= length l)%nat.
  Proof. unfold unmarked. induction l as [|x l IH]; cbn; [lia|]. destruct (is_in_recursion x); cbn; lia. Qed.

  Lemma free_fuel h : (free h < qfuel h)%nat.
  Proof. unfold free, qfuel. pose proof (unmarked_length (pools h)). lia. Qed.

  (** ** minSize and maxSize *)
  Notation goodE q h := (good_q eq q h).

  Lemma eq_t : forall a b c : heap B, a = b -> b = c -> a = c. Proof. congruence. Qed.

  Ltac gbind := apply good_bind; [exact eq_t| |intros ? ? ? <-].

  Lemma good_q_fixed a b h : goodE a h -> goodE b h -> goodE (q_fixed a b) h.
  Proof. intros Ha Hb. unfold q_fixed. gbind; [exact Ha|]. gbind; [exact Hb|]. apply good_ret. reflexivity. Qed.

  Lemma good_q_unbounded b h : goodE b h -> goodE (q_unbounded b) h.
  Proof. intros Hb. unfold q_unbounded. gbind; [exact Hb|]. apply good_ret. reflexivity. Qed.

  Lemma good_q_variated a b h : goodE a h -> goodE b h -> goodE (q_variated a b) h.
  Proof.
    intros Ha Hb. unfold q_variated. gbind; [apply good_q_fixed; assumption|].
    destruct a0; [apply good_ret; reflexivity|]. gbind; [apply good_q_unbounded; assumption|].
    apply good_ret; reflexivity.
  Qed.

  Lemma good_q_vector_min a b h : goodE a h -> goodE b h -> goodE (q_vector_min a b) h.
  Proof.
    intros Ha Hb. unfold q_vector_min. gbind; [apply good_q_fixed; assumption|].
    destruct a0; [exact Ha|]. gbind; [apply good_q_unbounded; assumption|].
    destruct a0; (gbind; [exact Ha|]; apply good_ret; reflexivity).
  Qed.

  Lemma good_q_set_totals l h : Forall (fun p => goodE (fst p) h /\ goodE (snd p) h) l ->
    forall t, goodE (q_set_totals l t) h.
  Proof.
    induction 1 as [|[a b] l [Ha Hb] Hl IH]; intros t; cbn [q_set_totals]; [apply good_ret; reflexivity|].
    cbn [fst snd] in *. gbind; [exact Ha|]. gbind; [apply good_lift; [reflexivity|apply int_op_cases]|].
    gbind; [apply good_q_variated; assumption|]. gbind; [apply good_q_unbounded; assumption|]. apply IH.
  Qed.

  Lemma good_q_set_min l h : Forall (fun p => goodE (fst p) h /\ goodE (snd p) h) l -> goodE (q_set_min l) h.
  Proof.
    intros Hl. unfold q_set_min. gbind; [apply good_q_set_totals; exact Hl|]. apply good_ret. reflexivity.
  Qed.

  Lemma good_q_set_max l h : Forall (fun p => goodE (fst p) h /\ goodE (snd p) h) l ->
    forall r, goodE (q_set_max l r) h.
  Proof.
    induction 1 as [|[a b] l [Ha Hb] Hl IH]; intros t; cbn [q_set_max]; [apply good_ret; reflexivity|].
    cbn [fst snd] in *. gbind; [exact Hb|]. gbind; [apply good_lift; [reflexivity|apply int_op_cases]|].
    gbind; [apply good_q_variated; assumption|]. cbv zeta.
    gbind; [apply good_q_unbounded; assumption|]. destruct a3; [apply good_ret; reflexivity|]. apply IH.
  Qed.

  Definition good_opt {A} (R : heap B -> heap B -> Prop) h (o : option (Q B A)) : Prop :=
    match o with Some q => good_q R q h | None => True end.

  Lemma good_q_pool_min l h : Forall (good_opt eq h) l -> forall r, goodE (q_pool_min l r) h.
  Proof.
    induction 1 as [|[q|] l Hq Hl IH]; intros r; cbn [q_pool_min]; [apply good_ret; reflexivity| |exact I].
    gbind; [exact Hq|]. apply IH.
  Qed.

  Lemma good_q_pool_max l h : Forall (good_opt eq h) l -> forall r, goodE (q_pool_max l r) h.
  Proof.
    induction 1 as [|[q|] l Hq Hl IH]; intros r; cbn [q_pool_max]; [apply good_ret; reflexivity| |exact I].
    gbind; [exact Hq|]. destruct (a =? -1); [apply good_ret; reflexivity|]. apply IH.
  Qed.

  (** Marking, running something that keeps the heap, unmarking: the heap is kept. *)
  Lemma good_marked {A C} (q : Q B A) (k : A -> C) p P h :
    nth_error (pools h) p = Some P -> is_in_recursion P = false ->
    goodE q (set_pool h p (mkPool (weak_pool P) (is_recursive P) true)) ->
    goodE (_ <- mark_in_recursion p true ;; r <- q ;; _ <- mark_in_recursion p false ;; ret (k r)) h.
  Proof.
    intros E F Hq. unfold good_q, bind. unfold mark_in_recursion at 1. rewrite E.
    unfold good_q in Hq. set (h1 := set_pool h p _) in *.
    destruct (q h1) as [[a| | | |] h2]; try exact Hq. subst h2.
    unfold mark_in_recursion. subst h1. unfold set_pool. cbn [pools lots].
    rewrite (nth_upd _ _ _ _ E). cbn [ret weak_pool is_recursive]. rewrite upd_upd.
    destruct h as [ps ls]. cbn [pools lots] in *. f_equal. symmetry. apply upd_same. rewrite E.
    destruct P; cbn in *. congruence.
  Qed.

  Lemma query_good f : forall h q x, (free h < f)%nat -> goodE (query f q x) h.
  Proof.
    induction f as [|f IHf]; intros h q x Hf; [lia|].
    revert q. induction x as [mn mx ex|j x IH|o x IH|o x y IHx IHy|j xs IH|n v IHn IHv|p|l] using sx_ind';
      intros q; unf_query.
    - apply good_ret. reflexivity.
    - destruct q; [apply good_q_vector_min; apply IH|apply good_ret; reflexivity].
    - destruct q; [apply IH|apply good_ret; reflexivity].
    - destruct q; [|apply good_ret; reflexivity].
      apply good_q_set_min. repeat constructor; cbn; auto.
    - cbv zeta. assert (F : Forall (fun p => goodE (fst p) h /\ goodE (snd p) h)
                   (map (fun y => (query (S f) true y, query (S f) false y)) xs)).
      { rewrite Forall_map. eapply Forall_impl; [|exact IH]. cbn. auto. }
      destruct q; [apply good_q_set_min|apply good_q_set_max]; exact F.
    - destruct q; [|apply good_ret; reflexivity]. gbind; [apply IHn|]. gbind; [apply IHv|].
      apply good_lift; [reflexivity|apply int_op_cases].
    - rewrite query_pool_S. unfold good_q, bind at 1. unfold get_pool.
      destruct (nth_error (pools h) p) as [P|] eqn:E; [|exact I].
      change (goodE (if q then
         if is_in_recursion P then ret (int_max / 2)
         else
         _ <- mark_in_recursion p true ;;
         r <- q_pool_min (map (option_map (query f true)) (weak_pool P)) (int_max / 2) ;;
         _ <- mark_in_recursion p false ;;
         ret (if r =? int_max / 2 then int_max / 2 else i32 (r + ORACLE_SIZE))
       else
         if is_recursive P || is_in_recursion P then ret (-1)
         else
         _ <- mark_in_recursion p true ;;
         r <- q_pool_max (map (option_map (query f false)) (weak_pool P)) 0 ;;
         _ <- mark_in_recursion p false ;;
         ret (match r with None => -1 | Some r => i32 (r + ORACLE_SIZE) end)) h).
      assert (M : is_in_recursion P = false -> forall qq,
        Forall (good_opt eq (set_pool h p (mkPool (weak_pool P) (is_recursive P) true)))
          (map (option_map (query f qq)) (weak_pool P))).
      { intros F qq. rewrite Forall_map, Forall_forall. intros [y|] _; cbn; [|exact I].
        apply IHf. unfold free, set_pool. cbn [pools].
        unfold free in Hf. rewrite (unmarked_upd (pools h) p P (mkPool (weak_pool P) (is_recursive P) true) E F eq_refl) in Hf.
        lia. }
      destruct q.
      + destruct (is_in_recursion P) eqn:F; [apply good_ret; reflexivity|].
        apply (good_marked _ (fun r => if r =? int_max / 2 then int_max / 2 else i32 (r + ORACLE_SIZE)) p P h E F).
        apply good_q_pool_min. apply M. reflexivity.
      + destruct (is_recursive P || is_in_recursion P) eqn:F0; [apply good_ret; reflexivity|].
        apply orb_false_elim in F0 as [_ F].
        apply (good_marked _ (fun r => match r with None => -1 | Some r => i32 (r + ORACLE_SIZE) end) p P h E F).
        apply good_q_pool_max. apply M. exact F.
    - gbind.
      + unfold good_q, get_lot. destruct (nth_error (lots h) l); [reflexivity|exact I].
      + apply good_lift; [reflexivity|]. destruct q; [apply int_op_cases|].
        unfold lotMaxSize. destruct (stored_max (lot_nums a) =? -1); [left; eauto|apply int_op_cases].
  Qed.

  (** ** The fuel does not matter *)
  Lemma agree_bind {A C} (q1 q2 : Q B A) (k1 k2 : A -> Q B C) h :
    q1 h = q2 h -> goodE q1 h -> (forall a, k1 a h = k2 a h) -> bind q1 k1 h = bind q2 k2 h.
  Proof.
    intros E G K. unfold bind. rewrite <- E. unfold good_q in G.
    destruct (q1 h) as [[a| | | |] h']; try reflexivity. subst h'. apply K.
  Qed.

  Definition agree2 h (p1 p2 : Q B Z * Q B Z) : Prop :=
    (fst p1 h = fst p2 h /\ goodE (fst p1) h) /\ (snd p1 h = snd p2 h /\ goodE (snd p1) h).

  Lemma agree_q_fixed a1 a2 b1 b2 h : a1 h = a2 h -> goodE a1 h -> b1 h = b2 h -> goodE b1 h ->
    q_fixed a1 b1 h = q_fixed a2 b2 h.
  Proof. intros Ea Ga Eb Gb. unfold q_fixed. do 2 (apply agree_bind; [assumption|assumption|intros ?]). reflexivity. Qed.

  Lemma agree_q_unbounded b1 b2 h : b1 h = b2 h -> goodE b1 h -> q_unbounded b1 h = q_unbounded b2 h.
  Proof. intros Eb Gb. unfold q_unbounded. apply agree_bind; [assumption|assumption|reflexivity]. Qed.

  Lemma agree_q_variated a1 a2 b1 b2 h : a1 h = a2 h -> goodE a1 h -> b1 h = b2 h -> goodE b1 h ->
    q_variated a1 b1 h = q_variated a2 b2 h.
  Proof.
    intros Ea Ga Eb Gb. unfold q_variated.
    apply agree_bind; [apply agree_q_fixed; assumption|apply good_q_fixed; assumption|].
    intros [|]; [reflexivity|].
    apply agree_bind; [apply agree_q_unbounded; assumption|apply good_q_unbounded; assumption|reflexivity].
  Qed.

  Lemma agree_q_vector_min a1 a2 b1 b2 h : a1 h = a2 h -> goodE a1 h -> b1 h = b2 h -> goodE b1 h ->
    q_vector_min a1 b1 h = q_vector_min a2 b2 h.
  Proof.
    intros Ea Ga Eb Gb. unfold q_vector_min.
    apply agree_bind; [apply agree_q_fixed; assumption|apply good_q_fixed; assumption|].
    intros [|]; [assumption|].
    apply agree_bind; [apply agree_q_unbounded; assumption|apply good_q_unbounded; assumption|].
    intros [|]; (apply agree_bind; [assumption|assumption|reflexivity]).
  Qed.

  Lemma agree_q_set_totals l1 l2 h : Forall2 (agree2 h) l1 l2 -> forall t, q_set_totals l1 t h = q_set_totals l2 t h.
  Proof.
    induction 1 as [|[a1 b1] [a2 b2] l1 l2 [[Ea Ga] [Eb Gb]] Hl IH]; intros t; cbn [q_set_totals]; [reflexivity|].
    cbn [fst snd] in *. apply agree_bind; [assumption|assumption|intros m].
    apply agree_bind; [reflexivity|apply good_lift; [reflexivity|apply int_op_cases]|intros f].
    apply agree_bind; [apply agree_q_variated; assumption|apply good_q_variated; assumption|intros v].
    apply agree_bind; [apply agree_q_unbounded; assumption|apply good_q_unbounded; assumption|intros u].
    apply IH.
  Qed.

  Lemma agree2_good h l1 l2 : Forall2 (agree2 h) l1 l2 -> Forall (fun p => goodE (fst p) h /\ goodE (snd p) h) l1.
  Proof. induction 1 as [|p1 p2 l1 l2 [[_ G1] [_ G2]] _ IH]; constructor; auto. Qed.

  Lemma agree_q_set_min l1 l2 h : Forall2 (agree2 h) l1 l2 -> q_set_min l1 h = q_set_min l2 h.
  Proof.
    intros Hl. unfold q_set_min.
    apply agree_bind; [apply agree_q_set_totals; exact Hl|apply good_q_set_totals, (agree2_good _ _ _ Hl)|reflexivity].
  Qed.

  Lemma agree_q_set_max l1 l2 h : Forall2 (agree2 h) l1 l2 -> forall r, q_set_max l1 r h = q_set_max l2 r h.
  Proof.
    induction 1 as [|[a1 b1] [a2 b2] l1 l2 [[Ea Ga] [Eb Gb]] Hl IH]; intros r; cbn [q_set_max]; [reflexivity|].
    cbn [fst snd] in *. apply agree_bind; [assumption|assumption|intros m].
    apply agree_bind; [reflexivity|apply good_lift; [reflexivity|apply int_op_cases]|intros f].
    apply agree_bind; [apply agree_q_variated; assumption|apply good_q_variated; assumption|intros v].
    cbv zeta.
    apply agree_bind; [apply agree_q_unbounded; assumption|apply good_q_unbounded; assumption|intros [|]; [reflexivity|]].
    apply IH.
  Qed.

  Definition agree_opt h (o1 o2 : option (Q B Z)) : Prop :=
    match o1, o2 with
    | Some q1, Some q2 => q1 h = q2 h /\ goodE q1 h
    | None, None => True
    | _, _ => False
    end.

  Lemma agree_q_pool_min l1 l2 h : Forall2 (agree_opt h) l1 l2 -> forall r, q_pool_min l1 r h = q_pool_min l2 r h.
  Proof.
    induction 1 as [|[q1|] [q2|] l1 l2 Hq Hl IH]; intros r; cbn [q_pool_min]; try reflexivity; try contradiction.
    destruct Hq. apply agree_bind; [assumption|assumption|intros c; apply IH].
  Qed.

  Lemma agree_q_pool_max l1 l2 h : Forall2 (agree_opt h) l1 l2 -> forall r, q_pool_max l1 r h = q_pool_max l2 r h.
  Proof.
    induction 1 as [|[q1|] [q2|] l1 l2 Hq Hl IH]; intros r; cbn [q_pool_max]; try reflexivity; try contradiction.
    destruct Hq. apply agree_bind; [assumption|assumption|intros c]. destruct (c =? -1); [reflexivity|apply IH].
  Qed.

  Lemma Forall2_map2 {A A1 A2} (R : A1 -> A2 -> Prop) (f1 : A -> A1) (f2 : A -> A2) (l : list A) :
    (forall x : A, In x l -> R (f1 x) (f2 x)) -> Forall2 R (map f1 l) (map f2 l).
  Proof.
    induction l as [|x l IH]; intros H1; cbn [map]; constructor; [apply H1; left; reflexivity|].
    apply IH. intros y Hy. apply H1. right. exact Hy.
  Qed.

  Lemma mark_step {C} p P h (k : unit -> Q B C) : nth_error (pools h) p = Some P ->
    bind (mark_in_recursion p true) k h = k tt (set_pool h p (mkPool (weak_pool P) (is_recursive P) true)).
  Proof. intros E. unfold bind, mark_in_recursion. rewrite E. reflexivity. Qed.

  Lemma get_step {C} p h (k : pool B -> Q B C) :
    bind (get_pool p) k h = match nth_error (pools h) p with Some P => k P h | None => (UB, h) end.
  Proof. unfold bind, get_pool. destruct (nth_error (pools h) p); reflexivity. Qed.

  Lemma query_fuel f1 : forall f2 h q x, (free h < f1)%nat -> (free h < f2)%nat -> query f1 q x h = query f2 q x h.
  Proof.
    induction f1 as [|f1 IHf]; intros f2 h q x H1 H2; [lia|]. destruct f2 as [|f2]; [lia|].
    assert (G : forall q x, goodE (query (S f1) q x) h) by (intros; apply query_good; exact H1).
    revert q. induction x as [mn mx ex|j x IH|o x IH|o x y IHx IHy|j xs IH|n v IHn IHv|p|l] using sx_ind';
      intros q; unf_query.
    - reflexivity.
    - destruct q; [apply agree_q_vector_min; auto|reflexivity].
    - destruct q; [apply IH|reflexivity].
    - destruct q; [|reflexivity]. apply agree_q_set_min.
      constructor; [|constructor; [|constructor]]; repeat split; cbn; auto.
    - cbv zeta. assert (F : Forall2 (agree2 h)
                   (map (fun y => (query (S f1) true y, query (S f1) false y)) xs)
                   (map (fun y => (query (S f2) true y, query (S f2) false y)) xs)).
      { apply Forall2_map2. intros y Hy. rewrite Forall_forall in IH. specialize (IH y Hy).
        repeat split; cbn; auto. }
      destruct q; [apply agree_q_set_min|apply agree_q_set_max]; exact F.
    - destruct q; [|reflexivity]. apply agree_bind; [apply IHn|apply G|intros a].
      apply agree_bind; [apply IHv|apply G|reflexivity].
    - rewrite !query_pool_S, !get_step.
      destruct (nth_error (pools h) p) as [P|] eqn:E; [|reflexivity].
      assert (M : is_in_recursion P = false -> forall qq,
        Forall2 (agree_opt (set_pool h p (mkPool (weak_pool P) (is_recursive P) true)))
          (map (option_map (query f1 qq)) (weak_pool P)) (map (option_map (query f2 qq)) (weak_pool P))).
      { intros F qq. apply Forall2_map2. intros [y|] _; cbn; [|exact I].
        assert (Fr : forall n, (free h < S n)%nat ->
                     (free (set_pool h p (mkPool (weak_pool P) (is_recursive P) true)) < n)%nat).
        { intros n Hn. unfold free, set_pool in *. cbn [pools].
          rewrite (unmarked_upd (pools h) p P (mkPool (weak_pool P) (is_recursive P) true) E F eq_refl) in Hn. lia. }
        split; [apply IHf; apply Fr; assumption|apply query_good; apply Fr; assumption]. }
      assert (MG : is_in_recursion P = false -> forall qq,
        Forall (good_opt eq (set_pool h p (mkPool (weak_pool P) (is_recursive P) true)))
          (map (option_map (query f1 qq)) (weak_pool P))).
      { intros F qq. specialize (M F qq). induction M as [|[q1|] [q2|] l1 l2 Hq Hl IH]; constructor; cbn in *; try tauto. }
      destruct q.
      + destruct (is_in_recursion P) eqn:F; [reflexivity|]. rewrite !(mark_step p P h _ E).
        apply agree_bind; [apply agree_q_pool_min|apply good_q_pool_min|reflexivity]; auto.
      + destruct (is_recursive P || is_in_recursion P) eqn:F0; [reflexivity|].
        apply orb_false_elim in F0 as [_ F]. rewrite !(mark_step p P h _ E).
        apply agree_bind; [apply agree_q_pool_max|apply good_q_pool_max|reflexivity]; auto.
    - reflexivity.
  Qed.

  (** ** isRecursive *)
  Lemma sbc_refl (P : pool B) : same_but_cache P P. Proof. repeat split; auto. Qed.
  Lemma kept_refl h : heap_kept h h.
  Proof. split; [|reflexivity]. induction (pools h); constructor; [apply sbc_refl|assumption]. Qed.
  Lemma kept_trans (a b c : heap B) : heap_kept a b -> heap_kept b c -> heap_kept a c.
  Proof.
    intros [H1 H2] [H3 H4]. split; [|congruence]. clear - H1 H3. revert H3. generalize (pools c).
    induction H1 as [|P P' l l' (A1 & A2 & A3) _ IH]; intros m H3; inversion H3 as [|? P'' ? m' (B1 & B2 & B3) H5]; subst;
      constructor; [|apply IH; assumption]. split; [congruence|]. split; [congruence|auto].
  Qed.
  Lemma kept_free (a b : heap B) : heap_kept a b -> free b = free a.
  Proof.
    intros [H1 _]. unfold free, unmarked. induction H1 as [|P P' l l' (A1 & A2 & A3) _ IH]; [reflexivity|].
    cbn. rewrite A2. destruct (is_in_recursion P); cbn; [exact IH|f_equal; exact IH].
  Qed.
  Lemma kept_nth (a b : heap B) p P : heap_kept a b -> nth_error (pools a) p = Some P ->
    exists P', nth_error (pools b) p = Some P' /\ same_but_cache P P'.
  Proof.
    intros [H1 _]. revert p. induction H1 as [|x x' l l' A _ IH]; intros [|p] E; try discriminate; cbn in *.
    - injection E as ->. eauto.
    - apply IH. exact E.
  Qed.
  Lemma kept_upd (l l' : list (pool B)) p P P' Q' : Forall2 same_but_cache l l' -> nth_error l p = Some P ->
    same_but_cache P' Q' -> Forall2 same_but_cache (upd l p P') (upd l' p Q').
  Proof.
    intros H1. revert p. induction H1 as [|x x' l l' A H1 IH]; intros [|p] E S; try discriminate; cbn in *.
    - constructor; assumption.
    - constructor; [assumption|]. apply IH; assumption.
  Qed.

  Ltac kbind := apply good_bind; [exact kept_trans| |].

  Lemma good_any_aux f :
    (forall h x, (free h < f)%nat -> good_q heap_kept (isRecursive f x) h) ->
    forall l h2, (free h2 < f)%nat -> good_q heap_kept (q_any (map (option_map (isRecursive f)) l)) h2.
  Proof.
    intros IHf. induction l as [|[y|] l IH]; intros h2 H2; cbn [map option_map q_any].
    - apply good_ret, kept_refl.
    - kbind; [apply IHf; exact H2|]. intros r h3 _ K. destruct r; [apply good_ret, kept_refl|].
      apply IH. rewrite (kept_free _ _ K). exact H2.
    - exact I.
  Qed.

  Lemma isRecursive_good f : forall h x, (free h < f)%nat -> good_q heap_kept (isRecursive f x) h.
  Proof.
    induction f as [|f IHf]; intros h x Hf; [lia|].
    destruct x as [mn mx ex|j x|o x|o x y|j xs|n v|p|l]; cbn [isRecursive];
      try (apply good_ret; apply kept_refl).
    unfold good_q, bind at 1. unfold get_pool.
    destruct (nth_error (pools h) p) as [P|] eqn:E; [|exact I].
    destruct (is_recursive P || is_in_recursion P) eqn:F0; [apply kept_refl|].
    apply orb_false_elim in F0 as [F1 F].
    set (P1 := mkPool (weak_pool P) (is_recursive P) true).
    set (h1 := set_pool h p P1).
    assert (Fh1 : (free h1 < f)%nat).
    { unfold free, h1, set_pool. cbn [pools]. unfold free in Hf.
      rewrite (unmarked_upd (pools h) p P P1 E F eq_refl) in Hf. lia. }
    assert (G := good_any_aux f IHf).
    specialize (G (weak_pool P) h1 Fh1).
    unfold bind. unfold mark_in_recursion at 1. rewrite E. fold P1 h1.
    unfold good_q in G. destruct (q_any _ h1) as [[r| | | |] h2]; try exact G.
    assert (N1 : nth_error (pools h1) p = Some P1) by (unfold h1, set_pool; cbn [pools]; exact (nth_upd _ _ _ _ E)).
    destruct (kept_nth _ _ p P1 G N1) as (P2 & N2 & S2).
    assert (Fin : forall P3, same_but_cache P P3 -> heap_kept h (set_pool h2 p P3)).
    { intros P3 S3. destruct G as [G1 G2]. split; [|unfold set_pool; cbn [lots]; rewrite G2; reflexivity].
      unfold set_pool. cbn [pools].
      rewrite <- (upd_same (pools h) p P E) at 1.
      replace (upd (pools h) p P) with (upd (pools h1) p P) by (unfold h1, set_pool; cbn [pools]; apply upd_upd).
      apply (kept_upd _ _ _ P1); assumption. }
    destruct S2 as (S21 & S22 & S23). cbn in S21, S22, S23.
    destruct r.
    - unfold mark_recursive. rewrite N2. unfold mark_in_recursion, set_pool. cbn [pools lots].
      rewrite (nth_upd _ _ _ _ N2). cbn [ret weak_pool is_recursive]. rewrite upd_upd.
      apply (Fin (mkPool (weak_pool P2) true false)). repeat split; cbn; congruence.
    - cbn [ret]. unfold mark_in_recursion. rewrite N2. cbn [ret].
      apply Fin. repeat split; cbn; auto; congruence.
  Qed.

  Lemma good_any f l h : (free h < f)%nat -> good_q heap_kept (q_any (map (option_map (isRecursive f)) l)) h.
  Proof. apply good_any_aux. intros h0 x. apply isRecursive_good. Qed.
End Query.
