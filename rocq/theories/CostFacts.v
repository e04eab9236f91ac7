(** Counted size queries answer as the plain ones do; bounds on the counts. *)
From Verif Require Import Base BaseFacts Oracle Galley Stamps StampsEq SimGraph QuerySpec QueryFacts Cost CostSpec.

Section Facts.
  Context {B : Type}.
  Implicit Types (h : heap B) (x y : sx B).

  (** [c] does what [q] does on [h], at a cost of at most [hi], and at least [lo] when it answers. *)
  Definition within {A} (c : C B A) (q : Q B A) h (lo hi : Z) : Prop :=
    exists n, (forall z, c (h, z) = (fst (q h), (snd (q h), z + n))) /\ 0 <= n <= hi
      /\ forall a, fst (q h) = Ok a -> snd (q h) = h /\ lo <= n.

  Lemma within_weaken {A} (c : C B A) q h lo hi lo' hi' :
    within c q h lo hi -> lo' <= lo -> hi <= hi' -> within c q h lo' hi'.
  Proof.
    intros (n & E & Hn & Ho) H1 H2. exists n. split; [exact E|]. split; [lia|].
    intros a Ea. specialize (Ho a Ea). split; [tauto|lia].
  Qed.

  Lemma within_ret {A} (a : A) h : within (ret a) (ret a) h 0 0.
  Proof.
    exists 0. split; [intros z; cbn; rewrite Z.add_0_r; reflexivity|]. split; [lia|].
    intros b _. split; [reflexivity|lia].
  Qed.

  Lemma within_lift {A} (r : res A) h : within (lift r) (lift r) h 0 0.
  Proof.
    exists 0. split; [intros z; cbn; rewrite Z.add_0_r; reflexivity|]. split; [lia|].
    intros b _. split; [reflexivity|lia].
  Qed.

  Lemma within_bind {A D} (c : C B A) (q : Q B A) (k : A -> C B D) (k' : A -> Q B D) h lo1 hi1 lo2 hi2 :
    0 <= hi2 -> within c q h lo1 hi1 -> (forall a, within (k a) (k' a) h lo2 hi2) ->
    within (bind c k) (bind q k') h (lo1 + lo2) (hi1 + hi2).
  Proof.
    intros H0 (n & E & Hn & Ho) Hk. destruct (fst (q h)) as [a| | | |] eqn:Eq.
    1: { destruct (Ho a eq_refl) as [Hs Hl]. destruct (Hk a) as (m & Em & Hm & Hmo).
      exists (n + m). unfold bind. rewrite (surjective_pairing (q h)), Eq, Hs. split.
      - intros z. rewrite E, Hs. rewrite Em, Z.add_assoc. reflexivity.
      - split; [lia|]. intros b Eb. specialize (Hmo b Eb). split; [tauto|lia]. }
    all: exists n; unfold bind; rewrite (surjective_pairing (q h)), Eq; (split; [intros z; rewrite E; reflexivity|]);
      split; [lia|]; cbn; discriminate.
  Qed.

  Lemma within_if {A} (b : bool) (c1 c2 : C B A) q1 q2 h lo hi :
    within c1 q1 h lo hi -> within c2 q2 h lo hi ->
    within (if b then c1 else c2) (if b then q1 else q2) h lo hi.
  Proof. destruct b; auto. Qed.

  Ltac wbind := eapply within_bind; [ | |intros ?].

  Section Two.
    Context (cm cM : C B Z) (qm qM : Q B Z) (h : heap B) (l u U : Z).
    Context (H0 : 0 <= u) (H1 : 0 <= U) (Hm : within cm qm h l u) (HM : within cM qM h 0 U).

    Lemma within_q_fixed : within (q_fixed cm cM) (q_fixed qm qM) h l (u + U).
    Proof.
      eapply within_weaken; [|apply Z.le_refl|apply Z.le_refl].
      replace l with (l + 0) by lia. wbind; [exact H1|exact Hm|].
      replace 0 with (0 + 0) by lia. replace U with (U + 0) by lia. wbind; [lia|exact HM|apply within_ret].
    Qed.

    Lemma within_q_unbounded : within (q_unbounded cM) (q_unbounded qM) h 0 U.
    Proof.
      replace 0 with (0 + 0) by lia. replace U with (U + 0) by lia. wbind; [lia|exact HM|apply within_ret].
    Qed.

    Lemma within_q_variated : within (q_variated cm cM) (q_variated qm qM) h l (u + 2 * U).
    Proof.
      replace l with (l + 0) by lia. replace (u + 2 * U) with (u + U + U) by lia.
      wbind; [lia|exact within_q_fixed|]. apply within_if.
      - eapply within_weaken; [apply within_ret|lia|lia].
      - replace 0 with (0 + 0) by lia. replace U with (U + 0) by lia.
        wbind; [lia|exact within_q_unbounded|apply within_ret].
    Qed.

    Lemma within_q_vector_min :
      within (q_vector_min cm cM) (q_vector_min qm qM) h (2 * l) (2 * u + 2 * U).
    Proof.
      replace (2 * l) with (l + l) by lia.
      replace (2 * u + 2 * U) with (u + U + (U + u)) by lia.
      wbind; [lia|exact within_q_fixed|]. apply within_if.
      - eapply within_weaken; [exact Hm|lia|lia].
      - replace l with (0 + l) by lia. wbind; [lia|exact within_q_unbounded|].
        apply within_if; (replace l with (l + 0) by lia; replace u with (u + 0) by lia;
          wbind; [lia|exact Hm|apply within_ret]).
    Qed.
  End Two.

  (** Members of a set: both queries with their bounds. *)
  Definition pairs h (l : list (C B Z * C B Z)) (l' : list (Q B Z * Q B Z)) (b : list (Z * Z * Z)) : Prop :=
    Forall2 (fun c qb => within (fst c) (fst (fst qb)) h (fst (fst (snd qb))) (snd (fst (snd qb)))
                         /\ within (snd c) (snd (fst qb)) h 0 (snd (snd qb))
                         /\ 0 <= fst (fst (snd qb)) /\ 0 <= snd (fst (snd qb)) /\ 0 <= snd (snd qb)) l (combine l' b)
    /\ length l' = length b.

  Definition sum (l : list Z) : Z := fold_right Z.add 0 l.

  Lemma within_q_set_totals h l : forall l' b, pairs h l l' b -> forall t,
    within (q_set_totals l t) (q_set_totals l' t) h (sum (map (fun b => 2 * fst (fst b)) b))
      (sum (map (fun b => 2 * snd (fst b) + 3 * snd b) b))
    /\ 0 <= sum (map (fun b => 2 * snd (fst b) + 3 * snd b) b).
  Proof.
    induction l as [|[cm cM] l IH]; intros l' b [F L] t.
    - destruct l' as [|q' l']; [|destruct b as [|b0 b]; [discriminate L|inversion F]].
      destruct b; [|discriminate L]. split; [apply within_ret|cbn; lia].
    - destruct l' as [|[qm qM] l']; [inversion F|]. destruct b as [|[[lo u] U] b]; [discriminate L|].
      cbn [combine] in F. inversion F as [|c0 q0 r0 s0 (Hm & HM & Hl & Hu & HU) F' E1 E2]. subst.
      cbn [fst snd] in Hm, HM, Hl, Hu, HU. cbn [length] in L. injection L as L.
      assert (P : pairs h l l' b) by (split; [exact F'|exact L]).
      cbn [q_set_totals map sum fold_right fst snd]. fold (sum (map (fun b : Z * Z * Z => 2 * fst (fst b)) b)).
      fold (sum (map (fun b : Z * Z * Z => 2 * snd (fst b) + 3 * snd b) b)).
      destruct (IH l' b P t) as [_ Hp]. split; [|lia].
      set (S1 := sum (map (fun b : Z * Z * Z => 2 * fst (fst b)) b)) in *. set (S2 := sum (map (fun b : Z * Z * Z => 2 * snd (fst b) + 3 * snd b) b)) in *.
      replace (2 * lo + S1) with (lo + (0 + (lo + (0 + S1)))) by lia.
      replace (2 * u + 3 * U + S2) with (u + (0 + (u + 2 * U + (U + S2)))) by lia.
      wbind; [lia|exact Hm|]. wbind; [lia|apply within_lift|].
      wbind; [lia|apply within_q_variated; assumption|].
      wbind; [lia|apply within_q_unbounded; assumption|]. apply IH. exact P.
  Qed.

  Lemma within_q_set_min h l l' b : pairs h l l' b ->
    within (q_set_min l) (q_set_min l') h (sum (map (fun b => 2 * fst (fst b)) b))
      (sum (map (fun b => 2 * snd (fst b) + 3 * snd b) b)).
  Proof.
    intros P. unfold q_set_min. rewrite <- (Z.add_0_r (sum (map (fun b => 2 * fst (fst b)) b))).
    rewrite <- (Z.add_0_r (sum (map (fun b => 2 * snd (fst b) + 3 * snd b) b))).
    wbind; [lia|apply (within_q_set_totals h l l' b P)|]. apply within_ret.
  Qed.

  Lemma within_q_set_max h l : forall l' b, pairs h l l' b -> forall r,
    within (q_set_max l r) (q_set_max l' r) h 0
      (sum (map (fun b => snd (fst b) + 4 * snd b) b))
    /\ 0 <= sum (map (fun b => snd (fst b) + 4 * snd b) b).
  Proof.
    induction l as [|[cm cM] l IH]; intros l' b [F L] r.
    - destruct l' as [|q' l']; [|destruct b as [|b0 b]; [discriminate L|inversion F]].
      destruct b; [|discriminate L]. split; [apply within_ret|cbn; lia].
    - destruct l' as [|[qm qM] l']; [inversion F|]. destruct b as [|[[lo u] U] b]; [discriminate L|].
      cbn [combine] in F. inversion F as [|c0 q0 r0 s0 (Hm & HM & Hl & Hu & HU) F' E1 E2]. subst.
      cbn [fst snd] in Hm, HM, Hl, Hu, HU. cbn [length] in L. injection L as L.
      assert (P : pairs h l l' b) by (split; [exact F'|exact L]).
      cbn [q_set_max map sum fold_right fst snd].
      fold (sum (map (fun b : Z * Z * Z => snd (fst b) + 4 * snd b) b)).
      destruct (IH l' b P r) as [_ Hp]. split; [|lia].
      set (S2 := sum (map (fun b : Z * Z * Z => snd (fst b) + 4 * snd b) b)) in *.
      replace 0 with (0 + (0 + (0 + (0 + 0)))) at 1 by lia.
      replace (u + 4 * U + S2) with (U + (0 + (u + 2 * U + (U + S2)))) by lia.
      wbind; [lia|exact HM|]. wbind; [lia|apply within_lift|].
      wbind; [lia|eapply within_weaken; [apply (within_q_variated cm cM qm qM h lo u U); assumption|exact Hl|apply Z.le_refl]|].
      cbv zeta. wbind; [lia|apply within_q_unbounded; assumption|]. apply within_if; [|apply IH; exact P].
      eapply within_weaken; [apply within_ret|lia|lia].
  Qed.

  Lemma within_q_pool_min h (l : list (option (C B Z))) l' b :
    Forall2 (fun c q => match c, q with Some c, Some q => within c q h 0 b | None, None => True | _, _ => False end) l l' ->
    0 <= b -> forall r, within (q_pool_min l r) (q_pool_min l' r) h 0 (zlen l * b).
  Proof.
    intros F Hb. induction F as [|c q l l' Hc F IH]; intros r.
    - apply within_ret.
    - destruct c as [c|], q as [q|]; try contradiction; cbn [q_pool_min].
      + replace (zlen (Some c :: l) * b) with (b + zlen l * b) by (unfold zlen; cbn [length]; lia).
        replace 0 with (0 + 0) by lia. wbind; [unfold zlen; nia|exact Hc|]. apply IH.
      + eapply within_weaken; [apply within_lift|lia|unfold zlen; nia].
  Qed.

  Lemma within_q_pool_max h (l : list (option (C B Z))) l' b :
    Forall2 (fun c q => match c, q with Some c, Some q => within c q h 0 b | None, None => True | _, _ => False end) l l' ->
    0 <= b -> forall r, within (q_pool_max l r) (q_pool_max l' r) h 0 (zlen l * b).
  Proof.
    intros F Hb. induction F as [|c q l l' Hc F IH]; intros r.
    - apply within_ret.
    - destruct c as [c|], q as [q|]; try contradiction; cbn [q_pool_max].
      + replace (zlen (Some c :: l) * b) with (b + zlen l * b) by (unfold zlen; cbn [length]; lia).
        replace 0 with (0 + 0) by lia. wbind; [unfold zlen; nia|exact Hc|].
        apply within_if; [|apply IH]. eapply within_weaken; [apply within_ret|lia|unfold zlen; nia].
      + eapply within_weaken; [apply within_lift|lia|unfold zlen; nia].
  Qed.

  (** Between marking and unmarking a pool. *)
  Lemma within_marked {A D} (c : C B A) (q : Q B A) (k : A -> D) p P h hi :
    nth_error (pools h) p = Some P -> is_in_recursion P = false ->
    within c q (set_pool h p (mkPool (weak_pool P) (is_recursive P) true)) 0 hi ->
    within (_ <- onheap (mark_in_recursion p true) ;; r <- c ;; _ <- onheap (mark_in_recursion p false) ;; ret (k r))
      (_ <- mark_in_recursion p true ;; r <- q ;; _ <- mark_in_recursion p false ;; ret (k r)) h 0 hi.
  Proof.
    intros E F (n & Hq & Hn & Ho). set (h1 := set_pool h p _) in *.
    assert (M1 : forall v, mark_in_recursion p v h = (Ok tt, set_pool h p (mkPool (weak_pool P) (is_recursive P) v))).
    { intros v. unfold mark_in_recursion. rewrite E. reflexivity. }
    assert (M2 : mark_in_recursion p false h1 = (Ok tt, h)).
    { unfold mark_in_recursion. subst h1. unfold set_pool. cbn [pools lots].
      rewrite (nth_upd _ _ _ _ E). cbn [weak_pool is_recursive]. rewrite upd_upd.
      destruct h as [ps ls]. cbn [pools lots] in *. f_equal. f_equal. apply upd_same. rewrite E.
      destruct P; cbn in *. congruence. }
    exists n. destruct (fst (q h1)) as [a| | | |] eqn:Eq.
    1: { destruct (Ho a eq_refl) as [Hs _]. unfold bind, onheap. cbn [fst snd]. rewrite M1. fold h1. cbn [fst snd].
      rewrite (surjective_pairing (q h1)), Eq, Hs, M2. split.
      - intros z. rewrite Hq. cbn [fst snd]. rewrite Hs, M2. reflexivity.
      - split; [lia|]. cbn. split; [reflexivity|lia]. }
    all: unfold bind, onheap; cbn [fst snd]; rewrite M1; fold h1; cbn [fst snd];
      rewrite (surjective_pairing (q h1)), Eq; (split; [intros z; rewrite Hq; reflexivity|]);
      split; [lia|]; cbn; discriminate.
  Qed.

  (** ** The cases of a counted query *)
  Lemma cq_leaf f q mn mx (ex : M B bytes) : cquery f q (XLeaf mn mx ex) = (_ <- tick ;; ret (if q then mn else mx)).
  Proof. destruct f; reflexivity. Qed.
  Lemma cq_vec f q j x : cquery f q (XVec j x) =
    (_ <- tick ;; if q then q_vector_min (cquery f true x) (cquery f false x) else ret (-1)).
  Proof. destruct f; reflexivity. Qed.
  Lemma cq_unary f q o x : cquery f q (XUnary o x) = (_ <- tick ;; if q then cquery f true x else ret (-1)).
  Proof. destruct f; reflexivity. Qed.
  Lemma cq_binary f q o x y : cquery f q (XBinary o x y) =
    (_ <- tick ;; if q then q_set_min [(cquery f true x, cquery f false x); (cquery f true y, cquery f false y)]
    else ret (-1)).
  Proof. destruct f; reflexivity. Qed.
  Lemma cq_set f q j xs : cquery f q (XSet j xs) =
    (_ <- tick ;; let l := map (fun y => (cquery f true y, cquery f false y)) xs in
    if q then q_set_min l else q_set_max l 0).
  Proof. destruct f; reflexivity. Qed.
  Lemma cq_hashel f q (n v : sx B) : cquery f q (XHashEl n v) =
    (_ <- tick ;; if q then (a <- cquery f true n ;; b <- cquery f true v ;; lift (int_op (a + b))) else ret (-1)).
  Proof. destruct f; reflexivity. Qed.
  Lemma cq_lot f q l : cquery f q (XLot (B := B) l) =
    (_ <- tick ;; L <- onheap (get_lot l) ;; lift (if q then lotMinSize (lot_nums L) else lotMaxSize (lot_nums L))).
  Proof. destruct f; reflexivity. Qed.
  Lemma cq_pool_S f q p : cquery (S f) q (XPool (B := B) p) =
    (_ <- tick ;; P <- onheap (get_pool p) ;;
     if q then
       if is_in_recursion P then ret (int_max / 2)
       else
         _ <- onheap (mark_in_recursion p true) ;;
         r <- q_pool_min (map (option_map (cquery f true)) (weak_pool P)) (int_max / 2) ;;
         _ <- onheap (mark_in_recursion p false) ;;
         ret (if r =? int_max / 2 then int_max / 2 else i32 (r + ORACLE_SIZE))
     else
       if is_recursive P || is_in_recursion P then ret (-1)
       else
         _ <- onheap (mark_in_recursion p true) ;;
         r <- q_pool_max (map (option_map (cquery f false)) (weak_pool P)) 0 ;;
         _ <- onheap (mark_in_recursion p false) ;;
         ret (match r with None => -1 | Some r => i32 (r + ORACLE_SIZE) end)).
  Proof. reflexivity. Qed.

  Lemma within_tick {A} (c : C B A) (q : Q B A) h lo hi : within c q h lo hi ->
    within (_ <- tick ;; c) q h (1 + lo) (1 + hi).
  Proof.
    intros (n & E & Hn & Ho). exists (1 + n). split.
    - intros z. unfold bind, tick. cbn [fst snd]. rewrite E. do 2 f_equal. lia.
    - split; [lia|]. intros a Ea. specialize (Ho a Ea). split; [tauto|lia].
  Qed.

  Lemma within_get_lot l h : within (onheap (get_lot l)) (get_lot l) h 0 0.
  Proof.
    exists 0. unfold onheap. cbn [fst snd]. split; [intros z; rewrite Z.add_0_r; reflexivity|]. split; [lia|].
    unfold get_lot. destruct (nth_error (lots h) l); cbn; [intros; split; [reflexivity|lia]|discriminate].
  Qed.

  Lemma weight_pos x : 1 <= weight x.
  Proof.
    induction x as [mn mx ex|j x IH|o x IH|o x y IHx IHy|j xs IH|n v IHn IHv|p|l] using sx_ind'; cbn [weight]; try lia.
    assert (0 <= fold_right Z.add 0 (map weight xs)); [|lia].
    induction IH as [|x xs Hx H IH]; cbn; lia.
  Qed.

  Lemma roomy_set h k w p P : roomy h k w -> nth_error (pools h) p = Some P ->
    roomy (set_pool h p (mkPool (weak_pool P) (is_recursive P) true)) k w.
  Proof.
    intros R E. assert (G : forall l p0 Q, nth_error (upd l p (mkPool (weak_pool P) (is_recursive P) true)) p0 = Some Q ->
      nth_error l p = Some P -> exists Q', nth_error l p0 = Some Q' /\ weak_pool Q = weak_pool Q').
    { clear. induction p as [|p IH]; intros [|P0 l] [|p0] Q H1 H2; try discriminate; cbn in *.
      - injection H1 as <-. injection H2 as ->. exists P. split; reflexivity.
      - exists Q. split; [exact H1|reflexivity].
      - exists Q. split; [exact H1|reflexivity].
      - destruct (IH l p0 Q H1 H2) as (Q' & E1 & E2). exists Q'. split; assumption. }
    intros p0 Q HQ. unfold set_pool in HQ. cbn [pools] in HQ. destruct (G _ _ _ HQ E) as (Q' & E1 & E2).
    rewrite E2. exact (R p0 Q' E1).
  Qed.

  Lemma levels_set j (xs : list (sx B)) :
    2 ^ Z.of_nat (levels (XSet j xs)) <= 1 + sum (map (fun x => 2 * 2 ^ Z.of_nat (levels x)) xs).
  Proof.
    destruct xs as [|x0 xs]; [cbn; lia|]. cbn [levels].
    assert (P : forall l : list (sx B), 0 <= sum (map (fun x => 2 * 2 ^ Z.of_nat (levels x)) l)).
    { induction l as [|x l IH]; [cbn; lia|]. unfold sum in *. cbn [map fold_right].
      pose proof (Z.pow_nonneg 2 (Z.of_nat (levels x)) ltac:(lia)). lia. }
    enough (2 ^ Z.of_nat (S (list_max (map levels (x0 :: xs)))) <= sum (map (fun x => 2 * 2 ^ Z.of_nat (levels x)) (x0 :: xs))) by lia.
    generalize x0 as x. clear x0. induction xs as [|y xs IH]; intros x.
    - cbn [map list_max fold_right sum]. rewrite Nat.max_0_r, Nat2Z.inj_succ, Z.pow_succ_r by lia. cbn. lia.
    - specialize (IH y). specialize (P (y :: xs)). unfold sum, list_max in *. cbn [map fold_right] in *.
      rewrite Nat2Z.inj_succ, Z.pow_succ_r in * by lia.
      pose proof (Z.pow_nonneg 2 (Z.of_nat (levels x)) ltac:(lia)).
      destruct (Nat.max_spec (levels x) (Nat.max (levels y) (fold_right Nat.max 0%nat (map levels xs)))) as [[_ E]|[_ E]];
        rewrite E; lia.
  Qed.

  Lemma cquery_within f : forall h k w q x, (free h < f)%nat -> 0 <= k -> 0 <= w -> roomy h k w ->
    within (cquery f q x) (query f q x) h (if q then 2 ^ Z.of_nat (levels x) else 1)
      (weight x * (1 + k * w) ^ Z.of_nat (free h)).
  Proof.
    induction f as [|f IHf]; intros h k w q x Hf Hk Hw R; [lia|].
    set (T := (1 + k * w) ^ Z.of_nat (free h)).
    assert (HT : 1 <= T) by (unfold T; pose proof (Z.pow_le_mono_l 1 (1 + k * w) (Z.of_nat (free h)) ltac:(nia)); rewrite Z.pow_1_l in *; lia).
    assert (WP : forall x, 0 <= weight x * T) by (intros x0; pose proof (weight_pos x0); nia).
    revert q. induction x as [mn mx ex|j x IH|o x IH|o x y IHx IHy|j xs IH|n v IHn IHv|p|l] using sx_ind';
      intros q.
    - rewrite cq_leaf, query_leaf. eapply within_weaken; [apply within_tick, within_ret| |cbn [weight]; lia].
      destruct q; cbn; lia.
    - rewrite cq_vec, query_vec. destruct q.
      + eapply within_weaken; [apply within_tick; apply (within_q_vector_min _ _ _ _ h (2 ^ Z.of_nat (levels x)) (weight x * T) (weight x * T))| |].
        1,2: pose proof (weight_pos x); nia.
        * exact (IH true).
        * eapply within_weaken; [exact (IH false)|lia|lia].
        * cbn [levels]. rewrite Nat2Z.inj_succ, Z.pow_succ_r by lia. lia.
        * cbn [weight]. pose proof (WP x). lia.
      + eapply within_weaken; [apply within_tick, within_ret|lia|cbn [weight]; pose proof (weight_pos x); nia].
    - rewrite cq_unary, query_unary. pose proof (weight_pos x). destruct q.
      + eapply within_weaken; [apply within_tick, (IH true)|cbn [levels]; lia|cbn [weight]; nia].
      + eapply within_weaken; [apply within_tick, within_ret|lia|cbn [weight]; nia].
    - rewrite cq_binary, query_binary. pose proof (weight_pos x). pose proof (weight_pos y).
      pose proof (Z.pow_nonneg 2 (Z.of_nat (levels x)) ltac:(lia)). pose proof (Z.pow_nonneg 2 (Z.of_nat (levels y)) ltac:(lia)).
      destruct q.
      + eapply within_weaken; [apply within_tick; apply (within_q_set_min h _ _
          [(2 ^ Z.of_nat (levels x), weight x * T, weight x * T); (2 ^ Z.of_nat (levels y), weight y * T, weight y * T)])| |].
        * split; [|reflexivity]. repeat constructor; cbn [fst snd]; try nia.
          -- exact (IHx true).
          -- eapply within_weaken; [exact (IHx false)|lia|lia].
          -- exact (IHy true).
          -- eapply within_weaken; [exact (IHy false)|lia|lia].
        * cbn [map sum fold_right fst snd levels]. rewrite Nat2Z.inj_succ, Z.pow_succ_r by lia.
          destruct (Nat.max_spec (levels x) (levels y)) as [[_ ->]|[_ ->]]; lia.
        * cbn [map sum fold_right fst snd weight]. pose proof (WP x). pose proof (WP y). lia.
      + eapply within_weaken; [apply within_tick, within_ret|lia|cbn [weight]; nia].
    - rewrite cq_set, query_set. cbv zeta.
      assert (P : pairs h (map (fun y => (cquery (S f) true y, cquery (S f) false y)) xs)
                    (map (fun y => (query (S f) true y, query (S f) false y)) xs)
                    (map (fun y => (2 ^ Z.of_nat (levels y), weight y * T, weight y * T)) xs)).
      { split; [|rewrite !map_length; reflexivity]. induction IH as [|x xs Hx H IH]; cbn [map combine]; constructor; [|exact IH].
        cbn [fst snd]. pose proof (weight_pos x). pose proof (Z.pow_nonneg 2 (Z.of_nat (levels x)) ltac:(lia)).
        split; [exact (Hx true)|]. split; [eapply within_weaken; [exact (Hx false)|lia|lia]|]. nia. }
      assert (E : forall a b, sum (map (fun b0 : Z * Z * Z => a * snd (fst b0) + b * snd b0)
                    (map (fun y => (2 ^ Z.of_nat (levels y), weight y * T, weight y * T)) xs))
                  = (a + b) * (fold_right Z.add 0 (map weight xs) * T)).
      { intros a b. clear. induction xs as [|x xs IH]; [cbn; lia|]. unfold sum in *. cbn [map fold_right fst snd] in *.
        rewrite IH. lia. }
      assert (W : 0 <= fold_right Z.add 0 (map weight xs)).
      { clear. induction xs as [|x xs IH]; cbn; [lia|]. pose proof (weight_pos x). lia. }
      destruct q.
      + eapply within_weaken; [apply within_tick, (within_q_set_min h _ _ _ P)| |].
        * rewrite map_map. cbn [fst snd]. apply levels_set.
        * rewrite E. cbn [weight]. nia.
      + eapply within_weaken; [apply within_tick, (within_q_set_max h _ _ _ P)|lia|].
        rewrite (map_ext (fun b => snd (fst b) + 4 * snd b) (fun b : Z * Z * Z => 1 * snd (fst b) + 4 * snd b)) by (intros; lia).
        rewrite (E 1 4). cbn [weight]. nia.
    - rewrite cq_hashel, query_hashel. pose proof (weight_pos n). pose proof (weight_pos v).
      pose proof (Z.pow_pos_nonneg 2 (Z.of_nat (levels n)) ltac:(lia) ltac:(lia)).
      pose proof (Z.pow_pos_nonneg 2 (Z.of_nat (levels v)) ltac:(lia) ltac:(lia)).
      destruct q.
      + eapply within_weaken; [apply within_tick|instantiate (1 := 2 ^ Z.of_nat (levels n) + (2 ^ Z.of_nat (levels v) + 0))|instantiate (1 := weight n * T + (weight v * T + 0))].
        * wbind; [nia|exact (IHn true)|]. wbind; [lia|exact (IHv true)|]. apply within_lift.
        * cbn [levels]. destruct (Nat.max_spec (levels n) (levels v)) as [[_ ->]|[_ ->]]; lia.
        * cbn [weight]. nia.
      + eapply within_weaken; [apply within_tick, within_ret|lia|cbn [weight]; nia].
    - rewrite cq_pool_S, query_pool_S. cbn [levels weight]. rewrite Z.mul_1_l.
      eapply within_weaken; [apply within_tick|instantiate (1 := 0); destruct q; cbn; lia|instantiate (1 := T - 1); lia].
      assert (E0 : forall z, onheap (get_pool p) (h, z) = (fst (get_pool p h), (h, z))).
      { intros z. unfold onheap, get_pool. cbn [fst snd]. destruct (nth_error (pools h) p); reflexivity. }
      destruct (nth_error (pools h) p) as [P|] eqn:E.
      2: { exists 0. unfold bind at 1 2. split.
        - intros z. rewrite E0. unfold bind, get_pool. rewrite E. cbn. rewrite Z.add_0_r. reflexivity.
        - split; [lia|]. unfold bind, get_pool. rewrite E. discriminate. }
      assert (G : forall (c : C B Z) (q0 : Q B Z) k1 k2, k1 P = c -> k2 P = q0 -> within c q0 h 0 (T - 1) ->
        within (bind (onheap (get_pool p)) k1) (bind (get_pool p) k2) h 0 (T - 1)).
      { intros c q0 k1 k2 <- <- (m & Hm & Hn & Ho). exists m. unfold bind. unfold get_pool at 2 3 4 5. rewrite E. split.
        - intros z. rewrite E0. unfold get_pool. rewrite E. cbn [fst]. apply Hm.
        - split; [exact Hn|exact Ho]. }
      eapply G; [reflexivity|reflexivity|]. clear G.
      assert (M : is_in_recursion P = false -> forall qq,
        Forall2 (fun c q => match c, q with
          Some c, Some q => within c q (set_pool h p (mkPool (weak_pool P) (is_recursive P) true)) 0
                              (w * (1 + k * w) ^ (Z.of_nat (free h) - 1))
          | None, None => True | _, _ => False end)
          (map (option_map (cquery f qq)) (weak_pool P)) (map (option_map (query f qq)) (weak_pool P))
        /\ zlen (weak_pool P) * (w * (1 + k * w) ^ (Z.of_nat (free h) - 1)) <= T - 1).
      { intros F qq. assert (Fr : free h = S (free (set_pool h p (mkPool (weak_pool P) (is_recursive P) true)))).
        { unfold free, set_pool. cbn [pools]. exact (unmarked_upd (pools h) p P (mkPool (weak_pool P) (is_recursive P) true) E F eq_refl). }
        pose proof (roomy_set h k w p P R E) as R1.
        set (h1 := set_pool h p _) in *. clearbody h1. destruct (R p P E) as [Rk Rw].
        replace (Z.of_nat (free h) - 1) with (Z.of_nat (free h1)) by lia. 
        assert (HT1 : 1 <= (1 + k * w) ^ Z.of_nat (free h1)).
        { pose proof (Z.pow_le_mono_l 1 (1 + k * w) (Z.of_nat (free h1)) ltac:(nia)). rewrite Z.pow_1_l in *; lia. }
        split.
        - assert (I : forall y, In (Some y) (weak_pool P) -> weight y <= w) by exact Rw. clear Rw Rk.
          induction (weak_pool P) as [|[y|] l IHl]; cbn [map option_map]; constructor; try exact Logic.I;
            try (apply IHl; intros y0 Hy0; apply I; right; exact Hy0).
          eapply within_weaken; [apply (IHf h1 k w qq y); [lia|exact Hk|exact Hw|exact R1]| |].
          + destruct qq; [apply Z.pow_nonneg; lia|lia].
          + specialize (I y (or_introl eq_refl)). nia.
        - unfold T. rewrite Fr, Nat2Z.inj_succ, Z.pow_succ_r by lia.
          set (T1 := (1 + k * w) ^ Z.of_nat (free h1)) in *.
          pose proof (Z.mul_le_mono_nonneg_r _ _ (w * T1) ltac:(nia) Rk). lia. }
      destruct q.
      + destruct (is_in_recursion P) eqn:F; [eapply within_weaken; [apply within_ret|lia|lia]|].
        destruct (M eq_refl true) as [M1 M2].
        apply (within_marked _ _ (fun r => if r =? int_max / 2 then int_max / 2 else i32 (r + ORACLE_SIZE)) p P h _ E F).
        eapply within_weaken; [eapply within_q_pool_min; [exact M1|]|lia|].
        * pose proof (Z.pow_nonneg (1 + k * w) (Z.of_nat (free h) - 1) ltac:(nia)). nia.
        * unfold zlen in *. rewrite map_length. exact M2.
      + destruct (is_recursive P || is_in_recursion P) eqn:F0; [eapply within_weaken; [apply within_ret|lia|lia]|].
        apply orb_false_elim in F0 as [_ F]. destruct (M F false) as [M1 M2].
        apply (within_marked _ _ (fun r => match r with None => -1 | Some r => i32 (r + ORACLE_SIZE) end) p P h _ E F).
        eapply within_weaken; [eapply within_q_pool_max; [exact M1|]|lia|].
        * pose proof (Z.pow_nonneg (1 + k * w) (Z.of_nat (free h) - 1) ltac:(nia)). nia.
        * unfold zlen in *. rewrite map_length. exact M2.
    - rewrite cq_lot, query_lot. eapply within_weaken; [apply within_tick|instantiate (1 := 0 + 0); destruct q; cbn; lia|instantiate (1 := 0 + 0); cbn [weight]; lia].
      wbind; [lia|apply within_get_lot|]. apply within_lift.
  Qed.

  Lemma roomy_exists h : exists k w, 0 <= k /\ 0 <= w /\ roomy h k w.
  Proof.
    assert (G : forall l : list (pool B), exists k w, 0 <= k /\ 0 <= w /\ forall P, In P l ->
      zlen (weak_pool P) <= k /\ forall y, In (Some y) (weak_pool P) -> weight y <= w).
    { induction l as [|P l (k & w & Hk & Hw & H)]; [exists 0, 0; split; [lia|]; split; [lia|]; intros P []|].
      assert (M : exists w0, 0 <= w0 /\ forall y, In (Some y) (weak_pool P) -> weight y <= w0).
      { induction (weak_pool P) as [|[y|] m (w0 & H0 & Hm)].
        - exists 0. split; [lia|]. intros y [].
        - exists (Z.max w0 (weight y)). split; [lia|]. intros y' [E|I]; [injection E as ->; lia|]. specialize (Hm y' I). lia.
        - exists w0. split; [lia|]. intros y' [E|I]; [discriminate E|exact (Hm y' I)]. }
      destruct M as (w0 & H0 & Hm). exists (Z.max k (zlen (weak_pool P))), (Z.max w w0).
      split; [lia|]. split; [lia|]. intros Q [->|I].
      - split; [lia|]. intros y Hy. specialize (Hm y Hy). lia.
      - destruct (H Q I) as [H1 H2]. split; [lia|]. intros y Hy. specialize (H2 y Hy). lia. }
    destruct (G (pools h)) as (k & w & Hk & Hw & H). exists k, w. split; [exact Hk|]. split; [exact Hw|].
    intros p P E. apply H. eapply nth_error_In. exact E.
  Qed.

  Lemma counted_same h q x z : fst (cquery (qfuel h) q x (h, z)) = fst (query (qfuel h) q x h).
  Proof.
    destruct (roomy_exists h) as (k & w & Hk & Hw & R).
    destruct (cquery_within (qfuel h) h k w q x (free_fuel h) Hk Hw R) as (n & E & _). rewrite E. reflexivity.
  Qed.

  Lemma counted_lower h x a n : minSize_counted h x = (Ok a, n) -> 2 ^ Z.of_nat (levels x) <= n.
  Proof.
    intros E0. destruct (roomy_exists h) as (k & w & Hk & Hw & R).
    destruct (cquery_within (qfuel h) h k w true x (free_fuel h) Hk Hw R) as (m & E & _ & Ho).
    unfold minSize_counted in E0. cbv zeta in E0. rewrite E in E0. cbn [fst snd] in E0. injection E0 as E1 E2.
    destruct (Ho a E1). lia.
  Qed.

  Lemma counted_upper h k w q x : 0 <= k -> 0 <= w -> roomy h k w ->
    snd (snd (cquery (qfuel h) q x (h, 0))) <= weight x * (1 + k * w) ^ zlen (pools h).
  Proof.
    intros Hk Hw R. destruct (cquery_within (qfuel h) h k w q x (free_fuel h) Hk Hw R) as (m & E & Hm & _).
    rewrite E. cbn [fst snd]. pose proof (unmarked_length (pools h)). 
    pose proof (Z.pow_le_mono_r (1 + k * w) (Z.of_nat (free h)) (zlen (pools h)) ltac:(nia) ltac:(unfold free, zlen; lia)).
    pose proof (weight_pos x). nia.
  Qed.

  (** ** Exact counts *)
  Definition exactly {A} (c : C B A) h (a : A) (n : Z) : Prop := forall z, c (h, z) = (Ok a, (h, z + n)).

  Lemma ex_ret {A} (a : A) h : exactly (ret a) h a 0.
  Proof. intros z. cbn. rewrite Z.add_0_r. reflexivity. Qed.
  Lemma ex_int_op v h : is_int v -> exactly (lift (int_op v)) h v 0.
  Proof. intros Hv z. cbn. rewrite Z.add_0_r. unfold int_op, in_i32. replace ((- 2 ^ 31 <=? v) && (v <? 2 ^ 31)) with true; [reflexivity|]. unfold is_int in Hv. symmetry. apply andb_true_intro. lia. Qed.
  Lemma ex_bind {A D} (c : C B A) (k : A -> C B D) h a b n m :
    exactly c h a n -> exactly (k a) h b m -> exactly (bind c k) h b (n + m).
  Proof. intros H1 H2 z. unfold bind. rewrite H1, H2, Z.add_assoc. reflexivity. Qed.
  Lemma ex_tick {A} (c : C B A) h a n : exactly c h a n -> exactly (_ <- tick ;; c) h a (1 + n).
  Proof. intros H z. unfold bind, tick. cbn [fst snd]. rewrite H. do 2 f_equal. lia. Qed.
  Lemma ex_conv {A} (c : C B A) h a a' n n' : exactly c h a n -> a = a' -> n = n' -> exactly c h a' n'.
  Proof. intros H <- <-. exact H. Qed.

  Section Exact.
    Context (cm cM : C B Z) (h : heap B) (m x n N : Z).
    Context (Hm : exactly cm h m n) (HM : exactly cM h x N).

    Lemma ex_q_fixed : exactly (q_fixed cm cM) h (m =? x) (n + N).
    Proof.
      eapply ex_conv; [|reflexivity|]; [eapply ex_bind; [exact Hm|]; eapply ex_bind; [exact HM|apply ex_ret]|lia].
    Qed.
    Lemma ex_q_unbounded : exactly (q_unbounded cM) h (x =? -1) N.
    Proof. eapply ex_conv; [eapply ex_bind; [exact HM|apply ex_ret]|reflexivity|lia]. Qed.
    Lemma ex_q_variated : exactly (q_variated cm cM) h (negb (m =? x) && negb (x =? -1))
      (if m =? x then n + N else n + 2 * N).
    Proof.
      pose proof ex_q_fixed as F. unfold q_variated. destruct (m =? x).
      - eapply ex_conv; [eapply ex_bind; [exact F|apply ex_ret]|reflexivity|lia].
      - eapply ex_conv; [eapply ex_bind; [exact F|eapply ex_bind; [exact ex_q_unbounded|apply ex_ret]]|reflexivity|lia].
    Qed.
  End Exact.
End Facts.
