(** Lemmas for C63. *)
From Verif Require Import Base BaseFacts Blob BlobSpec Sim SimGraph Oracle Galley Stamps StampsEq LotSpec
  QuerySpec QueryFacts RecursionFacts ContractFacts MaxFacts SizesFacts ExpiredSpec.
Local Open Scope Z_scope.

Lemma good_bind_ub {A C} (q : Q blob A) (k : A -> Q blob C) h : good_q eq q h -> (forall a, fst (k a h) = UB) -> fst (bind q k h) = UB.
Proof.
  intros G K. unfold good_q in G. unfold bind. destruct (q h) as [[a| | | |] h']; try contradiction; [subst h'; apply K|reflexivity].
Qed.

Lemma bind_ub_l {A C} (q : Q blob A) (k : A -> Q blob C) h : fst (q h) = UB -> fst (bind q k h) = UB.
Proof. intros E. unfold bind. destruct (q h) as [r h']. cbn [fst] in E. subst r. reflexivity. Qed.

Definition pgood (h : heap blob) (p : Q blob Z * Q blob Z) : Prop := good_q eq (fst p) h /\ good_q eq (snd p) h.

Lemma totals_ub h (l : list (Q blob Z * Q blob Z)) : Forall (pgood h) l -> Exists (fun p => fst (fst p h) = UB) l -> forall t, fst (q_set_totals l t h) = UB.
Proof.
  intros G E. induction E as [[a b] l E|[a b] l E IH]; intros t; cbn [q_set_totals].
  - apply bind_ub_l. exact E.
  - destruct (Forall_inv G) as [Ga Gb]. apply Forall_inv_tail in G. cbn [fst snd] in *.
    apply good_bind_ub; [exact Ga|]. intros m. apply good_bind_ub; [apply good_lift; [reflexivity|apply int_op_cases]|]. intros f.
    apply good_bind_ub; [apply good_q_variated; assumption|]. intros v. apply good_bind_ub; [apply good_q_unbounded; assumption|]. intros u. apply IH. exact G.
Qed.

Lemma set_min_ub h (l : list (Q blob Z * Q blob Z)) : Forall (pgood h) l -> Exists (fun p => fst (fst p h) = UB) l -> fst (q_set_min l h) = UB.
Proof. intros G E. unfold q_set_min. apply bind_ub_l. apply totals_ub; assumption. Qed.

Lemma pool_min_ub h (l : list (option (Q blob Z))) : Forall (good_opt eq h) l -> Exists (fun o => match o with Some q => fst (q h) = UB | None => True end) l ->
  forall r, fst (q_pool_min l r h) = UB.
Proof.
  intros G E. induction E as [[q|] l E|[q|] l E IH]; intros r; cbn [q_pool_min]; try reflexivity.
  - apply bind_ub_l. exact E.
  - apply good_bind_ub; [exact (Forall_inv G)|]. intros c. apply IH. exact (Forall_inv_tail G).
Qed.

Lemma spoilt_min h f : forall x up h1, spoilt h up x -> inside h up h1 -> (free h1 < f)%nat -> fst (query f true x h1) = UB.
Proof.
  induction f as [|f IHf]; [lia|]. intros x. induction x as [mn mx ex|j x IH|o x IH|o x y IHx IHy|j xs IH|nm v IHn IHv|p|l] using sx_ind';
    intros up h1 Hx HI HF; inversion Hx; subst; unf_query.
  - unfold q_vector_min, q_fixed. apply bind_ub_l. apply bind_ub_l. apply (IH up); assumption.
  - apply (IH up); assumption.
  - apply set_min_ub; [repeat constructor; apply query_good; exact HF|]. left. apply (IHx up); assumption.
  - apply set_min_ub; [repeat constructor; apply query_good; exact HF|]. right. left. apply (IHy up); assumption.
  - cbv zeta. apply set_min_ub.
    + rewrite Forall_map. apply Forall_forall. intros y0 _. split; apply query_good; exact HF.
    + rewrite Exists_map. apply Exists_exists. exists y. split; [assumption|]. rewrite Forall_forall in IH. apply (IH y ltac:(assumption) up); assumption.
  - apply bind_ub_l. apply (IHn up); assumption.
  - apply good_bind_ub; [apply query_good; exact HF|]. intros a. apply bind_ub_l. apply (IHv up); assumption.
  - match goal with K : nth_error (pools h) p = Some P |- _ => rename K into N end.
    destruct (more_nth_l _ _ _ _ (proj1 HI) N) as (P1 & N1 & M1 & M2 & M3).
    assert (K1 : is_in_recursion P1 = false).
    { destruct (is_in_recursion P1) eqn:E; [|reflexivity]. destruct (proj2 HI p P P1 N N1 E) as [X|X]; [congruence|contradiction]. }
    rewrite query_pool_S, get_step, N1, K1, (mark_step p P1 h1 _ N1). apply bind_ub_l. apply pool_min_ub.
    + rewrite Forall_map. apply Forall_forall. intros [y|] _; [|exact I]. apply query_good. exact (free_mark h1 p P1 N1 K1 f HF).
    + rewrite Exists_map. apply Exists_exists. exists None. split; [rewrite M1; assumption|exact I].
  - match goal with K : nth_error (pools h) p = Some P |- _ => rename K into N end.
    destruct (more_nth_l _ _ _ _ (proj1 HI) N) as (P1 & N1 & M1 & M2 & M3).
    assert (K1 : is_in_recursion P1 = false).
    { destruct (is_in_recursion P1) eqn:E; [|reflexivity]. destruct (proj2 HI p P P1 N N1 E) as [X|X]; [congruence|contradiction]. }
    rewrite query_pool_S, get_step, N1, K1, (mark_step p P1 h1 _ N1). apply bind_ub_l. apply pool_min_ub.
    + rewrite Forall_map. apply Forall_forall. intros [z|] _; [|exact I]. apply query_good. exact (free_mark h1 p P1 N1 K1 f HF).
    + rewrite Exists_map. apply Exists_exists. exists (Some y). split; [rewrite M1; assumption|]. cbn [option_map].
      apply (IHf y (p :: up)); [assumption|apply inside_mark; assumption|exact (free_mark h1 p P1 N1 K1 f HF)].
Qed.

Lemma spoilt_less h x : forall up, spoilt h up x -> forall up', (forall q, In q up' -> In q up) -> spoilt h up' x.
Proof.
  intros up H. induction H as [up p P N R I1 I2|up p P y N R I1 I2 H IH| | | | | | |]; intros up' Hu.
  - eapply sp_here; eauto.
  - eapply sp_pool; eauto. apply IH. intros q [->|Q0]; [left; reflexivity|right; exact (Hu q Q0)].
  - constructor; auto.
  - constructor; auto.
  - apply sp_left; auto.
  - apply sp_right; auto.
  - eapply sp_set; eauto.
  - apply sp_name; auto.
  - apply sp_value; auto.
Qed.

Lemma bind_ub_blob {A C} (r : res A) (k : A -> M blob C) b : r = UB -> fst (bind (lift r) k b) = UB.
Proof. intros ->. reflexivity. Qed.

Lemma size_cases (h : heap blob) y : ((exists a, minSize h y = Ok a) \/ minSize h y = UB) /\ ((exists a, maxSize h y = Ok a) \/ maxSize h y = UB).
Proof.
  unfold minSize, maxSize. pose proof (query_good (qfuel h) h true y (free_fuel h)) as G1. pose proof (query_good (qfuel h) h false y (free_fuel h)) as G2.
  unfold good_q in *. split; [destruct (query (qfuel h) true y h) as [[]]|destruct (query (qfuel h) false y h) as [[]]]; try contradiction; cbn; eauto.
Qed.
