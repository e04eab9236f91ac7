(** Heaps that agree on everything a stamp can come across answer alike. *)
From Verif Require Import Base BaseFacts Oracle Arithm StampDict StampText Galley Stamps StampsEq Sim SimGraph.

Section Agree.
  Context {B : Type} `{BlobOps B} (I : nat -> Prop).

  Fixpoint sx_in (x : sx B) : Prop :=
    match x with
    | XLeaf _ _ _ => True
    | XVec _ y => sx_in y
    | XUnary _ y => sx_in y
    | XBinary _ y z => sx_in y /\ sx_in z
    | XSet _ ys => (fix all (l : list (sx B)) : Prop := match l with [] => True | y :: r => sx_in y /\ all r end) ys
    | XHashEl n v => sx_in n /\ sx_in v
    | XPool p => I p
    | XLot p => I p
    end.

  Lemma sx_in_set j ys : sx_in (XSet j ys) <-> Forall sx_in ys.
  Proof.
    cbn [sx_in]. induction ys as [|y ys IH]; [split; constructor|]. rewrite IH. split; [intros [H1 H2]; constructor; assumption|].
    intros H1. inversion H1; subst. split; assumption.
  Qed.

  Definition near (h h' : heap B) : Prop :=
    length (pools h) = length (pools h') /\
    forall p, I p ->
      nth_error (pools h) p = nth_error (pools h') p /\ nth_error (lots h) p = nth_error (lots h') p
      /\ (forall P y, nth_error (pools h) p = Some P -> In (Some y) (weak_pool P) -> sx_in y)
      /\ (forall L y, nth_error (lots h) p = Some L -> In y (lot_members L) -> sx_in y).

  Definition calm {A} (q : Q B A) : Prop := simS near eq q q.

  Lemma calm_fixed a b : calm a -> calm b -> calm (q_fixed a b).
  Proof. intros Ha Hb. apply sim_bind_eq; [exact Ha|]. intros x. apply sim_bind_eq; [exact Hb|]. intros y. apply sim_ret. reflexivity. Qed.
  Lemma calm_unbounded b : calm b -> calm (q_unbounded b).
  Proof. intros Hb. apply sim_bind_eq; [exact Hb|]. intros y. apply sim_ret. reflexivity. Qed.
  Lemma calm_variated a b : calm a -> calm b -> calm (q_variated a b).
  Proof.
    intros Ha Hb. apply sim_bind_eq; [apply calm_fixed; assumption|]. intros x. apply sim_if; [apply sim_ret; reflexivity|].
    apply sim_bind_eq; [apply calm_unbounded; assumption|]. intros u. apply sim_ret. reflexivity.
  Qed.
  Lemma calm_vector_min a b : calm a -> calm b -> calm (q_vector_min a b).
  Proof.
    intros Ha Hb. apply sim_bind_eq; [apply calm_fixed; assumption|]. intros x. apply sim_if; [exact Ha|].
    apply sim_bind_eq; [apply calm_unbounded; assumption|]. intros u. apply sim_if; (apply sim_bind_eq; [exact Ha|]; intros m; apply sim_ret; reflexivity).
  Qed.
  Lemma calm_set_totals l : Forall (fun p => calm (fst p) /\ calm (snd p)) l -> forall t, calm (q_set_totals l t).
  Proof.
    intros Hl. induction Hl as [|[a b] l [Ha Hb] Hl IH]; intros t; cbn [q_set_totals]; [apply sim_ret; reflexivity|].
    cbn [fst snd] in Ha, Hb. apply sim_bind_eq; [exact Ha|]. intros m. apply sim_bind_eq; [apply sim_lift_eq|]. intros f.
    apply sim_bind_eq; [apply calm_variated; assumption|]. intros v. apply sim_bind_eq; [apply calm_unbounded; assumption|]. intros u. apply IH.
  Qed.
  Lemma calm_set_min l : Forall (fun p => calm (fst p) /\ calm (snd p)) l -> calm (q_set_min l).
  Proof. intros Hl. apply sim_bind_eq; [apply calm_set_totals; exact Hl|]. intros t. apply sim_ret. reflexivity. Qed.
  Lemma calm_set_max l : Forall (fun p => calm (fst p) /\ calm (snd p)) l -> forall r, calm (q_set_max l r).
  Proof.
    intros Hl. induction Hl as [|[a b] l [Ha Hb] Hl IH]; intros r; cbn [q_set_max]; [apply sim_ret; reflexivity|].
    cbn [fst snd] in Ha, Hb. apply sim_bind_eq; [exact Hb|]. intros m. apply sim_bind_eq; [apply sim_lift_eq|]. intros f.
    apply sim_bind_eq; [apply calm_variated; assumption|]. intros v. apply sim_bind_eq; [apply calm_unbounded; assumption|]. intros u.
    apply sim_if; [apply sim_ret; reflexivity|apply IH].
  Qed.
  Definition calm_opt (q : option (Q B Z)) : Prop := match q with Some q => calm q | None => True end.
  Lemma calm_pool_min l : Forall calm_opt l -> forall r, calm (q_pool_min l r).
  Proof.
    intros Hl. induction Hl as [|[a|] l Ha Hl IH]; intros r; cbn [q_pool_min]; [apply sim_ret; reflexivity| |apply sim_lift_eq].
    apply sim_bind_eq; [exact Ha|]. intros c. apply IH.
  Qed.
  Lemma calm_pool_max l : Forall calm_opt l -> forall r, calm (q_pool_max l r).
  Proof.
    intros Hl. induction Hl as [|[a|] l Ha Hl IH]; intros r; cbn [q_pool_max]; [apply sim_ret; reflexivity| |apply sim_lift_eq].
    apply sim_bind_eq; [exact Ha|]. intros c. apply sim_if; [apply sim_ret; reflexivity|apply IH].
  Qed.

  Lemma near_get_pool p : I p -> simS near (fun P P' => P = P' /\ forall y, In (Some y) (weak_pool P) -> sx_in y) (get_pool p) (get_pool p).
  Proof.
    intros Hp h h' Hh. destruct (proj2 Hh p Hp) as (E & _ & C & _). unfold get_pool. rewrite <- E.
    destruct (nth_error (pools h) p) as [P|] eqn:EP; cbn; [|auto]. split; [|exact Hh]. split; [reflexivity|]. intros y Hy. exact (C P y eq_refl Hy).
  Qed.

  Lemma near_get_lot p : I p -> calm (get_lot p).
  Proof.
    intros Hp h h' Hh. destruct (proj2 Hh p Hp) as (_ & E & _). unfold get_lot. rewrite <- E. destruct (nth_error (lots h) p); cbn; auto.
  Qed.

  Lemma nth_upd_other {A} (l : list A) n m v : n <> m -> nth_error (upd l n v) m = nth_error l m.
  Proof. revert n m. induction l as [|a l IH]; intros [|n] [|m] E; cbn; try reflexivity; [congruence|]. apply IH. congruence. Qed.
  Lemma upd_len {A} (l : list A) n v : length (upd l n v) = length l.
  Proof. revert n. induction l as [|a l IH]; intros [|n]; cbn; auto. Qed.
  Lemma nth_upd_here {A} (l : list A) n v w : nth_error l n = Some w -> nth_error (upd l n v) n = Some v.
  Proof. revert n. induction l as [|a l IH]; intros [|n] E; try discriminate E; cbn; auto. Qed.

  Lemma calm_mark p v : I p -> calm (mark_in_recursion p v).
  Proof.
    intros Hp h h' Hh. destruct (proj2 Hh p Hp) as (E & _). unfold mark_in_recursion. rewrite <- E.
    destruct (nth_error (pools h) p) as [P|] eqn:EP; cbn; [|auto]. symmetry in E. split; [reflexivity|]. split; [cbn; rewrite !upd_len; exact (proj1 Hh)|].
    intros q Hq. destruct (proj2 Hh q Hq) as (E1 & E2 & C1 & C2). cbn [set_pool pools lots]. split; [|split; [exact E2|split; [|exact C2]]].
    - destruct (Nat.eq_dec p q) as [<-|N]; [rewrite (nth_upd_here _ _ _ P EP), (nth_upd_here _ _ _ P E); reflexivity|].
      rewrite !nth_upd_other by exact N. exact E1.
    - intros P1 y. destruct (Nat.eq_dec p q) as [<-|N]; [|rewrite nth_upd_other by exact N; apply C1].
      rewrite (nth_upd_here _ _ _ P EP). intros [= <-]. cbn [weak_pool]. apply C1. exact EP.
  Qed.

  Lemma calm_query fuel : forall q x, sx_in x -> calm (query fuel q x).
  Proof.
    induction fuel as [|f IHf]; intros q x; revert q; induction x as [mn mx ex|j x IH|o x IH|o x1 x2 IH1 IH2|j xs IH|n v IHn IHv|p|l] using sx_ind'; intros q Hx;
      rewrite ?query_leaf, ?query_vec, ?query_unary, ?query_binary, ?query_set, ?query_hashel, ?query_lot, ?query_pool_0, ?query_pool_S.
    all: try (apply sim_ret; reflexivity).
    all: try (apply sim_lift_eq).
    all: try (apply sim_if; [|apply sim_ret; reflexivity]).
    all: try (apply calm_vector_min; apply IH; exact Hx).
    all: try (apply IH; exact Hx).
    all: lazymatch type of Hx with sx_in (XBinary _ _ _) => apply calm_set_min; apply Forall_cons; [|apply Forall_cons; [|apply Forall_nil]]; cbn [fst snd]; split; (apply IH1 || apply IH2); apply Hx | _ => idtac end.
    all: lazymatch type of Hx with sx_in (XHashEl _ _) => apply sim_bind_eq; [apply IHn; apply Hx|intros a]; apply sim_bind_eq; [apply IHv; apply Hx|intros b]; apply sim_lift_eq | _ => idtac end.
    all: try (apply sim_bind_eq; [apply near_get_lot; exact Hx|]; intros L; apply sim_lift_eq).
    all: lazymatch type of Hx with
    | sx_in (XSet _ ?l) =>
        cbv zeta; apply sx_in_set in Hx;
        assert (HF : Forall (fun p => calm (fst p) /\ calm (snd p)) (map (fun y => (query _ true y, query _ false y)) l))
          by (apply Forall_map; rewrite Forall_forall in Hx, IH |- *; intros y Hy; cbn [fst snd]; split; (apply IH; [exact Hy|apply Hx; exact Hy]));
        apply sim_if; [apply calm_set_min; exact HF|apply calm_set_max; exact HF]
    | _ => idtac
    end.
    eapply sim_bind; [apply near_get_pool; exact Hx|]. intros P ? [<- HP].
    assert (HF : forall q', Forall calm_opt (map (option_map (query f q')) (weak_pool P))).
    { intros q'. apply Forall_map, Forall_forall. intros [y|] Hy; cbn; [|exact Logic.I]. apply IHf, HP, Hy. }
    apply sim_if.
    - apply sim_if; [apply sim_ret; reflexivity|]. apply sim_bind_eq; [apply calm_mark; exact Hx|]. intros _. apply sim_bind_eq; [apply calm_pool_min, HF|]. intros r.
      apply sim_bind_eq; [apply calm_mark; exact Hx|]. intros _. apply sim_ret. reflexivity.
    - apply sim_if; [apply sim_ret; reflexivity|]. apply sim_bind_eq; [apply calm_mark; exact Hx|]. intros _. apply sim_bind_eq; [apply calm_pool_max, HF|]. intros r.
      apply sim_bind_eq; [apply calm_mark; exact Hx|]. intros _. apply sim_ret. reflexivity.
  Qed.

  Context (h h' : heap B) (N : near h h').

  Lemma near_min x : sx_in x -> minSize h x = minSize h' x.
  Proof. intros Hx. unfold minSize, qfuel. rewrite <- (proj1 N). apply res_rel_eq. exact (proj1 (calm_query _ true x Hx h h' N)). Qed.
  Lemma near_max x : sx_in x -> maxSize h x = maxSize h' x.
  Proof. intros Hx. unfold maxSize, qfuel. rewrite <- (proj1 N). apply res_rel_eq. exact (proj1 (calm_query _ false x Hx h h' N)). Qed.
  Lemma near_sizes xs : Forall sx_in xs -> sizes_of h xs = sizes_of h' xs.
  Proof. intros F. induction F as [|x xs Hx F IH]; cbn [sizes_of]; [reflexivity|]. rewrite (near_min x Hx), (near_max x Hx), IH. reflexivity. Qed.

  Lemma near_extract fuel : forall x, sx_in x -> extract fuel h x = extract fuel h' x.
  Proof.
    induction fuel as [|f IHf]; intros x; induction x as [mn mx ex|j x IH|o x IH|o x1 x2 IH1 IH2|j xs IH|n v IHn IHv|p|l] using sx_ind'; intros Hx.
    all: try (rewrite !extract_leaf; reflexivity).
    all: lazymatch type of Hx with sx_in (XVec _ ?x) => rewrite !extract_vec, (near_min x Hx), (near_max x Hx), (IH Hx); reflexivity | sx_in (XUnary _ _) => rewrite !extract_unary, (IH Hx); reflexivity | _ => idtac end.
    all: lazymatch type of Hx with sx_in (XBinary _ ?a ?b) => destruct Hx as [H1 H2]; rewrite !extract_binary, (near_sizes [a; b] (Forall_cons _ H1 (Forall_cons _ H2 (Forall_nil _)))), (IH1 H1), (IH2 H2); reflexivity | _ => idtac end.
    all: lazymatch type of Hx with sx_in (XHashEl _ _) => destruct Hx as [H1 H2]; rewrite !extract_hashel, (IHn H1), (IHv H2); reflexivity | _ => idtac end.
    all: lazymatch type of Hx with
    | sx_in (XSet _ ?l) =>
        apply sx_in_set in Hx; rewrite !extract_set, (near_sizes l Hx);
        match goal with |- context[map (extract ?k h) l] => replace (map (extract k h) l) with (map (extract k h') l) by
          (apply map_ext_in; intros y Hy; rewrite Forall_forall in Hx, IH; symmetry; apply IH; [exact Hy|apply Hx; exact Hy]) end; reflexivity
    | _ => idtac
    end.
    all: try reflexivity.
    - rewrite !extract_pool_S. destruct (proj2 N p Hx) as (E & _ & C & _). rewrite <- E. destruct (nth_error (pools h) p) as [P|]; [|reflexivity].
      rewrite (near_min (XPool p) Hx). f_equal. apply map_ext_in. intros [y|] Hy; [|reflexivity].
      pose proof (C P y eq_refl Hy) as Cy. rewrite (near_min y Cy), (near_max y Cy), (IHf y Cy). reflexivity.
    - rewrite !extract_lot_S. destruct (proj2 N l Hx) as (_ & E & _ & C). rewrite <- E. destruct (nth_error (lots h) l) as [L|]; [|reflexivity].
      f_equal. apply map_ext_in. intros y Hy. pose proof (C L y eq_refl Hy) as Cy. rewrite (near_min y Cy), (near_max y Cy), (IHf y Cy). reflexivity.
  Qed.
End Agree.
