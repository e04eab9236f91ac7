(** Size queries of stamps that are not made of pools. *)
From Verif Require Import Base BaseFacts Blob BlobSpec Sim SimGraph Oracle Arithm StampDict Galley Stamps StampsEq LotSpec.
Local Open Scope Z_scope.

Section Same.
  Context {B : Type} `{BlobOps B}.

  (** Both answer alike on graphs with the same lotteries, and change nothing. *)
  Definition alike {A} (q q' : Q B A) : Prop := forall h h', lots h = lots h' -> exists r, q h = (r, h) /\ q' h' = (r, h').

  Lemma alike_ret {A} (a : A) : alike (ret a) (ret a).
  Proof. intros h h' _. exists (Ok a). split; reflexivity. Qed.
  Lemma alike_lift {A} (r : res A) : alike (lift r) (lift r).
  Proof. intros h h' _. exists r. split; reflexivity. Qed.
  Lemma alike_bind {A C} (q q' : Q B A) (k k' : A -> Q B C) : alike q q' -> (forall a, alike (k a) (k' a)) -> alike (bind q k) (bind q' k').
  Proof.
    intros H1 H2 h h' E. destruct (H1 h h' E) as (r & E1 & E2). unfold bind. rewrite E1, E2.
    destruct r as [a| | | |]; [exact (H2 a h h' E)| | | |]; eexists; split; reflexivity.
  Qed.

  Lemma alike_fixed q1 q2 q1' q2' : alike q1 q1' -> alike q2 q2' -> alike (q_fixed q1 q2) (q_fixed q1' q2').
  Proof. intros. unfold q_fixed. apply alike_bind; [assumption|]. intros a. apply alike_bind; [assumption|]. intros b. apply alike_ret. Qed.
  Lemma alike_unb q q' : alike q q' -> alike (q_unbounded q) (q_unbounded q').
  Proof. intros. unfold q_unbounded. apply alike_bind; [assumption|]. intros b. apply alike_ret. Qed.
  Lemma alike_var q1 q2 q1' q2' : alike q1 q1' -> alike q2 q2' -> alike (q_variated q1 q2) (q_variated q1' q2').
  Proof.
    intros. unfold q_variated. apply alike_bind; [apply alike_fixed; assumption|]. intros [|]; [apply alike_ret|].
    apply alike_bind; [apply alike_unb; assumption|]. intros b. apply alike_ret.
  Qed.
  Lemma alike_vec q1 q2 q1' q2' : alike q1 q1' -> alike q2 q2' -> alike (q_vector_min q1 q2) (q_vector_min q1' q2').
  Proof.
    intros. unfold q_vector_min. apply alike_bind; [apply alike_fixed; assumption|]. intros [|]; [assumption|].
    apply alike_bind; [apply alike_unb; assumption|]. intros [|]; (apply alike_bind; [assumption|]; intros; apply alike_ret).
  Qed.
  Definition alike2 (a b : Q B Z * Q B Z) : Prop := alike (fst a) (fst b) /\ alike (snd a) (snd b).
  Lemma alike_totals l l' : Forall2 alike2 l l' -> forall t, alike (q_set_totals l t) (q_set_totals l' t).
  Proof.
    induction 1 as [|[a b] [a' b'] l l' (H1 & H2) HF IH]; intros t; cbn [q_set_totals fst snd] in *; [apply alike_ret|].
    apply alike_bind; [assumption|]. intros m. apply alike_bind; [apply alike_lift|]. intros f.
    apply alike_bind; [apply alike_var; assumption|]. intros v. apply alike_bind; [apply alike_unb; assumption|]. intros u. apply IH.
  Qed.
  Lemma alike_set_min l l' : Forall2 alike2 l l' -> alike (q_set_min l) (q_set_min l').
  Proof. intros. unfold q_set_min. apply alike_bind; [apply alike_totals; assumption|]. intros t. apply alike_ret. Qed.
  Lemma alike_set_max l l' : Forall2 alike2 l l' -> forall r, alike (q_set_max l r) (q_set_max l' r).
  Proof.
    induction 1 as [|[a b] [a' b'] l l' (H1 & H2) HF IH]; intros t; cbn [q_set_max fst snd] in *; [apply alike_ret|].
    apply alike_bind; [assumption|]. intros m. apply alike_bind; [apply alike_lift|]. intros f.
    apply alike_bind; [apply alike_var; assumption|]. intros v. cbv zeta. apply alike_bind; [apply alike_unb; assumption|]. intros [|]; [apply alike_ret|apply IH].
  Qed.

  Lemma alike_query f f' x : pool_free x -> forall q, alike (query f q x) (query f' q x).
  Proof.
    induction x as [mn mx ex|j x IH|o x IH|o x y IHx IHy|j xs IH|n v IHn IHv|p|l] using sx_ind'; intros Hx q; inversion Hx; subst.
    - rewrite !query_leaf. apply alike_ret.
    - rewrite !query_vec. destruct q; [apply alike_vec; apply IH; assumption|apply alike_ret].
    - rewrite !query_unary. destruct q; [apply IH; assumption|apply alike_ret].
    - rewrite !query_binary. destruct q; [|apply alike_ret]. apply alike_set_min.
      constructor; [split; apply IHx; assumption|]. constructor; [split; apply IHy; assumption|constructor].
    - rewrite !query_set. cbv zeta.
      assert (F : Forall2 alike2 (map (fun y => (query f true y, query f false y)) xs) (map (fun y => (query f' true y, query f' false y)) xs)).
      { clear Hx. induction xs as [|y xs IHl]; [constructor|]. pose proof (Forall_inv IH) as K1. pose proof (Forall_inv H1) as K2.
        cbn [map]. constructor; [split; apply K1; exact K2|]. apply IHl; [exact (Forall_inv_tail IH)|exact (Forall_inv_tail H1)]. }
      destruct q; [apply alike_set_min; exact F|apply alike_set_max; exact F].
    - rewrite !query_hashel. destruct q; [|apply alike_ret]. apply alike_bind; [apply IHn; assumption|]. intros a.
      apply alike_bind; [apply IHv; assumption|]. intros b. apply alike_lift.
    - rewrite !query_lot. intros h h' E. unfold bind, get_lot. rewrite <- E. destruct (nth_error (lots h) l); eexists; split; reflexivity.
  Qed.

  (** The minimum over members that answer with known values. *)
  Lemma pool_min_fold (h h' : heap B) f ys : Forall pool_free ys -> lots h = lots h' -> forall ms,
    Forall2 (fun y m => minSize h y = Ok m) ys ms -> forall r,
    q_pool_min (map (option_map (query f true)) (map Some ys)) r h' = (Ok (fold_left (fun r c => if c <? r then c else r) ms r), h').
  Proof.
    intros HP E. induction HP as [|y ys Hy HP IH]; intros ms HM r; inversion HM as [|? m ? ms' Hm HM']; subst; [reflexivity|].
    cbn [map option_map q_pool_min]. destruct (alike_query (qfuel h) f y Hy true h h' E) as (v & E1 & E2).
    unfold minSize in Hm. rewrite E1 in Hm. cbn [fst] in Hm. subst v. unfold bind. rewrite E2. cbn [fold_left]. apply IH. exact HM'.
  Qed.
End Same.

Lemma fold_min l : forall r : Z, is_least (fold_left (fun r c => if c <? r then c else r) l r) (r :: l).
Proof.
  induction l as [|c l IH]; intros r; cbn [fold_left]; [split; [left; reflexivity|repeat constructor; lia]|].
  destruct (IH (if c <? r then c else r)) as [I1 I2]. set (m := fold_left _ l _) in *.
  pose proof (Forall_inv I2) as H0. apply Forall_inv_tail in I2. cbv beta in H0. split.
  - destruct I1 as [I1|I1]; [|right; right; exact I1]. rewrite <- I1. destruct (c <? r); [right; left|left]; reflexivity.
  - constructor; [destruct (c <? r) eqn:Q; lia|]. constructor; [destruct (c <? r) eqn:Q; lia|exact I2].
Qed.
