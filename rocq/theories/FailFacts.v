(** Lemmas for C62. *)
From Verif Require Import Base BaseFacts Blob BlobSpec RunSpec RunFacts Sim Arithm StampText Galley Stamps StampsEq
  LeafSpec TermSpec ShrinkFacts TermFacts NestFacts FailSpec.

Lemma failure_bind {B A C} (f : M B A) (g : A -> M B C) b b' r e : f b = (r, b') -> failure r e -> bind f g b = (e, b').
Proof. intros E H. unfold bind. rewrite E. destruct r, e; cbn in H; try contradiction; reflexivity. Qed.

Lemma failure_rbind {A C} (r : res A) (g : A -> res C) e : failure r e -> rbind r g = e.
Proof. intros H. destruct r, e; cbn in H; try contradiction; reflexivity. Qed.

Lemma failure_same {A C D} (r : res A) (e : res C) (k : res D) : failure r e -> failure r k -> failure e k.
Proof. destruct r, e, k; cbn; tauto. Qed.

Lemma failure_self {A C} (r : res A) (e : res C) : failure r e -> failure e r.
Proof. destruct r, e; cbn; tauto. Qed.

Lemma each_fails {B A} (ex : M B A) pre c post (r : res (list A)) :
  Forall (fun c => succeeds (fst (ex c))) pre -> failure (fst (ex c)) r -> stamp_each ex (pre ++ c :: post) = r.
Proof.
  intros H F. induction H as [|a pre (v & E) H IH]; cbn [app stamp_each].
  - apply failure_rbind. exact F.
  - rewrite E. cbn [rbind]. rewrite IH. destruct r; try reflexivity. destruct (fst (ex c)); contradiction F.
Qed.

Lemma zip_fails {B A} (epre : list (M B A)) : forall cpre ex epost c cpost (r : res (list A)),
  Forall2 (fun e c => succeeds (fst (e c))) epre cpre -> failure (fst (ex c)) r -> stamp_zip (epre ++ ex :: epost) (cpre ++ c :: cpost) = r.
Proof.
  intros cpre ex epost c cpost r H F. induction H as [|e a epre cpre (v & E) H IH]; cbn [app stamp_zip].
  - apply failure_rbind. exact F.
  - rewrite E. cbn [rbind]. rewrite IH. destruct r; try reflexivity. destruct (fst (ex c)); contradiction F.
Qed.

Lemma fails_not_ok {A C} (r : res A) (e : res C) : failure r e -> forall v, e <> Ok v.
Proof. destruct r, e; cbn; try contradiction; discriminate. Qed.
