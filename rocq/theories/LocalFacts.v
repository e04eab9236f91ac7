(** Self-simulation and locality. *)
From Verif Require Import Base BaseFacts Blob BlobSpec BlobFacts Stamps Json Sim SimGraph LocalSpec.

Notation RelB := (@Rel blob blob _ _ _ _).

Lemma sim_local {A} (f : M blob A) : simS RelB eq f f -> local f.
Proof.
  intros H b1 b2 H1 H2 E. destruct (H b1 b2) as (Hr & _ & _ & Hc); [repeat split; assumption|].
  split; [apply res_rel_eq; exact Hr|exact Hc].
Qed.

Lemma sim_local_chunks (f : M blob (list blob)) : simS RelB (Forall2 RelB) f f -> local_chunks f.
Proof.
  intros H b1 b2 H1 H2 E. destruct (H b1 b2) as (Hr & _ & _ & Hc); [repeat split; assumption|].
  split; [|exact Hc].
  destruct (fst (f b1)) as [c1| | | |], (fst (f b2)) as [c2| | | |]; cbn in Hr |- *; try tauto.
  f_equal. clear - Hr. induction Hr as [|x y l r (_ & _ & Hx) Hr IH]; cbn [map]; [reflexivity|].
  rewrite IH. f_equal. exact Hx.
Qed.

Lemma leaf_sim ex : good_leaf ex -> simS RelB eq ex ex.
Proof.
  intros [Hl Hw] b1 b2 (H1 & H2 & E). destruct (Hl b1 b2 H1 H2 E) as [Hf Hc].
  split; [apply res_rel_eq; exact Hf|]. split; [apply Hw; exact H1|split; [apply Hw; exact H2|exact Hc]].
Qed.

Lemma all_self (xs : list (sx blob)) : Forall (fun x => sxrel x x) xs ->
  (fix all (l l' : list (sx blob)) : Prop :=
     match l, l' with
     | [], [] => True
     | a :: r, a' :: r' => sxrel a a' /\ all r r'
     | _, _ => False
     end) xs xs.
Proof. intros H. induction H as [|x l Hx H IH]; [exact I|split; assumption]. Qed.

Lemma good_self x : good_sx x -> sxrel x x.
Proof.
  induction x as [mn mx ex|j x IH|o x IH|o x1 x2 IH1 IH2|j xs IH|n v IHn IHv|p|l] using sx_ind';
    intros H; inversion H; subst; cbn [sxrel].
  - split; [reflexivity|split; [reflexivity|]]. apply leaf_sim. assumption.
  - split; [reflexivity|]. apply IH. assumption.
  - split; [reflexivity|]. apply IH. assumption.
  - split; [reflexivity|split; [apply IH1|apply IH2]; assumption].
  - split; [reflexivity|]. apply all_self.
    match goal with H : Forall good_sx xs |- _ => rename H into HF end.
    clear H. induction IH as [|x l Hx IH IH']; [constructor|].
    apply Forall_cons_iff in HF. destruct HF as [HF1 HF2]. constructor; [apply Hx; exact HF1|apply IH', HF2].
  - split; [apply IHn|apply IHv]; assumption.
  - reflexivity.
  - reflexivity.
Qed.

Lemma Forall2_self {A} (R : A -> A -> Prop) l : (forall x, In x l -> R x x) -> Forall2 R l l.
Proof.
  induction l as [|x l IH]; intros H; constructor; [apply H; left; reflexivity|].
  apply IH. intros y Hy. apply H. right. exact Hy.
Qed.

Lemma good_heap_self h : good_heap h -> heaprel h h.
Proof.
  intros [Hp Hl]. split; apply Forall2_self.
  - intros P HP. split; [|split; reflexivity]. apply Forall2_self. intros m Hm.
    destruct m as [x|]; cbn; [|exact I]. apply good_self. exact (Hp P (Some x) x HP Hm eq_refl).
  - intros L HL. split; [|split; reflexivity]. apply Forall2_self. intros x Hx. apply good_self.
    exact (Hl L x HL Hx).
Qed.
