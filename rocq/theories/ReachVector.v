(** Lemmas for C64: data for given chunks of a GalleyVector. *)
From Verif Require Import Base BaseFacts Blob BlobSpec RunSpec RunFacts Sim Oracle OracleFacts Arithm Galley VectorSpec VectorFacts ReachFacts.
Local Open Scope Z_scope.

Lemma app_split {A} (a b c d : list A) : zlen a = zlen c -> a ++ b = c ++ d -> a = c /\ b = d.
Proof.
  revert c. induction a as [|x a IH]; intros [|y c] L E; [split; [reflexivity|exact E]|rewrite zlen_cons in L; change (zlen []) with 0 in L; pose proof (zlen_nonneg c); lia
    |rewrite zlen_cons in L; change (zlen []) with 0 in L; pose proof (zlen_nonneg a); lia|].
  rewrite !zlen_cons in L. cbn [app] in E. injection E as -> E. destruct (IH c ltac:(lia) E) as [-> ->]. split; reflexivity.
Qed.

Lemma same_chunks k (cs : list bytes) : forall ds r r', Forall (fun c => zlen c = k) cs -> Forall (fun c => zlen c = k) ds ->
  zlen r < k -> zlen r' < k -> concat cs ++ r = concat ds ++ r' -> cs = ds /\ r = r'.
Proof.
  induction cs as [|c cs IH]; intros [|d ds] r r' Hc Hd Hr Hr' E; cbn [concat app] in E.
  - split; [reflexivity|exact E].
  - exfalso. pose proof (Forall_inv Hd) as X. cbv beta in X. apply (f_equal zlen) in E. rewrite !zlen_app in E. pose proof (zlen_nonneg (concat ds)). pose proof (zlen_nonneg r'). lia.
  - exfalso. pose proof (Forall_inv Hc) as X. cbv beta in X. apply (f_equal zlen) in E. rewrite !zlen_app in E. pose proof (zlen_nonneg (concat cs)). pose proof (zlen_nonneg r). lia.
  - rewrite <- !app_assoc in E. destruct (app_split c _ d _ (eq_trans (Forall_inv Hc) (eq_sym (Forall_inv Hd))) E) as [-> E2].
    destruct (IH ds r r' (Forall_inv_tail Hc) (Forall_inv_tail Hd) Hr Hr' E2) as [-> ->]. split; reflexivity.
Qed.

Lemma le16_fun o o' : oracle16 o -> oracle16 o' -> le16 o = le16 o' -> o = o'.
Proof.
  intros H H' E. pose proof (list_oracle o [] H) as A. pose proof (list_oracle o' [] H') as A'. rewrite E in A. congruence.
Qed.

Lemma variated_cut_fun mn mx l cs r : variated_cut mn mx l cs r -> forall cs' r', variated_cut mn mx l cs' r' -> cs = cs' /\ r = r'.
Proof.
  induction 1 as [l Hl|o k c l cs r Ho Hl Ek Hc H IH]; intros cs' r' H'.
  - inversion H'; subst; [split; reflexivity|lia].
  - remember (le16 o ++ c ++ l) as d eqn:Ed. destruct H' as [l' Hl'|o' k' c' l' cs1 r1 Ho' Hl' Ek' Hc' H1]; [lia|]. rename Ed into E1.
    destruct (app_split (le16 o') (c' ++ l') (le16 o) (c ++ l)) as [Eo E4]; [rewrite !le16_len; reflexivity|exact E1|].
    apply le16_fun in Eo; [|assumption..]. subst o'. rewrite Ek in Ek'. injection Ek' as <-.
    destruct (app_split c' l' c l) as [-> ->]; [rewrite Hc, Hc', E4; reflexivity|exact E4|].
    destruct (IH _ _ H1) as [-> ->]. split; reflexivity.
Qed.

(** Oracles for the sizes of the chunks. *)
Lemma variated_data mn mx (chunks : list bytes) : 0 <= mn < mx -> mx - mn + 1 <= 65536 -> mx - mn + 1 <> 65522 -> mx - mn + 1 <> 65524 -> mx < 2 ^ 31 ->
  Forall (fun c => mn <= zlen c <= mx) chunks -> exists l, zlen l = zlen (concat chunks) + 2 * zlen chunks /\ variated_cut mn mx l chunks [].
Proof.
  intros Hm H1 H2 H3 Hx H. induction H as [|c chunks Hc H (l & Ll & IH)].
  - exists []. split; [reflexivity|]. apply vc_stop. change (zlen []) with 0. lia.
  - destruct (reach_all (zlen c - mn) (mx - mn + 1)) as (o & Ho & E); try lia; [unfold exceptional; apply Bool.orb_false_intro; apply Z.eqb_neq; assumption|].
    destruct (oracle_eq o mn mx) as [F _]; try lia.
    exists (le16 o ++ c ++ l). pose proof (zlen_nonneg l). split.
    + rewrite !zlen_app, le16_len, zlen_cons, Ll. cbn [concat]. rewrite zlen_app. lia.
    + apply (vc_cut mn mx o (zlen c)); [exact Ho|rewrite !zlen_app, le16_len; lia|rewrite F, E; f_equal; lia|rewrite zlen_app; lia|exact IH].
Qed.
