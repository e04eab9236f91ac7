(** Invariant of owning pointers. *)
From Verif Require Import Base BaseFacts OwnedPtr OwnedSpec.

Lemma nth_set {A} (l : list A) n v m : nth_error (set_nth l n v) m =
  if Nat.eqb m n then match nth_error l n with Some _ => Some v | None => None end else nth_error l m.
Proof.
  revert n m. induction l as [|x l IH]; intros [|n] [|m]; cbn; try reflexivity.
  - destruct (Nat.eqb m n); reflexivity.
  - rewrite IH. reflexivity.
Qed.

Lemma length_set {A} (l : list A) n v : length (set_nth l n v) = length l.
Proof. revert n. induction l as [|x l IH]; intros [|n]; cbn; congruence. Qed.

Lemma nth_snoc {A} (l : list A) x n : nth_error (l ++ [x]) n =
  if Nat.eqb n (length l) then Some x else nth_error l n.
Proof.
  destruct (Nat.eqb n (length l)) eqn:E.
  - apply Nat.eqb_eq in E. subst. rewrite nth_error_app2, Nat.sub_diag by lia. reflexivity.
  - apply Nat.eqb_neq in E. destruct (Nat.lt_ge_cases n (length l)).
    + apply nth_error_app1. assumption.
    + rewrite nth_error_app2 by lia. rewrite (proj2 (nth_error_None l n)) by lia.
      destruct (n - length l)%nat eqn:E2; [lia|]. destruct n0; reflexivity.
Qed.

Lemma nth_lt {A} (l : list A) n x : nth_error l n = Some x -> (n < length l)%nat.
Proof. intros H. apply nth_error_Some. congruence. Qed.

Record inv (s : pstate) : Prop := {
  inv_live : forall o v p, nth_error (objs s) o = Some v -> obj_ptr v = Some p ->
    exists blk, nth_error (blocks s) p = Some blk /\ blk_freed blk = false /\ obj_size v = Some (blk_size blk);
  inv_one : forall o1 o2 p, owns s o1 p -> owns s o2 p -> o1 = o2;
  inv_own : forall p, allocated s p -> exists o, owns s o p
}.

Lemma inv_init : inv pinit.
Proof.
  split.
  - intros [|o] v p H; discriminate H.
  - intros [|o1] o2 p (v & H & _); discriminate H.
  - intros [|p] (blk & H & _); discriminate H.
Qed.

Lemma inv_new s n v : inv s -> obj_ptr v = Some (length (blocks s)) -> obj_size v = Some n ->
  inv (mkP (blocks s ++ [mkBlock n false]) (objs s ++ [v])).
Proof.
  intros [I1 I2 I3] Hp Hn. split; cbn [blocks objs].
  - intros o w p. rewrite nth_snoc. destruct (Nat.eqb o (length (objs s))) eqn:E.
    + intros [= <-] Hw. rewrite Hp in Hw. injection Hw as <-. exists (mkBlock n false).
      rewrite nth_snoc, Nat.eqb_refl. repeat split. exact Hn.
    + intros H Hw. destruct (I1 o w p H Hw) as (blk & B1 & B2 & B3). exists blk. split; [|auto].
      rewrite nth_snoc. apply nth_lt in B1 as L. destruct (Nat.eqb p _) eqn:E2; [apply Nat.eqb_eq in E2; lia|exact B1].
  - assert (K : forall o p, owns (mkP (blocks s ++ [mkBlock n false]) (objs s ++ [v])) o p ->
      (o = length (objs s) /\ p = length (blocks s)) \/ owns s o p).
    { intros o p (w & H & Hw). cbn [objs] in H. rewrite nth_snoc in H. destruct (Nat.eqb o _) eqn:E.
      - left. injection H as <-. apply Nat.eqb_eq in E. rewrite Hp in Hw. injection Hw as <-. auto.
      - right. exists w. auto. }
    assert (F : forall o, ~ owns s o (length (blocks s))).
    { intros o (w & H & Hw). destruct (I1 o w _ H Hw) as (blk & B1 & _). apply nth_lt in B1. lia. }
    intros o1 o2 p H1 H2. destruct (K o1 p H1) as [[-> ->]|H1'], (K o2 _ H2) as [[-> E]|H2']; auto.
    + exfalso. exact (F _ H2').
    + subst p. exfalso. exact (F _ H1').
    + exact (I2 o1 o2 p H1' H2').
  - intros p (blk & H & Hf). cbn [blocks] in H. rewrite nth_snoc in H. destruct (Nat.eqb p _) eqn:E.
    + apply Nat.eqb_eq in E. subst p. exists (length (objs s)), v. cbn [objs]. rewrite nth_snoc, Nat.eqb_refl. auto.
    + destruct (I3 p) as (o & w & H1 & H2); [exists blk; auto|]. exists o, w. cbn [objs]. rewrite nth_snoc.
      apply nth_lt in H1 as L. destruct (Nat.eqb o _) eqn:E2; [apply Nat.eqb_eq in E2; lia|auto].
Qed.

Lemma inv_convert s o p len off es : inv s -> nth_error (objs s) o = Some (OVlato p len off es) ->
  inv (mkP (blocks s) (set_nth (objs s) o (OVlato None len off es) ++ [OSized p (vlato_size len off es)])).
Proof.
  intros [I1 I2 I3] Ho. pose proof (nth_lt _ _ _ Ho) as Lo.
  set (s' := mkP _ _).
  assert (N : forall m, nth_error (objs s') m =
    if Nat.eqb m (length (objs s)) then Some (OSized p (vlato_size len off es))
    else if Nat.eqb m o then Some (OVlato None len off es) else nth_error (objs s) m).
  { intros m. unfold s'. cbn [objs]. rewrite nth_snoc, length_set, nth_set, Ho. reflexivity. }
  assert (K : forall m q, owns s' m q ->
    (m = length (objs s) /\ p = Some q) \/ (m <> o /\ owns s m q)).
  { intros m q (w & H & Hw). rewrite N in H. destruct (Nat.eqb m (length (objs s))) eqn:E.
    - left. injection H as <-. apply Nat.eqb_eq in E. auto.
    - destruct (Nat.eqb m o) eqn:E2; [injection H as <-; discriminate Hw|]. right. apply Nat.eqb_neq in E2.
      split; [exact E2|]. exists w. auto. }
  split.
  - intros m w q H Hw. rewrite N in H. destruct (Nat.eqb m (length (objs s))).
    + injection H as <-. cbn in Hw. subst p. destruct (I1 o _ q Ho eq_refl) as (blk & B1 & B2 & B3). exists blk. auto.
    + destruct (Nat.eqb m o); [injection H as <-; discriminate Hw|]. exact (I1 m w q H Hw).
  - intros o1 o2 q H1 H2. destruct (K o1 q H1) as [[-> E1]|[N1 H1']], (K o2 q H2) as [[-> E2]|[N2 H2']]; auto.
    + exfalso. apply N2. apply (I2 o2 o q H2'). exists (OVlato p len off es). auto.
    + exfalso. apply N1. apply (I2 o1 o q H1'). exists (OVlato p len off es). auto.
    + exact (I2 o1 o2 q H1' H2').
  - intros q Hq. destruct (I3 q Hq) as (m & w & H1 & H2). destruct (Nat.eq_dec m o) as [->|Nm].
    + exists (length (objs s)), (OSized p (vlato_size len off es)). rewrite N, Nat.eqb_refl.
      split; [reflexivity|]. rewrite Ho in H1. injection H1 as <-. exact H2.
    + exists m, w. rewrite N. apply nth_lt in H1 as L.
      destruct (Nat.eqb m (length (objs s))) eqn:E1; [apply Nat.eqb_eq in E1; lia|].
      destruct (Nat.eqb m o) eqn:E2; [apply Nat.eqb_eq in E2; lia|]. auto.
Qed.

Lemma inv_destroy s o v p : inv s -> nth_error (objs s) o = Some v -> obj_ptr v = Some p ->
  exists bs, do_free (blocks s) p = Ok bs /\ inv (mkP bs (set_nth (objs s) o ODead))
    /\ forall q, nth_error bs q = if Nat.eqb q p then option_map (fun k => mkBlock (blk_size k) true) (nth_error (blocks s) q)
                                  else nth_error (blocks s) q.
Proof.
  intros [I1 I2 I3] Ho Hp. destruct (I1 o v p Ho Hp) as (blk & B1 & B2 & B3).
  unfold do_free. rewrite B1, B2. eexists. split; [reflexivity|].
  set (s' := mkP _ _).
  assert (NB : forall q, nth_error (blocks s') q =
    if Nat.eqb q p then Some (mkBlock (blk_size blk) true) else nth_error (blocks s) q).
  { intros q. unfold s'. cbn [blocks]. rewrite nth_set, B1. reflexivity. }
  assert (K : forall m q, owns s' m q -> m <> o /\ owns s m q).
  { intros m q (w & H & Hw). unfold s' in H. cbn [objs] in H. rewrite nth_set, Ho in H. destruct (Nat.eqb m o) eqn:E.
    - injection H as <-. discriminate Hw.
    - apply Nat.eqb_neq in E. split; [exact E|]. exists w. auto. }
  split; [split|].
  - intros m w q H Hw. assert (W : owns s' m q) by (exists w; auto). destruct (K m q W) as [Nm (w' & H' & Hw')].
    assert (w' = w).
    { unfold s' in H. cbn [objs] in H. rewrite nth_set, Ho in H. apply Nat.eqb_neq in Nm. rewrite Nm in H. congruence. }
    subst w'. destruct (I1 m w q H' Hw) as (k & C1 & C2 & C3). exists k. split; [|auto]. rewrite NB.
    destruct (Nat.eqb q p) eqn:E; [|exact C1]. apply Nat.eqb_eq in E. subst q. exfalso. apply Nm.
    apply (I2 m o p); [exists w; auto|exists v; auto].
  - intros o1 o2 q H1 H2. apply K in H1 as [_ H1]. apply K in H2 as [_ H2]. exact (I2 o1 o2 q H1 H2).
  - intros q (k & H & Hf). rewrite NB in H. destruct (Nat.eqb q p) eqn:E; [injection H as <-; discriminate Hf|].
    apply Nat.eqb_neq in E. destruct (I3 q) as (m & w & H1 & H2); [exists k; auto|].
    exists m, w. unfold s'. cbn [objs]. rewrite nth_set, Ho. destruct (Nat.eqb m o) eqn:E2; [|auto].
    apply Nat.eqb_eq in E2. subst m. exfalso. rewrite Ho in H1. injection H1 as <-. congruence.
  - intros q. rewrite NB. destruct (Nat.eqb q p) eqn:E; [|reflexivity]. apply Nat.eqb_eq in E. subst q. rewrite B1. reflexivity.
Qed.

Lemma inv_destroy_null s o v : inv s -> nth_error (objs s) o = Some v -> obj_ptr v = None ->
  inv (mkP (blocks s) (set_nth (objs s) o ODead)).
Proof.
  intros [I1 I2 I3] Ho Hp. set (s' := mkP _ _).
  assert (K : forall m q, owns s' m q <-> owns s m q).
  { intros m q. unfold owns, s'. cbn [objs]. rewrite nth_set, Ho. destruct (Nat.eqb m o) eqn:E; [|tauto].
    apply Nat.eqb_eq in E. subst m. rewrite Ho. split; intros (w & [= <-] & Hw); cbn in Hw; congruence. }
  split.
  - intros m w q H Hw. unfold s' in *. cbn [objs blocks] in *. rewrite nth_set, Ho in H.
    destruct (Nat.eqb m o); [injection H as <-; discriminate Hw|]. exact (I1 m w q H Hw).
  - intros o1 o2 q H1 H2. apply K in H1. apply K in H2. exact (I2 o1 o2 q H1 H2).
  - intros q Hq. destruct (I3 q Hq) as (m & Hm). exists m. apply K. exact Hm.
Qed.

(** One step keeps the invariant, and is undefined only for Use through null. *)
Lemma step_inv s op : inv s -> is_copy op = false ->
  (exists s', pstep s op = Ok s' /\ inv s') \/ (pstep s op = UB /\ exists o, op = Use o /\ holds_null s o).
Proof.
  intros I Hc. destruct op as [n|off len es|off len es|o|o|o|o]; try discriminate Hc; cbn [pstep].
  - left. eexists. split; [reflexivity|]. apply inv_new; auto.
  - left. eexists. split; [reflexivity|]. apply inv_new; auto. cbn. unfold vlato_size. rewrite (Z.mul_comm len). reflexivity.
  - left. eexists. split; [reflexivity|]. apply inv_new; auto. cbn. unfold vlato_size. rewrite (Z.mul_comm len). reflexivity.
  - left. destruct (nth_error (objs s) o) as [[p n|p len off es|]|] eqn:E; try (exists s; split; [reflexivity|exact I]).
    eexists. split; [reflexivity|]. apply inv_convert; assumption.
  - destruct (nth_error (objs s) o) as [v|] eqn:E; [|left; exists s; auto].
    destruct v as [p n|p len off es|]; [| |left; exists s; auto].
    + destruct p as [p|]; cbn [obj_ptr].
      * destruct (inv_live s I o _ p E eq_refl) as (blk & B1 & B2 & _). rewrite B1, B2. left. exists s. auto.
      * right. split; [reflexivity|]. exists o. split; [reflexivity|]. eexists. split; [exact E|split; [discriminate|reflexivity]].
    + destruct p as [p|]; cbn [obj_ptr].
      * destruct (inv_live s I o _ p E eq_refl) as (blk & B1 & B2 & _). rewrite B1, B2. left. exists s. auto.
      * right. split; [reflexivity|]. exists o. split; [reflexivity|]. eexists. split; [exact E|split; [discriminate|reflexivity]].
  - left. destruct (nth_error (objs s) o) as [v|] eqn:E; [|exists s; auto].
    destruct (obj_ptr v) as [p|] eqn:Ep.
    + destruct (inv_destroy s o v p I E Ep) as (bs & -> & I' & _). cbn [rbind]. eauto.
    + eexists. split; [reflexivity|]. eapply inv_destroy_null; eassumption.
Qed.

Lemma run_inv ops : forall s s', inv s -> no_copy ops -> prun s ops = Ok s' -> inv s'.
Proof.
  induction ops as [|op ops IH]; intros s s' I N; cbn [prun]; [intros [= <-]; exact I|].
  inversion N as [|? ? N1 N2]; subst. destruct (step_inv s op I N1) as [(s1 & -> & I1)|(-> & _)]; [|discriminate].
  cbn [rbind]. apply IH; assumption.
Qed.
