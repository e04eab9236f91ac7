(** C53: StampJSON objects that are copied, moved, assigned and destroyed. *)
From Verif Require Import Base Blob BlobSpec RunSpec RunFacts Stamps Json JsonLife LifeSpec LifeFacts.

(** An object works if every object reached from it by the references of the array and object stamps exists and
    has its stamps: in particular after the constructor, as a copy of an object that still exists, and after any
    assignments among such objects. *)
Theorem C53_works : forall t i, intact t i -> works t i.
Proof. exact intact_works. Qed.
Print Assumptions C53_works.

(** If the references lead to an object that has been destroyed, using the object is undefined behaviour. *)
Theorem C53_broken : forall t i j, leads t i j -> nth_error t j = Some Dead -> broken t i.
Proof. intros t i j L D. destruct (leads_doomed _ _ _ L D) as (n & Dn). exact (doomed_broken _ _ _ Dn). Qed.
Print Assumptions C53_broken.

(** If they lead to an object that has been moved from, no arrays and no objects are written. *)
Theorem C53_scalars : forall t i r, refers t i r -> nth_error t r = Some (Live None) -> writes_scalars t i.
Proof. exact emptied_scalars. Qed.
Print Assumptions C53_scalars.

(** An object that has been moved from finds every data too short. *)
Theorem C53_nothing : forall t i, nth_error t i = Some (Live None) -> writes_nothing t i.
Proof. exact emptied_nothing. Qed.
Print Assumptions C53_nothing.

(** A copy, in any program that does not touch the two objects otherwise: both work; once the original is
    destroyed, using the copy is undefined behaviour. *)
Theorem C53_copy : forall ops1 t1 ops2 t2 ops3 t3,
  life_run [] ops1 = Some t1 ->
  life_run t1 (Construct :: ops2) = Some t2 -> Forall (leaves_alone (length t1)) ops2 ->
  life_run t2 (CopyOf (length t1) :: ops3) = Some t3 ->
  Forall (leaves_alone (length t1)) ops3 -> Forall (leaves_alone (length t2)) ops3 ->
  works t3 (length t1) /\ works t3 (length t2)
  /\ exists t4, life_step t3 (Destroy (length t1)) = Some t4 /\ broken t4 (length t2).
Proof.
  intros ops1 t1 ops2 t2 ops3 t3 E1 E2 L2 E3 L3 L4. set (n := length t1) in *. set (m := length t2) in *.
  cbn [life_run life_step] in E2. fold n in E2.
  destruct (run_alone _ _ _ n E2 L2) as [N2 G2]; [rewrite app_length; cbn; unfold n; lia|].
  rewrite nth_error_app2 in N2 by (unfold n; lia). replace (n - length t1)%nat with 0%nat in N2 by (unfold n; lia). cbn [nth_error] in N2.
  rewrite app_length in G2. cbn [length] in G2. fold n in G2. fold m in G2.
  cbn [life_run life_step] in E3. unfold alive in E3. rewrite N2 in E3. cbn [option_map] in E3.
  destruct (run_alone _ _ _ n E3 L3) as [N3 _]; [rewrite app_length; cbn; fold m; lia|].
  destruct (run_alone _ _ _ m E3 L4) as [M3 G3]; [rewrite app_length; cbn; unfold m; lia|].
  rewrite nth_error_app1 in N3 by (fold m; lia). rewrite N2 in N3.
  rewrite nth_error_app2 in M3 by (unfold m; lia). replace (m - length t2)%nat with 0%nat in M3 by (unfold m; lia). cbn [nth_error] in M3.
  pose proof (own_intact t3 n N3) as I1.
  split; [exact (intact_works _ _ I1)|]. split; [exact (intact_works _ _ (refers_intact _ _ _ M3 I1))|].
  cbn [life_step]. unfold alive. rewrite N3. cbn [option_map]. eexists. split; [reflexivity|].
  apply (C53_broken _ _ n).
  - eapply leads_on; [|apply leads_self]. unfold refers. rewrite nth_upd_other by lia. exact M3.
  - exact (QueryFacts.nth_upd _ _ _ _ N3).
Qed.
Print Assumptions C53_copy.

(** A move (a StampJSON put into a vector that grows, say): the new object writes numbers and strings only, the
    old one nothing; once the old one is destroyed, using the new one is undefined behaviour. *)
Theorem C53_move : forall ops1 t1 ops2 t2 ops3 t3,
  life_run [] ops1 = Some t1 ->
  life_run t1 (Construct :: ops2) = Some t2 -> Forall (leaves_alone (length t1)) ops2 ->
  life_run t2 (MoveOf (length t1) :: ops3) = Some t3 ->
  Forall (leaves_alone (length t1)) ops3 -> Forall (leaves_alone (length t2)) ops3 ->
  writes_nothing t3 (length t1) /\ writes_scalars t3 (length t2)
  /\ exists t4, life_step t3 (Destroy (length t1)) = Some t4 /\ broken t4 (length t2).
Proof.
  intros ops1 t1 ops2 t2 ops3 t3 E1 E2 L2 E3 L3 L4. set (n := length t1) in *. set (m := length t2) in *.
  cbn [life_run life_step] in E2. fold n in E2.
  destruct (run_alone _ _ _ n E2 L2) as [N2 G2]; [rewrite app_length; cbn; unfold n; lia|].
  rewrite nth_error_app2 in N2 by (unfold n; lia). replace (n - length t1)%nat with 0%nat in N2 by (unfold n; lia). cbn [nth_error] in N2.
  rewrite app_length in G2. cbn [length] in G2. fold n in G2. fold m in G2.
  cbn [life_run life_step] in E3. unfold alive in E3. rewrite N2 in E3. cbn [option_map] in E3.
  destruct (run_alone _ _ _ n E3 L3) as [N3 _]; [rewrite app_length, upd_length; cbn; fold m; lia|].
  destruct (run_alone _ _ _ m E3 L4) as [M3 G3]; [rewrite app_length, upd_length; cbn; unfold m; lia|].
  rewrite nth_error_app1, (QueryFacts.nth_upd _ _ _ _ N2) in N3 by (rewrite upd_length; fold m; lia).
  rewrite nth_error_app2 in M3 by (rewrite upd_length; unfold m; lia). rewrite upd_length in M3.
  replace (m - length t2)%nat with 0%nat in M3 by (unfold m; lia). cbn [nth_error] in M3.
  split; [exact (emptied_nothing _ _ N3)|]. split; [exact (emptied_scalars _ _ _ M3 N3)|].
  cbn [life_step]. unfold alive. rewrite N3. cbn [option_map]. eexists. split; [reflexivity|].
  apply (C53_broken _ _ n).
  - eapply leads_on; [|apply leads_self]. unfold refers. rewrite nth_upd_other by lia. exact M3.
  - exact (QueryFacts.nth_upd _ _ _ _ N3).
Qed.
Print Assumptions C53_move.

(** Every program: it is carried out as long as its operations are on objects that exist, and what an object
    holds afterwards follows from the history alone. *)
Theorem C53_history : forall ops,
  (legal (rev ops) <-> exists t, life_run [] ops = Some t)
  /\ forall t, life_run [] ops = Some t ->
     length t = made (rev ops)
     /\ (forall i f, nth_error t i = Some (Live f) <-> has (rev ops) i f)
     /\ (forall i, nth_error t i = Some Dead <-> (i < made (rev ops))%nat /\ forall f, ~ has (rev ops) i f).
Proof.
  intros ops. destruct (history ops) as [H1 H2]. split; [exact H1|]. intros t E. destruct (H2 t E) as [L T].
  split; [exact L|]. split; [exact T|]. intros i. rewrite <- L. split.
  - intros D. split; [apply nth_error_Some; congruence|]. intros f H. apply T in H. congruence.
  - intros [Hi N]. destruct (nth_error t i) as [[|f]|] eqn:E1; [reflexivity| |].
    + exfalso. exact (N f (proj1 (T i f) E1)).
    + apply nth_error_None in E1. lia.
Qed.
Print Assumptions C53_history.

Example C53_history_case : has [MoveAssign 0 1; CopyOf 1; Construct; Construct] 0 (Some 1%nat)
  /\ has [MoveAssign 0 1; CopyOf 1; Construct; Construct] 1 None
  /\ legal [MoveAssign 0 1; CopyOf 1; Construct; Construct].
Proof.
  assert (A : has [CopyOf 1; Construct; Construct] 1 (Some 1%nat)).
  { apply has_still; [|exact I]. exact (has_constructed [Construct]). }
  split; [eapply has_move_assigned; exact A|]. split; [eapply has_move_assigned_from; exact A|].
  repeat apply legal_next; try exact I; [exact legal_start| |].
  - exists (Some 1%nat). exact (has_constructed [Construct]).
  - split; [discriminate|]. split; [|eexists; exact A]. exists (Some 0%nat). apply has_still; [|exact I]. apply has_still; [|exact I].
    exact (has_constructed []).
Qed.

(** Two objects that have been assigned to each other's copies refer to each other and work; after a move out of
    the second and the end of the first, nothing is left that does. *)
Example C53_case :
  exists t, life_run [] [Construct; Construct; CopyOf 0; CopyAssign 0 1; CopyAssign 1 2] = Some t
    /\ refers t 0 1 /\ refers t 1 0 /\ intact t 0 /\ works t 2
    /\ exists t', life_run t [MoveOf 1; Destroy 0] = Some t' /\ broken t' 3 /\ writes_nothing t' 1.
Proof.
  eexists. split; [reflexivity|]. split; [reflexivity|]. split; [reflexivity|].
  assert (I1 : intact [Live (Some 1%nat); Live (Some 0%nat); Live (Some 0%nat)] 0).
  { assert (K : forall z j, leads [Live (Some 1%nat); Live (Some 0%nat); Live (Some 0%nat)] z j -> z = 0%nat \/ z = 1%nat ->
      exists r, refers [Live (Some 1%nat); Live (Some 0%nat); Live (Some 0%nat)] j r).
    { induction 1 as [a|a r j E L IH]; intros [->| ->]; try (eexists; reflexivity); apply IH; injection E as <-; tauto. }
    intros j L. apply (K 0%nat j L). tauto. }
  split; [exact I1|]. split.
  - apply C53_works. eapply refers_intact; [reflexivity|exact I1].
  - eexists. split; [reflexivity|]. split.
    + apply (C53_broken _ _ 0%nat); [|reflexivity]. eapply leads_on; [reflexivity|apply leads_self].
    + apply C53_nothing. reflexivity.
Qed.
