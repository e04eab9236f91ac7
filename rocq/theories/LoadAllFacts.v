(** LoadAll against its meaning on bytes. *)
From Verif Require Import Base BaseFacts Blob BlobSpec BlobFacts RunSpec RunFacts Sim LocalSpec LocalFacts Galley LoadSpec LoadFacts LoadAllSpec.
Local Open Scope Z_scope.

Lemma kept_bite mx c : -1 <= mx -> firstn (Z.to_nat (bite_size mx c)) c = kept mx c.
Proof.
  intros H. pose proof (zlen_nonneg c) as Z0. unfold kept, bite_size. destruct (mx =? -1) eqn:E.
  - apply firstn_all2. unfold zlen. lia.
  - destruct (Z_le_gt_dec mx (zlen c)) as [C|C]; [rewrite Z.min_l by lia; reflexivity|]. rewrite Z.min_r by lia.
    rewrite !firstn_all2; [reflexivity| |]; unfold zlen in *; lia.
Qed.

(** Chunks of which the first [length pre] are large enough. *)
Lemma load_each_ok : forall l cs rest_l rest_cs (st : loads blob),
  Forall (fun sl => sane_sizes (fst (snd sl)) (snd (snd sl))) l ->
  Forall2 (fun sl c => wf c /\ fst (snd sl) <= zlen (content c)) l cs ->
  exists st', load_each (l ++ rest_l) (cs ++ rest_cs) st = load_each rest_l rest_cs st'
    /\ (forall s, ~ In s (map fst l) -> st' s = st s)
    /\ (NoDup (map fst l) -> Forall2 (fun sl c => exists d, st' (fst sl) = Some d /\ holds d (kept (snd (snd sl)) (content c))) l cs).
Proof.
  induction l as [|[s [mn mx]] l IH]; intros cs rl rc st HS HC; inversion HC as [|? c ? cs' [Wc Hc] HC']; subst.
  - exists st. repeat split; auto.
  - inversion HS as [|? ? S1 S2]; subst. cbn [fst snd] in *.
    destruct (load_ok mn mx c (content c) S1 (conj Wc eq_refl) Hc) as (d & b' & E & H1 & _).
    rewrite kept_bite in H1 by apply S1.
    destruct (IH cs' rl rc (loads_set st s (Some d)) S2 HC') as (st' & E' & K1 & K2).
    exists st'. cbn [app load_each]. rewrite E. cbn [fst]. split; [exact E'|]. split.
    + intros s' N. cbn [map fst In] in N. rewrite K1 by tauto. unfold loads_set. destruct (Nat.eqb s' s) eqn:Q; [|reflexivity].
      apply Nat.eqb_eq in Q. subst. tauto.
    + intros ND. cbn [map fst] in ND. inversion ND as [|? ? N1 N2]; subst. constructor; [|apply K2; exact N2].
      exists d. cbn [fst snd]. split; [|exact H1]. rewrite K1 by exact N1. unfold loads_set. rewrite Nat.eqb_refl. reflexivity.
Qed.

Lemma app_same_len {A} : forall (a a' b b' : list A), length a = length a' -> a ++ b = a' ++ b' -> a = a' /\ b = b'.
Proof.
  induction a as [|x a IH]; intros [|y a'] b b' H E; try discriminate H; [split; [reflexivity|exact E]|].
  cbn [app] in E. injection E as -> E. injection H as H. destruct (IH a' b b' H E) as [-> ->]. split; reflexivity.
Qed.

Lemma load_each_last l cs (st st' : loads blob) pre s mn mx post cp c cq :
  Forall (fun sl => sane_sizes (fst (snd sl)) (snd (snd sl))) l -> Forall2 (fun sl c => wf c /\ fst (snd sl) <= zlen (content c)) l cs ->
  load_each l cs st = (Ok tt, st') -> l = pre ++ (s, (mn, mx)) :: post -> cs = cp ++ c :: cq -> length pre = length cp -> ~ In s (map fst post) ->
  exists d, st' s = Some d /\ holds d (kept mx (content c)).
Proof.
  intros HS HC E -> -> HL HN.
  apply Forall_app in HS as [S1 S2]. inversion S2 as [|? ? S3 S4]; subst. cbn [fst snd] in S3.
  apply Forall2_app_inv_l in HC as (cp' & cq' & C1 & C2 & Eq).
  destruct (app_same_len cp cp' (c :: cq) cq' ltac:(rewrite <- HL; clear - C1; induction C1; cbn; congruence) Eq) as [<- <-].
  inversion C2 as [|? ? ? ? [Wc Hc] C4]; subst. cbn [fst snd] in Hc.
  destruct (load_each_ok pre cp ((s, (mn, mx)) :: post) (c :: cq) st S1 C1) as (st1 & E1 & _). rewrite E1 in E.
  destruct (load_ok mn mx c (content c) S3 (conj Wc eq_refl) Hc) as (d & b' & Ed & H1 & _).
  rewrite kept_bite in H1 by apply S3. cbn [load_each] in E. rewrite Ed in E. cbn [fst] in E.
  destruct (load_each_ok post cq [] [] (loads_set st1 s (Some d)) S4 C4) as (st2 & E2 & K & _). rewrite !app_nil_r in E2. rewrite E2 in E.
  cbn [load_each] in E. injection E as <-. exists d. split; [|exact H1]. rewrite K by exact HN. unfold loads_set. rewrite Nat.eqb_refl. reflexivity.
Qed.

(** Unloading distinct stamps: each of them sees its own data. *)
Lemma unload_zip {A} : forall (l : list (nat * M blob A)) (cs : list blob) (st : loads blob),
  NoDup (map fst l) -> Forall (fun se => local (snd se)) l ->
  Forall2 (fun se c => wf c /\ exists d, st (fst se) = Some d /\ holds d (content c)) l cs ->
  unload_all l st = stamp_zip (map snd l) cs.
Proof.
  induction l as [|[s ex] l IH]; intros cs st ND HL HC; inversion HC as [|? c ? cs' (Wc & d & Ed & Wd & Cd) HC']; subst; [reflexivity|].
  inversion ND as [|? ? N1 N2]; subst. inversion HL as [|? ? L1 L2]; subst. cbn [fst snd] in *.
  cbn [unload_all map stamp_zip snd]. unfold Unload. rewrite Ed. cbn [fst snd]. rewrite <- (proj1 (L1 d c Wd Wc Cd)).
  destruct (fst (ex d)) as [v| | | |]; cbn [rbind]; try reflexivity.
  rewrite (IH cs' (loads_set st s (Some (snd (ex d)))) N2 L2).
  - destruct (stamp_zip (map snd l) cs'); reflexivity.
  - clear - HC' N1. induction HC' as [|[s' ex'] c l cs (Wc & d' & Ed & Hd) F IH]; constructor.
    + split; [exact Wc|]. exists d'. split; [|exact Hd]. cbn [fst map In] in *. unfold loads_set.
      destruct (Nat.eqb s' s) eqn:Q; [apply Nat.eqb_eq in Q; tauto|exact Ed].
    + apply IH. cbn [map fst In] in N1. tauto.
Qed.
