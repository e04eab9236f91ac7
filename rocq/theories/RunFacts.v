(** From runs on byte lists to runs on blobs. *)
From Verif Require Import Base BaseFacts Blob BlobSpec BlobFacts RunSpec Sim.

Lemma holds_rel b l : holds b l -> Rel b l.
Proof.
  intros (Hw & <-). split; [exact Hw|split; [|reflexivity]]. exact (content_small b Hw).
Qed.

Lemma run_transfer {A} (f : M blob A) (g : M bytes A) b l r rest :
  simS Rel eq f g -> holds b l -> g l = (r, rest) -> runs f b r rest.
Proof.
  intros Hs Hb Hg. destruct (Hs b l (holds_rel b l Hb)) as (Hr & Hw & _ & Hc). rewrite Hg in Hr, Hc.
  apply res_rel_eq in Hr. exists (snd (f b)). cbn [fst snd] in *. rewrite <- Hr, <- surjective_pairing.
  repeat split; assumption.
Qed.

Lemma cuts_transfer (f : M blob (list blob)) (g : M bytes (list bytes)) b l cs rest :
  simS Rel (Forall2 Rel) f g -> holds b l -> g l = (Ok cs, rest) -> cuts f b cs rest.
Proof.
  intros Hs Hb Hg. destruct (Hs b l (holds_rel b l Hb)) as (Hr & Hw & _ & Hc). rewrite Hg in Hr, Hc.
  cbn [fst snd] in *. destruct (f b) as [r b'] eqn:E. cbn [fst snd] in *.
  destruct r as [cs'| | | |]; cbn in Hr; try tauto.
  exists cs', b'. split; [exact E|].
  assert (H : Forall wf cs' /\ map content cs' = cs).
  { clear - Hr. induction Hr as [|c l cs' cs (Hc & _ & E) Hr [IH1 IH2]]; [split; constructor|].
    split; [constructor; assumption|]. cbn [map]. rewrite IH2. f_equal. exact E. }
  destruct H as [H1 H2]. repeat split; assumption.
Qed.

Lemma cuts_transfer_fail {A1 A2} R (f : M blob A1) (g : M bytes A2) b l rest :
  simS Rel R f g -> holds b l -> g l = (OutOfData, rest) -> runs f b OutOfData rest.
Proof.
  intros Hs Hb Hg. destruct (Hs b l (holds_rel b l Hb)) as (Hr & Hw & _ & Hc). rewrite Hg in Hr, Hc.
  destruct (f b) as [r b'] eqn:E. cbn [fst snd] in *.
  destruct r; cbn in Hr; try tauto. exists b'. split; [exact E|split; assumption].
Qed.

Lemma run_transfer_ub {A1 A2} R (f : M blob A1) (g : M bytes A2) b l :
  simS Rel R f g -> holds b l -> fst (g l) = UB -> fst (f b) = UB.
Proof.
  intros Hs Hb Hg. destruct (Hs b l (holds_rel b l Hb)) as (Hr & _). rewrite Hg in Hr.
  destruct (fst (f b)); cbn in Hr; tauto.
Qed.

Lemma run_transfer_div {A1 A2} R (f : M blob A1) (g : M bytes A2) b l :
  simS Rel R f g -> holds b l -> fst (g l) = Diverge -> fst (f b) = Diverge.
Proof.
  intros Hs Hb Hg. destruct (Hs b l (holds_rel b l Hb)) as (Hr & _). rewrite Hg in Hr.
  destruct (fst (f b)); cbn in Hr; tauto.
Qed.

Lemma holds_blob_of l : zlen l < 2 ^ 63 -> holds (blob_of l) l.
Proof.
  intros H. pose proof (zlen_nonneg l). split; [apply newBlob_wf; lia|].
  unfold blob_of. rewrite newBlob_content by lia. unfold slice, zlen. cbn [Z.to_nat skipn].
  rewrite Nat2Z.id. apply firstn_all.
Qed.

Lemma holds_size b l : holds b l -> blobSize b = zlen l.
Proof. intros (Hw & <-). exact (content_len b Hw). Qed.

Lemma holds_small b l : holds b l -> zlen l < 2 ^ 63.
Proof. intros (Hw & <-). exact (content_small b Hw). Qed.
