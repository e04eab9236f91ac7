(** Load and Unload against their meaning on bytes. *)
From Verif Require Import Base BaseFacts Blob BlobSpec BlobFacts RunSpec RunFacts Sim LocalSpec LocalFacts Galley LoadSpec.

Lemma load_ok mn mx b l : sane_sizes mn mx -> holds b l -> mn <= zlen l ->
  exists c b', Load mn mx b = (Ok c, b')
    /\ holds c (firstn (Z.to_nat (bite_size mx l)) l) /\ holds b' (skipn (Z.to_nat (bite_size mx l)) l).
Proof.
  intros [Hmn Hmx] Hb Hl. pose proof (holds_size b l Hb) as Es. destruct Hb as [Hw Hc].
  pose proof (zlen_nonneg l). unfold Load. change (Size b) with (blobSize b). rewrite Es.
  rewrite (u64_id mn) by lia. destruct (zlen l <? mn) eqn:E; [lia|].
  assert (K : (if isUnbounded mn mx then zlen l else if zlen l <? u64 mx then zlen l else u64 mx) = bite_size mx l
    /\ 0 <= bite_size mx l <= zlen l).
  { unfold isUnbounded, bite_size. destruct (mx =? -1) eqn:Eu; [lia|].
    rewrite (u64_id mx) by lia. destruct (zlen l <? mx) eqn:E2; lia. }
  destruct K as [-> K].
  destruct (@law_chop_ok blob _ BlobBlobLaws b (bite_size mx l) Hw) as (c & b' & E' & H1 & H2 & H3 & H4).
  { change (cont b) with (content b). rewrite Hc. exact K. }
  change (cont b) with (content b) in *. rewrite Hc in *. exists c, b'. split; [exact E'|].
  split; split; assumption.
Qed.

Lemma load_short mn mx b l : sane_sizes mn mx -> holds b l -> zlen l < mn -> Load mn mx b = (OutOfData, b).
Proof.
  intros [Hmn Hmx] Hb Hl. pose proof (holds_size b l Hb) as Es. unfold Load. change (Size b) with (blobSize b).
  rewrite Es, (u64_id mn) by lia. destruct (zlen l <? mn) eqn:E; [reflexivity|lia].
Qed.

Lemma call_says c st b rs l : sane_call c -> ldrel st rs -> holds b l ->
  fst (fst (do_call c st b)) = fst (fst (says_call c rs l))
  /\ ldrel (snd (fst (do_call c st b))) (snd (fst (says_call c rs l)))
  /\ holds (snd (do_call c st b)) (snd (says_call c rs l)).
Proof.
  intros Hc Hs Hb. destruct c as [s mn mx|s ex]; cbn [do_call says_call sane_call] in *.
  - unfold LoadInto. destruct (zlen l <? mn) eqn:E.
    + rewrite (bind_ood _ _ _ b (load_short mn mx b l Hc Hb ltac:(lia))). cbn. auto.
    + destruct (load_ok mn mx b l Hc Hb ltac:(lia)) as (c & b' & E' & H1 & H2).
      rewrite (bind_ok _ _ _ _ _ E'). cbn. split; [reflexivity|split; [|exact H2]].
      intros s'. unfold loads_set. destruct (Nat.eqb s' s); [exact H1|apply Hs].
  - unfold Unload. specialize (Hs s) as Hss. destruct (st s) as [c|], (rs s) as [d|]; try contradiction.
    + cbn. destruct Hc as [Hl Hw]. destruct Hss as [W C].
      assert (Hd : holds (blob_of d) d) by (apply holds_blob_of; rewrite <- C; apply (content_small c W)).
      destruct (Hl c (blob_of d) W (proj1 Hd) ltac:(rewrite C; symmetry; apply Hd)) as [R1 R2].
      split; [exact R1|split; [|exact Hb]]. intros s'. unfold loads_set. destruct (Nat.eqb s' s); [|apply Hs].
      split; [apply Hw; exact W|exact R2].
    + cbn. auto.
Qed.

Lemma calls_says cs : forall st b rs l, Forall sane_call cs -> ldrel st rs -> holds b l ->
  fst (fst (do_calls cs st b)) = fst (fst (says_calls cs rs l))
  /\ ldrel (snd (fst (do_calls cs st b))) (snd (fst (says_calls cs rs l)))
  /\ holds (snd (do_calls cs st b)) (snd (says_calls cs rs l)).
Proof.
  induction cs as [|c cs IH]; intros st b rs l Hc Hs Hb; cbn [do_calls says_calls]; [auto|].
  inversion Hc as [|? ? Hc1 Hc2]; subst.
  pose proof (call_says c st b rs l Hc1 Hs Hb) as (K1 & K2 & K3).
  destruct (do_call c st b) as [[o st'] b'], (says_call c rs l) as [[o2 rs'] l']. cbn [fst snd] in *.
  pose proof (IH st' b' rs' l' Hc2 K2 K3) as (J1 & J2 & J3).
  destruct (do_calls cs st' b') as [[os st''] b''], (says_calls cs rs' l') as [[os2 rs''] l'']. cbn [fst snd] in *.
  subst. auto.
Qed.
