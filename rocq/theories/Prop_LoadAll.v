(** C48: LoadAll. *)
From Verif Require Import Base BaseFacts Blob BlobSpec RunSpec RunFacts Sim LocalSpec LocalFacts Arithm StampText VectorSpec SetSpec Prop_Set Galley LoadSpec LoadFacts
  LoadAllSpec LoadAllFacts.
Local Open Scope Z_scope.

(** Chunks no smaller than minSize(): LoadAll succeeds and consumes what ExtractStrSet would.  Every stamp object of
    the set then holds what it keeps of its chunk, the last one if it is in the set several times; other stamps are left
    alone. *)
Theorem C48_load_all : forall l b (st : loads blob) chunks rest, Forall (fun sl => sane_sizes (fst (snd sl)) (snd (snd sl))) l ->
  cuts (set_extract (map snd l)) b chunks rest -> Forall2 (fun sl c => fst (snd sl) <= zlen c) l chunks ->
  exists st', runs (LoadAll l st) b (Ok (Ok tt, st')) rest
    /\ (forall pre s mn mx post cp c cq, l = pre ++ (s, (mn, mx)) :: post -> chunks = cp ++ c :: cq -> length pre = length cp ->
        ~ In s (map fst post) -> exists d, st' s = Some d /\ holds d (kept mx c))
    /\ (forall s, ~ In s (map fst l) -> st' s = st s).
Proof.
  intros l b st chunks rest HS (cs & b' & E & Wcs & <- & Wb & Cb) HC.
  assert (HC' : Forall2 (fun sl c => wf c /\ fst (snd sl) <= zlen (content c)) l cs).
  { clear - HC Wcs. revert cs Wcs HC. induction l as [|x l IH]; intros [|c cs] W F; inversion F; subst; constructor; inversion W; subst; auto. }
  destruct (load_each_ok l cs [] [] st HS HC') as (st' & E1 & K1 & _). rewrite !app_nil_r in E1. change (load_each [] [] st') with (Ok tt, st') in E1.
  exists st'. split; [|split; [|exact K1]].
  - exists b'. split; [|split; assumption]. unfold LoadAll. rewrite (bind_ok _ _ _ _ _ E), E1. reflexivity.
  - intros pre s mn mx post cp c cq El Ec HL HN. apply map_eq_app in Ec as (cp' & c' & -> & <- & Ec). apply map_eq_cons in Ec as (c0 & cq' & -> & <- & <-).
    rewrite map_length in HL. exact (load_each_last l _ st st' pre s mn mx post cp' c0 cq' HS HC' E1 El eq_refl HL HN).
Qed.
Print Assumptions C48_load_all.

(** Less data than minSize() of the whole set: no stamp is loaded, nothing is consumed. *)
Theorem C48_short : forall l (st : loads blob) b d, set_ok (map snd l) -> holds b d -> zlen d < min_total (map snd l) ->
  runs (LoadAll l st) b OutOfData d.
Proof.
  intros l st b d HS Hb Hd. destruct (C22_refuse _ b d HS Hb Hd) as (b' & E & W & C). exists b'. split; [|split; assumption].
  unfold LoadAll, bind. rewrite E. reflexivity.
Qed.
Print Assumptions C48_short.

(** A chunk below minSize() (C24): OutOfData; the stamps before it are loaded, it and those after it keep what they had. *)
Theorem C48_interrupted : forall pre s mn mx post b (st : loads blob) cp c cq rest,
  let l := pre ++ (s, (mn, mx)) :: post in
  Forall (fun sl => sane_sizes (fst (snd sl)) (snd (snd sl))) l -> cuts (set_extract (map snd l)) b (cp ++ c :: cq) rest ->
  Forall2 (fun sl c => fst (snd sl) <= zlen c) pre cp -> zlen c < mn ->
  exists st', runs (LoadAll l st) b (Ok (OutOfData, st')) rest
    /\ (NoDup (map fst pre) -> Forall2 (fun sl c => exists d, st' (fst sl) = Some d /\ holds d (kept (snd (snd sl)) c)) pre cp)
    /\ (forall s, ~ In s (map fst pre) -> st' s = st s).
Proof.
  intros pre s mn mx post b st cp c cq rest l HS (cs & b' & E & Wcs & Ec & Wb & Cb) HC Hc.
  apply map_eq_app in Ec as (cp' & c' & -> & <- & Ec). apply map_eq_cons in Ec as (c0 & cq' & -> & <- & <-).
  apply Forall_app in Wcs as [W1 W2]. inversion W2 as [|? ? W3 W4]; subst.
  assert (HC' : Forall2 (fun sl c => wf c /\ fst (snd sl) <= zlen (content c)) pre cp').
  { clear - HC W1. revert cp' W1 HC. induction pre as [|x l IH]; intros [|c cs] W F; inversion F; subst; constructor; inversion W; subst; auto. }
  apply Forall_app in HS as [S1 S2]. inversion S2 as [|? ? S3 S4]; subst. cbn [fst snd] in S3.
  destruct (load_each_ok pre cp' ((s, (mn, mx)) :: post) (c0 :: cq') st S1 HC') as (st' & E1 & K1 & K2).
  cbn [load_each] in E1. rewrite (load_short mn mx c0 (content c0) S3 (conj W3 eq_refl) Hc) in E1. cbn [fst] in E1.
  exists st'. split; [|split; [|exact K1]].
  - exists b'. split; [|split; [exact Wb|reflexivity]]. unfold LoadAll. rewrite (bind_ok _ _ _ _ _ E). unfold l. rewrite E1. reflexivity.
  - intros ND. specialize (K2 ND). clear - K2. induction K2; constructor; assumption.
Qed.
Print Assumptions C48_interrupted.

(** Distinct stamp objects, chunks between minSize() and maxSize(): LoadAll and then Unload of every stamp in turn give
    exactly what ExtractStrSet gives, exceptions of the stamps included. *)
Theorem C48_unload : forall A (ms : list (member A)) b (st : loads blob) chunks rest,
  Forall (fun m => sane_sizes (fst (sizes m)) (snd (sizes m))) ms -> NoDup (map obj ms) -> Forall (fun m => local (takes m)) ms ->
  cuts (set_extract (map sizes ms)) b chunks rest ->
  Forall2 (fun m c => fst (sizes m) <= zlen c /\ (snd (sizes m) = -1 \/ zlen c <= snd (sizes m))) ms chunks ->
  exists st', runs (LoadAll (map (fun m => (obj m, sizes m)) ms) st) b (Ok (Ok tt, st')) rest
    /\ unload_all (map (fun m => (obj m, takes m)) ms) st' = fst (ExtractSet (map (fun m => (sizes m, takes m)) ms) b).
Proof.
  intros A ms b st chunks rest HS ND HL (cs & b' & E & Wcs & <- & Wb & Cb) HC.
  set (l := map (fun m => (obj m, sizes m)) ms).
  assert (El : map snd l = map sizes ms) by (unfold l; rewrite map_map; reflexivity).
  assert (Eo : map fst l = map obj ms) by (unfold l; rewrite map_map; reflexivity).
  assert (HC' : Forall2 (fun sl c => wf c /\ fst (snd sl) <= zlen (content c)) l cs).
  { unfold l. clear - HC Wcs. revert cs Wcs HC. induction ms as [|x ms IH]; intros [|c cs] W F; inversion F as [|? ? ? ? [F1 F2]]; subst; constructor; inversion W; subst; auto. }
  assert (HS' : Forall (fun sl => sane_sizes (fst (snd sl)) (snd (snd sl))) l) by (unfold l; apply Forall_map; exact HS).
  destruct (load_each_ok l cs [] [] st HS' HC') as (st' & E1 & K1 & K2). rewrite !app_nil_r in E1. change (load_each [] [] st') with (Ok tt, st') in E1.
  rewrite Eo in K2. specialize (K2 ND).
  exists st'. split.
  - exists b'. split; [|split; assumption]. unfold LoadAll. rewrite El. rewrite (bind_ok _ _ _ _ _ E), E1. reflexivity.
  - unfold ExtractSet. rewrite map_map. cbn [fst]. rewrite (bind_ok _ _ _ _ _ E). unfold lift. cbn [fst].
    rewrite (unload_zip _ cs st'); [rewrite !map_map; reflexivity|rewrite map_map; exact ND|apply Forall_map; exact HL|].
    unfold l in K2. clear - K2 HC Wcs. revert cs Wcs HC K2. induction ms as [|m ms IH]; intros [|c cs] W F K; inversion F as [|? ? ? ? [F1 F2]]; subst; constructor; inversion W; inversion K as [|? ? ? ? (d & K3 & K4)]; subst.
    + split; [assumption|]. exists d. split; [exact K3|]. cbn [fst snd] in K4. replace (kept (snd (sizes m)) (content c)) with (content c) in K4; [exact K4|].
      unfold kept. destruct (snd (sizes m) =? -1) eqn:Q; [reflexivity|]. symmetry. apply firstn_all2. unfold zlen in *. lia.
    + apply IH; assumption.
Qed.
Print Assumptions C48_unload.

(** A number and text of any length: 2 bytes for the number, the rest for the text. *)
Definition set_case : list (member bytes) := [mkMember 0 (2, 2) (ArithExtractStr Short); mkMember 7 (1, -1) ASCIIExtractStr].
Definition set_case_blob : blob := blob_of (lit "AByz!").

Example C48_case : Forall (fun m => sane_sizes (fst (sizes m)) (snd (sizes m))) set_case /\ NoDup (map obj set_case)
  /\ Forall (fun m => local (takes m)) set_case
  /\ (exists chunks, cuts (set_extract (map sizes set_case)) set_case_blob chunks []
      /\ Forall2 (fun m c => fst (sizes m) <= zlen c /\ (snd (sizes m) = -1 \/ zlen c <= snd (sizes m))) set_case chunks)
  /\ fst (ExtractSet (map (fun m => (sizes m, takes m)) set_case) set_case_blob) = Ok [lit "16961"; lit "yz!"].
Proof.
  split; [repeat constructor; cbn; lia|]. split; [repeat constructor; cbn; intuition discriminate|].
  split; [apply Forall_cons; [apply sim_local, sim_ArithExtractStr|apply Forall_cons; [apply sim_local, sim_ASCII|apply Forall_nil]]|].
  split; [|vm_compute; reflexivity]. exists [lit "AB"; lit "yz!"]. split.
  - apply (cuts_transfer _ _ _ (lit "AByz!") _ _ (sim_set_extract _)); [apply holds_blob_of; vm_compute; reflexivity|vm_compute; reflexivity].
  - repeat apply Forall2_cons; [| |constructor]; (split; [vm_compute; discriminate|]); [right; vm_compute; discriminate|left; reflexivity].
Qed.

(** A stamp that is in the set twice holds the second chunk; C24's chunk of minSize() - 1 bytes leaves it and the third
    stamp as they were. *)
Example C48_twice : forall st : loads blob, exists st' d, runs (LoadAll [(3%nat, (2, 2)); (3%nat, (2, 2))] st) (blob_of (lit "abcde")) (Ok (Ok tt, st')) (lit "e")
  /\ st' 3%nat = Some d /\ holds d (lit "cd").
Proof.
  intros st. destruct (C48_load_all [(3%nat, (2, 2)); (3%nat, (2, 2))] (blob_of (lit "abcde")) st [lit "ab"; lit "cd"] (lit "e")) as (st' & R & K & _).
  - repeat constructor; cbn; lia.
  - apply (cuts_transfer _ _ _ (lit "abcde") _ _ (sim_set_extract _)); [apply holds_blob_of; vm_compute; reflexivity|vm_compute; reflexivity].
  - repeat apply Forall2_cons; [| |constructor]; vm_compute; discriminate.
  - destruct (K [(3%nat, (2, 2))] 3%nat 2 2 [] [lit "ab"] (lit "cd") [] eq_refl eq_refl eq_refl (fun x => x)) as (d & E & H).
    exists st', d. split; [exact R|split; [exact E|exact H]].
Qed.

Example C48_stops : exists b rest, let l := [(0%nat, (0, -1)); (1%nat, (1, -1)); (2%nat, (0, -1))] in
  Forall (fun sl => sane_sizes (fst (snd sl)) (snd (snd sl))) l
  /\ cuts (set_extract (map snd l)) b ([lit "ab"] ++ [] :: [lit "cd"]) rest /\ Forall2 (fun sl c => fst (snd sl) <= zlen c) [(0%nat, (0, -1))] [lit "ab"]
  /\ zlen (@nil byte) < 1.
Proof.
  exists (blob_of (le16 65535 ++ le16 0 ++ le16 65535 ++ lit "abcd")), []. cbv zeta. split; [repeat constructor; cbn; lia|]. split.
  - apply (cuts_transfer _ _ _ (le16 65535 ++ le16 0 ++ le16 65535 ++ lit "abcd") _ _ (sim_set_extract _)); [apply holds_blob_of; vm_compute; reflexivity|vm_compute; reflexivity].
  - split; [|reflexivity]. repeat constructor; vm_compute; discriminate.
Qed.
