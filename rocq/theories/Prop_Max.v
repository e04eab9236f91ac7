(** C47: stamps keep to their maxSize(). *)
From Verif Require Import Base BaseFacts Blob BlobSpec BlobFacts RunSpec RunFacts Sim Oracle Arithm ArithFacts StampDict DictFacts DictWords StampText
  Galley Stamps StampsEq Json LeafSpec TermSpec ShrinkFacts TermFacts Prop_Blob Prop_Termination NestFacts VectorSpec SetSpec SetFacts SetLimits LotSpec LotFacts Prop_Lottery
  MaxSpec MaxFacts.
Local Open Scope Z_scope.

(** C47.  maxSize() other than -1 bounds what ExtractStr consumes, in every graph whose user stamps keep to
    theirs. *)
Theorem C47_bound : forall h x m b d v rest, graph_modest h -> modest h x -> maxSize h x = Ok m -> 0 <= m ->
  holds b d -> zlen d < 2 ^ 31 -> runs (ExtractStr h x) b (Ok v) rest -> zlen d - zlen rest <= m.
Proof.
  intros h x m b d v rest G W Em Hm Hb Hd (b' & E & _ & <-).
  exact (modest_runs h G (S (Z.to_nat (zlen d))) x W m b d v b' Em Hm Hb Hd ltac:(pose proof (zlen_nonneg d); lia) E).
Qed.
Print Assumptions C47_bound.

(** The stamps of the library keep to their maxSize(); those of unlimited size report -1. *)
Theorem C47_leaves : (forall t, within (sizeof t) (ArithExtractStr t)) /\ (forall d, within (DictMaxSize d) (DictExtractStr d))
  /\ within 8 JSONStringExtractStr /\ TextMaxSize = -1.
Proof.
  assert (EV : forall t b d v b', holds b d -> ExtractValue t b = (Ok v, b') -> zlen d - zlen (content b') = sizeof t).
  { intros t b d v b' Hb E. pose proof (sizeof_range t) as St. destruct (Z_lt_le_dec (zlen d) (sizeof t)) as [C|C].
    - destruct (run_transfer _ _ b d _ _ (sim_ExtractValue t) Hb (list_ExtractValue_ood t d C)) as (? & X & _). rewrite E in X. discriminate X.
    - destruct (run_transfer _ _ b d _ _ (sim_ExtractValue t) Hb (list_ExtractValue t d C)) as (b2 & X & _ & Y). rewrite E in X.
      injection X as _ <-. rewrite Y, zlen_skipn by lia. lia. }
  assert (DI : forall d, within (DictMaxSize d) (DictExtractStr d)).
  { intros d b l v rest Hb (b' & E & _ & <-). unfold DictExtractStr, DictMaxSize in *. destruct (ChooseStampSize d) as [w mv] eqn:Q. cbn [fst].
    apply bind_ok_inv in E as (o & b1 & E1 & E). apply bind_ok_inv in E as (i & b2 & E2 & E). apply lift_ok_inv in E2 as [_ ->]. apply lift_ok_inv in E as [_ ->].
    destruct (sized_inv w b l o b1 Hb E1) as (r & (_ & <-) & Zr & _). lia. }
  split; [|split; [exact DI|split; [|reflexivity]]].
  - intros t b d v rest Hb (b' & E & _ & <-). unfold ArithExtractStr in E. apply bind_ok_inv in E as (z & b1 & E1 & E). apply lift_ok_inv in E as [_ ->].
    rewrite (EV t b d z b1 Hb E1). lia.
  - intros b d v rest Hb (b' & E & W & <-). unfold JSONStringExtractStr in E. apply bind_ok_inv in E as (z & b1 & E1 & E). apply ret_inv in E as [_ ->].
    pose proof (DI DictLCAlphaSmall b d z (content b1) Hb ltac:(exists b1; repeat split; assumption)) as X.
    change (DictMaxSize DictLCAlphaSmall) with 1 in X. lia.
Qed.
Print Assumptions C47_leaves.

(** A set of stamps: -1 if one of them is unbounded, else all maxima and 2 bytes for each variated stamp. *)
Theorem C47_set : forall h j xs L, Forall2 (report h) xs L -> Forall stamp_ok L ->
  sum (map snd (filter (fun s => negb (unb s)) L)) + 2 * count var L < 2 ^ 31 ->
  maxSize h (XSet j xs) = Ok (if 0 <? count unb L then -1 else sum (map snd L) + 2 * count var L).
Proof.
  intros h j xs L HR HL HT. unfold maxSize. rewrite query_set. cbv zeta iota. rewrite (set_max_eq _ _ _ (ContractFacts.set_min_report h xs L HR)). cbn [lift fst].
  exact (set_max_exact L HL HT).
Qed.
Print Assumptions C47_set.

(** Lotteries built from stamps of limited size, which still report what they reported then. *)
Theorem C47_lottery : forall h l L recorded, nth_error (lots h) l = Some L -> built L recorded ->
  Forall2 (report h) (lot_members L) recorded -> Forall (fun s => 0 <= snd s <= int_max) recorded -> honest h l L.
Proof.
  intros h l L rc N HB HR HF m Em Hm y Iy.
  assert (X : exists s, In s rc /\ report h y s).
  { clear - HR Iy. induction HR as [|y' s ys rc Q F IH]; [destruct Iy|]. destruct Iy as [->|Iy]; [exists s; split; [left; reflexivity|exact Q]|].
    destruct (IH Iy) as (s' & I1 & I2). exists s'. split; [right; exact I1|exact I2]. }
  destruct X as (s & Is & (_ & Es)). exists (snd s). split; [exact Es|]. pose proof HF as HF'. rewrite Forall_forall in HF'. specialize (HF' s Is). cbv beta in HF'. split; [lia|].
  destruct HB as (init & apps & L0 & -> & HS & HG & _).
  destruct (C29_max init apps L0 HS ltac:(intros X; rewrite X in Is; destruct Is) HF) as (g & w & (_ & G2) & W & R1 & R2).
  unfold maxSize in Em. rewrite query_lot in Em. unfold bind, get_lot in Em. rewrite N in Em. cbn [lift fst] in Em. rewrite HG in Em.
  destruct (Z_le_gt_dec (g + w) int_max) as [Q|Q]; [rewrite (R1 Q) in Em|rewrite (R2 Q) in Em; discriminate Em]. injection Em as <-.
  rewrite HG, (grow_osize _ _ _ (start_osize _ _ HS)), <- zlen_app. rewrite Forall_forall in G2. specialize (G2 (snd s) (in_map snd _ _ Is)). cbv beta in G2.
  rewrite (width_unique _ _ _ W (width_ok (zlen (init ++ apps)) (zlen_nonneg _))) in *. lia.
Qed.
Print Assumptions C47_lottery.

(** Otherwise (C30) a lottery may consume more than its maxSize(): text of unlimited size and a number. *)
Definition loose : heap blob :=
  mkHeap [] [mkLottery [XLeaf 1 (-1) ASCIIExtractStr; XLeaf 2 2 (ArithExtractStr Short)] (lot_grow 1 (lot_new [(1, -1)]) [(2, 2)]) false].

Theorem C47_refuted : exists b d v rest m, holds b d /\ built (mkLottery [XLeaf 1 (-1) ASCIIExtractStr; XLeaf 2 2 (ArithExtractStr Short)] (lot_grow 1 (lot_new [(1, -1)]) [(2, 2)]) false) [(1, -1); (2, 2)]
  /\ maxSize loose (XLot 0) = Ok m /\ 0 <= m /\ runs (ExtractStr loose (XLot 0)) b (Ok v) rest /\ m < zlen d - zlen rest.
Proof.
  exists (blob_of (byte_of_Z 0 :: lit "abcdefgh")), (byte_of_Z 0 :: lit "abcdefgh"), (lit "abcdefgh"), [], 3.
  split; [apply holds_blob_of; vm_compute; reflexivity|]. split; [exists [(1, -1)], [(2, 2)], (lot_new [(1, -1)]); split; [reflexivity|]; split; [left; reflexivity|split; reflexivity]|].
  split; [reflexivity|]. split; [lia|]. split; [|vm_compute; reflexivity].
  set (b := blob_of _). exists (snd (ExtractStr loose (XLot 0) b)).
  split; [rewrite (surjective_pairing (ExtractStr loose (XLot 0) b)) at 1; f_equal; vm_compute; reflexivity|].
  split; [|vm_compute; reflexivity]. apply tame_result; [|apply holds_blob_of; vm_compute; reflexivity].
  split; [|constructor]. split; [intros ? ? []|]. intros Lo x [<-|[]] [<-|[<-|[]]]; constructor; apply C46_leaves.
Qed.
Print Assumptions C47_refuted.

(** A pool of a number and of a set of a number and a text of 1 to 5 bytes; a lottery of that pool and a number. *)
Definition tight_text : sx blob := XLeaf 1 5 (c <- Chop2 1 5 ;; s <- lift (AsByteVector c) ;; ret s).
Definition tight : heap blob :=
  mkHeap [new_pool [XLeaf 4 4 (ArithExtractStr Int); XSet (fun l => concat l) [XLeaf 2 2 (ArithExtractStr Short); tight_text]]]
    [mkLottery [XPool 0; XLeaf 8 8 (ArithExtractStr Long)] (lot_new [(6, 11); (8, 8)]) false].

Example C47_case : graph_modest tight /\ maxSize tight (XPool 0) = Ok 11 /\ maxSize tight (XLot 0) = Ok 12
  /\ fst (ExtractStr tight (XLot 0) (blob_of (byte_of_Z 0 :: le16 65535 ++ le16 65535 ++ lit "ABcdefghijkl"))) = Ok (lit "16961cdefg").
Proof.
  assert (TT : tame (c <- Chop2 1 5 ;; s <- lift (AsByteVector c) ;; ret s) /\ within 5 (c <- Chop2 1 5 ;; s <- lift (AsByteVector c) ;; ret s)).
  { split.
    - intros b Hb. assert (Sb : small (Size b) b) by (split; [exact Hb|lia]). destruct (text_tame (B := blob) 5 eq_refl (fun v => v) (Size b)) as [H1 H2].
      split; [exact (H2 b Sb)|exact (proj1 (H1 b Sb))].
    - intros b d v rest Hb (b' & E & _ & <-). apply bind_ok_inv in E as (c & b1 & E1 & E). apply bind_ok_inv in E as (s & b2 & E2 & E).
      apply lift_ok_inv in E2 as [_ ->]. apply ret_inv in E as [_ ->]. destruct Hb as [Hw <-].
      destruct (C03_chop_min_max b 1 5 Hw ltac:(lia) ltac:(lia)) as [C1 C2]. destruct (Z_lt_le_dec (blobSize b) 1) as [C|C].
      + rewrite (C1 C) in E1. discriminate E1.
      + destruct (C2 C) as (c' & b3 & E3 & _ & _ & _ & E4). rewrite E3 in E1. injection E1 as _ <-.
        pose proof (content_len b Hw) as CL. rewrite E4. rewrite zlen_skipn by lia. lia. }
  assert (MA : forall t, modest tight (XLeaf (sizeof t) (sizeof t) (ArithExtractStr t))).
  { intros t. pose proof (sizeof_range t). constructor; [apply C46_leaves|lia|]. intros _. apply C47_leaves. }
  split; [|repeat split; vm_compute; reflexivity]. split.
  - intros P y [<-|[]] [E|[E|[]]]; injection E as <-.
    + split; [exact (MA Int)|]. intros k E. vm_compute in E. injection E as <-. lia.
    + split; [|intros k E; vm_compute in E; injection E as <-; lia].
      apply m_set with (L := [(2, 2); (1, 5)]); [|repeat constructor| |vm_compute; discriminate|intros _; vm_compute; reflexivity].
      * repeat apply Forall_cons; [exact (MA Short)| |constructor]. constructor; [apply TT|lia|intros _; apply TT].
      * split; [repeat constructor; cbn; lia|split; reflexivity].
  - intros [|[|l]] L E; cbn in E; try discriminate E. injection E as <-. split.
    + repeat apply Forall_cons; [constructor|exact (MA Long)|constructor].
    + apply (C47_lottery tight 0 _ [(6, 11); (8, 8)]); [reflexivity| |repeat constructor|repeat constructor; cbn; lia].
      exists [(6, 11); (8, 8)], [], (lot_new [(6, 11); (8, 8)]). repeat split. left. reflexivity.
Qed.
