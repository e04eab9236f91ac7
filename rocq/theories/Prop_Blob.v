(** C01-C05: the Blob class. *)
From Verif Require Import Base BaseFacts Blob BlobSpec BlobFacts BlobHistory BlobHistoryFacts.

(** C01.  [wf] and [content] are in BlobSpec.v; [newBlob] produces such blobs (C01_new_blob). *)
Theorem C01_chop_splits : forall b n, wf b -> 0 <= n < 2 ^ 64 ->
  (n <= blobSize b ->
   exists c b', blobChop n b = (Ok c, b')
     /\ wf c /\ wf b'
     /\ content c = firstn (Z.to_nat n) (content b) /\ blobSize c = n
     /\ content b' = skipn (Z.to_nat n) (content b) /\ blobSize b' = blobSize b - n
     /\ content c ++ content b' = content b) /\
  (blobSize b < n -> blobChop n b = (OutOfData, b)).
Proof.
  intros b n Hw Hn. pose proof (content_len b Hw) as Hl. split; intros Hs.
  - destruct (chop_ok b n Hw) as (c & b' & E & Hc & Hb & Ec & Eb); [lia|].
    exists c, b'. rewrite (content_len c Hc), (content_len b' Hb), Ec, Eb.
    rewrite zlen_firstn, zlen_skipn, firstn_skipn by lia. repeat split; (assumption || lia).
  - apply chop_ood; [exact Hw|lia].
Qed.
Print Assumptions C01_chop_splits.

Theorem C01_new_blob : forall m a n, 0 <= a -> 0 <= n -> a + n <= zlen m < 2 ^ 63 ->
  wf (newBlob m (Some a) n) /\ content (newBlob m (Some a) n) = slice m a n
  /\ blobSize (newBlob m (Some a) n) = n.
Proof.
  intros m a n Ha Hn Hl. pose proof (newBlob_wf m a n Ha Hn Hl) as Hw. split; [exact Hw|].
  rewrite (content_len _ Hw), (newBlob_content m a n Ha Hn Hl). split; [reflexivity|].
  apply slice_len; lia.
Qed.
Print Assumptions C01_new_blob.

Example C01_case :
  let b := newBlob [x01; x02; x03; x04] (Some 1) 3 in
  wf b /\ content b = [x02; x03; x04] /\
  content (snd (blobChop 2 b)) = [x04] /\
  blobChop 4 b = (OutOfData, b).
Proof. cbn zeta. split; [apply newBlob_wf; cbn; lia|]. vm_compute. repeat split. Qed.

(** C02.  Any history on the blob of [n] bytes at [a] of buffer [m]: no undefined behaviour, all
    blobs stay inside [a, a+n) and every position is in exactly one of them. *)
Theorem C02_histories_partition : forall m a n ops,
  0 <= a -> 0 <= n -> a + n <= zlen m < 2 ^ 63 ->
  exists live, hrun [newBlob m (Some a) n] ops = Ok live
    /\ (forall b, In b live -> wf b /\ within m b a (a + n))
    /\ (forall p, a <= p < a + n -> exists! i, exists b, nth_error live i = Some b /\ covers m b p).
Proof.
  intros m a n ops Ha Hn Hl.
  destruct (hrun_inv m a (a + n) ops _ (hinv_init m a n Ha Hn Hl)) as (live & E & Hi).
  exists live. split; [exact E|]. split.
  - intros b Hb. split; [apply (hi_wf _ _ _ _ Hi)|apply (hi_in _ _ _ _ Hi)]; exact Hb.
  - intros p Hp. exact (cnt_unique m a (a + n) live p Hi Hp).
Qed.
Print Assumptions C02_histories_partition.

Example C02_case :
  match hrun [newBlob (repeat x07 10) (Some 2) 8]
             [HChop 0 3; HChop2 0 1 2; HChop 1 9; HChop 1 1; HChop2 1 7 8; HChop 0 (-1)] with
  | Ok live => map blobSize live = [3; 2; 2; 1]
  | _ => False
  end.
Proof. vm_compute. reflexivity. Qed.

(** C03. *)
Theorem C03_chop_min_max : forall b mn mx, wf b -> 0 <= mn < 2 ^ 64 -> 0 <= mx < 2 ^ 64 ->
  (blobSize b < mn -> Chop2 mn mx b = (OutOfData, b)) /\
  (mn <= blobSize b ->
   let k := Z.to_nat (Z.min (blobSize b) mx) in
   exists c b', Chop2 mn mx b = (Ok c, b') /\ wf c /\ wf b'
     /\ content c = firstn k (content b) /\ content b' = skipn k (content b)).
Proof.
  intros b mn mx Hw H1 H2. rewrite chop2_is_chop by (assumption || lia). split; intros Hs.
  - replace (blobSize b <? mn) with true by lia. reflexivity.
  - replace (blobSize b <? mn) with false by lia. cbn zeta.
    apply chop_ok; [exact Hw|]. pose proof (content_len b Hw). lia.
Qed.
Print Assumptions C03_chop_min_max.

Example C03_case :
  let b := newBlob [x01; x02; x03; x04] (Some 0) 4 in
  wf b /\ 3 <= blobSize b /\ content (snd (Chop2 3 (2 ^ 64 - 1) b)) = [].
Proof. cbn zeta. split; [apply newBlob_wf; cbn; lia|]. vm_compute. split; [discriminate|reflexivity]. Qed.

(** C04.  The views are functions of the blob, so they do not change it. *)
Theorem C04_views_agree : forall b, wf b ->
  asVector b = Ok (content b) /\ asString b = Ok (content b)
  /\ DataDup b = Ok (content b, zlen (content b))
  /\ (blobAsByteVector b = Ok (content b) <-> bend b <> u64 (0 - 1))
  /\ (blobAsByteVector b = UB <-> bend b = u64 (0 - 1)).
Proof.
  intros b Hw. split; [exact (asVector_ok b Hw)|]. split; [exact (asString_ok b Hw)|].
  split; [exact (DataDup_ok b Hw)|].
  change (u64 (0 - 1)) with (2 ^ 64 - 1).
  destruct (Z.eq_dec (bend b) (2 ^ 64 - 1)) as [E|E].
  - rewrite (AsByteVector_ub b Hw E). split; split; intros H; try discriminate; try tauto.
  - rewrite (AsByteVector_ok b Hw E). split; split; intros H; try discriminate; tauto.
Qed.
Print Assumptions C04_views_agree.

(** The exceptional blobs are exactly those created with size 0, and chopping never leads there. *)
Theorem C04_exception_is_size_0 : forall m a n, 0 <= a -> 0 <= n -> a + n <= zlen m < 2 ^ 63 ->
  (blobAsByteVector (newBlob m (Some a) n) = UB <-> n = 0) /\
  (forall k c b', 0 <= k -> blobChop k (newBlob m (Some a) n) = (Ok c, b') ->
     (blobAsByteVector b' = UB <-> n = 0) /\ (blobAsByteVector c = UB <-> k = 0)).
Proof.
  intros m a n Ha Hn Hl. pose proof (newBlob_wf m a n Ha Hn Hl) as Hw.
  assert (E64 : forall j, 0 <= j < 2 ^ 63 -> (u64 (j - 1) = u64 (0 - 1) <-> j = 0)).
  { intros j Hj. split; [|intros ->; reflexivity]. intros H.
    destruct (Z.eq_dec j 0) as [->|Hne]; [reflexivity|]. rewrite u64_id in H by lia.
    change (u64 (0 - 1)) with (2 ^ 64 - 1) in H. lia. }
  split.
  - rewrite (proj2 (proj2 (proj2 (proj2 (C04_views_agree _ Hw))))). cbn [newBlob bend]. apply E64. lia.
  - intros k c b' Hk E. destruct (chop_windows _ k Hw Hk) as [[_ H]|[Hle H]].
    { rewrite E in H. discriminate. }
    destruct H as (a' & c' & b'' & E' & _ & Hc & Hb' & _ & _ & _ & Dc & Bc & Sc & _).
    rewrite E in E'. injection E' as <- <-.
    rewrite (proj2 (proj2 (proj2 (proj2 (C04_views_agree _ Hc))))).
    rewrite (proj2 (proj2 (proj2 (proj2 (C04_views_agree _ Hb'))))).
    unfold blobChop in E. destruct (blobSize _ <? k) in E; [discriminate|].
    destruct (ptr_add _ _ _) in E; try discriminate. injection E as <- <-. cbn [bend newBlob].
    rewrite (content_len _ Hw), newBlob_content, slice_len in Hle by lia.
    split; apply E64; lia.
Qed.
Print Assumptions C04_exception_is_size_0.

(** So for chops of chops: the blob that is cut keeps its kind, the piece is exceptional exactly if empty. *)
Theorem C04_chops : forall b k c b', wf b -> 0 <= k -> blobChop k b = (Ok c, b') ->
  (blobAsByteVector b' = UB <-> blobAsByteVector b = UB) /\ (blobAsByteVector c = UB <-> k = 0).
Proof.
  intros b k c b' Hw Hk E. destruct (chop_windows b k Hw Hk) as [[_ H]|[Hle H]]; [rewrite E in H; discriminate|].
  destruct H as (a' & c' & b'' & E' & _ & Hc & Hb' & _ & _ & _ & Dc & Bc & Sc & _). rewrite E in E'. injection E' as <- <-.
  rewrite (proj2 (proj2 (proj2 (proj2 (C04_views_agree _ Hc))))), (proj2 (proj2 (proj2 (proj2 (C04_views_agree _ Hb'))))), (proj2 (proj2 (proj2 (proj2 (C04_views_agree _ Hw))))).
  assert (HX : k < 2 ^ 63).
  { destruct Hw as (a & n & Da & H1 & H2 & H3 & H4). unfold blobSize in Hle. rewrite H4 in Hle. unfold u64 in Hle.
    assert (Q : ((n - 1) mod 2 ^ 64 - bbegin b + 1) mod 2 ^ 64 = n - bbegin b) by (rewrite <- Zplus_mod_idemp_l, Zminus_mod_idemp_l, Zplus_mod_idemp_l; replace (n - 1 - bbegin b + 1) with (n - bbegin b) by lia; apply Z.mod_small; lia).
    lia. }
  unfold blobChop in E. destruct (blobSize b <? k) in E; [discriminate|]. destruct (ptr_add _ _ _) in E; try discriminate. injection E as <- <-. cbn [bend newBlob].
  split; [reflexivity|]. split; [|intros ->; reflexivity]. intros H. destruct (Z.eq_dec k 0) as [->|Hne]; [reflexivity|].
  rewrite u64_id in H by lia. change (u64 (0 - 1)) with (2 ^ 64 - 1) in H. lia.
Qed.
Print Assumptions C04_chops.

(** A blob made from a null pointer and size 0 has no bytes to be seen: asVector() and
    asString() are empty, AsByteVector() and DataDup() undefined.  With any other size asString() throws, and
    asVector() is undefined as well. *)
Theorem C04_null : forall m n, 0 <= n < 2 ^ 64 ->
  let b := newBlob m None n in
  blobAsByteVector b = UB /\ DataDup b = UB
  /\ (n = 0 -> asVector b = Ok [] /\ asString b = Ok [])
  /\ (0 < n -> asVector b = UB /\ asString b = Abort).
Proof.
  intros m n Hn b. assert (S : blobSize b = n).
  { unfold b, blobSize, newBlob, u64; cbn [bend bbegin]. rewrite <- Zplus_mod_idemp_l, Zminus_mod_idemp_l, Zplus_mod_idemp_l.
    replace (n - 1 - 0 + 1) with n by lia. apply Z.mod_small. lia. }
  assert (P : ptr_add (mem b) (data b) (bbegin b) = Ok None) by reflexivity.
  split; [|split; [reflexivity|split; [intros ->; split; reflexivity|intros H; split]]].
  - unfold blobAsByteVector. rewrite P. cbn [rbind]. unfold ptr_add at 1. cbn [b newBlob data bend].
    destruct (u64 (n - 1) =? 0); reflexivity.
  - unfold asVector. rewrite P. cbn [rbind]. rewrite S. unfold ptr_add. replace (n =? 0) with false by lia. reflexivity.
  - unfold asString. rewrite P. cbn [rbind]. rewrite S. replace (n =? 0) with false by lia. reflexivity.
Qed.
Print Assumptions C04_null.

Example C04_null_case : asString (newBlob [] None 0) = Ok [] /\ asString (newBlob [] None 3) = Abort.
Proof. split; reflexivity. Qed.

Example C04_case :
  let b := snd (blobChop 2 (newBlob [x01; x02] (Some 0) 2)) in
  wf b /\ blobAsByteVector b = Ok [] /\ blobAsByteVector (newBlob [x01; x02] (Some 0) 0) = UB.
Proof.
  cbn zeta. split; [|vm_compute; split; reflexivity].
  exists 0, 2. vm_compute. intuition discriminate.
Qed.

(** C05. *)
Theorem C05_isEmpty_is_null : forall m p n, isEmpty (newBlob m p n) = true <-> p = None.
Proof. intros m [a|] n; cbn; split; congruence. Qed.
Print Assumptions C05_isEmpty_is_null.

Theorem C05_isEmpty_ignores_exhaustion : forall m a n ops,
  0 <= a -> 0 <= n -> a + n <= zlen m < 2 ^ 63 ->
  exists live, hrun [newBlob m (Some a) n] ops = Ok live
    /\ forall b, In b live -> isEmpty b = false.
Proof.
  intros m a n ops Ha Hn Hl.
  destruct (hrun_inv m a (a + n) ops _ (hinv_init m a n Ha Hn Hl)) as (live & E & Hi).
  exists live. split; [exact E|]. intros b Hb.
  destruct (hi_in _ _ _ _ Hi b Hb) as (_ & a' & Hd & _). unfold isEmpty. rewrite Hd. reflexivity.
Qed.
Print Assumptions C05_isEmpty_ignores_exhaustion.

Theorem C05_null_stays_empty : forall m ops,
  exists live, hrun [newBlob m None 0] ops = Ok live
    /\ forall b, In b live -> isEmpty b = true /\ blobSize b = 0 /\ asVector b = Ok [] /\ asString b = Ok [].
Proof.
  intros m ops. destruct (null_hrun ops [newBlob m None 0]) as (live & E & H).
  { intros b [<-|[]]. repeat split. }
  exists live. split; [exact E|]. intros b Hb. destruct (H b Hb) as (Hd & Hbg & He).
  destruct b as [mm d bg e]; cbn [data bbegin bend] in *. subst. repeat split; reflexivity.
Qed.
Print Assumptions C05_null_stays_empty.

Example C05_case :
  let b := snd (blobChop 2 (newBlob [x01; x02] (Some 0) 2)) in
  blobSize b = 0 /\ isEmpty b = false.
Proof. vm_compute. split; reflexivity. Qed.
