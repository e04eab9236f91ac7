From Verif Require Import Base BaseFacts Blob BlobSpec BlobFacts BlobHistory.

(** Chop on a well-formed blob, with positions. *)
Lemma chop_windows b n :
  wf b -> 0 <= n ->
  (blobSize b < n /\ blobChop n b = (OutOfData, b)) \/
  (n <= blobSize b /\ exists a c b',
     blobChop n b = (Ok c, b') /\ data b = Some a /\ wf c /\ wf b'
     /\ mem c = mem b /\ mem b' = mem b /\ data b' = Some a /\ data c = Some (a + bbegin b)
     /\ bbegin c = 0 /\ blobSize c = n
     /\ bbegin b' = bbegin b + n /\ blobSize b' = blobSize b - n).
Proof.
  intros Hw Hn. destruct (Z_lt_le_dec (blobSize b) n) as [Hlt|Hle].
  - left. split; [exact Hlt|]. apply chop_ood; [exact Hw|]. rewrite <- content_len; assumption.
  - right. split; [exact Hle|].
    pose proof (content_len b Hw) as Hl.
    destruct (chop_ok b n Hw) as (c & b' & E & Hc & Hb' & Ec & Eb'); [lia|].
    pose proof Hw as (a & N & Hd & Ha & Hb & HN & He).
    pose proof (wf_size b a N Hd Ha Hb HN He) as Hs.
    exists a, c, b'. split; [exact E|]. split; [exact Hd|]. split; [exact Hc|]. split; [exact Hb'|].
    assert (Sc : blobSize c = n).
    { rewrite (content_len c Hc), Ec. apply zlen_firstn. lia. }
    assert (Sb : blobSize b' = blobSize b - n).
    { rewrite (content_len b' Hb'), Eb', zlen_skipn; lia. }
    unfold blobChop in E. replace (blobSize b <? n) with false in E by lia.
    unfold ptr_add in E. rewrite Hd in E. replace (_ && _) with true in E by lia.
    injection E as <- <-. cbn [mem data bbegin newBlob] in *.
    repeat split; try assumption; try reflexivity. apply u64_id. lia.
Qed.

Lemma chop2_is_chop b mn mx :
  wf b -> 0 <= mn -> 0 <= mx ->
  Chop2 mn mx b = if blobSize b <? mn then (OutOfData, b) else blobChop (Z.min (blobSize b) mx) b.
Proof.
  intros Hw H1 H2. unfold Chop2, Size, Chop, BlobBlobOps.
  destruct (blobSize b <? mn); [reflexivity|].
  destruct (mx <=? blobSize b) eqn:E; f_equal; lia.
Qed.

(** One call of a history. *)
Lemma hop_windows b op :
  wf b ->
  (hop_call op b = (OutOfData, b)) \/
  (exists a c b' n, 0 <= n <= blobSize b /\
     hop_call op b = (Ok c, b') /\ data b = Some a /\ wf c /\ wf b'
     /\ mem c = mem b /\ mem b' = mem b /\ data b' = Some a /\ data c = Some (a + bbegin b)
     /\ bbegin c = 0 /\ blobSize c = n
     /\ bbegin b' = bbegin b + n /\ blobSize b' = blobSize b - n).
Proof.
  intros Hw.
  assert (G : forall n, 0 <= n -> blobChop n b = (OutOfData, b) \/
    exists a c b' k, 0 <= k <= blobSize b /\
     blobChop n b = (Ok c, b') /\ data b = Some a /\ wf c /\ wf b'
     /\ mem c = mem b /\ mem b' = mem b /\ data b' = Some a /\ data c = Some (a + bbegin b)
     /\ bbegin c = 0 /\ blobSize c = k
     /\ bbegin b' = bbegin b + k /\ blobSize b' = blobSize b - k).
  { intros n Hn. destruct (chop_windows b n Hw Hn) as [[_ H]|[Hle (a & c & b' & H)]]; [left; exact H|].
    right. exists a, c, b', n. split; [lia|exact H]. }
  destruct op as [i n|i mn mx]; cbn [hop_call].
  - pose proof (u64_range n) as Hr. destruct (G (u64 n)) as [H|(a & c & b' & k & Hk & E & H)]; [lia| |].
    + left. exact H.
    + right. exists a, c, b', k. repeat split; try apply Hk; try apply H. exact E.
  - pose proof (u64_range mn) as H1. pose proof (u64_range mx) as H2.
    rewrite chop2_is_chop by (assumption || lia).
    destruct (blobSize b <? u64 mn); [left; reflexivity|].
    assert (Hs : 0 <= blobSize b) by apply u64_range.
    destruct (G (Z.min (blobSize b) (u64 mx))) as [H|(a & c & b' & k & Hk & E & H)]; [lia| |].
    + left. exact H.
    + right. exists a, c, b', k. repeat split; try apply Hk; try apply H. exact E.
Qed.

Definition coversb (m : bytes) (p : Z) (b : blob) : bool :=
  match data b with
  | Some a => (a + bbegin b <=? p) && (p <? a + bbegin b + blobSize b)
  | None => false
  end.

Definition cnt (f : blob -> bool) (l : list blob) : nat := length (filter f l).

Lemma cnt_app f l r : cnt f (l ++ r) = (cnt f l + cnt f r)%nat.
Proof. unfold cnt. rewrite filter_app, app_length. reflexivity. Qed.

Lemma cnt_replace f l i b b' :
  nth_error l i = Some b ->
  (cnt f (replace_nth l i b') + (if f b then 1 else 0) = cnt f l + (if f b' then 1 else 0))%nat.
Proof.
  revert i. induction l as [|x l IH]; intros [|i] E; cbn in E; try discriminate.
  - injection E as ->. cbn [replace_nth]. unfold cnt. cbn [filter].
    destruct (f b), (f b'); cbn [length]; lia.
  - cbn [replace_nth]. specialize (IH i E). unfold cnt in *. cbn [filter].
    destruct (f x); cbn [length]; lia.
Qed.

Lemma In_replace {A} (l : list A) i v x : In x (replace_nth l i v) -> x = v \/ In x l.
Proof.
  revert i. induction l as [|y l IH]; intros [|i] H; cbn in *; auto.
  - destruct H as [H|H]; auto.
  - destruct H as [H|H]; auto. apply IH in H. tauto.
Qed.

(** Invariant of histories: windows of one buffer, each position covered as often as before. *)
Record hinv (m : bytes) (lo hi : Z) (live : list blob) : Prop := {
  hi_wf : forall b, In b live -> wf b;
  hi_in : forall b, In b live -> within m b lo hi;
  hi_cnt : forall p, lo <= p < hi -> cnt (coversb m p) live = 1%nat
}.

Lemma hstep_inv m lo hi live op :
  hinv m lo hi live -> exists live', hstep live op = Ok live' /\ hinv m lo hi live'.
Proof.
  intros [Hwf Hin Hcnt]. unfold hstep.
  destruct (nth_error live (hop_index op)) as [b|] eqn:E.
  2: { exists live. split; [reflexivity|split; assumption]. }
  pose proof (nth_error_In _ _ E) as Hb.
  pose proof (Hin b Hb) as (Hm & a0 & Hd0 & Hlo & Hhi).
  destruct (hop_windows b op (Hwf b Hb)) as [H|(a & c & b' & n & Hn & H & Hd & Hc & Hb' & Mc & Mb' & Db' & Dc & Bc & Sc & Bb' & Sb')].
  - rewrite H. eexists. split; [reflexivity|].
    split.
    + intros x Hx. apply In_replace in Hx. destruct Hx as [->|Hx]; auto.
    + intros x Hx. apply In_replace in Hx. destruct Hx as [->|Hx]; auto.
    + intros p Hp. pose proof (cnt_replace (coversb m p) live _ b b E) as R.
      rewrite (Hcnt p Hp) in R. destruct (coversb m p b); lia.
  - rewrite H. eexists. split; [reflexivity|].
    rewrite Hd in Hd0. injection Hd0 as <-.
    split.
    + intros x Hx. apply in_app_or in Hx. destruct Hx as [Hx|[<-|[]]]; [|exact Hc].
      apply In_replace in Hx. destruct Hx as [->|Hx]; auto.
    + intros x Hx. apply in_app_or in Hx. destruct Hx as [Hx|[<-|[]]].
      * apply In_replace in Hx. destruct Hx as [->|Hx]; [|auto].
        split; [congruence|]. exists a. split; [exact Db'|]. lia.
      * split; [congruence|]. exists (a + bbegin b). split; [exact Dc|]. lia.
    + intros p Hp. rewrite cnt_app. pose proof (cnt_replace (coversb m p) live _ b b' E) as R.
      rewrite (Hcnt p Hp) in R.
      assert (S : ((if coversb m p b' then 1 else 0) + cnt (coversb m p) [c]
                   = if coversb m p b then 1 else 0)%nat).
      { unfold cnt. cbn [filter]. unfold coversb. rewrite Hd, Db', Dc, Bc, Sc, Bb', Sb'.
        destruct ((a + (bbegin b + n) <=? p) && (p <? a + (bbegin b + n) + (blobSize b - n))) eqn:E1;
        destruct ((a + bbegin b + 0 <=? p) && (p <? a + bbegin b + 0 + n)) eqn:E2;
        destruct ((a + bbegin b <=? p) && (p <? a + bbegin b + blobSize b)) eqn:E3; cbn [length]; lia. }
      lia.
Qed.

Lemma hrun_inv m lo hi ops : forall live,
  hinv m lo hi live -> exists live', hrun live ops = Ok live' /\ hinv m lo hi live'.
Proof.
  induction ops as [|op ops IH]; intros live Hi; cbn [hrun].
  - exists live. split; [reflexivity|exact Hi].
  - destruct (hstep_inv m lo hi live op Hi) as (l1 & E1 & H1). rewrite E1. cbn [rbind]. apply IH. exact H1.
Qed.

Lemma hinv_init m a n :
  0 <= a -> 0 <= n -> a + n <= zlen m < 2 ^ 63 -> hinv m a (a + n) [newBlob m (Some a) n].
Proof.
  intros Ha Hn Hl. pose proof (newBlob_wf m a n Ha Hn Hl) as Hw.
  assert (Hs : blobSize (newBlob m (Some a) n) = n).
  { rewrite (content_len _ Hw), newBlob_content, slice_len; lia. }
  split.
  - intros b [<-|[]]. exact Hw.
  - intros b [<-|[]]. split; [reflexivity|]. exists a. rewrite Hs. cbn. split; [reflexivity|lia].
  - intros p Hp. unfold cnt, coversb. cbn [filter]. rewrite Hs. cbn [data newBlob bbegin].
    replace (_ && _) with true by lia. reflexivity.
Qed.

Lemma cnt_unique m lo hi live p :
  hinv m lo hi live -> lo <= p < hi ->
  exists! i, exists b, nth_error live i = Some b /\ covers m b p.
Proof.
  intros [Hwf Hin Hcnt] Hp. specialize (Hcnt p Hp).
  assert (Hiff : forall b, In b live -> (coversb m p b = true <-> covers m b p)).
  { intros b Hb. destruct (Hin b Hb) as (Hm & a & Hd & _). unfold coversb, covers. rewrite Hd. split.
    - intros H. split; [exact Hm|]. exists a. split; [reflexivity|lia].
    - intros (_ & a' & [= <-] & H). lia. }
  assert (G : forall l, cnt (coversb m p) l = 1%nat ->
     exists! i, exists b, nth_error l i = Some b /\ coversb m p b = true).
  { clear. assert (G0 : forall l, cnt (coversb m p) l = 0%nat -> forall i b, nth_error l i = Some b -> coversb m p b = false).
    { induction l as [|x l IH]; intros H [|i] b E; cbn in E; try discriminate;
      unfold cnt in H; cbn [filter] in H; destruct (coversb m p x) eqn:C; cbn [length] in H; try discriminate.
      - injection E as <-. exact C.
      - eapply IH; [exact H|exact E]. }
    induction l as [|x l IH]; intros H; unfold cnt in H; cbn [filter] in H; [discriminate|].
    destruct (coversb m p x) eqn:C.
    - cbn [length] in H. injection H as H. exists 0%nat. split.
      + exists x. split; [reflexivity|exact C].
      + intros [|j] (b & E & Cb); [reflexivity|]. cbn in E. rewrite (G0 l H j b E) in Cb. discriminate.
    - destruct (IH H) as (i & (b & E & Cb) & U). exists (S i). split.
      + exists b. split; assumption.
      + intros [|j] (b' & E' & Cb'); cbn in E'.
        * injection E' as <-. congruence.
        * f_equal. apply U. exists b'. split; assumption. }
  destruct (G live Hcnt) as (i & (b & E & Cb) & U). exists i. split.
  - exists b. split; [exact E|]. apply Hiff; [eapply nth_error_In; exact E|exact Cb].
  - intros j (b' & E' & Cb'). apply U. exists b'. split; [exact E'|].
    apply Hiff; [eapply nth_error_In; exact E'|exact Cb'].
Qed.

(** Null blobs stay null, with size 0. *)
Definition nullblob (b : blob) : Prop := data b = None /\ bbegin b = 0 /\ bend b = 2 ^ 64 - 1.

Lemma null_hop b op : nullblob b ->
  hop_call op b = (OutOfData, b) \/ exists c b', hop_call op b = (Ok c, b') /\ nullblob c /\ nullblob b'.
Proof.
  intros (Hd & Hb & He).
  assert (Hs : blobSize b = 0) by (unfold blobSize; rewrite Hb, He; reflexivity).
  assert (G : forall n, 0 <= n -> blobChop n b = (OutOfData, b) \/
              exists c b', blobChop n b = (Ok c, b') /\ nullblob c /\ nullblob b').
  { intros n Hn. unfold blobChop. rewrite Hs. destruct (0 <? n) eqn:E; [left; reflexivity|].
    assert (n = 0) by lia. subst n. right. unfold ptr_add. rewrite Hd, Hb. cbn [Z.eqb].
    eexists _, _. split; [reflexivity|]. split; repeat split; cbn; auto. }
  destruct op as [i n|i mn mx]; cbn [hop_call].
  - pose proof (u64_range n) as Hr. apply G. lia.
  - pose proof (u64_range mn) as H1. pose proof (u64_range mx) as H2. unfold Chop2, Size, Chop, BlobBlobOps.
    rewrite Hs. destruct (0 <? u64 mn); [left; reflexivity|].
    destruct (u64 mx <=? 0); apply G; lia.
Qed.

Lemma null_hrun ops : forall live, (forall b, In b live -> nullblob b) ->
  exists live', hrun live ops = Ok live' /\ forall b, In b live' -> nullblob b.
Proof.
  induction ops as [|op ops IH]; intros live H; cbn [hrun].
  - exists live. split; [reflexivity|exact H].
  - assert (S : exists l1, hstep live op = Ok l1 /\ forall b, In b l1 -> nullblob b).
    { unfold hstep. destruct (nth_error live (hop_index op)) as [b|] eqn:E.
      2: { exists live. split; [reflexivity|exact H]. }
      apply nth_error_In in E. specialize (H b E) as Hb.
      destruct (null_hop b op Hb) as [->|(c & b' & -> & Hc & Hb')].
      - eexists. split; [reflexivity|]. intros x Hx. apply In_replace in Hx. destruct Hx as [->|Hx]; auto.
      - eexists. split; [reflexivity|]. intros x Hx. apply in_app_or in Hx.
        destruct Hx as [Hx|[<-|[]]]; auto. apply In_replace in Hx. destruct Hx as [->|Hx]; auto. }
    destruct S as (l1 & -> & H1). cbn [rbind]. apply IH. exact H1.
Qed.
