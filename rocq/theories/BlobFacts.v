(** Facts about src/blob.cpp. *)
From Verif Require Import Base BaseFacts Blob BlobSpec.

(** Size of a well-formed blob whose window has [n] bytes. *)
Lemma wf_size b a n :
  data b = Some a -> 0 <= a -> 0 <= bbegin b <= n -> a + n <= zlen (mem b) < 2 ^ 63 ->
  bend b = u64 (n - 1) -> blobSize b = n - bbegin b.
Proof.
  intros Hd Ha Hb Hn He. unfold blobSize. rewrite He. unfold u64.
  replace ((n - 1) mod 2 ^ 64 - bbegin b + 1) with ((n - 1) mod 2 ^ 64 + (1 - bbegin b)) by lia.
  rewrite Z.add_mod_idemp_l by discriminate.
  replace (n - 1 + (1 - bbegin b)) with (n - bbegin b) by lia.
  apply Z.mod_small. lia.
Qed.

Lemma slice_len m a n : 0 <= a -> 0 <= n -> a + n <= zlen m -> zlen (slice m a n) = n.
Proof.
  intros Ha Hn Hl. unfold slice. apply zlen_firstn. rewrite zlen_skipn; lia.
Qed.

Lemma slice_firstn m a n k : 0 <= k <= n -> firstn (Z.to_nat k) (slice m a n) = slice m a k.
Proof.
  intros H. unfold slice. rewrite firstn_firstn. f_equal. lia.
Qed.

Lemma slice_skipn m a n k :
  0 <= a -> 0 <= k <= n -> skipn (Z.to_nat k) (slice m a n) = slice m (a + k) (n - k).
Proof.
  intros Ha H. unfold slice. rewrite skipn_firstn_comm, skipn_skipn.
  f_equal; [lia|]. f_equal. lia.
Qed.

Lemma slice_whole m : slice m 0 (zlen m) = m.
Proof. unfold slice, zlen. rewrite Nat2Z.id. cbn. apply firstn_all. Qed.

Lemma content_len b : wf b -> blobSize b = zlen (content b).
Proof.
  intros (a & n & Hd & Ha & Hb & Hn & He). unfold content. rewrite Hd.
  pose proof (wf_size b a n Hd Ha Hb Hn He) as Hs. rewrite Hs. rewrite slice_len; lia.
Qed.

Lemma content_small b : wf b -> zlen (content b) < 2 ^ 63.
Proof.
  intros Hw. rewrite <- (content_len b Hw). destruct Hw as (a & n & Hd & Ha & Hb & Hn & He).
  rewrite (wf_size b a n Hd Ha Hb Hn He). lia.
Qed.

Lemma newBlob_wf m a n : 0 <= a -> 0 <= n -> a + n <= zlen m < 2 ^ 63 -> wf (newBlob m (Some a) n).
Proof. intros Ha Hn Hl. exists a, n. cbn. repeat split; try lia. Qed.

Lemma newBlob_content m a n :
  0 <= a -> 0 <= n -> a + n <= zlen m < 2 ^ 63 -> content (newBlob m (Some a) n) = slice m a n.
Proof.
  intros Ha Hn Hl. unfold content. cbn [data newBlob].
  rewrite (wf_size _ a n); cbn [data newBlob bbegin mem bend]; try lia; try reflexivity.
  f_equal; lia.
Qed.

Lemma chop_ok b n :
  wf b -> 0 <= n <= zlen (content b) ->
  exists c b', blobChop n b = (Ok c, b') /\ wf c /\ wf b'
    /\ content c = firstn (Z.to_nat n) (content b) /\ content b' = skipn (Z.to_nat n) (content b).
Proof.
  intros Hw Hn. pose proof (content_len b Hw) as Hlen.
  destruct Hw as (a & N & Hd & Ha & Hb & HN & He).
  pose proof (wf_size b a N Hd Ha Hb HN He) as Hs.
  unfold blobChop. replace (blobSize b <? n) with false by lia.
  unfold ptr_add. rewrite Hd. replace (_ && _) with true by lia.
  eexists _, _. split; [reflexivity|].
  assert (Hw1 : wf (newBlob (mem b) (Some (a + bbegin b)) n)) by (apply newBlob_wf; lia).
  assert (Hu : u64 (bbegin b + n) = bbegin b + n) by (apply u64_id; lia).
  assert (Hw2 : wf (mkBlob (mem b) (Some a) (u64 (bbegin b + n)) (bend b))).
  { exists a, N. cbn [data mem bbegin bend]. repeat split; try lia; assumption. }
  split; [exact Hw1|]. split; [exact Hw2|]. split.
  - rewrite newBlob_content by lia. unfold content. rewrite Hd, slice_firstn by lia. reflexivity.
  - unfold content. cbn [data mem bbegin]. rewrite Hd, slice_skipn by lia.
    rewrite (wf_size _ a N); cbn [data mem bbegin bend]; try reflexivity; try lia; try assumption.
    rewrite Hu. f_equal; lia.
Qed.

Lemma chop_ood b n : wf b -> zlen (content b) < n -> blobChop n b = (OutOfData, b).
Proof.
  intros Hw Hn. unfold blobChop. rewrite (content_len b Hw). replace (_ <? n) with true by lia.
  reflexivity.
Qed.

Lemma asVector_ok b : wf b -> asVector b = Ok (content b).
Proof.
  intros Hw. destruct Hw as (a & N & Hd & Ha & Hb & HN & He).
  pose proof (wf_size b a N Hd Ha Hb HN He) as Hs.
  unfold asVector, ptr_add. rewrite Hd. replace (_ && _) with true by lia. cbn [rbind].
  replace (_ && _) with true by lia. cbn [rbind read_range].
  replace (_ && _ && _) with true by lia.
  unfold content. rewrite Hd. f_equal. f_equal. lia.
Qed.

Lemma asString_ok b : wf b -> asString b = Ok (content b).
Proof.
  intros Hw. destruct Hw as (a & N & Hd & Ha & Hb & HN & He).
  pose proof (wf_size b a N Hd Ha Hb HN He) as Hs.
  unfold asString, ptr_add. rewrite Hd. replace (_ && _) with true by lia. cbn [rbind].
  replace (_ && _) with true by lia. cbn [rbind read_range].
  replace (_ && _ && _) with true by lia.
  unfold content. rewrite Hd. f_equal. f_equal. lia.
Qed.

Lemma DataDup_ok b : wf b -> DataDup b = Ok (content b, zlen (content b)).
Proof.
  intros Hw. pose proof (content_len b Hw) as Hl.
  destruct Hw as (a & N & Hd & Ha & Hb & HN & He).
  pose proof (wf_size b a N Hd Ha Hb HN He) as Hs.
  unfold DataDup, ptr_add. rewrite Hd. replace (_ && _) with true by lia. cbn [rbind].
  replace (_ && _) with true by lia. cbn [rbind read_range].
  replace (_ && _ && _) with true by lia. cbn [rbind].
  rewrite <- Hl. unfold content. rewrite Hd.
  replace (a + bbegin b + blobSize b - (a + bbegin b)) with (blobSize b) by lia. reflexivity.
Qed.

(** AsByteVector is fine unless the window was created empty. *)
Lemma AsByteVector_ok b : wf b -> bend b <> 2 ^ 64 - 1 -> blobAsByteVector b = Ok (content b).
Proof.
  intros Hw Hne. destruct Hw as (a & N & Hd & Ha & Hb & HN & He).
  pose proof (wf_size b a N Hd Ha Hb HN He) as Hs.
  assert (HN0 : 0 < N).
  { destruct (Z.eq_dec N 0) as [->|]; [|lia]. exfalso. apply Hne. rewrite He. reflexivity. }
  assert (He' : bend b = N - 1) by (rewrite He; apply u64_id; lia).
  unfold blobAsByteVector, ptr_add. rewrite Hd. replace (_ && _) with true by lia. cbn [rbind].
  replace (_ && _) with true by lia. cbn [rbind].
  replace (_ && _) with true by lia. cbn [rbind read_range].
  replace (_ && _ && _) with true by lia.
  unfold content. rewrite Hd. f_equal. f_equal. lia.
Qed.

Lemma AsByteVector_ub b : wf b -> bend b = 2 ^ 64 - 1 -> blobAsByteVector b = UB.
Proof.
  intros Hw Hne. destruct Hw as (a & N & Hd & Ha & Hb & HN & He).
  unfold blobAsByteVector, ptr_add. rewrite Hd. replace (_ && _) with true by lia. cbn [rbind].
  replace (_ && _) with false by lia. reflexivity.
Qed.

Lemma wf_created_empty b : wf b -> (bend b = 2 ^ 64 - 1 <-> bbegin b = 0 /\ content b = [] /\ bend b = u64 (0 - 1)).
Proof.
  intros Hw. split; [|intros (_ & _ & ->); reflexivity].
  intros E. pose proof (content_len b Hw) as Hl.
  destruct Hw as (a & N & Hd & Ha & Hb & HN & He).
  pose proof (wf_size b a N Hd Ha Hb HN He) as Hs.
  assert (N = 0).
  { destruct (Z.eq_dec N 0) as [->|]; [reflexivity|]. exfalso.
    rewrite He, u64_id in E by lia. lia. }
  subst N. split; [lia|]. split; [|rewrite E; reflexivity]. apply zlen_0_nil. lia.
Qed.

Lemma AsByteVector_nonempty b : wf b -> content b <> [] -> blobAsByteVector b = Ok (content b).
Proof.
  intros Hw Hne. apply AsByteVector_ok; [exact Hw|]. intros E.
  apply (wf_created_empty b Hw) in E. tauto.
Qed.
