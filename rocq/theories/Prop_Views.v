(** C74: blobs are views of the caller's memory, not copies. *)
From Verif Require Import Base Blob BlobSpec BlobFacts FrontSpec FrontFacts LocalSpec RunSpec Arithm Stamps Views ViewsSpec ViewsFacts Prop_Locality
  ArithSpec ArithFacts RunFacts Prop_Arithm.

(** A write to an array is seen by exactly the blobs that cover the place, at that place only, be they
    made by hand, chopped or kept by Load; no blob moves. *)
Theorem C74_write : forall p s out a i c s' out', came p s out -> vstep s (VWrite a i c) = (Ok s', out') ->
  views s' = views s
  /\ forall o v k, nth_error (views s) o = Some v -> Z.of_nat k < v_size v ->
       (v_arr v = a /\ v_pos v + Z.of_nat k = i -> nth_error (held s' v) k = Some c)
       /\ (v_arr v <> a \/ v_pos v + Z.of_nat k <> i -> nth_error (held s' v) k = nth_error (held s v) k).
Proof.
  intros p s out a i c s' out' H E. split.
  - destruct (write_step _ _ _ _ _ _ E) as (A & _ & _ & _ & _ & ->). reflexivity.
  - intros o v k Hv Hk. rewrite (write_held s a i c s' out' o v k (came_fine _ _ _ H) E Hv Hk).
    split; intros Q; destruct (Nat.eqb_spec (v_arr v) a), (Z.eqb_spec (v_pos v + Z.of_nat k) i); cbn; tauto || lia.
Qed.
Print Assumptions C74_write.

(** An extractor run on a blob answers by the bytes that are in the array at that time, whatever was there
    when the blob was made, and leaves the bytes it would leave of a blob made now. *)
Theorem C74_present : forall p s out o ex v A, came p s out -> local ex -> takes_front ex ->
  nth_error (views s) o = Some v -> nth_error (arrays s) (v_arr v) = Some A -> a_alive A = true ->
  let '(r, b) := ex (blob_of (held s v)) in
  snd (vstep s (VRun o ex)) = answer r
  /\ forall s' out', vstep s (VRun o ex) = (Ok s', out') ->
       out' = [r] /\ exists v', nth_error (views s') o = Some v' /\ held s' v' = content b.
Proof. intros p s out o ex v A H. apply run_present. exact (came_fine _ _ _ H). Qed.
Print Assumptions C74_present.

(** Where blobs lie does not depend on the bytes: two programs that put other bytes in their arrays and
    otherwise make the same arrays, blobs, chops and loads, end with the same blobs and the same
    exceptions. *)
Theorem C74_positions : forall p s out p' s' out', came p s out -> came p' s' out' -> Forall2 same_but_bytes p p' ->
  views s = views s' /\ out = out'.
Proof.
  intros p s out p' s' out' H H' HF. destruct (came_same p s out H p' s' out' HF H') as [[E _] E']. split; assumption.
Qed.
Print Assumptions C74_positions.

(** A program that makes one blob on an array by hand has no place of it in two blobs, however it chops. *)
Theorem C74_apart : forall p s out a, came p s out -> (blobs_on a p <= 1)%nat ->
  forall o o' v v' i, o <> o' -> nth_error (views s) o = Some v -> nth_error (views s) o' = Some v' ->
    covers v a i -> covers v' a i -> False.
Proof. intros p s out a H Hb. exact (came_apart p s out a H Hb). Qed.
Print Assumptions C74_apart.

(** Every blob lies within its array, with its bytes. *)
Theorem C74_within : forall p s out, came p s out ->
  forall o v, nth_error (views s) o = Some v ->
    exists A, nth_error (arrays s) (v_arr v) = Some A /\ 0 <= v_pos v /\ 0 <= v_size v
      /\ v_pos v + v_size v <= zlen (a_bytes A) /\ zlen (held s v) = v_size v.
Proof.
  intros p s out H o v Hv. pose proof (came_fine _ _ _ H) as Fs. destruct (proj2 Fs o v Hv) as (A & EA & W). exists A.
  destruct (wf_span A v W) as (a & _ & Ha & Hb & Ep & Hs & Hl & _). destruct (held_len s o v Fs Hv) as [L _].
  repeat split; try assumption; lia.
Qed.
Print Assumptions C74_within.

(** An array given up takes nothing from blobs elsewhere ... *)
Theorem C74_free : forall p s out a s' out', came p s out -> vstep s (VFree a) = (Ok s', out') ->
  views s' = views s /\ (forall v, held s' v = held s v)
  /\ forall a' A, a' <> a -> nth_error (arrays s) a' = Some A -> nth_error (arrays s') a' = Some A.
Proof.
  intros p s out a s' out' _ E. destruct (free_step _ _ _ _ E) as (_ & EV & _ & EH). split; [exact EV|]. split; [exact EH|].
  intros a' A N EA. cbn [vstep] in E. destruct (nth_error (arrays s) a) as [X|]; [|discriminate]. destruct (a_alive X); [|discriminate].
  injection E as <- _. cbn [arrays]. rewrite set_nth_other by auto. exact EA.
Qed.
Print Assumptions C74_free.

(** ... and from then on every use of every blob on it is undefined: Chop, Load and any extractor, be the
    blob chopped out long before; nothing keeps the array for the blobs. *)
Theorem C74_freed : forall p q a s out o v, came (p ++ VFree a :: q) s out ->
  nth_error (views s) o = Some v -> v_arr v = a ->
  (forall c, fst (vstep s (VCut o c)) = UB) /\ (forall ex, fst (vstep s (VRun o ex)) = UB).
Proof.
  intros p q a s out o v H Hv <-. destruct (gone_came p q (v_arr v) s out H) as (A & EA & HL).
  split; intros; cbn [vstep]; rewrite Hv, EA, HL; reflexivity.
Qed.
Print Assumptions C74_freed.

(** Nothing but that ends an array: one that was made exists until it is given up, whatever is done with the
    blobs on it. *)
Theorem C74_lives : forall p s out, came p s out ->
  forall a A, nth_error (arrays s) a = Some A -> (a_alive A = true <-> ~ In (VFree a) p).
Proof.
  intros p s out H a A EA. split.
  - intros HL Hi. destruct (in_split _ _ Hi) as (p1 & p2 & ->). destruct (gone_came _ _ _ _ _ H) as (A' & EA' & HL'). congruence.
  - intros N. destruct (a_alive A) eqn:HL; [reflexivity|]. exfalso. apply N. clear N.
    revert a A EA HL. induction H as [|p s out op s' out' H IH C E]; intros a A EA HL; [destruct a; discriminate|].
    apply in_or_app.
    assert (K : arrays s' = arrays s -> In (VFree a) p \/ In (VFree a) [op]) by (intros Q; left; apply (IH a A); [rewrite <- Q|]; assumption).
    destruct op as [bs|a0 i c|a0|a0 off n|o c|o ex]; cbn [vstep] in E.
    + injection E as <- _. cbn [arrays] in EA. left. destruct (Nat.lt_ge_cases a (length (arrays s))) as [L|L].
      * rewrite nth_error_app1 in EA by exact L. exact (IH a A EA HL).
      * rewrite nth_error_app2 in EA by exact L. destruct (a - length (arrays s))%nat as [|k]; [injection EA as <-; discriminate|destruct k; discriminate].
    + destruct (nth_error (arrays s) a0) as [X|] eqn:EX; [|discriminate]. destruct (_ && _ && _); [|discriminate].
      injection E as <- _. cbn [arrays] in EA. left. destruct (Nat.eq_dec a0 a) as [->|D].
      * rewrite (set_nth_same _ _ _ X EX) in EA. injection EA as <-. discriminate.
      * rewrite set_nth_other in EA by auto. exact (IH a A EA HL).
    + destruct (nth_error (arrays s) a0) as [X|] eqn:EX; [|discriminate]. destruct (a_alive X); [|discriminate].
      injection E as <- _. cbn [arrays] in EA. destruct (Nat.eq_dec a0 a) as [->|D]; [right; left; reflexivity|].
      left. rewrite set_nth_other in EA by auto. exact (IH a A EA HL).
    + destruct (nth_error (arrays s) a0) as [X|]; [|discriminate]. destruct (_ && _ && _); [|discriminate].
      injection E as <- _. apply K. reflexivity.
    + destruct (nth_error (views s) o) as [v|]; [|discriminate]. destruct (nth_error (arrays s) (v_arr v)) as [X|]; [|discriminate].
      destruct (a_alive X); [|discriminate]. destruct (run_cut c (see X v)) as [[b| | | |] b']; try discriminate; injection E as <- _; apply K; reflexivity.
    + destruct (nth_error (views s) o) as [v|]; [|discriminate]. destruct (nth_error (arrays s) (v_arr v)) as [X|]; [|discriminate].
      destruct (a_alive X); [|discriminate]. destruct (ex (see X v)) as [[b| | | |] b']; try discriminate; injection E as <- _; apply K; reflexivity.
Qed.
Print Assumptions C74_lives.

(** ** Cases *)

(** Six bytes, a blob of them all, an int loaded by a stamp (its bitten_blob is blob 1), ... *)
Definition loaded : list vop := [VArray (lit "abcdef"); VBlob 0 0 6; VCut 0 (CLoad 4 4)].
(** ... and the first bytes written over. *)
Definition refilled : list vop := loaded ++ [VWrite 0 1 "X"; VWrite 0 5 "Y"].

Example C74_cases_careful : careful_run loaded vinit /\ careful_run refilled vinit.
Proof.
  split; cbn; repeat split; try lia; try (match goal with H : _ = Some _ |- _ => injection H as <- end; cbn; lia); reflexivity.
Qed.

(** The stamp's blob and the rest of the first one see what was written, each its part. *)
Example C74_write_case : exists s s', came loaded s [] /\ came refilled s' []
  /\ map (held s) (views s) = [lit "ef"; lit "abcd"] /\ map (held s') (views s') = [lit "eY"; lit "aXcd"].
Proof.
  do 2 eexists. split; [|split; [|split]].
  - apply came_run; [exact (proj1 C74_cases_careful)|vm_compute; reflexivity].
  - apply came_run; [exact (proj2 C74_cases_careful)|vm_compute; reflexivity].
  - vm_compute. reflexivity.
  - vm_compute. reflexivity.
Qed.

(** So UnloadStr of an int stamp loaded before gives the number that is in the array now. *)
Example C74_present_case : exists s t, came refilled s []
  /\ snd (vstep s (VRun 1 (ArithExtractStr Int))) = [Ok t] /\ read_int t = Some 1684232289.
Proof.
  assert (R : represents Int 1684232289 (lit "aXcd")) by (apply (encode_represents Int 1684232289); vm_compute; split; discriminate).
  destruct (C07_decimal Int (blob_of (lit "aXcd")) (lit "aXcd") [] 1684232289 ltac:(repeat split; discriminate || exact I) ltac:(discriminate) ltac:(discriminate) R
             (holds_blob_of (lit "aXcd") eq_refl)) as (t & (b & E & _) & Q).
  eexists. exists t. split; [apply came_run; [exact (proj2 C74_cases_careful)|vm_compute; reflexivity]|]. split; [|exact Q].
  match goal with |- snd (vstep ?s _) = _ =>
    assert (Cm : came refilled s []) by (apply came_run; [exact (proj2 C74_cases_careful)|vm_compute; reflexivity]);
    pose proof (C74_present refilled s [] 1 (ArithExtractStr Int) _ _ Cm (proj1 (proj2 (proj1 C42_elementary Int))) (tf_arith Int) eq_refl eq_refl eq_refl) as P end.
  change (blob_of _) with (blob_of (lit "aXcd")) in P. rewrite E in P. exact (proj1 P).
Qed.

(** The same program on other bytes: the same places. *)
Example C74_positions_case : Forall2 same_but_bytes loaded [VArray (lit "uvwxyz"); VBlob 0 0 6; VCut 0 (CLoad 4 4)].
Proof. unfold loaded. repeat constructor. Qed.

(** One blob made by hand: no place twice.  Two made by hand share the bytes they have in common. *)
Example C74_apart_case : blobs_on 0 loaded = 1%nat
  /\ exists s v v', came [VArray (lit "abcdef"); VBlob 0 0 4; VBlob 0 2 4] s []
       /\ views s = [v; v'] /\ covers v 0 3 /\ covers v' 0 3.
Proof.
  split; [reflexivity|]. do 3 eexists. split; [|split; [|split]].
  - apply came_run; [|vm_compute; reflexivity].
    cbn; repeat split; try lia; try (match goal with H : _ = Some _ |- _ => injection H as <- end; cbn; lia); reflexivity.
  - vm_compute. reflexivity.
  - vm_compute. repeat split; discriminate.
  - vm_compute. repeat split; discriminate.
Qed.

(** The array given up: the stamp that was loaded from it can no longer be unloaded. *)
Example C74_freed_case : exists s v, came (loaded ++ [VFree 0]) s [] /\ nth_error (views s) 1 = Some v /\ v_arr v = 0%nat.
Proof.
  do 2 eexists. split; [apply came_run; [|vm_compute; reflexivity]|split; vm_compute; reflexivity].
  cbn; repeat split; try lia; try (match goal with H : _ = Some _ |- _ => injection H as <- end; cbn; lia); reflexivity.
Qed.

(** Until then it exists: after the writes above, and no longer at the end here. *)
Example C74_lives_case : exists s s' A A', came refilled s [] /\ nth_error (arrays s) 0 = Some A /\ a_alive A = true
  /\ came (loaded ++ [VFree 0]) s' [] /\ nth_error (arrays s') 0 = Some A' /\ a_alive A' = false.
Proof.
  do 4 eexists. split; [apply came_run; [exact (proj2 C74_cases_careful)|vm_compute; reflexivity]|].
  split; [vm_compute; reflexivity|]. split; [reflexivity|]. split; [apply came_run; [|vm_compute; reflexivity]|split; vm_compute; reflexivity].
  cbn; repeat split; try lia; try (match goal with H : _ = Some _ |- _ => injection H as <- end; cbn; lia); reflexivity.
Qed.
