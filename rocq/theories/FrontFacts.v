(** Operations built from Chop take data from the front only. *)
From Verif Require Import Base BaseFacts Blob BlobSpec BlobFacts Sim FloatModel Oracle Arithm StampDict DictWords StampText Galley Stamps
  StampsEq SimGraph Json LeafSpec ShrinkFacts FrontSpec.

Lemma further_refl b : further b b. Proof. repeat split; lia. Qed.
Lemma further_trans a b c : further a b -> further b c -> further a c.
Proof. intros (A1 & A2 & A3 & A4) (B1 & B2 & B3 & B4). repeat split; try congruence. lia. Qed.

Lemma further_content b b' : wf b -> wf b' -> further b b' -> exists gone, content b = gone ++ content b'.
Proof.
  intros Hb Hb' (E1 & E2 & E3 & E4). pose proof (content_len b Hb) as Lb. pose proof (content_len b' Hb') as Lb'.
  destruct Hb as (a & n & D & Ha & Hn & Hm & He). destruct Hb' as (a' & n' & D' & Ha' & Hn' & Hm' & He').
  rewrite D in E2. rewrite E2 in D'. injection D' as <-. rewrite E1 in Hm'.
  assert (n' = n).
  { rewrite E3, He in He'. destruct (Z.eq_dec n 0) as [->|N0], (Z.eq_dec n' 0) as [->|N0']; try reflexivity;
      unfold u64 in He'; rewrite ?(Z.mod_small (n - 1)), ?(Z.mod_small (n' - 1)) in He' by lia; try lia;
      change ((0 - 1) mod 2 ^ 64) with (2 ^ 64 - 1) in He'; lia. }
  subst n'. pose proof (wf_size b a n D Ha Hn Hm He) as S1.
  assert (S2 : blobSize b' = n - bbegin b') by (apply (wf_size b' a n); [congruence|lia|lia|rewrite E1; lia|exact He']).
  unfold content. rewrite D, E2, E1, S1, S2. unfold slice.
  exists (firstn (Z.to_nat (bbegin b' - bbegin b)) (skipn (Z.to_nat (a + bbegin b)) (mem b))).
  replace (Z.to_nat (a + bbegin b')) with (Z.to_nat (bbegin b' - bbegin b) + Z.to_nat (a + bbegin b))%nat by lia.
  rewrite <- (firstn_skipn (Z.to_nat (bbegin b' - bbegin b)) (firstn (Z.to_nat (n - bbegin b)) (skipn (Z.to_nat (a + bbegin b)) (mem b)))).
  rewrite firstn_firstn, Nat.min_l by lia. f_equal. rewrite skipn_firstn_comm, skipn_skipn. f_equal; [lia|]. f_equal. lia.
Qed.

Notation tf := takes_front.

Lemma tf_ret {A} (a : A) : tf (ret a). Proof. intros b Hb. split; [exact Hb|apply further_refl]. Qed.
Lemma tf_lift {A} (r : res A) : tf (lift r). Proof. intros b Hb. split; [exact Hb|apply further_refl]. Qed.
Lemma tf_gets {A} (f : blob -> A) : tf (gets f). Proof. intros b Hb. split; [exact Hb|apply further_refl]. Qed.

Lemma tf_bind {A C} (f : M blob A) (g : A -> M blob C) : tf f -> (forall a, tf (g a)) -> tf (bind f g).
Proof.
  intros Hf Hg b Hb. destruct (Hf b Hb) as [H1 H2]. unfold bind. destruct (f b) as [[a| | | |] b']; cbn [snd] in *; try (split; assumption).
  destruct (Hg a b' H1) as [H3 H4]. split; [exact H3|exact (further_trans _ _ _ H2 H4)].
Qed.

Lemma tf_chop k : 0 <= k -> tf (Chop (B := blob) k).
Proof.
  intros Hk b Hb. change (Chop k b) with (blobChop k b). destruct (Z.le_gt_cases k (zlen (content b))) as [Hl|Hl].
  - destruct (chop_ok b k Hb ltac:(lia)) as (c & b' & E & _ & Hb' & _). rewrite E. cbn [snd]. split; [exact Hb'|].
    pose proof (content_len b Hb) as Lb. unfold blobChop in E. destruct (blobSize b <? k); [discriminate|].
    destruct (ptr_add _ _ _); try discriminate. injection E as _ <-. repeat split. cbn [bbegin].
    destruct Hb as (a0 & n & D & Ha & Hn & Hm & He). pose proof (wf_size b a0 n D Ha Hn Hm He) as Hs.
    rewrite u64_id by lia. lia.
  - rewrite (chop_ood b k Hb) by lia. split; [exact Hb|apply further_refl].
Qed.

Lemma tf_chop2 k m : 0 <= m -> tf (Chop2 (B := blob) k m).
Proof.
  intros Hm b Hb. unfold Chop2. destruct (Size b <? k); [split; [exact Hb|apply further_refl]|].
  assert (0 <= Size b) by (change (Size b) with (blobSize b); rewrite (content_len b Hb); apply zlen_nonneg).
  destruct (m <=? Size b); apply tf_chop; assumption.
Qed.

Lemma tf_value t : tf (ExtractValue (B := blob) t).
Proof.
  unfold ExtractValue. apply tf_bind; [apply tf_chop; pose proof (ArithFacts.sizeof_range t); lia|]. intros a.
  apply tf_bind; [apply tf_lift|]. intros v. apply tf_ret.
Qed.

Lemma tf_oracle : tf (GetOracle (B := blob)). Proof. apply tf_value. Qed.

Lemma tf_sized_oracle k : tf (sized_oracle (B := blob) k).
Proof.
  unfold sized_oracle. repeat (match goal with |- tf (if ?c then _ else _) => destruct c end); first [apply tf_value|apply tf_lift].
Qed.

(** ** Galleys *)
Lemma tf_fixed fuel size : tf (fixed_loop (B := blob) fuel size).
Proof.
  induction fuel as [|f IH]; cbn [fixed_loop]; intros b Hb; [split; [exact Hb|apply further_refl]|].
  destruct (u64 size <=? Size b); [|split; [exact Hb|apply further_refl]].
  revert b Hb. change (tf (el <- Chop (u64 size);; r <- fixed_loop f size;; ret (el :: r))).
  apply tf_bind; [apply tf_chop, u64_nonneg|]. intros c. apply tf_bind; [exact IH|]. intros r. apply tf_ret.
Qed.

Lemma tf_read_oracles k : forall t, tf (read_oracles (B := blob) k t).
Proof.
  induction k as [|k IH]; intros t; cbn [read_oracles]; [apply tf_ret|].
  apply tf_bind; [apply tf_oracle|]. intros o. apply tf_bind; [apply tf_lift|]. intros s. apply tf_bind; [apply IH|]. intros r. apply tf_ret.
Qed.

Lemma tf_unbounded_loop mn total var os : forall rem, tf (unbounded_loop (B := blob) mn total var os rem).
Proof.
  induction os as [|o os IH]; intros rem; cbn [unbounded_loop]; [apply tf_ret|]. cbv zeta.
  apply tf_bind; [apply tf_lift|]. intros s. apply tf_bind; [apply tf_chop, u64_nonneg|]. intros c. apply tf_bind; [apply IH|]. intros r. apply tf_ret.
Qed.

Lemma tf_vector_unbounded mn : tf (vector_unbounded (B := blob) mn).
Proof.
  unfold vector_unbounded. apply tf_bind; [apply tf_gets|]. intros sz.
  destruct (u64 (mn + ORACLE_SIZE) =? 0); [apply tf_lift|].
  apply tf_bind; [apply tf_oracle|]. intros o. cbv zeta. apply tf_bind; [apply tf_read_oracles|]. intros ot.
  apply tf_bind; [apply tf_gets|]. intros s2. do 2 (apply tf_bind; [apply tf_lift|]; intros ?). apply tf_unbounded_loop.
Qed.

Lemma tf_variated fuel mn mx : tf (variated_loop (B := blob) fuel mn mx).
Proof.
  induction fuel as [|f IH]; cbn [variated_loop]; intros b Hb; [split; [exact Hb|apply further_refl]|].
  destruct (int_op (mn + ORACLE_SIZE)) as [need| | | |]; try (split; [exact Hb|apply further_refl]).
  destruct (Size b <? u64 need); [split; [exact Hb|apply further_refl]|].
  revert b Hb. match goal with |- forall b, _ -> wf (snd (?f b)) /\ _ => change (tf f) end.
  apply tf_bind; [apply tf_oracle|]. intros o. apply tf_bind; [apply tf_lift|]. intros p.
  apply tf_bind; [apply tf_gets|]. intros s. cbv zeta. apply tf_bind; [apply tf_chop, u64_nonneg|]. intros c.
  apply tf_bind; [exact IH|]. intros r. apply tf_ret.
Qed.

Lemma tf_vector mn mx : tf (vector_extract (B := blob) mn mx).
Proof.
  intros b Hb. unfold vector_extract. destruct (Size b <? u64 mn); [split; [exact Hb|apply further_refl]|].
  destruct (isFixedSize mn mx); [apply tf_fixed; exact Hb|].
  destruct (isUnbounded mn mx); [apply tf_vector_unbounded; exact Hb|]. unfold vector_variated.
  assert (G : forall k, tf (_ <- lift (int_op (mx - mn)) ;; variated_loop (B := blob) k mn mx)).
  { intros k. apply tf_bind; [apply tf_lift|]. intros ?. apply tf_variated. }
  apply G. exact Hb.
Qed.

Lemma tf_read_modifiers uc l : forall p t, tf (read_modifiers (B := blob) uc l p t).
Proof.
  induction l as [|[mn mx] l IH]; intros p t; cbn [read_modifiers]; [apply tf_ret|]. destruct (isFixedSize mn mx).
  - apply tf_bind; [apply IH|]. intros x. apply tf_ret.
  - apply tf_bind.
    { destruct (isUnbounded mn mx && (uc <=? 1)); [apply tf_ret|]. apply tf_bind; [apply tf_oracle|]. intros o. apply tf_ret. }
    intros md. apply tf_bind; [|intros x; apply tf_ret].
    destruct (isUnbounded mn mx); [apply IH|]. apply tf_bind; [apply tf_lift|]. intros d. apply IH.
Qed.

Lemma tf_set_chunks l : forall mods kv ku vr ur, tf (set_chunks (B := blob) l mods kv ku vr ur).
Proof.
  induction l as [|[mn mx] l IH]; intros mods kv ku vr ur; cbn [set_chunks]; [apply tf_ret|]. destruct mods as [|md mods]; [apply tf_ret|].
  apply tf_bind; [apply tf_lift|]. intros s. apply tf_bind; [apply tf_chop, u64_nonneg|]. intros c. apply tf_bind; [apply IH|]. intros r. apply tf_ret.
Qed.

Lemma tf_set l : tf (set_extract (B := blob) l).
Proof.
  unfold set_extract. apply tf_bind; [apply tf_lift|]. intros t. cbv zeta. apply tf_bind; [apply tf_gets|]. intros sz.
  destruct (sz <? u64 (set_fixed_total t)); [apply tf_lift|]. apply tf_bind.
  { destruct ((0 <? t_var t) && (0 <? t_unb t)); [|apply tf_ret]. apply tf_bind; [apply tf_oracle|]. intros o. apply tf_bind; [apply tf_lift|]. intros p. apply tf_ret. }
  intros lim. apply tf_bind; [apply tf_read_modifiers|]. intros x. apply tf_bind; [apply tf_lift|]. intros fv. apply tf_bind; [apply tf_lift|]. intros fu.
  apply tf_set_chunks.
Qed.

(** ** Picking a member *)
Definition tfm (m : member blob) : Prop := tf (snd m).

Lemma tf_weak {A} (P : A -> Prop) (r : res A) (g : A -> M blob bytes) : (forall a, r = Ok a -> P a) -> (forall a, P a -> tf (g a)) -> tf (bind (lift r) g).
Proof.
  intros H G b Hb. unfold bind, lift. destruct r; try (split; [exact Hb|apply further_refl]). apply G; [apply H; reflexivity|exact Hb].
Qed.

Lemma lot_filter_tf fr ms sz a : Forall tfm ms -> lot_filter fr ms sz = Ok a -> Forall tf a.
Proof.
  intros H. revert a. induction H as [|[[qn qx] ex] ms Hm _ IH]; intros a E; cbn [lot_filter] in E.
  - injection E as <-. constructor.
  - destruct qn as [mn| | | |]; try discriminate. cbn [rbind] in E. destruct (sz <? u64 mn); [apply IH; exact E|].
    destruct (soft_filter fr (Ok mn) qx (i32 sz)) as [k| | | |]; try discriminate. cbn [rbind] in E.
    destruct (lot_filter fr ms sz) as [r| | | |]; try discriminate. cbn [rbind] in E. injection E as <-.
    destruct k; [constructor; [exact Hm|]|]; apply IH; reflexivity.
Qed.

Lemma pool_filter_tf ms sz t u : Forall tfm ms -> pool_filter ms sz = Ok (t, u) -> Forall tf t /\ Forall tf u.
Proof.
  intros H. revert t u. induction H as [|[[qn qx] ex] ms Hm _ IH]; intros t u E; cbn [pool_filter] in E.
  - injection E as <- <-. split; constructor.
  - destruct qn as [mn| | | |]; try discriminate. cbn [rbind] in E. destruct (u64 mn <=? sz); [|apply IH; exact E].
    destruct qx as [mx| | | |]; try discriminate. cbn [rbind] in E.
    destruct (pool_filter ms sz) as [[t' u']| | | |]; try discriminate. cbn [rbind fst snd] in E. injection E as <- <-.
    destruct (IH t' u' eq_refl) as [H1 H2]. split; [constructor; assumption|].
    destruct ((mx =? -1) || (sz <=? u64 mx)); [constructor|]; assumption.
Qed.

Lemma tf_nth (a : list (M blob bytes)) i : Forall tf a -> tf (match nth_error a i with Some ex => ex | None => lift UB end).
Proof.
  intros H. destruct (nth_error a i) as [ex|] eqn:E; [|apply tf_lift]. rewrite Forall_forall in H. apply H. exact (nth_error_In _ _ E).
Qed.

Lemma tf_lot fr os ms : Forall tfm ms -> tf (lot_extract fr os ms).
Proof.
  intros H. unfold lot_extract. apply tf_bind; [apply tf_sized_oracle|]. intros o. apply tf_bind; [apply tf_gets|]. intros sz.
  eapply (tf_weak (Forall tf)); [intros a; apply lot_filter_tf; exact H|]. intros a0 Ha0.
  assert (K : forall a : list (M blob bytes), Forall tf a -> tf (match a with
     | [] => lift OutOfData
     | _ :: _ => i <- lift (pick_index o (oracle_max os) (zlen a)) ;; if u64 i <? zlen a then match nth_error a (Z.to_nat (u64 i)) with Some ex => ex | None => lift UB end else lift UB
     end)).
  { intros a Ha. destruct a as [|x a]; [apply tf_lift|]. apply tf_bind; [apply tf_lift|]. intros i. destruct (u64 i <? _); [|apply tf_lift]. apply tf_nth. exact Ha. }
  destruct a0; [eapply (tf_weak (Forall tf)); [intros a; apply lot_filter_tf; exact H|exact K]|].
  intros b Hb. unfold bind at 1, ret. exact (K (m :: a0) Ha0 b Hb).
Qed.

Lemma tf_pool ms sm : Forall tfm ms -> tf (pool_extract ms sm).
Proof.
  intros H. unfold pool_extract. apply tf_bind; [apply tf_oracle|]. intros o. apply tf_bind; [apply tf_gets|]. intros sz.
  eapply (tf_weak (fun tu => Forall tf (fst tu) /\ Forall tf (snd tu))).
  { intros [t u] E. exact (pool_filter_tf ms sz t u H E). }
  intros [t u] [Ht Hu]. cbn [fst snd] in *.
  assert (Ha : Forall tf (match u with [] => t | _ => u end)) by (destruct u; assumption).
  cbv zeta. set (a := match u with [] => t | _ => u end) in *. clearbody a. destruct a as [|x a].
  { apply tf_bind; [apply tf_lift|]. intros mn. destruct (sz <? u64 mn); apply tf_lift. }
  apply tf_bind; [apply tf_lift|]. intros i. destruct (i <? _); [|apply tf_lift]. apply tf_nth. exact Ha.
Qed.

(** ** Graphs *)
Lemma tf_extract h : heap_leaves (fun _ _ ex => tf ex) h -> forall f x, leaves (fun _ _ ex => tf ex) x -> tf (extract f h x).
Proof.
  intros [Hp Hl]. induction f as [|f IHf]; intros x Hx;
    (induction x as [mn mx ex|j x IH|o x IH|o x y IHx IHy|j xs IH|nm v IHn IHv|p|l] using sx_ind'; inversion Hx; subst; unf_extract;
     [ assumption
     | do 2 (apply tf_bind; [apply tf_lift|]; intros ?); apply tf_bind; [|intros; apply tf_ret]; apply tf_bind; [apply tf_vector|]; intros ?; apply tf_lift
     | apply tf_bind; [apply IH; assumption|]; intros ?; apply tf_ret
     | apply tf_bind; [apply tf_lift|]; intros ?; apply tf_bind; [apply tf_set|]; intros [|c1 [|c2 [|c3 cs]]]; try apply tf_lift;
       do 2 (apply tf_bind; [apply tf_lift|]; intros ?); apply tf_ret
     | apply tf_bind; [apply tf_lift|]; intros ?; apply tf_bind; [apply tf_set|]; intros cs; apply tf_bind; [apply tf_lift|]; intros ?; apply tf_ret
     | apply tf_bind; [apply IHn; assumption|]; intros ?; apply tf_bind; [apply IHv; assumption|]; intros ?; apply tf_ret
     | try apply tf_lift | try apply tf_lift ]).
  - destruct (nth_error (pools h) p) as [P|] eqn:E; [|apply tf_lift]. apply tf_pool. rewrite Forall_map, Forall_forall.
    intros [y|] Iy; unfold tfm; cbn [snd]; [|apply tf_lift]. apply IHf. exact (Hp P y (nth_error_In _ _ E) Iy).
  - destruct (nth_error (lots h) l) as [Lo|] eqn:E; [|apply tf_lift]. apply tf_lot. rewrite Forall_map, Forall_forall.
    intros y Iy. unfold tfm; cbn [snd]. apply IHf. exact (Hl Lo y (nth_error_In _ _ E) Iy).
Qed.

(** ** Library leaves *)
Lemma tf_text (g : bytes -> bytes) k m : 0 <= m -> tf (c <- Chop2 (B := blob) k m ;; v <- lift (AsByteVector c) ;; ret (g v)).
Proof.
  intros Hm. apply tf_bind; [apply tf_chop2; exact Hm|]. intros c. apply tf_bind; [apply tf_lift|]. intros v. apply tf_ret.
Qed.

Lemma tf_dict d : tf (DictExtractStr (B := blob) d).
Proof.
  unfold DictExtractStr. destruct (ChooseStampSize d) as [s m]. apply tf_bind; [apply tf_sized_oracle|]. intros o.
  apply tf_bind; [apply tf_lift|]. intros i. apply tf_lift.
Qed.

Lemma tf_string : tf (JSONStringExtractStr (B := blob)).
Proof. unfold JSONStringExtractStr. apply tf_bind; [apply tf_dict|]. intros s. apply tf_ret. Qed.

Lemma tf_arith t : tf (ArithExtractStr (B := blob) t).
Proof. unfold ArithExtractStr. apply tf_bind; [apply tf_value|]. intros v. apply tf_lift. Qed.

Lemma tf_ExtractStr h x : heap_leaves (fun _ _ ex => tf ex) h -> leaves (fun _ _ ex => tf ex) x -> tf (ExtractStr h x).
Proof. intros Hh Hx b Hb. unfold ExtractStr. exact (tf_extract h Hh _ x Hx b Hb). Qed.

Lemma tf_load mn mx : tf (Load (B := blob) mn mx).
Proof.
  intros b Hb. unfold Load. destruct (Size b <? u64 mn); [split; [exact Hb|apply further_refl]|]. apply tf_chop; [|exact Hb].
  assert (0 <= Size b) by (change (Size b) with (blobSize b); rewrite (content_len b Hb); apply zlen_nonneg).
  pose proof (u64_nonneg mx). destruct (isUnbounded mn mx); [|destruct (_ <? _)]; lia.
Qed.
