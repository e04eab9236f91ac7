(** Proofs for C67. *)
From Verif Require Import Base BaseFacts Blob BlobSpec BlobFacts RunSpec RunFacts Sim FloatModel Oracle Arithm ArithFacts StampDict DictWords StampText Galley Stamps
  StampsEq SimGraph Json LeafSpec ShrinkFacts FrontSpec FrontFacts BlindSpec.

Definition bl {A} (R : A -> A -> Prop) (f f2 : M blob A) : Prop := tf f /\
  forall b b2 taken rest rest2, holds b (taken ++ rest) -> holds b2 (taken ++ rest2) -> zlen rest2 = zlen rest -> content (snd (f b)) = rest ->
  res_rel R (fst (f b)) (fst (f2 b2)) /\ holds (snd (f2 b2)) rest2.

Definition alike (c c2 : blob) : Prop := wf c /\ wf c2 /\ content c = content c2.

Lemma nothing_taken (taken rest : bytes) : taken ++ rest = rest -> taken = [].
Proof. intros E. apply (f_equal (@length byte)) in E. rewrite app_length in E. destruct taken; [reflexivity|cbn [length] in E; lia]. Qed.

Lemma same_size b b2 (taken rest rest2 : bytes) : holds b (taken ++ rest) -> holds b2 (taken ++ rest2) -> zlen rest2 = zlen rest -> Size b2 = Size b.
Proof. intros H1 H2 E. change (blobSize b2 = blobSize b). rewrite (holds_size _ _ H1), (holds_size _ _ H2), !zlen_app. lia. Qed.

Section R.
  Context {A : Type} (R : A -> A -> Prop).

  Lemma bl_still (r r2 : res A) : res_rel R r r2 -> bl R (lift r) (lift r2).
  Proof.
    intros H. split; [apply tf_lift|]. intros b b2 taken rest rest2 [W E] H2 L C. cbn [lift fst snd] in *. split; [exact H|].
    rewrite E in C. rewrite (nothing_taken _ _ C) in H2. exact H2.
  Qed.
  Lemma bl_ret a a2 : R a a2 -> bl R (ret a) (ret a2).
  Proof. intros H. exact (bl_still (Ok a) (Ok a2) H). Qed.

  Lemma bl_bind {C} (Q : C -> C -> Prop) (f f2 : M blob A) (g g2 : A -> M blob C) : bl R f f2 -> (forall a, tf (g a)) ->
    (forall a a2, R a a2 -> bl Q (g a) (g2 a2)) -> bl Q (bind f g) (bind f2 g2).
  Proof.
    intros [T F] TG G. split; [apply tf_bind; assumption|]. intros b b2 taken rest rest2 Hb Hb2 L C0.
    destruct (T b (proj1 Hb)) as [W FU]. destruct (further_content _ _ (proj1 Hb) W FU) as (t1 & E1). rewrite (proj2 Hb) in E1.
    unfold bind in *. destruct (f b) as [r b1] eqn:Ef. cbn [snd] in *.
    assert (FF : forall tk rs, taken ++ rest = tk ++ rs -> content b1 = rs -> forall rs2, holds b2 (tk ++ rs2) -> zlen rs2 = zlen rs ->
       res_rel R r (fst (f2 b2)) /\ holds (snd (f2 b2)) rs2).
    { intros tk rs E Cr rs2 H2 L2. specialize (F b b2 tk rs rs2). rewrite Ef in F. cbn [fst snd] in F. apply F; try assumption. split; [exact (proj1 Hb)|]. rewrite (proj2 Hb). exact E. }
    destruct r as [a| | | |]; cbn [snd fst] in *;
      try (destruct (FF taken rest eq_refl C0 rest2 Hb2 L) as [F1 F2]; destruct (f2 b2) as [[a2| | | |] b2']; cbn [fst snd res_rel] in *; try tauto).
    destruct (TG a b1 W) as [W' FU']. destruct (further_content _ _ W W' FU') as (t2 & E2). rewrite C0 in E2.
    assert (ET : taken = t1 ++ t2). { rewrite E2, app_assoc in E1. exact (app_inv_tail _ _ _ E1). }
    destruct (FF t1 (content b1)) with (rs2 := t2 ++ rest2) as [F1 F2]; [exact E1|reflexivity|rewrite app_assoc, <- ET; exact Hb2|rewrite E2, !zlen_app; lia|].
    destruct (f2 b2) as [[a2| | | |] b2'] eqn:Ef2; cbn [fst snd res_rel] in *; try tauto.
    destruct (G a a2 F1) as [_ G']. exact (G' b1 b2' t2 rest rest2 (conj W E2) F2 L C0).
  Qed.

  Lemma bl_sized (f f2 : blob -> M blob A) : (forall b, tf (f b)) -> (forall b b2, Size b2 = Size b -> bl R (f b) (f2 b2)) -> bl R (fun b => f b b) (fun b => f2 b b).
  Proof.
    intros T F. split; [intros b Hb; exact (T b b Hb)|]. intros b b2 taken rest rest2 Hb Hb2 L C.
    exact (proj2 (F b b2 (same_size _ _ _ _ _ Hb Hb2 L)) b b2 taken rest rest2 Hb Hb2 L C).
  Qed.
End R.

Lemma bl_ext {A} (R : A -> A -> Prop) (f g : M blob A) : (forall b, f b = g b) -> bl R g g -> bl R f f.
Proof.
  intros E [T H]. split; [intros b Hb; rewrite E; exact (T b Hb)|]. intros b b2 taken rest rest2 H1 H2 L C. rewrite !E in *. exact (H b b2 taken rest rest2 H1 H2 L C).
Qed.

Lemma bl_lift {A} (r : res A) : bl eq (lift r) (lift r).
Proof. apply bl_still. apply res_rel_eq. reflexivity. Qed.
Lemma bl_reteq {A} (a : A) : bl eq (ret a) (ret a).
Proof. apply bl_ret. reflexivity. Qed.
Lemma bl_bindeq {A C} (Q : C -> C -> Prop) (f : M blob A) (g g2 : A -> M blob C) : bl eq f f ->
  (forall a, bl Q (g a) (g2 a)) -> bl Q (bind f g) (bind f g2).
Proof. intros F G. apply (bl_bind eq Q); [exact F|intros a; exact (proj1 (G a))|]. intros a ? <-. apply G. Qed.

Lemma bl_size : bl eq (gets (B := blob) Size) (gets Size).
Proof.
  apply (bl_sized eq (fun b => ret (Size b)) (fun b => ret (Size b))); [intros b; apply tf_ret|].
  intros b b2 E. apply bl_ret. symmetry. exact E.
Qed.

Lemma bl_chop k : 0 <= k -> bl alike (Chop (B := blob) k) (Chop k).
Proof.
  intros Hk. split; [apply tf_chop; exact Hk|]. intros b b2 taken rest rest2 Hb Hb2 L C.
  change (Chop (B := blob) k) with (blobChop k) in *. destruct (Z.le_gt_cases k (zlen (taken ++ rest))) as [Hl|Hl].
  - destruct (chop_ok b k (proj1 Hb)) as (c & b' & E & Wc & Wb & Cc & Cb); [rewrite (proj2 Hb); lia|].
    destruct (chop_ok b2 k (proj1 Hb2)) as (c2 & b2' & E2 & Wc2 & Wb2 & Cc2 & Cb2); [rewrite (proj2 Hb2); rewrite zlen_app in *; lia|].
    rewrite E in *. rewrite E2. cbn [fst snd] in *. rewrite (proj2 Hb) in Cc, Cb. rewrite (proj2 Hb2) in Cc2, Cb2.
    assert (LT : length taken = Z.to_nat k).
    { rewrite Cb in C. apply (f_equal (@zlen byte)) in C. rewrite zlen_skipn, zlen_app in C by lia. unfold zlen in *. lia. }
    cbn [res_rel]. split; [|split; [exact Wb2|]].
    + split; [exact Wc|]. split; [exact Wc2|]. rewrite Cc, Cc2, <- LT, !firstn_app, Nat.sub_diag, !firstn_O, !app_nil_r. reflexivity.
    + rewrite Cb2, <- LT, skipn_app, skipn_all, Nat.sub_diag. reflexivity.
  - rewrite (chop_ood b k (proj1 Hb)) in * by (rewrite (proj2 Hb); lia). cbn [fst snd] in *. rewrite (proj2 Hb) in C.
    rewrite (nothing_taken _ _ C) in *. rewrite (chop_ood b2 k (proj1 Hb2)) by (rewrite (proj2 Hb2); cbn [app] in *; lia). split; [exact I|exact Hb2].
Qed.

Lemma bl_chop_bytes {A} k (g : bytes -> M blob A) : 0 < k -> (forall v, bl eq (g v) (g v)) ->
  bl eq (c <- Chop (B := blob) k ;; v <- lift (AsByteVector c) ;; g v) (c <- Chop (B := blob) k ;; v <- lift (AsByteVector c) ;; g v).
Proof.
  intros Hk G. assert (TG : forall c : blob, tf (v <- lift (AsByteVector c) ;; g v)) by (intros c; apply tf_bind; [apply tf_lift|intros v; exact (proj1 (G v))]).
  apply (bl_bind (fun c c2 => alike c c2 /\ content c <> [])); [|exact TG|].
  - destruct (bl_chop k ltac:(lia)) as [T H]. split; [exact T|]. intros b b2 taken rest rest2 Hb Hb2 L C.
    destruct (H b b2 taken rest rest2 Hb Hb2 L C) as [H1 H2]. split; [|exact H2].
    destruct (Chop k b) as [[c| | | |] b'] eqn:E, (Chop k b2) as [[c2| | | |] b2'] eqn:E2; cbn [fst res_rel] in *; try tauto. split; [exact H1|].
    change (Chop k b) with (blobChop k b) in E. destruct (Z.le_gt_cases k (zlen (content b))) as [Hl|Hl].
    + destruct (chop_ok b k (proj1 Hb) ltac:(lia)) as (c' & b'' & E' & _ & _ & Cc & _). rewrite E in E'. injection E' as <- <-.
      intros N. rewrite N in Cc. apply (f_equal (@zlen byte)) in Cc. rewrite zlen_firstn in Cc by lia. change (zlen (@nil byte)) with 0 in Cc. lia.
    + rewrite (chop_ood b k (proj1 Hb)) in E by lia. discriminate E.
  - intros c c2 ((Wc & Wc2 & E) & N). change (AsByteVector c) with (blobAsByteVector c). change (AsByteVector c2) with (blobAsByteVector c2).
    rewrite (AsByteVector_nonempty c Wc N), (AsByteVector_nonempty c2 Wc2 ltac:(congruence)), <- E. apply bl_bindeq; [apply bl_lift|exact G].
Qed.

Lemma bl_text {A} m (g : bytes -> M blob A) : 0 < m -> (forall v, bl eq (g v) (g v)) ->
  bl eq (c <- Chop2 (B := blob) 1 m ;; v <- lift (AsByteVector c) ;; g v) (c <- Chop2 (B := blob) 1 m ;; v <- lift (AsByteVector c) ;; g v).
Proof.
  intros Hm G. assert (E : forall b : blob, (c <- Chop2 1 m ;; v <- lift (AsByteVector c) ;; g v) b =
      (if Size b <? 1 then lift OutOfData else (c <- Chop (if m <=? Size b then m else Size b) ;; v <- lift (AsByteVector c) ;; g v)) b).
  { intros b. unfold bind at 1, Chop2. destruct (Size b <? 1); [reflexivity|]. destruct (m <=? Size b); reflexivity. }
  assert (K : forall z, bl eq (if z <? 1 then lift OutOfData else (c <- Chop (B := blob) (if m <=? z then m else z) ;; v <- lift (AsByteVector c) ;; g v))
                             (if z <? 1 then lift OutOfData else (c <- Chop (B := blob) (if m <=? z then m else z) ;; v <- lift (AsByteVector c) ;; g v))).
  { intros z. destruct (z <? 1) eqn:Q; [apply bl_lift|]. apply bl_chop_bytes; [destruct (m <=? z); lia|exact G]. }
  split.
  - intros b Hb. rewrite E. exact (proj1 (K (Size b)) b Hb).
  - intros b b2 taken rest rest2 Hb Hb2 L C. rewrite !E in *. rewrite (same_size _ _ _ _ _ Hb Hb2 L).
    exact (proj2 (K (Size b)) b b2 taken rest rest2 Hb Hb2 L C).
Qed.

Lemma bl_value t : bl eq (ExtractValue (B := blob) t) (ExtractValue t).
Proof. unfold ExtractValue. apply bl_chop_bytes; [pose proof (sizeof_range t); lia|]. intros v. apply bl_reteq. Qed.
Lemma bl_oracle : bl eq (GetOracle (B := blob)) GetOracle. Proof. apply bl_value. Qed.
Lemma bl_sized_oracle k : bl eq (sized_oracle (B := blob) k) (sized_oracle k).
Proof.
  unfold sized_oracle. repeat (match goal with |- bl eq (if ?c then _ else _) _ => destruct c end); first [apply bl_value|apply bl_lift].
Qed.

(** ** Galleys *)
Notation parts_alike := (Forall2 alike).

Lemma bl_next k (f : M blob (list blob)) : bl parts_alike f f -> bl parts_alike (c <- Chop (u64 k) ;; r <- f ;; ret (c :: r)) (c <- Chop (u64 k) ;; r <- f ;; ret (c :: r)).
Proof.
  intros H. apply (bl_bind alike); [apply bl_chop, u64_nonneg|intros c; apply tf_bind; [exact (proj1 H)|intros; apply tf_ret]|].
  intros c c2 Hc. apply (bl_bind parts_alike); [exact H|intros; apply tf_ret|]. intros r r2 Hr. apply bl_ret. constructor; assumption.
Qed.

Lemma bl_fixed fuel size : bl parts_alike (fixed_loop (B := blob) fuel size) (fixed_loop fuel size).
Proof.
  induction fuel as [|f IH]; cbn [fixed_loop]; [exact (bl_still parts_alike Diverge Diverge I)|].
  set (go := el <- Chop (u64 size);; r <- fixed_loop f size;; ret (el :: r)).
  apply (bl_ext parts_alike _ (fun b => (if u64 size <=? Size b then go else lift (Ok [])) b)); [intros b; destruct (_ <=? _); reflexivity|].
  apply (bl_sized parts_alike (fun b => if u64 size <=? Size b then go else lift (Ok [])) (fun b => if u64 size <=? Size b then go else lift (Ok []))).
  - intros b. destruct (_ <=? _); [exact (proj1 (bl_next size _ IH))|apply tf_lift].
  - intros b b2 ->. destruct (_ <=? _); [exact (bl_next size _ IH)|apply bl_still; constructor].
Qed.

Lemma bl_read_oracles k : forall t, bl eq (read_oracles (B := blob) k t) (read_oracles k t).
Proof.
  induction k as [|k IH]; intros t; cbn [read_oracles]; [apply bl_reteq|].
  apply bl_bindeq; [apply bl_oracle|]. intros o. apply bl_bindeq; [apply bl_lift|]. intros s. apply bl_bindeq; [apply IH|]. intros r. apply bl_reteq.
Qed.

Lemma bl_unbounded_loop mn total var os : forall rem, bl parts_alike (unbounded_loop (B := blob) mn total var os rem) (unbounded_loop mn total var os rem).
Proof.
  induction os as [|o os IH]; intros rem; cbn [unbounded_loop]; [apply bl_ret; constructor|]. cbv zeta.
  apply bl_bindeq; [apply bl_lift|]. intros s. apply bl_next. apply IH.
Qed.

Lemma bl_vector_unbounded mn : bl parts_alike (vector_unbounded (B := blob) mn) (vector_unbounded mn).
Proof.
  unfold vector_unbounded. apply bl_bindeq; [apply bl_size|]. intros sz.
  destruct (u64 (mn + ORACLE_SIZE) =? 0); [exact (bl_still parts_alike UB UB I)|].
  apply bl_bindeq; [apply bl_oracle|]. intros o. cbv zeta. apply bl_bindeq; [apply bl_read_oracles|]. intros ot.
  apply bl_bindeq; [apply bl_size|]. intros s2. do 2 (apply bl_bindeq; [apply bl_lift|]; intros ?). apply bl_unbounded_loop.
Qed.

Lemma bl_variated fuel mn mx : bl parts_alike (variated_loop (B := blob) fuel mn mx) (variated_loop fuel mn mx).
Proof.
  induction fuel as [|f IH]; cbn [variated_loop]; [exact (bl_still parts_alike Diverge Diverge I)|].
  destruct (int_op (mn + ORACLE_SIZE)) as [need| | | |]; try exact (bl_still parts_alike UB UB I).
  match goal with |- bl _ (fun b => if Size b <? u64 need then (Ok [], b) else ?g b) _ => set (go := g) end.
  assert (G : bl parts_alike go go).
  { unfold go. apply bl_bindeq; [apply bl_oracle|]. intros o. apply bl_bindeq; [apply bl_lift|]. intros p.
    apply bl_bindeq; [apply bl_size|]. intros s. cbv zeta. apply bl_next. exact IH. }
  apply (bl_ext parts_alike _ (fun b => (if Size b <? u64 need then lift (Ok []) else go) b)); [intros b; destruct (_ <? _); reflexivity|].
  apply (bl_sized parts_alike (fun b => if Size b <? u64 need then lift (Ok []) else go) (fun b => if Size b <? u64 need then lift (Ok []) else go)).
  - intros b. destruct (_ <? _); [apply tf_lift|exact (proj1 G)].
  - intros b b2 ->. destruct (_ <? _); [apply bl_still; constructor|exact G].
Qed.

Lemma bl_vector mn mx : bl parts_alike (vector_extract (B := blob) mn mx) (vector_extract mn mx).
Proof.
  set (go := fun b : blob => if Size b <? u64 mn then lift (B := blob) OutOfData else if isFixedSize mn mx then fixed_loop (S (Z.to_nat (Size b))) mn
     else if isUnbounded mn mx then vector_unbounded (B := blob) mn else (_ <- lift (int_op (mx - mn)) ;; variated_loop (S (Z.to_nat (Size b))) mn mx)).
  assert (G : forall b, bl parts_alike (go b) (go b)).
  { intros b. unfold go. destruct (_ <? _); [exact (bl_still parts_alike OutOfData OutOfData I)|]. destruct (isFixedSize mn mx); [apply bl_fixed|].
    destruct (isUnbounded mn mx); [apply bl_vector_unbounded|]. apply bl_bindeq; [apply bl_lift|]. intros _. apply bl_variated. }
  assert (E : forall b, vector_extract mn mx b = go b b).
  { intros b. unfold vector_extract, go. destruct (_ <? _); [reflexivity|]. destruct (isFixedSize mn mx); [reflexivity|]. destruct (isUnbounded mn mx); reflexivity. }
  assert (K : bl parts_alike (fun b => go b b) (fun b => go b b)).
  { apply bl_sized; [intros b; exact (proj1 (G b))|]. intros b b2 Es. unfold go in *. rewrite Es. apply G. }
  split; [apply tf_vector|]. intros b b2 taken rest rest2 Hb Hb2 L C. rewrite !E in *. exact (proj2 K b b2 taken rest rest2 Hb Hb2 L C).
Qed.

Lemma bl_read_modifiers uc l : forall p t, bl eq (read_modifiers (B := blob) uc l p t) (read_modifiers uc l p t).
Proof.
  induction l as [|[mn mx] l IH]; intros p t; cbn [read_modifiers]; [apply bl_reteq|]. destruct (isFixedSize mn mx).
  - apply bl_bindeq; [apply IH|]. intros x. apply bl_reteq.
  - apply bl_bindeq.
    { destruct (isUnbounded mn mx && (uc <=? 1)); [apply bl_reteq|]. apply bl_bindeq; [apply bl_oracle|]. intros o. apply bl_reteq. }
    intros md. apply bl_bindeq; [|intros x; apply bl_reteq].
    destruct (isUnbounded mn mx); [apply IH|]. apply bl_bindeq; [apply bl_lift|]. intros d. apply IH.
Qed.

Lemma bl_set_chunks l : forall mods kv ku vr ur, bl parts_alike (set_chunks (B := blob) l mods kv ku vr ur) (set_chunks l mods kv ku vr ur).
Proof.
  induction l as [|[mn mx] l IH]; intros mods kv ku vr ur; cbn [set_chunks]; [apply bl_ret; constructor|]. destruct mods as [|md mods]; [apply bl_ret; constructor|].
  apply bl_bindeq; [apply bl_lift|]. intros s. apply bl_next. apply IH.
Qed.

Lemma bl_set l : bl parts_alike (set_extract (B := blob) l) (set_extract l).
Proof.
  unfold set_extract. apply bl_bindeq; [apply bl_lift|]. intros t. cbv zeta. apply bl_bindeq; [apply bl_size|]. intros sz.
  destruct (sz <? u64 (set_fixed_total t)); [exact (bl_still parts_alike OutOfData OutOfData I)|]. apply bl_bindeq.
  { destruct ((0 <? t_var t) && (0 <? t_unb t)); [|apply bl_reteq]. apply bl_bindeq; [apply bl_oracle|]. intros o. apply bl_bindeq; [apply bl_lift|]. intros p. apply bl_reteq. }
  intros lim. apply bl_bindeq; [apply bl_read_modifiers|]. intros x. apply bl_bindeq; [apply bl_lift|]. intros fv. apply bl_bindeq; [apply bl_lift|]. intros fu.
  apply bl_set_chunks.
Qed.

(** ** Stamping the parts *)
Lemma bl_local {A} (f : M blob A) c c2 : bl eq f f -> alike c c2 -> fst (f c) = fst (f c2).
Proof.
  intros [T H] (Wc & Wc2 & E). destruct (T c Wc) as [W FU]. destruct (further_content _ _ Wc W FU) as (t & Et).
  destruct (H c c2 t (content (snd (f c))) (content (snd (f c)))) as [R _]; [split; assumption|split; [exact Wc2|congruence]|reflexivity|reflexivity|].
  apply res_rel_eq in R. exact R.
Qed.

Lemma each_alike {A} (ex : M blob A) cs cs2 : bl eq ex ex -> parts_alike cs cs2 -> stamp_each ex cs = stamp_each ex cs2.
Proof.
  intros H F. induction F as [|c c2 cs cs2 Hc F IH]; [reflexivity|]. cbn [stamp_each]. rewrite (bl_local ex c c2 H Hc), IH. reflexivity.
Qed.
Lemma zip_alike {A} (exs : list (M blob A)) : Forall (fun ex => bl eq ex ex) exs -> forall cs cs2, parts_alike cs cs2 -> stamp_zip exs cs = stamp_zip exs cs2.
Proof.
  induction 1 as [|ex exs H F IH]; intros cs cs2 Fc; [reflexivity|]. destruct Fc as [|c c2 cs cs2 Hc Fc]; [reflexivity|]. cbn [stamp_zip].
  rewrite (bl_local ex c c2 H Hc), (IH cs cs2 Fc). reflexivity.
Qed.

Lemma bl_ExtractVector {A} mn mx (ex : M blob A) : bl eq ex ex -> bl eq (ExtractVector mn mx ex) (ExtractVector mn mx ex).
Proof.
  intros H. unfold ExtractVector. apply (bl_bind parts_alike); [apply bl_vector|intros; apply tf_lift|]. intros cs cs2 F.
  apply bl_still. rewrite (each_alike ex cs cs2 H F). apply res_rel_eq. reflexivity.
Qed.
Lemma bl_ExtractSet {A} (l : list (Z * Z * M blob A)) : Forall (fun ex => bl eq ex ex) (map snd l) -> bl eq (ExtractSet l) (ExtractSet l).
Proof.
  intros H. unfold ExtractSet. apply (bl_bind parts_alike); [apply bl_set|intros; apply tf_lift|]. intros cs cs2 F.
  apply bl_still. rewrite (zip_alike _ H cs cs2 F). apply res_rel_eq. reflexivity.
Qed.

(** ** Picking a member *)
Notation be := (fun f => bl eq f f).
Definition blm (m : member blob) : Prop := be (snd m).

Lemma bl_weak {A C} (P : A -> Prop) (r : res A) (g : A -> M blob C) : (forall a, r = Ok a -> P a) -> (forall a, P a -> be (g a)) -> be (bind (lift r) g).
Proof.
  intros H G. destruct r as [a| | | |]; try exact (bl_lift _). exact (G a (H a eq_refl)).
Qed.

Lemma lot_filter_bl fr ms sz a : Forall blm ms -> lot_filter fr ms sz = Ok a -> Forall be a.
Proof.
  intros H. revert a. induction H as [|[[qn qx] ex] ms Hm _ IH]; intros a E; cbn [lot_filter] in E.
  - injection E as <-. constructor.
  - destruct qn as [mn| | | |]; try discriminate. cbn [rbind] in E. destruct (sz <? u64 mn); [apply IH; exact E|].
    destruct (soft_filter fr (Ok mn) qx (i32 sz)) as [k| | | |]; try discriminate. cbn [rbind] in E.
    destruct (lot_filter fr ms sz) as [r| | | |]; try discriminate. cbn [rbind] in E. injection E as <-.
    destruct k; [constructor; [exact Hm|]|]; apply IH; reflexivity.
Qed.

Lemma pool_filter_bl ms sz t u : Forall blm ms -> pool_filter ms sz = Ok (t, u) -> Forall be t /\ Forall be u.
Proof.
  intros H. revert t u. induction H as [|[[qn qx] ex] ms Hm _ IH]; intros t u E; cbn [pool_filter] in E.
  - injection E as <- <-. split; constructor.
  - destruct qn as [mn| | | |]; try discriminate. cbn [rbind] in E. destruct (u64 mn <=? sz); [|apply IH; exact E].
    destruct qx as [mx| | | |]; try discriminate. cbn [rbind] in E.
    destruct (pool_filter ms sz) as [[t' u']| | | |]; try discriminate. cbn [rbind fst snd] in E. injection E as <- <-.
    destruct (IH t' u' eq_refl) as [H1 H2]. split; [constructor; assumption|].
    destruct ((mx =? -1) || (sz <=? u64 mx)); [constructor|]; assumption.
Qed.

Lemma bl_nth (a : list (M blob bytes)) i : Forall be a -> be (match nth_error a i with Some ex => ex | None => lift UB end).
Proof.
  intros H. destruct (nth_error a i) as [ex|] eqn:E; [|apply bl_lift]. rewrite Forall_forall in H. apply H. exact (nth_error_In _ _ E).
Qed.

Lemma bl_lot fr os ms : Forall blm ms -> be (lot_extract fr os ms).
Proof.
  intros H. unfold lot_extract. apply bl_bindeq; [apply bl_sized_oracle|]. intros o. apply bl_bindeq; [apply bl_size|]. intros sz.
  apply (bl_weak (Forall be)); [intros a; apply lot_filter_bl; exact H|]. intros a0 Ha0.
  assert (K : forall a : list (M blob bytes), Forall be a -> be (match a with
     | [] => lift OutOfData
     | _ :: _ => i <- lift (pick_index o (oracle_max os) (zlen a)) ;; if u64 i <? zlen a then match nth_error a (Z.to_nat (u64 i)) with Some ex => ex | None => lift UB end else lift UB
     end)).
  { intros a Ha. destruct a as [|x a]; [apply bl_lift|]. apply bl_bindeq; [apply bl_lift|]. intros i. destruct (u64 i <? _); [|apply bl_lift]. apply bl_nth. exact Ha. }
  destruct a0; [apply (bl_weak (Forall be)); [intros a; apply lot_filter_bl; exact H|exact K]|]. exact (K (m :: a0) Ha0).
Qed.

Lemma bl_pool ms sm : Forall blm ms -> be (pool_extract ms sm).
Proof.
  intros H. unfold pool_extract. apply bl_bindeq; [apply bl_oracle|]. intros o. apply bl_bindeq; [apply bl_size|]. intros sz.
  apply (bl_weak (fun tu => Forall be (fst tu) /\ Forall be (snd tu))).
  { intros [t u] E. exact (pool_filter_bl ms sz t u H E). }
  intros [t u] [Ht Hu]. cbn [fst snd] in *.
  assert (Ha : Forall be (match u with [] => t | _ => u end)) by (destruct u; assumption).
  cbv zeta. set (a := match u with [] => t | _ => u end) in *. clearbody a. destruct a as [|x a].
  { apply bl_bindeq; [apply bl_lift|]. intros mn. destruct (sz <? u64 mn); apply bl_lift. }
  apply bl_bindeq; [apply bl_lift|]. intros i. destruct (i <? _); [|apply bl_lift]. apply bl_nth. exact Ha.
Qed.

(** ** Graphs *)
Lemma bl_extract h : heap_leaves (fun _ _ ex => be ex) h -> forall f x, leaves (fun _ _ ex => be ex) x -> be (extract f h x).
Proof.
  intros [Hp Hl]. induction f as [|f IHf]; intros x Hx;
    (induction x as [mn mx ex|j x IH|o x IH|o x y IHx IHy|j xs IH|nm v IHn IHv|p|l] using sx_ind'; inversion Hx; subst; unf_extract;
     [ assumption
     | do 2 (apply bl_bindeq; [apply bl_lift|]; intros ?); apply bl_bindeq; [|intros; apply bl_reteq]; apply bl_ExtractVector; apply IH; assumption
     | apply bl_bindeq; [apply IH; assumption|]; intros ?; apply bl_reteq
     | apply bl_bindeq; [apply bl_lift|]; intros ?; apply (bl_bind parts_alike); [apply bl_set| |];
       [ intros [|c1 [|c2 [|c3 cs]]]; try apply tf_lift; do 2 (apply tf_bind; [apply tf_lift|]; intros ?); apply tf_ret
       | intros ? ? [|c1 d1 ? ? Q1 [|c2 d2 ? ? Q2 [|? ? ? ? Q3 Q4]]]; try apply bl_lift;
         rewrite (bl_local _ c1 d1 (IHx ltac:(assumption)) Q1), (bl_local _ c2 d2 (IHy ltac:(assumption)) Q2);
         do 2 (apply bl_bindeq; [apply bl_lift|]; intros ?); apply bl_reteq ]
     | apply bl_bindeq; [apply bl_lift|]; intros ?; apply (bl_bind parts_alike); [apply bl_set| |];
       [ intros cs; apply tf_bind; [apply tf_lift|]; intros ?; apply tf_ret
       | intros cs cs2 F; rewrite (zip_alike (map _ xs)) with (cs := cs) (cs2 := cs2);
         [apply bl_bindeq; [apply bl_lift|]; intros ?; apply bl_reteq| |exact F];
         rewrite Forall_map; rewrite Forall_forall in *; intros y Hy; apply IH; [exact Hy|auto] ]
     | apply bl_bindeq; [apply IHn; assumption|]; intros ?; apply bl_bindeq; [apply IHv; assumption|]; intros ?; apply bl_reteq
     | try apply bl_lift | try apply bl_lift ]).
  - destruct (nth_error (pools h) p) as [P|] eqn:E; [|apply bl_lift]. apply bl_pool. rewrite Forall_map, Forall_forall.
    intros [y|] Iy; unfold blm; cbn [snd]; [|apply bl_lift]. apply IHf. exact (Hp P y (nth_error_In _ _ E) Iy).
  - destruct (nth_error (lots h) l) as [Lo|] eqn:E; [|apply bl_lift]. apply bl_lot. rewrite Forall_map, Forall_forall.
    intros y Iy. unfold blm; cbn [snd]. apply IHf. exact (Hl Lo y (nth_error_In _ _ E) Iy).
Qed.

Lemma bl_ExtractStr h x : heap_leaves (fun _ _ ex => be ex) h -> leaves (fun _ _ ex => be ex) x -> be (ExtractStr h x).
Proof.
  intros Hh Hx. assert (K : forall n, be (extract (S (Z.to_nat n)) h x)) by (intros n; apply bl_extract; assumption).
  unfold ExtractStr. apply (bl_sized eq (fun b => extract (S (Z.to_nat (Size b))) h x) (fun b => extract (S (Z.to_nat (Size b))) h x)); [intros b; exact (proj1 (K (Size b)))|].
  intros b b2 ->. apply K.
Qed.

(** ** Library leaves *)
Lemma bl_arith t : be (ArithExtractStr (B := blob) t).
Proof. unfold ArithExtractStr. apply bl_bindeq; [apply bl_value|]. intros v. apply bl_lift. Qed.
Lemma bl_dict d : be (DictExtractStr (B := blob) d).
Proof.
  unfold DictExtractStr. destruct (ChooseStampSize d) as [s m]. apply bl_bindeq; [apply bl_sized_oracle|]. intros o.
  apply bl_bindeq; [apply bl_lift|]. intros i. apply bl_lift.
Qed.
Lemma bl_string : be (JSONStringExtractStr (B := blob)).
Proof. unfold JSONStringExtractStr. apply bl_bindeq; [apply bl_dict|]. intros s. apply bl_reteq. Qed.
Lemma bl_latin1 : be (Latin1ExtractStr (B := blob)).
Proof. apply bl_text; [reflexivity|]. intros v. apply bl_reteq. Qed.
Lemma bl_ascii : be (ASCIIExtractStr (B := blob)).
Proof. apply bl_text; [reflexivity|]. intros v. apply bl_reteq. Qed.

(** ** To the specification *)
Lemma bl_blind {A} (f : M blob A) : be f -> blind f.
Proof.
  intros [T H] b taken rest r Hb (b' & E & Wb & Cb) b2 rest2 H2 L. destruct (H b b2 taken rest rest2 Hb H2 L) as [R Hr]; [rewrite E; exact Cb|].
  rewrite E in R. cbn [fst] in R. apply res_rel_eq in R. exists (snd (f b2)). rewrite R. split; [destruct (f b2); reflexivity|exact Hr].
Qed.
Lemma blind_bl {A} (f : M blob A) : takes_front f -> blind f -> be f.
Proof.
  intros T H. split; [exact T|]. intros b b2 taken rest rest2 Hb H2 L C. destruct (T b (proj1 Hb)) as [W _].
  destruct (H b taken rest (fst (f b)) Hb) with (b2 := b2) (rest2 := rest2) as (b2' & E & Hr); [|exact H2|exact L|].
  { exists (snd (f b)). split; [destruct (f b); reflexivity|]. split; assumption. }
  rewrite E. cbn [fst snd]. split; [apply res_rel_eq; reflexivity|exact Hr].
Qed.
Lemma bl_blind_cut (f : M blob (list blob)) : bl (Forall2 alike) f f -> blind_cut f.
Proof.
  intros [T H] b taken rest parts Hb (cs & b' & E & Wc & Cc & Wb & Cb) b2 rest2 H2 L.
  destruct (H b b2 taken rest rest2 Hb H2 L) as [R Hr]; [rewrite E; exact Cb|]. rewrite E in R. cbn [fst] in R.
  destruct (f b2) as [[cs2| | | |] b2'] eqn:E2; cbn [fst res_rel] in R; try contradiction. exists cs2, b2'. split; [exact E2|]. cbn [snd] in Hr.
  assert (K : Forall wf cs2 /\ map content cs2 = map content cs).
  { clear - R. induction R as [|c c2 cs cs2 (W1 & W2 & E) R [I1 I2]]; [split; constructor|]. split; [constructor; assumption|]. cbn [map]. congruence. }
  destruct K as [K1 K2]. split; [exact K1|]. split; [congruence|exact Hr].
Qed.
