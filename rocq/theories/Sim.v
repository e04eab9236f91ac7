(** Extraction code behaves the same on any two representations of the same bytes. *)
From Verif Require Import Base BaseFacts FloatModel Blob BlobSpec BlobFacts Oracle Fmt Arithm StampDict
  DictWords StampText Galley Stamps Json.

(** ** Lawful blob representations *)
Class BlobLaws (B : Type) `{BlobOps B} : Type := {
  okb : B -> Prop;
  cont : B -> bytes;
  law_small : forall b, okb b -> zlen (cont b) < 2 ^ 63;
  law_size : forall b, okb b -> Size b = zlen (cont b);
  law_chop_ok : forall b n, okb b -> 0 <= n <= zlen (cont b) ->
    exists c b', Chop n b = (Ok c, b') /\ okb c /\ okb b'
      /\ cont c = firstn (Z.to_nat n) (cont b) /\ cont b' = skipn (Z.to_nat n) (cont b);
  law_chop_ood : forall b n, okb b -> zlen (cont b) < n -> Chop n b = (OutOfData, b);
  law_bytes : forall b, okb b -> cont b <> [] -> AsByteVector b = Ok (cont b)
}.

Global Instance BlobBlobLaws : BlobLaws blob := {
  okb := wf;
  cont := content;
  law_small := content_small;
  law_size := content_len;
  law_chop_ok := chop_ok;
  law_chop_ood := chop_ood;
  law_bytes := AsByteVector_nonempty
}.

(** Byte lists as blobs: the reference representation used in proofs. *)
Global Instance ListOps : BlobOps bytes := {
  Size := fun l => zlen l;
  Chop := fun n l => if zlen l <? n then (OutOfData, l)
                     else (Ok (firstn (Z.to_nat n) l), skipn (Z.to_nat n) l);
  AsByteVector := fun l => Ok l
}.

Global Instance ListLaws : BlobLaws bytes.
Proof.
  refine {| okb := fun l => zlen l < 2 ^ 63; cont := fun l => l |}.
  - auto.
  - auto.
  - intros l n Hl Hn. cbn [Chop ListOps]. replace (zlen l <? n) with false by lia.
    eexists _, _. split; [reflexivity|]. rewrite zlen_firstn, zlen_skipn by lia. repeat split; lia.
  - intros l n Hl Hn. cbn [Chop ListOps]. replace (zlen l <? n) with true by lia. reflexivity.
  - reflexivity.
Defined.

(** ** Related outcomes and computations *)
Definition res_rel {A1 A2} (R : A1 -> A2 -> Prop) (r1 : res A1) (r2 : res A2) : Prop :=
  match r1, r2 with
  | Ok a1, Ok a2 => R a1 a2
  | OutOfData, OutOfData => True
  | UB, UB => True
  | Abort, Abort => True
  | Diverge, Diverge => True
  | _, _ => False
  end.

Definition simS {S1 S2 A1 A2} (RS : S1 -> S2 -> Prop) (R : A1 -> A2 -> Prop)
  (f : M S1 A1) (g : M S2 A2) : Prop :=
  forall s1 s2, RS s1 s2 ->
    res_rel R (fst (f s1)) (fst (g s2)) /\ RS (snd (f s1)) (snd (g s2)).

Lemma res_rel_eq {A} (r1 r2 : res A) : res_rel eq r1 r2 <-> r1 = r2.
Proof.
  split.
  - destruct r1, r2; cbn; try tauto; congruence.
  - intros ->. destruct r2; cbn; auto.
Qed.

Lemma rbind_rel {A1 A2 C1 C2} (R : A1 -> A2 -> Prop) (R' : C1 -> C2 -> Prop) r1 r2 g1 g2 :
  res_rel R r1 r2 -> (forall a1 a2, R a1 a2 -> res_rel R' (g1 a1) (g2 a2)) ->
  res_rel R' (rbind r1 g1) (rbind r2 g2).
Proof. intros H G. destruct r1, r2; cbn in *; try tauto. apply G. exact H. Qed.

Section SimS.
  Context {S1 S2 : Type} (RS : S1 -> S2 -> Prop).

  Lemma sim_ret {A1 A2} (R : A1 -> A2 -> Prop) a1 a2 : R a1 a2 -> simS RS R (ret a1) (ret a2).
  Proof. intros H s1 s2 Hs. cbn. split; assumption. Qed.

  Lemma sim_lift {A1 A2} (R : A1 -> A2 -> Prop) r1 r2 :
    res_rel R r1 r2 -> simS RS R (lift r1) (lift r2).
  Proof. intros H s1 s2 Hs. cbn. split; assumption. Qed.

  Lemma sim_lift_eq {A} (r : res A) : simS RS eq (lift r) (lift r).
  Proof. apply sim_lift. apply res_rel_eq. reflexivity. Qed.

  Lemma sim_bind {A1 A2 C1 C2} (R : A1 -> A2 -> Prop) (R' : C1 -> C2 -> Prop) f1 f2 g1 g2 :
    simS RS R f1 f2 -> (forall a1 a2, R a1 a2 -> simS RS R' (g1 a1) (g2 a2)) ->
    simS RS R' (bind f1 g1) (bind f2 g2).
  Proof.
    intros Hf Hg s1 s2 Hs. unfold bind. destruct (Hf s1 s2 Hs) as [Hr Hs'].
    destruct (f1 s1) as [r1 s1'], (f2 s2) as [r2 s2']. cbn [fst snd] in Hr, Hs'.
    destruct r1, r2; cbn in Hr; try tauto; try (cbn; split; [exact I|exact Hs']).
    apply Hg; assumption.
  Qed.

  Lemma sim_bind_eq {A C1 C2} (R' : C1 -> C2 -> Prop) (f1 : M S1 A) f2 g1 g2 :
    simS RS eq f1 f2 -> (forall a, simS RS R' (g1 a) (g2 a)) ->
    simS RS R' (bind f1 g1) (bind f2 g2).
  Proof. intros Hf Hg. eapply sim_bind; [exact Hf|]. intros a ? <-. apply Hg. Qed.

  Lemma sim_if {A1 A2} (R : A1 -> A2 -> Prop) (c : bool) f1 f2 g1 g2 :
    simS RS R f1 f2 -> simS RS R g1 g2 -> simS RS R (if c then f1 else g1) (if c then f2 else g2).
  Proof. destruct c; auto. Qed.
End SimS.

(** ** Blobs *)
Section SimB.
  Context {B1 B2 : Type} {O1 : BlobOps B1} {L1 : @BlobLaws B1 O1} {O2 : BlobOps B2} {L2 : @BlobLaws B2 O2}.

  Definition Rel (b1 : B1) (b2 : B2) : Prop := okb b1 /\ okb b2 /\ cont b1 = cont b2.
  Notation simB := (simS Rel).

  Lemma Rel_size b1 b2 : Rel b1 b2 -> Size b1 = Size b2.
  Proof. intros (H1 & H2 & E). rewrite (law_size b1 H1), (law_size b2 H2), E. reflexivity. Qed.

  Lemma sim_size : simB eq (gets Size) (gets Size).
  Proof. intros b1 b2 H. cbn. split; [apply Rel_size; exact H|exact H]. Qed.

  Lemma sim_chop n : 0 <= n -> simB Rel (Chop n) (Chop n).
  Proof.
    intros Hn b1 b2 (H1 & H2 & E).
    destruct (Z_le_gt_dec n (zlen (cont b1))) as [Hle|Hgt].
    - destruct (law_chop_ok b1 n H1) as (c1 & b1' & -> & Hc1 & Hb1 & Ec1 & Eb1); [lia|].
      destruct (law_chop_ok b2 n H2) as (c2 & b2' & -> & Hc2 & Hb2 & Ec2 & Eb2); [rewrite <- E; lia|].
      cbn. unfold Rel. rewrite Ec1, Ec2, Eb1, Eb2, E. repeat split; assumption.
    - rewrite (law_chop_ood b1 n H1) by lia. rewrite (law_chop_ood b2 n H2) by (rewrite <- E; lia).
      cbn. repeat split; assumption.
  Qed.

  (** Chop of at least one byte, then its bytes. *)
  Lemma sim_chop_bytes {A} n (k : bytes -> M B1 A) (k' : bytes -> M B2 A) : 0 < n ->
    (forall v, simB eq (k v) (k' v)) ->
    simB eq (c <- Chop n ;; v <- lift (AsByteVector c) ;; k v)
            (c <- Chop n ;; v <- lift (AsByteVector c) ;; k' v).
  Proof.
    intros Hn Hk b1 b2 (H1 & H2 & E).
    destruct (Z_le_gt_dec n (zlen (cont b1))) as [Hle|Hgt].
    - destruct (law_chop_ok b1 n H1) as (c1 & b1' & C1 & Hc1 & Hb1 & Ec1 & Eb1); [lia|].
      destruct (law_chop_ok b2 n H2) as (c2 & b2' & C2 & Hc2 & Hb2 & Ec2 & Eb2); [rewrite <- E; lia|].
      assert (Hne : forall (c : bytes), c = firstn (Z.to_nat n) (cont b1) -> c <> []).
      { intros c -> Hc. apply (f_equal zlen) in Hc. rewrite zlen_firstn in Hc by lia. cbn in Hc. lia. }
      rewrite (bind_ok _ _ _ _ _ C1), (bind_ok _ _ _ _ _ C2).
      rewrite (bind_lift_ok _ _ _ (cont c1) (law_bytes c1 Hc1 (Hne _ Ec1))).
      assert (Ec2' : cont c2 = firstn (Z.to_nat n) (cont b1)) by (rewrite Ec2, E; reflexivity).
      rewrite (bind_lift_ok _ _ _ (cont c2) (law_bytes c2 Hc2 (Hne _ Ec2'))).
      rewrite Ec1, Ec2'. apply Hk. unfold Rel. rewrite Eb1, Eb2, E. repeat split; assumption.
    - rewrite (bind_ood _ _ _ b1) by (apply law_chop_ood; [assumption|lia]).
      rewrite (bind_ood _ _ _ b2) by (apply law_chop_ood; [assumption|rewrite <- E; lia]).
      cbn. repeat split; assumption.
  Qed.

  Lemma sizeof_pos t : 0 < sizeof t.
  Proof. destruct t; reflexivity. Qed.

  Lemma sim_ExtractValue t : simB eq (ExtractValue t) (ExtractValue t).
  Proof. apply sim_chop_bytes; [apply sizeof_pos|]. intros v. apply sim_ret. reflexivity. Qed.

  Lemma sim_GetOracle : simB eq GetOracle GetOracle.
  Proof. apply sim_ExtractValue. Qed.

  Lemma sim_ArithExtractStr t : simB eq (ArithExtractStr t) (ArithExtractStr t).
  Proof. apply sim_bind_eq; [apply sim_ExtractValue|]. intros v. apply sim_lift_eq. Qed.

  Lemma sim_ArithExtractBin t : simB eq (ArithExtractBin t) (ArithExtractBin t).
  Proof. apply sim_bind_eq; [apply sim_ExtractValue|]. intros v. apply sim_ret. reflexivity. Qed.

  Lemma sim_ArithExtractPValue t : simB eq (ArithExtractPValue t) (ArithExtractPValue t).
  Proof. apply sim_bind_eq; [apply sim_ExtractValue|]. intros v. apply sim_ret. reflexivity. Qed.

  Lemma sim_sized_oracle n : simB eq (sized_oracle n) (sized_oracle n).
  Proof. unfold sized_oracle. repeat apply sim_if; try apply sim_ExtractValue. apply sim_lift_eq. Qed.

  Lemma sim_DictExtractStr d : simB eq (DictExtractStr d) (DictExtractStr d).
  Proof.
    unfold DictExtractStr. destruct (ChooseStampSize d) as [s m].
    apply sim_bind_eq; [apply sim_sized_oracle|]. intros o.
    apply sim_bind_eq; [apply sim_lift_eq|]. intros i. apply sim_lift_eq.
  Qed.

  (** Chop2 with minimum 1, then its bytes. *)
  Lemma sim_text {A} mx (k : bytes -> M B1 A) (k' : bytes -> M B2 A) : 0 < mx ->
    (forall v, simB eq (k v) (k' v)) ->
    simB eq (c <- Chop2 1 mx ;; v <- lift (AsByteVector c) ;; k v)
            (c <- Chop2 1 mx ;; v <- lift (AsByteVector c) ;; k' v).
  Proof.
    intros Hmx Hk b1 b2 HR. pose proof (Rel_size b1 b2 HR) as Hs.
    assert (G : forall (B : Type) (O : BlobOps B) A (k : bytes -> M B A) (b : B),
      (c <- Chop2 1 mx ;; v <- lift (AsByteVector c) ;; k v) b =
      if Size b <? 1 then (OutOfData, b)
      else (c <- Chop (if mx <=? Size b then mx else Size b) ;;
            v <- lift (AsByteVector c) ;; k v) b).
    { intros B O A' k0 b. unfold bind at 1, Chop2. destruct (Size b <? 1); [reflexivity|].
      destruct (mx <=? Size b); reflexivity. }
    rewrite !G. rewrite <- Hs.
    destruct (Size b1 <? 1) eqn:E1; [cbn; split; [exact I|exact HR]|].
    apply sim_chop_bytes; [|exact Hk|exact HR]. destruct (mx <=? Size b1); lia.
  Qed.

  Lemma sim_Latin1 : simB eq Latin1ExtractStr Latin1ExtractStr.
  Proof. apply sim_text; [reflexivity|]. intros v. apply sim_ret. reflexivity. Qed.

  Lemma sim_ASCII : simB eq ASCIIExtractStr ASCIIExtractStr.
  Proof. apply sim_text; [reflexivity|]. intros v. apply sim_ret. reflexivity. Qed.

  (** ** Galleys *)
  Lemma sim_fixed_loop fuel size : simB (Forall2 Rel) (fixed_loop fuel size) (fixed_loop fuel size).
  Proof.
    induction fuel as [|f IH]; intros b1 b2 HR; cbn [fixed_loop].
    - split; [exact I|exact HR].
    - rewrite <- (Rel_size b1 b2 HR). destruct (u64 size <=? Size b1).
      + revert b1 b2 HR. change (simB (Forall2 Rel)
          (el <- Chop (u64 size) ;; r <- fixed_loop f size ;; ret (el :: r))
          (el <- Chop (u64 size) ;; r <- fixed_loop f size ;; ret (el :: r))).
        eapply sim_bind; [apply sim_chop; apply u64_range|]. intros c1 c2 Hc.
        eapply sim_bind; [exact IH|]. intros r1 r2 Hr. apply sim_ret. constructor; assumption.
      + cbn. split; [constructor|exact HR].
  Qed.

  Lemma sim_read_oracles n : forall t, simB eq (read_oracles n t) (read_oracles n t).
  Proof.
    induction n as [|n IH]; intros t; cbn [read_oracles].
    - apply sim_ret. reflexivity.
    - apply sim_bind_eq; [apply sim_GetOracle|]. intros o.
      apply sim_bind_eq; [apply sim_lift_eq|]. intros t'.
      apply sim_bind_eq; [apply IH|]. intros r. apply sim_ret. reflexivity.
  Qed.

  Lemma sim_unbounded_loop mn total var os : forall rem,
    simB (Forall2 Rel) (unbounded_loop mn total var os rem) (unbounded_loop mn total var os rem).
  Proof.
    induction os as [|o os IH]; intros rem; cbn [unbounded_loop].
    - apply sim_ret. constructor.
    - apply sim_bind_eq; [apply sim_lift_eq|]. intros el.
      eapply sim_bind; [apply sim_chop; apply u64_range|]. intros c1 c2 Hc.
      eapply sim_bind; [apply IH|]. intros r1 r2 Hr. apply sim_ret. constructor; assumption.
  Qed.

  Lemma sim_vector_unbounded mn : simB (Forall2 Rel) (vector_unbounded mn) (vector_unbounded mn).
  Proof.
    unfold vector_unbounded. apply sim_bind_eq; [apply sim_size|]. intros sz.
    apply sim_if; [apply sim_lift; exact I|].
    apply sim_bind_eq; [apply sim_GetOracle|]. intros o.
    apply sim_bind_eq; [apply sim_read_oracles|]. intros ot.
    apply sim_bind_eq; [apply sim_size|]. intros sz2.
    apply sim_bind_eq; [apply sim_lift_eq|]. intros fd.
    apply sim_bind_eq; [apply sim_lift_eq|]. intros vd.
    apply sim_unbounded_loop.
  Qed.

  Lemma sim_variated_loop fuel mn mx :
    simB (Forall2 Rel) (variated_loop fuel mn mx) (variated_loop fuel mn mx).
  Proof.
    induction fuel as [|f IH]; intros b1 b2 HR; cbn [variated_loop].
    - split; [exact I|exact HR].
    - destruct (int_op (mn + ORACLE_SIZE)) as [need| | | |]; try (split; [exact I|exact HR]).
      rewrite <- (Rel_size b1 b2 HR). destruct (Size b1 <? u64 need).
      + split; [constructor|exact HR].
      + refine (sim_bind_eq _ _ _ _ _ _ sim_GetOracle _ b1 b2 HR). intros o.
        apply sim_bind_eq; [apply sim_lift_eq|]. intros p.
        apply sim_bind_eq; [apply sim_size|]. intros sz.
        eapply sim_bind; [apply sim_chop; apply u64_range|]. intros c1 c2 Hc.
        eapply sim_bind; [exact IH|]. intros r1 r2 Hr. apply sim_ret. constructor; assumption.
  Qed.

  Lemma sim_vector_extract mn mx : simB (Forall2 Rel) (vector_extract mn mx) (vector_extract mn mx).
  Proof.
    intros b1 b2 HR. unfold vector_extract. rewrite <- (Rel_size b1 b2 HR).
    destruct (Size b1 <? u64 mn); [split; [exact I|exact HR]|].
    destruct (isFixedSize mn mx); [apply sim_fixed_loop; exact HR|].
    destruct (isUnbounded mn mx); [apply sim_vector_unbounded; exact HR|].
    unfold vector_variated. rewrite <- (Rel_size b1 b2 HR).
    refine (sim_bind_eq _ _ _ _ _ _ (sim_lift_eq _ _) _ b1 b2 HR). intros _. apply sim_variated_loop.
  Qed.

  Lemma sim_stamp_each {A} (ex1 : M B1 A) (ex2 : M B2 A) l1 l2 :
    simB eq ex1 ex2 -> Forall2 Rel l1 l2 -> stamp_each ex1 l1 = stamp_each ex2 l2.
  Proof.
    intros He Hl. induction Hl as [|c1 c2 l1 l2 Hc Hl IH]; cbn [stamp_each]; [reflexivity|].
    destruct (He c1 c2 Hc) as [Hr _]. apply res_rel_eq in Hr. rewrite Hr, IH. reflexivity.
  Qed.

  Lemma sim_stamp_zip {A} (xs1 : list (M B1 A)) (xs2 : list (M B2 A)) l1 l2 :
    Forall2 (simB eq) xs1 xs2 -> Forall2 Rel l1 l2 -> stamp_zip xs1 l1 = stamp_zip xs2 l2.
  Proof.
    intros Hx. revert l1 l2. induction Hx as [|x1 x2 xs1 xs2 Hx0 Hx IH]; intros l1 l2 Hl; cbn [stamp_zip].
    - destruct Hl; reflexivity.
    - destruct Hl as [|c1 c2 l1 l2 Hc Hl]; [reflexivity|].
      destruct (Hx0 c1 c2 Hc) as [Hr _]. apply res_rel_eq in Hr. rewrite Hr, (IH l1 l2 Hl). reflexivity.
  Qed.

  Lemma sim_ExtractVector {A} mn mx (ex1 : M B1 A) (ex2 : M B2 A) :
    simB eq ex1 ex2 -> simB eq (ExtractVector mn mx ex1) (ExtractVector mn mx ex2).
  Proof.
    intros He. unfold ExtractVector. eapply sim_bind; [apply sim_vector_extract|].
    intros l1 l2 Hl. rewrite (sim_stamp_each ex1 ex2 l1 l2 He Hl). apply sim_lift_eq.
  Qed.

  Lemma sim_read_modifiers uc l : forall p t,
    simB eq (read_modifiers uc l p t) (read_modifiers uc l p t).
  Proof.
    induction l as [|[mn mx] l IH]; intros p t; cbn [read_modifiers].
    - apply sim_ret. reflexivity.
    - apply sim_if.
      + apply sim_bind_eq; [apply IH|]. intros x. apply sim_ret. reflexivity.
      + apply sim_bind_eq.
        { apply sim_if; [apply sim_ret; reflexivity|].
          apply sim_bind_eq; [apply sim_GetOracle|]. intros o. apply sim_ret. reflexivity. }
        intros md. apply sim_bind_eq.
        { apply sim_if; [apply IH|].
          apply sim_bind_eq; [apply sim_lift_eq|]. intros d. apply IH. }
        intros x. apply sim_ret. reflexivity.
  Qed.

  Lemma sim_set_chunks l : forall mods kv ku vr ur,
    simB (Forall2 Rel) (set_chunks l mods kv ku vr ur) (set_chunks l mods kv ku vr ur).
  Proof.
    induction l as [|[mn mx] l IH]; intros mods kv ku vr ur; cbn [set_chunks].
    - apply sim_ret. constructor.
    - destruct mods as [|md ms]; [apply sim_ret; constructor|].
      apply sim_bind_eq; [apply sim_lift_eq|]. intros s.
      eapply sim_bind; [apply sim_chop; apply u64_range|]. intros c1 c2 Hc.
      eapply sim_bind; [apply IH|]. intros r1 r2 Hr. apply sim_ret. constructor; assumption.
  Qed.

  Lemma sim_set_extract l : simB (Forall2 Rel) (set_extract l) (set_extract l).
  Proof.
    unfold set_extract. apply sim_bind_eq; [apply sim_lift_eq|]. intros t.
    apply sim_bind_eq; [apply sim_size|]. intros sz.
    apply sim_if; [apply sim_lift; exact I|].
    apply sim_bind_eq.
    { apply sim_if; [|apply sim_ret; reflexivity].
      apply sim_bind_eq; [apply sim_GetOracle|]. intros o.
      apply sim_bind_eq; [apply sim_lift_eq|]. intros p. apply sim_ret. reflexivity. }
    intros limit. apply sim_bind_eq; [apply sim_read_modifiers|]. intros x.
    apply sim_bind_eq; [apply sim_lift_eq|]. intros fv.
    apply sim_bind_eq; [apply sim_lift_eq|]. intros fu.
    apply sim_set_chunks.
  Qed.

  Lemma sim_ExtractSet {A} (l1 : list (Z * Z * M B1 A)) (l2 : list (Z * Z * M B2 A)) :
    map fst l1 = map fst l2 -> Forall2 (simB eq) (map snd l1) (map snd l2) ->
    simB eq (ExtractSet l1) (ExtractSet l2).
  Proof.
    intros E H. unfold ExtractSet. rewrite E. eapply sim_bind; [apply sim_set_extract|].
    intros c1 c2 Hc. rewrite (sim_stamp_zip _ _ c1 c2 H Hc). apply sim_lift_eq.
  Qed.

  Lemma sim_Load mn mx : 0 <= mx \/ mx = -1 -> simB Rel (Load mn mx) (Load mn mx).
  Proof.
    intros Hmx b1 b2 HR. unfold Load. rewrite <- (Rel_size b1 b2 HR).
    destruct (Size b1 <? u64 mn); [split; [exact I|exact HR]|].
    assert (0 <= Size b1).
    { destruct HR as (H1 & _ & _). rewrite (law_size b1 H1). apply zlen_nonneg. }
    apply sim_chop; [|exact HR].
    destruct (isUnbounded mn mx); [lia|]. pose proof (u64_range mx). destruct (_ <? _); lia.
  Qed.

  (** ** Pools and lotteries over given members *)
  Definition mem_rel (m1 : member B1) (m2 : member B2) : Prop :=
    fst m1 = fst m2 /\ simB eq (snd m1) (snd m2).

  Lemma lot_filter_rel fr ms1 ms2 sz : Forall2 mem_rel ms1 ms2 ->
    res_rel (Forall2 (simB eq)) (lot_filter fr ms1 sz) (lot_filter fr ms2 sz).
  Proof.
    intros H. induction H as [|[[a1 c1] e1] [[a2 c2] e2] ms1 ms2 [Hf He] H IH]; cbn [lot_filter].
    - constructor.
    - cbn [fst snd] in Hf, He. injection Hf as <- <-. destruct a1 as [mn| | | |]; cbn [rbind]; try exact I.
      destruct (sz <? u64 mn); [exact IH|].
      eapply rbind_rel; [apply res_rel_eq; reflexivity|]. intros k ? <-.
      eapply rbind_rel; [exact IH|]. intros r1 r2 Hr. cbn. destruct k; [constructor|]; assumption.
  Qed.

  Lemma Forall2_nth {A1 A2} (R : A1 -> A2 -> Prop) l1 l2 n : Forall2 R l1 l2 ->
    match nth_error l1 n, nth_error l2 n with
    | Some x1, Some x2 => R x1 x2
    | None, None => True
    | _, _ => False
    end.
  Proof.
    intros H. revert n. induction H as [|x1 x2 l1 l2 Hx H IH]; intros [|n]; cbn; auto. apply IH.
  Qed.

  Lemma Forall2_zlen {A1 A2} (R : A1 -> A2 -> Prop) l1 l2 : Forall2 R l1 l2 -> zlen l1 = zlen l2.
  Proof. intros H. induction H as [|x y l1 l2 Hx H IH]; [reflexivity|]. rewrite !zlen_cons, IH. reflexivity. Qed.

  Lemma sim_lot_extract fr os ms1 ms2 : Forall2 mem_rel ms1 ms2 ->
    simB eq (lot_extract fr os ms1) (lot_extract fr os ms2).
  Proof.
    intros H. unfold lot_extract. apply sim_bind_eq; [apply sim_sized_oracle|]. intros o.
    apply sim_bind_eq; [apply sim_size|]. intros sz.
    eapply sim_bind; [apply sim_lift, lot_filter_rel; exact H|]. intros a1 a2 Ha.
    eapply sim_bind with (R := Forall2 (simB eq)).
    { destruct Ha; [apply sim_lift, lot_filter_rel; exact H|]. apply sim_ret. constructor; assumption. }
    intros t1 t2 Ht. rewrite (Forall2_zlen _ _ _ Ht).
    assert (G : simB eq
      (index <- lift (pick_index o (oracle_max os) (zlen t2)) ;;
       if u64 index <? zlen t2
       then match nth_error t1 (Z.to_nat (u64 index)) with Some ex => ex | None => lift UB end
       else lift UB)
      (index <- lift (pick_index o (oracle_max os) (zlen t2)) ;;
       if u64 index <? zlen t2
       then match nth_error t2 (Z.to_nat (u64 index)) with Some ex => ex | None => lift UB end
       else lift UB)).
    { apply sim_bind_eq; [apply sim_lift_eq|]. intros i. apply sim_if; [|apply sim_lift; exact I].
      pose proof (Forall2_nth _ _ _ (Z.to_nat (u64 i)) Ht) as Hn.
      destruct (nth_error t1 _), (nth_error t2 _); try tauto. apply sim_lift; exact I. }
    destruct Ht; [apply sim_lift; exact I|exact G].
  Qed.

  Lemma pool_filter_rel ms1 ms2 sz : Forall2 mem_rel ms1 ms2 ->
    res_rel (fun p1 p2 => Forall2 (simB eq) (fst p1) (fst p2) /\ Forall2 (simB eq) (snd p1) (snd p2))
      (pool_filter ms1 sz) (pool_filter ms2 sz).
  Proof.
    intros H. induction H as [|[[a1 c1] e1] [[a2 c2] e2] ms1 ms2 [Hf He] H IH]; cbn [pool_filter].
    - split; constructor.
    - cbn [fst snd] in Hf, He. injection Hf as <- <-. destruct a1 as [mn| | | |]; cbn [rbind]; try exact I.
      destruct (u64 mn <=? sz); [|exact IH].
      eapply rbind_rel; [apply res_rel_eq; reflexivity|]. intros k ? <-.
      eapply rbind_rel; [exact IH|]. intros r1 r2 [Hr1 Hr2]. cbn. split; [constructor; assumption|].
      destruct ((k =? -1) || (sz <=? u64 k)); [constructor|]; assumption.
  Qed.

  Lemma sim_pool_extract ms1 ms2 sm : Forall2 mem_rel ms1 ms2 ->
    simB eq (pool_extract ms1 sm) (pool_extract ms2 sm).
  Proof.
    intros H. unfold pool_extract. apply sim_bind_eq; [apply sim_GetOracle|]. intros o.
    apply sim_bind_eq; [apply sim_size|]. intros sz.
    eapply sim_bind; [apply sim_lift, pool_filter_rel; exact H|]. intros [t1 u1] [t2 u2] [Ht Hu].
    cbn [fst snd] in *.
    assert (Hm : Forall2 (simB eq) (match u1 with [] => t1 | _ => u1 end)
                                   (match u2 with [] => t2 | _ => u2 end)).
    { destruct Hu; [exact Ht|constructor; assumption]. }
    set (m1 := match u1 with [] => t1 | _ => u1 end) in *.
    set (m2 := match u2 with [] => t2 | _ => u2 end) in *.
    rewrite (Forall2_zlen _ _ _ Hm).
    assert (G : simB eq
      (index <- lift (OracleProportion o 0 (u64 (zlen m2 - 1))) ;;
       if index <? zlen m2
       then match nth_error m1 (Z.to_nat index) with Some ex => ex | None => lift UB end
       else lift UB)
      (index <- lift (OracleProportion o 0 (u64 (zlen m2 - 1))) ;;
       if index <? zlen m2
       then match nth_error m2 (Z.to_nat index) with Some ex => ex | None => lift UB end
       else lift UB)).
    { apply sim_bind_eq; [apply sim_lift_eq|]. intros i. apply sim_if; [|apply sim_lift; exact I].
      pose proof (Forall2_nth _ _ _ (Z.to_nat i) Hm) as Hn.
      destruct (nth_error m1 _), (nth_error m2 _); try tauto. apply sim_lift; exact I. }
    clearbody m1 m2. destruct Hm; [|exact G].
    apply sim_bind_eq; [apply sim_lift_eq|]. intros mn. apply sim_if; apply sim_lift; exact I.
  Qed.
End SimB.
