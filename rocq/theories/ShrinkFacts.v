(** Extraction never enlarges a blob; enough recursion depth for pools and lotteries. *)
From Verif Require Import Base BaseFacts FloatModel Oracle Arithm StampDict DictWords StampText Galley Stamps
  StampsEq Json Sim SimGraph QuerySpec QueryFacts RecursionFacts.

Section Shrink.
  Context {B : Type} {O : BlobOps B} {L : @BlobLaws B O}.

  Definition small (n : Z) (b : B) : Prop := okb b /\ Size b <= n.

  (** On blobs of at most [n] bytes [f] leaves a blob of at most [n] bytes and its value satisfies P. *)
  Definition shr {A} (n : Z) (P : A -> Prop) (f : M B A) : Prop :=
    forall b, small n b -> small n (snd (f b)) /\ forall a, fst (f b) = Ok a -> P a.

  Definition any {A} (a : A) : Prop := True.

  Lemma shr_ret {A} n (P : A -> Prop) a : P a -> shr n P (ret a).
  Proof. intros Ha b Hb. split; [exact Hb|]. intros x [= <-]. exact Ha. Qed.

  Lemma shr_lift {A} n (P : A -> Prop) r : (forall a, r = Ok a -> P a) -> shr n P (lift r).
  Proof. intros Ha b Hb. split; [exact Hb|]. exact Ha. Qed.

  Lemma shr_lift_any {A} n (r : res A) : shr n any (lift r).
  Proof. apply shr_lift. intros; exact I. Qed.

  Lemma shr_gets {A} n (f : B -> A) : shr n any (gets f).
  Proof. intros b Hb. split; [exact Hb|]. intros; exact I. Qed.

  Lemma shr_bind {A C} n (P : A -> Prop) (Q : C -> Prop) f g :
    shr n P f -> (forall a, P a -> shr n Q (g a)) -> shr n Q (bind f g).
  Proof.
    intros Hf Hg b Hb. destruct (Hf b Hb) as [H1 H2]. unfold bind.
    destruct (f b) as [[a| | | |] b']; cbn [fst snd] in *; try (split; [exact H1|discriminate]).
    apply Hg; [apply H2; reflexivity|exact H1].
  Qed.

  Lemma shr_weaken {A} n (P Q : A -> Prop) f : (forall a, P a -> Q a) -> shr n P f -> shr n Q f.
  Proof. intros HPQ H b Hb. destruct (H b Hb) as [H1 H2]. split; [exact H1|]. intros a E. apply HPQ, H2, E. Qed.

  Lemma chop_small n k b : 0 <= k -> small n b ->
    (exists c b', Chop k b = (Ok c, b') /\ small (Size b) c /\ small n c /\ small n b' /\ Size b' = Size b - k)
    \/ Chop k b = (OutOfData, b).
  Proof.
    intros Hk [H1 H2]. pose proof (law_size b H1) as Hz. rewrite Hz in *.
    destruct (Z_le_gt_dec k (zlen (cont b))) as [Hl|Hl].
    - destruct (law_chop_ok b k H1 ltac:(lia)) as (c & b' & E & Oc & Ob & Cc & Cb). left. exists c, b'.
      assert (Sc : Size c = k) by (rewrite law_size by exact Oc; rewrite Cc; apply zlen_firstn; lia).
      assert (Sb : Size b' = zlen (cont b) - k) by (rewrite law_size by exact Ob; rewrite Cb; apply zlen_skipn; lia).
      split; [exact E|]. split; [split; [exact Oc|lia]|]. split; [split; [exact Oc|lia]|].
      split; [split; [exact Ob|lia]|lia].
    - right. apply law_chop_ood; [exact H1|lia].
  Qed.

  Lemma shr_chop n k : 0 <= k -> shr n (small n) (Chop k).
  Proof.
    intros Hk b Hb. destruct (chop_small n k b Hk Hb) as [(c & b' & E & _ & H1 & H2 & _)|E]; rewrite E; cbn [fst snd].
    - split; [exact H2|]. intros a [= <-]. exact H1.
    - split; [exact Hb|discriminate].
  Qed.

  Lemma u64_nonneg z : 0 <= u64 z. Proof. apply u64_range. Qed.

  Lemma shr_chop2 n k m : 0 <= m -> shr n (small n) (Chop2 k m).
  Proof.
    intros Hm b Hb. unfold Chop2. destruct (Size b <? k); [split; [exact Hb|discriminate]|].
    assert (0 <= Size b) by (rewrite law_size by apply Hb; apply zlen_nonneg).
    destruct (m <=? Size b); apply shr_chop; assumption.
  Qed.

  Lemma shr_value n t : shr n any (ExtractValue t).
  Proof.
    unfold ExtractValue. eapply shr_bind; [apply shr_chop; pose proof (ArithFacts.sizeof_range t); lia|].
    intros a _. eapply shr_bind; [apply shr_lift_any|]. intros v _. apply shr_ret. exact I.
  Qed.

  Lemma shr_oracle n : shr n any GetOracle. Proof. apply shr_value. Qed.

  (** An oracle costs two bytes. *)
  Lemma oracle_step n b : small n b -> (exists o b', GetOracle b = (Ok o, b') /\ small (n - 2) b')
    \/ exists r, GetOracle b = (r, snd (GetOracle b)) /\ forall o, r <> Ok o.
  Proof.
    intros Hb. unfold GetOracle, ExtractValue, bind.
    destruct (chop_small n (sizeof UShort) b ltac:(cbn; lia) Hb) as [(c & b' & E & _ & _ & H2 & H3)|E]; rewrite E.
    - cbn [lift]. destruct (AsByteVector c) as [v| | | |]; cbn [ret snd]; try (right; eexists; split; [reflexivity|discriminate]).
      left. eexists _, _. split; [reflexivity|]. destruct H2 as [H2 _], Hb as [_ Hb]. split; [exact H2|].
      change (sizeof UShort) with 2 in H3. lia.
    - right. eexists. split; [reflexivity|discriminate].
  Qed.

  Lemma shr_sized_oracle n k : shr n any (sized_oracle k).
  Proof.
    unfold sized_oracle. repeat (match goal with |- shr _ _ (if ?c then _ else _) => destruct c end);
      first [apply shr_value|apply shr_lift_any].
  Qed.

  (** ** Galleys *)
  Notation chunks n := (Forall (small n)).

  Lemma shr_fixed n fuel size : shr n (chunks n) (fixed_loop fuel size).
  Proof.
    induction fuel as [|f IH]; cbn [fixed_loop]; intros b Hb; [split; [exact Hb|discriminate]|].
    destruct (u64 size <=? Size b); [|apply (shr_ret n (chunks n) []); [constructor|exact Hb]].
    revert b Hb. change (shr n (chunks n) (el <- Chop (u64 size);; r <- fixed_loop f size;; ret (el :: r))).
    eapply shr_bind; [apply shr_chop, u64_nonneg|]. intros c Hc. eapply shr_bind; [exact IH|].
    intros r Hr. apply shr_ret. constructor; assumption.
  Qed.

  Lemma shr_read_oracles n k : forall t, shr n any (read_oracles k t).
  Proof.
    induction k as [|k IH]; intros t; cbn [read_oracles]; [apply shr_ret; exact I|].
    eapply shr_bind; [apply shr_oracle|]. intros o _. eapply shr_bind; [apply shr_lift_any|]. intros s _.
    eapply shr_bind; [apply IH|]. intros r _. apply shr_ret; exact I.
  Qed.

  Lemma shr_unbounded_loop n mn total var os : forall rem, shr n (chunks n) (unbounded_loop mn total var os rem).
  Proof.
    induction os as [|o os IH]; intros rem; cbn [unbounded_loop]; [apply shr_ret; constructor|].
    cbv zeta. eapply shr_bind; [apply shr_lift_any|]. intros s _.
    eapply shr_bind; [apply shr_chop, u64_nonneg|]. intros c Hc. eapply shr_bind; [apply IH|].
    intros r Hr. apply shr_ret. constructor; assumption.
  Qed.

  Lemma shr_vector_unbounded n mn : shr n (chunks n) (vector_unbounded mn).
  Proof.
    unfold vector_unbounded. eapply shr_bind; [apply shr_gets|]. intros sz _.
    destruct (u64 (mn + ORACLE_SIZE) =? 0); [apply shr_lift; discriminate|].
    eapply shr_bind; [apply shr_oracle|]. intros o _. cbv zeta.
    eapply shr_bind; [apply shr_read_oracles|]. intros ot _.
    eapply shr_bind; [apply shr_gets|]. intros s2 _. do 2 (eapply shr_bind; [apply shr_lift_any|]; intros ? _).
    apply shr_unbounded_loop.
  Qed.

  Lemma shr_variated n fuel mn mx : shr n (chunks n) (variated_loop fuel mn mx).
  Proof.
    induction fuel as [|f IH]; cbn [variated_loop]; intros b Hb; [split; [exact Hb|discriminate]|].
    destruct (int_op (mn + ORACLE_SIZE)) as [need| | | |]; try (split; [exact Hb|discriminate]).
    destruct (Size b <? u64 need); [apply (shr_ret n (chunks n) []); [constructor|exact Hb]|].
    revert b Hb.
    match goal with |- forall b, _ -> _ (snd (?f b)) /\ _ => change (shr n (chunks n) f) end.
    eapply shr_bind; [apply shr_oracle|]. intros o _. eapply shr_bind; [apply shr_lift_any|]. intros p _.
    eapply shr_bind; [apply shr_gets|]. intros s _. cbv zeta.
    eapply shr_bind; [apply shr_chop, u64_nonneg|]. intros c Hc. eapply shr_bind; [exact IH|].
    intros r Hr. apply shr_ret. constructor; assumption.
  Qed.

  Lemma shr_vector n mn mx : shr n (chunks n) (vector_extract mn mx).
  Proof.
    intros b Hb. unfold vector_extract. destruct (Size b <? u64 mn); [split; [exact Hb|discriminate]|].
    destruct (isFixedSize mn mx); [apply shr_fixed; exact Hb|].
    destruct (isUnbounded mn mx); [apply shr_vector_unbounded; exact Hb|].
    unfold vector_variated. revert b Hb.
    assert (G : forall k, shr n (chunks n) (_ <- lift (int_op (mx - mn)) ;; variated_loop k mn mx)).
    { intros k. eapply shr_bind; [apply shr_lift_any|]. intros ? _. apply shr_variated. }
    intros b Hb. apply G. exact Hb.
  Qed.

  Lemma shr_read_modifiers n uc l : forall p t, shr n any (read_modifiers uc l p t).
  Proof.
    induction l as [|[mn mx] l IH]; intros p t; cbn [read_modifiers]; [apply shr_ret; exact I|].
    destruct (isFixedSize mn mx).
    - eapply shr_bind; [apply IH|]. intros x _. apply shr_ret; exact I.
    - apply shr_bind with (P := any).
      { destruct (isUnbounded mn mx && (uc <=? 1)); [apply shr_ret; exact I|].
        eapply shr_bind; [apply shr_oracle|]. intros o _. apply shr_ret; exact I. }
      intros md _. apply shr_bind with (P := any).
      { destruct (isUnbounded mn mx); [apply IH|]. eapply shr_bind; [apply shr_lift_any|]. intros d _. apply IH. }
      intros x _. apply shr_ret; exact I.
  Qed.

  Lemma shr_set_chunks n l : forall mods kv ku vr ur, shr n (chunks n) (set_chunks l mods kv ku vr ur).
  Proof.
    induction l as [|[mn mx] l IH]; intros mods kv ku vr ur; cbn [set_chunks]; [apply shr_ret; constructor|].
    destruct mods as [|md mods]; [apply shr_ret; constructor|].
    eapply shr_bind; [apply shr_lift_any|]. intros s _. eapply shr_bind; [apply shr_chop, u64_nonneg|]. intros c Hc.
    eapply shr_bind; [apply IH|]. intros r Hr. apply shr_ret. constructor; assumption.
  Qed.

  Lemma shr_set n l : shr n (chunks n) (set_extract l).
  Proof.
    unfold set_extract. eapply shr_bind; [apply shr_lift_any|]. intros t _. cbv zeta.
    eapply shr_bind; [apply shr_gets|]. intros sz _.
    destruct (sz <? u64 (set_fixed_total t)); [apply shr_lift; discriminate|].
    apply shr_bind with (P := any).
    { destruct ((0 <? t_var t) && (0 <? t_unb t)); [|apply shr_ret; exact I].
      eapply shr_bind; [apply shr_oracle|]. intros o _. eapply shr_bind; [apply shr_lift_any|]. intros p _.
      apply shr_ret; exact I. }
    intros lim _. eapply shr_bind; [apply shr_read_modifiers|]. intros x _.
    eapply shr_bind; [apply shr_lift_any|]. intros fv _. eapply shr_bind; [apply shr_lift_any|]. intros fu _.
    apply shr_set_chunks.
  Qed.

  (** ** Picking a member *)
  Definition shrm (n : Z) (m : member B) : Prop := shr n any (snd m).

  Lemma lot_filter_shr n fr ms sz a : Forall (shrm n) ms -> lot_filter fr ms sz = Ok a -> Forall (shr n any) a.
  Proof.
    intros H. revert a. induction H as [|[[qn qx] ex] ms Hm _ IH]; intros a E; cbn [lot_filter] in E.
    - injection E as <-. constructor.
    - destruct qn as [mn| | | |]; try discriminate. cbn [rbind] in E.
      destruct (sz <? u64 mn); [apply IH; exact E|].
      destruct (soft_filter fr (Ok mn) qx (i32 sz)) as [k| | | |]; try discriminate. cbn [rbind] in E.
      destruct (lot_filter fr ms sz) as [r| | | |]; try discriminate. cbn [rbind] in E. injection E as <-.
      destruct k; [constructor; [exact Hm|]|]; apply IH; reflexivity.
  Qed.

  Lemma pool_filter_shr n ms sz t u : Forall (shrm n) ms -> pool_filter ms sz = Ok (t, u) ->
    Forall (shr n any) t /\ Forall (shr n any) u.
  Proof.
    intros H. revert t u. induction H as [|[[qn qx] ex] ms Hm _ IH]; intros t u E; cbn [pool_filter] in E.
    - injection E as <- <-. split; constructor.
    - destruct qn as [mn| | | |]; try discriminate. cbn [rbind] in E.
      destruct (u64 mn <=? sz); [|apply IH; exact E].
      destruct qx as [mx| | | |]; try discriminate. cbn [rbind] in E.
      destruct (pool_filter ms sz) as [[t' u']| | | |]; try discriminate. cbn [rbind fst snd] in E. injection E as <- <-.
      destruct (IH t' u' eq_refl) as [H1 H2]. split; [constructor; assumption|].
      destruct ((mx =? -1) || (sz <=? u64 mx)); [constructor|]; assumption.
  Qed.

  Lemma shr_nth n (a : list (M B bytes)) i : Forall (shr n any) a ->
    shr n any (match nth_error a i with Some ex => ex | None => lift UB end).
  Proof.
    intros H. destruct (nth_error a i) as [ex|] eqn:E; [|apply shr_lift_any].
    rewrite Forall_forall in H. apply H. exact (nth_error_In _ _ E).
  Qed.

  Lemma shr_lot n fr os ms : Forall (shrm n) ms -> shr n any (lot_extract fr os ms).
  Proof.
    intros H. unfold lot_extract. eapply shr_bind; [apply shr_sized_oracle|]. intros o _.
    eapply shr_bind; [apply shr_gets|]. intros sz _.
    eapply shr_bind; [apply shr_lift; intros a; apply lot_filter_shr; exact H|]. intros a0 Ha0.
    eapply shr_bind with (P := Forall (shr n any)).
    { destruct a0; [apply shr_lift; intros a; apply lot_filter_shr; exact H|apply shr_ret; exact Ha0]. }
    intros a Ha. destruct a as [|x a]; [apply shr_lift_any|].
    eapply shr_bind; [apply shr_lift_any|]. intros i _. destruct (u64 i <? _); [|apply shr_lift_any].
    apply shr_nth. exact Ha.
  Qed.

  Lemma shr_pool n ms sm : Forall (shrm n) ms -> shr n any (pool_extract ms sm).
  Proof.
    intros H. unfold pool_extract. eapply shr_bind; [apply shr_oracle|]. intros o _.
    eapply shr_bind; [apply shr_gets|]. intros sz _.
    eapply shr_bind with (P := fun tu => Forall (shr n any) (fst tu) /\ Forall (shr n any) (snd tu)).
    { apply shr_lift. intros [t u] E. exact (pool_filter_shr n ms sz t u H E). }
    intros [t u] [Ht Hu]. cbn [fst snd] in *.
    assert (Ha : Forall (shr n any) (match u with [] => t | _ => u end)) by (destruct u; assumption).
    cbv zeta. set (a := match u with [] => t | _ => u end) in *. clearbody a. destruct a as [|x a].
    { eapply shr_bind; [apply shr_lift_any|]. intros mn _. destruct (sz <? u64 mn); apply shr_lift_any. }
    eapply shr_bind; [apply shr_lift_any|]. intros i _. destruct (i <? _); [|apply shr_lift_any].
    apply shr_nth. exact Ha.
  Qed.
End Shrink.
