(** Lemmas for C36-C39. *)
From Flocq Require Import IEEE754.Binary IEEE754.Bits.
From Verif Require Import TextFacts.
From Verif Require Import Base BaseFacts Blob BlobSpec BlobFacts RunSpec RunFacts Sim SimGraph Oracle ArithSpec ArithFacts Arithm FloatTextSpec StampDict DictWords DictSpec DictFacts Galley Stamps StampsEq Json
  LeafSpec TermSpec ShrinkFacts TermFacts NestSpec NestFacts TextSpec Prop_Arithm Prop_FloatText Prop_Dict Prop_Enum Prop_Termination PickFacts VectorSpec VectorFacts SetSpec LotSpec LotFacts Prop_Pool ContractSpec ContractFacts Prop_Contract JsonSpec JsonGrammar.
Local Open Scope Z_scope.

Definition json_members : list (sx blob) := [StampJSONInt; StampJSONFloat; StampJSONString; StampJSONArray 0; StampJSONHash 0].
Definition json_sizes : list (Z * Z) := [(8, 8); (8, 8); (8, 8); (14, -1); (22, -1)].

Lemma json_pool_of : pool_of json_heap 0 json_members.
Proof. eexists. split; reflexivity. Qed.
Lemma json_reports : Forall2 (report json_heap) json_members json_sizes.
Proof. repeat constructor. Qed.
Lemma json_sane : Forall pool_sane json_sizes.
Proof. repeat constructor; cbn; lia. Qed.
Lemma json_min : minSize (B := blob) json_heap StampJSON = Ok 10.
Proof. reflexivity. Qed.

Lemma json_well : graph_well json_heap 393229.
Proof.
  destruct C41_leaves as (TA & _ & TJ & _ & _ & TS). destruct C46_leaves as (MA & _ & _ & _ & MJ).
  split; [|intros [|l] Hl; cbn in Hl; congruence]. intros [|[|p]] Hp; try (cbn in Hp; congruence).
  exists json_members, json_sizes. split; [exact json_pool_of|]. split.
  { apply Forall_cons; [apply w_leaf; [apply MA|apply TS, (TA Long); discriminate]|].
    apply Forall_cons; [apply w_leaf; [apply MA|apply TS, (TA Double); discriminate]|].
    apply Forall_cons; [apply w_leaf; [apply MJ|apply TS, TJ]|].
    apply Forall_cons; [|apply Forall_cons; [|constructor]].
    - apply w_vec with (s := (10, -1)); [constructor|repeat constructor|cbn; lia|cbn; lia|].
      right. right. cbn [fst snd]. repeat split; try lia. unfold parts. cbn. lia.
    - apply w_vec with (s := (18, -1)); [|repeat constructor|cbn; lia|cbn; lia|].
      + apply w_hashel with (s := (10, -1)); [apply MJ|exact TJ|constructor|repeat constructor|cbn; lia].
      + right. right. cbn [fst snd]. repeat split; try lia. unfold parts. cbn. lia. }
  split; [exact json_reports|]. split; [exact json_sane|]. split; [cbn; lia|].
  intros m Hm. assert (Em : m = 10) by (pose proof json_min as E; unfold StampJSON in E; rewrite E in Hm; injection Hm as <-; reflexivity).
  subst m. apply Exists_cons_hd. cbn. lia.
Qed.
Lemma json_leaves : heap_leaves (fun _ _ ex => tame ex) json_heap.
Proof. exact (graph_leaves json_heap 393229 json_well). Qed.

(** ** Chunks are consecutive bytes of the data *)
Lemma within_refl d : within d d.
Proof. exists [], []. rewrite app_nil_r. reflexivity. Qed.
Lemma within_trans a b c : within a b -> within b c -> within a c.
Proof. intros (p & q & ->) (r & s & ->). exists (r ++ p), (q ++ s). rewrite <- !app_assoc. reflexivity. Qed.
Lemma within_len a b : within a b -> zlen a <= zlen b.
Proof. intros (p & q & ->). rewrite !zlen_app. pose proof (zlen_nonneg p). pose proof (zlen_nonneg q). lia. Qed.

Section Part.
  Context (d : bytes).
  Definition part (b : blob) : Prop := wf b /\ within (content b) d.
  Definition keeps {A} (P : A -> Prop) (f : M blob A) : Prop := forall b, part b -> part (snd (f b)) /\ forall a, fst (f b) = Ok a -> P a.

  Lemma keeps_ret {A} (P : A -> Prop) a : P a -> keeps P (ret a).
  Proof. intros Ha b Hb. split; [exact Hb|]. intros x [= <-]. exact Ha. Qed.
  Lemma keeps_lift {A} (r : res A) : keeps any (lift r).
  Proof. intros b Hb. split; [exact Hb|]. intros; exact I. Qed.
  Lemma keeps_gets {A} (f : blob -> A) : keeps any (gets f).
  Proof. intros b Hb. split; [exact Hb|]. intros; exact I. Qed.
  Lemma keeps_bind {A C} (P : A -> Prop) (Q : C -> Prop) f g : keeps P f -> (forall a, P a -> keeps Q (g a)) -> keeps Q (bind f g).
  Proof.
    intros Hf Hg b Hb. destruct (Hf b Hb) as [H1 H2]. unfold bind.
    destruct (f b) as [[a| | | |] b']; cbn [fst snd] in *; try (split; [exact H1|discriminate]).
    apply Hg; [apply H2; reflexivity|exact H1].
  Qed.
  Lemma keeps_chop k : 0 <= k -> keeps part (Chop k).
  Proof.
    intros Hk b (Wb & Hb). destruct (Z_le_gt_dec k (zlen (content b))) as [Hl|Hl].
    - destruct (@law_chop_ok blob _ BlobBlobLaws b k Wb (conj Hk Hl)) as (c & b' & E & Oc & Ob & Cc & Cb). rewrite E. cbn [fst snd].
      change (wf c) in Oc. change (wf b') in Ob. change (content c = firstn (Z.to_nat k) (content b)) in Cc. change (content b' = skipn (Z.to_nat k) (content b)) in Cb.
      split; [|intros a [= <-]].
      + split; [exact Ob|]. eapply within_trans; [|exact Hb]. rewrite Cb. exists (firstn (Z.to_nat k) (content b)), []. rewrite app_nil_r, firstn_skipn. reflexivity.
      + split; [exact Oc|]. eapply within_trans; [|exact Hb]. rewrite Cc. exists [], (skipn (Z.to_nat k) (content b)). cbn [app]. rewrite firstn_skipn. reflexivity.
    - rewrite (@law_chop_ood blob _ BlobBlobLaws b k Wb) by (change (cont b) with (content b); lia). split; [split; assumption|discriminate].
  Qed.
  Lemma keeps_oracle : keeps any GetOracle.
  Proof.
    unfold GetOracle, ExtractValue. eapply keeps_bind; [apply keeps_chop; cbn; lia|]. intros a _.
    eapply keeps_bind; [apply keeps_lift|]. intros v _. apply keeps_ret. exact I.
  Qed.
  Lemma keeps_read_oracles k : forall t, keeps any (read_oracles k t).
  Proof.
    induction k as [|k IH]; intros t; cbn [read_oracles]; [apply keeps_ret; exact I|].
    eapply keeps_bind; [apply keeps_oracle|]. intros o _. eapply keeps_bind; [apply keeps_lift|]. intros s _.
    eapply keeps_bind; [apply IH|]. intros r _. apply keeps_ret; exact I.
  Qed.
  Lemma keeps_unbounded_loop mn total var os : forall rem, keeps (Forall part) (unbounded_loop mn total var os rem).
  Proof.
    induction os as [|o os IH]; intros rem; cbn [unbounded_loop]; [apply keeps_ret; constructor|].
    cbv zeta. eapply keeps_bind; [apply keeps_lift|]. intros s _.
    eapply keeps_bind; [apply keeps_chop, u64_nonneg|]. intros c Hc. eapply keeps_bind; [apply IH|].
    intros r Hr. apply keeps_ret. constructor; assumption.
  Qed.
  Lemma keeps_unbounded mn : 0 <= mn -> keeps (Forall part) (vector_extract mn (-1)).
  Proof.
    intros Hm b Hb. unfold vector_extract. destruct (Size b <? u64 mn); [split; [exact Hb|discriminate]|].
    unfold isFixedSize. destruct (mn =? -1) eqn:Q; [lia|]. change (isUnbounded mn (-1)) with true. cbv iota. revert b Hb.
    change (keeps (Forall part) (vector_unbounded mn)).
    unfold vector_unbounded. eapply keeps_bind; [apply keeps_gets|]. intros sz _.
    destruct (u64 (mn + ORACLE_SIZE) =? 0); [intros b Hb; split; [exact Hb|discriminate]|].
    eapply keeps_bind; [apply keeps_oracle|]. intros o _. cbv zeta.
    eapply keeps_bind; [apply keeps_read_oracles|]. intros ot _.
    eapply keeps_bind; [apply keeps_gets|]. intros s2 _. do 2 (eapply keeps_bind; [apply keeps_lift|]; intros ? _).
    apply keeps_unbounded_loop.
  Qed.
End Part.

(** ** What is written *)
Lemma hashel_inv h n v b s b2 : tame_graph h n -> tame_graph h v -> wf b -> ExtractStr h (XHashEl n v) b = (Ok s, b2) ->
  exists a b1 c, ExtractStr h n b = (Ok a, b1) /\ ExtractStr h v b1 = (Ok c, b2) /\ s = a ++ lit ": " ++ c.
Proof.
  intros Tn Tv Hb E. unfold ExtractStr in E at 1. rewrite extract_hashel in E.
  apply bind_ok_inv in E as (a & b1 & E1 & E). apply bind_ok_inv in E as (c & b' & E2 & E). apply ret_inv in E as [-> ->].
  pose proof (tame_result h n b Tn Hb) as S1. unfold ExtractStr in S1. rewrite E1 in S1. cbn [snd] in S1.
  rewrite (tame_agree h v b b1 Tv S1) in E2. exists a, b1, c. repeat split; assumption.
Qed.

Lemma dict_front d (front : bytes) : d <> [] -> zlen d <= 2 ^ 53 -> zlen front = DictMinSize d ->
  exists w, In w d /\ forall r : bytes, DictExtractStr d (front ++ r) = (Ok w, r).
Proof.
  intros Hd Hs Hl. destruct (dict_width d) as [Hn E].
  assert (L : 1 <= zlen d) by (destruct d; [congruence|rewrite zlen_cons; pose proof (zlen_nonneg d); lia]).
  assert (M : 1 <= 2 ^ (8 * DictMinSize d) - 1 < 2 ^ 64).
  { destruct Hn as [->|[->|[->| ->]]]; vm_compute; split; (discriminate || reflexivity). }
  assert (FN : forall r : bytes, firstn (Z.to_nat (DictMinSize d)) (front ++ r) = front /\ skipn (Z.to_nat (DictMinSize d)) (front ++ r) = r).
  { intros r. assert (Z.to_nat (DictMinSize d) = length front) as -> by (unfold zlen in Hl; lia).
    rewrite firstn_app, skipn_app, Nat.sub_diag, firstn_all, skipn_all, firstn_O, skipn_O, app_nil_r. split; reflexivity. }
  assert (SO : forall r : bytes, sized_oracle (DictMinSize d) (front ++ r) = (Ok (decode (oracle_type (DictMinSize d)) front), r)
    /\ 0 <= decode (oracle_type (DictMinSize d)) front <= 2 ^ (8 * DictMinSize d) - 1).
  { intros r. destruct (FN r) as [F1 F2].
    destruct (list_sized_oracle _ (front ++ r) Hn ltac:(rewrite zlen_app; pose proof (zlen_nonneg r); lia)) as (o & Eo & Ro & Do).
    rewrite F1 in Do. rewrite F2 in Eo. subst o. split; assumption. }
  destruct (pick_range (decode (oracle_type (DictMinSize d)) front) (2 ^ (8 * DictMinSize d) - 1) (zlen d) (proj2 (SO [])) M) as (i & Ei & Ri); [lia|].
  destruct (dict_get_ok d i Ri) as (w & Ew & Nw).
  exists w. split; [eapply nth_error_In; exact Nw|]. intros r. unfold DictExtractStr. rewrite E.
  rewrite (bind_ok _ _ _ _ _ (proj1 (SO r))). rewrite (bind_lift_ok _ _ _ i) by exact Ei.
  rewrite u64_id by lia. unfold lift. rewrite Ew. reflexivity.
Qed.

Lemma string_run b d : holds b d -> d <> [] -> exists w, In w DictLCAlphaSmall
  /\ runs JSONStringExtractStr b (Ok ([quote] ++ w ++ [quote])) (skipn 1 d).
Proof.
  intros Hb Hd. assert (1 <= zlen d) by (destruct d; [congruence|rewrite zlen_cons; pose proof (zlen_nonneg d); lia]).
  destruct (C12_word DictLCAlphaSmall b d) as (w & Hw & (b' & E & R)); [discriminate| |exact Hb|exact H|].
  { change (zlen DictLCAlphaSmall) with 254. lia. }
  exists w. split; [exact Hw|]. exists b'. split; [|exact R]. unfold JSONStringExtractStr. rewrite (bind_ok _ _ _ _ _ E). reflexivity.
Qed.

Lemma drawn_mono d d' t : within d d' -> drawn d t -> drawn d' t.
Proof.
  intros W. revert t. fix IH 2. intros t [z r H1 H2|bits r H1 H2|w H|ts H|ms H].
  - eapply d_int; [exact H1|]. eapply within_trans; eassumption.
  - eapply d_double; [exact H1|]. eapply within_trans; eassumption.
  - apply d_str. exact H.
  - apply d_arr. induction H as [|t0 ts H1 H2 IH2]; constructor; [apply IH; exact H1|exact IH2].
  - apply d_obj. induction H as [|m ms [H0 H1] H2 IH2]; constructor; [|exact IH2]. split; [exact H0|]. apply IH. exact H1.
Qed.

Lemma texts_of ts : forall ss, Forall2 text ts ss -> texts ts (separated (lit ", ") ss).
Proof.
  intros ss H. induction H as [|t s ts ss H1 H2 IH]; [constructor|]. destruct H2 as [|t' s' ts ss H3 H4].
  - apply ts_one. exact H1.
  - apply ts_more; [discriminate|exact H1|exact IH].
Qed.

Definition pair_text (m : bytes * jtree) (s : bytes) : Prop := exists v, text (snd m) v /\ s = [quote] ++ fst m ++ [quote] ++ lit ": " ++ v.
Lemma pairs_of ms : forall ss, Forall2 pair_text ms ss -> pairs ms (separated (lit ", ") ss).
Proof.
  intros ss H. induction H as [|[k t] s ms ss (v & H1 & ->) H2 IH]; [constructor|]. cbn [fst snd] in *. destruct H2 as [|m' s' ms ss H3 H4].
  - apply ps_one. exact H1.
  - pose proof (ps_more k t v (m' :: ms) (separated (lit ", ") (s' :: ss)) ltac:(discriminate) H1 IH) as P.
    change (separated (lit ", ") (([quote] ++ k ++ [quote] ++ lit ": " ++ v) :: s' :: ss))
      with (([quote] ++ k ++ [quote] ++ lit ": " ++ v) ++ lit ", " ++ separated (lit ", ") (s' :: ss)).
    rewrite <- !app_assoc. exact P.
Qed.

Lemma text_nonempty t s : text t s -> s <> [].
Proof.
  intros [z u E|bits u D|w|ts u H|ms u H]; try discriminate.
  - intros ->. discriminate E.
  - intros ->. unfold double_text in D. cbv zeta in D. destruct (is_finite 53 1024 (b64_of_bits bits)) eqn:Q.
    + assert (F : finite bits) by exact Q. pose proof (double_number bits [] F) as N. unfold double_text in N. cbv zeta in N. rewrite Q in N.
      destruct (N D) as (sg & i & f & e & E & _ & Hi & _). symmetry in E. apply app_eq_nil in E as [_ E]. apply app_eq_nil in E as [E _]. subst i.
      destruct Hi as [Hi|(c & r & Hi & _)]; discriminate Hi.
    + destruct (Bsign _ _ _), (is_nan _ _ _); discriminate D.
Qed.

Lemma leaf_int b d s b' : holds b d -> ArithExtractStr Long b = (Ok s, b') -> exists t, text t s /\ drawn d t.
Proof.
  intros Hb E. destruct (Z_lt_le_dec (zlen d) 8) as [H|H].
  { destruct (C06_short Long b d Hb H) as (_ & _ & (b1 & E1 & _) & _). congruence. }
  destruct (C06_extract Long b d ltac:(repeat split; discriminate) Hb H) as (v & _ & R & _).
  assert (Hb' : holds b (firstn (Z.to_nat (sizeof Long)) d ++ skipn (Z.to_nat (sizeof Long)) d)) by (rewrite firstn_skipn; exact Hb).
  destruct (C07_decimal Long b _ _ v ltac:(repeat split; discriminate) ltac:(discriminate) ltac:(discriminate) R Hb') as (s' & (b1 & E1 & _) & RI).
  assert (s' = s) by congruence. subst s'. exists (JInt v). split; [constructor; exact RI|]. eapply d_int; [exact R|].
  exists [], (skipn (Z.to_nat (sizeof Long)) d). cbn [app]. rewrite firstn_skipn. reflexivity.
Qed.

Lemma leaf_double b d s b' : holds b d -> ArithExtractStr Double b = (Ok s, b') -> exists t, text t s /\ drawn d t.
Proof.
  intros Hb E. destruct (Z_lt_le_dec (zlen d) 8) as [H|H].
  { destruct (C06_short Double b d Hb H) as (_ & _ & (b1 & E1 & _) & _). congruence. }
  destruct (C06_extract ULong b d ltac:(repeat split; discriminate) Hb H) as (v & _ & R & _).
  assert (Hb' : holds b (firstn (Z.to_nat (sizeof ULong)) d ++ skipn (Z.to_nat (sizeof ULong)) d)) by (rewrite firstn_skipn; exact Hb).
  exists (JDouble v). split.
  - constructor. unfold double_text. cbv zeta. destruct (C08_double b _ _ v R Hb') as (F1 & F2 & F3).
    destruct (is_finite 53 1024 (b64_of_bits v)) eqn:Q1.
    + destruct (F1 eq_refl) as (s' & (b1 & E1 & _) & N). assert (s' = s) by congruence. subst s'. exact N.
    + destruct (is_nan 53 1024 (b64_of_bits v)) eqn:Q2.
      * destruct (F2 eq_refl) as (b1 & E1 & _). assert (E2 : s = if Bsign 53 1024 (b64_of_bits v) then lit "-nan" else lit "nan") by congruence.
        rewrite E2. destruct (Bsign _ _ _); reflexivity.
      * destruct (F3 eq_refl eq_refl) as (b1 & E1 & _). assert (E2 : s = if Bsign 53 1024 (b64_of_bits v) then lit "-inf" else lit "inf") by congruence.
        rewrite E2. destruct (Bsign _ _ _); reflexivity.
  - eapply d_double; [exact R|]. exists [], (skipn (Z.to_nat (sizeof ULong)) d). cbn [app]. rewrite firstn_skipn. reflexivity.
Qed.

Lemma json_tree : forall n b d s b', holds b d -> zlen d < Z.of_nat n -> ExtractStr json_heap StampJSON b = (Ok s, b') ->
  exists t, text t s /\ drawn d t.
Proof.
  destruct C46_leaves as (MA & _ & _ & _ & MJ).
  assert (TP : tame_graph json_heap StampJSON) by (split; [exact json_leaves|constructor]).
  assert (TS : tame_graph json_heap StampJSONString) by (split; [exact json_leaves|constructor; exact MJ]).
  assert (TE : tame_graph json_heap (StampJSONHashEl 0)) by (split; [exact json_leaves|constructor; constructor; exact MJ]).
  induction n as [|n IH]; intros b d s b' Hb Hn E; [pose proof (zlen_nonneg d); lia|].
  destruct (Z_lt_le_dec (zlen d) 2) as [H2|H2].
  { destruct (C32_short json_heap 0 json_members b d json_pool_of Hb H2) as (b1 & E1 & _). unfold StampJSON in E. congruence. }
  destruct (list_split d 2 ltac:(lia)) as (front & r & -> & Ef).
  assert (Zr : zlen (front ++ r) = zlen r + 2) by (rewrite zlen_app; lia). rewrite Zr in Hn.
  assert (WR : within r (front ++ r)) by (exists front, []; rewrite app_nil_r; reflexivity).
  destruct (Exists_dec (fits (zlen r)) json_sizes) as [HE|HE].
  { intros x. unfold fits. destruct (Z_le_gt_dec (fst x) (zlen r)); [left; lia|right; lia]. }
  2: { apply Forall_Exists_neg in HE. destruct (C32_none json_heap 0 json_members json_sizes 10 b front r json_pool_of json_reports json_sane) as [N _]; try assumption; try lia; [cbn; lia|exact json_min|].
       destruct N as (b1 & E1 & _); [|unfold StampJSON in E; congruence].
       pose proof (Forall_inv HE) as X. unfold fits in X. cbn [fst] in X. lia. }
  destruct (C32_picks json_heap 0 json_members json_sizes b front r json_leaves json_pool_of json_reports json_sane) as (y & sz & b1 & Y1 & _ & _ & _ & Hb1 & Y2);
    [cbn; lia|exact Hb|exact Ef|exact HE|].
  unfold StampJSON in E. rewrite Y2 in E. clear Y2.
  enough (K : exists t, text t s /\ drawn r t) by (destruct K as (t & K1 & K2); exists t; split; [exact K1|exact (drawn_mono _ _ t WR K2)]).
  assert (Pb : part r b1) by (split; [exact (proj1 Hb1)|rewrite (proj2 Hb1); apply within_refl]).
  destruct Y1 as [<-|[<-|[<-|[<-|[<-|[]]]]]].
  - exact (leaf_int b1 r s b' Hb1 E).
  - exact (leaf_double b1 r s b' Hb1 E).
  - destruct r as [|c r].
    { pose proof HE as HE'. apply Exists_exists in HE' as (x & Hx & Fx). unfold fits in Fx. change (@zlen byte []) with 0 in Fx.
      repeat (destruct Hx as [<-|Hx]; [cbn in Fx; lia|]). destruct Hx. }
    destruct (string_run b1 (c :: r) Hb1 ltac:(discriminate)) as (w & Hw & (b2 & E2 & _)).
    change (ExtractStr json_heap StampJSONString b1) with (JSONStringExtractStr b1) in E.
    assert (Es : [quote] ++ w ++ [quote] = s) by congruence. subst s. exists (JStr w). split; [constructor|constructor; exact Hw].
  - apply (C28_enumerator json_heap (XPool 0) (lit ", ") (lit "[") (lit "]") b1 s b' TP (proj1 Hb1)) in E as (mn & mx & cs & ss & E1 & E2 & E3 & F & ->).
    assert (mn = 10 /\ mx = -1) as [-> ->].
    { change (minSize json_heap (XPool 0)) with (@Ok Z 10) in E1. change (maxSize json_heap (XPool 0)) with (@Ok Z (-1)) in E2. split; congruence. }
    destruct (keeps_unbounded r 10 ltac:(lia) b1 Pb) as [_ KP]. rewrite E3 in KP. specialize (KP cs eq_refl). clear E3.
    assert (T : exists ts, Forall2 text ts ss /\ Forall (drawn r) ts).
    { clear - KP F IH Hn. induction F as [|c s cs ss F1 F IHF]; [exists []; split; constructor|].
      destruct (IHF (Forall_inv_tail KP)) as (ts & T1 & T2). destruct (Forall_inv KP) as [Wc Cc]. pose proof (within_len _ _ Cc).
      destruct (ExtractStr json_heap (XPool 0) c) as [rs c'] eqn:Q. cbn [fst] in F1. subst rs.
      destruct (IH c (content c) s c' (conj Wc eq_refl) ltac:(lia) Q) as (t & A1 & A2).
      exists (t :: ts). split; constructor; try assumption. exact (drawn_mono _ _ _ Cc A2). }
    destruct T as (ts & T1 & T2).
    rewrite drop_empty_id by (clear - T1; induction T1; constructor; [eapply text_nonempty; eassumption|assumption]).
    exists (JArr ts). split; [apply t_arr, texts_of; exact T1|apply d_arr; exact T2].
  - apply (C28_enumerator json_heap (StampJSONHashEl 0) (lit ", ") (lit "{") (lit "}") b1 s b' TE (proj1 Hb1)) in E as (mn & mx & cs & ss & E1 & E2 & E3 & F & ->).
    assert (mn = 18 /\ mx = -1) as [-> ->].
    { change (minSize json_heap (StampJSONHashEl 0)) with (@Ok Z 18) in E1. change (maxSize json_heap (StampJSONHashEl 0)) with (@Ok Z (-1)) in E2. split; congruence. }
    destruct (keeps_unbounded r 18 ltac:(lia) b1 Pb) as [_ KP]. rewrite E3 in KP. specialize (KP cs eq_refl). clear E3.
    assert (T : exists ms, Forall2 pair_text ms ss /\ Forall (fun m => In (fst m) DictLCAlphaSmall /\ drawn r (snd m)) ms).
    { clear - KP F IH Hn TP TS. induction F as [|c s cs ss F1 F IHF]; [exists []; split; constructor|].
      destruct (IHF (Forall_inv_tail KP)) as (ts & T1 & T2). destruct (Forall_inv KP) as [Wc Cc]. pose proof (within_len _ _ Cc).
      destruct (ExtractStr json_heap (StampJSONHashEl 0) c) as [rs c'] eqn:Q. cbn [fst] in F1. subst rs.
      apply (hashel_inv json_heap _ _ c s c' TS TP Wc) in Q as (a & c1 & v & Q1 & Q2 & ->).
      change (ExtractStr json_heap StampJSONString c) with (JSONStringExtractStr c) in Q1.
      destruct (content c) as [|x xs] eqn:Qc.
      { pose proof (C12_short DictLCAlphaSmall c [] (conj Wc Qc) ltac:(reflexivity)) as (b2 & E2 & _).
        unfold JSONStringExtractStr in Q1. rewrite (bind_ood _ _ _ _ E2) in Q1. discriminate Q1. }
      destruct (string_run c (x :: xs) (conj Wc Qc) ltac:(discriminate)) as (w & Hw & (b2 & E2 & Hb2)).
      assert (a = [quote] ++ w ++ [quote] /\ c1 = b2) as [-> ->] by (split; congruence). cbn [skipn] in Hb2.
      rewrite zlen_cons in *. pose proof (zlen_nonneg xs).
      destruct (IH b2 xs v c' Hb2 ltac:(lia) Q2) as (t & A1 & A2).
      exists ((w, t) :: ts). split; constructor; try assumption.
      - exists v. split; [exact A1|]. cbn [fst]. rewrite <- !app_assoc. reflexivity.
      - split; [exact Hw|]. refine (drawn_mono _ _ _ _ A2). eapply within_trans; [|exact Cc]. exists [x], []. rewrite app_nil_r. reflexivity. }
    destruct T as (ms & T1 & T2).
    rewrite drop_empty_id by (clear - T1; induction T1 as [|m s ms ss (v & _ & ->) T IHT]; constructor; [discriminate|assumption]).
    exists (JObj ms). split; [apply t_obj, pairs_of; exact T1|apply d_obj; exact T2].
Qed.

Lemma drawn_words d t : drawn d t -> Forall plain_word (words t).
Proof.
  assert (P : forall w, In w DictLCAlphaSmall -> plain_word w) by (destruct C15_words as (F & _); rewrite Forall_forall in F; exact F).
  revert t. fix IH 2. intros t [z r H1 H2|bits r H1 H2|w H|ts H|ms H]; cbn [words].
  - constructor.
  - constructor.
  - repeat constructor; apply P; exact H.
  - induction H as [|t0 ts H1 H2 IH2]; cbn [flat_map]; [constructor|]. apply Forall_app. split; [apply IH; exact H1|exact IH2].
  - induction H as [|m ms [H0 H1] H2 IH2]; cbn [flat_map]; [constructor|]. rewrite <- app_comm_cons. constructor; [apply P; exact H0|].
    apply Forall_app. split; [apply IH; exact H1|exact IH2].
Qed.
Lemma drawn_doubles d t : drawn d t -> Forall (fun bits => exists r, represents ULong bits r /\ within r d) (doubles t).
Proof.
  revert t. fix IH 2. intros t [z r H1 H2|bits r H1 H2|w H|ts H|ms H]; cbn [doubles]; try (constructor; fail).
  - constructor; [|constructor]. exists r. split; assumption.
  - induction H as [|t0 ts H1 H2 IH2]; cbn [flat_map]; [constructor|]. apply Forall_app. split; [apply IH; exact H1|exact IH2].
  - induction H as [|m ms [H0 H1] H2 IH2]; cbn [flat_map]; [constructor|]. apply Forall_app. split; [apply IH; exact H1|exact IH2].
Qed.
