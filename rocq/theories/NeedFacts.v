(** Proofs for C66. *)
From Flocq Require Import Binary Bits.
From Verif Require Import Base BaseFacts Blob BlobSpec RunSpec RunFacts Sim Oracle VectorFacts Galley Stamps StampsEq TermSpec TermFacts NestFacts VectorSpec SetSpec LotSpec LotFacts
  StampDict DictWords Json ArithSpec ArithFacts Arithm Prop_Arithm Prop_FloatText Prop_Dict ContractSpec ContractFacts FailSpec FailFacts Prop_Vector Prop_Set Prop_Pool Prop_Lottery Prop_Contract NeedSpec.
Local Open Scope Z_scope.

Lemma reports_fun h xs L1 : Forall2 (report h) xs L1 -> forall L2, Forall2 (report h) xs L2 -> L1 = L2.
Proof.
  induction 1 as [|x s xs L1 R H IH]; intros L2 H2; inversion H2; subst; [reflexivity|]. f_equal; [eapply report_fun; eassumption|auto].
Qed.

Lemma pool_of_fun h p ys zs : pool_of h p ys -> pool_of h p zs -> ys = zs.
Proof.
  intros (P & E1 & E2) (P' & E3 & E4). rewrite E1 in E3. injection E3 as <-. rewrite E2 in E4. clear - E4. revert zs E4.
  induction ys as [|y ys IH]; intros [|z zs] E; try discriminate E; [reflexivity|]. cbn [map] in E. injection E as -> E. f_equal. auto.
Qed.

Lemma smallest_fits h ys cur lo n : Forall2 (report h) ys cur -> smallest h ys lo -> lo <= n -> Exists (fits n) cur.
Proof.
  intros F ((y & s & Hy & R & E) & _) H. clear - F Hy R E H. induction F as [|x t xs L Rx F IH]; [destruct Hy|].
  destruct Hy as [->|Hy]; [left|right; auto]. rewrite (report_fun h y _ _ Rx R). unfold fits. lia.
Qed.

Lemma smallest_none h ys cur lo n : Forall2 (report h) ys cur -> smallest h ys lo -> n < lo -> Forall (fun s => ~ fits n s) cur.
Proof.
  intros F (_ & S) H. induction F as [|x t xs L Rx F IH]; constructor.
  - specialize (S x t (or_introl eq_refl) Rx). unfold fits. lia.
  - apply IH. intros y s Hy. apply S. right. exact Hy.
Qed.

Lemma smallest_le h ys cur lo m k : Forall2 (report h) ys cur -> smallest h ys lo -> Exists (fun s => fst s + k <= m) cur -> lo + k <= m.
Proof.
  intros F (_ & S) H. induction F as [|x t xs L Rx F IH]; [inversion H|]. inversion H; subst.
  - specialize (S x t (or_introl eq_refl) Rx). lia.
  - apply IH; [|assumption]. intros y s Hy. apply S. right. exact Hy.
Qed.

Lemma smallest_pos h ys cur lo : Forall2 (report h) ys cur -> smallest h ys lo -> Forall (fun s => 0 <= fst s) cur -> 0 <= lo.
Proof.
  intros F ((y & s & Hy & R & <-) & _) H. clear - F Hy R H. induction F as [|x t xs L Rx F IH]; [destruct Hy|].
  destruct Hy as [->|Hy]; [rewrite <- (report_fun h y _ _ Rx R); exact (Forall_inv H)|]. apply IH; [exact Hy|exact (Forall_inv_tail H)].
Qed.

Lemma need_threshold h N : graph_well h N -> N < 2 ^ 31 -> forall x k, needs h x k -> well h N x -> forall b d, holds b d -> zlen d <= N ->
  (k <= zlen d -> exists v rest, runs (ExtractStr h x) b (Ok v) rest) /\ (zlen d < k -> exists rest, runs (ExtractStr h x) b OutOfData rest).
Proof.
  intros G HN. pose proof (graph_leaves h N G) as HL.
  assert (TG : forall x, well h N x -> tame_graph h x) by (intros x W; split; [exact HL|exact (well_leaves h N x W)]).
  assert (WR : forall x m b d, well h N x -> minSize h x = Ok m -> holds b d -> m <= zlen d <= N -> exists v rest, runs (ExtractStr h x) b (Ok v) rest)
    by (intros; eapply C41_composed; eauto).
  induction 1 as [mn mx ex k0 LK S SF|j x s R|op x k H IH|op x y L R|j xs L R|mn mx ex t v k LT S X H IH K0|p ys m lo P Sm Em|l L lo El Sm]; intros W b d Hb Hd.
  - inversion W; subst. split; intros Hk.
    + destruct (SF b d Hb Hk) as (v & r & b' & E). exists v, r, b'. unfold ExtractStr. rewrite extract_leaf. exact E.
    + destruct (S b d Hb Hk) as (r & b' & E). exists r, b'. unfold ExtractStr. rewrite extract_leaf. exact E.
  - inversion W as [|j' x' s' Wx R' B1 B2 HE| | | | | |]; subst. rewrite (report_fun h x _ _ R' R) in *. clear R' s'.
    pose proof (vec_size h j x s R) as VS.
    assert (KE : forall r, cuts (vector_extract (fst s) (snd s)) b [] r -> exists v rest, runs (ExtractStr h (XVec j x)) b (Ok v) rest).
    { intros r (cs & b' & E & _ & Ec & Wb & Er). destruct cs; [|discriminate Ec]. exists (j []), r, b'. split; [|split; assumption].
      apply (vec_iff h x j b (j []) b' (TG x Wx) (proj1 Hb)). destruct R as [R1 R2]. exists (fst s), (snd s), [], []. repeat (split; [assumption|]). split; [constructor|reflexivity]. }
    assert (KO : forall r, runs (vector_extract (fst s) (snd s)) b OutOfData r -> exists rest, runs (ExtractStr h (XVec j x)) b OutOfData rest).
    { intros r (b' & E & Wb). exists r, b'. split; [|exact Wb]. unfold ExtractStr. rewrite extract_vec. destruct R as [R1 R2].
      rewrite (bind_lift_ok _ _ _ _ R1), (bind_lift_ok _ _ _ _ R2). apply bind_ood. exact (bind_ood _ _ _ _ E). }
    destruct s as [mn mx]. cbn [fst snd] in *. unfold element_ok in HE. cbn [fst snd] in HE.
    unfold VectorMinSize, isFixedSize, isUnbounded, ORACLE_SIZE in VS.
    destruct HE as [(H1 & ->)|[(H1 & H2)|(H1 & -> & H3 & H4)]].
    + destruct (mn =? -1) eqn:Q; [lia|]. split; intros Hk; [|eapply KO, C21_short; [lia|exact Hb|exact Hk]].
      rewrite Z.eqb_refl in VS. apply (WR _ _ b d W VS Hb). lia.
    + destruct (mx =? -1) eqn:Q; [lia|]. split; intros Hk; [|eapply KO, C21_short; [lia|exact Hb|exact Hk]].
      destruct (Z_lt_le_dec (zlen d) (mn + 2)); [eapply KE, C21_gap_variated; [lia|lia|lia|exact Hb|lia]|].
      destruct (mn =? mx) eqn:Q1; [lia|]. rewrite i32_id in VS by lia. apply (WR _ _ b d W VS Hb). lia.
    + change (-1 =? -1) with true. cbv iota. split; intros Hk.
      * destruct (Z_lt_le_dec (zlen d) (mn + 4)); [eapply KE, C21_gap_unbounded; [lia|exact Hb|lia|lia]|].
        destruct (mn =? -1) eqn:Q1; [lia|]. rewrite Z.eqb_refl, i32_id in VS by lia. apply (WR _ _ b d W VS Hb). lia.
      * destruct (Z_lt_le_dec (zlen d) mn); [eapply KO, C21_short; [lia|exact Hb|assumption]|]. eapply KO, C21_gap_tiny; [lia|exact Hb|lia].
  - inversion W; subst. destruct (IH ltac:(assumption) b d Hb Hd) as [I1 I2]. split; intros Hk.
    + destruct (I1 Hk) as (v & r & b' & E & Wb). exists (op ++ lit "(" ++ v ++ lit ")"), r, b'. split; [|exact Wb]. apply unary_iff. exists v. split; [exact E|reflexivity].
    + destruct (I2 Hk) as (r & b' & E & Wb). exists r, b'. split; [|exact Wb]. unfold ExtractStr. rewrite extract_unary. exact (bind_ood _ _ _ _ E).
  - inversion W; subst. match goal with A : Forall2 (report h) [x; y] ?l |- _ => rewrite (reports_fun h _ _ A L R) in * end.
    split; intros Hk; [apply (WR _ _ b d W (binary_size h op x y L R ltac:(assumption)) Hb); lia|].
    destruct (C22_refuse L b d ltac:(assumption) Hb Hk) as (b' & E & Wb). exists d, b'. split; [|exact Wb].
    unfold ExtractStr. rewrite extract_binary, (bind_lift_ok _ _ b _ (sizes_of_report h [x; y] L R)). exact (bind_ood _ _ _ _ E).
  - inversion W; subst. match goal with A : Forall2 (report h) xs ?l |- _ => rewrite (reports_fun h _ _ A L R) in * end.
    split; intros Hk; [apply (WR _ _ b d W (set_size h j xs L R ltac:(assumption)) Hb); lia|].
    destruct (C22_refuse L b d ltac:(assumption) Hb Hk) as (b' & E & Wb). exists d, b'. split; [|exact Wb].
    unfold ExtractStr. rewrite extract_set, (bind_lift_ok _ _ b _ (sizes_of_report h xs L R)). exact (bind_ood _ _ _ _ E).
  - inversion W; subst. assert (Wv : well h N v) by assumption. specialize (IH Wv).
    assert (Tn : tame_graph h (XLeaf mn mx ex)) by (split; [exact HL|constructor; assumption]).
    destruct (Z_lt_le_dec (zlen d) t) as [Q|Q].
    + split; intros Hk.
      * exfalso. lia.
      * destruct (S b d Hb Q) as (r & b' & E & Wb). exists r, b'. split; [|exact Wb]. unfold ExtractStr. rewrite extract_hashel.
        rewrite extract_leaf. exact (bind_ood _ _ _ _ E).
    + destruct (X b d Hb Q) as (a & rest & (b1 & E1 & W1) & LR).
      assert (E1' : ExtractStr h (XLeaf mn mx ex) b = (Ok a, b1)) by (unfold ExtractStr; rewrite extract_leaf; exact E1).
      pose proof (tame_result h _ b Tn (proj1 Hb)) as SR. rewrite E1' in SR. cbn [snd] in SR. destruct SR as [_ SR].
      change (blobSize b1 <= blobSize b) in SR. rewrite (holds_size b d Hb), (holds_size b1 rest W1) in SR.
      destruct (IH b1 rest W1 ltac:(lia)) as [I1 I2]. split; intros Hk.
      * destruct (I1 ltac:(lia)) as (u & r2 & b2 & E2 & W2). eexists _, r2, b2. split; [|exact W2].
        exact (hashel_ok h _ v b a b1 u b2 Tn (TG v Wv) (proj1 Hb) E1' E2).
      * destruct (I2 ltac:(lia)) as (r2 & b2 & E2 & W2). exists r2, b2. split; [|exact W2].
        pose proof (tame_result h _ b Tn (proj1 Hb)) as S1. rewrite E1' in S1. cbn [snd] in S1.
        unfold ExtractStr. rewrite extract_hashel. rewrite (bind_ok _ _ b a b1) by exact E1'.
        apply bind_ood. rewrite (tame_agree h v b b1 (TG v Wv) S1). exact E2.
  - destruct G as [GP _]. destruct (GP p (well_min_pool h p m Em)) as (ys' & cur & P1 & P2 & P3 & P4 & P5 & P6). specialize (P6 m Em).
    rewrite (pool_of_fun h p _ _ P1 P) in *. clear ys' P1. pose proof (smallest_le h ys cur lo m 2 P3 Sm P6) as LM.
    assert (L0 : 0 <= lo) by (eapply smallest_pos; [exact P3|exact Sm|]; eapply Forall_impl; [|exact P4]; intros q Hq; apply Hq).
    destruct (Z_lt_le_dec (zlen d) 2) as [Q|Q].
    { split; intros Hk; [lia|]. exists d. exact (C32_short h p ys b d P Hb Q). }
    destruct (list_split d 2 ltac:(lia)) as (front & r & Ed & Ef). subst d.
    assert (Zr : zlen r = zlen (front ++ r) - 2) by (rewrite zlen_app; lia).
    split; intros Hk.
    + destruct (C32_picks h p ys cur b front r HL P P3 P4 P5 Hb Ef (smallest_fits h ys cur lo (zlen r) P3 Sm ltac:(lia))) as (y & s & b' & Y1 & (Y2 & _) & Y3 & _ & Y4 & Y5).
      rewrite Forall_forall in P2. destruct (WR y (fst s) b' r (P2 y Y1) Y2 Y4 ltac:(unfold fits in Y3; lia)) as (v & r' & b'' & E & Wb).
      exists v, r', b''. split; [rewrite Y5; exact E|exact Wb].
    + exists r. apply (C32_none h p ys cur m b front r P P3 P4 P5 Em ltac:(lia) Hb Ef (smallest_none h ys cur lo (zlen r) P3 Sm ltac:(lia))). lia.
  - destruct G as [_ GL]. destruct (GL l ltac:(congruence)) as (L' & rc & cur & P1 & PB & P2 & P3 & P4 & P5 & P6).
    rewrite El in P1. injection P1 as <-. pose proof (oracle_size_pos L rc PB) as OP.
    assert (L0 : 0 <= lo) by (eapply smallest_pos; [exact P3|exact Sm|]; eapply Forall_impl; [|exact P4]; intros q Hq; apply Hq).
    destruct (Z_lt_le_dec (zlen d) (oracle_size (lot_nums L))) as [Q|Q].
    { split; intros Hk; [lia|]. exists d. exact (C31_short h l L rc b d El PB Hb Q). }
    destruct (list_split d (oracle_size (lot_nums L)) ltac:(lia)) as (front & r & Ed & Ef). subst d.
    assert (Zr : zlen r = zlen (front ++ r) - oracle_size (lot_nums L)) by (rewrite zlen_app; lia).
    split; intros Hk.
    + destruct (C31_picks h l L rc cur b front r HL El PB P3 P4 P5 Hb Ef ltac:(intros _; lia) (smallest_fits h _ cur lo (zlen r) P3 Sm ltac:(lia))) as (y & s & b' & Y1 & (Y2 & _) & Y3 & _ & Y4 & Y5).
      rewrite Forall_forall in P2. destruct (WR y (fst s) b' r (P2 y Y1) Y2 Y4 ltac:(unfold fits in Y3; lia)) as (v & r' & b'' & E & Wb).
      exists v, r', b''. split; [rewrite Y5; exact E|exact Wb].
    + exists r. apply (C31_none h l L rc cur b front r El PB P3 P4 P5 Hb Ef ltac:(intros _; lia) (smallest_none h _ cur lo (zlen r) P3 Sm ltac:(lia))).
Qed.

Lemma need_at_most h N : graph_well h N -> forall x k, needs h x k -> well h N x -> forall m, minSize h x = Ok m -> k <= m.
Proof.
  intros G. induction 1 as [mn mx ex k0 LK S SF|j x s R|op x k H IH|op x y L R|j xs L R|mn mx ex t v k LT S X H IH K0|p ys m0 lo P Sm Em|l L lo El Sm]; intros W m Hm.
  - unfold minSize in Hm. rewrite query_leaf in Hm. injection Hm as <-. exact LK.
  - inversion W as [|j' x' s' Wx R' B1 B2 HE| | | | | |]; subst. rewrite (report_fun h x _ _ R' R) in *. clear R' s'.
    rewrite (vec_size h j x s R) in Hm. injection Hm as <-.
    destruct s as [mn mx]. cbn [fst snd] in *. unfold element_ok in HE. cbn [fst snd] in HE.
    unfold VectorMinSize, isFixedSize, isUnbounded, ORACLE_SIZE.
    destruct HE as [(H1 & ->)|[(H1 & H2)|(H1 & -> & H3 & H4)]].
    + rewrite Z.eqb_refl. destruct (mn =? -1) eqn:Q; lia.
    + destruct (mx =? -1) eqn:Q; [lia|]. destruct (mn =? mx) eqn:Q1; [lia|]. rewrite i32_id; lia.
    + change (-1 =? -1) with true. cbv iota. destruct (mn =? -1) eqn:Q1; [lia|]. rewrite i32_id; lia.
  - inversion W; subst. unfold minSize in Hm. rewrite query_unary in Hm. exact (IH ltac:(assumption) m Hm).
  - inversion W; subst. match goal with A : Forall2 (report h) [x; y] ?l |- _ => rewrite (reports_fun h _ _ A L R) in * end.
    rewrite (binary_size h op x y L R ltac:(assumption)) in Hm. injection Hm as <-. lia.
  - inversion W; subst. match goal with A : Forall2 (report h) xs ?l |- _ => rewrite (reports_fun h _ _ A L R) in * end.
    rewrite (set_size h j xs L R ltac:(assumption)) in Hm. injection Hm as <-. lia.
  - inversion W; subst. match goal with R : report h v s |- _ => rename R into HR end. pose proof (proj1 (report_query h v s HR)) as Ek.
    specialize (IH ltac:(assumption) (fst s) (proj1 HR)).
    unfold minSize in Hm. rewrite query_hashel in Hm. rewrite query_leaf in Hm. rewrite bind_ret in Hm.
    rewrite (bind_ok _ _ _ _ _ Ek) in Hm. cbn [lift fst] in Hm.
    unfold int_op in Hm. match type of Hm with (if ?t then _ else _) = _ => destruct t end; [injection Hm as <-; lia|discriminate Hm].
  - destruct G as [GP _]. destruct (GP p (well_min_pool h p m Hm)) as (ys' & cur & P1 & P2 & P3 & P4 & P5 & P6). specialize (P6 m Hm).
    rewrite (pool_of_fun h p _ _ P1 P) in *. pose proof (smallest_le h ys cur lo m 2 P3 Sm P6). lia.
  - destruct G as [_ GL]. destruct (GL l ltac:(congruence)) as (L' & rc & cur & P1 & PB & P2 & P3 & P4 & P5 & P6).
    rewrite El in P1. injection P1 as <-. specialize (P6 m Hm). pose proof (smallest_le h _ cur lo m _ P3 Sm P6). lia.
Qed.

(** Elementary stamps. *)
Lemma arith_take t : t <> LDouble -> exact_take (sizeof t) (ArithExtractStr t).
Proof.
  intros Ht b l Hb Hl. pose proof (sizeof_range t) as SR.
  enough (K : exists v, runs (ArithExtractStr t) b (Ok v) (skipn (Z.to_nat (sizeof t)) l))
    by (destruct K as (v & K); eexists _, _; split; [exact K|rewrite zlen_skipn; lia]).
  assert (Hb' : holds b (firstn (Z.to_nat (sizeof t)) l ++ skipn (Z.to_nat (sizeof t)) l)) by (rewrite firstn_skipn; exact Hb).
  assert (KI : int_type t -> exists v, represents t v (firstn (Z.to_nat (sizeof t)) l)).
  { intros Hi. rewrite <- width_sizeof in Hl |- *. destruct (C06_extract t b l Hi Hb Hl) as (v & _ & R & _). exists v. exact R. }
  assert (KC : t = Char \/ t = SChar -> exists v, runs (ArithExtractStr t) b (Ok v) (skipn (Z.to_nat (sizeof t)) l)).
  { intros Hc. destruct KI as (v & R); [destruct Hc as [-> | ->]; repeat split; discriminate|].
    destruct (C07_char t b _ _ v Hc R Hb') as [C1 C2]. destruct (Z_le_gt_dec (-99) v).
    - destruct (C1 ltac:(lia)) as (s & E & _). exists s. exact E.
    - destruct (C2 ltac:(lia)) as (s & _ & _ & E & _). eexists. exact E. }
  assert (KD : int_type t -> t <> Char -> t <> SChar -> exists v, runs (ArithExtractStr t) b (Ok v) (skipn (Z.to_nat (sizeof t)) l)).
  { intros Hi H1 H2. destruct (KI Hi) as (v & R). destruct (C07_decimal t b _ _ v Hi H1 H2 R Hb') as (s & E & _). exists s. exact E. }
  destruct t; try congruence; try (apply KC; auto; fail); try (apply KD; [repeat split|..]; discriminate).
  + destruct (C06_extract UInt b l ltac:(repeat split; discriminate) Hb Hl) as (v & _ & R & _).
    destruct (C08_float b _ _ v R Hb') as (F1 & F2 & F3).
    destruct (b32_of_bits v) as [sg| sg|sg pl e|sg mm e e0] eqn:Q; [destruct (F1 eq_refl) as (s & E & _)|pose proof (F3 eq_refl eq_refl) as E|pose proof (F2 eq_refl) as E|destruct (F1 eq_refl) as (s & E & _)]; eexists; exact E.
  + destruct (C06_extract ULong b l ltac:(repeat split; discriminate) Hb Hl) as (v & _ & R & _).
    destruct (C08_double b _ _ v R Hb') as (F1 & F2 & F3).
    destruct (b64_of_bits v) as [sg| sg|sg pl e|sg mm e e0] eqn:Q; [destruct (F1 eq_refl) as (s & E & _)|pose proof (F3 eq_refl eq_refl) as E|pose proof (F2 eq_refl) as E|destruct (F1 eq_refl) as (s & E & _)]; eexists; exact E.
Qed.

Lemma dict_take d : d <> [] -> zlen d <= 2 ^ 53 -> exact_take (DictMinSize d) (DictExtractStr d).
Proof.
  intros Hd Hs b l Hb Hl. destruct (C12_word d b l Hd Hs Hb Hl) as (w & _ & R). exists w, (skipn (Z.to_nat (DictMinSize d)) l). split; [exact R|].
  rewrite zlen_skipn; [lia|]. split; [|exact Hl]. destruct (C14_width d) as (W1 & W2 & W3 & _).
  destruct (Z_le_gt_dec (zlen d) 256); [lia|]. destruct (Z_le_gt_dec (zlen d) 65536); lia.
Qed.
