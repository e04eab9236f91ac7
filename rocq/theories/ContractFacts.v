(** Lemmas for C41. *)
From Verif Require Import Base BaseFacts Blob BlobSpec BlobFacts RunSpec RunFacts Sim Oracle Arithm StampDict StampText Galley Stamps StampsEq
  LeafSpec TermSpec ShrinkFacts DepthFacts TermFacts NestFacts QuerySpec Prop_Recursion Prop_Termination VectorSpec VectorFacts Prop_Vector SetSpec SetFacts Prop_Set LotSpec LotFacts Prop_Lottery Prop_Pool SimGraph
  ContractSpec.
Local Open Scope Z_scope.

Lemma report_query (h : heap blob) x s : report h x s -> query (qfuel h) true x h = (Ok (fst s), h) /\ query (qfuel h) false x h = (Ok (snd s), h).
Proof.
  intros (H1 & H2). unfold minSize in H1. unfold maxSize in H2.
  destruct (C33_sizes h x true (qfuel h) ltac:(lia)) as [[(v & E)|E] _]; [|congruence].
  destruct (C33_sizes h x false (qfuel h) ltac:(lia)) as [[(v' & E')|E'] _]; [|congruence].
  rewrite E in H1. rewrite E' in H2. cbn [fst] in *. split; congruence.
Qed.

Definition answers (h : heap blob) (q : Q blob Z * Q blob Z) (s : Z * Z) : Prop := fst q h = (Ok (fst s), h) /\ snd q h = (Ok (snd s), h).

Lemma q_var_run h q1 q2 s : answers h (q1, q2) s -> q_variated q1 q2 h = (Ok (isVariated (fst s) (snd s)), h) /\ q_unbounded q2 h = (Ok (isUnbounded (fst s) (snd s)), h).
Proof.
  intros (H1 & H2). cbn [fst snd] in *. unfold q_variated, q_unbounded, q_fixed, isVariated, isUnbounded, isFixedSize.
  assert (U : (b <- q2;; ret (b =? -1)) h = (Ok (snd s =? -1), h)) by (rewrite (bind_ok _ _ _ _ _ H2); reflexivity).
  split; [|exact U].
  assert (F : (a <- q1;; b <- q2;; ret (a =? b)) h = (Ok (fst s =? snd s), h)).
  { rewrite (bind_ok _ _ _ _ _ H1), (bind_ok _ _ _ _ _ H2). reflexivity. }
  rewrite (bind_ok _ _ _ _ _ F). destruct (fst s =? snd s); [reflexivity|]. rewrite (bind_ok _ _ _ _ _ U). reflexivity.
Qed.

Lemma q_totals_run h qs L : Forall2 (answers h) qs L -> forall t, q_set_totals qs t h = lift (set_min_totals L t) h.
Proof.
  induction 1 as [|[q1 q2] [mn mx] qs L Ha H IH]; intros t; [reflexivity|]. cbn [q_set_totals set_min_totals].
  destruct (q_var_run h q1 q2 _ Ha) as [V U]. destruct Ha as [A1 A2]. cbn [fst snd] in *. rewrite (bind_ok _ _ _ _ _ A1).
  destruct (int_op (t_fixed t + mn)) as [f| | | |]; try reflexivity. rewrite (bind_lift_ok (Ok f) _ _ _ eq_refl).
  rewrite (bind_ok _ _ _ _ _ V), (bind_ok _ _ _ _ _ U). cbn [rbind]. apply IH.
Qed.

Lemma q_set_min_run h qs L : Forall2 (answers h) qs L -> fst (q_set_min qs h) = SetMinSize L.
Proof.
  intros H. unfold q_set_min, SetMinSize, bind. rewrite (q_totals_run h qs L H). unfold lift.
  destruct (set_min_totals L _); reflexivity.
Qed.

Lemma set_min_report (h : heap blob) xs L : Forall2 (report h) xs L ->
  Forall2 (answers h) (map (fun y => (query (qfuel h) true y, query (qfuel h) false y)) xs) L.
Proof. induction 1 as [|x s xs L H1 H IH]; constructor; [exact (report_query h x s H1)|exact IH]. Qed.

Lemma set_size (h : heap blob) j xs L : Forall2 (report h) xs L -> set_ok L -> minSize h (XSet j xs) = Ok (min_total L).
Proof.
  intros H HS. unfold minSize. rewrite query_set. cbv zeta. rewrite (q_set_min_run h _ L (set_min_report h xs L H)). apply C22_minSize. exact HS.
Qed.
Lemma binary_size (h : heap blob) op x y L : Forall2 (report h) [x; y] L -> set_ok L -> minSize h (XBinary op x y) = Ok (min_total L).
Proof.
  intros H HS. unfold minSize. rewrite query_binary. cbv zeta.
  change [(query (qfuel h) true x, query (qfuel h) false x); (query (qfuel h) true y, query (qfuel h) false y)] with (map (fun y => (query (qfuel h) true y, query (qfuel h) false y)) [x; y]).
  rewrite (q_set_min_run h _ L (set_min_report h [x; y] L H)). apply C22_minSize. exact HS.
Qed.

Lemma vec_size (h : heap blob) j x s : report h x s -> minSize h (XVec j x) = Ok (VectorMinSize (fst s) (snd s)).
Proof.
  intros H. destruct (report_query h x s H) as [A1 A2]. destruct (q_var_run h _ _ s (conj A1 A2)) as [V U].
  unfold minSize. rewrite query_vec. unfold q_vector_min, VectorMinSize.
  assert (F : q_fixed (query (qfuel h) true x) (query (qfuel h) false x) h = (Ok (isFixedSize (fst s) (snd s)), h)).
  { unfold q_fixed. rewrite (bind_ok _ _ _ _ _ A1), (bind_ok _ _ _ _ _ A2). reflexivity. }
  rewrite (bind_ok _ _ _ _ _ F). destruct (isFixedSize (fst s) (snd s)); [rewrite A1; reflexivity|].
  rewrite (bind_ok _ _ _ _ _ U). destruct (isUnbounded (fst s) (snd s)); rewrite (bind_ok _ _ _ _ _ A1); reflexivity.
Qed.

(** Vectors: every chunk is large enough. *)
Lemma vector_chunks N s b d : fst s < 2 ^ 31 -> snd s < 2 ^ 31 -> element_ok N s -> holds b d ->
  VectorMinSize (fst s) (snd s) <= zlen d <= N -> exists cs b', vector_extract (fst s) (snd s) b = (Ok cs, b') /\ wf b'
    /\ Forall (fun c => wf c /\ fst s <= zlen (content c) <= zlen d) cs.
Proof.
  intros B1 B2 HE Hb Hd. pose proof (holds_small b d Hb) as Hsm.
  assert (K : forall chunks rest, cuts (vector_extract (fst s) (snd s)) b chunks rest -> Forall (fun c => fst s <= zlen c <= zlen d) chunks ->
    exists cs b', vector_extract (fst s) (snd s) b = (Ok cs, b') /\ wf b' /\ Forall (fun c => wf c /\ fst s <= zlen (content c) <= zlen d) cs).
  { intros chunks rest (cs & b' & E & W & Ec & Wb & _) HF. exists cs, b'. split; [exact E|]. split; [exact Wb|].
    subst chunks. clear E. induction W as [|c cs Wc W IH]; constructor; [split; [exact Wc|exact (Forall_inv HF)]|]. apply IH. exact (Forall_inv_tail HF). }
  assert (CL : forall (cs : list bytes) w, In w cs -> zlen w <= zlen (concat cs)).
  { induction cs as [|c cs IH]; intros w Hw; [destruct Hw|]. cbn [concat]. rewrite zlen_app. pose proof (zlen_nonneg c). pose proof (zlen_nonneg (concat cs)).
    destruct Hw as [->|Hw]; [lia|]. specialize (IH w Hw). lia. }
  destruct s as [mn mx]. unfold element_ok in HE. cbn [fst snd] in *. destruct HE as [(H1 & ->)|[(H1 & H2)|(H1 & -> & H3 & H4)]].
  - unfold VectorMinSize, isFixedSize in Hd. rewrite Z.eqb_refl in Hd.
    destruct (C17_fixed mn b d ltac:(lia) Hb ltac:(lia)) as (cs & rest & C & El & F & _). apply (K cs rest C).
    apply Forall_forall. intros w Hw. rewrite Forall_forall in F. specialize (F w Hw). lia.
  - unfold VectorMinSize, isFixedSize, isUnbounded, ORACLE_SIZE in Hd. destruct (mn =? mx) eqn:Q1; [lia|]. destruct (mx =? -1) eqn:Q2; [lia|].
    rewrite i32_id in Hd by lia.
    destruct (C18_variated mn mx b d ltac:(lia) ltac:(lia) ltac:(lia) Hb ltac:(lia)) as (cs & rest & C & V & F & _). apply (K cs rest C).
    assert (LV : zlen (concat cs) <= zlen d).
    { clear - V. induction V as [l Hl|o k c l cs rest O1 O2 O3 O4 V IH]; [apply zlen_nonneg|]. cbn [concat]. rewrite !zlen_app. change (zlen (le16 o)) with 2. lia. }
    apply Forall_forall. intros w Hw. rewrite Forall_forall in F. specialize (F w Hw). specialize (CL cs w Hw). cbv beta in F. lia.
  - assert (PL : parts mn (zlen d) <= 32768).
    { unfold parts in *. assert ((zlen d - 2) / (mn + 2) <= (N - 2) / (mn + 2)) by (apply Z.div_le_mono; lia). lia. }
    destruct (C19_unbounded mn b d H1 Hb ltac:(lia) PL) as (o & os & cs & rest & C & U). apply (K cs rest C).
    destruct U as (El & _ & _ & _ & U & _).
    assert (LV : zlen (concat cs) <= zlen d).
    { rewrite El, !zlen_app. pose proof (zlen_nonneg (le16 o)). pose proof (zlen_nonneg (concat (map le16 os))). pose proof (zlen_nonneg rest). lia. }
    apply Forall_forall. intros w Hw. specialize (CL cs w Hw). split; [|lia].
    clear - U Hw. induction U as [|o c ws cs (U1 & _) U IH]; [destruct Hw|]. destruct Hw as [->|Hw]; [exact U1|exact (IH Hw)].
Qed.

(** Sets. *)
Lemma of_kind_in {A} (p : Z * Z -> bool) : forall L (xs : list A) s x, In (s, x) (combine L xs) -> p s = true -> In x (of_kind p L xs).
Proof.
  intros L xs s x Hi Hp. unfold of_kind. apply in_map_iff. exists (s, x). split; [reflexivity|]. apply filter_In. split; [exact Hi|exact Hp].
Qed.

Lemma set_chunks L b d : set_ok L -> zlen L <= 65536 -> count var L = 0 -> count unb L <= 2 -> holds b d -> min_total L <= zlen d < 2 ^ 31 ->
  exists cs b', set_extract L b = (Ok cs, b') /\ wf b'
    /\ Forall2 (fun s c => wf c /\ fst s <= zlen (content c) <= zlen d) L cs.
Proof.
  intros HS HN HV HU Hb Hd. destruct (C23_division L b d HS HN HV (or_introl HU) Hb Hd) as (o0 & os & chunks & rest & Fv & Fu & C & SC & _ & D1 & _ & D3 & D4).
  destruct C as (cs & b' & E & W & Ec & Wb & _). exists cs, b'. split; [exact E|]. split; [exact Wb|].
  destruct SC as [CL (_ & _ & _ & LC) _ _ _ _ _ _ _].
  assert (LE : zlen (concat chunks) <= zlen d).
  { rewrite CL, !zlen_app. pose proof (zlen_nonneg (division_oracle L o0)). pose proof (zlen_nonneg (size_oracles (count unb L) L os)). pose proof (zlen_nonneg rest). lia. }
  assert (CI : forall (cs : list bytes) w, In w cs -> zlen w <= zlen (concat cs)).
  { induction cs0 as [|c cs0 IH]; intros w Hw; [destruct Hw|]. cbn [concat]. rewrite zlen_app. pose proof (zlen_nonneg c). pose proof (zlen_nonneg (concat cs0)).
    destruct Hw as [->|Hw]; [lia|]. specialize (IH w Hw). lia. }
  assert (KU : forall s c, In (s, c) (combine L chunks) -> unb s = true -> fst s <= zlen c).
  { intros s c Hi Hu.
    assert (X : In (zlen c - fst s) (of_kind unb L (extras L chunks))).
    { apply of_kind_in with (s := s); [|exact Hu]. unfold extras. clear - Hi. revert chunks Hi. induction L as [|a L IH]; intros [|w chunks] Hi; try destruct Hi.
      - injection H as -> ->. left. reflexivity.
      - right. apply IH. exact H. }
    assert (LK : (length (of_kind unb L (extras L chunks)) <= 2)%nat).
    { assert (Z.of_nat (length (of_kind unb L (extras L chunks))) <= count unb L).
      { unfold count, of_kind, zlen. rewrite map_length. apply Nat2Z.inj_le. generalize (extras L chunks). clear. induction L as [|a L IH]; intros [|e es]; cbn [combine filter length]; try lia.
        cbn [fst]. specialize (IH es). destruct (unb a); cbn [length]; lia. }
      lia. }
    destruct (of_kind unb L (extras L chunks)) as [|e1 [|e2 [|e3 es]]] eqn:Q; [destruct X| | |cbn [length] in LK; lia].
    - specialize (D3 e1 [] eq_refl). destruct X as [X|[]]. lia.
    - specialize (D3 e1 [e2] eq_refl). specialize (D4 e2 [e1] eq_refl). destruct X as [X|[X|[]]]; lia. }
  assert (KK : forall s c, In (s, c) (combine L chunks) -> fst s <= zlen c).
  { intros s c Hi. pose proof (in_combine_l _ _ _ _ Hi) as Hl. destruct HS as (HF & _). rewrite Forall_forall in HF. destruct (HF s Hl) as [F1 [F2|[F2|F2]]].
    - rewrite (D1 s c Hi); [lia|]. unfold fixed. lia.
    - apply KU; [exact Hi|]. unfold unb. lia.
    - exfalso. assert (X : In s (filter var L)) by (apply filter_In; split; [exact Hl|unfold var; lia]).
      unfold count, zlen in HV. destruct (filter var L); [destruct X|cbn [length] in HV; lia]. }
  assert (KE : forall c, In c chunks -> zlen c <= zlen d) by (intros c Hc; specialize (CI chunks c Hc); lia).
  clear - W Ec LC KK KE. subst chunks. revert L LC KK. induction W as [|c cs Wc W IH]; intros [|s L] LC KK; try discriminate LC; constructor.
  - split; [exact Wc|]. split; [apply KK; left; reflexivity|apply KE; left; reflexivity].
  - apply IH; [intros c' Hc; apply KE; right; exact Hc|cbn in LC; lia|]. intros s' c' Hi. apply KK. right. exact Hi.
Qed.

(** Well-made stamps have tame leaves. *)
Lemma well_leaves h N x : well h N x -> leaves (fun _ _ ex => tame ex) x.
Proof.
  induction x as [mn mx ex|j x IH|o x IH|o x1 x2 IH1 IH2|j xs IH|n v IHn IHv|p|l] using sx_ind'; intros H; inversion H; subst; constructor; auto.
  - match goal with F : Forall (well h N) xs |- _ => revert F end. intros F. clear - IH F. induction IH; constructor; inversion F; subst; auto.
  - constructor. assumption.
Qed.

Lemma graph_leaves h N : graph_well h N -> heap_leaves (fun _ _ ex => tame ex) h.
Proof.
  intros (HP & HL). split.
  - intros Pl x Hi Hx. apply In_nth_error in Hi as (p & Hp). destruct (HP p) as (ys & cur & (P' & E1 & E2) & W & _); [congruence|].
    rewrite Hp in E1. injection E1 as <-. rewrite E2 in Hx. apply in_map_iff in Hx as (y & [= ->] & Hy).
    rewrite Forall_forall in W. exact (well_leaves _ _ _ (W x Hy)).
  - intros Lo x Hi Hx. apply In_nth_error in Hi as (l & Hl). destruct (HL l) as (L' & rc & cur & E1 & _ & W & _); [congruence|].
    rewrite Hl in E1. injection E1 as <-. rewrite Forall_forall in W. exact (well_leaves _ _ _ (W x Hx)).
Qed.

Lemma sizes_of_report (h : heap blob) xs L : Forall2 (report h) xs L -> sizes_of h xs = Ok L.
Proof.
  induction 1 as [|x [mn mx] xs L (H1 & H2) H IH]; cbn [sizes_of]; [reflexivity|]. cbn [fst snd] in *. rewrite H1, H2, IH. reflexivity.
Qed.

Lemma zip_ok {A} (fs : list (M blob A)) : forall cs, Forall2 (fun f c => exists v, fst (f c) = Ok v) fs cs -> exists vs, stamp_zip fs cs = Ok vs.
Proof.
  intros cs H. induction H as [|f c fs cs (v & E) H (vs & IH)]; [exists []; reflexivity|]. cbn [stamp_zip]. rewrite E, IH. eexists. reflexivity.
Qed.

Lemma well_min_pool (h : heap blob) p m : minSize h (XPool p) = Ok m -> nth_error (pools h) p <> None.
Proof.
  intros E. unfold minSize, qfuel in E. rewrite query_pool_S in E. unfold bind, get_pool in E. destruct (nth_error (pools h) p); [discriminate|discriminate E].
Qed.
Lemma well_min_lot (h : heap blob) l m : minSize h (XLot l) = Ok m -> nth_error (lots h) l <> None.
Proof.
  intros E. unfold minSize, qfuel in E. rewrite query_lot in E. unfold bind, get_lot in E. destruct (nth_error (lots h) l); [discriminate|discriminate E].
Qed.

Lemma oracle_size_pos L rc : built L rc -> 1 <= oracle_size (lot_nums L).
Proof. intros HB. destruct (built_width L rc HB) as [_ Hw]. repeat (destruct Hw as [<-|Hw]; [lia|]). destruct Hw. Qed.

Lemma hashel_ok h n v b a b1 c b2 : tame_graph h n -> tame_graph h v -> wf b -> ExtractStr h n b = (Ok a, b1) -> ExtractStr h v b1 = (Ok c, b2) ->
  ExtractStr h (XHashEl n v) b = (Ok (a ++ lit ": " ++ c), b2).
Proof.
  intros Tn Tv Hb E1 E2. pose proof (tame_result h n b Tn Hb) as S1. rewrite E1 in S1. cbn [snd] in S1.
  unfold ExtractStr at 1. rewrite extract_hashel.
  rewrite (bind_ok _ _ b a b1) by exact E1. rewrite (bind_ok _ _ b1 c b2); [reflexivity|]. rewrite (tame_agree h v b b1 Tv S1). exact E2.
Qed.

Lemma well_runs h N : graph_well h N -> N < 2 ^ 31 -> forall n x, well h N x -> forall m b d, minSize h x = Ok m -> holds b d ->
  m <= zlen d <= N -> zlen d < Z.of_nat n -> exists v b', ExtractStr h x b = (Ok v, b') /\ wf b'.
Proof.
  intros G HN. pose proof (graph_leaves h N G) as HL.
  assert (TG : forall x, well h N x -> tame_graph h x) by (intros x W; split; [exact HL|exact (well_leaves h N x W)]).
  induction n as [|n IHn]; [intros x _ m b d _ _ _ Hd; pose proof (zlen_nonneg d); lia|].
  assert (KF : forall x (c : blob) (d : bytes), (forall m b (d : bytes), minSize h x = Ok m -> holds b d -> m <= zlen d <= N -> zlen d < Z.of_nat (S n) -> exists v b', ExtractStr h x b = (Ok v, b') /\ wf b') ->
     forall s, report h x s -> zlen d <= N -> zlen d < Z.of_nat (S n) -> wf c /\ fst s <= zlen (content c) <= zlen d -> exists v, fst (ExtractStr h x c) = Ok v).
  { intros x c d IH s (R1 & R2) H1 H2 (Wc & Hc). destruct (IH (fst s) c (content c) R1 (conj Wc eq_refl) ltac:(lia) ltac:(lia)) as (v & b' & E & _).
    exists v. rewrite E. reflexivity. }
  induction x as [mn mx ex|j x IH|o x IH|o x1 x2 IH1 IH2|j xs IH|nm v _ IHv|p|l] using sx_ind'; intros W m b d Em Hb Hd Hn;
    pose proof (TG _ W) as T; inversion W; subst.
  - unfold minSize in Em. rewrite query_leaf in Em. injection Em as ->.
    match goal with S : safe _ _ |- _ => destruct (S b d Hb ltac:(lia)) as (v & r & b' & E & Wb & _) end.
    exists v, b'. split; [|exact Wb]. unfold ExtractStr. rewrite extract_leaf. exact E.
  - match goal with R : report h x s |- _ => rename R into HR end. rewrite (vec_size h j x s HR) in Em. injection Em as <-.
    destruct (vector_chunks N s b d ltac:(assumption) ltac:(assumption) ltac:(assumption) Hb ltac:(lia)) as (cs & b' & E & Wb & F).
    assert (V : exists vs, Forall2 (fun c t => fst (ExtractStr h x c) = Ok t) cs vs).
    { clear E. induction F as [|c cs Hc F (vs & IHF)]; [exists []; constructor|].
      destruct (KF x c d (IH ltac:(assumption)) s HR ltac:(lia) ltac:(lia) Hc) as (v & Ev). exists (v :: vs). constructor; assumption. }
    destruct V as (vs & V). exists (j vs), b'. split; [|exact Wb]. apply (vec_iff h x j b (j vs) b' (TG x ltac:(assumption)) (proj1 Hb)).
    destruct HR as [R1 R2]. exists (fst s), (snd s), cs, vs. repeat (split; [assumption|]). reflexivity.
  - unfold minSize in Em. rewrite query_unary in Em. destruct (IH ltac:(assumption) m b d Em Hb Hd Hn) as (v & b' & E & Wb).
    exists (o ++ lit "(" ++ v ++ lit ")"), b'. split; [|exact Wb]. apply unary_iff. exists v. split; [exact E|reflexivity].
  - match goal with R : Forall2 (report h) _ L |- _ => rename R into HR end. rewrite (binary_size h o x1 x2 L HR ltac:(assumption)) in Em. injection Em as <-.
    assert (L2 : length L = 2%nat) by (clear - HR; inversion HR as [|? ? ? ? ? HR']; subst; inversion HR' as [|? ? ? ? ? HR'']; subst; inversion HR''; reflexivity).
    destruct (set_chunks L b d ltac:(assumption) ltac:(unfold zlen; lia) ltac:(assumption)) as (cs & b' & E & Wb & F); [|exact Hb|lia|].
    { clear - L2. destruct L as [|a1 [|a2 [|a3 L]]]; try discriminate L2. unfold count, zlen. cbn [filter]. destruct (unb a1), (unb a2); cbn [length]; lia. }
    inversion HR as [|? s1 ? L' R1 HR']; subst. inversion HR' as [|? s2 ? L'' R2 HR'']; subst. inversion HR''; subst.
    inversion F as [|? c1 ? cs' F1 F']; subst. inversion F' as [|? c2 ? cs'' F2 F'']; subst. inversion F''; subst.
    destruct (KF x1 c1 d (IH1 ltac:(assumption)) s1 R1 ltac:(lia) ltac:(lia) F1) as (t1 & E1).
    destruct (KF x2 c2 d (IH2 ltac:(assumption)) s2 R2 ltac:(lia) ltac:(lia) F2) as (t2 & E2).
    eexists _, b'. split; [|exact Wb]. apply (binary_iff h o x1 x2 b _ b' (TG x1 ltac:(assumption)) (TG x2 ltac:(assumption)) (proj1 Hb)).
    destruct R1 as [R11 R12], R2 as [R21 R22]. exists (fst s1), (snd s1), (fst s2), (snd s2), c1, c2, t1, t2.
    repeat (split; [assumption|]). split; [destruct s1, s2; exact E|]. split; [exact E1|]. split; [exact E2|]. reflexivity.
  - match goal with R : Forall2 (report h) _ L |- _ => rename R into HR end. rewrite (set_size h j xs L HR ltac:(assumption)) in Em. injection Em as <-.
    destruct (set_chunks L b d ltac:(assumption) ltac:(assumption) ltac:(assumption) ltac:(assumption) Hb ltac:(lia)) as (cs & b' & E & Wb & F).
    assert (Sb : small (Size b) b) by (split; [exact (proj1 Hb)|lia]).
    pose proof (proj2 (shr_set (Size b) L b Sb) cs) as Sc. rewrite E in Sc. specialize (Sc eq_refl).
    assert (Z2 : Forall2 (fun f c => exists v, fst (f c) = Ok v) (map (extract (S (Z.to_nat (Size b))) h) xs) cs).
    { match goal with A : Forall (well h N) xs |- _ => rename A into WX end.
      assert (HD : zlen d <= N) by lia. clear - KF TG HR IH WX F Sc HD Hn. revert cs F Sc. revert IH WX.
      induction HR as [|x s xs L R1 HR IHR]; intros IH WX cs F Sc; inversion F as [|? c ? cs' F1 F']; subst; cbn [map]; constructor.
      - inversion Sc; subst. destruct (KF x c d (Forall_inv IH (Forall_inv WX)) s R1 ltac:(lia) ltac:(lia) F1) as (v & Ev).
        exists v. rewrite (tame_agree h x b c (TG x (Forall_inv WX))) by assumption. exact Ev.
      - inversion Sc; subst. apply IHR; try assumption; [exact (Forall_inv_tail IH)|exact (Forall_inv_tail WX)]. }
    destruct (zip_ok _ _ Z2) as (vs & Ez). exists (j vs), b'. split; [|exact Wb]. unfold ExtractStr. rewrite extract_set.
    rewrite (bind_lift_ok _ _ b _ (sizes_of_report h xs L HR)), (bind_ok _ _ _ _ _ E), (bind_lift_ok _ _ b' _ Ez). reflexivity.
  - match goal with S : thrifty _ _ |- _ => rename S into HT end.
    match goal with R : report h v s |- _ => rename R into HR end. pose proof (proj1 (report_query h v s HR)) as Ek.
    unfold minSize in Em. rewrite query_hashel in Em. rewrite query_leaf in Em. rewrite bind_ret in Em.
    rewrite (bind_ok _ _ _ _ _ Ek) in Em. cbn [lift fst] in Em.
    assert (Em' : m = mn + fst s) by (unfold int_op in Em; match type of Em with (if ?t then _ else _) = _ => destruct t end; [injection Em as <-; reflexivity|discriminate Em]). subst m.
    destruct (HT b d Hb ltac:(lia)) as (a & rest & (b1 & E1 & W1 & C1) & LR).
    assert (Tn : tame_graph h (XLeaf mn mx ex)) by (split; [exact HL|constructor; assumption]).
    assert (E1' : ExtractStr h (XLeaf mn mx ex) b = (Ok a, b1)) by (unfold ExtractStr; rewrite extract_leaf; exact E1).
    pose proof (tame_result h _ b Tn (proj1 Hb)) as SR. rewrite E1' in SR. cbn [snd] in SR. destruct SR as [_ SR].
    change (blobSize b1 <= blobSize b) in SR. rewrite (holds_size b d Hb), (holds_size b1 rest (conj W1 C1)) in SR.
    destruct (IHv ltac:(assumption) (fst s) b1 rest (proj1 HR) (conj W1 C1) ltac:(lia) ltac:(lia)) as (c & b2 & E2 & W2).
    eexists _, b2. split; [|exact W2]. exact (hashel_ok h _ v b a b1 c b2 Tn (TG v ltac:(assumption)) (proj1 Hb) E1' E2).
  - destruct G as [GP _]. destruct (GP p (well_min_pool h p m Em)) as (ys & cur & P1 & P2 & P3 & P4 & P5 & P6). specialize (P6 m Em).
    assert (M0 : 2 <= zlen d). { apply Exists_exists in P6 as (s & Hs & Hs2). rewrite Forall_forall in P4. destruct (P4 s Hs). lia. }
    destruct (list_split d 2 ltac:(lia)) as (front & r & Ed & Ef). subst d.
    assert (Zr : zlen r = zlen (front ++ r) - 2) by (rewrite zlen_app; lia).
    destruct (C32_picks h p ys cur b front r HL P1 P3 P4 P5 Hb Ef) as (y & s & b' & Y1 & (Y2 & _) & Y3 & _ & Y4 & Y5).
    { eapply Exists_impl; [|exact P6]. cbv beta. intros s Hs. unfold fits. lia. }
    rewrite Y5. rewrite Forall_forall in P2. apply (IHn y (P2 y Y1) (fst s) b' r Y2 Y4); [unfold fits in Y3; lia|lia].
  - destruct G as [_ GL]. destruct (GL l (well_min_lot h l m Em)) as (L & rc & cur & P1 & PB & P2 & P3 & P4 & P5 & P6). specialize (P6 m Em).
    pose proof (oracle_size_pos L rc PB) as OP.
    assert (M0 : oracle_size (lot_nums L) <= zlen d). { apply Exists_exists in P6 as (s & Hs & Hs2). rewrite Forall_forall in P4. destruct (P4 s Hs). lia. }
    destruct (list_split d (oracle_size (lot_nums L)) ltac:(lia)) as (front & r & Ed & Ef). subst d.
    assert (Zr : zlen r = zlen (front ++ r) - oracle_size (lot_nums L)) by (rewrite zlen_app; lia).
    destruct (C31_picks h l L rc cur b front r HL P1 PB P3 P4 P5 Hb Ef) as (y & s & b' & Y1 & (Y2 & _) & Y3 & _ & Y4 & Y5).
    { intros _. lia. }
    { eapply Exists_impl; [|exact P6]. cbv beta. intros s Hs. unfold fits. lia. }
    rewrite Y5. rewrite Forall_forall in P2. apply (IHn y (P2 y Y1) (fst s) b' r Y2 Y4); [unfold fits in Y3; lia|lia].
Qed.
