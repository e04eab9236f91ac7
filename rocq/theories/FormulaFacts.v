(** The formula lottery of examples/exampleZZ.cpp. *)
From Verif Require Import Base BaseFacts Blob BlobSpec BlobFacts RunSpec RunFacts Sim Oracle ArithSpec Arithm ArithFacts StampDict DictWords DictSpec DictFacts
  Galley Stamps StampsEq LeafSpec TermSpec ShrinkFacts Prop_Arithm Prop_Dict Prop_Termination NestSpec NestFacts
  VectorSpec VectorFacts SetSpec SetFacts SetRun Prop_Set LotSpec LotFacts Prop_Lottery ShapeFacts Formula FormulaSpec.
Local Open Scope Z_scope.

(** ** The graph *)
Definition bin (op : bytes) : sx blob := BinaryOp op stamp_lot stamp_lot.
Definition zz_nums : lotnums := mkLotnums 1 (-1) 1.
Definition zz_lot (ops : list bytes) : lottery blob := mkLottery (zz_leaves ++ map bin ops) zz_nums true.
Definition zz_heap (ops : list bytes) : heap blob := mkHeap [] [zz_lot ops].

Lemma width1 n : n < 255 -> init_oracle_size n = 1.
Proof. intros H. unfold init_oracle_size. destruct (n <? 255) eqn:E; [reflexivity|lia]. Qed.

Lemma zz_lot_min ops : minSize (zz_heap ops) stamp_lot = Ok 2. Proof. reflexivity. Qed.
Lemma zz_lot_max ops : maxSize (zz_heap ops) stamp_lot = Ok (-1). Proof. reflexivity. Qed.
Lemma zz_bin_min ops op : minSize (zz_heap ops) (bin op) = Ok 8. Proof. reflexivity. Qed.
Lemma zz_bin_max ops op : maxSize (zz_heap ops) (bin op) = Ok (-1). Proof. reflexivity. Qed.

Lemma zz_append_more ops : forall done, 2 + zlen (done ++ ops) < 255 -> zz_append (zz_heap done) ops = Ok (zz_heap (done ++ ops)).
Proof.
  induction ops as [|op ops IH]; intros done H; cbn [zz_append]; [rewrite app_nil_r; reflexivity|].
  assert (E : append_lottery (zz_heap done) 0 (bin op) = Ok (zz_heap (done ++ [op]))).
  { unfold append_lottery. cbn [lots zz_heap nth_error]. rewrite zz_bin_max, zz_bin_min. cbn [rbind lot_members lot_nums four_recursion zz_lot pools upd].
    unfold zz_heap, zz_lot. do 4 f_equal; [rewrite map_app, app_assoc; reflexivity|].
    assert (W : init_oracle_size (zlen (zz_leaves ++ map bin done) + 1) = 1).
    { apply width1. rewrite zlen_app, zlen_map. rewrite zlen_app, zlen_cons in H. pose proof (zlen_nonneg ops). change (zlen (@zz_leaves blob _)) with 2. lia. }
    unfold lot_append. rewrite W. reflexivity. }
  change (BinaryOp op stamp_lot stamp_lot) with (bin op). rewrite E. cbn [rbind].
  replace (done ++ op :: ops) with ((done ++ [op]) ++ ops) in * by (rewrite <- app_assoc; reflexivity). apply IH. exact H.
Qed.

Lemma zz_build_ok ops : ops <> [] -> zlen ops <= 252 -> zz_build ops = Ok (zz_heap ops).
Proof.
  intros Hn H. destruct ops as [|op ops]; [congruence|]. unfold zz_build. cbn [zz_append].
  change (append_lottery zz_lottery 0 (BinaryOp op stamp_lot stamp_lot)) with (Ok (zz_heap [op])). cbn [rbind].
  rewrite (zz_append_more ops [op]); [reflexivity|]. cbn [app]. lia.
Qed.

Definition zz_sizes (ops : list bytes) : list (Z * Z) := [(1, 1); (1, 1)] ++ map (fun _ => (8, -1)) ops.

Lemma grow_more apps : forall n, n + zlen apps < 255 -> Forall (fun s : Z * Z => 1 <= fst s /\ snd s = -1) apps ->
  apps <> [] -> forall L, stored_min L = 1 -> lot_grow n L apps = zz_nums.
Proof.
  induction apps as [|[mn mx] apps IH]; intros n H F N L E; [congruence|]. cbn [lot_grow fst snd].
  pose proof (Forall_inv F) as [F1 F2]. cbn [fst snd] in F1, F2. subst mx. rewrite zlen_cons in H. pose proof (zlen_nonneg apps).
  assert (Q : lot_append n L mn (-1) = zz_nums).
  { unfold lot_append, zz_nums. cbn [Z.eqb]. rewrite E. cbn [Z.eqb]. rewrite width1 by lia. destruct (mn <? 1) eqn:C; [lia|reflexivity]. }
  rewrite Q. destruct apps as [|a apps]; [reflexivity|]. apply IH; [lia|exact (Forall_inv_tail F)|discriminate|reflexivity].
Qed.

Section Heap.
  Context (ops : list bytes) (Hn : ops <> []) (Hs : zlen ops <= 252).
  Notation h := (zz_heap ops).

  Lemma zz_built : built (zz_lot ops) (zz_sizes ops).
  Proof.
    exists [(1, 1); (1, 1)], (map (fun _ => (8, -1)) ops), (lot_new [(1, 1); (1, 1)]). split; [reflexivity|]. split; [left; reflexivity|]. split.
    - symmetry. apply grow_more; [rewrite zlen_map; change (zlen [(1, 1); (1, 1)]) with 2; lia| | |reflexivity].
      + apply Forall_forall. intros s Hi. apply in_map_iff in Hi as (x & <- & _). cbn. lia.
      + destruct ops; [congruence|discriminate].
    - unfold zz_lot, zz_sizes. cbn [lot_members]. rewrite !zlen_app, !zlen_map. reflexivity.
  Qed.

  Lemma zz_reports : Forall2 (report h) (lot_members (zz_lot ops)) (zz_sizes ops).
  Proof.
    unfold zz_lot, zz_sizes. cbn [lot_members zz_leaves app]. repeat constructor.
    assert (K : forall os, Forall2 (report h) (map bin os) (map (fun _ => (8, -1)) os)).
    { intros os. induction os as [|o os IH]; cbn [map]; constructor; [|exact IH]. split; [apply zz_bin_min|apply zz_bin_max]. }
    apply K.
  Qed.

  Lemma zz_sane : Forall (sane true) (zz_sizes ops).
  Proof.
    assert (S1 : sane true (1, 1)) by (split; [cbn [fst]; lia|intros _; right; cbn [fst snd]; lia]).
    assert (S8 : sane true (8, -1)) by (split; [cbn [fst]; lia|intros _; left; reflexivity]).
    unfold zz_sizes. cbn [app]. apply Forall_cons; [exact S1|]. apply Forall_cons; [exact S1|]. apply Forall_forall. intros s Hi. apply in_map_iff in Hi as (x & <- & _). exact S8.
  Qed.

  Lemma zz_heap_leaves : heap_leaves (fun _ _ ex => tame ex) h.
  Proof.
    destruct C46_leaves as (TA & TD & _). split; [intros P x Hp; destruct Hp|]. intros L y HL HY. destruct HL as [<-|[]].
    cbn [zz_lot lot_members zz_leaves app] in HY. destruct HY as [<-|[<-|HY]]; [constructor; apply TA|constructor; apply TD|].
    apply in_map_iff in HY as (op & <- & _). constructor; constructor.
  Qed.

  Lemma zz_lot_graph : tame_graph h stamp_lot.
  Proof. split; [exact zz_heap_leaves|constructor]. Qed.

  Lemma zz_sizes_len : zlen (zz_sizes ops) <= 254.
  Proof. unfold zz_sizes. rewrite zlen_app, zlen_map. change (zlen [(1, 1); (1, 1)]) with 2. lia. Qed.

  Lemma zz_short b d : holds b d -> zlen d < 2 -> exists rest, runs (ExtractStr h stamp_lot) b OutOfData rest.
  Proof.
    intros Hb H. destruct (Z_lt_le_dec (zlen d) 1) as [C|C].
    - exists d. apply (C31_short h 0 (zz_lot ops) _ b d eq_refl zz_built Hb). exact C.
    - destruct d as [|c r]; [change (@zlen byte []) with 0 in C; lia|]. rewrite zlen_cons in H. pose proof (zlen_nonneg r).
      exists r. apply (C31_none h 0 (zz_lot ops) _ (zz_sizes ops) b [c] r eq_refl zz_built zz_reports zz_sane); [pose proof zz_sizes_len; lia|exact Hb|reflexivity|intros _; lia|].
      unfold zz_sizes. cbn [app]. unfold fits. repeat (apply Forall_cons; [cbn [fst]; lia|]). apply Forall_forall. intros s Hi. apply in_map_iff in Hi as (x & <- & _). cbn [fst]. lia.
  Qed.

  (** What is chosen: a leaf from 2 to 8 bytes, an operator above. *)
  Lemma zz_choice b c r : holds b (c :: r) -> 1 <= zlen r -> zlen r < 2 ^ 31 ->
    exists y b', holds b' r /\ ExtractStr h stamp_lot b = ExtractStr h y b'
      /\ (zlen r <= 7 /\ In y zz_leaves \/ 8 <= zlen r /\ exists op, In op ops /\ y = bin op).
  Proof.
    intros Hb H1 H2.
    destruct (C31_picks h 0 (zz_lot ops) _ (zz_sizes ops) b [c] r zz_heap_leaves eq_refl zz_built zz_reports zz_sane)
      as (y & s & b' & Y & (R1 & R2) & F & G & Hb' & E); [pose proof zz_sizes_len; lia|exact Hb|reflexivity|intros _; exact H2| |].
    { apply Exists_cons_hd. unfold fits. cbn [fst]. lia. }
    exists y, b'. split; [exact Hb'|]. split; [exact E|]. cbn [zz_lot lot_members] in Y. apply in_app_or in Y. destruct Y as [Y|Y].
    - left. split; [|exact Y]. destruct (Z_le_gt_dec (zlen r) 7) as [C|C]; [exact C|exfalso].
      assert (S : s = (1, 1)) by (destruct s as [a d]; destruct Y as [<-|[<-|[]]]; vm_compute in R1, R2; congruence). subst s.
      assert (X : leaves_little (zlen r) (1, 1)).
      { apply G; [reflexivity|]. unfold zz_sizes. destruct ops as [|op os]; [congruence|]. cbn [app map].
        do 2 apply Exists_cons_tl. apply Exists_cons_hd. unfold fits, leaves_little. cbn [fst snd]. split; [lia|left; reflexivity]. }
      unfold leaves_little in X. cbn [fst snd] in X. lia.
    - right. apply in_map_iff in Y as (op & <- & Ho). unfold fits in F. rewrite zz_bin_min in R1. injection R1 as R1. split; [lia|]. exists op. split; [exact Ho|reflexivity].
  Qed.

  (** Two operands: 4 bytes of oracles, then the data of one and of the other. *)
  Lemma pair_ok : set_ok [(2, -1); (2, -1)].
  Proof. split; [repeat constructor; cbn; lia|]. split; reflexivity. Qed.

  Lemma pair_cut b r : holds b r -> 8 <= zlen r < 2 ^ 31 ->
    exists o1 o2 c1 c2, r = le16 o1 ++ le16 o2 ++ c1 ++ c2 /\ 2 <= zlen c1 /\ 2 <= zlen c2
      /\ cuts (set_extract [(2, -1); (2, -1)]) b [c1; c2] [].
  Proof.
    intros Hb Hr. destruct (C23_division [(2, -1); (2, -1)] b r pair_ok) as (o0 & os & cs & rest & Fv & Fu & C & S & R & _ & _ & E1 & E2);
      [cbn; lia|reflexivity|left; cbn; lia|exact Hb|cbn; exact Hr|]. rewrite (R eq_refl) in *.
    destruct S as [S1 (_ & _ & S2 & S3) _ _ _ _ _ _ _]. destruct cs as [|c1 [|c2 [|c3 cs]]]; try discriminate S3. destruct os as [|o1 [|o2 [|o3 os]]]; try discriminate S2.
    exists o1, o2, c1, c2. split; [|split; [|split; [|exact C]]].
    - etransitivity; [exact S1|]. cbn. rewrite !app_nil_r. reflexivity.
    - specialize (E1 (zlen c1 - 2) [zlen c2 - 2] eq_refl). lia.
    - specialize (E2 (zlen c2 - 2) [zlen c1 - 2] eq_refl). lia.
  Qed.

  Lemma le16_2 o : zlen (le16 o) = 2. Proof. reflexivity. Qed.

  Lemma num_leaf b c r : holds b (c :: r) -> exists s, runs (ArithExtractStr UChar) b (Ok s) r /\ exists n, 0 <= n <= 255 /\ read_int s = Some n.
  Proof.
    intros Hb. destruct (C06_extract UChar b (c :: r) ltac:(repeat split; discriminate) Hb) as (v & _ & R & V & _).
    { rewrite zlen_cons. pose proof (zlen_nonneg r). cbn. lia. }
    change (firstn (Z.to_nat (width UChar)) (c :: r)) with [c] in R.
    destruct (C07_decimal UChar b [c] r v ltac:(repeat split; discriminate) ltac:(discriminate) ltac:(discriminate) R Hb) as (s & E & S).
    exists s. split; [exact E|]. exists v. split; [exact V|exact S].
  Qed.

  Lemma word_leaf b c r : holds b (c :: r) -> exists w, runs (DictExtractStr DictLCAlphaSmall) b (Ok w) r /\ In w DictLCAlphaSmall.
  Proof.
    intros Hb. destruct (C12_word DictLCAlphaSmall b (c :: r)) as (w & W & E); [discriminate|change (zlen DictLCAlphaSmall) with 254; lia|exact Hb| |].
    { change (DictMinSize DictLCAlphaSmall) with 1. rewrite zlen_cons. pose proof (zlen_nonneg r). lia. }
    exists w. split; [exact E|exact W].
  Qed.

  Lemma zz_writes : forall n b d, holds b d -> zlen d < Z.of_nat n -> 2 <= zlen d -> zlen d < 2 ^ 31 ->
    exists f s rest, runs (ExtractStr h stamp_lot) b (Ok s) rest /\ proper ops f /\ written f s
      /\ 7 * operators f + 2 <= zlen d <= 13 * operators f + 8 /\ 0 <= operators f
      /\ zlen rest = if operators f =? 0 then zlen d - 2 else 0.
  Proof.
    induction n as [|n IH]; intros b d Hb Hd H2 H3; [lia|]. destruct d as [|c r]; [change (@zlen byte []) with 0 in H2; lia|]. rewrite zlen_cons in *.
    destruct (zz_choice b c r Hb ltac:(lia) ltac:(lia)) as (y & b1 & Hb1 & E & [[C Y]|[C (op & Ho & ->)]]).
    - destruct r as [|x r]; [change (@zlen byte []) with 0 in H2; lia|]. rewrite zlen_cons in *. pose proof (zlen_nonneg r). destruct Y as [<-|[<-|[]]].
      + destruct (num_leaf b1 x r Hb1) as (s & (b2 & E2 & H4) & v & V & S). exists (FNum v), s, r. split; [exists b2; split; [|exact H4]|].
        { rewrite E. unfold ExtractStr. rewrite extract_leaf. exact E2. }
        split; [exact V|]. split; [constructor; exact S|]. cbn [operators Z.eqb]. lia.
      + destruct (word_leaf b1 x r Hb1) as (w & (b2 & E2 & H4) & W). exists (FWord w), w, r. split; [exists b2; split; [|exact H4]|].
        { rewrite E. unfold ExtractStr. rewrite extract_leaf. exact E2. }
        split; [exact W|]. split; [constructor|]. cbn [operators Z.eqb]. lia.
    - destruct (pair_cut b1 r Hb1 ltac:(lia)) as (o1 & o2 & c1 & c2 & -> & L1 & L2 & (cs & b2 & E2 & Wc & Ec & Hb2)). rewrite !zlen_app, !le16_2 in *.
      destruct cs as [|k1 [|k2 [|k3 cs]]]; try discriminate Ec. cbn [map] in Ec. injection Ec as Q1 Q2.
      destruct (IH k1 c1 (conj (Forall_inv Wc) Q1) ltac:(lia) L1 ltac:(lia)) as (f1 & s1 & r1 & (b3 & E3 & _) & P1 & T1 & B1 & N1 & _).
      destruct (IH k2 c2 (conj (Forall_inv (Forall_inv_tail Wc)) Q2) ltac:(lia) L2 ltac:(lia)) as (f2 & s2 & r2 & (b4 & E4 & _) & P2 & T2 & B2 & N2 & _).
      eexists (FOp op f1 f2), _, []. split; [|split; [split; [exact Ho|split; assumption]|split; [constructor; eassumption|]]].
      + exists b2. split; [|exact Hb2]. rewrite E. apply (binary_iff h op stamp_lot stamp_lot b1 _ b2 zz_lot_graph zz_lot_graph (proj1 Hb1)).
        exists 2, (-1), 2, (-1), k1, k2, s1, s2. rewrite E3, E4. repeat split. exact E2.
      + cbn [operators]. destruct (1 + operators f1 + operators f2 =? 0) eqn:Z0; [lia|]. change (@zlen byte []) with 0. lia.
  Qed.

  (** ** Every formula can be written *)
  Lemma pair_reach e1 e2 c1 c2 b : 0 <= e1 <= 65535 -> 0 <= e2 <= 65535 -> zlen c1 = e1 + 2 -> zlen c2 = e2 + 2 ->
    holds b (le16 e1 ++ le16 e2 ++ c1 ++ c2) -> cuts (set_extract [(2, -1); (2, -1)]) b [c1; c2] [].
  Proof.
    intros H1 H2 L1 L2 Hb. set (r := c1 ++ c2). assert (Lr : zlen r = e1 + e2 + 4) by (unfold r; rewrite zlen_app; lia).
    destruct (set_run [(2, -1); (2, -1)] 0 [e1; e2] r pair_ok) as (ev & eu & Fv & Fu & E & _ & _ & _ & FU & _ & _ & (FV & _) & FT & _);
      [cbn; lia|unfold oracle16; lia|apply Forall_cons; [exact H1|apply Forall_cons; [exact H2|constructor]]|reflexivity|rewrite Lr; cbn; lia| |left; reflexivity|].
    { cbn -[le16 r]. rewrite !app_nil_r, !zlen_app, !le16_2, Lr. lia. }
    set (l := division_oracle _ _ ++ _ ++ r) in *. assert (El : l = le16 e1 ++ le16 e2 ++ r) by (unfold l; cbn -[r]; rewrite ?app_nil_r; reflexivity).
    assert (Ll : zlen l = e1 + e2 + 8) by (rewrite El, !zlen_app, !le16_2; lia).
    assert (F0 : Fv = 0) by (unfold limit in FV; cbn in FV; lia). unfold avail in FT. rewrite Ll in FT. change (min_total [(2, -1); (2, -1)]) with 8 in FT.
    assert (FU' : Fu = e1 + e2) by lia. subst Fv Fu. clear FV FT.
    destruct FU as [FL FF]. unfold unb_weights in *. change (of_kind unb [(2, -1); (2, -1)] [e1; e2]) with [e1; e2] in *.
    assert (EU : eu = [e1; e2]).
    { unfold weights in *. cbn [sum fold_right] in FL, FF. rewrite Z.add_0_r in *. destruct (e1 + e2 =? 0) eqn:Z0.
      - cbn [map length] in FL. destruct eu as [|x1 [|x2 [|x3 eu]]]; try discriminate FL. pose proof (FF 1%nat) as G1. pose proof (FF 2%nat) as G2.
        cbn [firstn sum fold_right map] in G1, G2. assert (x1 = 0) by lia. assert (x2 = 0) by lia. f_equal; [lia|f_equal; lia].
      - cbn [map length] in FL. destruct eu as [|x1 [|x2 [|x3 eu]]]; try discriminate FL. pose proof (FF 1%nat) as G1. pose proof (FF 2%nat) as G2.
        cbn [firstn sum fold_right map] in G1, G2. assert (x1 = e1) by nia. assert (x2 = e2) by nia. subst. reflexivity. }
    subst eu. apply (cuts_transfer _ _ b l [c1; c2] [] (sim_set_extract _)).
    - rewrite El. exact Hb.
    - etransitivity; [exact E|]. change (sizes [(2, -1); (2, -1)] ev [e1; e2]) with [e1 + 2; e2 + 2].
      assert (r = concat [c1; c2] ++ []) as -> by (unfold r; cbn [concat]; rewrite !app_nil_r; reflexivity).
      apply chop_all_run; [apply Forall_cons; [lia|apply Forall_cons; [lia|constructor]]|]. cbn [map]. rewrite L1, L2. reflexivity.
  Qed.

  Lemma split_range a1 b1 a2 b2 n : a1 <= b1 -> a2 <= b2 -> a1 + a2 <= n <= b1 + b2 -> exists x y, n = x + y /\ a1 <= x <= b1 /\ a2 <= y <= b2.
  Proof. intros H1 H2 H. destruct (Z_le_gt_dec (n - a2) b1); [exists (n - a2), a2|exists b1, (n - b1)]; lia. Qed.

  Lemma operators_nonneg f : 0 <= operators f.
  Proof. induction f; cbn [operators]; lia. Qed.

  Lemma pick_reach y s r : In y (lot_members (zz_lot ops)) -> report h y s -> fits (zlen r) s -> zlen r < 2 ^ 31 ->
    (leaves_little (zlen r) s \/ zlen r < 8 /\ s = (1, 1)) ->
    exists c, forall b, holds b (c :: r) -> exists b', holds b' r /\ ExtractStr h stamp_lot b = ExtractStr h y b'.
  Proof.
    intros Y R F Hr O.
    destruct (C31_reach h 0 (zz_lot ops) _ (zz_sizes ops) y s r zz_heap_leaves eq_refl zz_built zz_reports zz_sane) as (front & Lf & G);
      [pose proof zz_sizes_len; lia|intros _; exact Hr|exact Y|exact R|exact F| |].
    { intros _. destruct O as [O|[O ->]]; [left; exact O|]. destruct (Z_lt_le_dec (zlen r) 2) as [C|C]; [left; right; cbn [fst snd]; lia|right].
      unfold zz_sizes, fits, leaves_little. cbn [app]. repeat (apply Forall_cons; [cbn [fst snd]; lia|]). apply Forall_forall. intros q Hi. apply in_map_iff in Hi as (x & <- & _).
      cbn [fst snd]. lia. }
    change (oracle_size (lot_nums (zz_lot ops))) with 1 in Lf. destruct front as [|c [|c2 front]];
      [change (@zlen byte []) with 0 in Lf; lia| |rewrite !zlen_cons in Lf; pose proof (zlen_nonneg front); lia].
    exists c. exact G.
  Qed.

  Lemma zz_reach : forall f, proper ops f -> forall n, 7 * operators f + 2 <= n <= 13 * operators f + 8 -> n <= 65537 ->
    exists d, zlen d = n /\ forall b, holds b d -> exists s, fst (ExtractStr h stamp_lot b) = Ok s /\ written f s.
  Proof.
    induction f as [v|w|op f1 IH1 f2 IH2]; intros P n Hl Hm; cbn [proper operators] in P, Hl.
    - destruct (C06_every_value UChar v ltac:(repeat split; discriminate) P) as (q & Q). destruct (some_bytes (n - 2) ltac:(lia)) as (x & Lx).
      assert (Lq : zlen q = 1) by (destruct Q as [Q _]; exact Q).
      destruct (pick_reach (XLeaf (sizeof UChar) (sizeof UChar) (ArithExtractStr UChar)) (1, 1) (q ++ x)) as (c & G);
        [left; reflexivity|split; reflexivity|unfold fits; cbn [fst]; rewrite zlen_app; lia|rewrite zlen_app; lia|right; rewrite zlen_app; split; [lia|reflexivity]|].
      exists (c :: q ++ x). split; [rewrite zlen_cons, zlen_app; lia|]. intros b Hb. destruct (G b Hb) as (b' & Hb' & E).
      destruct (C07_decimal UChar b' q x v ltac:(repeat split; discriminate) ltac:(discriminate) ltac:(discriminate) Q Hb') as (s & (b2 & E2 & _) & S).
      exists s. split; [|constructor; exact S]. rewrite E. unfold ExtractStr. rewrite extract_leaf, E2. reflexivity.
    - apply In_nth_error in P as (i & Pi). destruct (C13_reachable DictLCAlphaSmall i w ltac:(change (zlen DictLCAlphaSmall) with 254; lia) Pi) as (q & Lq & Q).
      change (DictMinSize DictLCAlphaSmall) with 1 in Lq. destruct (some_bytes (n - 2) ltac:(lia)) as (x & Lx).
      destruct (pick_reach (XLeaf (DictMinSize DictLCAlphaSmall) (DictMaxSize DictLCAlphaSmall) (DictExtractStr DictLCAlphaSmall)) (1, 1) (q ++ x)) as (c & G);
        [right; left; reflexivity|split; reflexivity|unfold fits; cbn [fst]; rewrite zlen_app; lia|rewrite zlen_app; lia|right; rewrite zlen_app; split; [lia|reflexivity]|].
      exists (c :: q ++ x). split; [rewrite zlen_cons, zlen_app; lia|]. intros b Hb. destruct (G b Hb) as (b' & Hb' & E).
      destruct (Q b' x Hb') as (b2 & E2 & _). exists w. split; [|constructor]. rewrite E. unfold ExtractStr. rewrite extract_leaf, E2. reflexivity.
    - destruct P as (Po & P1 & P2). pose proof (operators_nonneg f1). pose proof (operators_nonneg f2).
      destruct (split_range (7 * operators f1 + 2) (13 * operators f1 + 8) (7 * operators f2 + 2) (13 * operators f2 + 8) (n - 5)) as (n1 & n2 & En & R1 & R2); [lia|lia|lia|].
      destruct (IH1 P1 n1 R1 ltac:(lia)) as (d1 & L1 & G1). destruct (IH2 P2 n2 R2 ltac:(lia)) as (d2 & L2 & G2).
      set (r := le16 (n1 - 2) ++ le16 (n2 - 2) ++ d1 ++ d2). assert (Lr : zlen r = n - 1) by (unfold r; rewrite !zlen_app, !le16_2; lia).
      destruct (pick_reach (bin op) (8, -1) r) as (c & G); [apply in_or_app; right; apply in_map; exact Po|split; reflexivity|unfold fits; cbn [fst]; lia|lia|left; left; reflexivity|].
      exists (c :: r). split; [rewrite zlen_cons; lia|]. intros b Hb. destruct (G b Hb) as (b' & Hb' & E). unfold r in Hb'.
      destruct (pair_reach (n1 - 2) (n2 - 2) d1 d2 b') as (cs & b2 & E2 & Wc & Ec & Hb2); [lia|lia|lia|lia|exact Hb'|].
      destruct cs as [|k1 [|k2 [|k3 cs]]]; try discriminate Ec. cbn [map] in Ec. injection Ec as Q1 Q2.
      destruct (G1 k1 (conj (Forall_inv Wc) Q1)) as (s1 & S1 & T1). destruct (G2 k2 (conj (Forall_inv (Forall_inv_tail Wc)) Q2)) as (s2 & S2 & T2).
      eexists. split; [|constructor; eassumption]. rewrite E.
      assert (X : ExtractStr h (bin op) b' = (Ok (lit "(" ++ s1 ++ lit " " ++ op ++ lit " " ++ s2 ++ lit ")"), b2)).
      { apply (binary_iff h op stamp_lot stamp_lot b' _ b2 zz_lot_graph zz_lot_graph (proj1 Hb')). exists 2, (-1), 2, (-1), k1, k2, s1, s2. repeat split; assumption. }
      rewrite X. reflexivity.
  Qed.
End Heap.

(** ** Reading a formula *)
Definition stops (t : bytes) : Prop := match t with [] => True | c :: _ => separator c end.
Definition solid (s : bytes) : Prop := Forall (fun c => ~ separator c) s.

Lemma solid_end s1 : forall s2 t1 t2, solid s1 -> solid s2 -> stops t1 -> stops t2 -> s1 ++ t1 = s2 ++ t2 -> s1 = s2 /\ t1 = t2.
Proof.
  induction s1 as [|a s1 IH]; intros s2 t1 t2 S1 S2 T1 T2 E.
  - destruct s2 as [|c s2]; [split; [reflexivity|exact E]|]. cbn [app] in E. subst t1. cbn in T1. pose proof (Forall_inv S2). contradiction.
  - destruct s2 as [|c s2]; [cbn [app] in E; subst t2; cbn in T2; pose proof (Forall_inv S1); contradiction|]. cbn [app] in E. injection E as <- E.
    destruct (IH s2 t1 t2 (Forall_inv_tail S1) (Forall_inv_tail S2) T1 T2 E) as [-> ->]. split; reflexivity.
Qed.

Lemma digits_solid s : forall acc n, read_digits acc s = Some n -> Forall (fun c => 48 <= bval c <= 57) s.
Proof.
  induction s as [|c s IH]; intros acc n E; [constructor|]. cbn [read_digits] in E. unfold digit_of in E.
  destruct ((48 <=? bval c) && (bval c <=? 57)) eqn:D; [|discriminate E]. constructor; [lia|]. exact (IH _ _ E).
Qed.

Lemma nat_chars s n : read_nat s = Some n -> s <> [] /\ Forall (fun c => 48 <= bval c <= 57) s.
Proof.
  destruct s as [|c s]; [discriminate|]. intros E. split; [discriminate|]. unfold read_nat in E.
  destruct ((bval c =? 48) && _); [discriminate E|]. exact (digits_solid _ _ _ E).
Qed.

Lemma int_chars s n : read_int s = Some n -> s <> [] /\ Forall (fun c => bval c = 45 \/ 48 <= bval c <= 57) s.
Proof.
  destruct s as [|c s]; [discriminate|]. intros E. split; [discriminate|]. unfold read_int in E. destruct (bval c =? 45) eqn:D.
  - destruct (read_nat s) as [k|] eqn:N; [|discriminate E]. destruct (nat_chars s k N) as [_ F]. constructor; [lia|].
    eapply Forall_impl; [|exact F]. cbv beta. intros; lia.
  - destruct (nat_chars _ _ E) as [_ F]. eapply Forall_impl; [|exact F]. cbv beta. intros; lia.
Qed.

Lemma word_chars w : In w DictLCAlphaSmall -> w <> [] /\ Forall (fun c => 97 <= bval c) w.
Proof.
  intros H. destruct C15_words as (F & _). rewrite Forall_forall in F. destruct (F w H) as [H1 H2]. split; [exact H1|].
  eapply Forall_impl; [|exact H2]. unfold lower_case. cbv beta. intros; lia.
Qed.

Lemma num_solid s n : read_int s = Some n -> solid s.
Proof. intros E. destruct (int_chars s n E) as [_ F]. eapply Forall_impl; [|exact F]. unfold separator. cbv beta. intros; lia. Qed.
Lemma word_solid w : In w DictLCAlphaSmall -> solid w.
Proof. intros E. destruct (word_chars w E) as [_ F]. eapply Forall_impl; [|exact F]. unfold separator. cbv beta. intros; lia. Qed.

Lemma first_open s : solid s -> s <> [] -> forall t u, s ++ t <> lit "(" ++ u.
Proof. intros S N t u E. destruct s as [|c s]; [congruence|]. cbn in E. injection E as -> _. apply (Forall_inv S). right. left. reflexivity. Qed.

Lemma sep_stops c t : separator c -> stops (c :: t). Proof. intros H. exact H. Qed.

Lemma read_formula ops : Forall op_name ops -> forall f1 s1, written f1 s1 -> proper ops f1 -> forall f2 s2, written f2 s2 -> proper ops f2 ->
  forall t1 t2, stops t1 -> stops t2 -> s1 ++ t1 = s2 ++ t2 -> f1 = f2 /\ s1 = s2 /\ t1 = t2.
Proof.
  intros HO f1 s1 W1. induction W1 as [n s E|w|op l r s1 s2 Wl IHl Wr IHr]; intros P1 f2 s2' W2 P2 t1 t2 T1 T2 EQ.
  - destruct (int_chars s n E) as [Ne Fc]. inversion W2 as [n2 s' E2|w2|op2 l2 r2 a1 a2 V1 V2]; subst; cbn [proper] in P2.
    + destruct (solid_end _ _ _ _ (num_solid _ _ E) (num_solid _ _ E2) T1 T2 EQ) as [-> ->]. split; [congruence|]. split; reflexivity.
    + destruct (solid_end _ _ _ _ (num_solid _ _ E) (word_solid _ P2) T1 T2 EQ) as [<- _]. destruct (word_chars s P2) as [_ Fw]. destruct s as [|c s]; [congruence|].
      pose proof (Forall_inv Fc) as A. pose proof (Forall_inv Fw) as B. cbv beta in A, B. lia.
    + rewrite <- app_assoc in EQ. destruct (first_open s (num_solid _ _ E) Ne _ _ EQ).
  - cbn [proper] in P1. destruct (word_chars w P1) as [Ne Fw]. inversion W2 as [n2 s' E2|w2|op2 l2 r2 a1 a2 V1 V2]; subst; cbn [proper] in P2.
    + destruct (solid_end _ _ _ _ (word_solid _ P1) (num_solid _ _ E2) T1 T2 EQ) as [<- _]. destruct (int_chars w _ E2) as [_ Fc]. destruct w as [|c w]; [congruence|].
      pose proof (Forall_inv Fc) as A. pose proof (Forall_inv Fw) as B. cbv beta in A, B. lia.
    + destruct (solid_end _ _ _ _ (word_solid _ P1) (word_solid _ P2) T1 T2 EQ) as [-> ->]. repeat split.
    + rewrite <- app_assoc in EQ. destruct (first_open w (word_solid _ P1) Ne _ _ EQ).
  - cbn [proper] in P1. destruct P1 as (Po & Pl & Pr). inversion W2 as [n2 s' E2|w2|op2 l2 r2 a1 a2 V1 V2]; subst; cbn [proper] in P2.
    + symmetry in EQ. rewrite <- app_assoc in EQ. destruct (first_open s2' (num_solid _ _ E2) (proj1 (int_chars _ _ E2)) _ _ EQ).
    + symmetry in EQ. rewrite <- app_assoc in EQ. destruct (first_open s2' (word_solid _ P2) (proj1 (word_chars _ P2)) _ _ EQ).
    + destruct P2 as (Po2 & Pl2 & Pr2). rewrite <- !app_assoc in EQ. apply app_inv_head in EQ.
      assert (S32 : forall u, stops (lit " " ++ u)) by (intros u; left; reflexivity).
      assert (S41 : forall u, stops (lit ")" ++ u)) by (intros u; right; right; reflexivity).
      destruct (IHl Pl l2 a1 V1 Pl2 _ _ (S32 _) (S32 _) EQ) as (<- & <- & EQ2). apply app_inv_head in EQ2.
      rewrite Forall_forall in HO.
      destruct (solid_end op op2 _ _ (HO op Po) (HO op2 Po2) (S32 _) (S32 _) EQ2) as [<- EQ3]. apply app_inv_head in EQ3.
      destruct (IHr Pr r2 a2 V2 Pr2 _ _ (S41 _) (S41 _) EQ3) as (<- & <- & EQ4). apply app_inv_head in EQ4. subst. repeat split.
Qed.

(** ** The program *)
Lemma strlen_run pre : forall post, Forall (fun c => bval c <> 0) pre -> strlen (pre ++ x00 :: post) = Ok (zlen pre).
Proof.
  induction pre as [|c pre IH]; intros post F; [reflexivity|]. cbn [app strlen]. pose proof (Forall_inv F) as N. cbv beta in N.
  destruct (bval c =? 0) eqn:E; [lia|]. rewrite (IH post (Forall_inv_tail F)). cbn [rbind]. rewrite zlen_cons. reflexivity.
Qed.

Lemma slice_pre (pre post : bytes) i : 0 <= i <= zlen pre -> slice (pre ++ post) 0 i = firstn (Z.to_nat i) pre.
Proof.
  intros H. unfold slice. cbn [Z.to_nat skipn]. rewrite firstn_app. unfold zlen in H.
  replace (Z.to_nat i - length pre)%nat with O by lia. apply app_nil_r.
Qed.

Lemma zz_loop_run ops pre post : ops <> [] -> zlen ops <= 252 -> Forall (fun c => bval c <> 0) pre -> zlen pre < 2 ^ 31 - 1 ->
  zlen (pre ++ x00 :: post) < 2 ^ 63 ->
  forall k i, 2 <= i < 2 ^ 31 -> k = Z.to_nat (zlen pre + 1 - i) -> forall n, (k < n)%nat ->
  exists lines, zz_loop n (zz_heap ops) (pre ++ x00 :: post) i = Ok lines
    /\ map fst lines = map Z.of_nat (seq (Z.to_nat i) k)
    /\ Forall (fun p => exists f, proper ops f /\ written f (snd p) /\ 7 * operators f + 2 <= fst p <= 13 * operators f + 8) lines.
Proof.
  intros Hn Hs F Hp Hm. induction k as [|k IH]; intros i Hi Ek [|n] Kn; try lia; cbn [zz_loop]; rewrite (strlen_run pre post F); cbn [rbind].
  - rewrite u64_id by lia. destruct (i <=? zlen pre) eqn:E; [lia|]. exists []. repeat split; constructor.
  - rewrite u64_id by lia. destruct (i <=? zlen pre) eqn:E; [|lia]. set (b := newBlob _ _ i).
    assert (Hl : 0 + i <= zlen (pre ++ x00 :: post) < 2 ^ 63) by (rewrite zlen_app, zlen_cons in *; pose proof (zlen_nonneg post); lia).
    assert (Hb : holds b (firstn (Z.to_nat i) pre)).
    { split; [apply newBlob_wf; lia|]. unfold b. rewrite newBlob_content by lia. apply slice_pre. lia. }
    assert (Lf : zlen (firstn (Z.to_nat i) pre) = i) by (unfold zlen in *; rewrite firstn_length; lia).
    destruct (zz_writes ops Hn Hs (S (Z.to_nat i)) b _ Hb ltac:(lia) ltac:(lia) ltac:(lia)) as (f & s & rest & (b' & R & _) & P & W & B & _).
    rewrite R. cbn [fst rbind]. rewrite int_op_ok by lia. cbn [rbind].
    destruct (IH (i + 1) ltac:(lia) ltac:(lia) n ltac:(lia)) as (lines & L1 & L2 & L3). rewrite L1. cbn [rbind].
    exists ((i, s) :: lines). split; [reflexivity|]. split.
    + cbn [map fst seq]. rewrite L2, Z2Nat.id by lia. replace (Z.to_nat (i + 1)) with (S (Z.to_nat i)) by lia. reflexivity.
    + constructor; [|exact L3]. exists f. cbn [fst snd]. split; [exact P|]. split; [exact W|]. lia.
Qed.
