(** Proofs for C69 and C70. *)
From Verif Require Import Base BaseFacts Blob BlobSpec BlobFacts RunSpec RunFacts Sim ArithSpec Fmt Arithm ArithFacts LocalSpec LocalFacts
  StampText TextSpec TextFacts StampDict Galley Stamps Prop_Arithm Prop_Vector Prop_Text Prop_Dict Formula FormulaSpec FormulaFacts Pulp TermSpec ContractSpec NeedSpec NeedFacts NeedFacts
  LoadSpec LoadFacts VectorFacts PointsFacts TestStamps FrontSpec FrontFacts BlindSpec BlindFacts Readme UserSpec.

(** ** Bytes up to a NUL *)
Lemma c_str_until d : until_nul d (c_str d).
Proof.
  induction d as [|c d [I1 I2]]; cbn [c_str]; [split; [constructor|left; reflexivity]|]. destruct (bval c =? 0) eqn:E.
  - split; [constructor|]. right. exists d. cbn [app]. f_equal. apply bval_inj. apply Z.eqb_eq in E. rewrite E. reflexivity.
  - split; [constructor; [apply Z.eqb_neq; exact E|exact I1]|]. destruct I2 as [I2|(r & I2)]; [left; congruence|right; exists r; cbn [app]; congruence].
Qed.
Lemma until_unique d s t : until_nul d s -> until_nul d t -> s = t.
Proof.
  revert s t. induction d as [|c d IH]; intros s t [S1 S2] [T1 T2].
  - destruct S2 as [<-|(r & S2)]; [|destruct s; discriminate S2]. destruct T2 as [<-|(r & T2)]; [reflexivity|destruct t; discriminate T2].
  - assert (K : forall s, Forall (fun c => bval c <> 0) s -> (c :: d = s \/ exists r, c :: d = s ++ x00 :: r) ->
      (s = [] /\ bval c = 0) \/ exists s', s = c :: s' /\ bval c <> 0 /\ until_nul d s').
    { clear. intros s S1 S2. destruct s as [|c' s].
      - left. destruct S2 as [S2|(r & S2)]; [discriminate|]. injection S2 as -> _. split; reflexivity.
      - right. inversion S1 as [|? ? N S3]; subst. exists s. destruct S2 as [S2|(r & S2)]; injection S2 as -> ->; (split; [reflexivity|]; split; [exact N|]; split; [exact S3|]); eauto. }
    destruct (K s S1 S2) as [[-> E]|(s' & -> & N & U)], (K t T1 T2) as [[-> E']|(t' & -> & N' & U')]; try congruence. f_equal. apply IH; assumption.
Qed.

Lemma chars_run mn mx b d : 0 < mn <= mx -> mx < 2 ^ 63 -> holds b d -> mn <= zlen d ->
  let k := Z.to_nat (Z.min mx (zlen d)) in runs (CharsExtractStr mn mx) b (Ok (c_str (firstn k d))) (skipn k d).
Proof.
  intros Hm Hx Hb Hl. cbv zeta. pose proof (holds_small b d Hb). unfold CharsExtractStr, Chop2. unfold runs, bind at 1. cbv beta.
  change (Size b) with (blobSize b). rewrite (holds_size _ _ Hb). assert (U1 : u64 mn = mn) by (apply u64_id; lia). assert (U2 : u64 mx = mx) by (apply u64_id; lia).
  rewrite U1, U2. replace (zlen d <? mn) with false by lia.
  set (k := if mx <=? zlen d then mx else zlen d). assert (Ek : k = Z.min mx (zlen d)) by (unfold k; destruct (mx <=? zlen d) eqn:E; lia).
  assert (EC : (if mx <=? zlen d then Chop mx b else Chop (zlen d) b) = blobChop k b) by (unfold k; destruct (mx <=? zlen d); reflexivity).
  rewrite EC. destruct (chop_ok b k (proj1 Hb)) as (c & b' & E & Wc & Wb & Cc & Cb); [rewrite (proj2 Hb); lia|]. rewrite E. cbv iota beta.
  rewrite (proj2 Hb) in Cc, Cb. rewrite <- Ek. exists b'. split; [|split; assumption]. unfold bind, lift.
  change (AsByteVector c) with (blobAsByteVector c). rewrite (AsByteVector_nonempty c Wc).
  - rewrite Cc. reflexivity.
  - intros N. rewrite N in Cc. apply (f_equal (@zlen byte)) in Cc. rewrite zlen_firstn in Cc by lia. change (zlen (@nil byte)) with 0 in Cc. lia.
Qed.
Lemma chars_short mn mx b d : 0 < mn <= mx -> mx < 2 ^ 63 -> holds b d -> zlen d < mn -> runs (CharsExtractStr mn mx) b OutOfData d.
Proof.
  intros Hm Hx Hb Hl. exists b. split; [|exact Hb]. unfold CharsExtractStr. apply bind_ood. unfold Chop2. change (Size b) with (blobSize b). rewrite (holds_size _ _ Hb).
  rewrite (u64_id mn) by lia. replace (zlen d <? mn) with true by lia. reflexivity.
Qed.

(** ** Contracts *)
Lemma bl_chars mn mx : 0 < mn <= mx -> mx < 2 ^ 63 -> be (CharsExtractStr (B := blob) mn mx).
Proof.
  intros Hm Hx. assert (U1 : u64 mn = mn) by (apply u64_id; lia). assert (U2 : u64 mx = mx) by (apply u64_id; lia).
  apply (bl_ext eq _ (fun b => (if Size b <? mn then lift OutOfData else (c <- Chop (if mx <=? Size b then mx else Size b) ;; v <- lift (AsByteVector c) ;; ret (c_str v))) b)).
  { intros b. unfold CharsExtractStr, bind at 1, Chop2. rewrite U1, U2. destruct (Size b <? mn); [reflexivity|]. destruct (mx <=? Size b); reflexivity. }
  assert (K : forall z, be (if z <? mn then lift OutOfData else (c <- Chop (B := blob) (if mx <=? z then mx else z) ;; v <- lift (AsByteVector c) ;; ret (c_str v)))).
  { intros z. destruct (z <? mn) eqn:Q; [apply bl_lift|]. apply bl_chop_bytes; [destruct (mx <=? z); lia|]. intros v. apply bl_reteq. }
  apply (bl_sized eq (fun b => if Size b <? mn then lift OutOfData else (c <- Chop (if mx <=? Size b then mx else Size b) ;; v <- lift (AsByteVector c) ;; ret (c_str v)))
    (fun b => if Size b <? mn then lift OutOfData else (c <- Chop (if mx <=? Size b then mx else Size b) ;; v <- lift (AsByteVector c) ;; ret (c_str v)))).
  - intros b. exact (proj1 (K (Size b))).
  - intros b b2 ->. apply K.
Qed.
Lemma be_local {A} (f : M blob A) : be f -> local f.
Proof.
  intros [T H] b1 b2 W1 W2 E. destruct (T b1 W1) as [W FU]. destruct (further_content _ _ W1 W FU) as (t & Et).
  destruct (H b1 b2 t (content (snd (f b1))) (content (snd (f b1)))) as [R [_ R2]]; [split; assumption|split; [exact W2|congruence]|reflexivity|reflexivity|].
  apply res_rel_eq in R. split; [exact R|symmetry; exact R2].
Qed.
Lemma tf_tame (ex : M blob bytes) : takes_front ex -> (forall b, wf b -> fst (ex b) <> Diverge) -> tame ex.
Proof.
  intros T D b Hb. destruct (T b Hb) as [W FU]. split; [exact (D b Hb)|]. split; [exact W|]. destruct (further_content _ _ Hb W FU) as (t & Et).
  rewrite (holds_size b (content b) (conj Hb eq_refl)), (holds_size (snd (ex b)) _ (conj W eq_refl)), Et, zlen_app. pose proof (zlen_nonneg t). lia.
Qed.

(** ** Complex numbers *)
Definition complex_str (c : complex_short) : bytes := fmt_int (c_re c) ++ lit " + " ++ fmt_int (c_im c) ++ lit "i".
Lemma complex_str_text c : complex_text c (complex_str c).
Proof. exists (fmt_int (c_re c)), (fmt_int (c_im c)). rewrite !read_int_fmt. repeat split. Qed.
Lemma complex_text_str c s : complex_text c s -> s = complex_str c.
Proof. intros (x & y & -> & Hx & Hy). unfold complex_str. rewrite (read_int_unique _ _ Hx), (read_int_unique _ _ Hy). reflexivity. Qed.
Lemma complex_data_len c d : complex_data c d -> zlen d = 4.
Proof. intros (x & y & -> & Hx & Hy). rewrite !zlen_app, (short_len _ _ Hx), (short_len _ _ Hy). reflexivity. Qed.
Lemma complex_ex d : zlen d = 4 -> exists c, complex_data c d.
Proof.
  intros H. destruct (list_split d 2 ltac:(lia)) as (x & y & -> & Lx). rewrite zlen_app in H.
  destruct (short_ex x Lx) as (vx & Rx & _). destruct (short_ex y ltac:(lia)) as (vy & Ry & _).
  exists (mkComplex vx vy), x, y. split; [reflexivity|]. split; assumption.
Qed.
Lemma complex_bytes_data c d : complex_data c d -> complex_bytes c = d.
Proof. intros (x & y & -> & Hx & Hy). unfold complex_bytes. rewrite (short_encode _ _ Hx), (short_encode _ _ Hy). reflexivity. Qed.
Lemma complex_value b c d rest : complex_data c d -> holds b (d ++ rest) -> runs ComplexExtractValue b (Ok c) rest.
Proof.
  intros (x & y & -> & Hx & Hy) Hb. rewrite <- !app_assoc in Hb. unfold ComplexExtractValue.
  eapply runs_bind; [exact (short_val _ _ _ _ Hx Hb)|]. intros b1 H1. eapply runs_bind; [exact (short_val _ _ _ _ Hy H1)|]. intros b2 H2.
  destruct c. apply runs_ret. exact H2.
Qed.
Lemma complex_string b c d rest : complex_data c d -> holds b (d ++ rest) -> runs ComplexExtractStr b (Ok (complex_str c)) rest.
Proof.
  intros (x & y & -> & Hx & Hy) Hb. rewrite <- !app_assoc in Hb. unfold ComplexExtractStr.
  eapply runs_bind; [exact (short_str _ _ _ _ Hx Hb)|]. intros b1 H1. eapply runs_bind; [exact (short_str _ _ _ _ Hy H1)|]. intros b2 H2.
  apply runs_ret. exact H2.
Qed.

(** Fixed-size galley on data given as chunks of [k] bytes. *)
Lemma fixed_cut k (V : Type) (data : V -> bytes -> Prop) A (ex : M blob A) (val : V -> A) b vs ds rest : 0 < k < 2 ^ 31 -> (forall v d, data v d -> zlen d = k) ->
  (forall b v d, data v d -> holds b d -> fst (ex b) = Ok (val v)) -> Forall2 data vs ds -> ds <> [] -> zlen rest < k -> holds b (concat ds ++ rest) ->
  runs (ExtractVector k k ex) b (Ok (map val vs)) rest.
Proof.
  intros Hk HL HE F N L Hb. assert (Fk : Forall (fun d => zlen d = k) ds) by (clear - F HL; induction F; constructor; eauto).
  assert (Ln : k <= zlen (concat ds ++ rest)).
  { destruct ds as [|d ds]; [congruence|]. cbn [concat]. rewrite !zlen_app. pose proof (Forall_inv Fk) as Q. cbv beta in Q. rewrite Q.
    pose proof (zlen_nonneg (concat ds)). pose proof (zlen_nonneg rest). lia. }
  destruct (C17_fixed k b _ Hk Hb Ln) as (cs & r & C & E & F' & _ & Lr). assert (Lr' : zlen r < k) by (rewrite Lr; apply Z.mod_pos_bound; lia).
  assert (U : cs = ds /\ r = rest).
  { clear - E F' Fk L Lr' Hk. symmetry in E. revert ds Fk E. induction F' as [|c cs Hc F' IH]; intros [|d ds] Fk E; cbn [concat app] in E.
    - split; [reflexivity|exact E].
    - subst r. pose proof (Forall_inv Fk) as Q. cbv beta in Q. rewrite <- app_assoc, zlen_app in Lr'. pose proof (zlen_nonneg (concat ds ++ rest)). lia.
    - subst rest. rewrite <- app_assoc, zlen_app in L. pose proof (zlen_nonneg (concat cs ++ r)). lia.
    - rewrite <- !app_assoc in E. pose proof (Forall_inv Fk) as Q. cbv beta in Q.
      assert (c = d /\ concat cs ++ r = concat ds ++ rest) as [<- E2].
      { destruct (app_eq_app _ _ _ _ E) as (m & [[-> ->]|[-> ->]]); rewrite zlen_app in *; destruct m; rewrite ?app_nil_r; try (split; reflexivity);
          unfold zlen in *; cbn [length] in *; lia. }
      destruct (IH ds (Forall_inv_tail Fk) E2) as [-> ->]. split; reflexivity. }
  destruct U as [-> ->]. destruct C as (bs & b' & E' & W & Ec & Wb & Lb).
  exists b'. split; [|split; assumption]. unfold ExtractVector. rewrite (bind_ok _ _ _ _ _ E'). unfold lift. f_equal.
  clear - HE F W Ec. revert vs ds F Ec. induction W as [|c cs H W IH]; intros vs ds F Ec; subst ds.
  - inversion F. reflexivity.
  - cbn [map] in F. inversion F as [|v d vs' ds' P F']; subst. cbn [stamp_each map]. rewrite (HE c v (content c) P (conj H eq_refl)). cbn [rbind].
    rewrite (IH vs' (map content cs) F' eq_refl). reflexivity.
Qed.

(** Reading the array. *)
Lemma numeral_end s n : read_int s = Some n -> forall t1 s2 n2 t2, read_int s2 = Some n2 ->
  (forall c u, t1 = c :: u -> bval c <> 45 /\ ~ 48 <= bval c <= 57) -> (forall c u, t2 = c :: u -> bval c <> 45 /\ ~ 48 <= bval c <= 57) ->
  s ++ t1 = s2 ++ t2 -> n = n2 /\ t1 = t2.
Proof.
  intros E t1 s2 n2 t2 E2 S1 S2 Q. destruct (int_chars s n E) as [_ F1]. destruct (int_chars s2 n2 E2) as [_ F2].
  assert (K : s = s2 /\ t1 = t2).
  { clear E E2. revert s2 F2 Q. induction s as [|c s IH]; intros [|c2 s2] F2 Q; cbn [app] in Q.
    - split; [reflexivity|exact Q].
    - specialize (S1 c2 (s2 ++ t2) Q). pose proof (Forall_inv F2). cbv beta in *. lia.
    - symmetry in Q. specialize (S2 c (s ++ t1) Q). pose proof (Forall_inv F1). cbv beta in *. lia.
    - injection Q as <- Q. destruct (IH (Forall_inv_tail F1) s2 (Forall_inv_tail F2) Q) as [-> ->]. split; reflexivity. }
  destruct K as [<- ->]. split; [congruence|reflexivity].
Qed.
Lemma read_complex c q t1 t2 : complex_str c ++ t1 = complex_str q ++ t2 -> c = q /\ t1 = t2.
Proof.
  unfold complex_str. rewrite <- !app_assoc. intros E.
  assert (C : forall u ch w, lit " + " ++ u = ch :: w -> bval ch <> 45 /\ ~ 48 <= bval ch <= 57).
  { intros u ch w Q. injection Q as <- _. split; [discriminate|]. change (bval x20) with 32. lia. }
  assert (D : forall u ch w, lit "i" ++ u = ch :: w -> bval ch <> 45 /\ ~ 48 <= bval ch <= 57).
  { intros u ch w Q. injection Q as <- _. split; [discriminate|]. change (bval x69) with 105. lia. }
  destruct (numeral_end _ _ (read_int_fmt _) _ _ _ _ (read_int_fmt _) (C _) (C _) E) as [Ex E1]. apply app_inv_head in E1.
  destruct (numeral_end _ _ (read_int_fmt _) _ _ _ _ (read_int_fmt _) (D _) (D _) E1) as [Ey E2]. apply app_inv_head in E2.
  split; [destruct c as [a1 a2], q as [b1 b2]; cbn [c_re c_im] in *; congruence|exact E2].
Qed.
Lemma read_array : forall ps qs, separated (lit ", ") (map complex_str ps) ++ lit "]" = separated (lit ", ") (map complex_str qs) ++ lit "]" -> ps = qs.
Proof.
  set (sep := lit ", ").
  assert (K : forall ps qs, concat (map (fun s => sep ++ s) (map complex_str ps)) ++ lit "]" = concat (map (fun s => sep ++ s) (map complex_str qs)) ++ lit "]" -> ps = qs).
  { induction ps as [|p ps IH]; intros [|q qs] E; cbn [map concat app] in E.
    - reflexivity.
    - unfold sep in E. cbn in E. discriminate E.
    - unfold sep in E. cbn in E. discriminate E.
    - rewrite <- !app_assoc in E. apply app_inv_head in E. destruct (read_complex _ _ _ _ E) as [-> E2]. f_equal. exact (IH qs E2). }
  assert (Z : forall p l, separated sep (map complex_str (p :: l)) ++ lit "]" <> lit "]").
  { intros p l E. cbn [map] in E. rewrite separated_cons, <- !app_assoc in E. unfold complex_str in E.
    destruct (int_chars (fmt_int (c_re p)) _ (read_int_fmt _)) as [Ne F]. destruct (fmt_int (c_re p)) as [|ch u]; [congruence|].
    rewrite <- !app_assoc in E. injection E as -> _. pose proof (Forall_inv F) as Q. cbv beta in Q. change (bval x5d) with 93 in Q. lia. }
  intros [|p ps] [|q qs] E; [reflexivity|symmetry in E; destruct (Z _ _ E)|destruct (Z _ _ E)|]. cbn [map] in E. rewrite !separated_cons in E.
  rewrite <- !app_assoc in E. destruct (read_complex _ _ _ _ E) as [-> E2]. f_equal. exact (K ps qs E2).
Qed.
Lemma array_text_str cs s : complex_array_text cs s <-> s = lit "[" ++ separated (lit ", ") (map complex_str cs) ++ lit "]".
Proof.
  split.
  - intros (texts & F & ->). assert (texts = map complex_str cs) as ->; [|reflexivity].
    induction F; [reflexivity|]. cbn [map]. f_equal; [apply complex_text_str; assumption|assumption].
  - intros ->. exists (map complex_str cs). split; [|reflexivity]. induction cs; constructor; [apply complex_str_text|assumption].
Qed.

(** ** Greedy stamps in turn *)
Lemma appetite_nonneg mn mx n : 0 < mn -> mx = -1 \/ mn <= mx -> 0 <= n -> 0 <= appetite mx n <= n.
Proof. intros H1 H2 H3. unfold appetite. destruct (mx =? -1) eqn:E; lia. Qed.
Lemma max_sum_cons {A} (s : Z * Z * M blob A) l : max_sum (s :: l) = snd (fst s) + max_sum l. Proof. reflexivity. Qed.
Lemma max_sum_nonneg {A} (l : list (Z * Z * M blob A)) : Forall greedy_stamp l -> Forall limited l -> 0 <= max_sum l.
Proof.
  induction 1 as [|s l (P1 & P2 & _) F IH]; intros G; [reflexivity|]. inversion G as [|? ? G1 G2]; subst. specialize (IH G2). rewrite max_sum_cons. unfold limited in G1. lia.
Qed.
Lemma Forall_front {A} (P : A -> Prop) i : forall l, Forall P l -> Forall P (firstn i l).
Proof. induction i as [|i IH]; intros l F; [constructor|]. destruct F; [constructor|]. cbn [firstn]. constructor; auto. Qed.
Lemma skipn_skipn_Z (d : bytes) a c : 0 <= a -> 0 <= c -> skipn (Z.to_nat c) (skipn (Z.to_nat a) d) = skipn (Z.to_nat (a + c)) d.
Proof. intros. rewrite skipn_skipn. f_equal. lia. Qed.

Lemma turn_enough {A} : forall (front : list (Z * Z * M blob A)) last, Forall greedy_stamp (front ++ [last]) -> Forall limited front ->
  forall b d, holds b d -> max_sum front + fst (fst last) <= zlen d ->
  exists vs, runs (in_turn (map snd (front ++ [last]))) b (Ok vs) (skipn (Z.to_nat (max_sum front + appetite (snd (fst last)) (zlen d - max_sum front))) d)
    /\ length vs = length (front ++ [last])
    /\ forall i s v, nth_error (front ++ [last]) i = Some s -> nth_error vs i = Some v ->
         exists bi, holds bi (skipn (Z.to_nat (max_sum (firstn i front))) d) /\ fst (snd s bi) = Ok v.
Proof.
  induction front as [|s front IH]; intros last G L b d Hb Hl.
  - change (max_sum (@nil (Z * Z * M blob A))) with 0 in *. inversion G as [|? ? (P1 & P2 & P3) _]; subst. rewrite Z.sub_0_r. cbn [app map in_turn].
    destruct (proj2 (P3 b d Hb)) as (v & R); [lia|]. exists [v]. split; [|split; [reflexivity|]].
    + eapply runs_bind; [exact R|]. intros b1 H1. cbn [in_turn]. eapply runs_bind; [apply runs_ret; exact H1|]. intros b2 H2. apply runs_ret. exact H2.
    + intros [|i] t u E1 E2; cbn [nth_error] in *; [|destruct i; discriminate]. injection E1 as <-. injection E2 as <-. exists b. cbn [firstn]. split; [exact Hb|].
      destruct R as (b' & R & _). rewrite R. reflexivity.
  - cbn [app] in *. inversion G as [|? ? (P1 & P2 & P3) G2]; subst. inversion L as [|? ? L1 L2]; subst. unfold limited in L1. rewrite max_sum_cons in *.
    pose proof (max_sum_nonneg front (proj1 (proj1 (Forall_app _ _ _) G2)) L2). pose proof (proj2 (proj1 (Forall_app _ _ _) G2)) as Gl. inversion Gl as [|? ? (Q1 & Q2 & Q3) _]; subst.
    destruct (proj2 (P3 b d Hb)) as (v & R); [lia|]. assert (Ea : appetite (snd (fst s)) (zlen d) = snd (fst s)) by (unfold appetite; destruct (_ =? -1) eqn:E; lia).
    rewrite Ea in R. pose proof R as (b1 & E1 & H1). set (d1 := skipn (Z.to_nat (snd (fst s))) d) in *.
    assert (Ld : zlen d1 = zlen d - snd (fst s)) by (unfold d1; apply zlen_skipn; lia).
    destruct (IH last G2 L2 b1 d1 H1) as (vs & (b2 & E2 & H2) & Lv & N); [lia|].
    exists (v :: vs). split; [|split; [cbn [length]; congruence|]].
    + exists b2. split.
      * cbn [map in_turn]. rewrite (bind_ok _ _ _ _ _ E1), (bind_ok _ _ _ _ _ E2). reflexivity.
      * assert (Q : skipn (Z.to_nat (max_sum front + appetite (snd (fst last)) (zlen d1 - max_sum front))) d1
          = skipn (Z.to_nat (snd (fst s) + max_sum front + appetite (snd (fst last)) (zlen d - (snd (fst s) + max_sum front)))) d).
        { unfold d1. replace (zlen (skipn _ d) - max_sum front) with (zlen d - (snd (fst s) + max_sum front)) by (unfold d1 in Ld; lia).
          rewrite skipn_skipn_Z; [f_equal; lia|lia|]. pose proof (appetite_nonneg _ (snd (fst last)) (zlen d - (snd (fst s) + max_sum front)) Q1 Q2 ltac:(lia)). lia. }
        rewrite <- Q. exact H2.
    + intros [|i] t u N1 N2; cbn [nth_error] in *.
      * injection N1 as <-. injection N2 as <-. exists b. cbn [firstn]. split; [exact Hb|]. rewrite E1. reflexivity.
      * destruct (N i t u N1 N2) as (bi & Hbi & Ebi). exists bi. split; [|exact Ebi]. cbn [firstn]. rewrite max_sum_cons. unfold d1 in Hbi. rewrite skipn_skipn_Z in Hbi; [exact Hbi|lia|].
        apply max_sum_nonneg; apply Forall_front; [exact (proj1 (proj1 (Forall_app _ _ _) G2))|exact L2].
Qed.
Lemma turn_starved {A} : forall (front : list (Z * Z * M blob A)) last, Forall greedy_stamp (front ++ [last]) ->
  forall b d, holds b d -> ~ (Forall limited front /\ max_sum front + fst (fst last) <= zlen d) ->
  exists rest, runs (in_turn (map snd (front ++ [last]))) b OutOfData rest.
Proof.
  induction front as [|s front IH]; intros last G b d Hb Hn.
  - inversion G as [|? ? (P1 & P2 & P3) _]; subst. destruct (proj1 (P3 b d Hb)) as (rest & R).
    { change (max_sum (@nil (Z * Z * M blob A))) with 0 in Hn. destruct (Z_lt_ge_dec (zlen d) (fst (fst last))); [assumption|]. destruct Hn. split; [constructor|lia]. }
    exists rest. cbn [app map in_turn]. apply runs_bind_ood. exact R.
  - cbn [app map in_turn] in *. inversion G as [|? ? (P1 & P2 & P3) G2]; subst.
    destruct (Z_lt_ge_dec (zlen d) (fst (fst s))) as [C|C].
    { destruct (proj1 (P3 b d Hb) C) as (rest & R). exists rest. apply runs_bind_ood. exact R. }
    destruct (proj2 (P3 b d Hb)) as (v & (b1 & E1 & H1)); [lia|].
    pose proof (appetite_nonneg _ _ (zlen d) P1 P2 (zlen_nonneg d)) as Hap.
    destruct (IH last G2 b1 _ H1) as (rest & (b2 & E2 & H2)).
    { rewrite zlen_skipn by lia. intros [L2 Hm]. pose proof (proj2 (proj1 (Forall_app _ _ _) G2)) as Gl. inversion Gl as [|? ? (Q1 & _) _]; subst.
      pose proof (max_sum_nonneg front (proj1 (proj1 (Forall_app _ _ _) G2)) L2). unfold appetite in Hm. destruct (snd (fst s) =? -1) eqn:E; [lia|]. apply Hn. split.
      - constructor; [unfold limited; lia|exact L2].
      - rewrite max_sum_cons. lia. }
    exists rest, b2. split; [|exact H2]. rewrite (bind_ok _ _ _ _ _ E1). apply bind_ood. exact E2.
Qed.

(** ** Which stamps are greedy *)
Lemma front_rest {A} (f : M blob A) b d r rest : takes_front f -> holds b d -> runs f b r rest -> rest = skipn (Z.to_nat (zlen d - zlen rest)) d.
Proof.
  intros T [Hw Hc] (b' & E & W & C). destruct (T b Hw) as [_ FU]. rewrite E in FU. destruct (further_content _ _ Hw W FU) as (t & Et). cbn [snd] in Et.
  rewrite <- Hc, Et, C, zlen_app. replace (Z.to_nat (zlen t + zlen rest - zlen rest)) with (length t) by (unfold zlen; lia).
  rewrite skipn_app, skipn_all, Nat.sub_diag. reflexivity.
Qed.
Lemma exact_greedy k (ex : M blob bytes) : 0 < k -> takes_front ex -> strict k ex -> exact_take k ex -> greedy_stamp (k, k, ex).
Proof.
  intros Hk T S X. split; [exact Hk|]. split; [right; cbn; lia|]. intros b d Hb. cbn [fst snd]. split; [exact (S b d Hb)|].
  intros L. destruct (X b d Hb L) as (v & rest & R & Lr). exists v. pose proof (front_rest ex b d _ rest T Hb R) as Q. rewrite Lr in Q.
  unfold appetite. replace (k =? -1) with false by lia. replace (Z.min k (zlen d)) with (zlen d - (zlen d - k)) by lia. rewrite <- Q. exact R.
Qed.
Lemma arith_greedy t : t <> LDouble -> greedy_stamp (sizeof t, sizeof t, ArithExtractStr t).
Proof.
  intros Ht. apply exact_greedy; [pose proof (sizeof_range t); lia|apply tf_arith| |apply arith_take; exact Ht].
  intros b d Hb L. rewrite <- width_sizeof in L. exists d. exact (proj1 (proj2 (proj2 (C06_short t b d Hb L)))).
Qed.
Lemma dict_greedy d : d <> [] -> zlen d <= 2 ^ 53 -> greedy_stamp (DictMinSize d, DictMaxSize d, DictExtractStr d).
Proof.
  intros Hd Hs. destruct (C14_width d) as (W1 & W2 & W3 & ->). apply exact_greedy.
  - destruct (Z_le_gt_dec (zlen d) 256); [lia|]. destruct (Z_le_gt_dec (zlen d) 65536); lia.
  - apply tf_dict.
  - intros b l Hb L. exists l. exact (C12_short d b l Hb L).
  - apply dict_take; assumption.
Qed.
Lemma text_greedy (ex : M blob bytes) : (forall b, holds b [] -> runs ex b OutOfData []) -> (forall b d, holds b d -> d <> [] -> exists s, runs ex b (Ok s) []) -> greedy_stamp (1, -1, ex).
Proof.
  intros E N. split; [reflexivity|]. split; [left; reflexivity|]. intros b d Hb. cbn [fst snd]. pose proof (zlen_nonneg d). split.
  - intros L. assert (d = []) as -> by (apply zlen_0_nil; lia). exists []. exact (E b Hb).
  - intros L. destruct (N b d Hb) as (s & R); [intros ->; change (zlen (@nil byte)) with 0 in L; lia|]. exists s. change (appetite (-1) (zlen d)) with (zlen d).
    replace (Z.to_nat (zlen d)) with (length d) by (unfold zlen; lia). rewrite skipn_all. exact R.
Qed.
Lemma chars_greedy mn mx : 0 < mn <= mx -> mx < 2 ^ 63 -> greedy_stamp (mn, mx, CharsExtractStr mn mx).
Proof.
  intros Hm Hx. split; [cbn; lia|]. split; [right; cbn; lia|]. intros b d Hb. cbn [fst snd]. split.
  - intros L. exists d. apply chars_short; assumption.
  - intros L. eexists. unfold appetite. replace (mx =? -1) with false by lia. exact (chars_run mn mx b d Hm Hx Hb L).
Qed.
Lemma complex_greedy : greedy_stamp (ComplexMinSize, ComplexMaxSize, ComplexExtractStr (B := blob)) /\ greedy_stamp (ComplexMinSize, ComplexMaxSize, ComplexExtractValue (B := blob)).
Proof.
  change ComplexMinSize with 4. change ComplexMaxSize with 4.
  assert (P : forall b d, holds b d -> 4 <= zlen d -> exists c f r, d = f ++ r /\ complex_data c f /\ r = skipn (Z.to_nat (appetite 4 (zlen d))) d).
  { intros b d Hb L. destruct (list_split d 4 ltac:(lia)) as (f & r & -> & Lf). destruct (complex_ex f Lf) as (c & C). exists c, f, r. split; [reflexivity|]. split; [exact C|].
    change (appetite 4 (zlen (f ++ r))) with (Z.min 4 (zlen (f ++ r))). rewrite zlen_app in L |- *. pose proof (zlen_nonneg r). replace (Z.min 4 (zlen f + zlen r)) with (zlen f) by lia. replace (Z.to_nat (zlen f)) with (length f) by (unfold zlen; lia).
    rewrite skipn_app, skipn_all, Nat.sub_diag. reflexivity. }
  split; (split; [reflexivity|]; split; [right; cbn; lia|]; intros b d Hb; cbn [fst snd]; split;
    [intros L|intros L; destruct (P b d Hb L) as (c & f & r & E & C & <-); rewrite E in Hb; eexists; first [exact (complex_string b c f r C Hb)|exact (complex_value b c f r C Hb)]]).
  - destruct (Z_lt_ge_dec (zlen d) 2) as [C|C].
    + exists d. apply runs_bind_ood. exact (proj1 (proj2 (short_fail b d Hb C))).
    + destruct (short_split b d Hb ltac:(lia)) as (v & r & rest & -> & Lr & R). exists rest. rewrite zlen_app in L.
      eapply runs_bind; [exact (short_str _ _ _ _ R Hb)|]. intros b1 H1. apply runs_bind_ood. exact (proj1 (proj2 (short_fail b1 rest H1 ltac:(lia)))).
  - destruct (Z_lt_ge_dec (zlen d) 2) as [C|C].
    + exists d. apply runs_bind_ood. exact (proj1 (short_fail b d Hb C)).
    + destruct (short_split b d Hb ltac:(lia)) as (v & r & rest & -> & Lr & R). exists rest. rewrite zlen_app in L.
      eapply runs_bind; [exact (short_val _ _ _ _ R Hb)|]. intros b1 H1. apply runs_bind_ood. exact (proj1 (short_fail b1 rest H1 ltac:(lia))).
Qed.

(** Chunks of complex numbers. *)
Lemma complex_chunks b d : holds b d -> 4 <= zlen d -> exists cs ds rest, d = concat ds ++ rest /\ Forall2 complex_data cs ds /\ ds <> [] /\ zlen rest < 4 /\ zlen cs = zlen d / 4 /\ zlen rest = zlen d mod 4.
Proof.
  intros Hb L. destruct (C17_fixed 4 b d ltac:(lia) Hb L) as (ds & r & _ & E & F & Lc & Lr).
  assert (X : exists cs, Forall2 complex_data cs ds).
  { clear - F. induction F as [|x l Hx F [cs I]]; [exists []; constructor|]. destruct (complex_ex x Hx) as (c & C). exists (c :: cs). constructor; assumption. }
  destruct X as (cs & X). exists cs, ds, r. assert (E2 : zlen cs = zlen ds) by (clear - X; induction X; [reflexivity|]; rewrite !zlen_cons; congruence).
  repeat split; try assumption.
  - intros ->. cbn [concat app] in E. subst r. pose proof (Z.mod_pos_bound (zlen d) 4). lia.
  - pose proof (Z.mod_pos_bound (zlen d) 4). lia.
  - congruence.
Qed.
Lemma complex_str_nonempty c : complex_str c <> [].
Proof. unfold complex_str. intros E. apply app_eq_nil in E as [_ E]. discriminate E. Qed.
Lemma complex_array_run b cs ds rest : Forall2 complex_data cs ds -> ds <> [] -> zlen rest < 4 -> holds b (concat ds ++ rest) ->
  runs ArrayOfComplexExtractStr b (Ok (lit "[" ++ separated (lit ", ") (map complex_str cs) ++ lit "]")) rest
  /\ runs (ExtractVector ComplexMinSize ComplexMaxSize ComplexExtractValue) b (Ok cs) rest.
Proof.
  intros F N L Hb. change ComplexMinSize with 4. change ComplexMaxSize with 4. split.
  - unfold ArrayOfComplexExtractStr. eapply runs_bind.
    + apply (fixed_cut 4 _ complex_data _ ComplexExtractStr complex_str b cs ds rest); try assumption; [lia|exact complex_data_len|].
      intros b0 v d0 C H0. rewrite <- (app_nil_r d0) in H0. destruct (complex_string b0 v d0 [] C H0) as (b' & E & _). rewrite E. reflexivity.
    + intros b1 H1. rewrite join_spec, drop_empty_id; [apply runs_ret; exact H1|]. rewrite Forall_map, Forall_forall. intros c _. apply complex_str_nonempty.
  - rewrite <- (map_id cs). apply (fixed_cut 4 _ complex_data _ ComplexExtractValue (fun c => c) b cs ds rest); try assumption; [lia|exact complex_data_len|].
    intros b0 v d0 C H0. rewrite <- (app_nil_r d0) in H0. destruct (complex_value b0 v d0 [] C H0) as (b' & E & _). rewrite E. reflexivity.
Qed.
