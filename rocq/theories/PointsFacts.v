(** Points and lines of examples/example01.cpp to example08.cpp. *)
From Verif Require Import Base BaseFacts Blob BlobSpec BlobFacts RunSpec RunFacts Sim ArithSpec Fmt Arithm ArithFacts LocalSpec LocalFacts Prop_Locality
  StampText TextSpec TextFacts Galley Stamps StampsEq LoadSpec LoadFacts Prop_Load Prop_Arithm VectorFacts Prop_Vector
  Formula FormulaSpec FormulaFacts Points PointsSpec.
Local Open Scope Z_scope.

(** ** Sequences of calls *)
Lemma runs_bind {A C} (f : M blob A) (g : A -> M blob C) b a l r rest :
  runs f b (Ok a) l -> (forall b', holds b' l -> runs (g a) b' r rest) -> runs (bind f g) b r rest.
Proof.
  intros (b' & E & W & L) G. destruct (G b' (conj W L)) as (b2 & E2 & W2 & L2). exists b2. split; [|split; assumption].
  rewrite (bind_ok _ _ _ _ _ E). exact E2.
Qed.
Lemma runs_bind_ood {A C} (f : M blob A) (g : A -> M blob C) b rest : runs f b OutOfData rest -> runs (bind f g) b OutOfData rest.
Proof. intros (b' & E & W). exists b'. split; [exact (bind_ood _ _ _ _ E)|exact W]. Qed.
Lemma runs_ret {A} (a : A) b l : holds b l -> runs (ret a) b (Ok a) l.
Proof. intros [W L]. exists b. repeat split; assumption. Qed.
Lemma runs_fst {A} (f : M blob A) b r rest : runs f b r rest -> fst (f b) = r.
Proof. intros (b' & E & _). rewrite E. reflexivity. Qed.

Lemma short_int : int_type Short. Proof. repeat split; discriminate. Qed.
Lemma short_str b v r rest : represents Short v r -> holds b (r ++ rest) -> runs (ArithExtractStr Short) b (Ok (fmt_int v)) rest.
Proof.
  intros R Hb. destruct (C07_decimal Short b r rest v short_int ltac:(discriminate) ltac:(discriminate) R Hb) as (s & E & S).
  rewrite (read_int_unique _ _ S) in E. exact E.
Qed.
Lemma short_val b v r rest : represents Short v r -> holds b (r ++ rest) -> runs (ExtractValue Short) b (Ok v) rest.
Proof. intros R Hb. exact (C06_round_trip Short b v r rest short_int R Hb). Qed.
Lemma short_bin b v r rest : represents Short v r -> holds b (r ++ rest) ->
  runs (ArithExtractBin Short) b (Ok r) rest /\ runs (ArithExtractPValue Short) b (Ok (r, 2)) rest.
Proof.
  intros R Hb. pose proof (represents_decode _ _ _ R) as D. assert (E : encode Short v = r).
  { rewrite <- D. apply encode_decode. destruct R as [R _]. exact R. }
  split; unfold ArithExtractBin, ArithExtractPValue; eapply runs_bind; try exact (short_val b v r rest R Hb); intros b' Hb'; rewrite E; apply runs_ret; exact Hb'.
Qed.
Lemma short_ex d : zlen d = 2 -> exists v, represents Short v d /\ -32768 <= v <= 32767.
Proof. intros H. exists (decode Short d). exact (decode_bits Short d H). Qed.
Lemma short_len v r : represents Short v r -> zlen r = 2. Proof. intros [H _]. exact H. Qed.

(** ** Points *)
Definition point_str (p : Point3D) : bytes := lit "(" ++ fmt_int (pX p) ++ lit ", " ++ fmt_int (pY p) ++ lit ", " ++ fmt_int (pZ p) ++ lit ")".

Lemma point_str_text p : point_text p (point_str p).
Proof. exists (fmt_int (pX p)), (fmt_int (pY p)), (fmt_int (pZ p)). rewrite !read_int_fmt. repeat split. Qed.
Lemma point_text_str p s : point_text p s -> s = point_str p.
Proof.
  intros (x & y & z & -> & Hx & Hy & Hz). unfold point_str. rewrite (read_int_unique _ _ Hx), (read_int_unique _ _ Hy), (read_int_unique _ _ Hz). reflexivity.
Qed.

Lemma point_data_len p d : point_data p d -> zlen d = 6.
Proof. intros (x & y & z & -> & Hx & Hy & Hz). rewrite !zlen_app, (short_len _ _ Hx), (short_len _ _ Hy), (short_len _ _ Hz). reflexivity. Qed.

Lemma point_ex d : zlen d = 6 -> exists p, point_data p d /\ short_point p.
Proof.
  intros H. destruct (list_split d 2 ltac:(lia)) as (x & t & -> & Lx). rewrite zlen_app in H. destruct (list_split t 2 ltac:(lia)) as (y & z & -> & Ly).
  rewrite zlen_app in H. destruct (short_ex x Lx) as (vx & Rx & Bx). destruct (short_ex y Ly) as (vy & Ry & By). destruct (short_ex z ltac:(lia)) as (vz & Rz & Bz).
  exists (mkPoint vx vy vz). split; [exists x, y, z; repeat split; assumption || apply Rx || apply Ry || apply Rz|]. repeat split; cbn [pX pY pZ]; lia.
Qed.

Lemma point_inj p q d : point_data p d -> point_data q d -> p = q.
Proof.
  intros (x & y & z & E & Hx & Hy & Hz) (x' & y' & z' & E' & Hx' & Hy' & Hz'). rewrite E in E'.
  pose proof (short_len _ _ Hx). pose proof (short_len _ _ Hy). pose proof (short_len _ _ Hx'). pose proof (short_len _ _ Hy'). unfold zlen in *.
  assert (length x = length x') by lia. assert (length y = length y') by lia.
  destruct (app_eq_app x (y ++ z) x' (y' ++ z') E') as (l & Q).
  assert (x = x' /\ y ++ z = y' ++ z') as [-> E2].
  { destruct Q as [[-> ->]|[-> ->]]; rewrite app_length in *; destruct l; cbn [length] in *; try lia; rewrite ?app_nil_r; split; reflexivity. }
  destruct (app_eq_app y z y' z' E2) as (l' & Q').
  assert (y = y' /\ z = z') as [-> ->].
  { destruct Q' as [[-> ->]|[-> ->]]; rewrite app_length in *; destruct l'; cbn [length] in *; try lia; rewrite ?app_nil_r; split; reflexivity. }
  destruct p as [a1 a2 a3], q as [q1 q2 q3]. cbn [pX pY pZ] in *. f_equal; eapply represents_inj; eassumption.
Qed.

Lemma point_value b p d rest : point_data p d -> holds b (d ++ rest) -> runs PointExtractValue b (Ok p) rest.
Proof.
  intros (x & y & z & -> & Hx & Hy & Hz) Hb. rewrite <- !app_assoc in Hb. unfold PointExtractValue.
  eapply runs_bind; [exact (short_val _ _ _ _ Hx Hb)|]. intros b1 H1. eapply runs_bind; [exact (short_val _ _ _ _ Hy H1)|]. intros b2 H2.
  eapply runs_bind; [exact (short_val _ _ _ _ Hz H2)|]. intros b3 H3. destruct p as [a1 a2 a3]. apply runs_ret. exact H3.
Qed.
Lemma point_string b p d rest : point_data p d -> holds b (d ++ rest) -> runs PointExtractStr b (Ok (point_str p)) rest.
Proof.
  intros (x & y & z & -> & Hx & Hy & Hz) Hb. rewrite <- !app_assoc in Hb. unfold PointExtractStr.
  eapply runs_bind; [exact (short_str _ _ _ _ Hx Hb)|]. intros b1 H1. eapply runs_bind; [exact (short_str _ _ _ _ Hy H1)|]. intros b2 H2.
  eapply runs_bind; [exact (short_str _ _ _ _ Hz H2)|]. intros b3 H3. apply runs_ret. exact H3.
Qed.

Lemma short_encode v r : represents Short v r -> encode Short v = r.
Proof. intros R. rewrite <- (represents_decode _ _ _ R). apply encode_decode. destruct R as [R _]. exact R. Qed.
Lemma point_bytes_data p d : point_data p d -> point_bytes p = d.
Proof. intros (x & y & z & -> & Hx & Hy & Hz). unfold point_bytes. rewrite (short_encode _ _ Hx), (short_encode _ _ Hy), (short_encode _ _ Hz). reflexivity. Qed.

(** Too few bytes: the coordinates that are there are consumed. *)
Lemma short_split b l : holds b l -> 2 <= zlen l -> exists v r rest, l = r ++ rest /\ zlen r = 2 /\ represents Short v r.
Proof. intros Hb H. destruct (list_split l 2 ltac:(lia)) as (r & rest & -> & L). destruct (short_ex r L) as (v & R & _). exists v, r, rest. repeat split; try assumption; apply R. Qed.

Lemma short_fail b l : holds b l -> zlen l < 2 -> runs (ExtractValue Short) b OutOfData l /\ runs (ArithExtractStr Short) b OutOfData l
  /\ runs (ArithExtractBin Short) b OutOfData l /\ runs (ArithExtractPValue Short) b OutOfData l.
Proof. intros Hb H. destruct (C06_short Short b l Hb H) as (H1 & H2 & H3 & H4). repeat split; assumption. Qed.

Lemma skip_pairs (r rest : bytes) : zlen r = 2 -> skipn (Z.to_nat (2 * (zlen (r ++ rest) / 2))) (r ++ rest) = skipn (Z.to_nat (2 * (zlen rest / 2))) rest.
Proof.
  intros H. rewrite zlen_app, H. replace (2 + zlen rest) with (1 * 2 + zlen rest) by lia. rewrite Z.div_add_l by lia.
  pose proof (zlen_nonneg rest). assert (0 <= zlen rest / 2) by (apply Z.div_pos; lia).
  destruct r as [|c1 [|c2 [|c3 r]]]; unfold zlen in H; cbn [length] in H; try lia. replace (Z.to_nat (2 * (1 + zlen rest / 2))) with (S (S (Z.to_nat (2 * (zlen rest / 2))))) by lia.
  reflexivity.
Qed.
Lemma skip_less (l : bytes) : zlen l < 2 -> skipn (Z.to_nat (2 * (zlen l / 2))) l = l.
Proof. intros H. pose proof (zlen_nonneg l). rewrite Z.div_small by lia. reflexivity. Qed.

Lemma point_short b l : holds b l -> zlen l < 6 ->
  let rest := skipn (Z.to_nat (2 * (zlen l / 2))) l in
  runs PointExtractValue b OutOfData rest /\ runs PointExtractStr b OutOfData rest.
Proof.
  intros Hb H. cbv zeta. unfold PointExtractValue, PointExtractStr.
  destruct (Z_lt_le_dec (zlen l) 2) as [C|C].
  { rewrite skip_less by exact C. destruct (short_fail b l Hb C) as (F1 & F2 & _). split; apply runs_bind_ood; assumption. }
  destruct (short_split b l Hb C) as (v & r & l1 & -> & Lr & R). rewrite skip_pairs by exact Lr. rewrite zlen_app in H.
  assert (K : forall b1, holds b1 l1 -> runs (y <- ExtractValue Short;; z <- ExtractValue Short;; ret (mkPoint v y z)) b1 OutOfData (skipn (Z.to_nat (2 * (zlen l1 / 2))) l1)
    /\ forall s, runs (y <- ArithExtractStr Short;; z <- ArithExtractStr Short;; ret (lit "(" ++ s ++ lit ", " ++ y ++ lit ", " ++ z ++ lit ")")) b1 OutOfData (skipn (Z.to_nat (2 * (zlen l1 / 2))) l1)).
  { intros b1 H1. destruct (Z_lt_le_dec (zlen l1) 2) as [C1|C1].
    { rewrite skip_less by exact C1. destruct (short_fail b1 l1 H1 C1) as (F1 & F2 & _). split; [|intros s]; apply runs_bind_ood; assumption. }
    destruct (short_split b1 l1 H1 C1) as (v1 & r1 & l2 & -> & Lr1 & R1). rewrite skip_pairs by exact Lr1. rewrite zlen_app in H.
    assert (K2 : forall b2, holds b2 l2 -> runs (ExtractValue Short) b2 OutOfData (skipn (Z.to_nat (2 * (zlen l2 / 2))) l2) /\ runs (ArithExtractStr Short) b2 OutOfData (skipn (Z.to_nat (2 * (zlen l2 / 2))) l2)).
    { intros b2 H2. rewrite skip_less by lia. destruct (short_fail b2 l2 H2 ltac:(lia)) as (F1 & F2 & _). split; assumption. }
    split; [|intros s].
    - eapply runs_bind; [exact (short_val _ _ _ _ R1 H1)|]. intros b2 H2. apply runs_bind_ood. apply K2. exact H2.
    - eapply runs_bind; [exact (short_str _ _ _ _ R1 H1)|]. intros b2 H2. apply runs_bind_ood. apply K2. exact H2. }
  split.
  - eapply runs_bind; [exact (short_val _ _ _ _ R Hb)|]. intros b1 H1. apply K. exact H1.
  - eapply runs_bind; [exact (short_str _ _ _ _ R Hb)|]. intros b1 H1. apply K. exact H1.
Qed.

(** ** Lists of points *)
Lemma points_ex ds : Forall (fun d : bytes => zlen d = 6) ds -> exists ps, Forall2 point_data ps ds /\ Forall short_point ps.
Proof.
  induction ds as [|d ds IH]; intros F; [exists []; split; constructor|]. destruct (IH (Forall_inv_tail F)) as (ps & F1 & F2).
  destruct (point_ex d (Forall_inv F)) as (p & P1 & P2). exists (p :: ps). split; constructor; assumption.
Qed.

(** The fixed-size galley on data given as chunks. *)
Lemma chunks_unique (cs1 : list bytes) : forall cs2 r1 r2, Forall (fun c => zlen c = 6) cs1 -> Forall (fun c => zlen c = 6) cs2 ->
  zlen r1 < 6 -> zlen r2 < 6 -> concat cs1 ++ r1 = concat cs2 ++ r2 -> cs1 = cs2 /\ r1 = r2.
Proof.
  induction cs1 as [|c cs1 IH]; intros [|d cs2] r1 r2 F1 F2 L1 L2 E; cbn [concat app] in E.
  - split; [reflexivity|exact E].
  - subst r1. pose proof (Forall_inv F2) as L. cbv beta in L. rewrite <- app_assoc, zlen_app in L1. pose proof (zlen_nonneg (concat cs2 ++ r2)). lia.
  - subst r2. pose proof (Forall_inv F1) as L. cbv beta in L. rewrite <- app_assoc, zlen_app in L2. pose proof (zlen_nonneg (concat cs1 ++ r1)). lia.
  - rewrite <- !app_assoc in E. pose proof (Forall_inv F1) as La. pose proof (Forall_inv F2) as Lb. cbv beta in La, Lb.
    assert (c = d /\ concat cs1 ++ r1 = concat cs2 ++ r2) as [<- E2].
    { destruct (app_eq_app _ _ _ _ E) as (k & [[-> ->]|[-> ->]]); rewrite zlen_app in *; destruct k; rewrite ?app_nil_r; try (split; reflexivity);
        unfold zlen in *; cbn [length] in *; lia. }
    destruct (IH cs2 r1 r2 (Forall_inv_tail F1) (Forall_inv_tail F2) L1 L2 E2) as [-> ->]. split; reflexivity.
Qed.

Lemma points_cut b ds rest : Forall (fun d => zlen d = 6) ds -> ds <> [] -> zlen rest < 6 -> holds b (concat ds ++ rest) ->
  cuts (vector_extract PointMinSize PointMaxSize) b ds rest.
Proof.
  intros F N L Hb. assert (Ln : 6 <= zlen (concat ds ++ rest)).
  { destruct ds as [|d ds]; [congruence|]. cbn [concat]. rewrite !zlen_app. pose proof (Forall_inv F) as Q. cbv beta in Q. rewrite Q.
    pose proof (zlen_nonneg (concat ds)). pose proof (zlen_nonneg rest). lia. }
  destruct (C17_fixed 6 b _ ltac:(lia) Hb Ln) as (cs & r & C & E & F' & _ & Lr).
  assert (zlen r < 6) by (rewrite Lr; apply Z.mod_pos_bound; lia). symmetry in E. destruct (chunks_unique cs ds r rest F' F H L E) as [-> ->]. exact C.
Qed.

Lemma line_value A (ex : M blob A) (v : Point3D -> A) : (forall b p d, point_data p d -> holds b d -> fst (ex b) = Ok (v p)) ->
  forall b ps ds rest, Forall2 point_data ps ds -> ds <> [] -> zlen rest < 6 -> holds b (concat ds ++ rest) ->
  runs (ExtractVector PointMinSize PointMaxSize ex) b (Ok (map v ps)) rest.
Proof.
  intros He b ps ds rest F N L Hb.
  assert (F6 : Forall (fun d => zlen d = 6) ds) by (clear - F; induction F; constructor; [eapply point_data_len; eassumption|assumption]).
  destruct (points_cut b ds rest F6 N L Hb) as (cs & b' & E & W & Ec & Wb & Lb).
  exists b'. split; [|split; assumption]. unfold ExtractVector. rewrite (bind_ok _ _ _ _ _ E). unfold lift. f_equal.
  clear - He F W Ec. revert ps ds F Ec. induction W as [|c cs H W IH]; intros ps ds F Ec; subst ds.
  - inversion F. reflexivity.
  - cbn [map] in F. inversion F as [|p d ps' ds' P F']; subst. cbn [stamp_each map]. rewrite (He c p (content c) P (conj H eq_refl)). cbn [rbind].
    rewrite (IH ps' (map content cs) F' eq_refl). reflexivity.
Qed.

Lemma line_short A (ex : M blob A) b l : holds b l -> zlen l < 6 -> runs (ExtractVector PointMinSize PointMaxSize ex) b OutOfData l.
Proof. intros Hb H. apply runs_bind_ood. exact (C17_short 6 b l ltac:(lia) Hb H). Qed.

Lemma strs_run b ps ds rest : Forall2 point_data ps ds -> ds <> [] -> zlen rest < 6 -> holds b (concat ds ++ rest) -> runs PointStrVector b (Ok (map point_str ps)) rest.
Proof.
  apply line_value. intros b' p d P Hb. apply (runs_fst _ _ _ []). apply (point_string b' p d []); [exact P|]. rewrite app_nil_r. exact Hb.
Qed.
Lemma values_run b ps ds rest : Forall2 point_data ps ds -> ds <> [] -> zlen rest < 6 -> holds b (concat ds ++ rest) -> runs PointValuesVector b (Ok ps) rest.
Proof.
  intros F N L Hb. rewrite <- (map_id ps) at 1. revert F N L Hb. apply (line_value _ _ (fun p => p)). intros b' p d P Hb. apply (runs_fst _ _ _ []).
  apply (point_value b' p d []); [exact P|]. rewrite app_nil_r. exact Hb.
Qed.

Lemma poly_loop_join r data : poly_loop r data = fold_left (join_step (lit ", ")) data r.
Proof. revert r. induction data as [|s data IH]; intros r; cbn [poly_loop fold_left]; [reflexivity|]. rewrite IH. destruct r; cbn [join_step]; [reflexivity|]. rewrite <- ?app_assoc. reflexivity. Qed.

Lemma join_points sep ps : join_loop sep (map point_str ps) = separated sep (map point_str ps).
Proof. rewrite join_spec, drop_empty_id; [reflexivity|]. apply Forall_forall. intros s Hi. apply in_map_iff in Hi as (p & <- & _). discriminate. Qed.

Lemma texts_str ps texts : Forall2 point_text ps texts <-> texts = map point_str ps.
Proof.
  split.
  - intros F. induction F; [reflexivity|]. cbn [map]. f_equal; [apply point_text_str; assumption|assumption].
  - intros ->. induction ps; constructor; [apply point_str_text|assumption].
Qed.
Lemma line_text_str sep ps s : line_text sep ps s <-> s = lit "(" ++ separated sep (map point_str ps) ++ lit ")".
Proof.
  split.
  - intros (texts & F & ->). apply texts_str in F. subst. reflexivity.
  - intros ->. exists (map point_str ps). split; [apply texts_str; reflexivity|reflexivity].
Qed.

Lemma enum_is (b : blob) : PolyLineEnumExtractStr b = (l <- PointStrVector ;; ret (enum_text (lit ",") (lit "(") (lit ")") l)) b.
Proof. unfold PolyLineEnumExtractStr, PolyLineEnum, ExtractStr. rewrite extract_vec, extract_leaf. reflexivity. Qed.

(** ** Reading a line *)
Lemma sep_solid s n : read_int s = Some n -> forall t1 s2 n2 t2, read_int s2 = Some n2 ->
  (forall c u, t1 = c :: u -> bval c = 44 \/ bval c = 41) -> t1 <> [] -> (forall c u, t2 = c :: u -> bval c = 44 \/ bval c = 41) -> t2 <> [] ->
  s ++ t1 = s2 ++ t2 -> n = n2 /\ t1 = t2.
Proof.
  intros E t1 s2 n2 t2 E2 S1 N1 S2 N2 Q. destruct (int_chars s n E) as [_ F1]. destruct (int_chars s2 n2 E2) as [_ F2].
  assert (K : s = s2 /\ t1 = t2).
  { clear E E2. revert s2 F2 Q. induction s as [|c s IH]; intros [|c2 s2] F2 Q; cbn [app] in Q.
    - split; [reflexivity|exact Q].
    - specialize (S1 c2 (s2 ++ t2) Q). pose proof (Forall_inv F2). cbv beta in *. lia.
    - symmetry in Q. specialize (S2 c (s ++ t1) Q). pose proof (Forall_inv F1). cbv beta in *. lia.
    - injection Q as <- Q. destruct (IH (Forall_inv_tail F1) s2 (Forall_inv_tail F2) Q) as [-> ->]. split; reflexivity. }
  destruct K as [<- ->]. split; [congruence|reflexivity].
Qed.

Lemma read_point p q t1 t2 : point_str p ++ t1 = point_str q ++ t2 -> p = q /\ t1 = t2.
Proof.
  unfold point_str. rewrite <- !app_assoc. intros E. apply app_inv_head in E.
  assert (C : forall u c w, lit ", " ++ u = c :: w -> bval c = 44 \/ bval c = 41) by (intros u c w Q; injection Q as <- _; left; reflexivity).
  assert (D : forall u c w, lit ")" ++ u = c :: w -> bval c = 44 \/ bval c = 41) by (intros u c w Q; injection Q as <- _; right; reflexivity).
  destruct (sep_solid _ _ (read_int_fmt _) _ _ _ _ (read_int_fmt _) (C _) ltac:(discriminate) (C _) ltac:(discriminate) E) as [Ex E1]. apply app_inv_head in E1.
  destruct (sep_solid _ _ (read_int_fmt _) _ _ _ _ (read_int_fmt _) (C _) ltac:(discriminate) (C _) ltac:(discriminate) E1) as [Ey E2]. apply app_inv_head in E2.
  destruct (sep_solid _ _ (read_int_fmt _) _ _ _ _ (read_int_fmt _) (D _) ltac:(discriminate) (D _) ltac:(discriminate) E2) as [Ez E3]. apply app_inv_head in E3.
  split; [destruct p as [a1 a2 a3], q as [q1 q2 q3]; cbn [pX pY pZ] in *; congruence|exact E3].
Qed.

(** A separator that cannot be taken for the closing bracket. *)
Lemma read_line sep : (exists c r, sep = c :: r /\ bval c <> 41) -> forall ps qs,
  separated sep (map point_str ps) ++ lit ")" = separated sep (map point_str qs) ++ lit ")" -> ps = qs.
Proof.
  intros (c & r & -> & Hc). set (sep := c :: r).
  assert (K : forall ps qs, concat (map (fun s => sep ++ s) (map point_str ps)) ++ lit ")" = concat (map (fun s => sep ++ s) (map point_str qs)) ++ lit ")" -> ps = qs).
  { induction ps as [|p ps IH]; intros [|q qs] E; cbn [map concat app] in E.
    - reflexivity.
    - unfold sep in E. cbn in E. injection E as E _. subst c. destruct Hc. reflexivity.
    - unfold sep in E. cbn in E. injection E as E _. subst c. destruct Hc. reflexivity.
    - rewrite <- !app_assoc in E. apply app_inv_head in E. destruct (read_point _ _ _ _ E) as [-> E2]. f_equal. exact (IH qs E2). }
  intros [|p ps] [|q qs] E; cbn [map] in E; rewrite ?separated_cons in E; [reflexivity|discriminate E|discriminate E|].
  rewrite <- !app_assoc in E. destruct (read_point _ _ _ _ E) as [-> E2]. f_equal. exact (K ps qs E2).
Qed.

(** ** The programs *)
Lemma data_blob_ok pre post : Forall (fun c => bval c <> 0) pre -> zlen (pre ++ x00 :: post) < 2 ^ 63 ->
  exists b, data_blob (pre ++ x00 :: post) = Ok b /\ holds b pre.
Proof.
  intros F H. unfold data_blob. rewrite (strlen_run pre post F). cbn [rbind]. eexists. split; [reflexivity|].
  rewrite zlen_app, zlen_cons in H. pose proof (zlen_nonneg pre). pose proof (zlen_nonneg post).
  split; [apply newBlob_wf; rewrite ?zlen_app, ?zlen_cons; lia|]. rewrite newBlob_content by (rewrite ?zlen_app, ?zlen_cons; lia).
  rewrite slice_pre by lia. unfold zlen. rewrite Nat2Z.id. apply firstn_all.
Qed.

Lemma load_short_stamp s (st : loads blob) b r rest : zlen r = 2 -> holds b (r ++ rest) ->
  exists c, runs (LoadInto s 2 2 st) b (Ok (loads_set st s (Some c))) rest /\ holds c r.
Proof.
  intros L Hb. destruct (load_ok 2 2 b (r ++ rest)) as (c & b' & E & H1 & H2);
    [split; lia|exact Hb|rewrite zlen_app; pose proof (zlen_nonneg rest); lia|].
  assert (K : bite_size 2 (r ++ rest) = 2) by (unfold bite_size; cbn [Z.eqb]; rewrite zlen_app; pose proof (zlen_nonneg rest); lia). rewrite K in *.
  destruct r as [|c1 [|c2 [|c3 r]]]; unfold zlen in L; cbn [length] in L; try lia. cbn [app] in *. change (Z.to_nat 2) with 2%nat in *. cbn [firstn skipn] in *.
  exists c. split; [|exact H1]. exists b'. split; [|exact H2]. unfold LoadInto. rewrite (bind_ok _ _ _ _ _ E). reflexivity.
Qed.
Lemma load_fail s (st : loads blob) b l : holds b l -> zlen l < 2 -> runs (LoadInto s 2 2 st) b OutOfData l.
Proof. intros Hb H. exists b. split; [|exact Hb]. unfold LoadInto. apply bind_ood. apply (load_short 2 2 b l); [split; lia|exact Hb|exact H]. Qed.
