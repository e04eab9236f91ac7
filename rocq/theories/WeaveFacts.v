(** Proofs for C68. *)
From Verif Require Import Base BaseFacts Blob BlobSpec BlobFacts RunSpec RunFacts Sim FloatModel Oracle Arithm ArithFacts Galley Stamps StampsEq LocalSpec SimGraph LocalFacts
  ShrinkFacts LeafSpec TermSpec TermFacts NestFacts FrontSpec FrontFacts BlindSpec BlindFacts WeaveSpec.

Lemma weave_zlen gaps : forall parts parts2, same_lengths parts parts2 -> zlen (weave gaps parts2) = zlen (weave gaps parts).
Proof.
  unfold same_lengths. induction gaps as [|g gs IH]; intros parts parts2 E; [reflexivity|].
  destruct parts as [|p ps], parts2 as [|p2 ps2]; try discriminate E; [reflexivity|]. cbn [map] in E. injection E as E1 E2.
  cbn [weave]. rewrite !zlen_app, (IH _ _ E2). lia.
Qed.
Lemma same_lengths_length parts parts2 : same_lengths parts parts2 -> length parts2 = length parts.
Proof. intros E. apply (f_equal (@length Z)) in E. rewrite !map_length in E. exact E. Qed.

Definition fr (f : M blob (list blob)) : Prop :=
  forall b d cs b', holds b d -> f b = (Ok cs, b') -> Forall wf cs /\ wf b' /\
  exists gaps, length gaps = S (length cs) /\ d = weave gaps (map content cs) ++ content b' /\
    forall parts2 rest2 b2, same_lengths (map content cs) parts2 -> zlen rest2 = zlen (content b') ->
      holds b2 (weave gaps parts2 ++ rest2) -> cuts f b2 parts2 rest2.

Lemma fr_dbg f : fr f -> divides_by_gaps f.
Proof.
  intros H b d parts rest Hb (cs & b' & E & Wc & <- & Wb & <-). destruct (H b d cs b' Hb E) as (_ & _ & gaps & L & D & K).
  exists gaps. split; [split; [rewrite map_length; exact L|exact D]|]. intros d2 parts2 rest2 b2 [_ ->] S Z H2. exact (K parts2 rest2 b2 S Z H2).
Qed.

Lemma fr_fail (r : res (list blob)) : (forall a, r <> Ok a) -> fr (lift r).
Proof. intros H b d cs b' _ E. injection E as -> _. exfalso. exact (H cs eq_refl). Qed.
Lemma fr_nil : fr (ret []).
Proof.
  intros b d cs b' [Wb Cb] E. injection E as <- <-. split; [constructor|]. split; [exact Wb|]. exists [[]]. split; [reflexivity|].
  split; [cbn; congruence|]. intros parts2 rest2 b2 S _ [W2 C2]. destruct parts2; [|discriminate S].
  exists [], b2. repeat split; [constructor|exact W2|exact C2].
Qed.
Lemma fr_read {A} (f : M blob A) (g : A -> M blob (list blob)) : bl eq f f -> (forall a, fr (g a)) -> fr (bind f g).
Proof.
  intros [T F] G b d cs b' Hb E. unfold bind in E. destruct (f b) as [[a| | | |] b1] eqn:Ef; try discriminate E.
  destruct (T b (proj1 Hb)) as [W FU]. destruct (further_content _ _ (proj1 Hb) W FU) as (t & Et). rewrite (proj2 Hb) in Et. rewrite Ef in W, Et. cbn [snd] in *.
  destruct (G a b1 (content b1) cs b' (conj W eq_refl) E) as (Wc & Wb & gaps & L & D & K). split; [exact Wc|]. split; [exact Wb|].
  destruct gaps as [|g0 gs]; [discriminate L|]. exists ((t ++ g0) :: gs). split; [exact L|].
  assert (WV : forall ps, weave ((t ++ g0) :: gs) ps = t ++ weave (g0 :: gs) ps) by (intros [|p ps]; cbn [weave]; rewrite <- ?app_assoc; reflexivity).
  split; [rewrite WV, <- app_assoc, <- D; exact Et|]. intros parts2 rest2 b2 S Z H2. rewrite WV, <- app_assoc in H2.
  assert (Z' : zlen (weave (g0 :: gs) parts2 ++ rest2) = zlen (content b1)).
  { rewrite D, !zlen_app, (weave_zlen _ _ _ S). change (@zlen byte) with (@zlen byte). lia. }
  destruct (F b b2 t (content b1) (weave (g0 :: gs) parts2 ++ rest2)) as [F1 F2];
    [split; [exact (proj1 Hb)|rewrite (proj2 Hb); exact Et]|exact H2|exact Z'|rewrite Ef; reflexivity|].
  apply res_rel_eq in F1. rewrite Ef in F1. cbn [fst] in F1. destruct (K parts2 rest2 _ S Z F2) as (cs2 & b2' & E2 & K2).
  exists cs2, b2'. split; [|exact K2]. unfold bind. destruct (f b2) as [r2 b2'']. cbn [fst snd] in *. subst r2. exact E2.
Qed.
Lemma fr_ext f g : (forall b, f b = g b) -> fr g -> fr f.
Proof.
  intros E H b d cs b' Hb Ef. rewrite E in Ef. destruct (H b d cs b' Hb Ef) as (H1 & H2 & gaps & L & D & K). split; [exact H1|]. split; [exact H2|].
  exists gaps. split; [exact L|]. split; [exact D|]. intros parts2 rest2 b2 S Z Hb2. destruct (K _ _ _ S Z Hb2) as (cs2 & b2' & E2 & K2).
  exists cs2, b2'. rewrite E. split; [exact E2|exact K2].
Qed.
Lemma fr_sized (f : Z -> M blob (list blob)) : (forall z, fr (f z)) -> fr (fun b => f (Size b) b).
Proof.
  intros H b d cs b' Hb Ef. destruct (H (Size b) b d cs b' Hb Ef) as (H1 & H2 & gaps & L & D & K). split; [exact H1|]. split; [exact H2|].
  exists gaps. split; [exact L|]. split; [exact D|]. intros parts2 rest2 b2 S Z Hb2. destruct (K _ _ _ S Z Hb2) as (cs2 & b2' & E2 & K2).
  exists cs2, b2'. split; [|exact K2]. assert (ES : Size b2 = Size b).
  { change (blobSize b2 = blobSize b). rewrite (holds_size _ _ Hb), (holds_size _ _ Hb2), D, !zlen_app, (weave_zlen _ _ _ S). lia. }
  rewrite ES. exact E2.
Qed.
Lemma fr_next k (f : M blob (list blob)) : fr f -> fr (c <- Chop (u64 k) ;; r <- f ;; ret (c :: r)).
Proof.
  intros F b d cs b' Hb E. pose proof (u64_nonneg k) as Hk. unfold bind in E. change (Chop (u64 k) b) with (blobChop (u64 k) b) in E.
  destruct (Z.le_gt_cases (u64 k) (zlen d)) as [Hl|Hl]; [|rewrite (chop_ood b (u64 k) (proj1 Hb)) in E by (rewrite (proj2 Hb); lia); discriminate E].
  destruct (chop_ok b (u64 k) (proj1 Hb)) as (c & b1 & E1 & Wc & Wb & Cc & Cb); [rewrite (proj2 Hb); lia|]. rewrite E1 in E. rewrite (proj2 Hb) in Cc, Cb.
  destruct (f b1) as [[r| | | |] b1'] eqn:Ef; try discriminate E. injection E as <- <-.
  destruct (F b1 (content b1) r b1' (conj Wb eq_refl) Ef) as (H1 & H2 & gaps & L & D & K). split; [constructor; assumption|]. split; [exact H2|].
  exists ([] :: gaps). split; [cbn [length]; congruence|]. split.
  { cbn [map weave app]. rewrite <- app_assoc, <- D, Cc, Cb. symmetry. apply firstn_skipn. }
  intros parts2 rest2 b2 S Z Hb2. destruct parts2 as [|p2 ps2]; [discriminate S|]. cbn [map] in S. injection S as S1 S2. cbn [weave app] in Hb2.
  rewrite <- app_assoc in Hb2. assert (Zp : zlen p2 = u64 k). { etransitivity; [exact S1|]. rewrite Cc. rewrite zlen_firstn; lia. }
  destruct (chop_ok b2 (u64 k) (proj1 Hb2)) as (c2 & b2' & E2 & Wc2 & Wb2 & Cc2 & Cb2).
  { rewrite (proj2 Hb2), zlen_app. pose proof (@zlen_nonneg byte (weave gaps ps2 ++ rest2)). lia. }
  rewrite (proj2 Hb2) in Cc2, Cb2. assert (LT : Z.to_nat (u64 k) = length p2) by (unfold zlen in Zp; lia).
  rewrite LT, firstn_app, Nat.sub_diag, firstn_O, app_nil_r, firstn_all in Cc2. rewrite LT, skipn_app, skipn_all, Nat.sub_diag in Cb2. cbn [skipn app] in Cb2.
  destruct (K ps2 rest2 b2' S2 Z (conj Wb2 Cb2)) as (cs2 & b3 & E3 & W3 & C3 & K3). exists (c2 :: cs2), b3. split.
  { unfold bind. change (Chop (u64 k) b2) with (blobChop (u64 k) b2). rewrite E2, E3. reflexivity. }
  split; [constructor; assumption|]. split; [cbn [map]; congruence|exact K3].
Qed.

Lemma fr_fixed fuel size : fr (fixed_loop (B := blob) fuel size).
Proof.
  induction fuel as [|f IH]; cbn [fixed_loop]; [exact (fr_fail Diverge ltac:(discriminate))|].
  set (go := el <- Chop (u64 size);; r <- fixed_loop f size;; ret (el :: r)).
  apply (fr_ext _ (fun b => (fun z => if u64 size <=? z then go else ret []) (Size b) b)); [intros b; destruct (_ <=? _); reflexivity|].
  apply (fr_sized (fun z => if u64 size <=? z then go else ret [])). intros z. destruct (_ <=? _); [apply fr_next; exact IH|apply fr_nil].
Qed.
Lemma fr_unbounded_loop mn total var os : forall rem, fr (unbounded_loop (B := blob) mn total var os rem).
Proof.
  induction os as [|o os IH]; intros rem; cbn [unbounded_loop]; [apply fr_nil|]. cbv zeta.
  apply fr_read; [apply bl_lift|]. intros s. apply fr_next. apply IH.
Qed.
Lemma fr_vector_unbounded mn : fr (vector_unbounded (B := blob) mn).
Proof.
  unfold vector_unbounded. apply fr_read; [apply bl_size|]. intros sz.
  destruct (u64 (mn + ORACLE_SIZE) =? 0); [exact (fr_fail UB ltac:(discriminate))|].
  apply fr_read; [apply bl_oracle|]. intros o. cbv zeta. apply fr_read; [apply bl_read_oracles|]. intros ot.
  apply fr_read; [apply bl_size|]. intros s2. do 2 (apply fr_read; [apply bl_lift|]; intros ?). apply fr_unbounded_loop.
Qed.
Lemma fr_variated fuel mn mx : fr (variated_loop (B := blob) fuel mn mx).
Proof.
  induction fuel as [|f IH]; cbn [variated_loop]; [exact (fr_fail Diverge ltac:(discriminate))|].
  destruct (int_op (mn + ORACLE_SIZE)) as [need| | | |]; try exact (fr_fail UB ltac:(discriminate)).
  match goal with |- fr (fun b => if Size b <? u64 need then (Ok [], b) else ?g b) => set (go := g) end.
  apply (fr_ext _ (fun b => (fun z => if z <? u64 need then ret [] else go) (Size b) b)); [intros b; destruct (_ <? _); reflexivity|].
  apply (fr_sized (fun z => if z <? u64 need then ret [] else go)). intros z. destruct (_ <? _); [apply fr_nil|].
  unfold go. apply fr_read; [apply bl_oracle|]. intros o. apply fr_read; [apply bl_lift|]. intros p.
  apply fr_read; [apply bl_size|]. intros s. cbv zeta. apply fr_next. exact IH.
Qed.
Lemma fr_vector mn mx : fr (vector_extract (B := blob) mn mx).
Proof.
  set (go := fun z : Z => if z <? u64 mn then lift (B := blob) OutOfData else if isFixedSize mn mx then fixed_loop (S (Z.to_nat z)) mn
     else if isUnbounded mn mx then vector_unbounded (B := blob) mn else (_ <- lift (int_op (mx - mn)) ;; variated_loop (S (Z.to_nat z)) mn mx)).
  apply (fr_ext _ (fun b => go (Size b) b)).
  { intros b. unfold vector_extract, go. destruct (_ <? _); [reflexivity|]. destruct (isFixedSize mn mx); [reflexivity|]. destruct (isUnbounded mn mx); reflexivity. }
  apply fr_sized. intros z. unfold go. destruct (_ <? _); [exact (fr_fail OutOfData ltac:(discriminate))|]. destruct (isFixedSize mn mx); [apply fr_fixed|].
  destruct (isUnbounded mn mx); [apply fr_vector_unbounded|]. apply fr_read; [apply bl_lift|]. intros _. apply fr_variated.
Qed.
Lemma fr_set_chunks l : forall mods kv ku vr ur, fr (set_chunks (B := blob) l mods kv ku vr ur).
Proof.
  induction l as [|[mn mx] l IH]; intros mods kv ku vr ur; cbn [set_chunks]; [apply fr_nil|]. destruct mods as [|md mods]; [apply fr_nil|].
  apply fr_read; [apply bl_lift|]. intros s. apply fr_next. apply IH.
Qed.
Lemma fr_set l : fr (set_extract (B := blob) l).
Proof.
  unfold set_extract. apply fr_read; [apply bl_lift|]. intros t. cbv zeta. apply fr_read; [apply bl_size|]. intros sz.
  destruct (sz <? u64 (set_fixed_total t)); [exact (fr_fail OutOfData ltac:(discriminate))|]. apply fr_read.
  { destruct ((0 <? t_var t) && (0 <? t_unb t)); [|apply bl_reteq]. apply bl_bindeq; [apply bl_oracle|]. intros o. apply bl_bindeq; [apply bl_lift|]. intros p. apply bl_reteq. }
  intros lim. apply fr_read; [apply bl_read_modifiers|]. intros x. apply fr_read; [apply bl_lift|]. intros fv. apply fr_read; [apply bl_lift|]. intros fu.
  apply fr_set_chunks.
Qed.

(** ** Every stamp of a set gets a part *)
Lemma read_modifiers_length uc l : forall p t b x b', read_modifiers (B := blob) uc l p t b = (Ok x, b') -> length (fst (fst x)) = length l.
Proof.
  induction l as [|[mn mx] l IH]; intros p t b x b' E; cbn [read_modifiers] in E; [apply ret_inv in E as [-> ->]; reflexivity|].
  destruct (isFixedSize mn mx).
  - apply bind_ok_inv in E as (y & b1 & E1 & E). apply ret_inv in E as [-> ->]. cbn [fst length]. f_equal. exact (IH _ _ _ _ _ E1).
  - apply bind_ok_inv in E as (md & b1 & _ & E). apply bind_ok_inv in E as (y & b2 & E1 & E). apply ret_inv in E as [-> ->]. cbn [fst length]. f_equal.
    destruct (isUnbounded mn mx); [exact (IH _ _ _ _ _ E1)|]. apply bind_ok_inv in E1 as (d & b3 & _ & E1). exact (IH _ _ _ _ _ E1).
Qed.
Lemma reset_modifiers_length l : forall ms t, length (fst (reset_modifiers l ms t)) = length ms.
Proof.
  induction l as [|[mn mx] l IH]; intros [|m ms] t; cbn [reset_modifiers]; try reflexivity. destruct (isUnbounded mn mx); cbn [fst length]; f_equal; apply IH.
Qed.
Lemma set_chunks_length l : forall ms kv ku vr ur b cs b', length ms = length l -> set_chunks (B := blob) l ms kv ku vr ur b = (Ok cs, b') -> length cs = length l.
Proof.
  induction l as [|[mn mx] l IH]; intros [|m ms] kv ku vr ur b cs b' L E; try discriminate L; cbn [set_chunks] in E; [apply ret_inv in E as [-> ->]; reflexivity|].
  apply bind_ok_inv in E as (s & b1 & _ & E). apply bind_ok_inv in E as (c & b2 & _ & E). apply bind_ok_inv in E as (r & b3 & E1 & E).
  apply ret_inv in E as [-> ->]. cbn [length] in *. f_equal. refine (IH ms _ _ _ _ _ _ _ _ E1). congruence.
Qed.
Lemma set_extract_length l b cs b' : set_extract (B := blob) l b = (Ok cs, b') -> length cs = length l.
Proof.
  unfold set_extract. intros E. apply bind_ok_inv in E as (t & b1 & _ & E). cbv zeta in E. apply bind_ok_inv in E as (sz & b2 & _ & E).
  destruct (sz <? _); [discriminate E|]. apply bind_ok_inv in E as (lim & b3 & _ & E). apply bind_ok_inv in E as (x & b4 & Ex & E).
  apply bind_ok_inv in E as (fv & b5 & _ & E). apply bind_ok_inv in E as (fu & b6 & _ & E). refine (set_chunks_length _ _ _ _ _ _ _ _ _ _ E).
  pose proof (read_modifiers_length _ _ _ _ _ _ _ Ex) as L. destruct (f64_eq _ _); [rewrite reset_modifiers_length|]; exact L.
Qed.

(** ** Values *)
Lemma local_makes {A} (ex : M blob A) c v : local ex -> wf c -> (fst (ex c) = Ok v <-> makes ex (content c) v).
Proof.
  intros H W. split; [|intros K; apply K; split; [exact W|reflexivity]]. intros E c2 [W2 C2]. rewrite <- E. symmetry. apply (H c c2 W W2). symmetry. exact C2.
Qed.
Lemma each_local {A} (ex : M blob A) cs vs : local ex -> Forall wf cs -> (Forall2 (fun c v => fst (ex c) = Ok v) cs vs <-> Forall2 (makes ex) (map content cs) vs).
Proof.
  intros H W. revert vs. induction W as [|c cs Wc W IH]; intros vs.
  - split; intros F; inversion F; constructor.
  - cbn [map]. split; intros F; inversion F as [|? v ? r F1 F2]; subst; constructor; first [apply (local_makes ex c v H Wc); exact F1|apply IH; exact F2].
Qed.
Lemma zip_local {A} (exs : list (M blob A)) : Forall local exs -> forall cs vs, length cs = length exs -> Forall wf cs ->
  (stamp_zip exs cs = Ok vs <-> each_makes exs (map content cs) vs).
Proof.
  induction 1 as [|ex exs Hx H IH]; intros [|c cs] vs L W; try discriminate L; cbn [stamp_zip map].
  - split; [intros [= <-]; constructor|intros F; inversion F; reflexivity].
  - inversion W as [|? ? Wc W']; subst. injection L as L. split.
    + intros E. apply rbind_ok_inv in E as (v & E1 & E). apply rbind_ok_inv in E as (r & E2 & E). injection E as <-.
      constructor; [apply (local_makes ex c v Hx Wc); exact E1|]. apply IH; assumption.
    + intros F. inversion F as [|? ? v ? ? r F1 F2]; subst. apply (local_makes ex c v Hx Wc) in F1. rewrite F1. cbn [rbind].
      apply (IH cs r L W') in F2. rewrite F2. reflexivity.
Qed.

(** A function that divides and stamps. *)
Lemma made_parts {A C} (f : M blob (list blob)) (made : list bytes -> list A -> Prop) (ok : list blob -> list A -> Prop) (j : list A -> C) (F : M blob C) : fr f ->
  (forall b r b', wf b -> (F b = (Ok r, b') <-> exists cs vals, f b = (Ok cs, b') /\ ok cs vals /\ r = j vals)) ->
  (forall b cs b', wf b -> f b = (Ok cs, b') -> Forall wf cs -> forall vals, ok cs vals <-> made (map content cs) vals) -> made_of_parts made j F.
Proof.
  intros Hf HF HO b d r rest Hb (b' & E & Wb & <-). apply (HF b r b' (proj1 Hb)) in E as (cs & vals & E & O & ->).
  destruct (Hf b d cs b' Hb E) as (Wc & _ & gaps & L & D & K). apply (HO b cs b' (proj1 Hb) E Wc) in O.
  exists gaps, (map content cs), vals. split; [split; [rewrite map_length; exact L|exact D]|]. split; [exact O|]. split; [reflexivity|].
  intros d2 parts2 vals2 rest2 b2 [L2 ->] S Z O2 H2. destruct (K parts2 rest2 b2 S Z H2) as (cs2 & b2' & E2 & W2 & <- & Wb2 & <-).
  exists b2'. split; [|split; [exact Wb2|reflexivity]]. apply (HF b2 (j vals2) b2' (proj1 H2)). exists cs2, vals2. split; [exact E2|]. split; [|reflexivity].
  apply (HO b2 cs2 b2' (proj1 H2) E2 W2). exact O2.
Qed.

Lemma vector_parts {A} mn mx (ex : M blob A) : local ex -> made_of_parts (Forall2 (makes ex)) (fun vals => vals) (ExtractVector mn mx ex).
Proof.
  intros H. apply (made_parts (vector_extract mn mx) _ (Forall2 (fun c v => fst (ex c) = Ok v))); [apply fr_vector| |].
  - intros b r b' Hb. unfold ExtractVector. split.
    + intros E. apply bind_ok_inv in E as (cs & b1 & E1 & E). apply lift_ok_inv in E as [E ->]. exists cs, r. apply stamp_each_iff in E. auto.
    + intros (cs & vals & E & F & ->). rewrite (bind_ok _ _ _ _ _ E). apply stamp_each_iff in F. unfold lift. rewrite F. reflexivity.
  - intros b cs b' Hb E W vals. apply each_local; assumption.
Qed.
Lemma set_parts {A} (l : list (Z * Z * M blob A)) : Forall (fun s => local (snd s)) l -> made_of_parts (each_makes (map snd l)) (fun vals => vals) (ExtractSet l).
Proof.
  intros H. apply (made_parts (set_extract (map fst l)) _ (fun cs vs => stamp_zip (map snd l) cs = Ok vs)); [apply fr_set| |].
  - intros b r b' Hb. unfold ExtractSet. split.
    + intros E. apply bind_ok_inv in E as (cs & b1 & E1 & E). apply lift_ok_inv in E as [E ->]. exists cs, r. auto.
    + intros (cs & vals & E & F & ->). rewrite (bind_ok _ _ _ _ _ E). unfold lift. rewrite F. reflexivity.
  - intros b cs b' Hb E W vals. apply zip_local; [rewrite Forall_map; exact H| |exact W]. rewrite (set_extract_length _ _ _ _ E), !map_length. reflexivity.
Qed.

(** ** Composed stamps *)
Lemma graph_local h x : good_heap h -> good_sx x -> local (ExtractStr h x).
Proof. intros Hh Hx. apply sim_local, sim_ExtractStr; [apply good_heap_self|apply good_self]; assumption. Qed.

Lemma vec_parts h j y mn mx : tame_graph h y -> good_heap h -> good_sx y -> minSize h y = Ok mn -> maxSize h y = Ok mx ->
  made_of_parts (Forall2 (makes (ExtractStr h y))) j (ExtractStr h (XVec j y)).
Proof.
  intros T Hh Hx E1 E2. apply (made_parts (vector_extract mn mx) _ (Forall2 (fun c t => fst (ExtractStr h y c) = Ok t))); [apply fr_vector| |].
  - intros b r b' Hb. rewrite (vec_iff h y j b r b' T Hb). split.
    + intros (mn' & mx' & cs & strs & E1' & E2' & E & F & ->). rewrite E1 in E1'. rewrite E2 in E2'. injection E1' as <-. injection E2' as <-. exists cs, strs. auto.
    + intros (cs & strs & E & F & ->). exists mn, mx, cs, strs. auto.
  - intros b cs b' Hb E W vals. apply each_local; [apply graph_local; assumption|exact W].
Qed.

Lemma binary_parts h op x y L : tame_graph h x -> tame_graph h y -> good_heap h -> good_sx x -> good_sx y -> sizes_of h [x; y] = Ok L ->
  made_of_parts (each_makes [ExtractStr h x; ExtractStr h y]) (binary_text op) (ExtractStr h (XBinary op x y)).
Proof.
  intros Tx Ty Hh Hx Hy EL. cbn [sizes_of] in EL.
  apply rbind_ok_inv in EL as (mn1 & Q1 & EL). apply rbind_ok_inv in EL as (mx1 & Q2 & EL). apply rbind_ok_inv in EL as (r & Q & EL). injection EL as <-.
  apply rbind_ok_inv in Q as (mn2 & Q3 & Q). apply rbind_ok_inv in Q as (mx2 & Q4 & Q). cbn [rbind] in Q. injection Q as <-.
  apply (made_parts (set_extract [(mn1, mx1); (mn2, mx2)]) _ (fun cs vs => stamp_zip [ExtractStr h x; ExtractStr h y] cs = Ok vs)); [apply fr_set| |].
  - intros b r b' Hb. rewrite (binary_iff h op x y b r b' Tx Ty Hb). split.
    + intros (mn1' & mx1' & mn2' & mx2' & c1 & c2 & t1 & t2 & R1 & R2 & R3 & R4 & E & T1 & T2 & ->).
      rewrite Q1 in R1. rewrite Q2 in R2. rewrite Q3 in R3. rewrite Q4 in R4. injection R1 as <-. injection R2 as <-. injection R3 as <-. injection R4 as <-.
      exists [c1; c2], [t1; t2]. split; [exact E|]. split; [cbn [stamp_zip]; rewrite T1, T2; reflexivity|reflexivity].
    + intros (cs & vals & E & F & ->). pose proof (set_extract_length _ _ _ _ E) as L. destruct cs as [|c1 [|c2 [|c3 cs]]]; try discriminate L.
      cbn [stamp_zip] in F. apply rbind_ok_inv in F as (t1 & T1 & F). apply rbind_ok_inv in F as (l & F1 & F). injection F as <-.
      apply rbind_ok_inv in F1 as (t2 & T2 & F1). cbn [rbind] in F1. injection F1 as <-.
      exists mn1, mx1, mn2, mx2, c1, c2, t1, t2. repeat (split; [assumption|]). reflexivity.
  - intros b cs b' Hb E W vals. apply zip_local; [repeat constructor; apply graph_local; assumption| |exact W].
    rewrite (set_extract_length _ _ _ _ E). reflexivity.
Qed.

Lemma zip_agree h (b : blob) xs : Forall (tame_graph h) xs -> forall cs, Forall (small (Size b)) cs ->
  stamp_zip (map (extract (S (Z.to_nat (Size b))) h) xs) cs = stamp_zip (map (ExtractStr h) xs) cs.
Proof.
  induction 1 as [|x xs Tx T IH]; intros cs Sc; [reflexivity|]. destruct Sc as [|c cs Hc Sc]; [reflexivity|]. cbn [map stamp_zip].
  rewrite (tame_agree h x b c Tx Hc), (IH cs Sc). reflexivity.
Qed.

Lemma setx_parts h j xs L : Forall (tame_graph h) xs -> good_heap h -> Forall good_sx xs -> sizes_of h xs = Ok L ->
  made_of_parts (each_makes (map (ExtractStr h) xs)) j (ExtractStr h (XSet j xs)).
Proof.
  intros T Hh Hx EL. apply (made_parts (set_extract L) _ (fun cs vs => stamp_zip (map (ExtractStr h) xs) cs = Ok vs)); [apply fr_set| |].
  - intros b r b' Hb. assert (Sb : small (Size b) b) by (split; [exact Hb|lia]).
    assert (Sc : forall cs, set_extract L b = (Ok cs, b') -> Forall (small (Size b)) cs).
    { intros cs E. pose proof (proj2 (shr_set (Size b) L b Sb) cs) as Sc. rewrite E in Sc. exact (Sc eq_refl). }
    unfold ExtractStr at 1. rewrite extract_set, (bind_lift_ok _ _ _ _ EL). split.
    + intros E. apply bind_ok_inv in E as (cs & b1 & E1 & E). apply bind_ok_inv in E as (vs & b2 & E2 & E). apply lift_ok_inv in E2 as [E2 ->].
      apply ret_inv in E as [-> ->]. exists cs, vs. split; [exact E1|]. rewrite <- (zip_agree h b xs T cs (Sc cs E1)). auto.
    + intros (cs & vs & E1 & E2 & ->). rewrite (bind_ok _ _ _ _ _ E1). rewrite <- (zip_agree h b xs T cs (Sc cs E1)) in E2.
      rewrite (bind_lift_ok _ _ _ _ E2). reflexivity.
  - intros b cs b' Hb E W vals. apply zip_local; [| |exact W].
    + rewrite Forall_map. eapply Forall_impl; [|exact Hx]. intros x Gx. apply graph_local; assumption.
    + rewrite (set_extract_length _ _ _ _ E), map_length. clear - EL. revert L EL. induction xs as [|x xs IH]; intros L EL; cbn [sizes_of] in EL.
      * injection EL as <-. reflexivity.
      * apply rbind_ok_inv in EL as (mn & _ & EL). apply rbind_ok_inv in EL as (mx & _ & EL). apply rbind_ok_inv in EL as (r & Q & EL). injection EL as <-.
        cbn [length]. f_equal. exact (IH r Q).
Qed.

(** One part alone. *)
Lemma weave_at gaps : forall parts1 p parts2, length gaps = S (length (parts1 ++ p :: parts2)) ->
  exists pre post, forall q, weave gaps (parts1 ++ q :: parts2) = pre ++ q ++ post.
Proof.
  induction gaps as [|g gs IH]; intros parts1 p parts2 L; [discriminate L|]. destruct parts1 as [|p1 parts1]; cbn [app weave].
  - exists g, (weave gs parts2). reflexivity.
  - cbn [app length] in L. injection L as L. destruct (IH parts1 p parts2 L) as (pre & post & H). exists (g ++ p1 ++ pre), post. intros q. rewrite H, <- !app_assoc. reflexivity.
Qed.

Lemma one_part {A C} (made : list bytes -> list A -> Prop) (j : list A -> C) (f : M blob C) (ex : M blob A) vals1 v vals2 b d rest :
  made_of_parts made j f -> (forall vals vals', j vals = j vals' -> vals = vals') ->
  (forall ps vs1 v vs2, made ps (vs1 ++ v :: vs2) -> exists ps1 p ps2, ps = ps1 ++ p :: ps2 /\ makes ex p v /\
     forall p' v', makes ex p' v' -> made (ps1 ++ p' :: ps2) (vs1 ++ v' :: vs2)) ->
  holds b d -> runs f b (Ok (j (vals1 ++ v :: vals2))) rest ->
  exists pre p post, d = pre ++ p ++ post ++ rest /\ makes ex p v /\
    forall p' v' rest' b', zlen p' = zlen p -> makes ex p' v' -> zlen rest' = zlen rest -> holds b' (pre ++ p' ++ post ++ rest') ->
      runs f b' (Ok (j (vals1 ++ v' :: vals2))) rest'.
Proof.
  intros H J HM Hb R. destruct (H b d _ rest Hb R) as (gaps & parts & vals & [L D] & M & Ej & K). apply J in Ej. subst vals.
  destruct (HM _ _ _ _ M) as (ps1 & p & ps2 & -> & Mp & HM2). destruct (weave_at gaps ps1 p ps2 L) as (pre & post & W).
  exists pre, p, post. split; [rewrite D, W, <- !app_assoc; reflexivity|]. split; [exact Mp|]. intros p' v' rest' b' Zp Mp' Zr Hb'.
  apply (K (pre ++ p' ++ post ++ rest') (ps1 ++ p' :: ps2) (vals1 ++ v' :: vals2) rest' b'); [| |exact Zr|exact (HM2 p' v' Mp')|exact Hb'].
  - split; [rewrite app_length in *; exact L|]. rewrite W, <- !app_assoc. reflexivity.
  - unfold same_lengths. rewrite !map_app. cbn [map]. rewrite Zp. reflexivity.
Qed.

Lemma Forall2_one {A} (ex : M blob A) ps vs1 v vs2 : Forall2 (makes ex) ps (vs1 ++ v :: vs2) -> exists ps1 p ps2, ps = ps1 ++ p :: ps2 /\ makes ex p v /\
  forall p' v', makes ex p' v' -> Forall2 (makes ex) (ps1 ++ p' :: ps2) (vs1 ++ v' :: vs2).
Proof.
  intros F. apply Forall2_app_inv_r in F as (ps1 & r & F1 & F2 & ->). inversion F2 as [|p ? ps2 ? G1 G2]; subst. exists ps1, p, ps2. split; [reflexivity|].
  split; [exact G1|]. intros p' v' G. apply Forall2_app; [exact F1|]. constructor; assumption.
Qed.
