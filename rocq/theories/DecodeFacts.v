(** StampJSON against its reading of the data. *)
From Flocq Require Import IEEE754.Binary IEEE754.Bits.
From Verif Require Import TextSpec TextFacts JsonGrammar Base BaseFacts Blob BlobSpec BlobFacts RunSpec RunFacts Sim Oracle ArithSpec Arithm ArithFacts StampDict DictWords DictSpec DictFacts StampText
  Galley Stamps StampsEq Json LeafSpec TermSpec ShrinkFacts Prop_Arithm Prop_FloatText Prop_Dict Prop_Termination NestSpec NestFacts Prop_Enum
  VectorSpec VectorFacts VectorUnbounded Prop_Vector LotSpec LotFacts Prop_Pool JsonSpec JsonFacts Prop_Json VectorLow DecodeSpec.
Local Open Scope Z_scope.

(** ** The layout of a vector of unbounded elements, whatever the size *)
Lemma oracle_take (l : bytes) o l' : GetOracle l = (Ok o, l') -> l = le16 o ++ l' /\ oracle16 o.
Proof.
  intros E. destruct (Z_lt_le_dec (zlen l) 2) as [C|C]; [rewrite (list_oracle_ood l C) in E; discriminate E|].
  destruct (list_oracle_ex l C) as (o' & r & -> & Ho). pose proof (eq_trans (eq_sym (list_oracle o' r Ho)) E) as X. injection X as -> ->. split; [reflexivity|exact Ho].
Qed.

Lemma oracles_take n : forall t (l : bytes) os s l', read_oracles n t l = (Ok (os, s), l') -> l = concat (map le16 os) ++ l' /\ length os = n.
Proof.
  induction n as [|n IH]; intros t l os s l' E; cbn [read_oracles] in E.
  - apply ret_inv in E as [E ->]. injection E as -> _. split; reflexivity.
  - apply bind_ok_inv in E as (o & l1 & E1 & E). apply bind_ok_inv in E as (t1 & l2 & E2 & E). apply lift_ok_inv in E2 as [_ ->].
    apply bind_ok_inv in E as ([os' s'] & l3 & E3 & E). apply ret_inv in E as [E ->]. cbn [fst snd] in E. injection E as -> _.
    destruct (oracle_take _ _ _ E1) as [-> _]. destruct (IH _ _ _ _ _ E3) as [-> <-]. cbn [map concat length]. rewrite app_assoc. split; reflexivity.
Qed.

Lemma chop_take k (l c l' : bytes) : Chop k l = (Ok c, l') -> l = c ++ l'.
Proof.
  cbn [Chop ListOps]. intros E. repeat match type of E with (if ?c then _ else _) = _ => destruct c end; try discriminate E.
  injection E as <- <-. symmetry. apply firstn_skipn.
Qed.

Lemma parts_take mn total var os : forall rem (l : bytes) cs l', unbounded_loop mn total var os rem l = (Ok cs, l') -> l = concat cs ++ l' /\ length os = length cs.
Proof.
  induction os as [|o os IH]; intros rem l cs l' E; cbn [unbounded_loop] in E.
  - apply ret_inv in E as [-> ->]. split; reflexivity.
  - apply bind_ok_inv in E as (k & l1 & E1 & E). apply lift_ok_inv in E1 as [_ ->]. cbv zeta in E.
    apply bind_ok_inv in E as (c & l2 & E2 & E). apply bind_ok_inv in E as (r & l3 & E3 & E). apply ret_inv in E as [-> ->].
    rewrite (chop_take _ _ _ _ E2). destruct (IH _ _ _ _ E3) as [-> H]. cbn [concat length]. rewrite app_assoc, H. split; reflexivity.
Qed.

Lemma vector_take mn (l : bytes) cs l' : 0 <= mn -> vector_extract mn (-1) l = (Ok cs, l') ->
  exists o os, l = le16 o ++ concat (map le16 os) ++ concat cs ++ l' /\ length os = length cs.
Proof.
  intros Hm E. unfold vector_extract in E. destruct (Size l <? u64 mn); [discriminate E|].
  unfold isFixedSize in E. destruct (mn =? -1) eqn:Q; [lia|]. change (isUnbounded mn (-1)) with true in E. cbv iota in E.
  unfold vector_unbounded in E. apply bind_ok_inv in E as (sz & l0 & E0 & E). injection E0 as _ <-.
  destruct (u64 (mn + ORACLE_SIZE) =? 0); [discriminate E|].
  apply bind_ok_inv in E as (o & l1 & E1 & E). cbv zeta in E. apply bind_ok_inv in E as ([os s] & l2 & E2 & E).
  apply bind_ok_inv in E as (s2 & l3 & E3 & E). injection E3 as _ <-.
  apply bind_ok_inv in E as (f1 & l4 & E4 & E). apply lift_ok_inv in E4 as [_ ->].
  apply bind_ok_inv in E as (f2 & l5 & E5 & E). apply lift_ok_inv in E5 as [_ ->].
  destruct (oracle_take _ _ _ E1) as [-> _]. destruct (oracles_take _ _ _ _ _ _ E2) as [-> _].
  destruct (parts_take _ _ _ _ _ _ _ _ E) as [-> H]. exists o, os. split; [reflexivity|]. rewrite <- H. cbn [fst snd].
  destruct (s =? 0); [rewrite map_length|]; reflexivity.
Qed.

(** ... and within the limits of C19. *)
Lemma vector_parted mn b r cs b' : 10 <= mn < 100 -> holds b r -> mn + 4 <= zlen r -> vector_extract mn (-1) b = (Ok cs, b') ->
  Forall wf cs /\ wf b' /\ parted mn r (map content cs) (content b').
Proof.
  intros Hm Hb Hr E.
  destruct (sim_vector_extract mn (-1) b r (holds_rel b r Hb)) as (Hq & Hw & _ & Hc). rewrite E in Hq, Hw, Hc. cbn [fst snd] in *.
  destruct (vector_extract mn (-1) r) as [[lcs| | | |] l'] eqn:L; cbn in Hq; try tauto. cbn [snd] in Hc.
  assert (X : Forall wf cs /\ map content cs = lcs).
  { clear - Hq. induction Hq as [|c l cs lcs (W & _ & C) F [I1 I2]]; [split; constructor|]. split; [constructor; assumption|]. cbn [map]. rewrite I2. f_equal. exact C. }
  destruct X as [X1 X2]. split; [exact X1|]. split; [exact Hw|]. change (content b' = l') in Hc. rewrite X2, Hc.
  assert (LOW : zlen r < 2 ^ 31 -> Forall (fun c => mn <= zlen c) lcs) by (intros C; exact (vector_low mn r lcs l' ltac:(lia) C L)).
  assert (SOME : parts mn (zlen r) <= 65534 -> lcs <> []).
  { intros C. apply (vector_some mn r lcs l'); [lia| |exact C|lia|exact L]. split; [exact Hr|].
    unfold parts in C. assert (Q : (zlen r - 2) / (mn + 2) < 65535) by lia. pose proof (Z.mul_succ_div_gt (zlen r - 2) (mn + 2) ltac:(lia)). nia. }
  destruct (Z_le_gt_dec (zlen r) 393229) as [C|C].
  - destruct (C19_unbounded mn b r ltac:(lia) Hb) as (o & os & chunks & rest & (cs2 & b2 & E2 & _ & E3 & _ & E4) & U).
    { unfold VectorMinSize, isFixedSize, isUnbounded, ORACLE_SIZE. destruct (mn =? -1) eqn:Q; [lia|]. cbn [Z.eqb Pos.eqb]. rewrite i32_id by lia. lia. }
    { unfold parts. apply Z.lt_succ_r, Z.div_lt_upper_bound; [lia|]. nia. }
    rewrite E in E2. injection E2 as <- <-. assert (l' = rest) as -> by congruence. assert (lcs = chunks) as -> by congruence.
    exists o, os. split; [exact (proj1 U)|]. split; [|split; [exact LOW|split; [exact SOME|intros _; exact U]]]. destruct U as (_ & _ & _ & _ & U5 & _).
    assert (LW : length (weights os) = length os) by (unfold weights; destruct (sum os =? 0); [apply map_length|reflexivity]).
    rewrite <- LW. clear - U5. induction U5; cbn; congruence.
  - destruct (vector_take mn r lcs l' ltac:(lia) L) as (o & os & T1 & T2). exists o, os. split; [exact T1|]. split; [exact T2|]. split; [exact LOW|]. split; [exact SOME|lia].
Qed.

(** ** The word of a byte *)
Definition word (c : byte) : bytes := match fst (DictExtractStr DictLCAlphaSmall [c]) with Ok w => w | _ => [] end.

Lemma word_run c : In (word c) DictLCAlphaSmall /\ forall b r, holds b (c :: r) -> runs JSONStringExtractStr b (Ok ([quote] ++ word c ++ [quote])) r.
Proof.
  destruct (dict_front DictLCAlphaSmall [c]) as (w & Hw & E); [discriminate|change (zlen DictLCAlphaSmall) with 254; lia|reflexivity|].
  assert (word c = w) as -> by (unfold word; rewrite <- (app_nil_r [c]), E; reflexivity). split; [exact Hw|].
  intros b r Hb. destruct (run_transfer _ _ b _ _ _ (sim_DictExtractStr DictLCAlphaSmall) Hb (E r)) as (b' & E' & R).
  exists b'. split; [|exact R]. unfold JSONStringExtractStr. rewrite (bind_ok _ _ _ _ _ E'). reflexivity.
Qed.

(** ** Kinds of values *)
Lemma json_kind b front r : holds b (front ++ r) -> zlen front = 2 -> 8 <= zlen r ->
  exists y b', In y (eligible (zlen r)) /\ holds b' r /\ ExtractStr json_heap StampJSON b = ExtractStr json_heap y b'.
Proof.
  intros Hb Hf Hr.
  destruct (C32_picks json_heap 0 json_members json_sizes b front r json_leaves json_pool_of json_reports json_sane)
    as (y & s & b1 & Y1 & (R1 & R2) & F & U & Hb1 & E); [cbn; lia|exact Hb|exact Hf|apply Exists_cons_hd; unfold fits; cbn; lia|].
  exists y, b1. split; [|split; [exact Hb1|exact E]].
  assert (U' : 14 <= zlen r -> uses_all (zlen r) s).
  { intros C. apply U. apply Exists_exists. exists (14, -1). split; [cbn; tauto|]. split; [exact C|left; reflexivity]. }
  destruct s as [mn mx]. unfold fits, uses_all in *. cbn [fst snd] in *. unfold eligible. destruct (zlen r <? 8) eqn:C8; [lia|]. clear U.
  assert (K : In (y, (mn, mx)) (combine json_members json_sizes)).
  { destruct Y1 as [<-|[<-|[<-|[<-|[<-|[]]]]]]; vm_compute in R1, R2; injection R1 as <-; injection R2 as <-; cbn; tauto. }
  cbn [combine json_members json_sizes In] in K.
  destruct (zlen r <? 14) eqn:C14; [|specialize (U' ltac:(lia)); destruct (zlen r <? 22) eqn:C22];
    destruct K as [K|[K|[K|[K|[K|[]]]]]]; injection K as <- <- <-; cbn [In]; try tauto; exfalso; lia.
Qed.

(** ** The tree *)
Lemma leaf_int_run b d s b' : holds b d -> 8 <= zlen d -> ArithExtractStr Long b = (Ok s, b') ->
  exists z r rest, d = r ++ rest /\ represents Long z r /\ text (JInt z) s /\ holds b' rest.
Proof.
  intros Hb H E. destruct (C06_extract Long b d ltac:(repeat split; discriminate) Hb H) as (v & _ & R & _).
  set (r := firstn _ d) in *. set (rest := skipn (Z.to_nat (sizeof Long)) d).
  assert (Ed : d = r ++ rest) by (symmetry; apply firstn_skipn). clearbody r rest. subst d.
  destruct (C07_decimal Long b r rest v ltac:(repeat split; discriminate) ltac:(discriminate) ltac:(discriminate) R Hb) as (s' & (b1 & E1 & Hb1) & S).
  rewrite E in E1. injection E1 as <- <-. exists v, r, rest. split; [reflexivity|]. split; [exact R|]. split; [constructor; exact S|exact Hb1].
Qed.

Lemma leaf_double_run b d s b' : holds b d -> 8 <= zlen d -> ArithExtractStr Double b = (Ok s, b') ->
  exists bits r rest, d = r ++ rest /\ represents ULong bits r /\ text (JDouble bits) s /\ holds b' rest.
Proof.
  intros Hb H E. destruct (C06_extract ULong b d ltac:(repeat split; discriminate) Hb H) as (v & _ & R & _).
  set (r := firstn _ d) in *. set (rest := skipn (Z.to_nat (sizeof ULong)) d).
  assert (Ed : d = r ++ rest) by (symmetry; apply firstn_skipn). clearbody r rest. subst d.
  destruct (C08_double b r rest v R Hb) as (D1 & D2 & D3).
  assert (X : exists s', runs (ArithExtractStr Double) b (Ok s') rest /\ double_text v s').
  { unfold double_text. cbv zeta. destruct (is_finite 53 1024 (b64_of_bits v)) eqn:F; [exact (D1 eq_refl)|].
    destruct (is_nan 53 1024 (b64_of_bits v)) eqn:N.
    - eexists. split; [exact (D2 eq_refl)|]. destruct (Bsign 53 1024 (b64_of_bits v)); reflexivity.
    - eexists. split; [exact (D3 eq_refl eq_refl)|]. destruct (Bsign 53 1024 (b64_of_bits v)); reflexivity. }
  destruct X as (s' & (b1 & E1 & Hb1) & S). rewrite E in E1. injection E1 as <- <-.
  exists v, r, rest. split; [reflexivity|]. split; [exact R|]. split; [constructor; exact S|exact Hb1].
Qed.

Lemma parted_small mn r cs rest : parted mn r cs rest -> Forall (fun c => zlen c <= zlen r) cs.
Proof.
  intros (o & os & -> & _). apply Forall_forall. intros c Hc. rewrite !zlen_app. pose proof (zlen_nonneg (le16 o)). pose proof (zlen_nonneg (concat (map le16 os))). pose proof (zlen_nonneg rest).
  enough (zlen c <= zlen (concat cs)) by lia. clear - Hc. induction cs as [|x cs IH]; [destruct Hc|]. cbn [concat]. rewrite zlen_app.
  pose proof (zlen_nonneg x). pose proof (zlen_nonneg (concat cs)). destruct Hc as [->|Hc]; [lia|]. specialize (IH Hc). lia.
Qed.

Lemma json_decode : forall n b d s b', holds b d -> zlen d < Z.of_nat n -> ExtractStr json_heap StampJSON b = (Ok s, b') ->
  exists t rest, decodes word d t rest /\ text t s /\ holds b' rest.
Proof.
  destruct C46_leaves as (MA & _ & _ & _ & MJ).
  assert (TP : tame_graph json_heap StampJSON) by (split; [exact json_leaves|constructor]).
  assert (TS : tame_graph json_heap StampJSONString) by (split; [exact json_leaves|constructor; exact MJ]).
  assert (TE : tame_graph json_heap (StampJSONHashEl 0)) by (split; [exact json_leaves|constructor; constructor; exact MJ]).
  induction n as [|n IH]; intros b d s b' Hb Hn E; [pose proof (zlen_nonneg d); lia|].
  destruct (Z_lt_le_dec (zlen d) 10) as [H2|H2].
  { destruct (C37_short b d Hb H2) as (rest & b1 & E1 & _). unfold JSONExtractStr in E1. congruence. }
  destruct (list_split d 2 ltac:(lia)) as (front & r & -> & Ef).
  assert (Zr : zlen (front ++ r) = zlen r + 2) by (rewrite zlen_app; lia). rewrite Zr in Hn.
  destruct (json_kind b front r Hb Ef ltac:(lia)) as (y & b1 & Y & Hb1 & E1). rewrite E1 in E. clear E1 b Hb.
  unfold eligible in Y. destruct (zlen r <? 8) eqn:C8; [lia|].
  destruct (zlen r <? 14) eqn:C14.
  { destruct Y as [<-|[<-|[<-|[]]]].
    - destruct (leaf_int_run b1 r s b' Hb1 ltac:(lia) E) as (z & q & rest & -> & R & T & Hb'). exists (JInt z), rest.
      split; [apply dec_int; [exact Ef|exact R|lia]|]. split; [exact T|exact Hb'].
    - destruct (leaf_double_run b1 r s b' Hb1 ltac:(lia) E) as (z & q & rest & -> & R & T & Hb'). exists (JDouble z), rest.
      split; [apply dec_double; [exact Ef|exact R|lia]|]. split; [exact T|exact Hb'].
    - destruct r as [|c r]; [change (@zlen byte []) with 0 in C8; lia|].
      destruct (word_run c) as [_ W]. destruct (W b1 r Hb1) as (b2 & E2 & H3).
      change (ExtractStr json_heap StampJSONString b1) with (JSONStringExtractStr b1) in E. assert (s = [quote] ++ word c ++ [quote] /\ b' = b2) as [-> ->] by (split; congruence).
      exists (JStr (word c)), r. split; [apply dec_str; [exact Ef|lia]|]. split; [constructor|exact H3]. }
  assert (Y' : y = StampJSONArray 0 \/ (22 <= zlen r /\ y = StampJSONHash 0)).
  { destruct (zlen r <? 22) eqn:C22; [destruct Y as [<-|[]]; left; reflexivity|]. destruct Y as [<-|[<-|[]]]; [left; reflexivity|right; split; [lia|reflexivity]]. }
  destruct Y' as [->|[C22 ->]].
  - apply (C28_enumerator json_heap (XPool 0) (lit ", ") (lit "[") (lit "]") b1 s b' TP (proj1 Hb1)) in E as (mn & mx & cs & ss & E1 & E2 & E3 & F & ->).
    assert (mn = 10 /\ mx = -1) as [-> ->].
    { change (minSize json_heap (XPool 0)) with (@Ok Z 10) in E1. change (maxSize json_heap (XPool 0)) with (@Ok Z (-1)) in E2. split; congruence. }
    destruct (vector_parted 10 b1 r cs b' ltac:(lia) Hb1 ltac:(lia) E3) as (Wc & Wb' & P). pose proof (parted_small _ _ _ _ P) as PS.
    assert (T : exists ts, Forall2 text ts ss /\ Forall2 (fun c t => exists e, decodes word c t e) (map content cs) ts).
    { clear - Wc PS F IH Hn. induction F as [|c s cs ss F1 F IHF]; [exists []; split; constructor|]. cbn [map] in PS.
      destruct (IHF (Forall_inv_tail Wc) (Forall_inv_tail PS)) as (ts & T1 & T2). pose proof (Forall_inv PS) as L. cbv beta in L.
      destruct (ExtractStr json_heap (XPool 0) c) as [rs c'] eqn:Q. cbn [fst] in F1. subst rs.
      destruct (IH c (content c) s c' (conj (Forall_inv Wc) eq_refl) ltac:(lia) Q) as (t & e & A1 & A2 & _).
      exists (t :: ts). split; constructor; try assumption. exists e. exact A1. }
    destruct T as (ts & T1 & T2).
    rewrite drop_empty_id by (clear - T1; induction T1; constructor; [eapply text_nonempty; eassumption|assumption]).
    exists (JArr ts), (content b'). split; [exact (dec_arr word front r _ _ ts Ef ltac:(lia) P T2)|]. split; [apply t_arr, texts_of; exact T1|split; [exact Wb'|reflexivity]].
  - apply (C28_enumerator json_heap (StampJSONHashEl 0) (lit ", ") (lit "{") (lit "}") b1 s b' TE (proj1 Hb1)) in E as (mn & mx & cs & ss & E1 & E2 & E3 & F & ->).
    assert (mn = 18 /\ mx = -1) as [-> ->].
    { change (minSize json_heap (StampJSONHashEl 0)) with (@Ok Z 18) in E1. change (maxSize json_heap (StampJSONHashEl 0)) with (@Ok Z (-1)) in E2. split; congruence. }
    destruct (vector_parted 18 b1 r cs b' ltac:(lia) Hb1 ltac:(lia) E3) as (Wc & Wb' & P). pose proof (parted_small _ _ _ _ P) as PS.
    assert (T : exists ms, Forall2 pair_text ms ss /\ Forall2 (fun c m => exists k v e, c = k :: v /\ fst m = word k /\ decodes word v (snd m) e) (map content cs) ms).
    { clear - Wc PS F IH Hn TP TS. induction F as [|c s cs ss F1 F IHF]; [exists []; split; constructor|]. cbn [map] in PS.
      destruct (IHF (Forall_inv_tail Wc) (Forall_inv_tail PS)) as (ts & T1 & T2). pose proof (Forall_inv PS) as L. cbv beta in L. pose proof (Forall_inv Wc) as W1.
      destruct (ExtractStr json_heap (StampJSONHashEl 0) c) as [rs c'] eqn:Q. cbn [fst] in F1. subst rs.
      apply (hashel_inv json_heap _ _ c s c' TS TP W1) in Q as (a & c1 & v & Q1 & Q2 & ->).
      change (ExtractStr json_heap StampJSONString c) with (JSONStringExtractStr c) in Q1.
      destruct (content c) as [|x xs] eqn:Qc.
      { pose proof (C12_short DictLCAlphaSmall c [] (conj W1 Qc) ltac:(reflexivity)) as (b2 & E2 & _).
        unfold JSONStringExtractStr in Q1. rewrite (bind_ood _ _ _ _ E2) in Q1. discriminate Q1. }
      destruct (word_run x) as [_ Wx]. destruct (Wx c xs (conj W1 Qc)) as (b2 & E2 & Hb2).
      assert (a = [quote] ++ word x ++ [quote] /\ c1 = b2) as [-> ->] by (split; congruence).
      rewrite zlen_cons in *. pose proof (zlen_nonneg xs).
      destruct (IH b2 xs v c' Hb2 ltac:(lia) Q2) as (t & e & A1 & A2 & _).
      exists ((word x, t) :: ts). cbn [map]. rewrite Qc. split; constructor; try assumption.
      - exists v. split; [exact A2|]. cbn [fst]. rewrite <- !app_assoc. reflexivity.
      - exists x, xs, e. split; [reflexivity|split; [reflexivity|exact A1]]. }
    destruct T as (ms & T1 & T2).
    rewrite drop_empty_id by (clear - T1; induction T1 as [|m s ms ss (v & _ & ->) T IHT]; constructor; [discriminate|assumption]).
    exists (JObj ms), (content b'). split; [exact (dec_obj word front r _ _ ms Ef C22 P T2)|]. split; [apply t_obj, pairs_of; exact T1|split; [exact Wb'|reflexivity]].
Qed.

(** ** Depth and number of values *)
Lemma decodes_min : forall d t rest, decodes word d t rest -> 10 <= zlen d.
Proof.
  intros d t rest [front r rest' z H1 (R & _) _|front r rest' z H1 (R & _) _|front c rest' H1 H2|front r cs rest' ts H1 H2 _ _|front r cs rest' ms H1 H2 _ _];
    rewrite ?zlen_app in *; try (change (width Long) with 8 in R); try (change (width ULong) with 8 in R); pose proof (zlen_nonneg rest'); lia.
Qed.

Lemma max_le l m : 0 <= m -> Forall (fun x => x <= m) l -> maximum l <= m.
Proof. intros Hm. induction 1 as [|x l H F IH]; [exact Hm|]. cbn [maximum fold_right]. fold (maximum l). lia. Qed.

Lemma parted_len mn r cs rest : parted mn r cs rest -> 2 + 2 * zlen cs + sum (map (fun c => zlen c) cs) <= zlen r.
Proof.
  intros (o & os & -> & L & _). rewrite !zlen_app, le16_len, oracles_len. pose proof (zlen_nonneg rest).
  assert (zlen os = zlen cs) by (unfold zlen; lia). assert (X : zlen (concat cs) = sum (map (fun c => zlen c) cs)).
  { clear. induction cs as [|c cs IH]; [reflexivity|]. cbn [concat map sum fold_right]. fold (sum (map (fun c => zlen c) cs)). rewrite zlen_app, IH. reflexivity. }
  lia.
Qed.

Lemma decodes_bounds : forall n d t rest, zlen d < Z.of_nat n -> decodes word d t rest ->
  10 + 6 * depth t <= zlen d /\ 10 * scalars t <= zlen d /\ 0 <= depth t.
Proof.
  induction n as [|n IH]; intros d t rest Hn D; [pose proof (zlen_nonneg d); lia|]. pose proof (decodes_min d t rest D) as Hd.
  destruct D as [front r rest z H1 R H2|front r rest z H1 R H2|front c rest H1 H2|front r cs rest ts H1 H2 P F|front r cs rest ms H1 H2 P F]; cbn [depth scalars]; try lia.
  - pose proof (parted_len _ _ _ _ P) as L. rewrite zlen_app in *.
    assert (X : Forall (fun x => 6 * x <= zlen r - 14) (map depth ts) /\ 10 * sum (map scalars ts) <= sum (map (fun c => zlen c) cs) /\ 0 <= maximum (map depth ts)
      /\ 0 <= sum (map (fun c => zlen c) cs)).
    { assert (L' : 4 * Z.min 1 (zlen cs) + sum (map (fun c => zlen c) cs) <= zlen r) by (pose proof (zlen_nonneg cs); lia).
      clear - IH F L L' Hn H1.
      assert (G : forall m, m = zlen r -> 4 <= m - sum (map (fun c => zlen c) cs) \/ cs = [] -> Forall (fun x => 6 * x <= m - 14) (map depth ts) /\ 10 * sum (map scalars ts) <= sum (map (fun c => zlen c) cs) /\ 0 <= maximum (map depth ts)
      /\ 0 <= sum (map (fun c => zlen c) cs)).
      { intros m Em. clear L L'. subst m. induction F as [|c t cs ts (e & D) F IHF]; intros Q; [repeat split; cbn; try lia; constructor|].
        cbn [map sum fold_right] in *. fold (sum (map (fun c => zlen c) cs)) in *. fold (sum (map scalars ts)) in *.
        destruct Q as [Q|Q]; [|discriminate Q]. pose proof (zlen_nonneg c).
        destruct IHF as (I1 & I2 & I3 & I4); [left; lia|]. destruct (IH c t e ltac:(lia) D) as (J1 & J2 & J3).
        split; [constructor; [lia|exact I1]|]. split; [lia|]. split; [cbn [maximum fold_right]; fold (maximum (map depth ts)); lia|lia]. }
      apply (G (zlen r) eq_refl). destruct cs as [|c cs]; [right; reflexivity|left]. rewrite zlen_cons in L. pose proof (zlen_nonneg cs). lia. }
    destruct X as (X1 & X2 & X3 & X4). pose proof (zlen_nonneg cs). split; [|split; [lia|lia]].
    enough (maximum (map depth ts) <= (zlen r - 14) / 6) by (pose proof (Z.mul_div_le (zlen r - 14) 6 ltac:(lia)); lia).
    apply max_le; [apply Z.div_pos; lia|]. eapply Forall_impl; [|exact X1]. cbv beta. intros a Ha. apply Z.div_le_lower_bound; lia.
  - pose proof (parted_len _ _ _ _ P) as L. rewrite zlen_app in *.
    set (dp := fun m : bytes * jtree => depth (snd m)). set (sc := fun m : bytes * jtree => scalars (snd m)).
    assert (X : Forall (fun x => 6 * x <= zlen r - 14) (map dp ms) /\ 10 * sum (map sc ms) <= sum (map (fun c => zlen c) cs) /\ 0 <= maximum (map dp ms)
      /\ 0 <= sum (map (fun c => zlen c) cs)).
    { clear - IH F L Hn H1.
      assert (G : 4 <= zlen r - sum (map (fun c => zlen c) cs) \/ cs = [] -> Forall (fun x => 6 * x <= zlen r - 14) (map dp ms) /\ 10 * sum (map sc ms) <= sum (map (fun c => zlen c) cs) /\ 0 <= maximum (map dp ms)
      /\ 0 <= sum (map (fun c => zlen c) cs)).
      { clear L. induction F as [|c t cs ts (k & v & e & -> & _ & D) F IHF]; intros Q; [repeat split; cbn; try lia; constructor|].
        cbn [map sum fold_right] in *. fold (sum (map (fun c => zlen c) cs)) in *. fold (sum (map sc ts)) in *.
        destruct Q as [Q|Q]; [|discriminate Q]. rewrite zlen_cons in *. pose proof (zlen_nonneg v).
        destruct IHF as (I1 & I2 & I3 & I4); [left; lia|]. destruct (IH v (snd t) e ltac:(lia) D) as (J1 & J2 & J3).
        change (depth (snd t)) with (dp t) in *. change (scalars (snd t)) with (sc t) in *.
        split; [constructor; [lia|exact I1]|]. split; [lia|]. split; [cbn [maximum fold_right]; fold (maximum (map dp ts)); lia|lia]. }
      apply G. destruct cs as [|c cs]; [right; reflexivity|left]. rewrite zlen_cons in L. pose proof (zlen_nonneg cs). lia. }
    destruct X as (X1 & X2 & X3 & X4). pose proof (zlen_nonneg cs). split; [|split; [lia|lia]].
    enough (maximum (map dp ms) <= (zlen r - 14) / 6) by (pose proof (Z.mul_div_le (zlen r - 14) 6 ltac:(lia)); lia).
    apply max_le; [apply Z.div_pos; lia|]. eapply Forall_impl; [|exact X1]. cbv beta. intros a Ha. apply Z.div_le_lower_bound; lia.
Qed.
