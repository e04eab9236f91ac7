(** C64: every list can come out of a vector. *)
From Verif Require Import Base BaseFacts Blob BlobSpec RunSpec RunFacts Sim Oracle OracleFacts Arithm ArithSpec ArithFacts StampDict DictWords DictSpec DictFacts
  StampText TextSpec Galley Stamps StampsEq VectorSpec VectorFacts LeafSpec TermSpec ShrinkFacts TermFacts NestFacts ReachFacts VectorFloat VectorUnbounded VectorUnbounded ReachVector
  Prop_Arithm Prop_Dict Prop_Vector Prop_Enum Prop_Termination.
Local Open Scope Z_scope.

(** Elements of fixed size: the data are the chunks themselves; fewer bytes than a chunk are left over. *)
Theorem C64_fixed : forall k chunks rest b, 0 < k < 2 ^ 31 -> chunks <> [] -> Forall (fun c => zlen c = k) chunks -> zlen rest < k ->
  holds b (concat chunks ++ rest) -> cuts (vector_extract k k) b chunks rest.
Proof.
  intros k chunks rest b Hk Hn Hc Hr Hb.
  assert (HL : k <= zlen (concat chunks ++ rest)).
  { destruct chunks as [|c cs]; [congruence|]. cbn [concat]. rewrite !zlen_app. pose proof (Forall_inv Hc) as X. cbv beta in X.
    pose proof (zlen_nonneg (concat cs)). pose proof (zlen_nonneg rest). lia. }
  destruct (C17_fixed k b _ Hk Hb HL) as (cs & r & C & E & F & _ & Lr).
  destruct (same_chunks k chunks cs rest r Hc F Hr) as [-> ->]; [rewrite Lr; apply Z.mod_pos_bound; lia|exact E|exact C].
Qed.
Print Assumptions C64_fixed.

(** Elements of limited size: any chunks of allowed sizes. *)
Theorem C64_variated : forall mn mx chunks, 0 <= mn < mx -> mx < 2 ^ 31 -> mn + 2 < 2 ^ 31 ->
  mx - mn + 1 <= 65536 -> mx - mn + 1 <> 65522 -> mx - mn + 1 <> 65524 ->
  chunks <> [] -> Forall (fun c => mn <= zlen c <= mx) chunks ->
  exists d, zlen d = zlen (concat chunks) + 2 * zlen chunks /\ forall b, holds b d -> cuts (vector_extract mn mx) b chunks [].
Proof.
  intros mn mx chunks Hm Hx Hs H1 H2 H3 Hn Hc. destruct (variated_data mn mx chunks Hm H1 H2 H3 Hx Hc) as (d & Ld & V).
  exists d. split; [exact Ld|]. intros b Hb.
  assert (HL : mn <= zlen d).
  { destruct chunks as [|c cs]; [congruence|]. pose proof (Forall_inv Hc) as X. cbv beta in X. cbn [concat] in Ld. rewrite zlen_app, zlen_cons in Ld.
    pose proof (zlen_nonneg (concat cs)). pose proof (@zlen_nonneg bytes cs). pose proof (@zlen_nonneg (list byte) cs). lia. }
  destruct (C18_variated mn mx b d Hm Hx Hs Hb HL) as (cs & r & C & V' & _).
  destruct (variated_cut_fun _ _ _ _ _ V _ _ V') as [-> <-]. exact C.
Qed.
Print Assumptions C64_variated.

(** Elements of unlimited size: one chunk, any; several, with a last byte that may or may not be part of the last chunk. *)
Theorem C64_unbounded_one : forall mn c, 0 <= mn <= zlen c -> zlen c <= 32767 ->
  exists head, zlen head = 4 /\ forall b, holds b (head ++ c) -> cuts (vector_extract mn (-1)) b [c] [].
Proof.
  intros mn c Hm Hc. destruct (vector_reach_any mn [] (zlen c)) as (head & k' & Lh & [->|[_ X]] & R); [lia|cbn; lia|constructor|lia|congruence|change (sum []) with 0; lia| |congruence].
  exists head. split; [exact Lh|]. intros b Hb. refine (cuts_transfer _ _ b _ [c] [] (sim_vector_extract mn (-1)) Hb _).
  specialize (R [] c [] eq_refl eq_refl). cbn [concat app] in R. rewrite app_nil_r in R. exact (R eq_refl).
Qed.
Print Assumptions C64_unbounded_one.

Theorem C64_unbounded : forall mn chunks c x, 0 <= mn -> zlen chunks < 16384 -> Forall (fun c => mn <= zlen c) chunks -> mn <= zlen c ->
  zlen (concat chunks) + zlen c < 32767 ->
  exists head, zlen head = 4 + 2 * zlen chunks /\
    forall b, holds b (head ++ concat chunks ++ c ++ [x]) ->
      cuts (vector_extract mn (-1)) b (chunks ++ [c]) [x] \/ cuts (vector_extract mn (-1)) b (chunks ++ [c ++ [x]]) [].
Proof.
  intros mn chunks c x Hm Hn Hf Hc Ht. destruct (vector_reach_any mn (map zlen chunks) (zlen c + 1)) as (head & k' & Lh & Hk & R).
  - exact Hm.
  - rewrite zlen_map. exact Hn.
  - rewrite Forall_map. exact Hf.
  - lia.
  - lia.
  - rewrite <- concat_sum. lia.
  - exists head. rewrite zlen_map in Lh. split; [exact Lh|]. intros b Hb. destruct Hk as [->|[-> _]].
    + right. refine (cuts_transfer _ _ b _ _ [] (sim_vector_extract mn (-1)) Hb _).
      specialize (R chunks (c ++ [x]) [] eq_refl). rewrite app_nil_r in R. apply R; rewrite zlen_app; reflexivity.
    + left. refine (cuts_transfer _ _ b _ _ [x] (sim_vector_extract mn (-1)) Hb _).
      apply (R chunks c [x] eq_refl); [lia|rewrite zlen_app; reflexivity].
Qed.
Print Assumptions C64_unbounded.

(** So every list of values that a stamp of fixed size can give one by one, ... *)
Theorem C64_values : forall A k (ex : M blob A) vals, 0 < k < 2 ^ 31 -> vals <> [] ->
  Forall (fun v => exists w, zlen w = k /\ forall c, holds c w -> fst (ex c) = Ok v) vals ->
  exists d, zlen d = k * zlen vals /\ forall b, holds b d -> runs (ExtractVector k k ex) b (Ok vals) [].
Proof.
  intros A k ex vals Hk Hn H.
  assert (K : exists ws, Forall (fun w => zlen w = k) ws /\ Forall2 (fun w v => forall c, holds c w -> fst (ex c) = Ok v) ws vals).
  { clear Hn. induction H as [|v vals (w & Lw & Hw) H (ws & I1 & I2)]; [exists []; split; constructor|]. exists (w :: ws). split; constructor; assumption. }
  destruct K as (ws & W1 & W2). exists (concat ws ++ []).
  assert (LN : zlen ws = zlen vals) by (unfold zlen; f_equal; clear - W2; induction W2; cbn; congruence).
  split.
  - rewrite zlen_app, concat_sum. change (zlen []) with 0. rewrite <- LN. clear - W1. induction W1 as [|w ws E W1 IH]; [cbn; lia|]. cbn [map sum fold_right]. fold (sum (map zlen ws)). rewrite zlen_cons. lia.
  - intros b Hb. assert (C : cuts (vector_extract k k) b ws []).
    { apply C64_fixed; [exact Hk|intros ->; inversion W2; congruence|exact W1|change (zlen []) with 0; lia|exact Hb]. }
    destruct C as (cs & b' & E & Hw & Hc & Hb' & Er). exists b'. split; [|split; assumption].
    unfold ExtractVector. rewrite (bind_ok _ _ _ _ _ E). unfold lift. f_equal. clear - Hw Hc W2.
    revert ws vals Hc W2. induction Hw as [|c cs H Hw IH]; intros ws vals <- W2; inversion W2 as [|? v ? vs V1 V2]; subst; [reflexivity|].
    cbn [stamp_each]. rewrite (V1 c) by (split; [exact H|reflexivity]). cbn [rbind]. rewrite (IH _ vs eq_refl V2). reflexivity.
Qed.
Print Assumptions C64_values.

(** ... such as every list of integers of a type. *)
Theorem C64_integers : forall t vals, int_type t -> vals <> [] -> Forall (fun v => lowest t <= v <= highest t) vals ->
  exists d, zlen d = width t * zlen vals /\ forall b, holds b d -> runs (ExtractVector (width t) (width t) (ExtractValue t)) b (Ok vals) [].
Proof.
  intros t vals Ht Hn H. pose proof (sizeof_range t). pose proof (width_sizeof t).
  apply C64_values; [lia|exact Hn|]. eapply Forall_impl; [|exact H]. cbv beta. intros v Hv.
  destruct (C06_every_value t v Ht Hv) as (r & Hr). exists r. split; [exact (proj1 Hr)|]. intros c Hc.
  destruct (C06_round_trip t c v r [] Ht Hr) as (b' & E & _); [rewrite app_nil_r; exact Hc|]. rewrite E. reflexivity.
Qed.
Print Assumptions C64_integers.

(** Enumerators and texts over any stamp of fixed or limited size: every list of texts of its elements. *)
Theorem C64_enumerator : forall (h : heap blob) y mn mx texts, tame_graph h y -> minSize h y = Ok mn -> maxSize h y = Ok mx ->
  (0 < mn /\ mx = mn /\ mn < 2 ^ 31) \/ (0 <= mn < mx /\ mx < 2 ^ 31 /\ mn + 2 < 2 ^ 31 /\ mx - mn + 1 <= 65536 /\ mx - mn + 1 <> 65522 /\ mx - mn + 1 <> 65524) ->
  texts <> [] -> Forall (fun s => s <> [] /\ exists w, mn <= zlen w <= mx /\ forall c, holds c w -> fst (ExtractStr h y c) = Ok s) texts ->
  exists d, (forall b sep left right, holds b d ->
      runs (ExtractStr h (XVec (enum_text sep left right) y)) b (Ok (left ++ separated sep texts ++ right)) [])
    /\ (forall b, holds b d -> runs (ExtractStr h (XVec text_text y)) b (Ok (separated (lit " ") texts)) []).
Proof.
  intros h y mn mx texts T E1 E2 HM Hn H.
  assert (K : exists ws, Forall (fun w => mn <= zlen w <= mx) ws /\ Forall2 (fun w s => forall c, holds c w -> fst (ExtractStr h y c) = Ok s) ws texts).
  { clear Hn. induction H as [|v vals (_ & w & Lw & Hw) H (ws & I1 & I2)]; [exists []; split; constructor|]. exists (w :: ws). split; constructor; assumption. }
  destruct K as (ws & W1 & W2).
  assert (Wn : ws <> []) by (intros ->; destruct texts; [apply Hn; reflexivity|inversion W2]).
  assert (D : exists d, forall b, holds b d -> cuts (vector_extract mn mx) b ws []).
  { destruct HM as [(M1 & -> & M2)|(M1 & M2 & M3 & M4 & M5 & M6)].
    - exists (concat ws ++ []). intros b Hb. apply C64_fixed; [lia|exact Wn| |change (zlen []) with 0; lia|exact Hb].
      eapply Forall_impl; [|exact W1]. cbv beta. intros; lia.
    - destruct (C64_variated mn mx ws M1 M2 M3 M4 M5 M6 Wn W1) as (d & _ & C). exists d. exact C. }
  destruct D as (d & C). exists d.
  assert (DE : drop_empty texts = texts) by (destruct H as [|s ss (S & _) H]; [reflexivity|]; destruct s; [congruence|reflexivity]).
  assert (G : forall b, holds b d -> exists cs b', vector_extract mn mx b = (Ok cs, b') /\ Forall2 (fun c t => fst (ExtractStr h y c) = Ok t) cs texts /\ wf b' /\ content b' = []).
  { intros b Hb. destruct (C b Hb) as (cs & b' & E & Hw & Hc & Hb' & Er). exists cs, b'. split; [exact E|]. split; [|split; assumption].
    clear - Hw Hc W2. revert ws texts Hc W2. induction Hw as [|c cs Hc0 Hw IH]; intros ws texts <- W2; inversion W2 as [|? v ? vs V1 V2]; subst; constructor.
    - apply V1. split; [exact Hc0|reflexivity].
    - exact (IH _ _ eq_refl V2). }
  split.
  - intros b sep left right Hb. destruct (G b Hb) as (cs & b' & E & F & Hb' & Er). exists b'. split; [|split; assumption].
    apply C28_enumerator; [exact T|exact (proj1 Hb)|]. exists mn, mx, cs, texts. rewrite DE. auto.
  - intros b Hb. destruct (G b Hb) as (cs & b' & E & F & Hb' & Er). exists b'. split; [|split; assumption].
    apply C28_text; [exact T|exact (proj1 Hb)|]. exists mn, mx, cs, texts. rewrite DE. auto.
Qed.
Print Assumptions C64_enumerator.

(** Every sequence of words of the built-in dictionary is a text, at one byte a word. *)
Theorem C64_sentences : forall words, words <> [] -> Forall (fun w => In w DictLCAlphaSmall) words ->
  exists d, forall b, holds b d ->
    runs (ExtractStr (mkHeap [] []) (XVec text_text (XLeaf (DictMinSize DictLCAlphaSmall) (DictMaxSize DictLCAlphaSmall) (DictExtractStr DictLCAlphaSmall)))) b
      (Ok (separated (lit " ") words)) [].
Proof.
  intros words Hn H. set (y := XLeaf _ _ _). set (h := mkHeap (B := blob) [] []).
  assert (T : tame_graph h y).
  { split; [split; intros ? ? []|]. apply lv_leaf. apply C46_leaves. }
  destruct (C15_words) as (PW & _ & _ & LW).
  destruct (C64_enumerator h y 1 1 words T eq_refl eq_refl) as (d & _ & G); [left; lia|exact Hn| |exists d; exact G].
  eapply Forall_impl; [|exact H]. cbv beta. intros w Iw. split.
  - rewrite Forall_forall in PW. intros ->. destruct (PW [] Iw) as [X _]. congruence.
  - destruct (In_nth_error _ _ Iw) as (i & Ei). destruct (C13_reachable DictLCAlphaSmall i w ltac:(lia) Ei) as (f & Lf & R).
    exists f. change (DictMinSize DictLCAlphaSmall) with 1 in Lf. split; [lia|]. intros c Hc.
    destruct (R c [] ltac:(rewrite app_nil_r; exact Hc)) as (b' & E & _). unfold ExtractStr, y. rewrite extract_leaf, E. reflexivity.
Qed.
Print Assumptions C64_sentences.

Example C64_case :
  cuts (vector_extract 1 3) (blob_of [x00; x00; x41; xff; xff; x42; x43; x44; x80; x80; x45; x46]) [[x41]; [x42; x43; x44]; [x45; x46]] []
  /\ cuts (vector_extract 0 (-1)) (blob_of [x00; x90; x03; x00; x02; x00; x01; x00; x41; x42; x43]) [[x41]; [x42]; [x43]] []
  /\ In (lit "zanier") DictLCAlphaSmall.
Proof.
  split; [|split].
  - refine (cuts_transfer _ _ _ _ _ _ (sim_vector_extract 1 3) (holds_blob_of _ _) _); [reflexivity|vm_compute; reflexivity].
  - refine (cuts_transfer _ _ _ _ _ _ (sim_vector_extract 0 (-1)) (holds_blob_of _ _) _); [reflexivity|vm_compute; reflexivity].
  - apply (nth_error_In _ 253). reflexivity.
Qed.
