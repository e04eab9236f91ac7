(** C41: given minSize() bytes, well-made stamps return a string, however they are nested. *)
From Flocq Require Import Binary Bits.
From Verif Require Import Base BaseFacts Blob BlobSpec RunSpec RunFacts Sim Arithm ArithSpec ArithFacts StampDict DictWords DictSpec DictFacts StampText Galley Stamps StampsEq Json
  LeafSpec TermSpec TextSpec TextFacts Prop_Arithm Prop_FloatText Prop_Dict Prop_Text Prop_Termination VectorSpec SetSpec LotSpec ContractSpec ContractFacts.
Local Open Scope Z_scope.

(** Any stamp [x] put together from safe stamps with enumerators, operators, sets, pools and lotteries, in a
    graph with any recursion through the pools and lotteries, on any data of minSize() bytes or more. *)
Theorem C41_composed : forall (h : heap blob) N x m b d, graph_well h N -> N < 2 ^ 31 -> well h N x ->
  minSize h x = Ok m -> holds b d -> m <= zlen d <= N ->
  exists v rest, runs (ExtractStr h x) b (Ok v) rest.
Proof.
  intros h N x m b d G HN W Em Hb Hd.
  destruct (well_runs h N G HN (S (Z.to_nat (zlen d))) x W m b d Em Hb Hd ltac:(lia)) as (v & b' & E & Wb).
  exists v, (content b'), b'. split; [exact E|]. split; [exact Wb|reflexivity].
Qed.
Print Assumptions C41_composed.

(** The library's own elementary stamps are safe (long double is the exception, see C07). *)
Theorem C41_leaves :
  (forall t, t <> LDouble -> thrifty (sizeof t) (ArithExtractStr t))
  /\ (forall d, d <> [] -> zlen d <= 2 ^ 53 -> thrifty (DictMinSize d) (DictExtractStr d))
  /\ thrifty 8 JSONStringExtractStr /\ safe 1 Latin1ExtractStr /\ safe 1 ASCIIExtractStr
  /\ forall mn ex, thrifty mn ex -> safe mn ex.
Proof.
  assert (TD : forall d, d <> [] -> zlen d <= 2 ^ 53 -> thrifty (DictMinSize d) (DictExtractStr d)).
  { intros d Hd Hs b l Hb Hl. destruct (C12_word d b l Hd Hs Hb Hl) as (w & _ & R). exists w, (skipn (Z.to_nat (DictMinSize d)) l). split; [exact R|].
    rewrite zlen_skipn; [lia|]. split; [|exact Hl]. destruct (C14_width d) as (W1 & W2 & W3 & _).
    destruct (Z_le_gt_dec (zlen d) 256); [lia|]. destruct (Z_le_gt_dec (zlen d) 65536); lia. }
  split; [|split; [exact TD|split; [|split; [|split]]]].
  - intros t Ht b l Hb Hl. pose proof (sizeof_range t) as SR.
    enough (K : exists v, runs (ArithExtractStr t) b (Ok v) (skipn (Z.to_nat (sizeof t)) l))
      by (destruct K as (v & K); eexists _, _; split; [exact K|rewrite zlen_skipn; lia]).
    assert (Hb' : holds b (firstn (Z.to_nat (sizeof t)) l ++ skipn (Z.to_nat (sizeof t)) l)) by (rewrite firstn_skipn; exact Hb).
    assert (KI : int_type t -> exists v, represents t v (firstn (Z.to_nat (sizeof t)) l)).
    { intros Hi. rewrite <- width_sizeof in Hl |- *. destruct (C06_extract t b l Hi Hb Hl) as (v & _ & R & _). exists v. exact R. }
    assert (KC : t = Char \/ t = SChar -> exists v, runs (ArithExtractStr t) b (Ok v) (skipn (Z.to_nat (sizeof t)) l)).
    { intros Hc. destruct KI as (v & R); [destruct Hc as [-> | ->]; repeat split; discriminate|].
      destruct (C07_char t b _ _ v Hc R Hb') as [C1 C2]. destruct (Z_le_gt_dec (-99) v).
      - destruct (C1 ltac:(lia)) as (s & E & _). exists s. exact E.
      - destruct (C2 ltac:(lia)) as (s & _ & _ & E & _). eexists. exact E. }
    assert (KD : int_type t -> t <> Char -> t <> SChar -> exists v, runs (ArithExtractStr t) b (Ok v) (skipn (Z.to_nat (sizeof t)) l)).
    { intros Hi H1 H2. destruct (KI Hi) as (v & R). destruct (C07_decimal t b _ _ v Hi H1 H2 R Hb') as (s & E & _). exists s. exact E. }
    destruct t; try congruence; try (apply KC; auto; fail); try (apply KD; [repeat split|..]; discriminate).
    + destruct (C06_extract UInt b l ltac:(repeat split; discriminate) Hb Hl) as (v & _ & R & _).
      destruct (C08_float b _ _ v R Hb') as (F1 & F2 & F3).
      destruct (b32_of_bits v) as [sg| sg|sg pl e|sg mm e e0] eqn:Q; [destruct (F1 eq_refl) as (s & E & _)|pose proof (F3 eq_refl eq_refl) as E|pose proof (F2 eq_refl) as E|destruct (F1 eq_refl) as (s & E & _)]; eexists; exact E.
    + destruct (C06_extract ULong b l ltac:(repeat split; discriminate) Hb Hl) as (v & _ & R & _).
      destruct (C08_double b _ _ v R Hb') as (F1 & F2 & F3).
      destruct (b64_of_bits v) as [sg| sg|sg pl e|sg mm e e0] eqn:Q; [destruct (F1 eq_refl) as (s & E & _)|pose proof (F3 eq_refl eq_refl) as E|pose proof (F2 eq_refl) as E|destruct (F1 eq_refl) as (s & E & _)]; eexists; exact E.
  - intros b l Hb Hl. destruct (TD DictLCAlphaSmall) with (b := b) (d := l) as (v & r & (b' & E & W & C) & L); [discriminate| |exact Hb|change (DictMinSize DictLCAlphaSmall) with 1; lia|].
    { change (zlen DictLCAlphaSmall) with 254. lia. }
    change (DictMinSize DictLCAlphaSmall) with 1 in L. eexists _, r. split; [|lia]. exists b'. split; [|split; [exact W|exact C]].
    unfold JSONStringExtractStr. rewrite (bind_ok _ _ _ _ _ E). reflexivity.
  - intros b l Hb Hl. destruct (C16_latin1 b l Hb) as (s & R & _); [intros ->; change (@zlen byte []) with 0 in Hl; lia|]. exists s, []. exact R.
  - intros b l Hb Hl. destruct (C16_ascii b l Hb) as (s & R & _); [intros ->; change (@zlen byte []) with 0 in Hl; lia|]. exists s, []. exact R.
  - intros mn ex H b l Hb Hl. destruct (H b l Hb Hl) as (v & r & R & _). exists v, r. exact R.
Qed.
Print Assumptions C41_leaves.

(** Up to 65538 bytes no enumerator meets a size limit. *)
Theorem C41_limits : forall mn mx, 0 <= mn < 2 ^ 31 - 4 -> mx = -1 \/ mn < mx \/ (0 < mn /\ mx = mn) -> element_ok 65538 (mn, mx).
Proof.
  intros mn mx H [->|[Hm|Hm]]; unfold element_ok; cbn [fst snd]; [|lia|lia]. right. right. repeat split; try lia.
  unfold parts. assert ((65538 - 2) / (mn + 2) <= (65538 - 2) / 2) by (apply Z.div_le_compat_l; lia). change ((65538 - 2) / 2) with 32768 in *. lia.
Qed.
Print Assumptions C41_limits.

(** Lists of formulas over numbers and recursively nested sums, from a StampLottery4Recursion built as in the
    examples of the library. *)
Definition sums : heap blob :=
  mkHeap [] [mkLottery [XLeaf 2 2 (ArithExtractStr Short); XBinary (lit "+") (XLot 0) (XLot 0)]
    (lot_grow 1 (lot_new [(2, 2)]) [(10, -1)]) true].
Definition sum_list : sx blob := XVec (enum_text (lit ", ") (lit "[") (lit "]")) (XLot 0).

Example C41_case : graph_well sums 65538 /\ well sums 65538 sum_list /\ minSize sums sum_list = Ok 7.
Proof.
  assert (Ts : safe 2 (ArithExtractStr Short)) by (destruct C41_leaves as (A & _ & _ & _ & _ & B); apply B, (A Short); discriminate).
  split; [|split; [|reflexivity]].
  - split; [intros [|p] Hp; cbn in Hp; congruence|]. intros [|[|l]] Hl; [|cbn in Hl; congruence|cbn in Hl; congruence].
    eexists _, [(2, 2); (10, -1)], [(2, 2); (10, -1)]. split; [reflexivity|]. split.
    { exists [(2, 2)], [(10, -1)], (lot_new [(2, 2)]). split; [reflexivity|]. split; [left; reflexivity|]. split; reflexivity. }
    split. { repeat apply Forall_cons; [constructor; [apply C46_leaves|exact Ts]| |constructor].
      apply w_binary with (L := [(3, -1); (3, -1)]); [constructor|constructor|repeat constructor| |reflexivity].
      split; [|split; reflexivity]. repeat constructor; cbn; lia. }
    split; [repeat constructor|]. split; [repeat constructor; cbn; lia|]. split; [cbn; lia|].
    intros m Hm. change (Ok 3 = Ok m) in Hm. injection Hm as <-. apply Exists_cons_hd. cbn. lia.
  - apply w_vec with (s := (3, -1)); [constructor|repeat constructor|cbn; lia|cbn; lia|]. apply C41_limits; [lia|left; reflexivity].
Qed.
