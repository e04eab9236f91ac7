(** C66: from how many bytes on a stamp works. *)
From Verif Require Import Base BaseFacts Blob BlobSpec RunSpec RunFacts Sim Arithm ArithSpec ArithFacts StampDict DictWords DictSpec DictFacts StampText Galley Stamps StampsEq Json
  LeafSpec TermSpec TextSpec TextFacts Prop_Arithm Prop_Dict Prop_Text VectorSpec SetSpec LotSpec ContractSpec ContractFacts Prop_Contract JsonFacts NeedSpec NeedFacts.
Local Open Scope Z_scope.

(** With the bytes it needs a stamp returns a string, whatever they are; with fewer it throws OutOfData, whatever
    they are. *)
Theorem C66_threshold : forall (h : heap blob) N x k b d, graph_well h N -> N < 2 ^ 31 -> well h N x -> needs h x k ->
  holds b d -> zlen d <= N ->
  (k <= zlen d -> exists v rest, runs (ExtractStr h x) b (Ok v) rest)
  /\ (zlen d < k -> exists rest, runs (ExtractStr h x) b OutOfData rest).
Proof. intros h N x k b d G HN W H Hb Hd. exact (need_threshold h N G HN x k H W b d Hb Hd). Qed.
Print Assumptions C66_threshold.

(** That is never more than minSize(). *)
Theorem C66_at_most : forall (h : heap blob) N x k m, graph_well h N -> well h N x -> needs h x k -> minSize h x = Ok m -> k <= m.
Proof. intros h N x k m G W H Hm. exact (need_at_most h N G x k H W m Hm). Qed.
Print Assumptions C66_at_most.

(** The library's elementary stamps: numbers need their size, dictionary words their index, texts and JSON strings
    one byte. *)
Theorem C66_leaves :
  (forall t, t <> LDouble -> strict (sizeof t) (ArithExtractStr t) /\ exact_take (sizeof t) (ArithExtractStr t))
  /\ (forall d, strict (DictMinSize d) (DictExtractStr d) /\ (d <> [] -> zlen d <= 2 ^ 53 -> exact_take (DictMinSize d) (DictExtractStr d)))
  /\ (strict 1 JSONStringExtractStr /\ exact_take 1 JSONStringExtractStr)
  /\ strict 1 Latin1ExtractStr /\ strict 1 ASCIIExtractStr
  /\ forall k ex, exact_take k ex -> safe k ex.
Proof.
  split; [|split; [|split; [|split; [|split]]]].
  - intros t Ht. split; [|exact (arith_take t Ht)]. intros b d Hb Hd. exists d. rewrite <- width_sizeof in Hd. apply (C06_short t b d Hb Hd).
  - intros d. split; [|exact (dict_take d)]. intros b l Hb Hl. exists l. exact (C12_short d b l Hb Hl).
  - split.
    + intros b l Hb Hl. destruct (C12_short DictLCAlphaSmall b l Hb Hl) as (b' & E & R). exists l, b'. split; [|exact R].
      unfold JSONStringExtractStr. exact (bind_ood _ _ _ _ E).
    + intros b l Hb Hl. destruct (string_run b l Hb) as (w & _ & R); [intros ->; change (@zlen byte []) with 0 in Hl; lia|].
      eexists _, _. split; [exact R|]. change (skipn 1 l) with (skipn (Z.to_nat 1) l). rewrite zlen_skipn; lia.
  - intros b l Hb Hl. assert (l = []) as -> by (destruct l; [reflexivity|rewrite zlen_cons in Hl; pose proof (zlen_nonneg l); lia]).
    exists []. apply C16_empty. exact Hb.
  - intros b l Hb Hl. assert (l = []) as -> by (destruct l; [reflexivity|rewrite zlen_cons in Hl; pose proof (zlen_nonneg l); lia]).
    exists []. apply C16_empty. exact Hb.
  - intros k ex H b d Hb Hd. destruct (H b d Hb Hd) as (v & r & R & _). exists v, r. exact R.
Qed.
Print Assumptions C66_leaves.

(** The JSON stamps: a hash element asks for minSize() 18 and works from 11 bytes on, an array asks for 14 and
    returns "[]" from 10 on. *)
Theorem C66_json :
  needs json_heap StampJSONInt 8 /\ needs json_heap StampJSONFloat 8 /\ needs json_heap StampJSONString 1
  /\ needs json_heap StampJSON 10 /\ needs json_heap (StampJSONArray 0) 10
  /\ needs json_heap (StampJSONHashEl 0) 11 /\ needs json_heap (StampJSONHash 0) 18.
Proof.
  destruct C66_leaves as (A & _ & (J1 & J2) & _ & _ & S).
  assert (P : needs json_heap StampJSON 10).
  { apply (n_pool json_heap 0 json_members 10 8); [exact json_pool_of| |exact json_min]. split.
    - exists StampJSONInt, (8, 8). split; [left; reflexivity|]. split; [split; reflexivity|reflexivity].
    - intros y s Hy R. pose proof json_reports as F. revert Hy. assert (M : Forall (fun s => 8 <= fst s) json_sizes) by (repeat constructor; cbn; lia).
      clear - F R M. induction F as [|x t xs L Rx F IH]; intros Hy; [destruct Hy|]. destruct Hy as [->|Hy]; [|exact (IH (Forall_inv_tail M) Hy)].
      rewrite (LotFacts.report_fun _ _ _ _ R Rx). exact (Forall_inv M). }
  assert (AT : forall t, t <> LDouble -> sizeof t = 8 -> strict 8 (ArithExtractStr t) /\ safe 8 (ArithExtractStr t)).
  { intros t Ht <-. destruct (A t Ht) as [A1 A2]. split; [exact A1|exact (S _ _ A2)]. }
  split; [apply n_leaf; [cbn; lia|apply AT; [discriminate|reflexivity]..]|].
  split; [apply n_leaf; [cbn; lia|apply AT; [discriminate|reflexivity]..]|].
  split; [apply n_leaf; [lia|exact J1|exact (S _ _ J2)]|]. split; [exact P|].
  split; [refine (n_vec json_heap _ _ (10, -1) _); split; reflexivity|].
  split; [exact (n_hashel json_heap 8 8 _ 1 _ 10 ltac:(lia) J1 J2 P ltac:(lia))|].
  refine (n_vec json_heap _ _ (18, -1) _); split; reflexivity.
Qed.
Print Assumptions C66_json.

(** ** Cases *)
(** The list of sums of C41: minSize() 7, needs 3 bytes; a sum needs 10. *)
Example C66_case : graph_well sums 65538 /\ well sums 65538 sum_list /\ minSize sums sum_list = Ok 7 /\ needs sums sum_list 3
  /\ needs sums (XLot 0) 3 /\ needs sums (XBinary (lit "+") (XLot 0) (XLot 0)) 10.
Proof.
  destruct C41_case as (G & W & M). do 3 (split; [assumption|]). split; [refine (n_vec sums _ _ (3, -1) _); split; reflexivity|]. split.
  - refine (n_lot sums 0 _ 2 eq_refl _). split; [eexists _, (2, 2); split; [left; reflexivity|]; split; [split; reflexivity|reflexivity]|].
    intros y s [<-|[<-|[]]] (R & _); [change (Ok 2 = Ok (fst s)) in R|change (Ok 10 = Ok (fst s)) in R]; injection R; lia.
  - refine (n_binary sums _ _ _ [(3, -1); (3, -1)] _); repeat constructor.
Qed.

(** StampJSON below and at 10 bytes. *)
Example C66_json_case : fst (ExtractStr json_heap StampJSON (blob_of (lit "123456789"))) = OutOfData
  /\ fst (ExtractStr json_heap (StampJSONArray 0) (blob_of (lit "1234567890"))) = Ok (lit "[]").
Proof. vm_compute. split; reflexivity. Qed.
