(** C36-C39: StampJSON. *)
From Flocq Require Import IEEE754.Binary IEEE754.Bits.
From Verif Require Import Base BaseFacts Blob BlobSpec BlobFacts RunSpec RunFacts Sim ArithSpec ArithFacts Arithm StampDict DictWords DictSpec DictFacts Galley Stamps StampsEq Json
  VectorSpec VectorFacts Prop_Vector VectorLimits VectorAllSpec VectorAll LotSpec LotFacts Prop_Pool Prop_Dict ContractSpec ContractFacts Prop_Contract JsonSpec JsonGrammar JsonFacts.
Local Open Scope Z_scope.

Theorem C36_sizes :
  minSize (B := blob) json_heap StampJSON = Ok 10 /\ maxSize (B := blob) json_heap StampJSON = Ok (-1)
  /\ pool_of json_heap 0 [StampJSONInt; StampJSONFloat; StampJSONString; StampJSONArray 0; StampJSONHash 0]
  /\ Forall2 (report json_heap) [StampJSONInt; StampJSONFloat; StampJSONString; StampJSONArray 0; StampJSONHash 0]
       [(8, 8); (8, 8); (8, 8); (14, -1); (22, -1)]
  /\ report json_heap (StampJSONHashEl 0) (18, -1).
Proof. split; [reflexivity|]. split; [reflexivity|]. split; [exact json_pool_of|]. split; [exact json_reports|]. split; reflexivity. Qed.
Print Assumptions C36_sizes.

Theorem C37_total : forall b d, holds b d -> 10 <= zlen d <= 393231 ->
  exists v rest, runs JSONExtractStr b (Ok v) rest.
Proof.
  intros b d Hb Hd. destruct (list_split d 2 ltac:(lia)) as (front & r & -> & Ef).
  rewrite zlen_app in Hd.
  destruct (C32_picks json_heap 0 json_members json_sizes b front r json_leaves json_pool_of json_reports json_sane) as (y & s & b1 & Y1 & (R1 & _) & F & _ & Hb1 & E);
    [cbn; lia|exact Hb|exact Ef|apply Exists_cons_hd; unfold fits; cbn; lia|].
  destruct json_well as [WP _]. destruct (WP 0%nat ltac:(discriminate)) as (ys & cur & (P & P1 & P2) & W & _).
  destruct json_pool_of as (P' & P3 & P4). rewrite P3 in P1. injection P1 as <-. rewrite P4 in P2.
  assert (Ey : json_members = ys).
  { clear - P2. revert ys P2. generalize json_members. induction l as [|x l IH]; intros [|z ys] E; try discriminate E; [reflexivity|]. injection E as -> E. f_equal. exact (IH ys E). }
  subst ys. rewrite Forall_forall in W.
  destruct (C41_composed json_heap 393229 y (fst s) b1 r json_well ltac:(lia) (W y Y1) R1 Hb1 ltac:(unfold fits in F; lia)) as (v & rest & b2 & E2 & H2).
  exists v, rest, b2. split; [|exact H2]. unfold JSONExtractStr, StampJSON. rewrite E. exact E2.
Qed.
Print Assumptions C37_total.

Theorem C37_short : forall b d, holds b d -> zlen d < 10 -> exists rest, runs JSONExtractStr b OutOfData rest.
Proof.
  intros b d Hb Hd. destruct (Z_lt_le_dec (zlen d) 2) as [H2|H2].
  - exists d. exact (C32_short json_heap 0 json_members b d json_pool_of Hb H2).
  - destruct (list_split d 2 ltac:(lia)) as (front & r & -> & Ef). exists r. rewrite zlen_app in Hd.
    apply (C32_none json_heap 0 json_members json_sizes 10 b front r json_pool_of json_reports json_sane); try assumption; try lia; [cbn; lia|exact json_min|].
    repeat constructor; unfold fits; cbn [fst]; lia.
Qed.
Print Assumptions C37_short.

(** One byte above the limit, and at every size from there to 24 GiB, there are data for which the sum of the part sizes
    overflows. *)
Theorem C37_limit : forall n, 393232 <= n <= 25768624155 -> exists d, zlen d = n /\ forall b, holds b d -> fst (JSONExtractStr b) = UB.
Proof.
  intros n Hn. set (N := parts 10 (n - 2)).
  assert (HN : 32769 <= N <= 32767 * 65535).
  { unfold N, parts. split; [apply Z.div_le_lower_bound; lia|]. apply Z.lt_succ_r, Z.div_lt_upper_bound; lia. }
  assert (HN2 : 12 * N <= n - 4) by (unfold N, parts; pose proof (Z.mul_div_le (n - 2 - 2) (10 + 2) ltac:(lia)); lia).
  set (o := (32768 * 65535 + N - 1) / N).
  assert (Ho : 32768 * 65535 <= N * o <= 32768 * 65535 + N - 1).
  { unfold o. pose proof (Z.mul_div_le (32768 * 65535 + N - 1) N ltac:(lia)). pose proof (Z.mul_succ_div_gt (32768 * 65535 + N - 1) N ltac:(lia)). nia. }
  assert (Oo : oracle16 o) by (unfold oracle16; nia).
  set (k := part_count 10 (n - 2) o).
  assert (Hk : 32769 <= k <= N).
  { unfold k, part_count. fold N. assert (F : 32768 <= N * o / 65535 <= 65534).
    { split; [apply Z.div_le_lower_bound; lia|]. apply Z.lt_succ_r, Z.div_lt_upper_bound; lia. }
    rewrite Z.mod_small by lia. lia. }
  assert (Ek : count_target 10 (n - 2) o = k) by (apply count_all; [lia|lia|exact Oo]). clearbody k. clearbody o.
  set (os := repeat 65535 (Z.to_nat k)). set (l := repeat x00 (Z.to_nat (n - 4 - 2 * k))).
  assert (Lo : zlen os = k) by (unfold os; rewrite zlen_repeat; lia).
  assert (Ll : zlen l = n - 4 - 2 * k) by (unfold l; rewrite zlen_repeat; lia).
  assert (Fo : Forall oracle16 os) by (apply Forall_forall; intros w Hw; apply repeat_spec in Hw; subst w; unfold oracle16; lia).
  assert (LO : zlen (concat (map le16 os)) = 2 * k).
  { rewrite <- Lo. clear. induction os as [|w os IH]; [reflexivity|]. cbn [map concat]. rewrite zlen_app, IH, zlen_cons. change (zlen (le16 w)) with 2. lia. }
  assert (SO : sum os = 65535 * k).
  { rewrite <- Lo. unfold os. rewrite zlen_repeat. generalize (Z.to_nat k). clear. induction n as [|n IH]; [reflexivity|]. cbn [repeat]. unfold sum in *. cbn [fold_right]. rewrite IH. lia. }
  set (data := le16 o ++ concat (map le16 os) ++ l).
  assert (LD : zlen data = n - 2) by (unfold data; rewrite !zlen_app, LO, Ll; change (zlen (le16 o)) with 2; lia).
  destruct (C32_reach json_heap 0 json_members json_sizes (StampJSONArray 0) (14, -1) data json_leaves json_pool_of json_reports json_sane) as (front & Ef & R).
  { cbn; lia. } { right; right; right; left; reflexivity. } { split; reflexivity. } { unfold fits. cbn [fst]. lia. } { left. left. reflexivity. }
  exists (front ++ data). split; [rewrite zlen_app; lia|]. intros b Hb. destruct (R b Hb) as (b1 & Hb1 & E). unfold JSONExtractStr, StampJSON. rewrite E.
  assert (UBV : fst (vector_extract 10 (-1) b1) = UB).
  { apply (run_transfer_ub _ _ _ b1 data (sim_vector_extract 10 (-1)) Hb1). apply oracles_overflow; [lia|exact Oo|exact Fo|fold data; lia| |lia].
    fold data. rewrite LD, Lo, Ek. reflexivity. }
  unfold ExtractStr, StampJSONArray. rewrite extract_vec. unfold bind at 1. change (minSize json_heap (XPool 0)) with (@Ok Z 10). cbn [lift].
  unfold bind at 1. change (maxSize json_heap (XPool 0)) with (@Ok Z (-1)). cbn [lift]. unfold bind at 1. unfold ExtractVector. unfold bind at 1.
  destruct (vector_extract 10 (-1) b1) as [rr b2]. cbn [fst] in UBV. subst rr. reflexivity.
Qed.
Print Assumptions C37_limit.

(** The output is the text of a tree of numbers read from the data and of dictionary words; it is a JSON
    text exactly if the doubles in the tree are finite. *)
Theorem C38_json : forall b d s b', holds b d -> JSONExtractStr b = (Ok s, b') ->
  exists t, text t s /\ drawn d t /\ (json_text s <-> Forall finite (doubles t)).
Proof.
  intros b d s b' Hb E. destruct (json_tree (S (Z.to_nat (zlen d))) b d s b' Hb ltac:(lia) E) as (t & H1 & H2).
  exists t. split; [exact H1|]. split; [exact H2|]. exact (text_iff t s H1 (drawn_words d t H2)).
Qed.
Print Assumptions C38_json.

(** So if no 8 consecutive bytes of the data encode a NaN or infinity the output is JSON. *)
Theorem C38_finite_data : forall b d s b', holds b d -> JSONExtractStr b = (Ok s, b') ->
  (forall bits r, represents ULong bits r -> within r d -> finite bits) -> json_text s.
Proof.
  intros b d s b' Hb E HF. destruct (C38_json b d s b' Hb E) as (t & _ & H2 & H3). apply H3.
  eapply Forall_impl; [|exact (drawn_doubles d t H2)]. cbv beta. intros bits (r & R1 & R2). exact (HF bits r R1 R2).
Qed.
Print Assumptions C38_finite_data.

(** 10 bytes for which the output is not JSON. *)
Definition nan_data : bytes := [x00; x80; x00; x00; x00; x00; x00; x00; xf8; x7f].
Theorem C38_nan : fst (JSONExtractStr (blob_of nan_data)) = Ok (lit "nan") /\ ~ json_text (lit "nan").
Proof.
  split; [vm_compute; reflexivity|]. apply bad_not_json. exists [], (lit "nan"). split; [apply seg_plain; repeat constructor; discriminate|].
  intros r. reflexivity.
Qed.
Print Assumptions C38_nan.

(** 20 bytes for which it is: an array. *)
Definition array_data : bytes := [x00; x00; x00; x00; x00; x00; x00; x00; xff; xff; xff; xff; xff; xff; xff; xff; xff; xff; xff; xff].
Example C38_case : fst (JSONExtractStr (blob_of array_data)) = Ok (lit "[-1]") /\ json_text (lit "[-1]").
Proof.
  split; [vm_compute; reflexivity|]. apply element_value. apply (v_array (lit "-1")), es_one, element_value, v_number. apply (read_int_number _ (-1)). reflexivity.
Qed.

Example C37_case : holds (blob_of nan_data) nan_data /\ zlen nan_data = 10 /\ holds (blob_of array_data) array_data /\ zlen array_data = 20
  /\ fst (JSONExtractStr (blob_of (firstn 9 nan_data))) = OutOfData.
Proof. split; [apply holds_blob_of; reflexivity|]. split; [reflexivity|]. split; [apply holds_blob_of; reflexivity|]. split; reflexivity. Qed.

(** StampJSONString says 8, takes 1. *)
Theorem C39_string : report json_heap StampJSONString (8, 8)
  /\ (forall c, exists w, In w DictLCAlphaSmall /\ forall b r, holds b (c :: r) -> runs (ExtractStr json_heap StampJSONString) b (Ok ([quote] ++ w ++ [quote])) r)
  /\ (forall b, holds b [] -> runs (ExtractStr json_heap StampJSONString) b OutOfData []).
Proof.
  split; [split; reflexivity|]. split.
  - intros c. destruct (dict_front DictLCAlphaSmall [c]) as (w & Hw & E); [discriminate|change (zlen DictLCAlphaSmall) with 254; lia|reflexivity|].
    exists w. split; [exact Hw|]. intros b r Hb. destruct (run_transfer _ _ b _ _ _ (sim_DictExtractStr DictLCAlphaSmall) Hb (E r)) as (b' & E' & R).
    exists b'. split; [|exact R]. change (ExtractStr json_heap StampJSONString b) with (JSONStringExtractStr b). unfold JSONStringExtractStr.
    rewrite (bind_ok _ _ _ _ _ E'). reflexivity.
  - intros b Hb. destruct (C12_short DictLCAlphaSmall b [] Hb ltac:(reflexivity)) as (b' & E & R). exists b'. split; [|exact R].
    change (ExtractStr json_heap StampJSONString b) with (JSONStringExtractStr b). unfold JSONStringExtractStr. exact (bind_ood _ _ _ _ E).
Qed.
Print Assumptions C39_string.
