(** C32: PoolPickerStamp. *)
From Verif Require Import Base BaseFacts Blob BlobSpec BlobFacts RunSpec RunFacts Sim Oracle Arithm StampDict OracleFacts Prop_Oracle
  StampText VectorSpec VectorFacts Stamps StampsEq LeafSpec TermSpec Prop_Termination LotSpec LotFacts PoolFacts.
Local Open Scope Z_scope.

(** Some member fits into the data left after the two oracle bytes: the result is that of a member that
    fits, and of one that can use all the data if such a member fits, run on exactly the data left. *)
Theorem C32_picks : forall (h : heap blob) p ys cur b front r,
  heap_leaves (fun _ _ ex => tame ex) h -> pool_of h p ys ->
  Forall2 (report h) ys cur -> Forall pool_sane cur -> zlen cur < 2 ^ 63 ->
  holds b (front ++ r) -> zlen front = 2 -> Exists (fits (zlen r)) cur ->
  exists y s b', In y ys /\ report h y s /\ fits (zlen r) s
    /\ (Exists (fun s => fits (zlen r) s /\ uses_all (zlen r) s) cur -> uses_all (zlen r) s)
    /\ holds b' r /\ ExtractStr h (XPool p) b = ExtractStr h y b'.
Proof.
  intros h p ys cur b front r Hh (P & HP & WP) HR HS HN Hb Hf HE.
  set (f := Z.to_nat (Size b)). destruct (stamps_of f h _ _ HR) as (ms & M1 & M2 & M3).
  destruct (oracle2_blob b front r Hb Hf) as (o & b' & Eo & Hb' & Ro).
  assert (SA : Forall (fun s : stamp => pool_sane (fst s)) ms) by (subst cur; apply Forall_map; exact HS).
  assert (ZM : zlen ms < 2 ^ 63) by (subst cur; rewrite zlen_map in HN; exact HN).
  pose proof (pool_run ms (minSize h (XPool p)) b b' r o SA ZM Eo Hb' Ro) as R.
  assert (NE : targets (zlen r) ms <> []).
  { subst cur. apply Exists_exists in HE. destruct HE as (s & Hi & Hs). apply in_map_iff in Hi. destruct Hi as (m & <- & Hi).
    exact (targets_some _ _ m Hi Hs). }
  destruct (targets (zlen r) ms) as [|c0 c] eqn:C; [congruence|]. rewrite <- C in R.
  destruct R as (i & m & _ & _ & R3 & R4). apply nth_error_In in R3.
  destruct (targets_in _ _ _ R3) as [I1 I2]. destruct (stamps_in f h _ _ m M3 I1) as (y & Y1 & Y2 & Y3).
  exists y, (fst m), b'. split; [exact Y1|]. split; [exact Y2|]. split; [exact I2|]. split.
  - intros X. apply Exists_exists in X. destruct X as (s & Hi & Hs1 & Hs2). subst cur. apply in_map_iff in Hi.
    destruct Hi as (m' & <- & Hi). exact (targets_fill _ _ m m' R3 Hi Hs1 Hs2).
  - split; [exact Hb'|]. unfold ExtractStr at 1. rewrite extract_pool_S, HP, WP, map_map. fold f. rewrite <- M1. etransitivity; [exact R4|].
    rewrite Y3. apply C46_depth; [exact Hh| |exact (proj1 Hb')|].
    + apply (proj1 Hh P y); [exact (nth_error_In _ _ HP)|rewrite WP; apply in_map; exact Y1].
    + rewrite (holds_size b' r Hb'). unfold f. cbn [Size BlobBlobOps]. rewrite (holds_size b _ Hb), zlen_app.
      pose proof (zlen_nonneg r). lia.
Qed.
Print Assumptions C32_picks.

(** No member fits: OutOfData as long as the pool's own minSize() exceeds the data left; if it does not the
    library aborts. *)
Theorem C32_none : forall (h : heap blob) p ys cur m b front r,
  pool_of h p ys -> Forall2 (report h) ys cur -> Forall pool_sane cur -> zlen cur < 2 ^ 63 ->
  minSize h (XPool p) = Ok m -> 0 <= m ->
  holds b (front ++ r) -> zlen front = 2 -> Forall (fun s => ~ fits (zlen r) s) cur ->
  (zlen r < m -> runs (ExtractStr h (XPool p)) b OutOfData r) /\ (m <= zlen r -> runs (ExtractStr h (XPool p)) b Abort r).
Proof.
  intros h p ys cur m b front r (P & HP & WP) HR HS HN Hm Hm0 Hb Hf HE.
  set (f := Z.to_nat (Size b)). destruct (stamps_of f h _ _ HR) as (ms & M1 & M2 & M3).
  destruct (oracle2_blob b front r Hb Hf) as (o & b' & Eo & Hb' & Ro).
  assert (SA : Forall (fun s : stamp => pool_sane (fst s)) ms) by (subst cur; apply Forall_map; exact HS).
  assert (ZM : zlen ms < 2 ^ 63) by (subst cur; rewrite zlen_map in HN; exact HN).
  pose proof (pool_run ms (minSize h (XPool p)) b b' r o SA ZM Eo Hb' Ro) as R.
  assert (MI : m < 2 ^ 31).
  { unfold minSize in Hm. destruct (qfuel h) as [|fq] eqn:FQ; [discriminate FQ|]. rewrite query_pool_S in Hm. unfold bind at 1, get_pool in Hm. rewrite HP in Hm.
    destruct (is_in_recursion P); [vm_compute in Hm; injection Hm as <-; lia|].
    unfold bind in Hm. destruct (mark_in_recursion p true h) as [[u| | | |] h1]; try discriminate Hm.
    destruct (q_pool_min _ _ h1) as [[q| | | |] h2]; try discriminate Hm.
    destruct (mark_in_recursion p false h2) as [[u'| | | |] h3]; try discriminate Hm. cbn [ret fst] in Hm.
    injection Hm as <-. destruct (q =? int_max / 2); [vm_compute; reflexivity|]. apply i32_range. }
  destruct (targets (zlen r) ms) as [|c0 c] eqn:C.
  - rewrite Hm in R. rewrite (bind_lift_ok _ _ _ _ eq_refl), u64_id in R by lia.
    unfold runs, ExtractStr. rewrite extract_pool_S, HP, WP, map_map. fold f. rewrite <- M1, Hm, R.
    split; intros HC; exists b'; (split; [|exact Hb']).
    + destruct (zlen r <? m) eqn:Q; [reflexivity|lia].
    + destruct (zlen r <? m) eqn:Q; [lia|reflexivity].
  - exfalso. assert (X : In c0 (targets (zlen r) ms)) by (rewrite C; left; reflexivity).
    destruct (targets_in _ _ _ X) as [I1 I2]. subst cur. rewrite Forall_forall in HE. exact (HE _ (in_map fst _ _ I1) I2).
Qed.
Print Assumptions C32_none.

(** Pools whose members are not themselves made of pools never abort: minSize() is the least minSize() of the
    members plus 2. *)
Theorem C32_min : forall (h : heap blob) p P ys cur,
  nth_error (pools h) p = Some P -> weak_pool P = map Some ys -> is_in_recursion P = false -> Forall pool_free ys ->
  Forall2 (report h) ys cur -> Forall pool_sane cur -> Exists (fun s => fst s < int_max / 2) cur ->
  exists m, is_least m (map fst cur) /\ minSize h (XPool p) = Ok (m + 2).
Proof.
  intros h p P ys cur HP WP FP PF HR HS HE.
  set (m := fold_left (fun r c => if c <? r then c else r) (map fst cur) (int_max / 2)).
  pose proof (fold_min (map fst cur) (int_max / 2)) as FM. fold m in FM. exists m.
  assert (LM : m < int_max / 2).
  { destruct FM as [_ FM]. apply Forall_inv_tail in FM. apply Exists_exists in HE. destruct HE as (s & Hi & Hs).
    rewrite Forall_forall in FM. specialize (FM _ (in_map fst _ _ Hi)). cbv beta in FM. lia. }
  assert (IM : is_least m (map fst cur)).
  { destruct FM as [[FM|FM] FM2]; [lia|]. split; [exact FM|exact (Forall_inv_tail FM2)]. }
  split; [exact IM|]. assert (M0 : 0 <= m).
  { destruct IM as [X _]. apply in_map_iff in X. destruct X as (s & <- & X). rewrite Forall_forall in HS. destruct (HS s X) as [K _]. lia. }
  unfold minSize. change (qfuel h) with (S (length (pools h))). rewrite query_pool_S.
  assert (HM : Forall2 (fun y m => minSize h y = Ok m) ys (map fst cur)).
  { clear - HR. induction HR as [|y s ys cur (H1 & _) H IH]; constructor; assumption. }
  set (h1 := set_pool h p (mkPool (weak_pool P) (is_recursive P) true)).
  assert (M1 : mark_in_recursion p true h = (Ok tt, h1)) by (unfold mark_in_recursion; rewrite HP; reflexivity).
  unfold bind at 1, get_pool. rewrite HP, FP. rewrite (bind_ok _ _ _ _ _ M1), WP.
  rewrite (bind_ok _ _ _ _ _ (pool_min_fold h h1 (length (pools h)) ys PF eq_refl (map fst cur) HM (int_max / 2))). fold m.
  assert (N1 : nth_error (pools h1) p = Some (mkPool (weak_pool P) (is_recursive P) true)).
  { unfold h1, set_pool. cbn [pools]. assert (Hlt : (p < length (pools h))%nat) by (apply nth_error_Some; congruence).
    revert Hlt. generalize (mkPool (weak_pool P) (is_recursive P) true). generalize (pools h). clear. intros k v. revert p.
    induction k as [|a k IH]; intros p Hp; cbn [length] in Hp; [lia|]. destruct p; [reflexivity|]. apply IH. lia. }
  unfold mark_in_recursion, bind. rewrite N1. cbn [ret fst]. change (int_max / 2) with 1073741823 in *. destruct (m =? 1073741823) eqn:Q; [lia|].
  unfold ORACLE_SIZE. rewrite i32_id by lia. reflexivity.
Qed.
Print Assumptions C32_min.

Theorem C32_never_aborts : forall (h : heap blob) p P ys cur b front r,
  heap_leaves (fun _ _ ex => tame ex) h ->
  nth_error (pools h) p = Some P -> weak_pool P = map Some ys -> is_in_recursion P = false -> Forall pool_free ys ->
  Forall2 (report h) ys cur -> Forall pool_sane cur -> zlen cur < 2 ^ 63 -> Exists (fun s => fst s < int_max / 2) cur ->
  holds b (front ++ r) -> zlen front = 2 ->
  (exists y s b', In y ys /\ report h y s /\ fits (zlen r) s /\ holds b' r /\ ExtractStr h (XPool p) b = ExtractStr h y b')
  \/ runs (ExtractStr h (XPool p)) b OutOfData r.
Proof.
  intros h p P ys cur b front r Hh HP WP FP PF HR HS HN HE Hb Hf.
  assert (PO : pool_of h p ys) by (exists P; split; assumption).
  destruct (Forall_Exists_dec (fun s => ~ fits (zlen r) s)
    (fun s => match Z_le_dec (fst s) (zlen r) with left A => right (fun N => N A) | right A => left A end) cur) as [N|E].
  - right. destruct (C32_min h p P ys cur HP WP FP PF HR HS HE) as (m & (IM & _) & Em).
    assert (M0 : 0 <= m /\ zlen r < m).
    { apply in_map_iff in IM. destruct IM as (s & <- & X). rewrite Forall_forall in HS, N. destruct (HS s X) as [K _]. specialize (N s X). unfold fits in N. lia. }
    apply (C32_none h p ys cur (m + 2) b front r PO HR HS HN Em ltac:(lia) Hb Hf N). lia.
  - left. assert (E' : Exists (fits (zlen r)) cur).
    { clear - E. induction E as [s l H|s l H IH]; [left|right; exact IH]. unfold fits in *. lia. }
    destruct (C32_picks h p ys cur b front r Hh PO HR HS HN Hb Hf E') as (y & s & b' & H1 & H2 & H3 & _ & H4). exists y, s, b'. tauto.
Qed.
Print Assumptions C32_never_aborts.

(** Not even an oracle: OutOfData, nothing consumed. *)
Theorem C32_short : forall (h : heap blob) p ys b d, pool_of h p ys -> holds b d -> zlen d < 2 ->
  runs (ExtractStr h (XPool p)) b OutOfData d.
Proof.
  intros h p ys b d (P & HP & _) Hb Hd.
  destruct (run_transfer _ _ b d _ _ sim_GetOracle Hb (list_oracle_ood d Hd)) as (b' & E & Hb').
  exists b'. split; [|exact Hb']. unfold ExtractStr. rewrite extract_pool_S, HP. unfold pool_extract. exact (bind_ood _ _ _ _ E).
Qed.
Print Assumptions C32_short.

(** Every eligible member of a pool of fewer than 65522 stamps is taken for some oracle. *)
Theorem C32_reach : forall (h : heap blob) p ys cur y s r,
  heap_leaves (fun _ _ ex => tame ex) h -> pool_of h p ys ->
  Forall2 (report h) ys cur -> Forall pool_sane cur -> zlen cur < 65522 ->
  In y ys -> report h y s -> fits (zlen r) s ->
  (uses_all (zlen r) s \/ Forall (fun s => fits (zlen r) s -> ~ uses_all (zlen r) s) cur) ->
  exists front, zlen front = 2 /\ forall b, holds b (front ++ r) ->
    exists b', holds b' r /\ ExtractStr h (XPool p) b = ExtractStr h y b'.
Proof.
  intros h p ys cur y s r Hh (P & HP & WP) HR HS HN Hy Hs Hf HE.
  set (f := Z.to_nat (2 + zlen r)). destruct (stamps_of f h _ _ HR) as (ms & M1 & M2 & M3).
  assert (SA : Forall (fun s : stamp => pool_sane (fst s)) ms) by (subst cur; apply Forall_map; exact HS).
  assert (ZM : zlen ms < 65522) by (subst cur; rewrite zlen_map in HN; exact HN).
  destruct (stamps_in' f h _ _ y M3 Hy) as (m & Hm & Rm & Em).
  rewrite (report_fun h y _ _ Hs Rm) in Hf, HE. clear s Hs.
  assert (HC : In m (targets (zlen r) ms)).
  { apply targets_all; try assumption. destruct HE as [X|X]; [left; exact X|right].
    intros m' Hm'. subst cur. rewrite Forall_forall in X. exact (X _ (in_map fst _ _ Hm')). }
  assert (LC : zlen (targets (zlen r) ms) <= zlen ms).
  { unfold targets. destruct (filling (zlen r) ms) eqn:Q; [apply filter_len|rewrite <- Q; apply filter_len]. }
  destruct (In_nth_error _ _ HC) as (i & Hi).
  assert (Li : (i < length (targets (zlen r) ms))%nat) by (apply nth_error_Some; intros X; discriminate (eq_trans (eq_sym Hi) X)).
  assert (Lz : 0 <= Z.of_nat i < zlen (targets (zlen r) ms)).
  { split; [lia|]. unfold zlen at 1. apply Nat2Z.inj_lt. exact Li. }
  destruct (C11_reachable 0 (zlen (targets (zlen r) ms) - 1) (Z.of_nat i)) as (o & Ro & Po); try lia.
  exists (le16 o). split; [reflexivity|]. intros b Hb.
  destruct (run_transfer _ _ b _ _ _ sim_GetOracle Hb (list_oracle o r Ro)) as (b' & E1 & Hb').
  exists b'. split; [exact Hb'|].
  pose proof (pool_run ms (minSize h (XPool p)) b b' r o SA ltac:(lia) E1 Hb' Ro) as R.
  destruct (targets (zlen r) ms) as [|c0 c] eqn:C; [destruct HC|]. rewrite <- C in R, Po, Hi.
  destruct R as (j & m' & R1 & _ & R3 & R4). rewrite Po in R1. injection R1 as <-. rewrite Nat2Z.id in R3.
  pose proof (eq_trans (eq_sym R3) Hi) as X. injection X as ->.
  unfold ExtractStr at 1. rewrite extract_pool_S, HP, WP, map_map.
  assert (Fb : Z.to_nat (Size b) = f) by (unfold f; cbn [Size BlobBlobOps]; rewrite (holds_size b _ Hb), zlen_app; reflexivity).
  rewrite Fb, <- M1. etransitivity; [exact R4|]. rewrite Em. apply C46_depth; [exact Hh| |exact (proj1 Hb')|].
  - apply (proj1 Hh P y); [exact (nth_error_In _ _ HP)|rewrite WP; apply in_map; exact Hy].
  - rewrite (holds_size b' r Hb'). unfold f. pose proof (zlen_nonneg r). lia.
Qed.
Print Assumptions C32_reach.

(** A pool of an [int], a text of 1 to 8 bytes and a text without bound. *)
Definition ex_pool : pool blob :=
  new_pool [XLeaf 4 4 (ArithExtractStr Int); XLeaf 1 8 Latin1ExtractStr; XUnary (lit "-") (XLeaf 6 6 Latin1ExtractStr)].
Example C32_case : let h := mkHeap [ex_pool] [] in
  exists ys cur, nth_error (pools h) 0 = Some ex_pool /\ weak_pool ex_pool = map Some ys /\ is_in_recursion ex_pool = false
  /\ heap_leaves (fun _ _ ex => tame ex) h /\ Forall pool_free ys /\ Forall2 (report h) ys cur /\ Forall pool_sane cur
  /\ Exists (fun s => fst s < int_max / 2) cur /\ Exists (fun s => fits 7 s /\ uses_all 7 s) cur
  /\ Forall (fun s => ~ fits 0 s) cur /\ minSize h (XPool 0) = Ok 3.
Proof.
  cbv zeta. exists [XLeaf 4 4 (ArithExtractStr Int); XLeaf 1 8 Latin1ExtractStr; XUnary (lit "-") (XLeaf 6 6 Latin1ExtractStr)], [(4, 4); (1, 8); (6, -1)].
  split; [reflexivity|]. split; [reflexivity|]. split; [reflexivity|]. split.
  { split; [|intros L x []]. intros P x [<-|[]] [X|[X|[X|[]]]]; injection X as <-; try apply lv_unary; apply lv_leaf; apply C46_leaves. }
  unfold pool_sane, fits, uses_all. change (int_max / 2) with 1073741823.
  split; [repeat constructor|]. split; [repeat constructor|]. split; [repeat constructor; cbn; lia|].
  split; [apply Exists_cons_hd; cbn; lia|]. split; [apply Exists_cons_tl, Exists_cons_hd; cbn; lia|].
  split; [repeat constructor; cbn; lia|reflexivity].
Qed.

(** An empty pool asks for half of INT_MAX and aborts on a blob that is large enough. *)
Example C32_empty : minSize (mkHeap [new_pool []] []) (XPool (B := blob) 0) = Ok 1073741823.
Proof. reflexivity. Qed.
