(** C29-C31: lotteries. *)
From Verif Require Import Base BaseFacts Blob BlobSpec BlobFacts RunSpec RunFacts Sim Oracle Arithm StampDict DictFacts PickFacts
  StampText VectorFacts Stamps StampsEq LeafSpec TermSpec Prop_Termination LotSpec LotFacts.
Local Open Scope Z_scope.

(** minSize() after a construction and any number of Append calls: the least minSize() among the sizes
    reported when the stamps were put in, plus the oracle. *)
Theorem C29_min : forall init apps L0, lot_start init L0 -> init ++ apps <> [] ->
  Forall (fun s => 0 <= fst s <= int_max) (init ++ apps) ->
  exists m w, is_least m (map fst (init ++ apps)) /\ is_width (zlen (init ++ apps)) w
    /\ (m + w <= int_max -> lotMinSize (lot_grow (zlen init) L0 apps) = Ok (m + w))
    /\ (m + w > int_max -> lotMinSize (lot_grow (zlen init) L0 apps) = UB).
Proof.
  intros init apps L0 HS Hn HM. pose proof HM as HM'. apply Forall_app in HM'. destruct HM' as [HI _].
  destruct (grow_min apps init (zlen init) L0 (start_min _ _ HS HI) HM) as [[H0 _]|H]; [congruence|].
  exists (stored_min (lot_grow (zlen init) L0 apps)), (init_oracle_size (zlen (init ++ apps))).
  split; [exact H|]. split; [apply width_ok; apply zlen_nonneg|].
  unfold lotMinSize. rewrite (grow_osize _ _ _ (start_osize _ _ HS)), <- zlen_app.
  assert (0 <= stored_min (lot_grow (zlen init) L0 apps)).
  { destruct H as [H _]. apply in_map_iff in H. destruct H as (s & <- & Hs). rewrite Forall_forall in HM. specialize (HM s Hs). cbv beta in HM. lia. }
  assert (W := width_ok (zlen (init ++ apps)) (zlen_nonneg _)). destruct W as (W & _). apply width_cases in W. unfold int_max in *.
  split; intros Hm; [apply int_op_ok; lia|apply int_op_ub; lia].
Qed.
Print Assumptions C29_min.

(** maxSize() when every stamp reported a bounded size. *)
Theorem C29_max : forall init apps L0, lot_start init L0 -> init ++ apps <> [] ->
  Forall (fun s => 0 <= snd s <= int_max) (init ++ apps) ->
  exists m w, is_greatest m (map snd (init ++ apps)) /\ is_width (zlen (init ++ apps)) w
    /\ (m + w <= int_max -> lotMaxSize (lot_grow (zlen init) L0 apps) = Ok (m + w))
    /\ (m + w > int_max -> lotMaxSize (lot_grow (zlen init) L0 apps) = UB).
Proof.
  intros init apps L0 HS Hn HM. pose proof HM as HM'. apply Forall_app in HM'. destruct HM' as [HI HA].
  assert (K : forall l : list (Z * Z), Forall (fun s => 0 <= snd s <= int_max) l -> Forall (fun s => 0 <= snd s) l).
  { intros l. apply Forall_impl. intros; lia. }
  destruct (grow_max apps init (zlen init) L0 (start_max _ _ HS (K _ HI)) (K _ HA)) as [[H0 _]|H]; [congruence|].
  exists (stored_max (lot_grow (zlen init) L0 apps)), (init_oracle_size (zlen (init ++ apps))).
  split; [exact H|]. split; [apply width_ok; apply zlen_nonneg|].
  unfold lotMaxSize. rewrite (grow_osize _ _ _ (start_osize _ _ HS)), <- zlen_app.
  assert (0 <= stored_max (lot_grow (zlen init) L0 apps)).
  { destruct H as [H _]. apply in_map_iff in H. destruct H as (s & <- & Hs). rewrite Forall_forall in HM. specialize (HM s Hs). cbv beta in HM. lia. }
  assert (W := width_ok (zlen (init ++ apps)) (zlen_nonneg _)). destruct W as (W & _). apply width_cases in W. unfold int_max in *.
  match goal with |- context [if ?t then _ else _] => destruct t eqn:Q0 end; [lia|].
  split; intros Hm; [apply int_op_ok; lia|apply int_op_ub; lia].
Qed.
Print Assumptions C29_max.

(** Append calls on a lottery in a graph do exactly this, with the sizes reported at that moment, and keep
    the members in order. *)
Theorem C29_appends : forall (h h' : heap blob) l L xs ss, nth_error (lots h) l = Some L -> appends l h xs ss h' ->
  pools h' = pools h /\ exists L', nth_error (lots h') l = Some L'
  /\ lot_members L' = lot_members L ++ xs /\ four_recursion L' = four_recursion L
  /\ lot_nums L' = lot_grow (zlen (lot_members L)) (lot_nums L) ss
  /\ forall l', l' <> l -> nth_error (lots h') l' = nth_error (lots h) l'.
Proof.
  intros h h' l L xs ss HL HA. revert L HL. induction HA as [h|h x mn mx h1 xs ss h2 E1 E2 E3 HA IH]; intros L HL.
  - split; [reflexivity|]. exists L. rewrite app_nil_r. repeat split; assumption || reflexivity.
  - unfold append_lottery in E3. rewrite HL, E1, E2 in E3. cbn [rbind] in E3. injection E3 as <-.
    assert (U : forall (A : Type) (v : A) k n, (n < length k)%nat -> nth_error (upd k n v) n = Some v).
    { intros A v. induction k as [|a k IHk]; intros n Hn; cbn [length] in Hn; [lia|]. destruct n; [reflexivity|]. apply IHk. lia. }
    assert (V : forall (A : Type) (v : A) k n m, n <> m -> nth_error (upd k n v) m = nth_error k m).
    { intros A v. induction k as [|a k IHk]; intros n m Hn; [reflexivity|]. destruct n, m; try reflexivity; [congruence|]. cbn [upd nth_error]. apply IHk. congruence. }
    assert (Hlt : (l < length (lots h))%nat) by (apply nth_error_Some; congruence).
    destruct (IH _ (U _ _ (lots h) l Hlt)) as (P & L' & I1 & I2 & I3 & I4 & I5). cbn [pools lots lot_members lot_nums four_recursion] in *.
    split; [exact P|]. exists L'. split; [exact I1|]. split; [rewrite I2, <- app_assoc; reflexivity|]. split; [exact I3|]. split.
    + rewrite I4. cbn [lot_grow fst snd]. f_equal. unfold zlen. rewrite app_length, Nat2Z.inj_add. reflexivity.
    + intros l' Hl'. rewrite (I5 l' Hl'). apply V. congruence.
Qed.
Print Assumptions C29_appends.

Example C29_case :
  lot_start [(4, 4); (2, 10)] (lot_new [(4, 4); (2, 10)])
  /\ lotMinSize (lot_grow 2 (lot_new [(4, 4); (2, 10)]) [(7, 7); (1, 30)]) = Ok 2
  /\ lotMaxSize (lot_grow 2 (lot_new [(4, 4); (2, 10)]) [(7, 7); (1, 30)]) = Ok 31
  /\ lotMinSize (lot_grow 0 lot_default [(7, 7); (9, 30)]) = Ok 8.
Proof. split; [left; reflexivity|]. vm_compute. repeat split; reflexivity. Qed.

(** A lottery without members: made from an empty list its minSize() overflows; made without arguments it
    claims to need nothing and to take everything. *)
Example C29_empty : lotMinSize (lot_new []) = UB /\ lotMinSize lot_default = Ok 0 /\ lotMaxSize lot_default = Ok (-1).
Proof. vm_compute. repeat split; reflexivity. Qed.

(** The exact maxSize() of a history with an unbounded stamp: only the stamps appended after the last
    unbounded one count. *)
Theorem C30_exact : forall init apps L0, lot_start init L0 ->
  Forall (fun s => snd s = -1 \/ 0 <= snd s <= int_max - 8) (init ++ apps) -> Exists (fun s => snd s = -1) (init ++ apps) ->
  exists pre suf w, apps = pre ++ suf /\ Forall (fun s => snd s <> -1) suf /\ is_width (zlen (init ++ apps)) w
    /\ (pre = [] /\ Exists (fun s => snd s = -1) init \/ exists p s, pre = p ++ [s] /\ snd s = -1)
    /\ (suf = [] -> lotMaxSize (lot_grow (zlen init) L0 apps) = Ok (-1))
    /\ (suf <> [] -> exists m, is_greatest m (map snd suf) /\ lotMaxSize (lot_grow (zlen init) L0 apps) = Ok (m + w)).
Proof.
  intros init apps L0 HS HM HE.
  assert (SP : exists pre suf, apps = pre ++ suf /\ Forall (fun s : Z * Z => snd s <> -1) suf
    /\ (pre = [] /\ Exists (fun s => snd s = -1) init \/ exists p s, pre = p ++ [s] /\ snd s = -1)).
  { clear HS HM. induction apps as [|s apps IH] using rev_ind.
    - exists [], []. rewrite app_nil_r in HE. repeat split; [constructor|]. left. split; [reflexivity|exact HE].
    - destruct (Z.eq_dec (snd s) (-1)) as [Q|Q].
      + exists (apps ++ [s]), []. rewrite app_nil_r. repeat split; [constructor|]. right. exists apps, s. split; [reflexivity|exact Q].
      + destruct IH as (pre & suf & -> & I2 & I3).
        { rewrite app_assoc in HE. apply Exists_app in HE. destruct HE as [HE|HE]; [exact HE|]. inversion HE as [? ? X|? ? X]; subst; [contradiction|inversion X]. }
        exists pre, (suf ++ [s]). rewrite app_assoc. split; [reflexivity|]. split; [apply Forall_app; split; [exact I2|repeat constructor; exact Q]|exact I3]. }
  destruct SP as (pre & suf & -> & Hs & Hp). exists pre, suf, (init_oracle_size (zlen (init ++ pre ++ suf))).
  split; [reflexivity|]. split; [exact Hs|]. split; [apply width_ok; apply zlen_nonneg|]. split; [exact Hp|].
  assert (P1 : stored_max (lot_grow (zlen init) L0 pre) = -1).
  { destruct Hp as [(-> & HEi)|(p & s & -> & Q)].
    - cbn [lot_grow]. destruct HS as [->|[-> _]]; [|inversion HEi]. unfold lot_new, init_stored_max. cbn [stored_max]. apply max_loop_unbounded. exact HEi.
    - rewrite grow_app. cbn [lot_grow]. unfold lot_append. cbn [stored_max]. rewrite Q. reflexivity. }
  assert (OS : oracle_size (lot_grow (zlen init) L0 (pre ++ suf)) = init_oracle_size (zlen (init ++ pre ++ suf))).
  { rewrite (grow_osize _ _ _ (start_osize _ _ HS)), <- zlen_app. reflexivity. }
  split.
  - intros ->. rewrite app_nil_r. unfold lotMaxSize. rewrite P1. reflexivity.
  - intros Hn. apply Forall_app in HM. destruct HM as [_ HM]. apply Forall_app in HM. destruct HM as [_ HM].
    assert (Hs0 : Forall (fun s : Z * Z => 0 <= snd s <= int_max - 8) suf).
    { apply Forall_forall. intros s Hi. rewrite Forall_forall in Hs, HM. specialize (Hs s Hi). specialize (HM s Hi). cbv beta in *. tauto. }
    assert (MI : max_inv suf (stored_max (lot_grow (zlen init) L0 (pre ++ suf)))).
    { rewrite grow_app. apply (grow_max suf []); [left; split; [reflexivity|rewrite P1; lia]|]. eapply Forall_impl; [|exact Hs0]. cbv beta. intros; lia. }
    destruct MI as [[X _]|MI]; [congruence|]. exists (stored_max (lot_grow (zlen init) L0 (pre ++ suf))). split; [exact MI|].
    destruct MI as [MI _]. apply in_map_iff in MI. destruct MI as (s & Es & Hi). rewrite Forall_forall in Hs0. specialize (Hs0 s Hi). cbv beta in Hs0.
    unfold lotMaxSize. rewrite OS. rewrite <- Es. destruct (snd s =? -1) eqn:Q; [lia|].
    assert (W := width_ok (zlen (init ++ pre ++ suf)) (zlen_nonneg _)). destruct W as (W & _). apply width_cases in W.
    apply int_op_ok. unfold int_max in *. lia.
Qed.
Print Assumptions C30_exact.

Example C30_case : lotMaxSize (lot_grow 1 (lot_new [(3, 3)]) [(1, -1)]) = Ok (-1)
  /\ lotMaxSize (lot_grow 1 (lot_new [(3, 3)]) [(1, -1); (2, 5); (4, 4)]) = Ok 6.
Proof. vm_compute. split; reflexivity. Qed.

(** What that means: a lottery of an unbounded stamp to which a bounded one was appended reports a finite
    maxSize(), and yet with a first byte 0 hands the whole of its data to the unbounded one. *)
Theorem C30_underreports : forall mn ex mn' mx' ex' h1 r b,
  0 <= mn < 2 ^ 31 -> 0 <= mn' < 2 ^ 31 -> 0 <= mx' < 2 ^ 31 - 1 ->
  append_lottery (mkHeap [] [mkLottery [XLeaf mn (-1) ex] (lot_new [(mn, -1)]) false]) 0 (XLeaf mn' mx' ex') = Ok h1 ->
  holds b (x00 :: r) -> mn <= zlen r ->
  maxSize h1 (XLot 0) = Ok (mx' + 1) /\ exists b', holds b' r /\ ExtractStr h1 (XLot 0) b = ex b'.
Proof.
  intros mn ex mn' mx' ex' h1 r b H1 H2 H3 E Hb Hr.
  assert (E' : h1 = mkHeap [] [mkLottery [XLeaf mn (-1) ex; XLeaf mn' mx' ex'] (lot_append 1 (lot_new [(mn, -1)]) mn' mx') false]).
  { unfold append_lottery in E. cbn [lots nth_error] in E. change (maxSize _ (XLeaf mn' mx' ex')) with (Ok mx') in E.
    change (minSize _ (XLeaf mn' mx' ex')) with (Ok mn') in E. cbn [rbind] in E. injection E as <-. reflexivity. }
  clear E. subst h1. set (N := lot_append 1 (lot_new [(mn, -1)]) mn' mx').
  assert (SM : stored_max N = mx').
  { unfold N, lot_append. cbn [stored_max lot_new init_stored_max init_stored_max_loop]. change (-1 =? -1) with true. cbv iota.
    destruct (mx' =? -1) eqn:Q; [lia|]. destruct (-1 <? mx') eqn:Q1; [reflexivity|lia]. }
  assert (OS : oracle_size N = 1) by reflexivity.
  split.
  - unfold maxSize. rewrite query_lot. unfold bind, get_lot. cbn [lots nth_error lot_nums]. cbn [lift fst]. unfold lotMaxSize. rewrite SM, OS.
    destruct (mx' =? -1) eqn:Q; [lia|]. apply int_op_ok. lia.
  - unfold ExtractStr. rewrite extract_lot_S. cbn [lots nth_error four_recursion lot_nums lot_members map]. rewrite OS.
    change (minSize _ (XLeaf mn (-1) ex)) with (Ok mn). change (maxSize _ (XLeaf mn (-1) ex)) with (Ok (-1)).
    change (minSize _ (XLeaf mn' mx' ex')) with (Ok mn'). change (maxSize _ (XLeaf mn' mx' ex')) with (Ok mx').
    rewrite !extract_leaf.
    destruct (list_sized_oracle 1 (x00 :: r) ltac:(lia) ltac:(rewrite zlen_cons; pose proof (zlen_nonneg r); lia)) as (o & Eo & _ & Do).
    change (Z.to_nat 1) with 1%nat in Eo, Do. cbn [skipn] in Eo. cbn [firstn] in Do. vm_compute in Do. subst o.
    destruct (run_transfer _ _ b _ _ _ (sim_sized_oracle 1) Hb Eo) as (b' & E1 & E2 & E3).
    exists b'. assert (Hb' : holds b' r) by (split; assumption). split; [exact Hb'|].
    pose proof (lot_run false 1 [(mn, -1, ex); (mn', mx', ex')] b b' r 0 ltac:(left; reflexivity)) as R.
    assert (A1 : sane_all false [(mn, -1, ex); (mn', mx', ex')]).
    { repeat constructor; cbn [fst snd]; try discriminate; lia. }
    specialize (R A1 ltac:(vm_compute; discriminate) E1 Hb' ltac:(discriminate) ltac:(vm_compute; split; discriminate)).
    assert (C : exists c, candidates false (zlen r) [(mn, -1, ex); (mn', mx', ex')] = (mn, -1, ex) :: c /\ zlen c <= 1).
    { unfold candidates. cbn [filter]. unfold keep at 1. cbn [fst snd soft negb orb]. destruct (mn <=? zlen r) eqn:Q; [|lia]. cbn [andb].
      eexists. split; [reflexivity|]. destruct (keep false (zlen r) (mn', mx', ex')); vm_compute; discriminate. }
    destruct C as (c & C & Lc). rewrite C in R. destruct R as (i & m & R1 & R2 & R3 & R4).
    assert (i = 0) as ->.
    { destruct c as [|c1 [|c2 c]]; [| |rewrite !zlen_cons in Lc; pose proof (zlen_nonneg c); lia]; unfold zlen in R1; cbn [length] in R1;
        vm_compute in R1; injection R1 as <-; reflexivity. }
    injection R3 as <-. exact R4.
Qed.
Print Assumptions C30_underreports.

Example C30_underreports_case : exists h1,
  append_lottery (mkHeap [] [mkLottery [XLeaf 0 (-1) (Latin1ExtractStr (B := blob))] (lot_new [(0, -1)]) false]) 0 (XLeaf 2 2 (ArithExtractStr Short)) = Ok h1
  /\ maxSize h1 (XLot 0) = Ok 3 /\ minSize h1 (XLot 0) = Ok 1.
Proof. eexists. split; [reflexivity|]. split; reflexivity. Qed.

(** Data left after the oracle suffices for some member: the result is that of a member that fits, run on
    exactly the data left.  StampLottery4Recursion ([four_recursion]) takes one that can leave less than its
    minSize() if one such member fits. *)
Theorem C31_picks : forall (h : heap blob) l L rec cur b front r,
  heap_leaves (fun _ _ ex => tame ex) h -> nth_error (lots h) l = Some L -> built L rec ->
  Forall2 (report h) (lot_members L) cur -> Forall (sane (four_recursion L)) cur -> zlen cur <= 2 ^ 53 ->
  holds b (front ++ r) -> zlen front = oracle_size (lot_nums L) -> (four_recursion L = true -> zlen r < 2 ^ 31) ->
  Exists (fits (zlen r)) cur ->
  exists y s b', In y (lot_members L) /\ report h y s /\ fits (zlen r) s
    /\ (four_recursion L = true -> Exists (fun s => fits (zlen r) s /\ leaves_little (zlen r) s) cur -> leaves_little (zlen r) s)
    /\ holds b' r /\ ExtractStr h (XLot l) b = ExtractStr h y b'.
Proof.
  intros h l L rec cur b front r Hh HL HB HR HS HN Hb Hf H4 HE.
  destruct (built_width L rec HB) as [_ Hw]. set (w := oracle_size (lot_nums L)) in *.
  set (f := Z.to_nat (Size b)). destruct (stamps_of f h _ _ HR) as (ms & M1 & M2 & M3).
  destruct (oracle_blob w b front r Hw Hb Hf) as (o & b' & Eo & Hb' & Ro).
  assert (SA : sane_all (four_recursion L) ms) by (subst cur; apply Forall_map; exact HS).
  assert (ZM : zlen ms <= 2 ^ 53) by (subst cur; rewrite zlen_map in HN; exact HN).
  pose proof (lot_run (four_recursion L) w ms b b' r o Hw SA ZM Eo Hb' H4 Ro) as R.
  assert (NE : candidates (four_recursion L) (zlen r) ms <> []).
  { subst cur. apply Exists_exists in HE. destruct HE as (s & Hi & Hs). apply in_map_iff in Hi. destruct Hi as (m & <- & Hi).
    exact (candidates_some _ _ _ m Hi Hs). }
  destruct (candidates (four_recursion L) (zlen r) ms) as [|c0 c] eqn:C; [congruence|]. rewrite <- C in R.
  destruct R as (i & m & _ & _ & R3 & R4). apply nth_error_In in R3.
  destruct (candidates_in _ _ _ _ R3) as [I1 I2]. destruct (stamps_in f h _ _ m M3 I1) as (y & Y1 & Y2 & Y3).
  exists y, (fst m), b'. split; [exact Y1|]. split; [exact Y2|]. split; [exact I2|]. split.
  - intros F X. rewrite F in *. apply Exists_exists in X. destruct X as (s & Hi & Hs1 & Hs2). subst cur. apply in_map_iff in Hi.
    destruct Hi as (m' & <- & Hi). exact (candidates_four _ _ m m' SA R3 Hi Hs1 Hs2).
  - split; [exact Hb'|]. unfold ExtractStr at 1. rewrite extract_lot_S, HL. fold f. fold w. rewrite <- M1. etransitivity; [exact R4|].
    rewrite Y3. apply C46_depth; [exact Hh| |exact (proj1 Hb')|].
    + apply (proj2 Hh L y); [exact (nth_error_In _ _ HL)|exact Y1].
    + rewrite (holds_size b' r Hb'). unfold f. cbn [Size BlobBlobOps]. rewrite (holds_size b _ Hb), zlen_app.
      pose proof (zlen_nonneg r). apply width_cases in Hw. lia.
Qed.
Print Assumptions C31_picks.

(** Size() >= minSize() is enough for that, provided no member needs more now than when it was put in. *)
Theorem C31_enough : forall (h : heap blob) l L rec cur b d m,
  heap_leaves (fun _ _ ex => tame ex) h -> nth_error (lots h) l = Some L -> built L rec ->
  Forall2 (report h) (lot_members L) cur -> Forall (sane (four_recursion L)) cur -> zlen cur <= 2 ^ 53 ->
  rec <> [] -> Forall (fun s => 0 <= fst s <= int_max) rec -> Forall2 (fun c s => fst c <= fst s) cur rec ->
  minSize h (XLot l) = Ok m -> holds b d -> m <= zlen d -> (four_recursion L = true -> zlen d < 2 ^ 31) ->
  exists front r y s b', d = front ++ r /\ zlen front = oracle_size (lot_nums L)
    /\ In y (lot_members L) /\ report h y s /\ fits (zlen r) s
    /\ (four_recursion L = true -> Exists (fun s => fits (zlen r) s /\ leaves_little (zlen r) s) cur -> leaves_little (zlen r) s)
    /\ holds b' r /\ ExtractStr h (XLot l) b = ExtractStr h y b'.
Proof.
  intros h l L rec cur b d m Hh HL HB HR HS HN Hn HM HC Hm Hb Hd H4.
  destruct (built_width L rec HB) as [Ew Hw]. pose proof HB as (init & apps & L0 & -> & S0 & G0 & _).
  destruct (C29_min init apps L0 S0 Hn HM) as (least & w & I1 & I2 & I3 & I4).
  unfold minSize in Hm. rewrite query_lot in Hm. unfold bind, get_lot in Hm. rewrite HL in Hm. cbn [lift fst] in Hm. rewrite G0 in Hm.
  assert (W0 := width_cases _ Hw).
  assert (EW : stored_min (lot_nums L) + oracle_size (lot_nums L) = m).
  { rewrite G0. unfold lotMinSize in Hm. apply int_op_inv in Hm. lia. }
  assert (SM : is_least (stored_min (lot_nums L)) (map fst (init ++ apps))).
  { rewrite G0. apply Forall_app in HM as HM'. destruct HM' as [HI _].
    destruct (grow_min apps init (zlen init) L0 (start_min _ _ S0 HI) HM) as [[X _]|X]; [congruence|exact X]. }
  assert (S1 : 0 <= stored_min (lot_nums L)).
  { destruct SM as [X _]. apply in_map_iff in X. destruct X as (s & <- & X). rewrite Forall_forall in HM. specialize (HM s X). cbv beta in HM. lia. }
  destruct (list_split d (oracle_size (lot_nums L)) ltac:(lia)) as (front & r & -> & Lf).
  rewrite zlen_app in Hd, H4. pose proof (zlen_nonneg front).
  assert (HE : Exists (fits (zlen r)) cur).
  { destruct SM as [X _]. apply in_map_iff in X. destruct X as (s & Es & X).
    revert X. clear - HC Es Hd EW Lf. induction HC as [|c s' cur rec H HC IH]; intros X; [destruct X|].
    destruct X as [->|X]; [left; unfold fits; lia|right; exact (IH X)]. }
  destruct (C31_picks h l L (init ++ apps) cur b front r Hh HL HB HR HS HN Hb Lf ltac:(intros F; specialize (H4 F); lia) HE) as (y & s & b' & P).
  exists front, r, y, s, b'. split; [reflexivity|]. split; [exact Lf|exact P].
Qed.
Print Assumptions C31_enough.

(** No member fits into the data left: OutOfData, the oracle is consumed. *)
Theorem C31_none : forall (h : heap blob) l L rec cur b front r,
  nth_error (lots h) l = Some L -> built L rec ->
  Forall2 (report h) (lot_members L) cur -> Forall (sane (four_recursion L)) cur -> zlen cur <= 2 ^ 53 ->
  holds b (front ++ r) -> zlen front = oracle_size (lot_nums L) -> (four_recursion L = true -> zlen r < 2 ^ 31) ->
  Forall (fun s => ~ fits (zlen r) s) cur -> runs (ExtractStr h (XLot l)) b OutOfData r.
Proof.
  intros h l L rec cur b front r HL HB HR HS HN Hb Hf H4 HE.
  destruct (built_width L rec HB) as [_ Hw]. set (w := oracle_size (lot_nums L)) in *.
  set (f := Z.to_nat (Size b)). destruct (stamps_of f h _ _ HR) as (ms & M1 & M2 & M3).
  destruct (oracle_blob w b front r Hw Hb Hf) as (o & b' & Eo & Hb' & Ro).
  assert (SA : sane_all (four_recursion L) ms) by (subst cur; apply Forall_map; exact HS).
  assert (ZM : zlen ms <= 2 ^ 53) by (subst cur; rewrite zlen_map in HN; exact HN).
  pose proof (lot_run (four_recursion L) w ms b b' r o Hw SA ZM Eo Hb' H4 Ro) as R.
  destruct (candidates (four_recursion L) (zlen r) ms) as [|c0 c] eqn:C.
  - exists b'. split; [|exact Hb']. unfold ExtractStr. rewrite extract_lot_S, HL. fold f. fold w. rewrite <- M1. exact R.
  - exfalso. assert (X : In c0 (candidates (four_recursion L) (zlen r) ms)) by (rewrite C; left; reflexivity).
    destruct (candidates_in _ _ _ _ X) as [I1 I2]. subst cur. rewrite Forall_forall in HE. exact (HE _ (in_map fst _ _ I1) I2).
Qed.
Print Assumptions C31_none.

(** Not even an oracle: OutOfData, nothing consumed. *)
Theorem C31_short : forall (h : heap blob) l L rec b d,
  nth_error (lots h) l = Some L -> built L rec -> holds b d -> zlen d < oracle_size (lot_nums L) ->
  runs (ExtractStr h (XLot l)) b OutOfData d.
Proof.
  intros h l L rec b d HL HB Hb Hd. destruct (built_width L rec HB) as [_ Hw]. apply width_cases in Hw.
  destruct (run_transfer _ _ b d _ _ (sim_sized_oracle _) Hb (list_sized_oracle_ood _ d Hw Hd)) as (b' & E & Hb').
  exists b'. split; [|exact Hb']. unfold ExtractStr. rewrite extract_lot_S, HL. unfold lot_extract. exact (bind_ood _ _ _ _ E).
Qed.
Print Assumptions C31_short.

(** Every eligible member of a lottery of fewer than 65535 stamps is taken for some oracle. *)
Theorem C31_reach : forall (h : heap blob) l L rec cur y s r,
  heap_leaves (fun _ _ ex => tame ex) h -> nth_error (lots h) l = Some L -> built L rec ->
  Forall2 (report h) (lot_members L) cur -> Forall (sane (four_recursion L)) cur -> zlen cur < 65535 ->
  (four_recursion L = true -> zlen r < 2 ^ 31) ->
  In y (lot_members L) -> report h y s -> fits (zlen r) s ->
  (four_recursion L = true -> leaves_little (zlen r) s \/ Forall (fun s => fits (zlen r) s -> ~ leaves_little (zlen r) s) cur) ->
  exists front, zlen front = oracle_size (lot_nums L) /\ forall b, holds b (front ++ r) ->
    exists b', holds b' r /\ ExtractStr h (XLot l) b = ExtractStr h y b'.
Proof.
  intros h l L rec cur y s r Hh HL HB HR HS HN H4 Hy Hs Hf HE.
  destruct (built_width L rec HB) as [Ew Hw]. set (w := oracle_size (lot_nums L)) in *.
  set (f := Z.to_nat (w + zlen r)). destruct (stamps_of f h _ _ HR) as (ms & M1 & M2 & M3).
  assert (SA : sane_all (four_recursion L) ms) by (subst cur; apply Forall_map; exact HS).
  assert (ZM : zlen ms < 65535) by (subst cur; rewrite zlen_map in HN; exact HN).
  assert (ZR : zlen rec = zlen ms).
  { pose proof HB as (init & apps & L0 & -> & _ & _ & ZL). rewrite <- ZL. unfold zlen. f_equal. clear - M3. induction M3; cbn [length]; congruence. }
  destruct (stamps_in' f h _ _ y M3 Hy) as (m & Hm & Rm & Em).
  rewrite (report_fun h y _ _ Hs Rm) in Hf, HE. clear s Hs.
  assert (HC : In m (candidates (four_recursion L) (zlen r) ms)).
  { apply candidates_all; try assumption. intros F. destruct (HE F) as [X|X]; [left; exact X|right].
    intros m' Hm'. subst cur. rewrite Forall_forall in X. exact (X _ (in_map fst _ _ Hm')). }
  pose proof (candidates_len (four_recursion L) (zlen r) ms) as LC.
  destruct (In_nth_error _ _ HC) as (i & Hi).
  assert (Li : (i < length (candidates (four_recursion L) (zlen r) ms))%nat) by (apply nth_error_Some; intros X; discriminate (eq_trans (eq_sym Hi) X)).
  assert (Lz : 0 <= Z.of_nat i < zlen (candidates (four_recursion L) (zlen r) ms)).
  { split; [lia|]. unfold zlen at 1. apply Nat2Z.inj_lt. exact Li. }
  assert (WC : (w = 1 \/ w = 2) /\ zlen ms < oracle_max w).
  { rewrite Ew, ZR. unfold init_oracle_size. destruct (zlen ms <? 255) eqn:Q1; [split; [left; reflexivity|change (oracle_max 1) with 255; lia]|].
    destruct (zlen ms <? 65535) eqn:Q2; [|lia]. split; [right; reflexivity|change (oracle_max 2) with 65535; lia]. }
  destruct WC as [WC MC]. assert (MX : 1 <= oracle_max w <= 65536) by (destruct WC as [->| ->]; vm_compute; split; discriminate).
  destruct (pick_reach_lt (oracle_max w) (zlen (candidates (four_recursion L) (zlen r) ms)) (Z.of_nat i) MX) as (o & Ro & Po);
    [lia|exact Lz|].
  destruct (sized_oracle_bytes w o ltac:(lia) Ro) as (front & Lf & Ef).
  exists front. split; [exact Lf|]. intros b Hb.
  destruct (run_transfer _ _ b _ _ _ (sim_sized_oracle w) Hb (Ef r)) as (b' & E1 & Hb').
  exists b'. split; [exact Hb'|].
  pose proof (lot_run (four_recursion L) w ms b b' r o Hw SA ltac:(lia) E1 Hb' H4 Ro) as R.
  destruct (candidates (four_recursion L) (zlen r) ms) as [|c0 c] eqn:C; [destruct HC|]. rewrite <- C in R, Po, Hi.
  destruct R as (j & m' & R1 & _ & R3 & R4). rewrite Po in R1. injection R1 as <-. rewrite Nat2Z.id in R3.
  pose proof (eq_trans (eq_sym R3) Hi) as X. injection X as ->.
  unfold ExtractStr at 1. rewrite extract_lot_S, HL. fold w.
  assert (Fb : Z.to_nat (Size b) = f) by (unfold f; cbn [Size BlobBlobOps]; rewrite (holds_size b _ Hb), zlen_app, Lf; reflexivity).
  rewrite Fb, <- M1. etransitivity; [exact R4|]. rewrite Em. apply C46_depth; [exact Hh| |exact (proj1 Hb')|].
  - apply (proj2 Hh L y); [exact (nth_error_In _ _ HL)|exact Hy].
  - rewrite (holds_size b' r Hb'). unfold f. pose proof (zlen_nonneg r). lia.
Qed.
Print Assumptions C31_reach.

(** The proviso of C31_enough matters: put a stamp that refers to the lottery itself into an empty lottery
    first, and minSize() promises one byte although no member can ever do with the 0 bytes left. *)
Theorem C31_stale : forall op k ex h1 b d, 1 <= k < 2 ^ 31 ->
  appends 0 (mkHeap [] [mkLottery [] lot_default false]) [XUnary op (XLot 0); XLeaf k k ex] [(0, -1); (k, k)] h1 ->
  holds b d -> zlen d = 1 -> minSize h1 (XLot 0) = Ok 1 /\ runs (ExtractStr h1 (XLot 0)) b OutOfData [].
Proof.
  intros op k ex h1 b d Hk HA Hb Hd.
  destruct (C29_appends (mkHeap [] [mkLottery [] lot_default false]) h1 0%nat (mkLottery [] lot_default false) _ _ eq_refl HA) as (_ & L & HL & M1 & M2 & M3 & _).
  cbn [lot_members four_recursion lot_nums app] in *. change (zlen (@nil (sx blob))) with 0 in M3.
  assert (N1 : stored_min (lot_nums L) = 0 /\ oracle_size (lot_nums L) = 1).
  { rewrite M3. cbn [lot_grow fst snd]. unfold lot_append. cbn [stored_min oracle_size lot_default]. change (-1 =? -1) with true. cbv iota.
    change (0 <? 0) with false. cbv iota. change (0 =? -1) with false. cbv iota. destruct (k <? 0) eqn:Q; [lia|]. split; reflexivity. }
  destruct N1 as [N1 N2].
  assert (MS : minSize h1 (XLot 0) = Ok 1).
  { unfold minSize. rewrite query_lot. unfold bind, get_lot. rewrite HL. cbn [lift fst]. unfold lotMinSize. rewrite N1, N2. reflexivity. }
  split; [exact MS|].
  assert (MX : exists mx, maxSize h1 (XUnary op (XLot 0)) = Ok mx /\ minSize h1 (XUnary op (XLot 0)) = Ok 1).
  { exists (-1). split; [reflexivity|]. rewrite <- MS. unfold minSize. rewrite query_unary. reflexivity. }
  destruct MX as (mx & MX & MN).
  destruct (list_split d 1 ltac:(lia)) as (front & r & -> & Lf). rewrite zlen_app in Hd. 
  assert (r = []) as -> by (apply length_zero_iff_nil; unfold zlen in *; lia).
  apply (C31_none h1 0%nat L [(0, -1); (k, k)] [(1, mx); (k, k)] b front []); try assumption.
  - exists [], [(0, -1); (k, k)], lot_default. split; [reflexivity|]. split; [right; split; reflexivity|]. split; [exact M3|]. rewrite M1. reflexivity.
  - rewrite M1. constructor; [split; [exact MN|exact MX]|]. constructor; [split; reflexivity|constructor].
  - rewrite M2. constructor; [split; [cbn; lia|discriminate]|]. constructor; [split; [cbn; lia|discriminate]|constructor].
  - vm_compute. discriminate.
  - rewrite N2. exact Lf.
  - intros F. vm_compute. reflexivity.
  - unfold fits. constructor; [cbn; lia|]. constructor; [cbn; lia|constructor].
Qed.
Print Assumptions C31_stale.

Example C31_stale_case : exists h1, appends 0 (mkHeap [] [mkLottery [] lot_default false])
  [XUnary (lit "-") (XLot 0); XLeaf 4 4 (ArithExtractStr (B := blob) Int)] [(0, -1); (4, 4)] h1.
Proof. eexists. repeat (eapply app_one; [reflexivity|reflexivity|reflexivity|]). constructor. Qed.

(** A recursive lottery as in the examples of the library: a number, or the negation of a member. *)
Definition ex_heap : heap blob :=
  mkHeap [] [mkLottery [XLeaf 4 4 (ArithExtractStr Int); XUnary (lit "-") (XLot 0); XLeaf 1 8 Latin1ExtractStr]
    (lot_grow 1 (lot_new [(4, 4)]) [(5, -1); (1, 8)]) true].
Example C31_case : exists L rec cur, nth_error (lots ex_heap) 0 = Some L /\ built L rec
  /\ heap_leaves (fun _ _ ex => tame ex) ex_heap
  /\ Forall2 (report ex_heap) (lot_members L) cur /\ Forall (sane (four_recursion L)) cur
  /\ Forall (fun s => 0 <= fst s <= int_max) rec /\ Forall2 (fun c s => fst c <= fst s) cur rec
  /\ minSize ex_heap (XLot 0) = Ok 2 /\ Exists (fits 20) cur
  /\ Exists (fun s => fits 20 s /\ leaves_little 20 s) cur /\ Forall (fun s => ~ fits 0 s) cur.
Proof.
  eexists _, [(4, 4); (5, -1); (1, 8)], [(4, 4); (2, -1); (1, 8)]. split; [reflexivity|]. split.
  { exists [(4, 4)], [(5, -1); (1, 8)], (lot_new [(4, 4)]). split; [reflexivity|]. split; [left; reflexivity|]. split; reflexivity. }
  split.
  { split; [intros P x []|]. intros L x [<-|[]] [<-|[<-|[<-|[]]]].
    - constructor. apply C46_leaves.
    - repeat constructor.
    - constructor. apply C46_leaves. }
  split; [repeat constructor|]. split; [repeat constructor; cbn; lia|]. unfold int_max, fits, leaves_little.
  split; [repeat constructor; cbn; lia|]. split; [repeat constructor; cbn; lia|]. split; [reflexivity|].
  split; [apply Exists_cons_hd; cbn; lia|]. split; [apply Exists_cons_tl, Exists_cons_hd; cbn; lia|]. repeat constructor; cbn; lia.
Qed.
