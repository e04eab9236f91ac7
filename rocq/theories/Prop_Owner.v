(** C72: how long stamps live, and what happens when a member of a pool or lottery is gone. *)
From Verif Require Import Base BaseFacts Blob BlobSpec RunSpec RunFacts Sim SimGraph Oracle Arithm StampText Galley Stamps StampsEq
  QuerySpec QueryFacts DictFacts ExpiredSpec ExpiredFacts Prop_Expired Owner OwnerSpec OwnerAgree OwnerFacts OwnerView.
Local Open Scope Z_scope.

(** Every program that hands over stamps which exist, and drops only what it has, runs: no object is destroyed twice, no
    destroyed object is touched, every destruction ends.  No other program has a meaning. *)
Theorem C72_program : forall (ops : list (own_op blob)),
  (lawful (rev ops) -> exists s, own_run [] ops = Ok s) /\ (~ lawful (rev ops) -> own_run [] ops = UB).
Proof.
  assert (G : forall past : list (own_op blob), (exists s, own_run [] (rev past) = Ok s) \/ own_run [] (rev past) = UB).
  { induction past as [|q past IH]; [left; eexists; reflexivity|]. cbn [rev]. rewrite run_app. destruct IH as [(s & E)|E]; rewrite E; [|right; reflexivity].
    pose proof (run_state _ _ E) as Hi. rewrite rev_involutive in Hi. cbn [rbind own_run].
    assert (C : (exists s', own_step s q = Ok s') \/ own_step s q = UB).
    { destruct q as [k|i|i|p x|l x]; cbn [own_step].
      - destruct (forallb (alive s) (mentions k)) eqn:Ef; [left|right; reflexivity].
        destruct (own_step_ok past s (Make k) Hi) as (s' & E' & _).
        + intros i Hm. apply (inv_alive past s i Hi). rewrite forallb_forall in Ef. apply Ef, mentions_owns, Hm.
        + cbn [own_step] in E'. rewrite Ef in E'. eauto.
      - destruct (nth_error s i) as [o|]; [|right; reflexivity]. destruct (Nat.eqb (mine o) 0); [right; reflexivity|left; eauto].
      - destruct (nth_error s i) as [o|] eqn:Eo; [|right; reflexivity]. destruct (Nat.eqb (mine o) 0) eqn:Em; [right; reflexivity|left].
        destruct (own_step_ok past s (Release i) Hi) as (s' & E' & _).
        + cbn [allowed]. destruct (proj1 (proj2 Hi) i o Eo) as (_ & _ & <-). apply Nat.eqb_neq in Em. lia.
        + cbn [own_step] in E'. rewrite Eo, Em in E'. eauto.
      - destruct (nth_error s p) as [o|]; [|right; reflexivity]. destruct (what o); try (right; reflexivity). destruct (alive s p && alive s x); [left; eauto|right; reflexivity].
      - destruct (nth_error s l) as [o|]; [|right; reflexivity]. destruct (what o); try (right; reflexivity). destruct (alive s l && alive s x); [left; eauto|right; reflexivity]. }
    destruct C as [(s' & ->)| ->]; [left; eexists; reflexivity|right; reflexivity]. }
  intros ops. split.
  - intros Hl. destruct (run_inv _ Hl) as (s & E & _). rewrite rev_involutive in E. eauto.
  - intros Hl. destruct (G (rev ops)) as [(s & E)|E]; [|rewrite rev_involutive in E; exact E]. destruct Hl. exact (run_lawful _ _ E).
Qed.
Print Assumptions C72_program.

(** A stamp exists as long as the program, or a stamp that is itself kept, has a pointer to it, and no longer. *)
Theorem C72_alive : forall (ops : list (own_op blob)) s, own_run [] ops = Ok s -> forall i, alive s i = true <-> kept (rev ops) i.
Proof. intros ops s E i. apply inv_alive. exact (run_state ops s E). Qed.
Print Assumptions C72_alive.

(** use_count(): the program's own pointers and those of the stamps that exist. *)
Theorem C72_use_count : forall (ops : list (own_op blob)) s, own_run [] ops = Ok s ->
  exists existing : list nat, NoDup existing /\ (forall j, In j existing <-> kept (rev ops) j)
  /\ forall i o, nth_error s i = Some o ->
     uses o = (held (rev ops) i + list_sum (map (fun j => match nth_error (makes (rev ops)) j with Some k => pointers k i | None => 0%nat end) existing))%nat.
Proof.
  intros ops s E. pose proof (run_state ops s E) as Hi. exists (filter (alive s) (seq 0 (length s))). split; [apply NoDup_filter, seq_NoDup|]. split.
  - intros j. rewrite filter_In, (inv_alive (rev ops) s j Hi). split; [intros [_ K]; exact K|]. intros K. split; [|exact K].
    apply (inv_alive (rev ops) s j Hi), alive_nth in K as (o & Eo & _). apply in_seq. split; [lia|]. apply nth_error_Some. congruence.
  - intros i o Eo. destruct Hi as (L & HO & _ & _ & Hl). pose proof (Hl i o Eo) as U. cbn [count_occ] in U. destruct (HO i o Eo) as (_ & _ & M).
    rewrite U, M, Nat.add_0_r. f_equal. clear U M Hl Eo o E.
    enough (G : forall t n, (forall j o, nth_error t j = Some o -> nth_error (makes (rev ops)) (n + j) = Some (what o) /\ alive s (n + j) = negb (Nat.eqb (uses o) 0)) ->
      weight t i = list_sum (map (fun j => match nth_error (makes (rev ops)) j with Some k => pointers k i | None => 0%nat end) (filter (alive s) (seq n (length t))))).
    { apply (G s 0%nat). intros j o Eo. split; [apply (HO j o Eo)|]. unfold alive. cbn [Nat.add]. rewrite Eo. reflexivity. }
    induction t as [|a t IH]; intros n Hn; [reflexivity|]. cbn [weight length seq filter]. destruct (Hn 0%nat a eq_refl) as (Ea & Aa). rewrite Nat.add_0_r in Ea, Aa.
    rewrite Aa, (IH (S n)).
    2:{ intros j o Eo. replace (S n + j)%nat with (n + S j)%nat by lia. apply (Hn (S j) o Eo). }
    unfold gives. destruct (Nat.eqb (uses a) 0); cbn [negb]; [reflexivity|]. cbn [map]. rewrite Ea, pointers_occ. reflexivity.
Qed.
Print Assumptions C72_use_count.

(** Nothing leaks: pools that contain themselves included. *)
Theorem C72_no_leak : forall (ops : list (own_op blob)) s, own_run [] ops = Ok s -> (forall i, held (rev ops) i = 0%nat) -> forall i, alive s i = false.
Proof.
  intros ops s E Hh i. destruct (alive s i) eqn:A; [|reflexivity]. apply (C72_alive ops s E) in A. exfalso. induction A as [i Hi|i j k K IH Ek Hi]; [|exact IH].
  rewrite Hh in Hi. lia.
Qed.
Print Assumptions C72_no_leak.

(** What the theorems below call the stamp [i]: a stamp over the stamps it was made of. *)
Theorem C72_stamp : forall (ops : list (own_op blob)) s i k, own_run [] ops = Ok s -> nth_error (makes (rev ops)) i = Some k -> kept (rev ops) i ->
  stamp_of s i = match k with
                 | KLeaf mn mx ex => XLeaf mn mx ex
                 | KEnum j x | KText j x => XVec j (stamp_of s x)
                 | KUnary op x => XUnary op (stamp_of s x)
                 | KBinary op x y => XBinary op (stamp_of s x) (stamp_of s y)
                 | KSet j xs => XSet j (map (stamp_of s) xs)
                 | KHashEl n v => XHashEl (stamp_of s n) (stamp_of s v)
                 | KPool _ => XPool i
                 | KLot _ _ => XLot i
                 end.
Proof.
  intros ops s i k E Ek K. pose proof (run_state ops s E) as Hi. apply (inv_alive _ _ i Hi), alive_nth in K as (o & Eo & Hu).
  destruct Hi as (_ & HO & _ & Hb & _). destruct (HO i o Eo) as (W & _). assert (what o = k) as Ew by congruence.
  assert (P : forall x, In x (strong k) -> own_sx i s x = stamp_of s x) by (intros x Hx; apply (fuel_sx s Hb), (Hb i o x Eo); rewrite Ew; exact Hx).
  unfold stamp_of at 1. cbn [own_sx]. rewrite Eo, Ew. replace (Nat.eqb (uses o) 0) with false by (symmetry; apply Nat.eqb_neq; lia).
  destruct k as [mn mx ex|jn x|jn x|op x|op x y|jn xs|nm v|ms|four ms]; cbn [strong In] in P; rewrite ?(P _ (or_introl eq_refl)); try reflexivity.
  - rewrite (P y) by auto. reflexivity.
  - f_equal. apply map_ext_in. exact P.
  - rewrite (P v) by auto. reflexivity.
Qed.
Print Assumptions C72_stamp.

(** The members of a pool and of a lottery, in order: those of the constructor, then those added.  A pool sees that one is
    gone, a lottery is left with a reference to nothing. *)
Theorem C72_members : forall (ops : list (own_op blob)) s i nums, own_run [] ops = Ok s ->
  (forall ms, nth_error (makes (rev ops)) i = Some (KPool ms) -> exists P, nth_error (pools (own_heap s nums)) i = Some P
     /\ is_in_recursion P = false /\ is_recursive P = false
     /\ Forall2 (fun m x => (kept (rev ops) x -> m = Some (stamp_of s x)) /\ (~ kept (rev ops) x -> m = None)) (weak_pool P) (ms ++ later (rev ops) i))
  /\ (forall four ms, nth_error (makes (rev ops)) i = Some (KLot four ms) ->
     nth_error (lots (own_heap s nums)) i = Some (mkLottery (map (stamp_of s) (ms ++ later (rev ops) i)) (nums i) four))
  /\ (forall x, ~ kept (rev ops) x -> minSize (own_heap s nums) (stamp_of s x) = UB /\ forall b, fst (ExtractStr (own_heap s nums) (stamp_of s x) b) = UB).
Proof.
  intros ops s i nums E. pose proof (run_state ops s E) as Hi. pose proof Hi as (L & HO & _).
  assert (G : forall k, nth_error (makes (rev ops)) i = Some k -> exists o, nth_error s i = Some o /\ what o = k /\ added o = later (rev ops) i).
  { intros k Ek. destruct (nth_error s i) as [o|] eqn:Eo; [|apply nth_error_None in Eo; assert (i < length (makes (rev ops)))%nat by (apply nth_error_Some; congruence); lia].
    destruct (HO i o Eo) as (W & Ad & _). exists o. split; [reflexivity|split; [congruence|exact Ad]]. }
  split; [|split].
  - intros ms Ek. destruct (G _ Ek) as (o & Eo & Ew & Ad). exists (own_pool s o). rewrite view_pool, Eo. repeat split. unfold own_pool, observed. cbn [weak_pool]. rewrite Ew, Ad.
    induction (ms ++ later (rev ops) i) as [|x l IH]; cbn [map]; constructor; [|exact IH]. pose proof (inv_alive _ _ x Hi) as A. destruct (alive s x).
    + split; [reflexivity|]. intros N. destruct N. apply A. reflexivity.
    + split; [|reflexivity]. intros K. apply A in K. discriminate K.
  - intros four ms Ek. destruct (G _ Ek) as (o & Eo & Ew & Ad). rewrite view_lot, Eo. cbn [option_map]. unfold own_lot, observed. rewrite Ew, Ad. reflexivity.
  - intros x N. assert (D : alive s x = false) by (destruct (alive s x) eqn:A; [destruct N; apply (inv_alive _ _ x Hi); exact A|reflexivity]).
    rewrite (stamp_dead s x D). split; [apply nowhere_sizes|]. intros b. unfold ExtractStr. rewrite extract_pool_S.
    replace (nth_error (pools (own_heap s nums)) (length s)) with (@None (pool blob)); [reflexivity|]. symmetry. apply nth_error_None. rewrite view_len. lia.
Qed.
Print Assumptions C72_members.

(** As long as everything a call on stamp [i] can come across is kept, the stamp answers as in the program that never
    drops a pointer. *)
Theorem C72_unaffected : forall (ops : list (own_op blob)) s i nums, own_run [] ops = Ok s -> (forall j, met (rev ops) i j -> kept (rev ops) j) ->
  exists s', own_run [] (never_drops ops) = Ok s' /\ (forall j, (j < length (makes (rev ops)))%nat -> alive s' j = true)
  /\ minSize (own_heap s nums) (stamp_of s i) = minSize (own_heap s' nums) (stamp_of s' i)
  /\ maxSize (own_heap s nums) (stamp_of s i) = maxSize (own_heap s' nums) (stamp_of s' i)
  /\ forall b, ExtractStr (own_heap s nums) (stamp_of s i) b = ExtractStr (own_heap s' nums) (stamp_of s' i) b.
Proof.
  intros ops s i nums E Hk. pose proof (run_state ops s E) as Hi. rewrite <- (rev_involutive ops) in E. pose proof (run_lawful _ _ E) as Hl.
  destruct (run_inv _ (never_lawful _ Hl)) as (s' & E' & Hi'). exists s'. rewrite never_rev, rev_involutive in E'. split; [exact E'|]. split.
  - intros j Hj. apply (inv_alive _ _ j Hi'). apply kept_held. rewrite <- (never_makes (rev ops)) in Hj. revert Hj. clear.
    induction (rev ops) as [|q past IH]; [cbn; lia|]. unfold never_drops in *. cbn [filter]. destruct q; cbn [makes held]; try exact IH.
    + rewrite app_length. cbn [length]. intros Hj. destruct (Nat.eqb_spec j (length (makes (filter (fun o => match o with Release _ => false | _ => true end) past)))); [lia|apply IH; lia].
    + intros Hj. destruct (Nat.eqb j i); [lia|apply IH; exact Hj].
  - apply (same_answers (rev ops) i s s' Hi).
    + destruct Hi as (L & HO & _), Hi' as (L' & HO' & _). rewrite never_makes in L'. split; [lia|]. intros j o o' Eo Eo'.
      destruct (HO j o Eo) as (W & A & _), (HO' j o' Eo') as (W' & A' & _). rewrite never_makes in W'. rewrite never_later in A'. split; congruence.
    + intros j M. split; [apply (inv_alive _ _ j Hi), Hk, M|]. apply (inv_alive _ _ j Hi'), never_kept, Hk, M.
Qed.
Print Assumptions C72_unaffected.

(** Without lotteries and add_weak, a stamp keeps all it needs: whoever has the stamp may drop everything else. *)
Theorem C72_self_contained : forall (ops : list (own_op blob)) s i, own_run [] ops = Ok s -> kept (rev ops) i ->
  (forall j four ms, met (rev ops) i j -> nth_error (makes (rev ops)) j <> Some (KLot four ms)) -> (forall j, met (rev ops) i j -> later (rev ops) j = []) ->
  forall j, met (rev ops) i j -> kept (rev ops) j.
Proof.
  intros ops s i E K HL HW j M. induction M as [i|i j k x M IH Ek Hx|i j x M IH Hx]; [exact K|exact (kept_owned _ x j k (IH K HL HW) Ek Hx)|].
  unfold watches in Hx. destruct (nth_error (makes (rev ops)) j) as [k|] eqn:Ek; [|destruct Hx]. destruct k as [| | | | | | |ms|four ms]; try destruct Hx.
  - rewrite (HW j M), app_nil_r in Hx. apply (kept_owned _ x j _ (IH K HL HW) Ek). constructor. exact Hx.
  - exfalso. exact (HL j four ms M Ek).
Qed.
Print Assumptions C72_self_contained.

(** A lottery one of whose members is gone still answers minSize() and maxSize(), from the sizes it has stored.
    Extraction is undefined on all data but those too short for its oracle. *)
Theorem C72_lottery : forall (ops : list (own_op blob)) s l x four ms nums b d, own_run [] ops = Ok s ->
  nth_error (makes (rev ops)) l = Some (KLot four ms) -> kept (rev ops) l -> watches (rev ops) l x -> ~ kept (rev ops) x ->
  In (oracle_size (nums l)) [1; 2; 4; 8] -> holds b d ->
  minSize (own_heap s nums) (stamp_of s l) = lotMinSize (nums l) /\ maxSize (own_heap s nums) (stamp_of s l) = lotMaxSize (nums l)
  /\ (zlen d < oracle_size (nums l) -> runs (ExtractStr (own_heap s nums) (stamp_of s l)) b OutOfData d)
  /\ (oracle_size (nums l) <= zlen d -> fst (ExtractStr (own_heap s nums) (stamp_of s l) b) = UB).
Proof.
  intros ops s l x four ms nums b d E Ek K Hx NK Ho Hb. pose proof (run_state ops s E) as Hi.
  assert (Ho' : oracle_size (nums l) = 1 \/ oracle_size (nums l) = 2 \/ oracle_size (nums l) = 4 \/ oracle_size (nums l) = 8) by (cbn in Ho; lia).
  pose proof (proj2 (inv_alive _ _ l Hi) K) as A. apply alive_nth in A as (o & Eo & Hu). destruct (proj1 (proj2 Hi) l o Eo) as (W & Ad & _).
  assert (Ew : what o = KLot four ms) by congruence. pose proof (stamp_alive s l o Eo Hu) as St. rewrite Ew in St. rewrite St.
  assert (NL : nth_error (lots (own_heap s nums)) l = Some (own_lot s (nums l) o)) by (rewrite view_lot, Eo; reflexivity).
  assert (Dead : alive s x = false).
  { destruct (alive s x) eqn:Ea; [|reflexivity]. destruct NK. apply (inv_alive _ _ x Hi). exact Ea. }
  assert (In1 : In (stamp_of s x) (lot_members (own_lot s (nums l) o))).
  { unfold own_lot. cbn [lot_members]. rewrite Ew. apply in_map. unfold observed. rewrite Ew, Ad. unfold watches in Hx. rewrite Ek in Hx. exact Hx. }
  split; [|split; [|split]].
  - unfold minSize. rewrite query_lot. unfold bind, get_lot. rewrite NL. cbn. reflexivity.
  - unfold maxSize. rewrite query_lot. unfold bind, get_lot. rewrite NL. cbn. reflexivity.
  - intros Hd. destruct (run_transfer _ _ b d _ _ (sim_sized_oracle (oracle_size (nums l))) Hb (list_sized_oracle_ood _ d Ho' Hd)) as (b' & E1 & Hb').
    exists b'. split; [|exact Hb']. unfold ExtractStr. rewrite extract_lot_S, NL. unfold lot_extract. exact (bind_ood _ _ _ _ E1).
  - intros Hd. unfold ExtractStr. rewrite extract_lot_S, NL. unfold lot_extract. destruct (list_sized_oracle _ d Ho' Hd) as (v & Ev & _).
    destruct (run_transfer _ _ b d _ _ (sim_sized_oracle (oracle_size (nums l))) Hb Ev) as (b' & E1 & _). cbn [own_lot lot_nums]. rewrite (bind_ok _ _ _ _ _ E1).
    unfold bind at 1, gets. apply bind_ub_blob. apply (lot_filter_ub _ _ _ (maxSize (own_heap s nums) (stamp_of s x)) (extract (Z.to_nat (Size b)) (own_heap s nums) (stamp_of s x))).
    + intros qn qx e Hin. apply in_map_iff in Hin as (y & [= <- <- <-] & _). apply size_cases.
    + apply in_map_iff. exists (stamp_of s x). split; [|exact In1]. rewrite (stamp_dead s x Dead), (proj1 (nowhere_sizes s nums)). reflexivity.
Qed.
Print Assumptions C72_lottery.

(** A pool one of whose members is gone (it was added by add_weak, and nobody else kept it): minSize() is undefined, and
    so is extraction on all data but those too short for the oracle. *)
Theorem C72_pool : forall (ops : list (own_op blob)) s p x ms nums b d, own_run [] ops = Ok s ->
  nth_error (makes (rev ops)) p = Some (KPool ms) -> kept (rev ops) p -> watches (rev ops) p x -> ~ kept (rev ops) x -> holds b d ->
  In x (later (rev ops) p) /\ ~ In x ms
  /\ minSize (own_heap s nums) (stamp_of s p) = UB
  /\ (zlen d < 2 -> runs (ExtractStr (own_heap s nums) (stamp_of s p)) b OutOfData d)
  /\ (2 <= zlen d -> fst (ExtractStr (own_heap s nums) (stamp_of s p) b) = UB).
Proof.
  intros ops s p x ms nums b d E Ek K Hx NK Hb. pose proof (run_state ops s E) as Hi.
  assert (NI : ~ In x ms) by (intros Hin; apply NK; apply (kept_owned _ x p _ K Ek); constructor; exact Hin).
  unfold watches in Hx. rewrite Ek in Hx. split; [apply in_app_iff in Hx as [Hx|Hx]; [destruct (NI Hx)|exact Hx]|]. split; [exact NI|].
  pose proof (proj2 (inv_alive _ _ p Hi) K) as A. apply alive_nth in A as (o & Eo & Hu). destruct (proj1 (proj2 Hi) p o Eo) as (W & Ad & _).
  assert (Ew : what o = KPool ms) by congruence. pose proof (stamp_alive s p o Eo Hu) as St. rewrite Ew in St. rewrite St.
  assert (Dead : alive s x = false).
  { destruct (alive s x) eqn:Ea; [|reflexivity]. destruct NK. apply (inv_alive _ _ x Hi). exact Ea. }
  assert (SP : spoilt (own_heap s nums) [] (XPool p)).
  { apply (sp_here (own_heap s nums) [] p (own_pool s o)); [rewrite view_pool, Eo; reflexivity|reflexivity|intros []|].
    unfold own_pool. cbn [weak_pool]. rewrite Ew. apply in_map_iff. exists x. rewrite Dead. split; [reflexivity|]. unfold observed. rewrite Ew, Ad. exact Hx. }
  split; [apply C63_minSize; exact SP|]. destruct (C63_pool (own_heap s nums) p b d SP Hb) as (P1 & P2 & _). split; assumption.
Qed.
Print Assumptions C72_pool.

(** Two numbers; a pool of the first and, by add_weak, of itself and the second; a list over the pool; a lottery of the
    second number.  The program then drops its pointers to the pool and to both numbers. *)
Definition little (e1 e2 : M blob bytes) : list (own_op blob) :=
  [Make (KLeaf 2 2 e1); Make (KLeaf 1 1 e2); Make (KPool [0%nat]); AddWeak 2 2; AddWeak 2 1;
   Make (KEnum text_text 2); Make (KLot false [1%nat]); Release 2; Release 0; Release 1].

Lemma little_uses e1 e2 : exists o0 o1 o2 o3 o4, own_run [] (little e1 e2) = Ok [o0; o1; o2; o3; o4] /\ map uses [o0; o1; o2; o3; o4] = [1; 0; 2; 1; 1]%nat.
Proof. cbv -[text_text]. do 5 eexists. split; reflexivity. Qed.

Example C72_case : let ops := little (ArithExtractStr Short) (ArithExtractStr UChar) in
  lawful (rev ops) /\ kept (rev ops) 0 /\ kept (rev ops) 2 /\ ~ kept (rev ops) 1 /\ kept (rev ops) 4 /\ watches (rev ops) 4 1 /\ watches (rev ops) 2 1.
Proof.
  generalize (ArithExtractStr (B := blob) Short) (ArithExtractStr (B := blob) UChar). intros e1 e2 ops.
  destruct (little_uses e1 e2) as (o0 & o1 & o2 & o3 & o4 & E & [= U0 U1 U2 U3 U4]). fold ops in E.
  assert (L : lawful (rev ops)) by (eapply run_lawful; rewrite rev_involutive; exact E).
  pose proof (C72_alive ops _ E) as A. split; [exact L|].
  repeat split; try (apply A; unfold alive; cbn [nth_error]; rewrite ?U0, ?U2, ?U4; reflexivity).
  - intros K. apply A in K. unfold alive in K. cbn [nth_error] in K. rewrite U1 in K. discriminate K.
  - left. reflexivity.
  - right. right. left. reflexivity.
Qed.

(** The list over the pool, before the second number goes: all it meets is kept. *)
Example C72_unaffected_case : let ops := firstn 9 (little (ArithExtractStr Short) (ArithExtractStr UChar)) in
  forall j, met (rev ops) 3 j -> kept (rev ops) j.
Proof.
  generalize (ArithExtractStr (B := blob) Short) (ArithExtractStr (B := blob) UChar). intros e1 e2 ops. set (past := rev ops).
  assert (KM : forall j, (j < 4)%nat -> kept past j).
  { assert (K1 : kept past 1) by (apply kept_held; cbn; lia). assert (K3 : kept past 3) by (apply kept_held; cbn; lia).
    assert (K2 : kept past 2) by (eapply kept_owned; [exact K3|reflexivity|constructor]).
    assert (K0 : kept past 0) by (eapply kept_owned; [exact K2|reflexivity|constructor; left; reflexivity]).
    intros [|[|[|[|j]]]] Hj; auto; lia. }
  intros j M. apply KM. assert (G : forall n j, met past n j -> (n < 4)%nat -> (j < 4)%nat); [|exact (G 3%nat j M ltac:(lia))].
  clear j M. intros n j M. induction M as [n|n j k x M IH Ek Hx|n j x M IH Hx]; intros Hn; [exact Hn| |]; specialize (IH Hn).
  - destruct j as [|[|[|[|j]]]]; [| | | |lia]; injection Ek as <-; inversion Hx; subst; try lia.
    match goal with Hin : In _ _ |- _ => destruct Hin as [<-|[]] end. lia.
  - destruct j as [|[|[|[|j]]]]; [| | | |lia]; unfold watches in Hx; cbn in Hx; try (destruct Hx; fail). all: lia.
Qed.
