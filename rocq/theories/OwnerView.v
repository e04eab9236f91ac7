(** The stamps of a store as Stamps.v sees them. *)
From Verif Require Import Base BaseFacts Blob BlobSpec RunSpec RunFacts Sim SimGraph Oracle Arithm StampText Galley Stamps StampsEq
  QuerySpec QueryFacts DictFacts ExpiredSpec ExpiredFacts Owner OwnerSpec OwnerAgree OwnerFacts.
Local Open Scope nat_scope.

Section View.
  Context {B : Type} `{BlobOps B}.
  Implicit Types (s : store B) (o : object B).

  Lemma view_pool s nums i : nth_error (pools (own_heap s nums)) i = option_map (own_pool s) (nth_error s i).
  Proof. cbn [own_heap pools]. apply nth_error_map. Qed.

  Lemma combine_nth_opt {A} (l : list A) : forall n i, nth_error (combine (seq n (length l)) l) i = option_map (fun a => (n + i, a)) (nth_error l i).
  Proof.
    induction l as [|a l IH]; intros n [|i]; cbn [length seq combine nth_error option_map]; try reflexivity.
    - do 2 f_equal. lia.
    - rewrite IH. destruct (nth_error l i); cbn; [do 2 f_equal; lia|reflexivity].
  Qed.

  Lemma view_lot s nums i : nth_error (lots (own_heap s nums)) i = option_map (own_lot s (nums i)) (nth_error s i).
  Proof.
    cbn [own_heap lots]. rewrite nth_error_map, (combine_nth_opt s 0 i). destruct (nth_error s i); reflexivity.
  Qed.

  Lemma view_len s nums : length (pools (own_heap s nums)) = length s.
  Proof. cbn [own_heap pools]. apply map_length. Qed.

  Lemma stamp_dead s i : alive s i = false -> stamp_of s i = XPool (length s).
  Proof.
    unfold alive, stamp_of. cbn [own_sx]. destruct (nth_error s i) as [o|]; [|reflexivity]. destruct (Nat.eqb (uses o) 0); [reflexivity|discriminate].
  Qed.

  Lemma stamp_alive s i o : nth_error s i = Some o -> 0 < uses o -> match what o with KPool _ => stamp_of s i = XPool i | KLot _ _ => stamp_of s i = XLot i | _ => True end.
  Proof.
    intros E Hu. unfold stamp_of. cbn [own_sx]. rewrite E. replace (Nat.eqb (uses o) 0) with false by (symmetry; apply Nat.eqb_neq; lia).
    destruct (what o); exact I || reflexivity.
  Qed.

  (** A reference to nothing: undefined. *)
  Lemma nowhere_sizes s nums : minSize (own_heap s nums) (XPool (length s)) = UB /\ maxSize (own_heap s nums) (XPool (length s)) = UB.
  Proof.
    assert (N : nth_error (pools (own_heap s nums)) (length s) = None) by (apply nth_error_None; rewrite view_len; lia).
    unfold minSize, maxSize, qfuel. rewrite !query_pool_S. unfold bind, get_pool. rewrite N. split; reflexivity.
  Qed.

  (** Enough fuel is enough. *)
  Lemma fuel_sx s : below s -> forall n i, i < n -> own_sx n s i = stamp_of s i.
  Proof.
    intros Hb. assert (G : forall n m i, i < n -> i < m -> own_sx n s i = own_sx m s i); [|intros n i Hi; apply G; lia].
    induction n as [|n IH]; intros [|m] i Hn Hm; try lia. cbn [own_sx]. destruct (nth_error s i) as [o|] eqn:E; [|reflexivity].
    destruct (Nat.eqb (uses o) 0); [reflexivity|]. pose proof (Hb i o) as P. assert (P' : forall x, In x (strong (what o)) -> own_sx n s x = own_sx m s x).
    { intros x Hx. specialize (P x E Hx). apply IH; lia. }
    destruct (what o) as [mn mx ex|jn x|jn x|op x|op x y|jn xs|nm v|ms|four ms]; cbn [strong In] in P'; rewrite ?(P' _ (or_introl eq_refl)); try reflexivity.
    - rewrite (P' y) by auto. reflexivity.
    - f_equal. apply map_ext_in. exact P'.
    - rewrite (P' v) by auto. reflexivity.
  Qed.

  (** ** Dropping what is not met changes nothing *)
  Context (past : list (own_op B)) (i : nat) (s s' : store B).
  Hypothesis inv1 : inv past s.
  Hypothesis alike1 : length s' = length s /\ forall j o o', nth_error s j = Some o -> nth_error s' j = Some o' -> what o' = what o /\ added o' = added o.
  Hypothesis live : forall j, met past i j -> alive s j = true /\ alive s' j = true.

  Lemma both j : met past i j -> exists o o', nth_error s j = Some o /\ nth_error s' j = Some o' /\ 0 < uses o /\ 0 < uses o' /\ what o' = what o /\ added o' = added o.
  Proof.
    intros M. destruct (live j M) as [A A']. apply alive_nth in A as (o & E & U). apply alive_nth in A' as (o' & E' & U').
    destruct (proj2 alike1 j o o' E E') as [W Ad]. exists o, o'. auto 8.
  Qed.

  Lemma part_met j o x : met past i j -> nth_error s j = Some o -> In x (strong (what o)) -> met past i x /\ x < j.
  Proof.
    intros M E Hx. destruct inv1 as (_ & HO & _ & Hb & _). split; [|exact (Hb j o x E Hx)]. destruct (HO j o E) as (W & _).
    apply (met_part past i j (what o) x M W). apply strong_owns. exact Hx.
  Qed.

  Lemma same_sx n : forall j, j < n -> met past i j -> own_sx n s j = own_sx n s' j /\ sx_in (met past i) (own_sx n s j).
  Proof.
    induction n as [|n IH]; intros j Hj M; [lia|]. destruct (both j M) as (o & o' & E & E' & U & U' & W & _). cbn [own_sx]. rewrite E, E', W.
    replace (Nat.eqb (uses o) 0) with false by (symmetry; apply Nat.eqb_neq; lia). replace (Nat.eqb (uses o') 0) with false by (symmetry; apply Nat.eqb_neq; lia).
    assert (P : forall x, In x (strong (what o)) -> own_sx n s x = own_sx n s' x /\ sx_in (met past i) (own_sx n s x)).
    { intros x Hx. destruct (part_met j o x M E Hx) as [Mx Lx]. apply IH; [lia|exact Mx]. }
    destruct (what o) as [mn mx ex|jn x|jn x|op x|op x y|jn xs|nm v|ms|four ms]; cbn [strong In] in P.
    - split; [reflexivity|exact I].
    - destruct (P x) as [<- ?]; auto.
    - destruct (P x) as [<- ?]; auto.
    - destruct (P x) as [<- ?]; auto.
    - destruct (P x) as [E1 ?]; [auto|]. destruct (P y) as [E2 ?]; [auto|]. rewrite <- E1, <- E2. split; [reflexivity|]. split; assumption.
    - rewrite sx_in_set, Forall_map, Forall_forall. split; [f_equal; apply map_ext_in; intros x Hx; apply P; exact Hx|]. intros x Hx. apply P. exact Hx.
    - destruct (P nm) as [E1 ?]; [auto|]. destruct (P v) as [E2 ?]; [auto|]. rewrite <- E1, <- E2. split; [reflexivity|]. split; assumption.
    - split; [reflexivity|exact M].
    - split; [reflexivity|exact M].
  Qed.

  Lemma same_stamp j : met past i j -> stamp_of s j = stamp_of s' j /\ sx_in (met past i) (stamp_of s j).
  Proof. intros M. apply same_sx; [lia|exact M]. Qed.

  Lemma watched_met j o x : met past i j -> nth_error s j = Some o -> In x (observed o) -> met past i x.
  Proof.
    intros M E Hx. destruct inv1 as (_ & HO & _ & _ & _). destruct (HO j o E) as (W & Ad & _). apply (met_member past i j x M). unfold watches. rewrite W.
    unfold observed in Hx. rewrite Ad in Hx. destruct (what o); exact Hx.
  Qed.

  Lemma same_heap nums : near (met past i) (own_heap s nums) (own_heap s' nums).
  Proof.
    split; [rewrite !view_len; symmetry; exact (proj1 alike1)|]. intros j M. rewrite !view_pool, !view_lot.
    destruct (both j M) as (o & o' & E & E' & U & U' & W & Ad). rewrite E, E'. cbn [option_map].
    assert (OB : observed o' = observed o) by (unfold observed; rewrite W, Ad; reflexivity).
    split; [|split; [|split]].
    - f_equal. unfold own_pool. rewrite W, OB. f_equal. destruct (what o) eqn:Ew; try reflexivity. apply map_ext_in. intros x Hx.
      pose proof (watched_met j o x M E Hx) as Mx. destruct (live x Mx) as [-> ->]. f_equal. apply same_stamp. exact Mx.
    - f_equal. unfold own_lot. rewrite W, OB. f_equal. destruct (what o) eqn:Ew; try reflexivity. apply map_ext_in. intros x Hx.
      apply same_stamp. exact (watched_met j o x M E Hx).
    - intros P y [= <-] Hy. unfold own_pool in Hy. cbn [weak_pool] in Hy. destruct (what o); try destruct Hy. apply in_map_iff in Hy as (x & Ex & Hx).
      pose proof (watched_met j o x M E Hx) as Mx. destruct (live x Mx) as [Al _]. rewrite Al in Ex. injection Ex as <-. apply same_stamp. exact Mx.
    - intros L y [= <-] Hy. unfold own_lot in Hy. cbn [lot_members] in Hy. destruct (what o); try destruct Hy. apply in_map_iff in Hy as (x & <- & Hx).
      apply same_stamp. exact (watched_met j o x M E Hx).
  Qed.

  Lemma same_answers nums : minSize (own_heap s nums) (stamp_of s i) = minSize (own_heap s' nums) (stamp_of s' i)
    /\ maxSize (own_heap s nums) (stamp_of s i) = maxSize (own_heap s' nums) (stamp_of s' i)
    /\ forall b, ExtractStr (own_heap s nums) (stamp_of s i) b = ExtractStr (own_heap s' nums) (stamp_of s' i) b.
  Proof.
    destruct (same_stamp i (met_self past i)) as [E In1]. rewrite <- E. pose proof (same_heap nums) as N.
    split; [apply (near_min _ _ _ N); exact In1|split; [apply (near_max _ _ _ N); exact In1|]]. intros b. unfold ExtractStr.
    rewrite (near_extract _ _ _ N _ _ In1). reflexivity.
  Qed.
End View.

(** ** The program that drops nothing *)
Section Never.
  Context {B : Type} `{BlobOps B}.
  Implicit Types (past : list (own_op B)).

  Lemma never_rev past : rev (never_drops past) = never_drops (rev past).
  Proof.
    induction past as [|q past IH]; [reflexivity|]. cbn [rev]. unfold never_drops in *. rewrite filter_app, <- IH. cbn [filter].
    destruct q; cbn [rev app]; try rewrite app_nil_r; reflexivity.
  Qed.

  Lemma never_makes past : makes (never_drops past) = makes past.
  Proof. induction past as [|q past IH]; [reflexivity|]. unfold never_drops in *. cbn [filter]. destruct q; cbn [makes]; rewrite ?IH; auto. Qed.
  Lemma never_later past i : later (never_drops past) i = later past i.
  Proof. induction past as [|q past IH]; [reflexivity|]. unfold never_drops in *. cbn [filter]. destruct q; cbn [later]; rewrite ?IH; auto. Qed.
  Lemma never_held past i : (held past i <= held (never_drops past) i)%nat.
  Proof.
    induction past as [|q past IH]; [cbn; lia|]. pose proof (never_makes past) as NM. unfold never_drops in *. cbn [filter]. destruct q; cbn [held]; rewrite ?NM;
      repeat match goal with |- context[if ?c then _ else _] => destruct c end; lia.
  Qed.
  Lemma never_kept past i : kept past i -> kept (never_drops past) i.
  Proof.
    intros K. induction K as [i Hi|i j k K IH E Hi]; [apply kept_held; pose proof (never_held past i); lia|].
    apply (kept_owned _ i j k IH); [rewrite never_makes; exact E|exact Hi].
  Qed.
  Lemma never_lawful past : lawful past -> lawful (never_drops past).
  Proof.
    induction past as [|q past IH]; [auto|]. intros [Hl Ha]. specialize (IH Hl).
    assert (A : match q with Release _ => True | _ => allowed (never_drops past) q end).
    { destruct q as [k|i|i|p x|l x]; cbn [allowed] in *; rewrite ?never_makes; [| |exact I| |].
      - intros i Hi. apply never_kept, Ha, Hi.
      - pose proof (never_held past i). lia.
      - destruct Ha as (K1 & K2 & E). auto using never_kept.
      - destruct Ha as (K1 & K2 & E). auto using never_kept. }
    unfold never_drops in *. cbn [filter]. destruct q; cbn [lawful]; auto.
  Qed.
End Never.

(** ** Lotteries with a destroyed member *)
Lemma soft_cases four (qn qx : res Z) z : (exists a, qn = Ok a) \/ qn = UB -> (exists a, qx = Ok a) \/ qx = UB ->
  (exists a, soft_filter four qn qx z = Ok a) \/ soft_filter four qn qx z = UB.
Proof.
  intros [(a & ->)| ->] [(c & ->)| ->]; destruct four; cbn; eauto; repeat (match goal with |- context[if ?b then _ else _] => destruct b end; cbn; eauto);
    destruct (int_op_cases (a + c)) as [(e & ->)| ->]; cbn; eauto.
Qed.

Lemma lot_filter_ub {B} four (ms : list (member B)) z qx ex : (forall qn qx' e, In (qn, qx', e) ms -> ((exists a, qn = Ok a) \/ qn = UB) /\ ((exists a, qx' = Ok a) \/ qx' = UB)) ->
  In (UB, qx, ex) ms -> lot_filter four ms z = UB.
Proof.
  induction ms as [|[[qn qx'] e] ms IH]; intros Hc Hin; [destruct Hin|]. cbn [lot_filter].
  destruct (Hc qn qx' e (or_introl eq_refl)) as [Cn Cx]. destruct Hin as [[= -> -> ->]|Hin]; [reflexivity|].
  specialize (IH (fun a b c Hi => Hc a b c (or_intror Hi)) Hin). destruct Cn as [(a & ->)| ->]; [|reflexivity]. cbn [rbind].
  destruct (Z.ltb z (u64 a)); [exact IH|]. destruct (soft_cases four (Ok a) qx' (i32 z)) as [(k & ->)| ->]; [eauto|exact Cx| |reflexivity].
  cbn [rbind]. rewrite IH. reflexivity.
Qed.
