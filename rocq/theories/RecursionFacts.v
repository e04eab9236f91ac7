(** isRecursive finds exactly the cycles made of pools alone; a pool under a binary operator over
    itself. *)
From Verif Require Import Base BaseFacts Oracle Arithm Galley Stamps StampsEq Sim SimGraph QuerySpec QueryFacts ArithFacts.

Section Rec.
  Context {B : Type} `{BlobOps B}.
  Implicit Types (h : heap B) (x y : sx B).

  (** Heaps with the same members. *)
  Definition same_members h h' : Prop :=
    forall p, option_map weak_pool (nth_error (pools h) p) = option_map weak_pool (nth_error (pools h') p).

  Lemma same_edge h h' p q : same_members h h' -> pool_edge h p q -> pool_edge h' p q.
  Proof.
    intros S (P & E & I1). specialize (S p). rewrite E in S. cbn in S.
    destruct (nth_error (pools h') p) as [P'|] eqn:E'; [|discriminate]. cbn in S. injection S as S.
    exists P'. split; [exact E'|]. rewrite <- S. exact I1.
  Qed.

  Lemma same_reach h h' p q : same_members h h' -> pool_reach h p q -> pool_reach h' p q.
  Proof.
    intros S R. induction R as [p|p q r E R IH]; [constructor|].
    apply reach_step with q; [exact (same_edge h h' p q S E)|exact IH].
  Qed.

  Lemma same_sym h h' : same_members h h' -> same_members h' h.
  Proof. intros S p. symmetry. apply S. Qed.

  Lemma same_cycle h h' p : same_members h h' -> on_pool_cycle h p -> on_pool_cycle h' p.
  Proof.
    intros S (q & E & R). exists q. split; [exact (same_edge _ _ _ _ S E)|exact (same_reach _ _ _ _ S R)].
  Qed.

  Lemma upd_other {A} (l : list A) n m v : n <> m -> nth_error (upd l n v) m = nth_error l m.
  Proof.
    revert n m. induction l as [|x l IH]; intros [|n] [|m] N; cbn; try reflexivity; try congruence.
    apply IH. congruence.
  Qed.

  Lemma set_same h p P P' : nth_error (pools h) p = Some P -> weak_pool P' = weak_pool P ->
    same_members h (set_pool h p P').
  Proof.
    intros E W q. unfold set_pool. cbn [pools]. destruct (Nat.eq_dec p q) as [->|N].
    - rewrite (nth_upd _ _ _ _ E), E. cbn. congruence.
    - rewrite upd_other by exact N. reflexivity.
  Qed.

  (** What the answer is about: something flagged, marked or cyclic is reachable. *)
  Definition flagged h q : Prop :=
    exists P, nth_error (pools h) q = Some P /\ (is_recursive P || is_in_recursion P = true).
  Definition hot h p : Prop := exists q, pool_reach h p q /\ (flagged h q \/ on_pool_cycle h q).

  Lemma reach_trans h p q r : pool_reach h p q -> pool_reach h q r -> pool_reach h p r.
  Proof. induction 1 as [|a b c E R IH]; intros R2; [exact R2|]. apply reach_step with b; auto. Qed.

  Lemma isRecursive_spec f : forall h p, no_dangling h -> nth_error (pools h) p <> None -> (free h < f)%nat ->
    exists r h', isRecursive f (XPool p) h = (Ok r, h')
      /\ (r = true -> hot h p) /\ (r = false -> h' = h /\ ~ hot h p).
  Proof.
    induction f as [|f IHf]; intros h p ND NP Hf; [lia|].
    pose proof (isRecursive_good (S f) h (XPool p) Hf) as Good. unfold good_q in Good.
    cbn [isRecursive] in *. rewrite get_step in *.
    destruct (nth_error (pools h) p) as [P|] eqn:E; [clear NP|contradiction].
    destruct (is_recursive P || is_in_recursion P) eqn:F0.
    { exists true, h. split; [reflexivity|]. split; [|discriminate].
      intros _. exists p. split; [constructor|]. left. exists P. split; assumption. }
    assert (F : is_in_recursion P = false) by (apply orb_false_elim in F0; tauto).
    rewrite (mark_step p P h _ E). rewrite (mark_step p P h _ E) in Good.
    set (P1 := mkPool (weak_pool P) (is_recursive P) true) in *.
    set (h1 := set_pool h p P1) in *.
    assert (N1 : nth_error (pools h1) p = Some P1) by (unfold h1, set_pool; cbn [pools]; exact (nth_upd _ _ _ _ E)).
    assert (Fh1 : (free h1 < f)%nat).
    { unfold free, h1, set_pool. cbn [pools]. unfold free in Hf.
      rewrite (unmarked_upd (pools h) p P P1 E F eq_refl) in Hf. lia. }
    assert (S1 : same_members h h1) by (apply (set_same h p P P1 E); reflexivity).
    assert (ND1 : no_dangling h1).
    { intros Q m IQ Im. apply In_nth_error in IQ as (q & EQ).
      pose proof (S1 q) as Sq. rewrite EQ in Sq. cbn in Sq.
      destruct (nth_error (pools h) q) as [Q0|] eqn:EQ0; [|discriminate]. cbn in Sq. injection Sq as Sq.
      destruct (ND Q0 m (nth_error_In _ _ EQ0)) as (x & -> & Hx); [rewrite Sq; exact Im|].
      exists x. split; [reflexivity|]. intros r -> C. apply (Hx r eq_refl).
      pose proof (S1 r) as Sr. rewrite C in Sr. cbn in Sr. destruct (nth_error (pools h) r); [discriminate|reflexivity]. }
    assert (M : forall m, In m (weak_pool P) -> exists x, m = Some x
              /\ forall q, x = XPool q -> nth_error (pools h1) q <> None).
    { intros m Im. apply (ND1 P1 m); [exact (nth_error_In _ _ N1)|exact Im]. }
    (* the loop over the members *)
    assert (L : forall l, (forall m, In m l -> In m (weak_pool P)) ->
      exists r h2, q_any (map (option_map (isRecursive f)) l) h1 = (Ok r, h2)
        /\ (r = true -> exists q, In (Some (XPool q)) l /\ hot h1 q)
        /\ (r = false -> h2 = h1 /\ forall q, In (Some (XPool q)) l -> ~ hot h1 q)).
    { induction l as [|m l IHl]; intros Hl.
      - exists false, h1. split; [reflexivity|]. split; [discriminate|]. intros _. split; [reflexivity|]. intros q [].
      - destruct (M m) as (x & -> & Hx); [apply Hl; left; reflexivity|].
        destruct IHl as (r & h2 & Er & Ht & Hfa); [intros m Im; apply Hl; right; exact Im|].
        cbn [map option_map q_any].
        assert (X : (exists q, x = XPool q)
                    \/ ((forall q, x <> XPool q) /\ forall h, isRecursive f x h = (Ok false, h))).
        { destruct x; try (right; split; [discriminate|]; intros h0; destruct f; [lia|reflexivity]). left. eauto. }
        destruct X as [(q & ->)|[X0 X]].
        + destruct (IHf h1 q ND1 (Hx q eq_refl) Fh1) as (rq & hq & Eq & Tq & Fq).
          rewrite (bind_ok _ _ _ _ _ Eq). destruct rq.
          * exists true, hq. split; [reflexivity|]. split; [|discriminate].
            intros _. exists q. split; [left; reflexivity|]. apply Tq. reflexivity.
          * destruct (Fq eq_refl) as [-> Nq]. exists r, h2. split; [exact Er|]. split.
            -- intros R. destruct (Ht R) as (q' & Iq & Hq). exists q'. split; [right; exact Iq|exact Hq].
            -- intros R. destruct (Hfa R) as (-> & Hq). split; [reflexivity|].
               intros q' [I1|I1]; [injection I1 as ->; exact Nq|apply Hq; exact I1].
        + rewrite (bind_ok _ _ _ _ _ (X h1)). exists r, h2. split; [exact Er|]. split.
          * intros R. destruct (Ht R) as (q' & Iq & Hq). exists q'. split; [right; exact Iq|exact Hq].
          * intros R. destruct (Hfa R) as (-> & Hq). split; [reflexivity|].
            intros q' [I1|I1]; [injection I1 as ->; exfalso; exact (X0 q' eq_refl)|apply Hq; exact I1]. }
    destruct (L (weak_pool P) (fun m I1 => I1)) as (r & h2 & Er & Ht & Hfa). clear L.
    assert (S1' := same_sym _ _ S1).
    (* what is hot with p marked *)
    assert (Fl : forall q, flagged h1 q -> q = p \/ flagged h q).
    { intros q (Q & EQ & FQ). destruct (Nat.eq_dec p q) as [->|N]; [left; reflexivity|right].
      exists Q. split; [|exact FQ]. unfold h1, set_pool in EQ. cbn [pools] in EQ. rewrite upd_other in EQ by exact N. exact EQ. }
    assert (Fl' : forall q, q = p \/ flagged h q -> flagged h1 q).
    { intros q [->|(Q & EQ & FQ)]; [exists P1; split; [exact N1|apply orb_true_r]|].
      destruct (Nat.eq_dec p q) as [->|N]; [exists P1; split; [exact N1|apply orb_true_r]|].
      exists Q. split; [|exact FQ]. unfold h1, set_pool. cbn [pools]. rewrite upd_other by exact N. exact EQ. }
    assert (Tr : forall q, In (Some (XPool q)) (weak_pool P) -> hot h1 q -> hot h p).
    { intros q Iq (z & Rz & Hz). assert (Ed : pool_edge h p q) by (exists P; split; assumption).
      assert (Rz' := same_reach _ _ _ _ S1' Rz). destruct Hz as [Hz|Hz].
      - destruct (Fl z Hz) as [->|Hz'].
        + exists p. split; [constructor|]. right. exists q. split; assumption.
        + exists z. split; [apply reach_step with q; assumption|left; exact Hz'].
      - exists z. split; [apply reach_step with q; assumption|right; exact (same_cycle _ _ _ S1' Hz)]. }
    assert (Fa : (forall q, In (Some (XPool q)) (weak_pool P) -> ~ hot h1 q) -> ~ hot h p).
    { intros Hq (z & Rz & Hz).
      assert (Cyc : ~ on_pool_cycle h p).
      { intros (q & (P0 & E0 & Iq) & Rq). rewrite E in E0. injection E0 as <-.
        apply (Hq q Iq). exists p. split; [exact (same_reach _ _ _ _ S1 Rq)|]. left. apply Fl'. left. reflexivity. }
      inversion Rz as [|? q ? (P0 & E0 & Iq) Rq]; subst.
      - destruct Hz as [(Q & EQ & FQ)|Hz]; [|contradiction]. rewrite E in EQ. injection EQ as <-. congruence.
      - rewrite E in E0. injection E0 as <-. apply (Hq q Iq). exists z. split; [exact (same_reach _ _ _ _ S1 Rq)|].
        destruct Hz as [Hz|Hz]; [left; apply Fl'; right; exact Hz|right; exact (same_cycle _ _ _ S1 Hz)]. }
    rewrite (bind_ok _ _ _ _ _ Er). rewrite (bind_ok _ _ _ _ _ Er) in Good. destruct r.
    - destruct (Ht eq_refl) as (q & Iq & Hq).
      assert (Kq : exists P2, nth_error (pools h2) p = Some P2).
      { destruct (nth_error (pools h2) p) as [P2|] eqn:E2; [eauto|].
        exfalso. assert (G := isRecursive_good (S f) h1 (XPool p) ltac:(lia)).
        pose proof (good_any f (weak_pool P) h1 Fh1) as GA. unfold good_q in GA. rewrite Er in GA.
        destruct (kept_nth _ _ p P1 GA N1) as (P2 & N2 & _). congruence. }
      destruct Kq as (P2 & N2).
      unfold bind, mark_recursive, mark_in_recursion. rewrite N2. unfold set_pool. cbn [pools lots].
      rewrite (nth_upd _ _ _ _ N2). eexists _, _. split; [reflexivity|]. split; [|discriminate].
      intros _. exact (Tr q Iq Hq).
    - destruct (Hfa eq_refl) as [-> Hq]. rewrite bind_ret. unfold bind, mark_in_recursion. rewrite N1.
      eexists _, _. split; [reflexivity|]. split; [discriminate|]. intros _. split; [|apply Fa; exact Hq].
      unfold h1, set_pool. cbn [pools lots weak_pool is_recursive P1]. rewrite upd_upd.
      destruct h as [ps ls]. cbn [pools lots] in *. f_equal. apply upd_same. rewrite E.
      destruct P; cbn in *. congruence.
  Qed.

  (** ** Query results are ints *)
  Definition yields {A} (P : A -> Prop) (q : Q B A) : Prop :=
    forall h, match fst (q h) with Ok a => P a | _ => True end.

  Lemma yields_ret {A} (P : A -> Prop) a : P a -> yields P (ret a).
  Proof. intros H1 h. exact H1. Qed.
  Lemma yields_bind {A C} (P : C -> Prop) (q : Q B A) (k : A -> Q B C) :
    (forall a, yields P (k a)) -> yields P (bind q k).
  Proof. intros Hk h. unfold bind. destruct (q h) as [[a| | | |] h']; try exact I. apply Hk. Qed.
  Lemma yields_lift {A} (P : A -> Prop) (r : res A) : (forall a, r = Ok a -> P a) -> yields P (lift r).
  Proof. intros Hr h. cbn. destruct r; try exact I. apply Hr. reflexivity. Qed.

  Lemma int_i32 z : is_int (i32 z). Proof. apply i32_range. Qed.
  Lemma int_op_int z a : int_op z = Ok a -> is_int a.
  Proof. intros E. apply int_op_inv in E as [-> E]. exact E. Qed.

  Lemma yields_set_max l : forall r, is_int r -> yields is_int (q_set_max l r).
  Proof.
    induction l as [|[a b] l IH]; intros r Hr; cbn [q_set_max]; [apply yields_ret; exact Hr|].
    apply yields_bind. intros m. intros h. unfold bind at 1. cbn [lift].
    destruct (int_op (r + m)) as [s| | | |] eqn:E; try exact I. apply int_op_int in E.
    apply yields_bind. intros v. cbv zeta. apply yields_bind. intros [|]; [apply yields_ret; split; lia|].
    apply IH. destruct v; [apply int_i32|exact E].
  Qed.

  Lemma yields_query f q x : int_sx x -> yields is_int (query f q x).
  Proof.
    intros Hx. revert q. induction x as [mn mx ex|j x IH|o x IH|o x y IHx IHy|j xs IH|n v IHn IHv|p|l] using sx_ind';
      intros q; unf_query; try (destruct q; [|apply yields_ret; split; lia]).
    - inversion Hx; subst. apply yields_ret. destruct q; assumption.
    - inversion Hx; subst. unfold q_vector_min. apply yields_bind. intros [|]; [apply IH; assumption|].
      apply yields_bind. intros [|]; (apply yields_bind; intros m; apply yields_ret, int_i32).
    - inversion Hx; subst. apply IH. assumption.
    - apply yields_bind. intros t. apply yields_ret. destruct (1 <? t_unb t); apply int_i32.
    - cbv zeta. destruct q; [|apply yields_set_max; split; lia].
      apply yields_bind. intros t. apply yields_ret. destruct (1 <? t_unb t); apply int_i32.
    - apply yields_bind. intros a. apply yields_bind. intros b. apply yields_lift, int_op_int.
    - destruct f as [|f]; [rewrite query_pool_0; apply yields_lift; discriminate|]. rewrite query_pool_S.
      apply yields_bind. intros P. destruct q.
      + destruct (is_in_recursion P); [apply yields_ret; split; reflexivity || (vm_compute; discriminate)|].
        do 3 (apply yields_bind; intros ?). apply yields_ret.
        destruct (a0 =? int_max / 2); [split; reflexivity || (vm_compute; discriminate)|apply int_i32].
      + destruct (is_recursive P || is_in_recursion P); [apply yields_ret; split; lia|].
        do 3 (apply yields_bind; intros ?). apply yields_ret. destruct a0; [apply int_i32|split; lia].
    - apply yields_bind. intros L. apply yields_lift. destruct q; [apply int_op_int|].
      unfold lotMaxSize. destruct (stored_max (lot_nums L) =? -1); [|apply int_op_int].
      intros a [= <-]. split; lia.
  Qed.

  (** ** A pool with a binary operator over itself *)
  Definition low : Z := - 2147483646.

  Lemma pool_min_le l h : forall r v h', Forall (good_opt eq h) l -> q_pool_min l r h = (Ok v, h') ->
    v <= r /\ forall q c h1, In (Some q) l -> q h = (Ok c, h1) -> v <= c.
  Proof.
    induction l as [|[q|] l IH]; intros r v h' G E; cbn [q_pool_min] in E; [injection E as -> _; split; [lia|intros ? ? ? []]| |discriminate].
    inversion G as [|? ? Gq Gl]; subst. cbn in Gq. unfold good_q in Gq. unfold bind in E.
    destruct (q h) as [[c| | | |] h1] eqn:Eq; try discriminate. subst h1.
    destruct (IH _ _ _ Gl E) as [A1 A2]. split; [destruct (c <? r) eqn:L; lia|].
    intros q' c' h1 [I1|I1] E1; [injection I1 as <-; rewrite Eq in E1; injection E1 as <- _; destruct (c <? r) eqn:L; lia|].
    exact (A2 q' c' h1 I1 E1).
  Qed.

  Lemma pool_min_int l h : forall r v h', is_int r -> (forall q, In (Some q) l -> yields is_int q) ->
    q_pool_min l r h = (Ok v, h') -> is_int v.
  Proof.
    revert h. induction l as [|[q|] l IH]; intros h r v h' Hr Hl E; cbn [q_pool_min] in E; [injection E as <- _; exact Hr| |discriminate].
    unfold bind in E. pose proof (Hl q (or_introl eq_refl) h) as Hq.
    destruct (q h) as [[c| | | |] h1] eqn:Eq; try discriminate. cbn in Hq.
    apply (IH h1 (if c <? r then c else r) v h'); [destruct (c <? r); assumption| |exact E].
    intros q' I1. apply Hl. right. exact I1.
  Qed.

  (** The operator's minSize() while its pool is marked. *)
  Lemma binary_marked f op p P h : nth_error (pools h) p = Some P -> is_in_recursion P = true ->
    query (S f) true (XBinary op (XPool p) (XPool p)) h = (Ok low, h).
  Proof.
    intros E F. rewrite query_binary.
    assert (Qm : query (S f) true (XPool p) h = (Ok (int_max / 2), h)).
    { rewrite query_pool_S, get_step, E, F. reflexivity. }
    assert (Qx : query (S f) false (XPool p) h = (Ok (-1), h)).
    { rewrite query_pool_S, get_step, E, F, orb_true_r. reflexivity. }
    assert (V : q_variated (query (S f) true (XPool p)) (query (S f) false (XPool p)) h = (Ok false, h)).
    { unfold q_variated, q_fixed, q_unbounded. unfold bind. rewrite Qm, Qx. cbn [ret].
      change (int_max / 2 =? -1) with false. cbv iota beta. rewrite Qx. reflexivity. }
    assert (U : q_unbounded (query (S f) false (XPool p)) h = (Ok true, h)).
    { unfold q_unbounded, bind. rewrite Qx. reflexivity. }
    unfold q_set_min. cbn [q_set_totals].
    rewrite (bind_ok _ _ _ (mkTotals (int_max / 2 + int_max / 2) 0 2 0) h); [reflexivity|].
    rewrite (bind_ok _ _ _ _ _ Qm). rewrite (bind_lift_ok _ _ _ (int_max / 2)) by reflexivity.
    rewrite (bind_ok _ _ _ _ _ V), (bind_ok _ _ _ _ _ U).
    rewrite (bind_ok _ _ _ _ _ Qm). rewrite (bind_lift_ok _ _ _ (int_max / 2 + int_max / 2)) by reflexivity.
    rewrite (bind_ok _ _ _ _ _ V), (bind_ok _ _ _ _ _ U). reflexivity.
  Qed.

  Lemma pool_self_min f op p P h v h' :
    nth_error (pools h) p = Some P -> is_in_recursion P = false -> int_members P ->
    In (Some (XBinary op (XPool p) (XPool p))) (weak_pool P) -> (free h < f)%nat ->
    query f true (XPool p) h = (Ok v, h') -> - 2 ^ 31 <= v <= low + 2.
  Proof.
    intros E F IM I1 Hf Q0. destruct f as [|f]; [lia|]. rewrite query_pool_S, get_step, E, F in Q0.
    rewrite (mark_step p P h _ E) in Q0. set (P1 := mkPool (weak_pool P) (is_recursive P) true) in *.
    set (h1 := set_pool h p P1) in *.
    assert (N1 : nth_error (pools h1) p = Some P1) by (unfold h1, set_pool; cbn [pools]; exact (nth_upd _ _ _ _ E)).
    assert (Fh1 : (free h1 < f)%nat).
    { unfold free, h1, set_pool. cbn [pools]. unfold free in Hf.
      rewrite (unmarked_upd (pools h) p P P1 E F eq_refl) in Hf. lia. }
    assert (G : Forall (good_opt eq h1) (map (option_map (query f true)) (weak_pool P))).
    { rewrite Forall_map, Forall_forall. intros [y|] _; cbn; [|exact I]. apply query_good. exact Fh1. }
    unfold bind at 1 in Q0.
    destruct (q_pool_min (map (option_map (query f true)) (weak_pool P)) (int_max / 2) h1) as [[r| | | |] h2] eqn:Er; try discriminate.
    destruct (pool_min_le _ _ _ _ _ G Er) as [_ Le].
    assert (Rl : r <= low).
    { apply (Le (query f true (XBinary op (XPool p) (XPool p))) low h1).
      - apply in_map_iff. eexists. split; [|exact I1]. reflexivity.
      - destruct f as [|f]; [lia|]. exact (binary_marked f op p P1 h1 N1 eq_refl). }
    assert (Ri : is_int r).
    { apply pool_min_int with (3 := Er); [split; [vm_compute; discriminate|reflexivity]|].
      intros q Iq. apply in_map_iff in Iq as ([y|] & Ey & Iy); [|discriminate]. injection Ey as <-.
      apply yields_query. apply IM. exact Iy. }
    unfold bind in Q0. destruct (mark_in_recursion p false h2) as [[| | | |] h3]; try discriminate.
    cbn [ret] in Q0. injection Q0 as <- _. destruct Ri as [Ri1 Ri2]. unfold low in *.
    replace (r =? int_max / 2) with false by (change (int_max / 2) with 1073741823; lia).
    rewrite i32_id; unfold ORACLE_SIZE; lia.
  Qed.

  Lemma good_cases {A} (q : Q B A) h : good_q eq q h -> (exists a, q h = (Ok a, h)) \/ fst (q h) = UB.
  Proof.
    unfold good_q. destruct (q h) as [[a| | | |] h']; cbn; intros G; try contradiction; [left|right; reflexivity].
    subst h'. eauto.
  Qed.

  Lemma bind_ub {S A C} (q : M S A) (k : A -> M S C) s : fst (q s) = UB -> fst (bind q k s) = UB.
  Proof. intros E. unfold bind. destruct (q s) as [r s']. cbn in E. subst r. reflexivity. Qed.

  (** Asking the operator from outside overflows. *)
  Lemma binary_min_ub op p P h :
    nth_error (pools h) p = Some P -> is_in_recursion P = false -> int_members P ->
    In (Some (XBinary op (XPool p) (XPool p))) (weak_pool P) ->
    minSize h (XBinary op (XPool p) (XPool p)) = UB.
  Proof.
    intros E F IM I1. unfold minSize. pose proof (free_fuel h) as Hf. set (f := qfuel h) in *. rewrite query_binary.
    unfold q_set_min. apply bind_ub. cbn [q_set_totals].
    assert (Gm := query_good f h true (XPool p) Hf). assert (Gx := query_good f h false (XPool p) Hf).
    destruct (good_cases _ _ Gm) as [(m & Em)|Em]; [|apply bind_ub; exact Em].
    pose proof (pool_self_min f op p P h m h E F IM I1 Hf Em) as Hm. unfold low in Hm.
    rewrite (bind_ok _ _ _ _ _ Em). rewrite (bind_lift_ok _ _ _ m) by (cbn [t_fixed]; rewrite Z.add_0_l; apply int_op_ok; lia).
    destruct (good_cases _ _ (good_q_variated _ _ _ Gm Gx)) as [(v & Ev)|Ev]; [|apply bind_ub; exact Ev].
    destruct (good_cases _ _ (good_q_unbounded _ _ Gx)) as [(u & Eu)|Eu];
      [|rewrite (bind_ok _ _ _ _ _ Ev); apply bind_ub; exact Eu].
    rewrite (bind_ok _ _ _ _ _ Ev), (bind_ok _ _ _ _ _ Eu), (bind_ok _ _ _ _ _ Em).
    apply bind_ub. cbn [t_fixed lift fst]. unfold int_op, in_i32. replace (_ && _) with false by lia. reflexivity.
  Qed.

  Lemma pool_filter_ub (ms : list (member B)) sz qmax ex :
    (forall qn qx e, In (qn, qx, e) ms -> ((exists a, qn = Ok a) \/ qn = UB) /\ ((exists a, qx = Ok a) \/ qx = UB)) ->
    In (UB, qmax, ex) ms -> pool_filter ms sz = UB.
  Proof.
    induction ms as [|[[qn qx] e] ms IH]; intros Ha I1; [destruct I1|]. cbn [pool_filter].
    destruct (Ha qn qx e (or_introl eq_refl)) as [[[a ->]| ->] Hx]; [|reflexivity]. cbn [rbind].
    destruct I1 as [I1|I1]; [congruence|].
    rewrite IH; [|intros; eapply Ha; right; eassumption|exact I1].
    destruct (u64 a <=? sz); [|reflexivity]. destruct Hx as [[c ->]| ->]; reflexivity.
  Qed.

  Lemma query_res f q x h : (free h < f)%nat -> (exists a, fst (query f q x h) = Ok a) \/ fst (query f q x h) = UB.
  Proof.
    intros Hf. destruct (good_cases _ _ (query_good f h q x Hf)) as [(a & E)|E]; [left|right; exact E].
    exists a. rewrite E. reflexivity.
  Qed.

  (** The cached answer. *)
  Lemma isRecursive_sets f h p h1 : isRecursive f (XPool p) h = (Ok true, h1) -> at_rest h ->
    exists P1, nth_error (pools h1) p = Some P1 /\ is_recursive P1 = true.
  Proof.
    intros E AR. destruct f as [|f]; [discriminate|]. cbn [isRecursive] in E. rewrite get_step in E.
    destruct (nth_error (pools h) p) as [P|] eqn:EP; [|discriminate].
    destruct (is_recursive P || is_in_recursion P) eqn:F0.
    { injection E as <-. exists P. split; [exact EP|].
      rewrite (AR P (nth_error_In _ _ EP)), orb_false_r in F0. exact F0. }
    rewrite (mark_step p P h _ EP) in E.
    unfold bind at 1 in E. destruct (q_any _ _) as [[r| | | |] h2]; try discriminate.
    destruct r.
    - unfold bind at 1 in E. unfold mark_recursive in E.
      destruct (nth_error (pools h2) p) as [P2|] eqn:E2; [|discriminate].
      unfold bind, mark_in_recursion, set_pool in E. cbn [pools lots] in E. rewrite (nth_upd _ _ _ _ E2) in E.
      cbn [ret] in E. injection E as <-. cbn [pools]. rewrite upd_upd.
      eexists. split; [exact (nth_upd _ _ _ _ E2)|reflexivity].
    - rewrite bind_ret in E. unfold bind in E. destruct (mark_in_recursion p false h2) as [[| | | |] h3]; discriminate.
  Qed.
End Rec.

Lemma list_GetOracle (l : bytes) : 2 <= zlen l ->
  exists o, 0 <= o <= 65535 /\ GetOracle l = (Ok o, (skipn 2 l : bytes)).
Proof.
  intros Hl. unfold GetOracle. rewrite list_ExtractValue by (cbn; lia).
  exists (decode UShort (firstn 2 l)). split; [|reflexivity].
  assert (Z2 : zlen (firstn 2 l) = 2) by (apply (zlen_firstn 2); lia).
  exact (proj2 (decode_bits UShort (firstn 2 l) Z2)).
Qed.
