(** Exact numbers of calls: enumerators and sets in one another, pools that are members of each
    other. *)
From Verif Require Import Base BaseFacts Oracle Galley Stamps StampsEq SimGraph QuerySpec QueryFacts Cost CostSpec CostFacts.
From Coq Require Import Factorial.

Section Exact.
  Context {B : Type}.
  Implicit Types (h : heap B) (x y : sx B).

  Lemma min_exact h x a n : minSize_counted h x = (Ok a, n) <-> exactly (cquery (qfuel h) true x) h a n.
  Proof.
    unfold minSize_counted. cbv zeta. split.
    - intros E0 z. destruct (roomy_exists h) as (k & w & Hk & Hw & R).
      destruct (cquery_within (qfuel h) h k w true x (free_fuel h) Hk Hw R) as (m & E & _ & Ho).
      rewrite E in E0. cbn [fst snd] in E0. apply pair_equal_spec in E0 as [E1 E2]. destruct (Ho a E1) as [Hs _].
      rewrite E, E1, Hs. do 2 f_equal. lia.
    - intros E. rewrite E. reflexivity.
  Qed.
  Lemma max_exact h x a n : maxSize_counted h x = (Ok a, n) <-> exactly (cquery (qfuel h) false x) h a n.
  Proof.
    unfold maxSize_counted. cbv zeta. split.
    - intros E0 z. destruct (roomy_exists h) as (k & w & Hk & Hw & R).
      destruct (cquery_within (qfuel h) h k w false x (free_fuel h) Hk Hw R) as (m & E & _ & Ho).
      rewrite E in E0. cbn [fst snd] in E0. apply pair_equal_spec in E0 as [E1 E2]. destruct (Ho a E1) as [Hs _].
      rewrite E, E1, Hs. do 2 f_equal. lia.
    - intros E. rewrite E. reflexivity.
  Qed.

  Lemma unary_calls h o x : snd (minSize_counted h (XUnary o x)) = 1 + snd (minSize_counted h x).
  Proof.
    unfold minSize_counted. cbv zeta. cbn [snd]. rewrite cq_unary. unfold bind at 1, tick. cbn [fst snd].
    destruct (roomy_exists h) as (k & w & Hk & Hw & R).
    destruct (cquery_within (qfuel h) h k w true x (free_fuel h) Hk Hw R) as (m & E & _ & _).
    rewrite !E. cbn [fst snd]. lia.
  Qed.

  Lemma hashel_calls h a b mn n mn' n' :
    minSize_counted h a = (Ok mn, n) -> minSize_counted h b = (Ok mn', n') ->
    snd (minSize_counted h (XHashEl a b)) = 1 + n + n'.
  Proof.
    intros Ha Hb. apply min_exact in Ha, Hb. unfold minSize_counted. cbv zeta. cbn [snd]. rewrite cq_hashel.
    unfold bind, tick. cbn [fst snd]. rewrite Ha, Hb. cbn. lia.
  Qed.

  Lemma vec_calls h j x mn n mx N : answers h x mn n mx N ->
    snd (minSize_counted h (XVec j x)) = 1 + 2 * n + (if mn =? mx then 1 else 2) * N.
  Proof.
    intros [Hm HM]. apply min_exact in Hm. apply max_exact in HM.
    assert (G : exists m', exactly (cquery (qfuel h) true (XVec j x)) h m' (1 + 2 * n + (if mn =? mx then 1 else 2) * N)).
    { pose proof (ex_q_fixed _ _ _ _ _ _ _ Hm HM) as F. pose proof (ex_q_unbounded _ _ _ _ HM) as U. rewrite cq_vec.
      unfold q_vector_min. destruct (mn =? mx).
      - eexists. eapply ex_conv; [apply ex_tick; eapply ex_bind; [exact F|exact Hm]|reflexivity|lia].
      - destruct (mx =? -1); eexists; (eapply ex_conv; [apply ex_tick; eapply ex_bind; [exact F|eapply ex_bind; [exact U|eapply ex_bind; [exact Hm|apply ex_ret]]]|reflexivity|lia]). }
    destruct G as [m' G]. apply min_exact in G. rewrite G. reflexivity.
  Qed.

  Definition answered h x (p : part) : Prop := answers h x (p_min p) (p_min_calls p) (p_max p) (p_max_calls p).

  Lemma totals_calls h l ps : Forall2 (fun c p => exactly (fst c) h (p_min p) (p_min_calls p) /\ exactly (snd c) h (p_max p) (p_max_calls p)) l ps ->
    forall t, (exists t', exactly (q_set_totals l t) h t'
      (sum (map (fun p => 2 * p_min_calls p + (if p_min p =? p_max p then 2 else 3) * p_max_calls p) ps)))
    \/ forall z, fst (q_set_totals l t (h, z)) = UB.
  Proof.
    intros H. induction H as [|[cm cM] p l ps [Hm HM] H IH]; intros t.
    - left. eexists. apply ex_ret.
    - cbn [fst snd] in Hm, HM. cbn [q_set_totals map]. unfold sum. cbn [fold_right]. fold (sum (map (fun p => 2 * p_min_calls p + (if p_min p =? p_max p then 2 else 3) * p_max_calls p) ps)).
      pose proof (ex_q_variated _ _ _ _ _ _ _ Hm HM) as V. pose proof (ex_q_unbounded _ _ _ _ HM) as U.
      unfold int_op. destruct (in_i32 (t_fixed t + p_min p)) eqn:I.
      2: { right. intros z. unfold bind. rewrite Hm, I. reflexivity. }
      assert (L : exactly (lift (Ok (t_fixed t + p_min p))) h (t_fixed t + p_min p) 0) by (apply ex_ret).
      destruct (IH (mkTotals (t_fixed t + p_min p) (t_maxvar t)
        (if p_max p =? -1 then t_unb t + 1 else t_unb t)
        (if negb (p_min p =? p_max p) && negb (p_max p =? -1) then t_var t + 1 else t_var t))) as [[t' IH']|IH'].
      + left. exists t'. eapply ex_conv; [eapply ex_bind; [exact Hm|]; rewrite I; eapply ex_bind; [exact L|];
          eapply ex_bind; [exact V|]; eapply ex_bind; [exact U|]; exact IH'|reflexivity|]. destruct (p_min p =? p_max p); lia.
      + right. intros z. unfold bind. rewrite Hm, I. cbn [lift]. rewrite V, U. apply IH'.
  Qed.

  Lemma answered_pairs h xs ps : Forall2 (answered h) xs ps ->
    Forall2 (fun c p => exactly (fst c) h (p_min p) (p_min_calls p) /\ exactly (snd c) h (p_max p) (p_max_calls p))
      (map (fun y => (cquery (qfuel h) true y, cquery (qfuel h) false y)) xs) ps.
  Proof.
    intros H. induction H as [|x p xs ps [Hm HM] H IH]; cbn [map]; constructor; [|exact IH].
    split; [apply min_exact; exact Hm|apply max_exact; exact HM].
  Qed.

  Lemma set_min_ex h l ps : Forall2 (fun c p => exactly (fst c) h (p_min p) (p_min_calls p) /\ exactly (snd c) h (p_max p) (p_max_calls p)) l ps ->
    (exists a, exactly (q_set_min l) h a
      (sum (map (fun p => 2 * p_min_calls p + (if p_min p =? p_max p then 2 else 3) * p_max_calls p) ps)))
    \/ forall z, fst (q_set_min l (h, z)) = UB.
  Proof.
    intros H. destruct (totals_calls h l ps H (mkTotals 0 0 0 0)) as [[t' T]|T].
    - left. eexists. unfold q_set_min. eapply ex_conv; [eapply ex_bind; [exact T|apply ex_ret]|reflexivity|lia].
    - right. intros z. unfold q_set_min, bind. specialize (T z).
      destruct (q_set_totals l _ (h, z)) as [r s]. cbn in T. subst r. reflexivity.
  Qed.

  Lemma set_calls h j xs ps a : Forall2 (answered h) xs ps -> minSize h (XSet j xs) = Ok a ->
    snd (minSize_counted h (XSet j xs))
      = 1 + sum (map (fun p => 2 * p_min_calls p + (if p_min p =? p_max p then 2 else 3) * p_max_calls p) ps).
  Proof.
    intros H E. unfold minSize in E. rewrite <- (counted_same h true (XSet j xs) 0) in E. rewrite cq_set in E. cbv zeta in E.
    unfold minSize_counted. cbv zeta. cbn [snd]. rewrite cq_set. cbv zeta.
    unfold bind, tick in *. cbn [fst snd] in *.
    destruct (set_min_ex h _ ps (answered_pairs h xs ps H)) as [[b S]|S].
    - rewrite S. cbn [fst snd]. lia.
    - rewrite S in E. discriminate E.
  Qed.

  Lemma binary_calls h o x y p q a : answered h x p -> answered h y q -> minSize h (XBinary o x y) = Ok a ->
    snd (minSize_counted h (XBinary o x y))
      = 1 + sum (map (fun p => 2 * p_min_calls p + (if p_min p =? p_max p then 2 else 3) * p_max_calls p) [p; q]).
  Proof.
    intros Hx Hy E. unfold minSize in E. rewrite <- (counted_same h true (XBinary o x y) 0) in E. rewrite cq_binary in E.
    unfold minSize_counted. cbv zeta. cbn [snd]. rewrite cq_binary.
    unfold bind, tick in *. cbn [fst snd] in *.
    destruct (set_min_ex h _ [p; q] (answered_pairs h [x; y] [p; q] (Forall2_cons _ _ Hx (Forall2_cons _ _ Hy (Forall2_nil _))))) as [[b S]|S];
      cbn [map] in S.
    - rewrite S. cbn [map fst snd]. lia.
    - rewrite S in E. discriminate E.
  Qed.

  Lemma set_max_ex h l ps : Forall2 (fun c p => exactly (fst c) h (p_min p) (p_min_calls p) /\ exactly (snd c) h (p_max p) (p_max_calls p)) l ps ->
    forall r, (exists a, exactly (q_set_max l r) h a
      (sum (map (fun p => p_min_calls p + (if p_min p =? p_max p then 3 else 4) * p_max_calls p) (asked_parts ps))))
    \/ forall z, fst (q_set_max l r (h, z)) = UB.
  Proof.
    intros H. induction H as [|[cm cM] p l ps [Hm HM] H IH]; intros r.
    - left. eexists. apply ex_ret.
    - cbn [fst snd] in Hm, HM. cbn [q_set_max asked_parts map]. unfold sum. cbn [fold_right].
      fold (sum (map (fun p => p_min_calls p + (if p_min p =? p_max p then 3 else 4) * p_max_calls p) (if p_max p =? -1 then [] else asked_parts ps))).
      pose proof (ex_q_variated _ _ _ _ _ _ _ Hm HM) as V. pose proof (ex_q_unbounded _ _ _ _ HM) as U.
      unfold int_op. destruct (in_i32 (r + p_max p)) eqn:I.
      2: { right. intros z. unfold bind. rewrite HM, I. reflexivity. }
      assert (L : exactly (lift (Ok (r + p_max p))) h (r + p_max p) 0) by (apply ex_ret).
      destruct (p_max p =? -1) eqn:Eu.
      + left. eexists. eapply ex_conv; [eapply ex_bind; [exact HM|]; rewrite I; eapply ex_bind; [exact L|];
          eapply ex_bind; [exact V|]; cbv zeta; eapply ex_bind; [exact U|]; apply ex_ret|reflexivity|].
        cbn [map sum fold_right]. destruct (p_min p =? p_max p); lia.
      + destruct (IH (if negb (p_min p =? p_max p) && negb false then i32 (r + p_max p + ORACLE_SIZE) else r + p_max p)) as [[a IH']|IH'].
        * left. exists a. eapply ex_conv; [eapply ex_bind; [exact HM|]; rewrite I; eapply ex_bind; [exact L|];
            eapply ex_bind; [exact V|]; cbv zeta; eapply ex_bind; [exact U|]; exact IH'|reflexivity|].
          destruct (p_min p =? p_max p); lia.
        * right. intros z. unfold bind. rewrite HM, I. cbn [lift]. rewrite V, U. apply IH'.
  Qed.

  Lemma set_max_calls h j xs ps a : Forall2 (answered h) xs ps -> maxSize h (XSet j xs) = Ok a ->
    snd (maxSize_counted h (XSet j xs))
      = 1 + sum (map (fun p => p_min_calls p + (if p_min p =? p_max p then 3 else 4) * p_max_calls p) (asked_parts ps)).
  Proof.
    intros H E. unfold maxSize in E. rewrite <- (counted_same h false (XSet j xs) 0) in E. rewrite cq_set in E. cbv zeta in E.
    unfold maxSize_counted. cbv zeta. cbn [snd]. rewrite cq_set. cbv zeta.
    unfold bind, tick in *. cbn [fst snd] in *.
    destruct (set_max_ex h _ ps (answered_pairs h xs ps H) 0) as [[b S]|S].
    - rewrite S. cbn [fst snd]. lia.
    - rewrite S in E. discriminate E.
  Qed.

  Lemma one_call h x : match x with XVec _ _ | XUnary _ _ | XBinary _ _ _ | XHashEl _ _ | XLeaf _ _ _ => True | _ => False end ->
    snd (maxSize_counted h x) = 1.
  Proof.
    unfold maxSize_counted. cbv zeta. cbn [snd].
    destruct x; intros H; try contradiction; rewrite ?cq_leaf, ?cq_vec, ?cq_unary, ?cq_binary, ?cq_hashel; reflexivity.
  Qed.

  Lemma lot_calls h l q : snd (snd (cquery (qfuel h) q (XLot l) (h, 0))) = 1.
  Proof.
    rewrite cq_lot. unfold bind, tick, onheap, get_lot. cbn [fst snd].
    destruct (nth_error (lots h) l); reflexivity.
  Qed.

  Lemma ex_leaf f q mn mx ex h : exactly (cquery f q (XLeaf (B := B) mn mx ex)) h (if q then mn else mx) 1.
  Proof. rewrite cq_leaf. apply (ex_tick _ _ _ 0). apply ex_ret. Qed.

  Lemma i32_small v : 0 <= v < 2 ^ 31 -> i32 v = v.
  Proof. intros H. unfold i32. rewrite Z.mod_small by lia. lia. Qed.

  Lemma ex_vec f j x h m M n N : exactly (cquery f true x) h m n -> exactly (cquery f false x) h M N ->
    0 <= m -> m + 4 < 2 ^ 31 ->
    exists m', exactly (cquery f true (XVec j x)) h m' (1 + (if m =? M then 2 * n + N else 2 * n + 2 * N))
      /\ m <= m' <= m + 4.
  Proof.
    intros Hm HM H0 H1. pose proof (ex_q_fixed _ _ _ _ _ _ _ Hm HM) as F.
    pose proof (ex_q_unbounded _ _ _ _ HM) as U. rewrite cq_vec.
    exists (if m =? M then m else if M =? -1 then m + 4 else m + 2). split.
    - apply ex_tick. unfold q_vector_min. destruct (m =? M).
      + eapply ex_conv; [eapply ex_bind; [exact F|exact Hm]|reflexivity|lia].
      + destruct (M =? -1).
        * eapply ex_conv; [eapply ex_bind; [exact F|eapply ex_bind; [exact U|eapply ex_bind; [exact Hm|apply ex_ret]]]| |lia].
          apply i32_small. cbn. lia.
        * eapply ex_conv; [eapply ex_bind; [exact F|eapply ex_bind; [exact U|eapply ex_bind; [exact Hm|apply ex_ret]]]| |lia].
          apply i32_small. cbn. lia.
    - destruct (m =? M); [lia|]. destruct (M =? -1); lia.
  Qed.

  Lemma ex_vec_max f j x h : exactly (cquery f false (XVec j x)) h (-1) 1.
  Proof. rewrite cq_vec. apply (ex_tick _ _ _ 0). apply ex_ret. Qed.

  Lemma enumerators_exact f j d mn mx ex h : 0 <= mn -> mn + 4 * Z.of_nat (S d) < 2 ^ 31 ->
    exists m, exactly (cquery f true (enumerators j (S d) (XLeaf mn mx ex))) h m
      (if mn =? mx then 7 * 2 ^ Z.of_nat d - 3 else 8 * 2 ^ Z.of_nat d - 3)
      /\ mn <= m <= mn + 4 * Z.of_nat (S d).
  Proof.
    intros H0. induction d as [|d IH]; intros H1.
    - destruct (ex_vec f j _ h _ _ _ _ (ex_leaf f true mn mx ex h) (ex_leaf f false mn mx ex h)) as (m & E & Hm); [lia|lia|].
      exists m. split; [|lia]. eapply ex_conv; [exact E|reflexivity|]. destruct (mn =? mx); reflexivity.
    - destruct IH as (m & E & Hm); [lia|].
      destruct (ex_vec f j _ h _ _ _ _ E (ex_vec_max f j (enumerators j d (XLeaf mn mx ex)) h)) as (m' & E' & Hm'); [lia|lia|].
      exists m'. split; [|lia]. eapply ex_conv; [exact E'|reflexivity|].
      replace (m =? -1) with false by lia. rewrite Nat2Z.inj_succ, Z.pow_succ_r by lia. destruct (mn =? mx); lia.
  Qed.

  Lemma box_min f j x h m M n N : exactly (cquery f true x) h m n -> exactly (cquery f false x) h M N ->
    0 <= m -> m + 2 < 2 ^ 31 ->
    exactly (cquery f true (XSet j [x])) h (if (m =? M) || (M =? -1) then m else m + 2)
      (1 + (if m =? M then 2 * n + 2 * N else 2 * n + 3 * N)).
  Proof.
    intros Hm HM H0 H1. rewrite cq_set. apply ex_tick. cbv zeta. cbn [map]. unfold q_set_min. cbn [q_set_totals].
    pose proof (ex_q_variated _ _ _ _ _ _ _ Hm HM) as V. pose proof (ex_q_unbounded _ _ _ _ HM) as U.
    assert (T : exactly (q_set_totals [(cquery f true x, cquery f false x)] (mkTotals 0 0 0 0)) h
      (mkTotals m 0 (if M =? -1 then 1 else 0) (if negb (m =? M) && negb (M =? -1) then 1 else 0))
      (n + (0 + ((if m =? M then n + N else n + 2 * N) + (N + 0))))).
    { cbn [q_set_totals t_fixed t_maxvar t_unb t_var].
      eapply ex_bind; [exact Hm|]. eapply ex_bind; [rewrite Z.add_0_l; apply ex_int_op; unfold is_int; lia|].
      eapply ex_bind; [exact V|]. eapply ex_bind; [exact U|]. apply ex_ret. }
    eapply ex_conv; [eapply ex_bind; [exact T|apply ex_ret]| |destruct (m =? M); lia].
    cbn [t_fixed t_var t_unb]. unfold ORACLE_SIZE. destruct (m =? M) eqn:E1, (M =? -1) eqn:E2; cbn -[i32 Z.add]; rewrite ?Z.add_0_r; rewrite ?i32_small by lia; reflexivity.
  Qed.

  Lemma box_max f j x h m M n N : exactly (cquery f true x) h m n -> exactly (cquery f false x) h M N ->
    0 <= m -> -1 <= M -> M + 2 < 2 ^ 31 ->
    exactly (cquery f false (XSet j [x])) h (if (m =? M) || (M =? -1) then M else M + 2)
      (1 + (if m =? M then n + 3 * N else n + 4 * N)).
  Proof.
    intros Hm HM H0 H1 H2. rewrite cq_set. apply ex_tick. cbv zeta. cbn [map q_set_max].
    pose proof (ex_q_variated _ _ _ _ _ _ _ Hm HM) as V. pose proof (ex_q_unbounded _ _ _ _ HM) as U.
    eapply ex_conv; [eapply ex_bind; [exact HM|]; eapply ex_bind; [rewrite Z.add_0_l; apply ex_int_op; unfold is_int; lia|];
      eapply ex_bind; [exact V|]; cbv zeta; eapply ex_bind; [exact U|]| |].
    - instantiate (2 := if M =? -1 then -1 else if negb (m =? M) && negb (M =? -1) then i32 (M + ORACLE_SIZE) else M).
      destruct (M =? -1); apply ex_ret.
    - destruct (m =? M) eqn:E1, (M =? -1) eqn:E2; cbn [negb andb orb]; try lia. rewrite i32_small by (unfold ORACLE_SIZE; lia). unfold ORACLE_SIZE. lia.
    - destruct (m =? M); lia.
  Qed.

  Lemma boxes_exact f j d mn mx ex h : 0 <= mn -> -1 <= mx ->
    mn + 2 * Z.of_nat d < 2 ^ 31 -> mx + 2 * Z.of_nat d < 2 ^ 31 ->
    exists m M, exactly (cquery f true (boxes j d (XLeaf mn mx ex))) h m
        (if mn =? mx then (4 * 4 ^ Z.of_nat d - 1) / 3 else (5 * 5 ^ Z.of_nat d - 1) / 4)
      /\ exactly (cquery f false (boxes j d (XLeaf mn mx ex))) h M
        (if mn =? mx then (4 * 4 ^ Z.of_nat d - 1) / 3 else (5 * 5 ^ Z.of_nat d - 1) / 4)
      /\ mn <= m <= mn + 2 * Z.of_nat d /\ (m =? M) = (mn =? mx) /\ -1 <= M <= mx + 2 * Z.of_nat d.
  Proof.
    intros H0 H1. induction d as [|d IH]; intros H2 H3.
    - exists mn, mx. split; [eapply ex_conv; [apply ex_leaf|reflexivity|destruct (mn =? mx); reflexivity]|].
      split; [eapply ex_conv; [apply ex_leaf|reflexivity|destruct (mn =? mx); reflexivity]|].
      split; [lia|]. split; [reflexivity|lia].
    - destruct IH as (m & M & Em & EM & Hm & He & HM); [lia|lia|].
      cbn [boxes]. exists (if (m =? M) || (M =? -1) then m else m + 2), (if (m =? M) || (M =? -1) then M else M + 2).
      assert (A3 : exists a, 4 * 4 ^ Z.of_nat d - 1 = 3 * a).
      { clear. induction d as [|d [a IH]]; [exists 1; reflexivity|]. exists (4 * a + 1).
        rewrite Nat2Z.inj_succ, Z.pow_succ_r by lia. lia. }
      assert (A4 : exists a, 5 * 5 ^ Z.of_nat d - 1 = 4 * a).
      { clear. induction d as [|d [a IH]]; [exists 1; reflexivity|]. exists (5 * a + 1).
        rewrite Nat2Z.inj_succ, Z.pow_succ_r by lia. lia. }
      destruct A3 as [a3 A3], A4 as [a4 A4].
      split; [eapply ex_conv; [apply (box_min f j _ h _ _ _ _ Em EM); lia|reflexivity|]|].
      2: split; [eapply ex_conv; [apply (box_max f j _ h _ _ _ _ Em EM); lia|reflexivity|]|].
      1,2: rewrite He, Nat2Z.inj_succ, !Z.pow_succ_r by lia; destruct (mn =? mx);
        [rewrite A3; replace (4 * (4 * 4 ^ Z.of_nat d) - 1) with ((4 * a3 + 1) * 3) by lia; rewrite Z.div_mul by lia;
         rewrite (Z.mul_comm 3), Z.div_mul by lia; lia
        |rewrite A4; replace (5 * (5 * 5 ^ Z.of_nat d) - 1) with ((5 * a4 + 1) * 4) by lia; rewrite Z.div_mul by lia;
         rewrite (Z.mul_comm 4), Z.div_mul by lia; lia].
      rewrite <- He. split; [destruct ((m =? M) || (M =? -1)); lia|].
      split; destruct (m =? M) eqn:E1, (M =? -1) eqn:E2; cbn [orb]; lia.
  Qed.

  (** ** Pools that are members of each other *)
  Definition all_pools (n : nat) : list (option (sx B)) := map (fun p => Some (XPool p)) (seq 0 n).
  Definition cliquish (n : nat) h : Prop :=
    length (pools h) = n /\ Forall (fun P => weak_pool P = all_pools n) (pools h).

  Lemma upd_len {A} (l : list A) p v : length (upd l p v) = length l.
  Proof. revert p. induction l as [|a l IH]; intros [|p]; cbn; auto. Qed.
  Lemma upd_forall {A} (R : A -> Prop) l p v : Forall R l -> R v -> Forall R (upd l p v).
  Proof. intros H Hv. revert p. induction H as [|a l Ha H IH]; intros [|p]; cbn; auto. Qed.

  Lemma cliquish_set n h p P : cliquish n h -> nth_error (pools h) p = Some P ->
    cliquish n (set_pool h p (mkPool (weak_pool P) (is_recursive P) true)).
  Proof.
    intros [L F] E. split; cbn [set_pool pools].
    - rewrite upd_len. exact L.
    - apply upd_forall; [exact F|]. cbn. rewrite Forall_forall in F. apply F. eapply nth_error_In. exact E.
  Qed.

  Lemma seq_unmarked h c : forall l s, pools h = firstn s (pools h) ++ l -> length (firstn s (pools h)) = s ->
    fold_right Z.add 0 (map (fun p => match nth_error (pools h) p with
      Some P => if is_in_recursion P then 1 else c | None => 0 end) (seq s (length l)))
    = (zlen l - Z.of_nat (unmarked l)) + Z.of_nat (unmarked l) * c.
  Proof.
    induction l as [|P l IH]; intros s E L; [cbn; lia|].
    assert (E1 : nth_error (pools h) s = Some P).
    { rewrite E. rewrite nth_error_app2 by lia. rewrite L, Nat.sub_diag. reflexivity. }
    assert (E2 : firstn (S s) (pools h) = firstn s (pools h) ++ [P]).
    { rewrite E at 1. rewrite firstn_app, L. replace (S s - s)%nat with 1%nat by lia.
      change (firstn 1 (P :: l)) with [P]. rewrite firstn_firstn. replace (Nat.min (S s) s) with s by lia. reflexivity. }
    cbn [length seq map fold_right]. rewrite E1, IH.
    - unfold unmarked. cbn [filter]. unfold zlen. destruct (is_in_recursion P); cbn [negb length]; lia.
    - rewrite E2, <- app_assoc. exact E.
    - rewrite E2, app_length, L. cbn. lia.
  Qed.

  Lemma ex_pool_min f h (cost : nat -> Z) ps :
    (forall p, In p ps -> exactly (cquery f true (XPool p)) h (int_max / 2) (cost p)) ->
    exactly (q_pool_min (map (option_map (cquery f true)) (map (fun p => Some (XPool p)) ps)) (int_max / 2)) h
      (int_max / 2) (fold_right Z.add 0 (map cost ps)).
  Proof.
    induction ps as [|p ps IH]; intros H; [apply ex_ret|]. cbn [map option_map q_pool_min fold_right].
    eapply ex_bind; [apply H; left; reflexivity|]. replace (int_max / 2 <? int_max / 2) with false by reflexivity.
    apply IH. intros q Hq. apply H. right. exact Hq.
  Qed.

  Lemma ex_get_pool {D} p P h (k : pool B -> C B D) a n : nth_error (pools h) p = Some P ->
    exactly (k P) h a n -> exactly (bind (onheap (get_pool p)) k) h a n.
  Proof. intros E H z. unfold bind, onheap, get_pool. cbn [fst snd]. rewrite E. apply H. Qed.

  Lemma ex_marked {A D} (c : C B A) (k : A -> D) p P h a n :
    nth_error (pools h) p = Some P -> is_in_recursion P = false ->
    exactly c (set_pool h p (mkPool (weak_pool P) (is_recursive P) true)) a n ->
    exactly (_ <- onheap (mark_in_recursion p true) ;; r <- c ;; _ <- onheap (mark_in_recursion p false) ;; ret (k r)) h (k a) n.
  Proof.
    intros E F Hc z. set (h1 := set_pool h p _) in *.
    assert (M1 : mark_in_recursion p true h = (Ok tt, h1)) by (unfold mark_in_recursion; rewrite E; reflexivity).
    assert (M2 : mark_in_recursion p false h1 = (Ok tt, h)).
    { unfold mark_in_recursion. subst h1. unfold set_pool. cbn [pools lots].
      rewrite (nth_upd _ _ _ _ E). cbn [weak_pool is_recursive]. rewrite upd_upd.
      destruct h as [ps ls]. cbn [pools lots] in *. f_equal. f_equal. apply upd_same. rewrite E.
      destruct P; cbn in *. congruence. }
    unfold bind, onheap. cbn [fst snd]. rewrite M1. cbn [fst snd]. rewrite Hc. cbn [fst snd]. rewrite M2. reflexivity.
  Qed.

  Lemma clique_exact n f : forall h p P, cliquish n h -> nth_error (pools h) p = Some P -> (free h < f)%nat ->
    exactly (cquery f true (XPool p)) h (int_max / 2)
      (if is_in_recursion P then 1 else clique_calls n (free h - 1)).
  Proof.
    induction f as [|f IH]; intros h p P Hc E Hf; [lia|].
    rewrite cq_pool_S. destruct Hc as [L F]. pose proof F as F0. rewrite Forall_forall in F0.
    pose proof (F0 P (nth_error_In _ _ E)) as EW.
    destruct (is_in_recursion P) eqn:R.
    { apply (ex_tick _ _ _ 0). intros z. unfold bind, onheap, get_pool. cbn [fst snd]. rewrite E. cbn [fst snd].
      rewrite R. cbn. rewrite Z.add_0_r. reflexivity. }
    set (h1 := set_pool h p (mkPool (weak_pool P) (is_recursive P) true)).
    assert (Fr : free h = S (free h1)).
    { unfold free, h1, set_pool. cbn [pools]. exact (unmarked_upd (pools h) p P (mkPool (weak_pool P) (is_recursive P) true) E R eq_refl). }
    assert (Hc1 : cliquish n h1) by (apply cliquish_set; [split; assumption|exact E]).
    assert (X : exactly (q_pool_min (map (option_map (cquery f true)) (weak_pool P)) (int_max / 2)) h1 (int_max / 2)
      ((Z.of_nat n - Z.of_nat (free h1)) + Z.of_nat (free h1) * clique_calls n (free h1 - 1))).
    { rewrite EW. eapply ex_conv; [apply (ex_pool_min f h1 (fun p => match nth_error (pools h1) p with
        Some P => if is_in_recursion P then 1 else clique_calls n (free h1 - 1) | None => 0 end))|reflexivity|].
      - intros q Hq. apply in_seq in Hq. destruct (nth_error (pools h1) q) as [P'|] eqn:E'.
        + apply IH; [exact Hc1|exact E'|lia].
        + apply nth_error_None in E'. destruct Hc1 as [L1 _]. lia.
      - destruct Hc1 as [L1 _]. rewrite <- L1 at 1. rewrite (seq_unmarked h1 _ (pools h1) 0); [|reflexivity|reflexivity].
        unfold zlen, free. rewrite L1. reflexivity. }
    eapply ex_conv; [apply ex_tick, (ex_get_pool p P h _ _ _ E)|reflexivity|].
    - rewrite R. eapply ex_conv; [apply (ex_marked _ (fun r => if r =? int_max / 2 then int_max / 2 else i32 (r + ORACLE_SIZE)) p P h _ _ E R X)|reflexivity|reflexivity].
    - rewrite Fr. replace (S (free h1) - 1)%nat with (free h1) by lia.
      destruct (free h1) as [|m]; cbn [clique_calls]; [lia|]. replace (S m - 1)%nat with m by lia. lia.
  Qed.

  Lemma clique_free n : free (clique (B := B) n) = n.
  Proof.
    unfold free, clique. cbn [pools]. generalize (map (fun p => Some (XPool (B := B) p)) (seq 0 n)) as w. intros w.
    unfold unmarked. induction n as [|n IH]; [reflexivity|]. cbn. rewrite IH. reflexivity.
  Qed.

  Lemma clique_counted n p : (p < n)%nat ->
    minSize_counted (clique (B := B) n) (XPool p) = (Ok (int_max / 2), clique_calls n (n - 1)).
  Proof.
    intros Hp. unfold minSize_counted.
    assert (E : nth_error (pools (clique (B := B) n)) p = Some (mkPool (all_pools n) false false)).
    { cbn [clique pools]. rewrite (nth_error_nth' _ (mkPool (all_pools n) false false)) by (rewrite repeat_length; exact Hp).
      f_equal. apply nth_repeat. }
    rewrite (clique_exact n (qfuel (clique n)) (clique n) p _ ltac:(split; [cbn; apply repeat_length|apply Forall_forall; intros P HP; apply repeat_spec in HP; subst P; reflexivity]) E (free_fuel _)).
    cbn [is_in_recursion fst snd]. rewrite clique_free. reflexivity.
  Qed.

  Lemma clique_calls_fact n m : (m <= n)%nat -> (Z.of_nat n + 1) * Z.of_nat (fact m) <= clique_calls n m.
  Proof.
    induction m as [|m IH]; intros H; [change (fact 0) with 1%nat; cbn [clique_calls]; lia|]. cbn [clique_calls]. specialize (IH ltac:(lia)).
    change (fact (S m)) with (S m * fact m)%nat. rewrite Nat2Z.inj_mul. nia.
  Qed.
End Exact.
