(** Lemmas for C47. *)
From Verif Require Import Base BaseFacts Blob BlobSpec BlobFacts RunSpec RunFacts Sim SimGraph Oracle Arithm ArithFacts StampDict DictFacts StampText Galley
  Stamps StampsEq LeafSpec TermSpec ShrinkFacts DepthFacts TermFacts NestFacts QuerySpec QueryFacts Prop_Recursion Prop_Termination
  VectorSpec VectorFacts SetSpec SetFacts SetRun SetLimits Prop_Set LotSpec LotFacts Prop_Lottery ContractFacts MaxSpec.
Local Open Scope Z_scope.

Lemma Forall2_map_inv {X Y Z0} (R : Y -> Z0 -> Prop) (g : X -> Y) l m : Forall2 R (map g l) m <-> Forall2 (fun a z => R (g a) z) l m.
Proof.
  split; revert m; induction l as [|a l IH]; intros m F; inversion F; subst; cbn [map]; constructor; auto.
Qed.

Lemma Forall2_with {X Y} (P : X -> Prop) (R R' : X -> Y -> Prop) l m : Forall P l -> (forall a c, P a -> R a c -> R' a c) -> Forall2 R l m -> Forall2 R' l m.
Proof. intros HP HR F. induction F; constructor; inversion HP; subst; auto. Qed.

(** ** A bounded maxSize() does not depend on the marks *)
Section Marks.
  Implicit Types (h : heap blob) (x y : sx blob).

  Definition marks (P P1 : pool blob) : Prop := weak_pool P1 = weak_pool P /\ is_recursive P1 = is_recursive P
    /\ (is_in_recursion P = true -> is_in_recursion P1 = true).
  Definition more_marks h h1 : Prop := Forall2 marks (pools h) (pools h1) /\ lots h1 = lots h.

  Lemma marks_refl P : marks P P. Proof. repeat split; auto. Qed.
  Lemma more_refl h : more_marks h h.
  Proof. split; [|reflexivity]. induction (pools h); constructor; [apply marks_refl|assumption]. Qed.
  Lemma more_nth h h1 p P1 : more_marks h h1 -> nth_error (pools h1) p = Some P1 -> exists P, nth_error (pools h) p = Some P /\ marks P P1.
  Proof.
    intros [H1 _]. revert p. induction H1 as [|a a1 l l1 A H1 IH]; intros [|p] E; try discriminate; cbn in *; [|apply IH; exact E].
    injection E as ->. eauto.
  Qed.
  Lemma more_upd l l1 p (P P1 : pool blob) : Forall2 marks l l1 -> marks P P1 -> Forall2 marks (upd l p P) (upd l1 p P1).
  Proof.
    intros H1 HP. revert p. induction H1 as [|a a1 l l1 A H1 IH]; intros [|p]; cbn; constructor; auto.
  Qed.
  Lemma more_mark h : forall p P, nth_error (pools h) p = Some P -> more_marks h (set_pool h p (mkPool (weak_pool P) (is_recursive P) true)).
  Proof.
    destruct h as [ps ls]. intros p P E. split; [|reflexivity]. cbn [pools set_pool] in *. revert p E.
    induction ps as [|a ps IH]; intros [|p] E; try discriminate; cbn in *.
    - injection E as ->. constructor; [repeat split; auto|]. clear. induction ps; constructor; [apply marks_refl|assumption].
    - constructor; [apply marks_refl|]. apply IH. exact E.
  Qed.

  Definition says (h h1 : heap blob) (p : Q blob Z * Q blob Z) (p1 : Q blob Z * Q blob Z) : Prop :=
    forall v, snd p1 h1 = (Ok v, h1) -> v <> -1 -> snd p h = (Ok v, h)
      /\ forall w, fst p1 h1 = (Ok w, h1) -> fst p h = (Ok w, h).

  Definition tidy (h : heap blob) (p : Q blob Z * Q blob Z) : Prop := good_q eq (fst p) h /\ good_q eq (snd p) h.

  Lemma good_ok {A} (q : Q blob A) h a h' : good_q eq q h -> q h = (Ok a, h') -> h' = h.
  Proof. unfold good_q. intros G E. rewrite E in G. congruence. Qed.

  Lemma q_var_inv a b h v h' : good_q eq a h -> good_q eq b h -> q_variated a b h = (Ok v, h') -> exists m z, a h = (Ok m, h) /\ b h = (Ok z, h).
  Proof.
    intros Ga Gb E. unfold q_variated, q_fixed in E. apply bind_ok_inv in E as (f & h1 & E & _).
    apply bind_ok_inv in E as (m & h2 & E1 & E). pose proof (good_ok _ _ _ _ Ga E1) as ->.
    apply bind_ok_inv in E as (z & h2 & E2 & _). pose proof (good_ok _ _ _ _ Gb E2) as ->. eauto.
  Qed.

  (** The answers of a set whose maxSize() is not -1. *)
  Lemma set_max_inv l : forall h1 r v h1', Forall (tidy h1) l -> q_set_max l r h1 = (Ok v, h1') -> v <> -1 ->
    exists L, Forall2 (fun p s => answers h1 p s /\ snd s <> -1) l L.
  Proof.
    induction l as [|[a b] l IH]; intros h1 r v h1' HT E Hv; [exists []; constructor|]. cbn [q_set_max] in E.
    pose proof (Forall_inv HT) as [Ga Gb]. apply Forall_inv_tail in HT. cbn [fst snd] in *.
    apply bind_ok_inv in E as (m & h2 & E1 & E). pose proof (good_ok _ _ _ _ Gb E1) as ->.
    apply bind_ok_inv in E as (s & h2 & E2 & E). apply lift_ok_inv in E2 as [E2 ->].
    apply bind_ok_inv in E as (w & h2 & E3 & E). destruct (q_var_inv _ _ _ _ _ Ga Gb E3) as (m' & x' & F1 & F2).
    rewrite E1 in F2. injection F2 as <-. destruct (q_var_run h1 a b (m', m) (conj F1 E1)) as [V U].
    rewrite V in E3. injection E3 as <- <-. cbv zeta in E. rewrite (bind_ok _ _ _ _ _ U) in E. unfold isUnbounded in E. cbn [fst snd] in E.
    destruct (m =? -1) eqn:Q; [exfalso; injection E as <- _; congruence|].
    destruct (IH _ _ _ _ HT E Hv) as (L & HL). exists ((m', m) :: L). constructor; [|exact HL]. split; [split; assumption|cbn [snd]; lia].
  Qed.

  Lemma set_max_eq h l L : Forall2 (answers h) l L -> forall r, q_set_max l r h = lift (set_max_loop L r) h.
  Proof.
    induction 1 as [|[a b] [mn mx] l L A H1 IH]; intros r; cbn [q_set_max set_max_loop]; [reflexivity|].
    destruct (q_var_run h a b _ A) as [V U]. destruct A as [A1 A2].
    cbn [fst snd] in *. rewrite (bind_ok _ _ _ _ _ A2). destruct (int_op (r + mx)) as [s| | | |]; try reflexivity.
    rewrite (bind_lift_ok (Ok s) _ _ _ eq_refl), (bind_ok _ _ _ _ _ V). cbv zeta. rewrite (bind_ok _ _ _ _ _ U). cbn [rbind]. cbv zeta.
    destruct (isUnbounded mn mx); [reflexivity|]. apply IH.
  Qed.

  Lemma set_min_eq h l L : Forall2 (answers h) l L -> q_set_min l h = lift (SetMinSize L) h.
  Proof.
    intros HA. unfold q_set_min, SetMinSize, bind. rewrite (q_totals_run h l L HA). unfold lift.
    destruct (set_min_totals L _); reflexivity.
  Qed.

  Lemma pool_max_inv (l : list (option (Q blob Z))) : forall h1 r v h1', Forall (good_opt eq h1) l -> q_pool_max l r h1 = (Ok (Some v), h1') ->
    exists qs cs, l = map Some qs /\ Forall2 (fun (q : Q blob Z) c => q h1 = (Ok c, h1) /\ c <> -1) qs cs
      /\ v = fold_left (fun r c => if r <? c then c else r) cs r /\ h1' = h1.
  Proof.
    induction l as [|[q|] l IH]; intros h1 r v h1' HG E; cbn [q_pool_max] in E; [|..|discriminate E].
    - injection E as <- <-. exists [], []. repeat split; constructor.
    - apply bind_ok_inv in E as (c & h2 & E1 & E). pose proof (good_ok _ _ _ _ (Forall_inv HG) E1) as ->.
      destruct (c =? -1) eqn:Q; [discriminate E|]. destruct (IH _ _ _ _ (Forall_inv_tail HG) E) as (qs & cs & -> & F & -> & ->).
      exists (q :: qs), (c :: cs). repeat split. constructor; [split; [exact E1|lia]|exact F].
  Qed.

  Lemma pool_max_run h (qs : list (Q blob Z)) cs : Forall2 (fun (q : Q blob Z) c => q h = (Ok c, h) /\ c <> -1) qs cs -> forall r,
    q_pool_max (map Some qs) r h = (Ok (Some (fold_left (fun r c => if r <? c then c else r) cs r)), h).
  Proof.
    induction 1 as [|q c qs cs (E & Hc) F IH]; intros r; cbn [map q_pool_max fold_left]; [reflexivity|].
    rewrite (bind_ok _ _ _ _ _ E). destruct (c =? -1) eqn:Q; [lia|]. apply IH.
  Qed.

  Lemma pool_min_inv (qs : list (Q blob Z)) : forall h1 r v h1', Forall (good_opt eq h1) (map Some qs) -> q_pool_min (map Some qs) r h1 = (Ok v, h1') ->
    exists cs, Forall2 (fun (q : Q blob Z) c => q h1 = (Ok c, h1)) qs cs
      /\ v = fold_left (fun r c => if c <? r then c else r) cs r /\ h1' = h1.
  Proof.
    induction qs as [|q l IH]; intros h1 r v h1' HG E; cbn [map q_pool_min] in E.
    - injection E as <- <-. exists []. repeat split; constructor.
    - apply bind_ok_inv in E as (c & h2 & E1 & E). pose proof (good_ok _ _ _ _ (Forall_inv HG) E1) as ->.
      destruct (IH _ _ _ _ (Forall_inv_tail HG) E) as (cs & F & -> & ->).
      exists (c :: cs). repeat split. constructor; [exact E1|exact F].
  Qed.

  Lemma pool_min_run h (qs : list (Q blob Z)) cs : Forall2 (fun (q : Q blob Z) c => q h = (Ok c, h)) qs cs -> forall r,
    q_pool_min (map Some qs) r h = (Ok (fold_left (fun r c => if c <? r then c else r) cs r), h).
  Proof.
    induction 1 as [|q c qs cs E F IH]; intros r; cbn [map q_pool_min fold_left]; [reflexivity|].
    rewrite (bind_ok _ _ _ _ _ E). apply IH.
  Qed.

  Lemma free_mark h p P : nth_error (pools h) p = Some P -> is_in_recursion P = false -> forall f, (free h < S f)%nat ->
    (free (set_pool h p (mkPool (weak_pool P) (is_recursive P) true)) < f)%nat.
  Proof.
    intros E F f Hf. unfold free, set_pool in *. cbn [pools].
    rewrite (unmarked_upd (pools h) p P (mkPool (weak_pool P) (is_recursive P) true) E F eq_refl) in Hf. lia.
  Qed.

  Lemma unmark h p P : nth_error (pools h) p = Some P -> is_in_recursion P = false ->
    mark_in_recursion p false (set_pool h p (mkPool (weak_pool P) (is_recursive P) true)) = (Ok tt, h).
  Proof.
    intros E F. unfold mark_in_recursion, set_pool. cbn [pools lots]. rewrite (nth_upd _ _ _ _ E). cbn [weak_pool is_recursive]. rewrite upd_upd.
    destruct h as [ps ls]. cbn [pools lots] in *. rewrite (upd_same _ _ _); [reflexivity|]. rewrite E. destruct P; cbn in *. congruence.
  Qed.

  Lemma some_inj (ms : list (option (sx blob))) b f (qs : list (Q blob Z)) : map (option_map (query f b)) ms = map Some qs ->
    exists ys, ms = map Some ys /\ qs = map (query f b) ys.
  Proof.
    revert qs. induction ms as [|[y|] ms IH]; intros [|q qs] E; try discriminate E; [exists []; split; reflexivity|].
    injection E as <- E. destruct (IH _ E) as (ys & -> & ->). exists (y :: ys). split; reflexivity.
  Qed.

  Lemma bounded_query f : forall h h1 f' x v, more_marks h h1 -> (free h1 < f)%nat -> (free h < f')%nat ->
    query f false x h1 = (Ok v, h1) -> v <> -1 ->
    query f' false x h = (Ok v, h) /\ forall w, query f true x h1 = (Ok w, h1) -> query f' true x h = (Ok w, h).
  Proof.
    induction f as [|f IHf]; intros h h1 f' x v HM F1 F2; [lia|]. destruct f' as [|f']; [lia|]. revert v.
    induction x as [mn mx ex|j x IH|o x IH|o x y IHx IHy|j xs IH|n v IHn IHv|p|l] using sx_ind'; intros V EV HV.
    1: { rewrite query_leaf in *. injection EV as <-. split; [reflexivity|]. intros w E. rewrite query_leaf in *. injection E as <-. reflexivity. }
    1,2,3,5: exfalso; revert EV; unf_query; intros EV; injection EV as <-; congruence.
    - rewrite query_set in EV. cbv zeta iota in EV.
      assert (T : Forall (tidy h1) (map (fun y => (query (S f) true y, query (S f) false y)) xs)).
      { apply Forall_map, Forall_forall. intros y _. split; cbn [fst snd]; apply query_good; exact F1. }
      destruct (set_max_inv _ _ _ _ _ T EV HV) as (L & HL).
      assert (A1 : Forall2 (answers h1) (map (fun y => (query (S f) true y, query (S f) false y)) xs) L).
      { clear - HL. induction HL as [|? ? ? ? (A & _) HL IH]; constructor; assumption. }
      assert (A2 : Forall2 (answers h) (map (fun y => (query (S f') true y, query (S f') false y)) xs) L).
      { apply Forall2_map_inv in HL. apply Forall2_map_inv. refine (Forall2_with _ _ _ _ _ IH _ HL). cbv beta.
        intros y s Hy ((Q1 & Q2) & Q3). cbn [fst snd] in *. destruct (Hy _ Q2 Q3) as [R1 R2]. split; cbn [fst snd]; auto. }
      rewrite (set_max_eq _ _ _ A1) in EV. injection EV as EV. split.
      + rewrite query_set. cbv zeta iota. rewrite (set_max_eq _ _ _ A2), EV. reflexivity.
      + intros w. rewrite !query_set. cbv zeta iota. rewrite (set_min_eq _ _ _ A1), (set_min_eq _ _ _ A2). intros E. injection E as ->. reflexivity.
    - rewrite query_pool_S, get_step in EV. destruct (nth_error (pools h1) p) as [P1|] eqn:N1; [|discriminate EV].
      destruct (more_nth _ _ _ _ HM N1) as (P & N & M1 & M2 & M3). cbv iota in EV.
      destruct (is_recursive P1 || is_in_recursion P1) eqn:K; [exfalso; injection EV as <-; congruence|].
      apply orb_false_elim in K as [K1 K2].
      assert (K3 : is_in_recursion P = false) by (destruct (is_in_recursion P); [rewrite M3 in K2 by reflexivity; discriminate|reflexivity]).
      assert (K4 : is_recursive P = false) by congruence.
      rewrite (mark_step p P1 h1 _ N1) in EV.
      set (g1 := set_pool h1 p (mkPool (weak_pool P1) (is_recursive P1) true)) in *.
      set (g := set_pool h p (mkPool (weak_pool P) (is_recursive P) true)) in *.
      assert (HG : more_marks g g1).
      { destruct HM as [HM1 HM2]. split; [|exact HM2]. apply more_upd; [exact HM1|]. repeat split; assumption. }
      pose proof (free_mark h1 p P1 N1 K2 f F1) as Fr1. pose proof (free_mark h p P N K3 f' F2) as Fr. fold g1 in Fr1. fold g in Fr.
      assert (GO : forall q, Forall (good_opt eq g1) (map (option_map (query f q)) (weak_pool P1))).
      { intros q. apply Forall_map, Forall_forall. intros [y|] _; cbn; [|exact I]. apply query_good. exact Fr1. }
      apply bind_ok_inv in EV as (r & g2 & E1 & EV).
      destruct r as [r|]; [|apply bind_ok_inv in EV as (? & ? & _ & EV); exfalso; injection EV as <-; congruence].
      destruct (pool_max_inv _ _ _ _ _ (GO false) E1) as (qs & cs & Eq & F & -> & ->).
      destruct (some_inj _ _ _ _ Eq) as (ys & Ey & ->). apply Forall2_map_inv in F.
      assert (F' : Forall2 (fun y c => (query f' false y g = (Ok c, g) /\ c <> -1) /\ forall w, query f true y g1 = (Ok w, g1) -> query f' true y g = (Ok w, g)) ys cs).
      { clear - F IHf HG Fr1 Fr. induction F as [|y c ys cs (Q1 & Q2) F IH]; constructor; [|exact IH].
        destruct (IHf g g1 f' y c HG Fr1 Fr Q1 Q2) as [R1 R2]. auto. }
      assert (U1 := unmark h1 p P1 N1 K2). fold g1 in U1. assert (U := unmark h p P N K3). fold g in U.
      rewrite (bind_ok _ _ _ _ _ U1) in EV. injection EV as <-. split.
      + rewrite query_pool_S, get_step, N. cbv iota. rewrite K4, K3. cbn [orb]. rewrite (mark_step p P h _ N). fold g.
        rewrite <- M1, Ey, map_map. cbn [option_map]. rewrite <- (map_map (query f' false) Some).
        rewrite (bind_ok _ _ _ _ _ (pool_max_run g (map (query f' false) ys) cs ltac:(apply Forall2_map_inv; clear - F'; induction F' as [|? ? ? ? (A & _) F' IH]; constructor; assumption) 0)).
        rewrite (bind_ok _ _ _ _ _ U). reflexivity.
      + intros w. rewrite !query_pool_S, !get_step, N, N1. cbv iota. rewrite K2, K3. rewrite (mark_step p P h _ N), (mark_step p P1 h1 _ N1). fold g g1.
        intros EW. apply bind_ok_inv in EW as (r & g2 & E2 & EW). specialize (GO true). rewrite Ey, map_map in E2, GO.
        cbn [option_map] in E2, GO. rewrite <- (map_map (query f true) Some) in E2, GO.
        destruct (pool_min_inv _ _ _ _ _ GO E2) as (ms & G & -> & ->). apply Forall2_map_inv in G.
        rewrite (bind_ok _ _ _ _ _ U1) in EW. injection EW as <-.
        rewrite <- M1, Ey, map_map. cbn [option_map]. rewrite <- (map_map (query f' true) Some).
        assert (G' : Forall2 (fun y c => query f' true y g = (Ok c, g)) ys ms).
        { clear - F' G. revert ms G. induction F' as [|y c ys cs (_ & A) F' IH]; intros ms G; inversion G; subst; constructor; auto. }
        rewrite (bind_ok _ _ _ _ _ (pool_min_run g (map (query f' true) ys) ms ltac:(apply Forall2_map_inv; exact G') _)).
        rewrite (bind_ok _ _ _ _ _ U). reflexivity.
    - rewrite query_lot in EV. unfold get_lot, bind in EV. rewrite (proj2 HM) in EV. destruct (nth_error (lots h) l) as [L|] eqn:N; [|discriminate EV].
      injection EV as EV. split; [rewrite query_lot; unfold get_lot, bind, lift; rewrite N, EV; reflexivity|].
      intros w. rewrite !query_lot. unfold get_lot, bind. rewrite (proj2 HM), N. unfold lift. intros E. injection E as ->. reflexivity.
  Qed.

  Lemma max_fold cs : forall r, r <= fold_left (fun r c => if r <? c then c else r) cs r /\ Forall (fun c => c <= fold_left (fun r c => if r <? c then c else r) cs r) cs.
  Proof.
    induction cs as [|c cs IH]; intros r; cbn [fold_left]; [split; [lia|constructor]|].
    destruct (IH (if r <? c then c else r)) as [I1 I2]. destruct (r <? c) eqn:Q; (split; [lia|constructor; [lia|exact I2]]).
  Qed.

  (** A pool with a maxSize() other than -1: so have its members, asked directly. *)
  Lemma pool_max_members h p m : maxSize h (XPool p) = Ok m -> m <> -1 -> exists P ys cs, nth_error (pools h) p = Some P /\ weak_pool P = map Some ys
    /\ Forall2 (fun y c => maxSize h y = Ok c /\ c <> -1) ys cs /\ m = i32 (fold_left (fun r c => if r <? c then c else r) cs 0 + 2).
  Proof.
    intros E Hm. unfold maxSize in E. pose proof (free_fuel h) as FF. unfold qfuel in *. set (f := length (pools h)) in *.
    destruct (query (S f) false (XPool p) h) as [r0 h0] eqn:EV. cbn [fst] in E. subst r0.
    rewrite query_pool_S, get_step in EV. destruct (nth_error (pools h) p) as [P|] eqn:N; [|discriminate EV]. cbv iota in EV.
    destruct (is_recursive P || is_in_recursion P) eqn:K; [exfalso; injection EV as <- <-; congruence|]. apply orb_false_elim in K as [K1 K2].
    rewrite (mark_step p P h _ N) in EV. set (g := set_pool h p (mkPool (weak_pool P) (is_recursive P) true)) in *.
    pose proof (free_mark h p P N K2 f FF) as Fr. fold g in Fr.
    apply bind_ok_inv in EV as (r & g2 & E1 & EV).
    destruct r as [r|]; [|apply bind_ok_inv in EV as (? & ? & _ & EV); exfalso; injection EV as <- <-; congruence].
    assert (GO : Forall (good_opt eq g) (map (option_map (query f false)) (weak_pool P))).
    { apply Forall_map, Forall_forall. intros [y|] _; cbn; [|exact I]. apply query_good. exact Fr. }
    destruct (pool_max_inv _ _ _ _ _ GO E1) as (qs & cs & Eq & F & -> & ->).
    destruct (some_inj _ _ _ _ Eq) as (ys & Ey & ->). apply Forall2_map_inv in F.
    apply bind_ok_inv in EV as (u & g2 & _ & EV). injection EV as <- _.
    exists P, ys, cs. split; [reflexivity|]. split; [exact Ey|]. split; [|reflexivity].
    clear - F Fr FF N. induction F as [|y c ys cs (Q1 & Q2) F IH]; constructor; [|exact IH].
    pose proof (more_mark h p P N) as HM. fold g in HM. split; [|exact Q2].
    change (fst (query (S f) false y h) = Ok c). rewrite (proj1 (bounded_query f h g (S f) y c HM Fr FF Q1 Q2)). reflexivity.
  Qed.
End Marks.

(** ** What extraction consumes *)
Lemma set_consumes L b d cs b' : set_ok L -> zlen L <= 65536 -> count unb L = 0 -> holds b d -> zlen d < 2 ^ 31 ->
  set_extract L b = (Ok cs, b') -> zlen d - zlen (content b') <= sum (map snd L) + 2 * count var L.
Proof.
  intros HS HN HU Hb Hd E. pose proof HS as (HL & Hm & HX).
  destruct (Z_lt_le_dec (zlen d) (min_total L)) as [C|C].
  { exfalso. destruct (C22_refuse L b d HS Hb C) as (? & X & _). rewrite E in X. discriminate X. }
  destruct (layout_ex L d HL C) as (o0 & os & r & El & Ho0 & Ho & EL & Hr).
  assert (K : exists o0 os chunks rest Fv Fu, oracle16 o0 /\ cuts (set_extract L) b chunks rest /\ set_cut L d o0 os chunks rest Fv Fu).
  { pose proof (count_nonneg var L) as V0. destruct (Z.eq_dec (count var L) 0) as [V|V].
    - destruct (C23_otherwise L b d HS HN V Hb ltac:(lia)) as [(a & e & ch & re & Fv & Fu & X & Y)|(_ & re & X)].
      + exists a, e, ch, re, Fv, Fu. split; [exact (proj1 (cut_oracles _ _ _ _ _ _ _ _ Y))|]. split; assumption.
      + exfalso. destruct X as (? & X & _). rewrite E in X. discriminate X.
    - destruct (Forall_Exists_dec (fun o => o = 0) (fun o => Z.eq_dec o 0) (of_kind var L os)) as [Z0|Z0].
      + exfalso. apply (C25_never L b o0 os r HS HN Ho0 Ho EL Hr ltac:(rewrite <- El; exact Hb) ltac:(rewrite <- El; lia) ltac:(lia) Z0 cs). rewrite E. reflexivity.
      + destruct (C26_otherwise L b o0 os r HS HN Ho0 Ho EL Hr ltac:(rewrite <- El; exact Hb) ltac:(rewrite <- El; lia) Z0) as [(ch & re & Fv & Fu & X & Y)|(_ & re & X)].
        * rewrite <- El in Y. exists o0, os, ch, re, Fv, Fu. split; [exact Ho0|]. split; assumption.
        * exfalso. destruct X as (? & X & _). rewrite E in X. discriminate X. }
  clear o0 os r El Ho0 Ho EL Hr. destruct K as (o0 & os & ch & rest & Fv & Fu & Ho0 & (cs' & b2 & E2 & _ & _ & _ & E3) & Y).
  rewrite E in E2. injection E2 as <- <-. rewrite E3. destruct Y as [_ _ _ _ _ _ _ [CT _] [CA CR]].
  pose proof (limit_range L d o0 Ho0 ltac:(pose proof (min_total_ge L HL); pose proof (mins_nonneg L HL); unfold avail; lia)) as LR.
  rewrite HU in CR. change (0 <? 0) with false in CR. cbv iota in CR. unfold avail in *.
  rewrite (max_total L HL HU).
  assert (MT : min_total L = sum (map fst L) + 2 * count var L).
  { unfold min_total, both. rewrite HU. change (0 <? 0) with false. change (1 <? 0) with false. rewrite andb_false_r. cbv iota. lia. }
  lia.
Qed.

Lemma pool_inv (ms : list (member blob)) sm b v b' : pool_extract ms sm b = (Ok v, b') ->
  exists o b1 m, GetOracle b = (Ok o, b1) /\ In m ms /\ snd m b1 = (Ok v, b').
Proof.
  assert (PF : forall sz t u, pool_filter ms sz = Ok (t, u) -> (forall e, In e t -> exists m, In m ms /\ snd m = e) /\ (forall e, In e u -> exists m, In m ms /\ snd m = e)).
  { intros sz. induction ms as [|[[qn qx] ex] ms IH]; intros t u E; cbn [pool_filter] in E; [injection E as <- <-; split; intros e []|].
    assert (W : forall t u, pool_filter ms sz = Ok (t, u) -> (forall e, In e t -> exists m, In m ((qn, qx, ex) :: ms) /\ snd m = e) /\ (forall e, In e u -> exists m, In m ((qn, qx, ex) :: ms) /\ snd m = e)).
    { intros t' u' E'. destruct (IH _ _ E') as [I1 I2]. split; intros e He; [destruct (I1 e He) as (m & ? & ?)|destruct (I2 e He) as (m & ? & ?)]; exists m; (split; [right; assumption|assumption]). }
    apply rbind_ok_inv in E as (mn & _ & E). destruct (u64 mn <=? sz); [|apply W; exact E].
    apply rbind_ok_inv in E as (mx & _ & E). apply rbind_ok_inv in E as ([t' u'] & E' & E). injection E as <- <-. destruct (W _ _ E') as [I1 I2].
    cbn [fst snd]. split.
    - intros e [<-|He]; [exists (qn, qx, ex); split; [left; reflexivity|reflexivity]|apply I1; exact He].
    - intros e. destruct ((mx =? -1) || (sz <=? u64 mx)); [|apply I2]. intros [<-|He]; [exists (qn, qx, ex); split; [left; reflexivity|reflexivity]|apply I2; exact He]. }
  intros E. unfold pool_extract in E. apply bind_ok_inv in E as (o & b1 & E1 & E). rewrite bind_gets in E.
  apply bind_ok_inv in E as ([t u] & b2 & E2 & E). apply lift_ok_inv in E2 as [E2 ->]. destruct (PF _ _ _ E2) as [I1 I2]. cbn [fst snd] in E. cbv zeta in E.
  assert (IT : forall e, In e (match u with [] => t | _ => u end) -> exists m, In m ms /\ snd m = e) by (destruct u; assumption).
  set (tg := match u with [] => t | _ => u end) in *. clearbody tg. destruct tg as [|e0 tg].
  { apply bind_ok_inv in E as (? & ? & _ & E). match type of E with (if ?c then _ else _) _ = _ => destruct c; discriminate E end. }
  apply bind_ok_inv in E as (i & b2 & E3 & E). apply lift_ok_inv in E3 as [_ ->].
  match type of E with (if ?c then _ else _) _ = _ => destruct c; [|discriminate E] end.
  destruct (nth_error (e0 :: tg) (Z.to_nat i)) as [ex|] eqn:N; [|discriminate E]. destruct (IT _ (nth_error_In _ _ N)) as (m & M1 & <-).
  exists o, b1, m. repeat split; assumption.
Qed.

Lemma lot_inv fr os (ms : list (member blob)) b v b' : lot_extract fr os ms b = (Ok v, b') ->
  exists o b1 m, sized_oracle os b = (Ok o, b1) /\ In m ms /\ snd m b1 = (Ok v, b').
Proof.
  assert (PF : forall fr sz t, lot_filter fr ms sz = Ok t -> forall e, In e t -> exists m, In m ms /\ snd m = e).
  { clear. intros fr sz. induction ms as [|[[qn qx] ex] ms IH]; intros t E; cbn [lot_filter] in E; [injection E as <-; intros e []|].
    assert (W : forall t, lot_filter fr ms sz = Ok t -> forall e, In e t -> exists m, In m ((qn, qx, ex) :: ms) /\ snd m = e).
    { intros t' E' e He. destruct (IH _ E' e He) as (m & ? & ?); exists m; (split; [right; assumption|assumption]). }
    apply rbind_ok_inv in E as (mn & _ & E). destruct (sz <? u64 mn); [apply W; exact E|].
    apply rbind_ok_inv in E as (k & _ & E). apply rbind_ok_inv in E as (t' & E' & E). injection E as <-.
    destruct k; [|apply W; exact E']. intros e [<-|He]; [exists (qn, qx, ex); split; [left; reflexivity|reflexivity]|exact (W _ E' e He)]. }
  intros E. unfold lot_extract in E. apply bind_ok_inv in E as (o & b1 & E1 & E). rewrite bind_gets in E.
  apply bind_ok_inv in E as (t & b2 & E2 & E). apply lift_ok_inv in E2 as [E2 ->].
  apply bind_ok_inv in E as (tg & b2 & E3 & E).
  assert (IT : b2 = b1 /\ forall e, In e tg -> exists m, In m ms /\ snd m = e).
  { destruct t; [apply lift_ok_inv in E3 as [E3 ->]|apply ret_inv in E3 as [-> ->]]; (split; [reflexivity|]); [exact (PF _ _ _ E3)|exact (PF _ _ _ E2)]. }
  destruct IT as [-> IT]. destruct tg as [|e0 tg]; [discriminate E|].
  apply bind_ok_inv in E as (i & b2 & E4 & E). apply lift_ok_inv in E4 as [_ ->].
  match type of E with (if ?c then _ else _) _ = _ => destruct c; [|discriminate E] end.
  destruct (nth_error (e0 :: tg) (Z.to_nat (u64 i))) as [ex|] eqn:N; [|discriminate E]. destruct (IT _ (nth_error_In _ _ N)) as (m & M1 & <-).
  exists o, b1, m. repeat split; assumption.
Qed.

Lemma oracle_inv b d o b1 : holds b d -> GetOracle b = (Ok o, b1) -> exists r, holds b1 r /\ zlen d - zlen r = 2.
Proof.
  intros Hb E. destruct (Z_lt_le_dec (zlen d) 2) as [C|C].
  { destruct (cuts_transfer_fail _ _ _ b d d sim_GetOracle Hb (list_ExtractValue_ood UShort d C)) as (? & X & _). rewrite E in X. discriminate X. }
  destruct (list_split d 2 ltac:(lia)) as (front & r & -> & Ef). destruct (oracle2_blob b front r Hb Ef) as (o' & b2 & E2 & H2 & _).
  rewrite E in E2. injection E2 as <- <-. exists r. split; [exact H2|]. rewrite zlen_app. lia.
Qed.

Lemma sized_inv w b d o b1 : holds b d -> sized_oracle w b = (Ok o, b1) -> exists r, holds b1 r /\ zlen d - zlen r = w /\ 1 <= w.
Proof.
  intros Hb E.
  assert (W : In w [1; 2; 4; 8]).
  { unfold sized_oracle in E. repeat match type of E with (if ?c then _ else _) _ = _ => destruct c eqn:?; [cbn; lia|] end. discriminate E. }
  destruct (Z_lt_le_dec (zlen d) w) as [C|C].
  { destruct (cuts_transfer_fail _ _ _ b d d (sim_sized_oracle w) Hb (list_sized_oracle_ood w d (width_cases w W) C)) as (? & X & _). rewrite E in X. discriminate X. }
  apply width_cases in W as W'. destruct (list_split d w ltac:(lia)) as (front & r & -> & Ef). destruct (oracle_blob w b front r W Hb Ef) as (o' & b2 & E2 & H2 & _).
  rewrite E in E2. injection E2 as <- <-. exists r. split; [exact H2|]. rewrite zlen_app. lia.
Qed.

Lemma modest_leaves h x : modest h x -> leaves (fun _ _ ex => tame ex) x.
Proof.
  induction x as [mn mx ex|j x IH|o x IH|o x1 x2 IH1 IH2|j xs IH|n v IHn IHv|p|l] using sx_ind'; intros H; inversion H; subst; constructor; auto.
  match goal with F : Forall (modest h) xs |- _ => revert F end. intros F. clear - IH F. induction IH; constructor; inversion F; subst; auto.
Qed.

Lemma modest_graph h : graph_modest h -> heap_leaves (fun _ _ ex => tame ex) h.
Proof.
  intros (HP & HL). split.
  - intros Pl x Hi Hx. exact (modest_leaves _ _ (proj1 (HP Pl x Hi Hx))).
  - intros Lo x Hi Hx. apply In_nth_error in Hi as (l & Hl). destruct (HL l Lo Hl) as [F _]. rewrite Forall_forall in F. exact (modest_leaves _ _ (F x Hx)).
Qed.

Lemma max_int (h : heap blob) x c : modest h x -> maxSize h x = Ok c -> c < 2 ^ 31.
Proof.
  intros W E. assert (IO : forall z v, int_op z = Ok v -> v < 2 ^ 31).
  { intros z v. unfold int_op. destruct (in_i32 z) eqn:Q; [|discriminate]. intros [= <-]. unfold in_i32 in Q. lia. }
  destruct (Z.eq_dec c (-1)) as [->|Nc]; [lia|].
  inversion W; subst; unfold maxSize in E; revert E; unf_query; intros E; try (injection E as <-; lia).
  - cbv zeta iota in E. match goal with R : Forall2 (report h) xs L |- _ => rewrite (set_max_eq _ _ _ (set_min_report h xs L R)) in E end. cbn [lift fst] in E.
    assert (X : forall L r, r < 2 ^ 31 -> set_max_loop L r = Ok c -> c < 2 ^ 31).
    { clear - IO Nc. induction L as [|[mn mx] L IH]; intros r Hr E; cbn [set_max_loop] in E; [injection E as <-; exact Hr|].
      apply rbind_ok_inv in E as (a & Ea & E). cbv zeta in E. destruct (isUnbounded mn mx); [injection E as <-; lia|]. refine (IH _ _ E).
      destruct (isVariated mn mx); [apply i32_range|exact (IO _ _ Ea)]. }
    exact (X L 0 ltac:(lia) E).
  - change (maxSize h (XPool p) = Ok c) in E. destruct (pool_max_members h p c E Nc) as (P & ys & cs & _ & _ & _ & ->). apply i32_range.
  - unfold bind, get_lot in E. destruct (nth_error (lots h) l) as [L|]; [|discriminate E]. cbn [lift fst] in E. unfold lotMaxSize in E.
    destruct (stored_max (lot_nums L) =? -1); [injection E as <-; lia|exact (IO _ _ E)].
Qed.

Lemma modest_runs h : graph_modest h -> forall n x, modest h x -> forall m b d v b', maxSize h x = Ok m -> 0 <= m -> holds b d -> zlen d < 2 ^ 31 ->
  zlen d < Z.of_nat n -> ExtractStr h x b = (Ok v, b') -> zlen d - zlen (content b') <= m.
Proof.
  intros G. pose proof (modest_graph h G) as HL. induction n as [|n IHn]; intros x W m b d v b' Em Hm Hb Hd Hn E; [pose proof (zlen_nonneg d); lia|].
  assert (TG : forall x, modest h x -> tame_graph h x) by (intros y Wy; split; [exact HL|exact (modest_leaves h y Wy)]).
  pose proof (tame_result h x b (TG x W) (proj1 Hb)) as [Wb Sb]. rewrite E in Wb. cbn [snd] in Wb.
  inversion W; subst.
  - unfold maxSize in Em. rewrite query_leaf in Em. injection Em as ->. unfold ExtractStr in E. rewrite extract_leaf in E.
    match goal with X : _ -> within _ _ |- _ => apply (X ltac:(lia) b d v (content b') Hb) end. exists b'. repeat split; assumption.
  - unfold maxSize in Em. rewrite query_vec in Em. injection Em as <-. lia.
  - unfold maxSize in Em. rewrite query_unary in Em. injection Em as <-. lia.
  - unfold maxSize in Em. rewrite query_binary in Em. injection Em as <-. lia.
  - match goal with R : Forall2 (report h) xs L |- _ => rename R into HR end. unfold maxSize in Em. rewrite query_set in Em. cbv zeta iota in Em.
    rewrite (set_max_eq _ _ _ (set_min_report h xs L HR)) in Em. cbn [lift fst] in Em.
    assert (U : count unb L = 0).
    { assert (X : forall L r, set_max_loop L r = Ok m -> count unb L = 0); [|exact (X L 0 Em)]. clear - Hm. induction L as [|[mn mx] L IH]; intros r E; [reflexivity|].
      cbn [set_max_loop] in E. apply rbind_ok_inv in E as (a & _ & E). cbv zeta in E. rewrite count_cons. change (unb (mn, mx)) with (mx =? -1). unfold isUnbounded in E.
      destruct (mx =? -1); [injection E as <-; lia|]. rewrite (IH _ E). lia. }
    match goal with S : set_ok L |- _ => rename S into HS end. match goal with X : count unb L = 0 -> _ |- _ => specialize (X U); rename X into HT end.
    change (set_max_loop L 0) with (SetMaxSize L) in Em. rewrite (SetMaxSize_run L (proj1 HS) U HT) in Em. injection Em as <-.
    unfold ExtractStr in E. rewrite extract_set in E. rewrite (bind_lift_ok _ _ b _ (sizes_of_report h xs L HR)) in E.
    apply bind_ok_inv in E as (cs & b1 & E1 & E). apply bind_ok_inv in E as (r & b2 & E2 & E). apply lift_ok_inv in E2 as [_ ->]. apply ret_inv in E as [_ ->].
    exact (set_consumes L b d cs b1 HS ltac:(assumption) U Hb Hd E1).
  - unfold maxSize in Em. rewrite query_hashel in Em. injection Em as <-. lia.
  - destruct (pool_max_members h p m Em ltac:(lia)) as (P & ys & cs & N & WP & F & Ei).
    unfold ExtractStr in E. rewrite extract_pool_S, N, WP, map_map in E. destruct (pool_inv _ _ _ _ _ E) as (o & b1 & mb & Eo & Im & E1).
    apply in_map_iff in Im as (y & <- & Iy). cbn [snd] in E1. destruct (oracle_inv b d o b1 Hb Eo) as (r & Hr & Zr).
    destruct G as [GP _]. destruct (GP P y (nth_error_In _ _ N) ltac:(rewrite WP; apply in_map; exact Iy)) as [Wy Ky].
    assert (X : exists c, In c cs /\ maxSize h y = Ok c /\ c <> -1).
    { clear - F Iy. induction F as [|y' c ys cs Q F IH]; [destruct Iy|]. destruct Iy as [->|Iy]; [exists c; split; [left; reflexivity|exact Q]|].
      destruct (IH Iy) as (c' & I1 & I2). exists c'. split; [right; exact I1|exact I2]. }
    destruct X as (c & Ic & Ec & Nc). specialize (Ky c Ec).
    assert (B1 : forall c, In c cs -> c < 2 ^ 31).
    { intros c' Ic'. assert (X : exists y', In y' ys /\ maxSize h y' = Ok c').
      { clear - F Ic'. induction F as [|y' a ys cs (Q & _) F IH]; [destruct Ic'|]. destruct Ic' as [->|Ic']; [exists y'; split; [left; reflexivity|exact Q]|].
        destruct (IH Ic') as (z & I1 & I2). exists z. split; [right; exact I1|exact I2]. }
      destruct X as (y' & Iy' & Ey'). apply (max_int h y' c'); [|exact Ey'].
      exact (proj1 (GP P y' (nth_error_In _ _ N) ltac:(rewrite WP; apply in_map; exact Iy'))). }
    destruct (max_fold cs 0) as [M0 M1]. set (mx := fold_left _ cs 0) in *.
    assert (M2 : mx < 2 ^ 31).
    { assert (X : forall cs r, r < 2 ^ 31 -> (forall c, In c cs -> c < 2 ^ 31) -> fold_left (fun r c => if r <? c then c else r) cs r < 2 ^ 31); [|exact (X cs 0 ltac:(lia) B1)].
      clear. induction cs as [|c cs IH]; intros r Hr Hc; cbn [fold_left]; [exact Hr|]. apply IH; [|intros; apply Hc; right; assumption].
      specialize (Hc c (or_introl eq_refl)). destruct (r <? c); assumption. }
    assert (Em' : m = mx + 2).
    { destruct (Z_lt_le_dec (mx + 2) (2 ^ 31)) as [Q|Q]; [rewrite i32_id in Ei by lia; exact Ei|]. exfalso.
      unfold i32 in Ei. assert (Ex : (mx + 2) = 2 ^ 31 \/ mx + 2 = 2 ^ 31 + 1) by lia.
      destruct Ex as [Ex|Ex]; rewrite Ex in Ei; vm_compute in Ei; lia. }
    rewrite Forall_forall in M1. specialize (M1 c Ic). cbv beta in M1.
    assert (E1' : ExtractStr h y b1 = (Ok v, b')).
    { rewrite <- E1. symmetry. apply tame_depth; [exact (TG y Wy)|exact (proj1 Hr)|]. rewrite (holds_size b1 r Hr). change (Size b) with (blobSize b). rewrite (holds_size b d Hb). lia. }
    pose proof (IHn y Wy c b1 r v b' Ec ltac:(lia) Hr ltac:(lia) ltac:(lia) E1'). lia.
  - destruct (nth_error (lots h) l) as [L|] eqn:N; [|exfalso; exact (well_min_lot h l m ltac:(unfold minSize; rewrite query_lot; unfold maxSize in Em; rewrite query_lot in Em; unfold bind, get_lot in *; rewrite N in *; exact Em) N)].
    destruct G as [_ GL]. destruct (GL l L N) as [FL HH]. unfold ExtractStr in E. rewrite extract_lot_S, N in E.
    destruct (lot_inv _ _ _ _ _ _ E) as (o & b1 & mb & Eo & Im & E1). apply in_map_iff in Im as (y & <- & Iy). cbn [snd] in E1.
    destruct (sized_inv _ b d o b1 Hb Eo) as (r & Hr & Zr & Wr). rewrite Forall_forall in FL. pose proof (FL y Iy) as Wy.
    destruct (HH m Em ltac:(lia) y Iy) as (k & Ek & Hk & Km).
    assert (E1' : ExtractStr h y b1 = (Ok v, b')).
    { rewrite <- E1. symmetry. apply tame_depth; [exact (TG y Wy)|exact (proj1 Hr)|]. rewrite (holds_size b1 r Hr). change (Size b) with (blobSize b). rewrite (holds_size b d Hb). lia. }
    pose proof (IHn y Wy k b1 r v b' Ek Hk Hr ltac:(lia) ltac:(lia) E1'). lia.
Qed.

Lemma set_max_exact L : Forall stamp_ok L -> sum (map snd (filter (fun s => negb (unb s)) L)) + 2 * count var L < 2 ^ 31 ->
  SetMaxSize L = Ok (if 0 <? count unb L then -1 else sum (map snd L) + 2 * count var L).
Proof.
  intros HL. unfold SetMaxSize.
  assert (P0 : forall L, Forall stamp_ok L -> 0 <= sum (map snd (filter (fun s => negb (unb s)) L))).
  { induction 1 as [|[a b] K [Ha Hb] HK IH]; [cbn; lia|]. cbn [filter]. change (unb (a, b)) with (b =? -1). cbn [fst snd] in *.
    destruct (b =? -1) eqn:Q; cbn [negb map snd]; [exact IH|]. rewrite sum_cons. lia. }
  assert (X : forall r, 0 <= r -> r + sum (map snd (filter (fun s => negb (unb s)) L)) + 2 * count var L < 2 ^ 31 ->
    set_max_loop L r = Ok (if 0 <? count unb L then -1 else r + sum (map snd L) + 2 * count var L)).
  2:{ intros H. rewrite (X 0) by lia. reflexivity. }
  induction HL as [|[mn mx] L [Ha Hb] HL IH]; intros r Hr HT; [cbn [set_max_loop map sum fold_right]; change (count unb []) with 0; change (count var []) with 0; cbn; f_equal; lia|].
  rewrite !count_cons in *. cbn [set_max_loop filter] in *. change (unb (mn, mx)) with (mx =? -1) in *. change (var (mn, mx)) with (mn <? mx) in *.
  pose proof (P0 L HL). pose proof (count_nonneg unb L). pose proof (count_nonneg var L). unfold isUnbounded, isVariated, isFixedSize, isUnbounded, ORACLE_SIZE. cbn [fst snd] in *.
  destruct (mx =? -1) eqn:Q; cbn [negb map snd] in *.
  - rewrite int_op_ok by (destruct (mn <? mx); lia). cbn [rbind]. replace (0 <? 1 + count unb L) with true by lia. reflexivity.
  - rewrite sum_cons in *. rewrite int_op_ok by (destruct (mn <? mx); lia). cbn [rbind]. replace (0 + count unb L) with (count unb L) by lia.
    destruct (mn =? mx) eqn:Q2; cbn [negb andb].
    + destruct (mn <? mx) eqn:Q3; [lia|]. rewrite IH by lia. destruct (0 <? count unb L); f_equal; lia.
    + destruct (mn <? mx) eqn:Q3; [|lia]. rewrite i32_id by lia. rewrite IH by lia. destruct (0 <? count unb L); f_equal; lia.
Qed.

Lemma width_unique n w1 w2 : is_width n w1 -> is_width n w2 -> w1 = w2.
Proof.
  intros (A1 & A2 & A3) (B1 & B2 & B3). apply width_cases in A1 as C1. apply width_cases in B1 as C2.
  destruct (Z.lt_trichotomy w1 w2) as [Q|[Q|Q]]; [|exact Q|]; exfalso.
  - specialize (B3 w1 A1 Q). destruct A2; lia.
  - specialize (A3 w2 B1 Q). destruct B2; lia.
Qed.
