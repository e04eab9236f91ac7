(** Lemmas for C61. *)
From Verif Require Import Base BaseFacts Blob BlobSpec Sim SimGraph Oracle Galley Stamps StampsEq VectorSpec SetSpec SetFacts Prop_Set LotSpec LotFacts
  QuerySpec QueryFacts Prop_Lottery PoolFacts ContractFacts MaxFacts SizesSpec.
Local Open Scope Z_scope.

Lemma least_eq a b l : is_least a l -> is_least b l -> a = b.
Proof. intros [A1 A2] [B1 B2]. rewrite Forall_forall in A2, B2. pose proof (A2 _ B1). pose proof (B2 _ A1). cbv beta in *. lia. Qed.
Lemma greatest_eq a b l : is_greatest a l -> is_greatest b l -> a = b.
Proof. intros [A1 A2] [B1 B2]. rewrite Forall_forall in A2, B2. pose proof (A2 _ B1). pose proof (B2 _ A1). cbv beta in *. lia. Qed.
Lemma width_eq n a b : is_width n a -> is_width n b -> a = b.
Proof.
  intros (A1 & A2 & A3) (B1 & B2 & B3). destruct (Z.lt_trichotomy a b) as [H|[H|H]]; [|exact H|].
  - specialize (B3 a A1 H). destruct A2 as [A2| ->]; [lia|]. cbn in B1. lia.
  - specialize (A3 b B1 H). destruct B2 as [B2| ->]; [lia|]. cbn in A1. lia.
Qed.

(** ** Heaps that differ in marks only, the new marks being on [up] *)
Definition inside (h : heap blob) (up : list nat) (h1 : heap blob) : Prop :=
  more_marks h h1 /\ forall p P P1, nth_error (pools h) p = Some P -> nth_error (pools h1) p = Some P1 ->
    is_in_recursion P1 = true -> is_in_recursion P = true \/ In p up.

Lemma more_nth_l h h1 p P : more_marks h h1 -> nth_error (pools h) p = Some P -> exists P1, nth_error (pools h1) p = Some P1 /\ marks P P1.
Proof.
  intros [H1 _]. revert p. induction H1 as [|a a1 l l1 A H1 IH]; intros [|p] E; try discriminate; cbn in *; [|apply IH; exact E].
  injection E as ->. eauto.
Qed.

Lemma nth_upd_other {A} (v : A) k : forall n m, n <> m -> nth_error (upd k n v) m = nth_error k m.
Proof. induction k as [|a k IHk]; intros n m Hn; [reflexivity|]. destruct n, m; try reflexivity; [congruence|]. cbn [upd nth_error]. apply IHk. congruence. Qed.

Lemma inside_mark h up h1 p P1 : inside h up h1 -> nth_error (pools h1) p = Some P1 ->
  inside h (p :: up) (set_pool h1 p (mkPool (weak_pool P1) (is_recursive P1) true)).
Proof.
  intros [I1 I2] E. split.
  - destruct I1 as [F L]. split; [|exact L]. unfold set_pool. cbn [pools]. revert F p E. clear. intros F. induction F as [|a a1 l l1 A F IH]; intros [|p] E; try discriminate; cbn in *.
    + injection E as ->. constructor; [|exact F]. destruct A as (A1 & A2 & A3). repeat split; auto.
    + constructor; [exact A|]. apply IH. exact E.
  - intros q Q0 Q1 N N1 M. destruct (Nat.eq_dec p q) as [->|D]; [right; left; reflexivity|]. unfold set_pool in N1. cbn [pools] in N1.
    rewrite nth_upd_other in N1 by exact D. destruct (I2 q Q0 Q1 N N1 M) as [?|?]; [left|right; right]; assumption.
Qed.

(** ** The loops of a pool *)
Lemma pool_min_run (h : heap blob) l L : Forall2 (fun (q : Q blob Z) c => q h = (Ok c, h)) l L -> forall r,
  q_pool_min (map Some l) r h = (Ok (fold_left (fun r c => if c <? r then c else r) L r), h).
Proof.
  induction 1 as [|q c l L H F IH]; intros r; [reflexivity|]. cbn [map q_pool_min fold_left]. rewrite (bind_ok _ _ _ _ _ H). apply IH.
Qed.

Lemma pool_max_run (h : heap blob) l L : Forall2 (fun (q : Q blob Z) c => q h = (Ok c, h)) l L -> forall r,
  q_pool_max (map Some l) r h = (Ok (if existsb (fun c => c =? -1) L then None else Some (fold_left (fun r c => if r <? c then c else r) L r)), h).
Proof.
  induction 1 as [|q c l L H F IH]; intros r; [reflexivity|]. cbn [map q_pool_max fold_left existsb]. rewrite (bind_ok _ _ _ _ _ H).
  destruct (c =? -1); [reflexivity|]. apply IH.
Qed.

Lemma fold_max l : forall r : Z, is_greatest (fold_left (fun r c => if r <? c then c else r) l r) (r :: l).
Proof.
  induction l as [|c l IH]; intros r; cbn [fold_left]; [split; [left; reflexivity|repeat constructor; lia]|].
  destruct (IH (if r <? c then c else r)) as [I1 I2]. set (m := fold_left _ l _) in *.
  pose proof (Forall_inv I2) as H0. apply Forall_inv_tail in I2. cbv beta in H0. split.
  - destruct I1 as [I1|I1]; [|right; right; exact I1]. rewrite <- I1. destruct (r <? c); [right; left|left]; reflexivity.
  - constructor; [destruct (r <? c) eqn:Q; lia|]. constructor; [destruct (r <? c) eqn:Q; lia|exact I2].
Qed.

Lemma unb_exists L : existsb (fun c => c =? -1) (map snd L) = (0 <? count unb L).
Proof.
  induction L as [|[a b] L IH]; [reflexivity|]. rewrite count_cons. cbn [map snd existsb]. change (unb (a, b)) with (b =? -1). rewrite IH.
  pose proof (count_nonneg unb L). destruct (b =? -1); [symmetry; apply Z.ltb_lt; lia|]. cbn [orb]. reflexivity.
Qed.

(** ** Lotteries *)
Lemma lot_sizes L recorded m g w : built L recorded -> Forall (fun s => 0 <= fst s /\ 0 <= snd s) recorded -> is_least m (map fst recorded) ->
  is_greatest g (map snd recorded) -> is_width (zlen recorded) w -> m + 8 < 2 ^ 31 -> g + 8 < 2 ^ 31 -> Forall (fun s => fst s < 2 ^ 31) recorded ->
  lotMinSize (lot_nums L) = Ok (m + w) /\ lotMaxSize (lot_nums L) = Ok (g + w).
Proof.
  intros (init & apps & L0 & -> & HS & -> & _) H0 Hm Hg Hw Lm Lg Hf.
  assert (NE : init ++ apps <> []) by (intros E; rewrite E in Hm; destruct Hm as [[] _]).
  assert (W8 : w <= 8) by (destruct Hw as [Hw _]; cbn in Hw; lia).
  destruct (C29_min init apps L0 HS NE) as (m' & w' & A1 & A2 & A3 & _).
  { rewrite Forall_forall in *. intros s Hs. specialize (H0 s Hs). specialize (Hf s Hs). unfold int_max. cbv beta in *. lia. }
  destruct (C29_max init apps L0 HS NE) as (g' & w'' & B1 & B2 & B3 & _).
  { destruct Hg as [_ Hg]. rewrite Forall_map in Hg. rewrite Forall_forall in *. intros s Hs. specialize (H0 s Hs). specialize (Hg s Hs).
    unfold int_max. cbv beta in *. lia. }
  rewrite (least_eq _ _ _ A1 Hm), (width_eq _ _ _ A2 Hw) in A3. rewrite (greatest_eq _ _ _ B1 Hg), (width_eq _ _ _ B2 Hw) in B3.
  unfold int_max in *. split; [apply A3|apply B3]; lia.
Qed.

(** ** The answers *)
Lemma sized_answers h f : forall x up s h1, sized h up x s -> inside h up h1 -> (free h1 < f)%nat ->
  answers h1 (query f true x, query f false x) s.
Proof.
  induction f as [|f IHf]; [lia|]. intros x. induction x as [mn mx ex|j x IH|o x IH|o x y IHx IHy|j xs IH|nm v IHn IHv|p|l] using sx_ind';
    intros up s h1 Hx HI HF; inversion Hx; subst; unf_query.
  - split; reflexivity.
  - match goal with K : sized h up x _ |- _ => destruct (IH _ _ _ K HI HF) as [A1 A2] end. cbn [fst snd] in *. split; [|reflexivity]. cbn [fst snd].
    destruct (q_var_run h1 _ _ s0 (conj A1 A2)) as [V U]. unfold q_vector_min.
    assert (F : q_fixed (query (S f) true x) (query (S f) false x) h1 = (Ok (isFixedSize (fst s0) (snd s0)), h1)).
    { unfold q_fixed. rewrite (bind_ok _ _ _ _ _ A1), (bind_ok _ _ _ _ _ A2). reflexivity. }
    rewrite (bind_ok _ _ _ _ _ F). unfold isFixedSize, vec_oracles in *. rewrite (Z.eqb_sym (fst s0) (snd s0)). destruct (snd s0 =? fst s0).
    { rewrite A1, Z.add_0_r. reflexivity. }
    rewrite (bind_ok _ _ _ _ _ U). unfold isUnbounded in *. destruct (snd s0 =? -1); rewrite (bind_ok _ _ _ _ _ A1); unfold ret, ORACLE_SIZE;
      rewrite i32_id by lia; reflexivity.
  - match goal with K : sized h up x _ |- _ => destruct (IH _ _ _ K HI HF) as [A1 A2] end. split; [exact A1|reflexivity].
  - split; [|reflexivity]. cbn [fst snd].
    assert (A : Forall2 (answers h1) [(query (S f) true x, query (S f) false x); (query (S f) true y, query (S f) false y)] [sx; sy]).
    { constructor; [apply (IHx up); assumption|]. constructor; [apply (IHy up); assumption|constructor]. }
    rewrite (set_min_eq _ _ _ A). rewrite C22_minSize by assumption. reflexivity.
  - cbv zeta. assert (A : Forall2 (answers h1) (map (fun y => (query (S f) true y, query (S f) false y)) xs) L).
    { apply Forall2_map_inv. match goal with K : Forall2 (sized h up) xs L |- _ => refine (Forall2_with _ _ _ _ _ IH _ K) end.
      cbv beta. intros y s Hy K. exact (Hy up s h1 K HI HF). }
    split; cbn [fst snd].
    + rewrite (set_min_eq _ _ _ A). rewrite C22_minSize by assumption. reflexivity.
    + rewrite (set_max_eq _ _ _ A). match goal with K : set_ok L |- _ => destruct K as [K _] end.
      change (set_max_loop L 0) with (SetMaxSize L). rewrite (set_max_exact L) by assumption. reflexivity.
  - match goal with K : sized h up nm _ |- _ => destruct (IHn _ _ _ K HI HF) as [A1 _] end.
    match goal with K : sized h up v _ |- _ => destruct (IHv _ _ _ K HI HF) as [A2 _] end. split; [|reflexivity]. cbn [fst snd] in *.
    rewrite (bind_ok _ _ _ _ _ A1), (bind_ok _ _ _ _ _ A2). rewrite int_op_ok by lia. reflexivity.
  - match goal with K : nth_error (pools h) p = Some P |- _ => rename K into N end.
    destruct (more_nth_l _ _ _ _ (proj1 HI) N) as (P1 & N1 & M1 & M2 & M3).
    assert (K1 : is_in_recursion P1 = false).
    { destruct (is_in_recursion P1) eqn:E; [|reflexivity]. destruct (proj2 HI p P P1 N N1 E) as [X|X]; [congruence|contradiction]. }
    assert (K2 : is_recursive P1 = false) by congruence.
    set (g := set_pool h1 p (mkPool (weak_pool P1) (is_recursive P1) true)).
    assert (HG : inside h (p :: up) g) by (apply inside_mark; assumption).
    pose proof (free_mark h1 p P1 N1 K1 f HF) as Fr. fold g in Fr.
    match goal with K : Forall2 (sized h (p :: up)) ys L |- _ => rename K into FS end.
    assert (A : Forall2 (fun y s => answers g (query f true y, query f false y) s) ys L).
    { clear - FS IHf HG Fr. induction FS as [|y s ys L K _ IH]; constructor; [exact (IHf y _ _ _ K HG Fr)|exact IH]. }
    assert (Amin : Forall2 (fun (q : Q blob Z) c => q g = (Ok c, g)) (map (query f true) ys) (map fst L)).
    { clear - A. induction A as [|y s ys L [A _] _ IH]; constructor; assumption. }
    assert (Amax : Forall2 (fun (q : Q blob Z) c => q g = (Ok c, g)) (map (query f false) ys) (map snd L)).
    { clear - A. induction A as [|y s ys L [_ A] _ IH]; constructor; assumption. }
    assert (Em : forall q, map (option_map (query f q)) (weak_pool P1) = map Some (map (query f q) ys)).
    { intros q. rewrite M1. match goal with K : weak_pool P = map Some ys |- _ => rewrite K end. rewrite !map_map. reflexivity. }
    match goal with K : Forall pool_sane L |- _ => rename K into PS end.
    match goal with K : is_least m (map fst L) |- _ => rename K into LE end.
    match goal with K : pool_max L mx |- _ => rename K into PM end.
    assert (M0 : 0 <= m).
    { destruct LE as [X _]. apply in_map_iff in X. destruct X as (s & <- & X). rewrite Forall_forall in PS. destruct (PS s X) as [K _]. lia. }
    split; cbn [fst snd]; rewrite query_pool_S, get_step, N1, ?K1, ?K2; cbn [orb]; rewrite (mark_step p P1 h1 _ N1), Em; fold g.
    + rewrite (bind_ok _ _ _ _ _ (pool_min_run g _ _ Amin (int_max / 2))). rewrite (bind_ok _ _ _ _ _ (unmark h1 p P1 N1 K1)).
      pose proof (fold_min (map fst L) (int_max / 2)) as FM. set (r := fold_left _ (map fst L) _) in *.
      change (int_max / 2) with 1073741823 in *. assert (r = m) as ->.
      { destruct FM as [F1 F2]. pose proof (Forall_inv F2) as F3. apply Forall_inv_tail in F2. cbv beta in F3. destruct LE as [L1 L2].
        rewrite Forall_forall in F2, L2. pose proof (F2 _ L1). destruct F1 as [F1|F1]; [lia|]. pose proof (L2 _ F1). cbv beta in *. lia. }
      destruct (m =? 1073741823) eqn:Q0; [lia|]. unfold ret, ORACLE_SIZE. rewrite i32_id by lia. reflexivity.
    + rewrite (bind_ok _ _ _ _ _ (pool_max_run g _ _ Amax 0)). rewrite (bind_ok _ _ _ _ _ (unmark h1 p P1 N1 K1)). rewrite unb_exists.
      destruct PM as [[C ->]|[C (gr & [G1 G2] & ->)]]; [replace (0 <? count unb L) with true by lia; reflexivity|].
      rewrite C. cbn [Z.ltb Z.compare]. pose proof (fold_max (map snd L) 0) as FM. set (r := fold_left _ (map snd L) _) in *. assert (r = gr) as ->.
      { destruct FM as [F1 F2]. pose proof (Forall_inv F2) as F3. apply Forall_inv_tail in F2. cbv beta in F3.
        rewrite Forall_forall in F2, G2. pose proof (F2 _ G1). cbv beta in *. destruct F1 as [F1|F1]; [|pose proof (G2 _ F1); cbv beta in *; lia].
        assert (0 <= gr); [|lia]. apply in_map_iff in G1. destruct G1 as (s & <- & X). rewrite Forall_forall in PS. destruct (PS s X) as [_ K].
        destruct (Z.eq_dec (snd s) (-1)) as [U|U]; [|lia]. exfalso. assert (0 < count unb L); [|lia]. unfold count, zlen.
        assert (I : In s (filter unb L)) by (apply filter_In; split; [exact X|unfold unb; lia]). destruct (filter unb L); [destruct I|cbn [length]; lia]. }
      assert (-1 <= gr) by (apply in_map_iff in G1; destruct G1 as (s & <- & X); rewrite Forall_forall in PS; destruct (PS s X) as [_ K]; lia).
      unfold ret, ORACLE_SIZE. rewrite i32_id by lia. reflexivity.
  - destruct (lot_sizes L recorded m g w) as [A1 A2]; try assumption. destruct HI as [[_ EL] _].
    split; cbn [fst snd]; unfold bind, get_lot; rewrite EL; match goal with K : nth_error (lots h) l = Some L |- _ => rewrite K end; [rewrite A1|rewrite A2]; reflexivity.
Qed.
