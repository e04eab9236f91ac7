(** GalleyVector on byte lists: fixed and variated elements. *)
From Coq Require Import ZArith Reals Lia.
From Flocq Require Import Core.Core.
From Verif Require Import Base BaseFacts FloatModel Oracle OracleFacts Arithm ArithFacts Sim Galley VectorSpec.
Local Open Scope Z_scope.

(** ** Reading *)
Lemma list_chop (c l : bytes) n : n = zlen c -> Chop n (c ++ l) = (Ok c, l).
Proof.
  intros ->. cbn [Chop ListOps]. rewrite zlen_app. pose proof (zlen_nonneg l).
  destruct (zlen c + zlen l <? zlen c) eqn:E; [lia|]. unfold zlen. rewrite Nat2Z.id.
  rewrite firstn_app, skipn_app, Nat.sub_diag, firstn_all, skipn_all, firstn_O, app_nil_r. reflexivity.
Qed.

Lemma list_chop_ood (l : bytes) n : zlen l < n -> Chop n l = (OutOfData, l).
Proof. intros H. cbn [Chop ListOps]. destruct (zlen l <? n) eqn:E; [reflexivity|lia]. Qed.

Lemma list_split (l : bytes) n : 0 <= n <= zlen l -> exists c r, l = c ++ r /\ zlen c = n.
Proof.
  intros H. exists (firstn (Z.to_nat n) l), (skipn (Z.to_nat n) l).
  split; [symmetry; apply firstn_skipn|]. apply zlen_firstn. exact H.
Qed.

Lemma le16_len o : zlen (le16 o) = 2. Proof. reflexivity. Qed.

Lemma list_oracle o (l : bytes) : oracle16 o -> GetOracle (le16 o ++ l) = (Ok o, l).
Proof.
  intros H. unfold oracle16 in H. unfold GetOracle. rewrite list_ExtractValue by (rewrite zlen_app; pose proof (zlen_nonneg l); rewrite le16_len; change (sizeof UShort) with 2; lia).
  unfold le16. change (Z.to_nat (sizeof UShort)) with 2%nat. cbn [app firstn skipn].
  f_equal. f_equal. unfold decode. cbn [is_signed le_decode].
  rewrite !bval_byte_of_Z. rewrite Z.mod_mod by lia.
  pose proof (Z.div_mod o 256 ltac:(lia)). pose proof (Z.mod_pos_bound o 256 eq_refl).
  assert (0 <= o / 256 < 256) by (split; [apply Z.div_pos; lia|apply Z.div_lt_upper_bound; lia]).
  rewrite (Z.mod_small (o / 256)) by lia. cbn [andb]. apply f_equal2; [|reflexivity]. apply f_equal.
  lia.
Qed.

Lemma list_oracle_ex (l : bytes) : 2 <= zlen l -> exists o r, l = le16 o ++ r /\ oracle16 o.
Proof.
  intros H. destruct l as [|a [|c l]]; try (cbn in H; lia).
  exists (bval a + 256 * bval c), l. pose proof (bval_range a). pose proof (bval_range c).
  unfold le16, oracle16. split; [|lia]. cbn [app].
  rewrite <- (Z.mod_unique (bval a + 256 * bval c) 256 (bval c) (bval a)) by lia.
  rewrite <- (Z.div_unique (bval a + 256 * bval c) 256 (bval c) (bval a)) by lia.
  rewrite !byte_of_bval. reflexivity.
Qed.

Lemma list_oracle_ood (l : bytes) : zlen l < 2 -> GetOracle l = (OutOfData, l).
Proof. intros H. unfold GetOracle. apply list_ExtractValue_ood. exact H. Qed.

(** ** Fixed size *)
Lemma fixed_loop_run k : 0 < k < 2 ^ 64 -> forall fuel (l : bytes), zlen l < Z.of_nat fuel ->
  exists cs rest, fixed_loop fuel k l = (Ok cs, rest) /\ l = concat cs ++ rest
    /\ Forall (fun c => zlen c = k) cs /\ zlen rest < k.
Proof.
  intros Hk. induction fuel as [|fuel IH]; intros l Hf; [pose proof (zlen_nonneg l); lia|].
  cbn [fixed_loop]. rewrite u64_id by lia. cbn [Size ListOps]. destruct (k <=? zlen l) eqn:E.
  - destruct (list_split l k ltac:(lia)) as (c & r & -> & Hc). rewrite zlen_app in *.
    rewrite (bind_ok _ _ _ _ _ (list_chop c r k (eq_sym Hc))).
    destruct (IH r ltac:(lia)) as (cs & rest & E1 & E2 & F & L).
    rewrite (bind_ok _ _ _ _ _ E1). exists (c :: cs), rest.
    split; [reflexivity|]. cbn [concat]. rewrite <- app_assoc, <- E2. split; [reflexivity|].
    split; [constructor; assumption|exact L].
  - exists [], l. split; [reflexivity|]. split; [reflexivity|]. split; [constructor|lia].
Qed.

Lemma concat_len k (cs : list bytes) : Forall (fun c => zlen c = k) cs -> zlen (concat cs) = k * zlen cs.
Proof.
  induction 1 as [|c cs Hc H IH]; [cbn; lia|]. cbn [concat]. rewrite zlen_app, zlen_cons, IH, Hc. lia.
Qed.

Lemma fixed_run k (l : bytes) : 0 < k < 2 ^ 63 -> k <= zlen l < 2 ^ 63 ->
  exists cs rest, vector_extract k k l = (Ok cs, rest) /\ l = concat cs ++ rest
    /\ Forall (fun c => zlen c = k) cs /\ zlen cs = zlen l / k /\ zlen rest = zlen l mod k.
Proof.
  intros Hk Hl. unfold vector_extract. cbn [Size ListOps]. rewrite u64_id by lia.
  destruct (zlen l <? k) eqn:E; [lia|]. unfold isFixedSize. rewrite Z.eqb_refl.
  destruct (fixed_loop_run k ltac:(lia) (S (Z.to_nat (zlen l))) l ltac:(lia)) as (cs & rest & E1 & E2 & F & L).
  exists cs, rest. split; [exact E1|]. split; [exact E2|]. split; [exact F|].
  assert (Q : zlen l = k * zlen cs + zlen rest) by (rewrite E2, zlen_app, (concat_len k cs F); lia).
  pose proof (zlen_nonneg rest).
  split; [apply Z.div_unique with (zlen rest); lia|apply Z.mod_unique with (zlen cs); lia].
Qed.

Lemma vector_short mn mx (l : bytes) : 0 <= mn < 2 ^ 63 -> zlen l < mn -> vector_extract mn mx l = (OutOfData, l).
Proof.
  intros Hm Hl. unfold vector_extract. cbn [Size ListOps]. rewrite u64_id by lia.
  destruct (zlen l <? mn) eqn:E; [reflexivity|lia].
Qed.

Lemma fixed_zero fuel (l : bytes) : fst (fixed_loop fuel 0 l) = Diverge.
Proof.
  induction fuel as [|fuel IH]; [reflexivity|]. cbn [fixed_loop]. change (u64 0) with 0. cbn [Size ListOps].
  pose proof (zlen_nonneg l). destruct (0 <=? zlen l) eqn:E; [|lia].
  rewrite (bind_ok _ _ _ _ _ (list_chop [] l 0 eq_refl)). unfold bind.
  destruct (fixed_loop fuel 0 l) as [r b]. cbn [fst] in IH. subst r. reflexivity.
Qed.

(** ** Variated size *)
Lemma variated_loop_run mn mx : 0 <= mn < mx -> mx < 2 ^ 31 -> mn + 2 < 2 ^ 31 ->
  forall fuel (l : bytes), zlen l < 2 ^ 63 -> zlen l < Z.of_nat fuel ->
  exists cs rest, variated_loop fuel mn mx l = (Ok cs, rest) /\ variated_cut mn mx l cs rest
    /\ Forall (fun c => mn <= zlen c <= mx) cs /\ zlen rest < mn + 2.
Proof.
  intros Hm Hx Hs. induction fuel as [|fuel IH]; intros l Hl Hf; [pose proof (zlen_nonneg l); lia|].
  cbn [variated_loop]. unfold int_op, in_i32, ORACLE_SIZE.
  destruct ((- 2 ^ 31 <=? mn + 2) && (mn + 2 <? 2 ^ 31)) eqn:E0; [|lia]. cbn [Size ListOps]. rewrite u64_id by lia.
  destruct (zlen l <? mn + 2) eqn:E.
  - exists [], l. split; [reflexivity|]. split; [constructor; lia|]. split; [constructor|lia].
  - destruct (list_oracle_ex l ltac:(lia)) as (o & r & -> & Ho). rewrite zlen_app, le16_len in *.
    rewrite (bind_ok _ _ _ _ _ (list_oracle o r Ho)).
    rewrite !u64_id by lia. destruct (oracle_eq o mn mx Ho ltac:(lia) ltac:(lia) ltac:(lia)) as (Ep & Hp).
    set (k := (mn + Zfloor (portion o (mx - mn + 1)))) in *.
    rewrite (bind_lift_ok _ _ _ _ Ep). rewrite bind_gets. cbn [Size ListOps]. cbv zeta.
    rewrite (i32_id k) by lia. rewrite (u64_id k) by lia.
    set (n := if zlen r <? k then i32 (zlen r) else k).
    assert (Hn : n = Z.min k (zlen r)).
    { unfold n. destruct (zlen r <? k) eqn:E1; [rewrite i32_id by lia|]; lia. }
    rewrite (u64_id n) by lia.
    destruct (list_split r n ltac:(lia)) as (c & r' & -> & Hc). rewrite zlen_app in *. pose proof (zlen_nonneg c).
    rewrite (bind_ok _ _ _ _ _ (list_chop c r' n (eq_sym Hc))).
    destruct (IH r' ltac:(lia) ltac:(lia)) as (cs & rest & E1 & V & F & L).
    rewrite (bind_ok _ _ _ _ _ E1). exists (c :: cs), rest. split; [reflexivity|].
    split; [|split; [constructor; [lia|exact F]|exact L]].
    apply (vc_cut mn mx o k c r' cs rest); auto.
    + rewrite !zlen_app, le16_len. lia.
    + rewrite zlen_app. lia.
Qed.

Lemma variated_run mn mx (l : bytes) : 0 <= mn < mx -> mx < 2 ^ 31 -> mn + 2 < 2 ^ 31 -> mn <= zlen l < 2 ^ 63 ->
  exists cs rest, vector_extract mn mx l = (Ok cs, rest) /\ variated_cut mn mx l cs rest
    /\ Forall (fun c => mn <= zlen c <= mx) cs /\ zlen rest < mn + 2.
Proof.
  intros Hm Hx Hs Hl. unfold vector_extract. cbn [Size ListOps]. rewrite u64_id by lia.
  destruct (zlen l <? mn) eqn:E; [lia|]. unfold isFixedSize, isUnbounded.
  destruct (mn =? mx) eqn:E1; [lia|]. destruct (mx =? -1) eqn:E2; [lia|]. unfold vector_variated.
  rewrite (bind_lift_ok _ _ _ (mx - mn)); [|unfold int_op, in_i32; destruct (_ && _) eqn:E3; [reflexivity|lia]].
  apply variated_loop_run; try lia. cbn [Size ListOps]. lia.
Qed.

Lemma variated_overflow mn mx (l : bytes) : 0 <= mn < mx -> mx < 2 ^ 31 -> 2 ^ 31 <= mn + 2 -> mn <= zlen l < 2 ^ 63 ->
  fst (vector_extract mn mx l) = UB.
Proof.
  intros Hm Hx Hs Hl. unfold vector_extract. cbn [Size ListOps]. rewrite u64_id by lia.
  destruct (zlen l <? mn) eqn:E; [lia|]. unfold isFixedSize, isUnbounded.
  destruct (mn =? mx) eqn:E1; [lia|]. destruct (mx =? -1) eqn:E2; [lia|]. unfold vector_variated.
  rewrite (bind_lift_ok _ _ _ (mx - mn)); [|unfold int_op, in_i32; destruct (_ && _) eqn:E3; [reflexivity|lia]].
  cbn [variated_loop]. unfold int_op, in_i32, ORACLE_SIZE.
  destruct ((- 2 ^ 31 <=? mn + 2) && (mn + 2 <? 2 ^ 31)) eqn:E0; [lia|]. reflexivity.
Qed.

Lemma variated_nonempty mn mx l cs rest : variated_cut mn mx l cs rest -> (cs <> [] <-> mn + 2 <= zlen l).
Proof. intros H. inversion H; subst; split; intros; try congruence; lia. Qed.
