(** C63: a destroyed member spoils its pool and all that is made of it. *)
From Verif Require Import Base BaseFacts Blob BlobSpec RunSpec RunFacts Sim SimGraph Oracle Arithm StampText VectorFacts Galley Stamps StampsEq LotSpec
  QuerySpec QueryFacts RecursionFacts ContractFacts MaxFacts SizesFacts NestFacts ExpiredSpec ExpiredFacts.
Local Open Scope Z_scope.

(** minSize() is undefined behaviour. *)
Theorem C63_minSize : forall (h : heap blob) x, spoilt h [] x -> minSize h x = UB.
Proof.
  intros h x H. apply (spoilt_min h (qfuel h) x [] h H); [|apply free_fuel]. split; [apply more_refl|]. intros p P P1 E E1 M. left. congruence.
Qed.
Print Assumptions C63_minSize.

(** ExtractStr never returns a string, whatever the data. *)
Theorem C63_never : forall (h : heap blob) x b s, spoilt h [] x -> fst (ExtractStr h x b) <> Ok s.
Proof.
  intros h x b s H. unfold ExtractStr. generalize (S (Z.to_nat (Size b))) as f. intros f E. destruct (extract f h x b) as [r b'] eqn:E1. cbn [fst] in E. subst r.
  revert b b' s E1. remember [] as up eqn:Eu. revert f.
  assert (U : forall y, spoilt h [] y -> minSize h y = UB) by apply C63_minSize.
  assert (W : forall y up, spoilt h up y -> minSize h y = UB) by (intros y up' Hy; apply U; apply (spoilt_less h y up' Hy); intros q []).
  induction H as [up p P N R I1 I2|up p P y N R I1 I2 H IH|up j x H IH|up op x H IH|up op x y H IH|up op x y H IH|up j xs y I1 H IH|up n v H IH|up n v H IH]; intros f b b' s E1; revert E1; unf_extract; intros E1.
  - destruct f; [discriminate E1|]. rewrite extract_pool_S, N in E1. unfold pool_extract in E1. apply bind_ok_inv in E1 as (o & b1 & _ & E1).
    apply bind_ok_inv in E1 as (z & b2 & _ & E1). apply bind_ok_inv in E1 as (tu & b3 & E2 & _). apply lift_ok_inv in E2 as [E2 _].
    rewrite (pool_filter_ub _ z UB (lift UB)) in E2; [discriminate E2| |].
    + intros qn qx e I3. apply in_map_iff in I3. destruct I3 as ([y|] & [= <- <- <-] & _); [apply size_cases|split; right; reflexivity].
    + apply in_map_iff. exists None. split; [reflexivity|exact I2].
  - destruct f; [discriminate E1|]. rewrite extract_pool_S, N in E1. unfold pool_extract in E1. apply bind_ok_inv in E1 as (o & b1 & _ & E1).
    apply bind_ok_inv in E1 as (z & b2 & _ & E1). apply bind_ok_inv in E1 as (tu & b3 & E2 & _). apply lift_ok_inv in E2 as [E2 _].
    rewrite (pool_filter_ub _ z (maxSize h y) (extract f h y)) in E2; [discriminate E2| |].
    + intros qn qx e I3. apply in_map_iff in I3. destruct I3 as ([y'|] & [= <- <- <-] & _); [apply size_cases|split; right; reflexivity].
    + apply in_map_iff. exists (Some y). split; [rewrite (W y _ H); reflexivity|exact I2].
  - rewrite (W x _ H) in E1. discriminate E1.
  - apply bind_ok_inv in E1 as (t & b1 & E1 & _). exact (IH Eu _ _ _ _ E1).
  - cbn [sizes_of] in E1. rewrite (W x _ H) in E1. discriminate E1.
  - cbn [sizes_of] in E1. rewrite (W y _ H) in E1. destruct (proj1 (size_cases h x)) as [(a & Ea)|Ea]; rewrite Ea in E1; [|discriminate E1].
    destruct (proj2 (size_cases h x)) as [(a' & Eb)|Eb]; rewrite Eb in E1; discriminate E1.
  - assert (S0 : sizes_of h xs = UB).
    { clear - I1 H W. induction xs as [|z xs IH]; [destruct I1|]. cbn [sizes_of]. destruct (proj1 (size_cases h z)) as [(a & Ea)|Ea]; rewrite Ea; [|reflexivity].
      destruct (proj2 (size_cases h z)) as [(a' & Eb)|Eb]; rewrite Eb; [|reflexivity]. cbn [rbind]. destruct I1 as [->|I1]; [rewrite (W y _ H) in Ea; discriminate Ea|].
      rewrite (IH I1). reflexivity. }
    rewrite S0 in E1. discriminate E1.
  - apply bind_ok_inv in E1 as (t & b1 & E1 & _). exact (IH Eu _ _ _ _ E1).
  - apply bind_ok_inv in E1 as (t & b1 & _ & E1). apply bind_ok_inv in E1 as (t' & b2 & E1 & _). exact (IH Eu _ _ _ _ E1).
Qed.
Print Assumptions C63_never.

(** The pool itself: too short for an oracle means OutOfData with nothing consumed, anything else is undefined.
    A list over it is undefined on all data. *)
Theorem C63_pool : forall (h : heap blob) p b l, spoilt h [] (XPool p) -> holds b l ->
  (zlen l < 2 -> runs (ExtractStr h (XPool p)) b OutOfData l) /\ (2 <= zlen l -> fst (ExtractStr h (XPool p) b) = UB)
  /\ forall j, fst (ExtractStr h (XVec j (XPool p)) b) = UB.
Proof.
  intros h p b l H Hb. assert (NP : exists P, nth_error (pools h) p = Some P) by (inversion H; subst; eauto). destruct NP as (P & HP). split; [|split].
  - intros Hl. destruct (run_transfer _ _ b l _ _ sim_GetOracle Hb (list_oracle_ood l Hl)) as (b' & E & Hb').
    exists b'. split; [|exact Hb']. unfold ExtractStr. rewrite extract_pool_S, HP. unfold pool_extract. exact (bind_ood _ _ _ _ E).
  - intros Hl. unfold ExtractStr. rewrite extract_pool_S, HP. unfold pool_extract. destruct (list_GetOracle l Hl) as (o & _ & Eo).
    destruct (run_transfer _ _ b l _ _ sim_GetOracle Hb Eo) as (b' & E & _). rewrite (bind_ok _ _ _ _ _ E).
    unfold bind at 1, gets. inversion H as [? ? P' N' R I1 I2|? ? P' y N' R I1 I2 Hy| | | | | | |]; subst; (assert (P' = P) as -> by congruence).
    + apply bind_ub_blob. apply (pool_filter_ub _ _ UB (lift UB)).
      * intros qn qx e I3. apply in_map_iff in I3. destruct I3 as ([y|] & [= <- <- <-] & _); [apply size_cases|split; right; reflexivity].
      * apply in_map_iff. exists None. split; [reflexivity|exact I2].
    + apply bind_ub_blob. apply (pool_filter_ub _ _ (maxSize h y) (extract (Z.to_nat (Size b)) h y)).
      * intros qn qx e I3. apply in_map_iff in I3. destruct I3 as ([y'|] & [= <- <- <-] & _); [apply size_cases|split; right; reflexivity].
      * apply in_map_iff. exists (Some y). split; [|exact I2].
        rewrite (C63_minSize h y); [reflexivity|]. apply (spoilt_less h y _ Hy). intros q [].
  - intros j. unfold ExtractStr. rewrite extract_vec, (C63_minSize h (XPool p) H). reflexivity.
Qed.
Print Assumptions C63_pool.

(** maxSize() of such a pool is undefined or "unbounded", never a number. *)
Theorem C63_maxSize : forall (h : heap blob) p P, nth_error (pools h) p = Some P -> is_in_recursion P = false -> In None (weak_pool P) ->
  maxSize h (XPool p) = UB \/ maxSize h (XPool p) = Ok (-1).
Proof.
  intros h p P N R I1. destruct (proj2 (size_cases h (XPool p))) as [(m & E)|E]; [|left; exact E]. right. rewrite E.
  destruct (Z.eq_dec m (-1)) as [->|Hm]; [reflexivity|exfalso].
  destruct (pool_max_members h p m E Hm) as (P' & ys & cs & N' & Ey & _). assert (P' = P) as -> by congruence.
  rewrite Ey in I1. apply in_map_iff in I1. destruct I1 as (y & X & _). discriminate X.
Qed.
Print Assumptions C63_maxSize.

(** A pool of a number and a destroyed stamp, and a list of sums over it. *)
Definition widowed : heap blob :=
  mkHeap [mkPool [Some (XLeaf 2 2 (ArithExtractStr Short)); None] false false; mkPool [Some (XUnary (lit "-") (XPool 0)); Some (XPool 1)] false false] [].

Example C63_case : spoilt widowed [] (XVec text_text (XBinary (lit "+") (XLeaf 1 1 (ArithExtractStr UChar)) (XPool 1))).
Proof.
  apply sp_vec, sp_right. eapply (sp_pool widowed [] 1); [reflexivity|reflexivity|intros []|left; reflexivity|].
  apply sp_unary. eapply sp_here; [reflexivity|reflexivity|intros [X|[]]; discriminate X|right; left; reflexivity].
Qed.
