(** C78: sets whose totals do not fit an int. *)
From Coq Require Import ZArith Lia.
From Verif Require Import Base BaseFacts Blob BlobSpec RunSpec RunFacts Sim Oracle Arithm Galley VectorSpec SetSpec SetFacts SetRun TotalsFacts.
Local Open Scope Z_scope.

(** Minimal sizes, or what the variated stamps can take above them, of 2^31 bytes and more together. *)
Theorem C78_overflow : forall L b l, Forall stamp_ok L -> holds b l ->
  (2 ^ 31 <= sum (map fst L) -> SetMinSize L = UB /\ fst (set_extract L b) = UB)
  /\ (2 ^ 31 <= max_extra L -> fst (set_extract L b) = UB).
Proof.
  intros L b l HL Hb.
  assert (X : 2 ^ 31 <= sum (map fst L) \/ 2 ^ 31 <= max_extra L -> fst (set_extract L b) = UB).
  { intros H. apply (run_transfer_ub _ _ _ b l (sim_set_extract L) Hb). apply set_overflow; assumption. }
  split; [|auto]. intros H. split; [|auto]. unfold SetMinSize. rewrite set_min_totals_or; [reflexivity|exact HL|cbn; lia|cbn [t_fixed]; lia].
Qed.
Print Assumptions C78_overflow.

(** Minimal sizes that fit, but not together with the oracles: minSize() is negative, no data is ever enough. *)
Theorem C78_minimum : forall L b l, Forall stamp_ok L -> sum (map fst L) < 2 ^ 31 -> 2 ^ 31 <= min_total L < 2 ^ 32 ->
  SetMinSize L = Ok (min_total L - 2 ^ 32)
  /\ (max_extra L < 2 ^ 31 -> holds b l -> zlen l < 2 ^ 63 -> runs (set_extract L) b OutOfData l).
Proof.
  intros L b l HL H1 H2. split; [rewrite SetMinSize_i32, i32_negative by assumption; reflexivity|].
  intros HX Hb Hl. exact (cuts_transfer_fail _ _ _ b l l (sim_set_extract L) Hb (set_minimum L l HL H1 HX H2 Hl)).
Qed.
Print Assumptions C78_minimum.

(** Maximal sizes that do not fit together with the oracles: maxSize() is undefined or negative. *)
Theorem C78_maximum : forall L, Forall stamp_ok L -> count unb L = 0 -> 2 ^ 31 <= sum (map snd L) + 2 * count var L < 2 ^ 32 ->
  SetMaxSize L = UB \/ SetMaxSize L = Ok (sum (map snd L) + 2 * count var L - 2 ^ 32).
Proof.
  intros L HL HU H. destruct (set_max_or L HL HU 0) as [X|X]; [left; exact X|right]. change (SetMaxSize L = Ok (i32 (0 + sum (map snd L) + 2 * count var L))) in X.
  rewrite X, Z.add_0_l, i32_negative by exact H. reflexivity.
Qed.
Print Assumptions C78_maximum.

(** Together with [set_ok] these are all lists of up to 65536 stamps. *)
Theorem C78_all : forall L, Forall stamp_ok L -> zlen L <= 65536 ->
  set_ok L \/ 2 ^ 31 <= sum (map fst L) \/ 2 ^ 31 <= max_extra L
  \/ (sum (map fst L) < 2 ^ 31 /\ max_extra L < 2 ^ 31 /\ 2 ^ 31 <= min_total L < 2 ^ 32).
Proof.
  intros L HL HN. unfold set_ok. pose proof (count_le var L). pose proof (count_le unb L). pose proof (count_nonneg var L). pose proof (count_nonneg unb L).
  assert (min_total L <= sum (map fst L) + 4 * 65536 + 2) by (unfold min_total; destruct (1 <? count unb L), (both L); lia).
  destruct (Z_lt_le_dec (sum (map fst L)) (2 ^ 31)), (Z_lt_le_dec (max_extra L) (2 ^ 31)), (Z_lt_le_dec (min_total L) (2 ^ 31)); auto 6.
  right. right. right. repeat split; lia.
Qed.
Print Assumptions C78_all.

(** Two stamps of any size up to INT_MAX: undefined.  A stamp of 2^31 - 3 to 2^31 - 1 bytes and another of 0 to 1: never enough. *)
Example C78_case : Forall stamp_ok [(0, 2 ^ 31 - 1); (0, 2 ^ 31 - 1)] /\ 2 ^ 31 <= max_extra [(0, 2 ^ 31 - 1); (0, 2 ^ 31 - 1)]
  /\ Forall stamp_ok [(2 ^ 31 - 3, 2 ^ 31 - 1); (0, 1)] /\ SetMinSize [(2 ^ 31 - 3, 2 ^ 31 - 1); (0, 1)] = Ok (1 - 2 ^ 31).
Proof.
  split; [repeat constructor; unfold stamp_ok; cbn; lia|]. split; [vm_compute; discriminate|].
  assert (S : Forall stamp_ok [(2 ^ 31 - 3, 2 ^ 31 - 1); (0, 1)]) by (repeat constructor; unfold stamp_ok; cbn; lia). split; [exact S|].
  destruct (C78_minimum [(2 ^ 31 - 3, 2 ^ 31 - 1); (0, 1)] (blob_of []) [] S ltac:(reflexivity) ltac:(vm_compute; split; [discriminate|reflexivity])) as [E _]. exact E.
Qed.

(** Both outcomes of maxSize(). *)
Example C78_maximum_case : SetMaxSize [(0, 2 ^ 31 - 1)] = Ok (1 - 2 ^ 31) /\ SetMaxSize [(2 ^ 30, 2 ^ 30); (0, 2 ^ 30)] = UB.
Proof. split; reflexivity. Qed.
