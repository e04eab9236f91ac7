(** C17-C21: how GalleyVector cuts its data. *)
From Verif Require Import Base BaseFacts Blob BlobSpec RunSpec RunFacts Sim Oracle Arithm Galley
  VectorSpec VectorFacts VectorUnbounded VectorLimits.
Local Open Scope Z_scope.

(** What the galleys return: the element stamp's value for every chunk, in order. *)
Theorem C17_values : forall A mn mx (ex : M blob A) (value : bytes -> A) b chunks rest,
  cuts (vector_extract mn mx) b chunks rest ->
  (forall c w, In w chunks -> holds c w -> fst (ex c) = Ok (value w)) ->
  runs (ExtractVector mn mx ex) b (Ok (map value chunks)) rest.
Proof.
  intros A mn mx ex value b chunks rest (cs & b' & E & Hw & Hc & Hb & Hr) Hex.
  exists b'. split; [|split; assumption]. unfold ExtractVector. rewrite (bind_ok _ _ _ _ _ E).
  unfold lift. f_equal. clear E. revert chunks Hc Hex. induction Hw as [|c cs H H' IH]; intros chunks <- Hex; [reflexivity|].
  cbn [stamp_each map]. rewrite (Hex c (content c)); [|left; reflexivity|split; [exact H|reflexivity]]. cbn [rbind].
  rewrite (IH (map content cs) eq_refl); [reflexivity|]. intros c' w Hi. apply Hex. right. exact Hi.
Qed.
Print Assumptions C17_values.

(** C17.  Fixed size k: Size/k chunks of k bytes, Size mod k bytes stay. *)
Theorem C17_fixed : forall k b l, 0 < k < 2 ^ 31 -> holds b l -> k <= zlen l ->
  exists chunks rest, cuts (vector_extract k k) b chunks rest
    /\ l = concat chunks ++ rest /\ Forall (fun c => zlen c = k) chunks
    /\ zlen chunks = zlen l / k /\ zlen rest = zlen l mod k.
Proof.
  intros k b l Hk Hb Hl. pose proof (holds_small b l Hb).
  destruct (fixed_run k l ltac:(lia) ltac:(lia)) as (cs & rest & E & P).
  exists cs, rest. split; [|exact P]. exact (cuts_transfer _ _ b l cs rest (sim_vector_extract k k) Hb E).
Qed.
Print Assumptions C17_fixed.

Theorem C17_short : forall k b l, 0 < k < 2 ^ 31 -> holds b l -> zlen l < k ->
  runs (vector_extract k k) b OutOfData l.
Proof.
  intros k b l Hk Hb Hl.
  exact (cuts_transfer_fail _ _ _ b l l (sim_vector_extract k k) Hb (vector_short k k l ltac:(lia) Hl)).
Qed.
Print Assumptions C17_short.

(** Size 0: whatever the number of iterations allowed, the loop is still running. *)
Theorem C17_zero : forall b l, holds b l ->
  fst (vector_extract 0 0 b) = Diverge /\ forall n, fst (fixed_loop n 0 b) = Diverge.
Proof.
  intros b l Hb.
  assert (K : forall n, fst (fixed_loop n 0 b) = Diverge).
  { intros n. apply (run_transfer_div _ _ _ b l (sim_fixed_loop n 0) Hb). apply fixed_zero. }
  split; [|exact K]. unfold vector_extract. change (u64 0) with 0. cbn [Size BlobBlobOps].
  rewrite (holds_size b l Hb). pose proof (zlen_nonneg l). destruct (zlen l <? 0) eqn:E; [lia|]. apply K.
Qed.
Print Assumptions C17_zero.

(** C18.  Variated size. *)
Theorem C18_variated : forall mn mx b l, 0 <= mn < mx -> mx < 2 ^ 31 -> mn + 2 < 2 ^ 31 -> holds b l -> mn <= zlen l ->
  exists chunks rest, cuts (vector_extract mn mx) b chunks rest
    /\ variated_cut mn mx l chunks rest
    /\ Forall (fun c => mn <= zlen c <= mx) chunks
    /\ zlen rest < mn + 2
    /\ (chunks <> [] <-> VectorMinSize mn mx <= zlen l).
Proof.
  intros mn mx b l Hm Hx Hs Hb Hl. pose proof (holds_small b l Hb).
  destruct (variated_run mn mx l Hm Hx Hs ltac:(lia)) as (cs & rest & E & V & F & R).
  exists cs, rest. split; [exact (cuts_transfer _ _ b l cs rest (sim_vector_extract mn mx) Hb E)|].
  split; [exact V|]. split; [exact F|]. split; [exact R|].
  rewrite (variated_nonempty _ _ _ _ _ V). unfold VectorMinSize, isFixedSize, isUnbounded, ORACLE_SIZE.
  destruct (mn =? mx) eqn:E1; [lia|]. destruct (mx =? -1) eqn:E2; [lia|]. rewrite i32_id by lia. reflexivity.
Qed.
Print Assumptions C18_variated.

(** minSize() within 2 of INT_MAX: the sum with the oracle size overflows. *)
Theorem C18_overflow : forall mn mx b l, 0 <= mn < mx -> mx < 2 ^ 31 -> 2 ^ 31 <= mn + 2 -> holds b l -> mn <= zlen l ->
  fst (vector_extract mn mx b) = UB.
Proof.
  intros mn mx b l Hm Hx Hs Hb Hl. pose proof (holds_small b l Hb).
  apply (run_transfer_ub _ _ _ b l (sim_vector_extract mn mx) Hb). apply variated_overflow; lia.
Qed.
Print Assumptions C18_overflow.

(** C19.  Unbounded size. *)
Theorem C19_unbounded : forall mn b l, 0 <= mn < 2 ^ 31 - 4 -> holds b l ->
  VectorMinSize mn (-1) <= zlen l <= 2097152 -> parts mn (zlen l) <= 32768 ->
  exists o os chunks rest, cuts (vector_extract mn (-1)) b chunks rest
    /\ unbounded_cut mn l o os chunks rest.
Proof.
  intros mn b l Hm Hb Hl Hp.
  unfold VectorMinSize, isFixedSize, isUnbounded, ORACLE_SIZE in Hl. destruct (mn =? -1) eqn:E; [lia|].
  cbn [Z.eqb Pos.eqb] in Hl. rewrite i32_id in Hl by lia.
  destruct (unbounded_run mn l ltac:(lia) ltac:(lia) Hp) as (o & os & cs & rest & R & U).
  exists o, os, cs, rest. split; [exact (cuts_transfer _ _ b l cs rest (sim_vector_extract mn (-1)) Hb R)|exact U].
Qed.
Print Assumptions C19_unbounded.

(** C20.  (a) Exactly 65535 parts and count oracle 65535: nothing is returned. *)
Theorem C20_count_wraps : forall mn b l, 0 <= mn < 2 ^ 31 -> holds b (le16 65535 ++ l) ->
  parts mn (zlen (le16 65535 ++ l)) = 65535 -> cuts (vector_extract mn (-1)) b [] l.
Proof.
  intros mn b l Hm Hb Hp. pose proof (holds_small _ _ Hb) as Hs.
  pose proof (zlen_nonneg l) as Hl0. rewrite zlen_app, le16_len in *.
  assert (mn <= 2 + zlen l).
  { unfold parts in Hp. destruct (Z_lt_le_dec (2 + zlen l) mn) as [H|H]; [|exact H].
    rewrite Z.div_small in Hp by lia. discriminate. }
  refine (cuts_transfer _ _ b _ [] l (sim_vector_extract mn (-1)) Hb _).
  apply no_parts; try rewrite zlen_app, le16_len; [lia|unfold oracle16; lia|lia|].
  apply count_wraps; [lia|exact Hp|lia].
Qed.
Print Assumptions C20_count_wraps.

(** (b) Size oracles whose sum exceeds INT_MAX. *)
Theorem C20_sum_overflows : forall mn b o os l, 0 <= mn < 2 ^ 31 -> oracle16 o -> Forall oracle16 os ->
  let data := le16 o ++ concat (map le16 os) ++ l in
  holds b data -> mn + 4 <= zlen data -> parts mn (zlen data) <= 65534 ->
  zlen os = Z.min (parts mn (zlen data)) (parts mn (zlen data) * o / 65535 + 1) -> 2 ^ 31 <= sum os ->
  fst (vector_extract mn (-1) b) = UB.
Proof.
  intros mn b o os l Hm Ho Hos data Hb Hl Hp Hn Hs. pose proof (holds_small _ _ Hb) as Hd.
  apply (run_transfer_ub _ _ _ b data (sim_vector_extract mn (-1)) Hb).
  apply oracles_overflow; auto; [unfold data in *; lia|].
  rewrite Hn. symmetry. apply (count_ok mn (zlen data) o); auto; lia.
Qed.
Print Assumptions C20_sum_overflows.

(** (c) One part of 2^24 + 3 bytes above an even minimum: the chunk size is rounded up to one more than
    there is, and extraction throws although the blob is 16 MiB bigger than minSize(). *)
Theorem C20_rounding : forall mn b o l, 0 <= mn <= 1048576 -> Z.even mn = true -> oracle16 o ->
  holds b (le16 0 ++ le16 o ++ l) -> zlen l = mn + 16777219 ->
  runs (vector_extract mn (-1)) b OutOfData l.
Proof.
  intros mn b o l Hm He Ho Hb Hl.
  exact (cuts_transfer_fail _ _ _ b _ l (sim_vector_extract mn (-1)) Hb (rounding_fails mn o l Hm He Ho Hl)).
Qed.
Print Assumptions C20_rounding.

(** C21.  Short input. *)
Theorem C21_short : forall mn mx b l, 0 <= mn < 2 ^ 31 -> holds b l -> zlen l < mn ->
  runs (vector_extract mn mx) b OutOfData l.
Proof.
  intros mn mx b l Hm Hb Hl.
  exact (cuts_transfer_fail _ _ _ b l l (sim_vector_extract mn mx) Hb (vector_short mn mx l ltac:(lia) Hl)).
Qed.
Print Assumptions C21_short.

Theorem C21_gap_variated : forall mn mx b l, 0 <= mn < mx -> mx < 2 ^ 31 -> mn + 2 < 2 ^ 31 -> holds b l ->
  mn <= zlen l < mn + 2 -> cuts (vector_extract mn mx) b [] l.
Proof.
  intros mn mx b l Hm Hx Hs Hb Hl. pose proof (holds_small b l Hb).
  destruct (variated_run mn mx l Hm Hx Hs ltac:(lia)) as (cs & rest & E & V & _).
  assert (cs = [] /\ rest = l) as [-> ->] by (inversion V; subst; [auto|lia]).
  exact (cuts_transfer _ _ b l _ _ (sim_vector_extract mn mx) Hb E).
Qed.
Print Assumptions C21_gap_variated.

Theorem C21_gap_unbounded : forall mn b l, 0 <= mn < 2 ^ 31 -> holds b l -> mn <= zlen l < mn + 4 -> 2 <= zlen l ->
  cuts (vector_extract mn (-1)) b [] (skipn 2 l).
Proof.
  intros mn b l Hm Hb Hl H2.
  exact (cuts_transfer _ _ b l _ _ (sim_vector_extract mn (-1)) Hb (gap_unbounded mn l Hm Hl H2)).
Qed.
Print Assumptions C21_gap_unbounded.

(** Fewer than 2 bytes: the count oracle itself is missing. *)
Theorem C21_gap_tiny : forall mn b l, 0 <= mn -> holds b l -> mn <= zlen l < 2 ->
  runs (vector_extract mn (-1)) b OutOfData l.
Proof.
  intros mn b l Hm Hb Hl.
  exact (cuts_transfer_fail _ _ _ b l l (sim_vector_extract mn (-1)) Hb (gap_short mn l Hm Hl)).
Qed.
Print Assumptions C21_gap_tiny.

(** The gaps end where the galley says its data begin. *)
Theorem C21_min : forall mn mx, 0 <= mn -> mn + 4 < 2 ^ 31 ->
  (mn = mx -> VectorMinSize mn mx = mn) /\ (mn < mx -> VectorMinSize mn mx = mn + 2) /\ VectorMinSize mn (-1) = mn + 4.
Proof.
  intros mn mx H0 H. unfold VectorMinSize, isFixedSize, isUnbounded, ORACLE_SIZE. change (-1 =? -1) with true.
  split; [intros <-; rewrite Z.eqb_refl; reflexivity|]. split.
  - intros L. destruct (mn =? mx) eqn:E; [lia|]. destruct (mx =? -1) eqn:E1; [lia|]. apply i32_id. lia.
  - destruct (mn =? -1) eqn:E; [lia|]. apply i32_id. lia.
Qed.
Print Assumptions C21_min.

(** ** Cases *)
Example C17_case : vector_extract 2 2 (lit "abcde") = (Ok [lit "ab"; lit "cd"], lit "e")
  /\ holds (blob_of (lit "abcde")) (lit "abcde").
Proof. split; [vm_compute; reflexivity|apply holds_blob_of; reflexivity]. Qed.

Example C18_case : vector_extract 1 4 (le16 0 ++ lit "a" ++ le16 40000 ++ lit "bcd" ++ le16 65535 ++ lit "ef" ++ [])
  = (Ok [lit "a"; lit "bcd"; lit "ef"], []).
Proof. vm_compute. reflexivity. Qed.

(** 20 bytes: at most 6 parts, oracle 20000 asks for 2; weights 1:3, 10 bytes to distribute. *)
Example C19_case : let l := le16 20000 ++ le16 10000 ++ le16 30000 ++ lit "abcdefghijklmn" in
  vector_extract 1 (-1) l = (Ok [lit "abcd"; lit "efghijklmn"], [])
  /\ 1 + 4 <= zlen l <= 2097152 /\ parts 1 (zlen l) = 6.
Proof. vm_compute. repeat split; discriminate. Qed.

(** Blobs of the sizes of C20 exist (contents arbitrary). *)
Example C20_case_a : let l := repeat x00 (Z.to_nat 131070) in
  zlen (le16 65535 ++ l) = 131072 /\ parts 0 131072 = 65535.
Proof. cbv zeta. rewrite zlen_app, zlen_repeat, Z2Nat.id by lia. split; reflexivity. Qed.

Example C20_case_b : let os := repeat 65535 (Z.to_nat 40000) in
  Forall oracle16 os /\ 2 ^ 31 <= sum os /\ zlen os = Z.min (parts 0 131071) (parts 0 131071 * 40000 / 65535 + 1).
Proof.
  cbv zeta. assert (K : forall n, Forall oracle16 (repeat 65535 n) /\ sum (repeat 65535 n) = 65535 * Z.of_nat n).
  { induction n as [|n [I1 I2]]; [split; [constructor|reflexivity]|]. cbn [repeat]. split; [constructor; [unfold oracle16; lia|exact I1]|].
    cbn [sum fold_right]. fold (sum (repeat 65535 n)). lia. }
  destruct (K (Z.to_nat 40000)) as [K1 K2]. split; [exact K1|]. rewrite K2, zlen_repeat, Z2Nat.id by lia.
  split; [lia|reflexivity].
Qed.

Example C21_case : vector_extract 3 9 (lit "abcd") = (Ok [], lit "abcd")
  /\ vector_extract 3 (-1) (lit "abcd") = (Ok [], lit "cd") /\ vector_extract 5 9 (lit "abcd") = (OutOfData, lit "abcd").
Proof. vm_compute. repeat split. Qed.
