(** C59: splitting data in two, again and again (t/320-galley-recursion-experiments.cpp). *)
From Verif Require Import Base BaseFacts Blob BlobSpec RunSpec RunFacts ArithSpec Arithm Prop_Arithm VectorSpec FormulaSpec PointsFacts Experiment ExperimentSpec ExperimentFacts ExperimentRun.
Local Open Scope Z_scope.

(** fit_sizes() divides a number in proportion to the seeds; its assertion holds. *)
Theorem C59_fit : forall seeds fit_in, Forall (fun s => 0 <= s < 2 ^ 31) seeds -> 0 < sum seeds -> zlen seeds <= 65536 ->
  0 <= fit_in < 2 ^ 31 -> zeros_outside seeds ->
  exists sizes, fit_sizes seeds fit_in = Ok sizes /\ divides_up fit_in seeds sizes.
Proof. exact fit_ok. Qed.
Print Assumptions C59_fit.

(** With a seed 0 between others it does so too, or else it is undefined; the latter happens. *)
Theorem C59_fit_any : forall seeds fit_in, Forall (fun s => 0 <= s < 2 ^ 31) seeds -> 0 < sum seeds -> zlen seeds <= 65536 ->
  0 <= fit_in < 2 ^ 31 ->
  (exists sizes, fit_sizes seeds fit_in = Ok sizes /\ divides_up fit_in seeds sizes) \/ fit_sizes seeds fit_in = UB.
Proof. exact fit_any. Qed.
Print Assumptions C59_fit_any.

Theorem C59_fit_undefined : exists seeds fit_in, Forall (fun s => 0 <= s < 2 ^ 31) seeds /\ 0 < sum seeds /\ 0 <= fit_in < 2 ^ 31
  /\ fit_sizes seeds fit_in = UB.
Proof.
  exists [1; 0; 1], 1. split; [repeat constructor; lia|]. split; [reflexivity|]. split; [lia|]. vm_compute. reflexivity.
Qed.
Print Assumptions C59_fit_undefined.

(** VariantPicker() selects one of the variants that are on offer, the one that the seed points to if 0 to 255 is
    divided evenly among all of them, and returns the element it is of. *)
Theorem C59_pick : forall vs seed last, Forall (fun v => 0 <= offers v) vs -> 1 <= total_offers vs <= 1048576 -> 0 <= seed <= 255 ->
  nth_error vs (length vs - 1) = Some last -> 1 <= offers last ->
  exists k i vs', VariantPicker vs seed = Ok (k, vs') /\ selected vs k i vs' /\ offered vs k i
    /\ 255 * (offers_before vs k + i) <= seed * total_offers vs <= 255 * (offers_before vs k + i + 1).
Proof.
  intros vs seed last H HT Hs L O. destruct (pick_run vs seed H HT Hs) as (j & k & i & vs' & E & S & Of & B & D).
  exists k, i, vs'. split; [|split; [exact S|split; [exact Of|exact B]]]. rewrite E. do 2 f_equal. destruct D as [D|(-> & _ & D)]; [exact D|].
  destruct Of as (v & Ev & Hi). symmetry. apply (before_last vs H k v last Ev); [|exact L|exact O].
  pose proof (before_le vs H k v Ev). lia.
Qed.
Print Assumptions C59_pick.

(** If the number of variants divides 255, what a seed on a boundary points to is exact: the variant below. *)
Theorem C59_pick_exact : forall vs seed, Forall (fun v => 0 <= offers v) vs -> 1 <= total_offers vs -> (total_offers vs | 255) -> 0 <= seed <= 255 ->
  exists k i vs', VariantPicker vs seed = Ok (k, vs') /\ selected vs k i vs' /\ offered vs k i
    /\ (offers_before vs k + i = 0 \/ 255 * (offers_before vs k + i) < seed * total_offers vs)
    /\ seed * total_offers vs <= 255 * (offers_before vs k + i + 1).
Proof. exact pick_exact. Qed.
Print Assumptions C59_pick_exact.

(** If the last element has nothing to offer, the selection is as it should be, but the element returned may be the
    last one. *)
Theorem C59_pick_any : forall vs seed, Forall (fun v => 0 <= offers v) vs -> 1 <= total_offers vs <= 1048576 -> 0 <= seed <= 255 ->
  exists j k i vs', VariantPicker vs seed = Ok (j, vs') /\ selected vs k i vs' /\ offered vs k i
    /\ 255 * (offers_before vs k + i) <= seed * total_offers vs <= 255 * (offers_before vs k + i + 1)
    /\ (j = k \/ j = (length vs - 1)%nat /\ seed = 255 /\ offers_before vs k + i + 1 = total_offers vs).
Proof. exact pick_run. Qed.
Print Assumptions C59_pick_any.

Theorem C59_pick_wrong : exists vs seed j v vs', Forall (fun v => 0 <= offers v) vs /\ 1 <= total_offers vs /\ 0 <= seed <= 255
  /\ VariantPicker vs seed = Ok (j, vs') /\ nth_error vs j = Some v /\ offers v = 0.
Proof.
  exists [mkVariants 18 (-1) true; mkVariants 1 (-1) false], 255. eexists 1%nat, (mkVariants 1 (-1) false), _.
  split; [repeat constructor; cbn; lia|]. split; [cbn; lia|]. split; [lia|]. split; [vm_compute; reflexivity|]. split; reflexivity.
Qed.
Print Assumptions C59_pick_wrong.

(** From 2 bytes on the recursion writes a formula of numbers and the five operators, whose size the data determine within
    bounds, and leaves at most 4 bytes. *)
Theorem C59_writes : forall b d, holds b d -> 2 <= zlen d < 2 ^ 31 ->
  exists f s rest, runs DoRecursion b (Ok s) rest /\ proper five_operators f /\ only_numbers f /\ written f s
    /\ 5 * operators f + 2 <= zlen d <= 9 * operators f + 6 /\ zlen rest <= 4.
Proof.
  intros b d Hb H. destruct (rec_writes (S (Z.to_nat (zlen d))) (S (Z.to_nat (zlen d))) b d Hb ltac:(lia) ltac:(lia) ltac:(lia) ltac:(lia))
    as (f & s & rest & (b' & E & R) & P & O & W & B & _ & L).
  exists f, s, rest. split; [exists b'; split; [|exact R]|repeat split; try assumption; apply B].
  unfold DoRecursion. change (Size b) with (blobSize b). rewrite (holds_size b d Hb). exact E.
Qed.
Print Assumptions C59_writes.

(** Less is not enough for a number. *)
Theorem C59_less : forall b d, holds b d -> zlen d < 2 ->
  runs DoRecursion b (Ok (if zlen d =? 0 then lit "0" else lit "Q")) [].
Proof.
  intros b d Hb H. destruct d as [|c [|c2 d]]; [| |rewrite !zlen_cons in H; pose proof (zlen_nonneg d); lia].
  - destruct (C06_short UChar b [] Hb eq_refl) as ((b' & E & R) & _). exists b'. split; [|exact R]. unfold DoRecursion. cbn [do_recursion]. rewrite E. reflexivity.
  - destruct (rec_start (Z.to_nat (Size b)) b c [] Hb) as (n & i & op & b1 & _ & Hb1 & _ & _ & _ & _ & _ & E).
    destruct (C06_short UChar b1 [] Hb1 eq_refl) as (_ & _ & (b' & E2 & R) & _). exists b'. split; [|exact R]. unfold DoRecursion. rewrite E.
    unfold Node1_do_recursion. change (Size b1) with (blobSize b1). rewrite (holds_size b1 [] Hb1). change (@zlen byte [] <? u64 (sizeof UShort + 4 * sizeof UChar)) with true.
    cbn iota. rewrite E2. reflexivity.
Qed.
Print Assumptions C59_less.

(** Up to 49158 bytes these bounds are the only restriction. *)
Theorem C59_reach : forall f n, proper five_operators f -> only_numbers f -> 5 * operators f + 2 <= n <= 9 * operators f + 6 -> n <= 49158 ->
  exists d, zlen d = n /\ forall b, holds b d -> exists s rest, runs DoRecursion b (Ok s) rest /\ written f s.
Proof.
  intros f n P O Hl Hm. destruct (rec_reach f P O n Hl Hm) as (d & L & G). exists d. split; [exact L|]. intros b Hb.
  destruct (G b (S (Z.to_nat (zlen d))) Hb ltac:(lia)) as (s & b' & E & W). pose proof (FormulaFacts.operators_nonneg f).
  destruct (C59_writes b d Hb ltac:(lia)) as (_ & s' & rest & R & _).
  assert (E2 : fst (DoRecursion b) = Ok s).
  { unfold DoRecursion. change (Size b) with (blobSize b). rewrite (holds_size b d Hb), E. reflexivity. }
  rewrite (runs_fst _ _ _ _ R) in E2. injection E2 as ->. exists s, rest. split; [exact R|exact W].
Qed.
Print Assumptions C59_reach.

Example C59_case : fit_sizes [1; 20; 30; 10; 1] 6 = Ok [0; 2; 3; 1; 0] /\ divides_up 6 [1; 20; 30; 10; 1] [0; 2; 3; 1; 0] /\ zeros_outside [1; 20; 30; 10; 1]
  /\ VariantPicker [node1; mkVariants 2 0 true] 180 = Ok (0%nat, [mkVariants 5 4 true; mkVariants 2 0 true])
  /\ VariantPicker [node1; mkVariants 2 0 true] 220 = Ok (1%nat, [mkVariants 5 (-1) true; mkVariants 2 1 true])
  /\ fst (DoRecursion (blob_of [x31; x16; x98; xe2; x59; x77; xf7; x73; x2b])) = Ok (lit "(89 + 115)")
  /\ written (FOp (lit "+") (FNum 89) (FNum 115)) (lit "(89 + 115)").
Proof.
  split; [vm_compute; reflexivity|]. split.
  { split; [reflexivity|]. split; [repeat constructor; lia|]. split; [reflexivity|]. intros m. do 6 (destruct m as [|m]; [vm_compute; discriminate|]).
    rewrite !firstn_all2 by (cbn; lia). vm_compute. discriminate. }
  split.
  { intros a b E. do 5 (destruct a as [|? a]; [discriminate E|injection E as _ E]). destruct a; discriminate E. }
  split; [vm_compute; reflexivity|]. split; [vm_compute; reflexivity|]. split; [vm_compute; reflexivity|].
  apply (w_op (lit "+") _ _ (lit "89") (lit "115")); constructor; reflexivity.
Qed.
