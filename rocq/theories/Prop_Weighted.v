(** C71: choice by weights, and the unused nodes of t/320-galley-recursion-experiments.cpp. *)
From Verif Require Import Base BaseFacts Blob BlobSpec BlobFacts RunSpec RunFacts Arithm VectorSpec FormulaSpec PointsFacts Experiment ExperimentSpec Prop_Experiment
  Weighted WeightedSpec WeightedFacts.

(** C71.  Every seed gets an element, the one that it points to when 0 to 255 is divided in proportion to the weights (on
    a boundary one of its two neighbours). *)
Theorem C71_pick : forall ws c, Forall (fun w => 0 <= w <= 127) ws -> 1 <= sum ws <= 1048576 -> 0 <= c <= 255 ->
  exists k w, WeightedPick ws c = Ok k /\ nth_error ws k = Some w /\ 255 * weight_before ws k <= c * sum ws <= 255 * (weight_before ws k + w).
Proof. intros ws c H. apply weighted_run. eapply Forall_impl; [|exact H]. cbv beta. intros w Hw. lia. Qed.
Print Assumptions C71_pick.

(** Strictly inside the share of an element, it is that element. *)
Theorem C71_inside : forall ws c k w, Forall (fun w => 0 <= w <= 127) ws -> 1 <= sum ws <= 1048576 -> 0 <= c <= 255 -> nth_error ws k = Some w ->
  255 * weight_before ws k < c * sum ws < 255 * (weight_before ws k + w) -> WeightedPick ws c = Ok k.
Proof.
  intros ws c k w H HT Hc E HI. assert (H0 : Forall (fun w => 0 <= w) ws) by (eapply Forall_impl; [|exact H]; cbv beta; intros; lia).
  destruct (weighted_run ws c H0 HT Hc) as (j & v & -> & Ej & Hj). f_equal.
  assert (Lk : (k < length ws)%nat) by (apply nth_error_Some; congruence). assert (Lj : (j < length ws)%nat) by (apply nth_error_Some; congruence).
  destruct (Nat.lt_trichotomy j k) as [L|[L|L]]; [|exact L|].
  - pose proof (weight_before_mono ws H0 j k v L ltac:(lia) Ej). lia.
  - pose proof (weight_before_mono ws H0 k j w L ltac:(lia) E). lia.
Qed.
Print Assumptions C71_inside.

(** If the sum of the weights divides 255 there is no doubt on boundaries either: the element below. *)
Theorem C71_exact : forall ws c, Forall (fun w => 0 <= w <= 127) ws -> 1 <= sum ws -> (sum ws | 255) -> 0 <= c <= 255 ->
  exists k w, WeightedPick ws c = Ok k /\ nth_error ws k = Some w /\ (k = 0%nat \/ 255 * weight_before ws k < c * sum ws) /\ c * sum ws <= 255 * (weight_before ws k + w).
Proof. intros ws c H. apply weighted_exact. eapply Forall_impl; [|exact H]. cbv beta. intros w Hw. lia. Qed.
Print Assumptions C71_exact.

(** Of the 256 seeds an element gets its proportion of 255, give or take one. *)
Theorem C71_share : forall ws k w, Forall (fun w => 0 <= w <= 127) ws -> 1 <= sum ws <= 1048576 -> nth_error ws k = Some w ->
  let seeds := how_many (fun c => match WeightedPick ws c with Ok j => Nat.eqb j k | _ => false end) in
  255 * w - sum ws <= sum ws * seeds <= 255 * w + sum ws.
Proof.
  intros ws k w H HT E seeds. assert (H0 : Forall (fun w => 0 <= w) ws) by (eapply Forall_impl; [|exact H]; cbv beta; intros; lia).
  pose proof (weight_before_le ws H0 k w E) as [B1 B2]. assert (W : 0 <= w) by (rewrite Forall_forall in H0; apply H0; exact (nth_error_In _ _ E)).
  set (T := sum ws) in *. set (lo := 255 * weight_before ws k) in *. set (hi := 255 * (weight_before ws k + w)) in *.
  assert (D : hi - lo = 255 * w) by (unfold hi, lo; lia). split.
  - assert (L0 : 0 <= lo / T) by (apply Z.div_pos; unfold lo; lia). assert (L1 : (hi - 1) / T <= 255).
    { apply Z.lt_succ_r. apply Z.div_lt_upper_bound; [lia|]. unfold hi, Z.succ. nia. }
    assert (C : (hi - 1) / T - (lo / T + 1) + 1 <= seeds).
    { apply how_many_lower; [lia|exact L1|]. intros c Hc [R1 R2].
      rewrite (C71_inside ws c k w H HT Hc E); [apply Nat.eqb_refl|]. fold T. fold lo. fold hi.
      pose proof (Z.div_mod lo T ltac:(lia)). pose proof (Z.mod_pos_bound lo T ltac:(lia)). pose proof (Z.mul_div_le (hi - 1) T ltac:(lia)). nia. }
    pose proof (Z.div_mod (hi - 1) T ltac:(lia)). pose proof (Z.mod_pos_bound (hi - 1) T ltac:(lia)). pose proof (Z.mul_div_le lo T ltac:(lia)). nia.
  - assert (C : seeds <= Z.max 0 (hi / T - (lo + T - 1) / T + 1)).
    { apply how_many_upper. intros c Hc P. destruct (C71_pick ws c H HT Hc) as (j & v & Ej & Nj & R). rewrite Ej in P. apply Nat.eqb_eq in P. subst j.
      rewrite E in Nj. injection Nj as <-. fold T lo hi in R. split.
      - apply Z.lt_succ_r. apply Z.div_lt_upper_bound; [lia|]. unfold Z.succ. nia.
      - apply Z.div_le_lower_bound; [lia|]. lia. }
    pose proof (Z.mul_div_le hi T ltac:(lia)). pose proof (Z.div_mod (lo + T - 1) T ltac:(lia)). pose proof (Z.mod_pos_bound (lo + T - 1) T ltac:(lia)). nia.
Qed.
Print Assumptions C71_share.

(** An element of weight 0 may be chosen all the same, namely the first one, and if all weights are 0 the last one;
    without elements the program ends or the result is undefined. *)
Theorem C71_zero : forall ws, Forall (fun w => 0 <= w <= 127) ws -> 1 <= sum ws <= 1048576 -> WeightedPick (0 :: ws) 0 = Ok 0%nat.
Proof.
  intros ws H HT. assert (H2 : Forall (fun w => 0 <= w <= 127) (0 :: ws)) by (constructor; [lia|exact H]).
  destruct (C71_pick (0 :: ws) 0 H2 HT ltac:(lia)) as (k & w & P & _). rewrite P. unfold WeightedPick in P.
  change (sum ws) with (sum (0 :: ws)) in HT.
  assert (H0 : Forall (fun w => 0 <= w) (0 :: ws)) by (eapply Forall_impl; [|exact H2]; cbv beta; intros; lia).
  rewrite (weights_run (0 :: ws) H0 0 ltac:(lia) ltac:(lia)) in P. cbn [rbind] in P. rewrite Z.add_0_l in P.
  pose proof (wloop_first (sum (0 :: ws)) HT ws 0) as Q. rewrite Q in P. symmetry. exact P.
Qed.
Print Assumptions C71_zero.

Theorem C71_all_zero : forall c n, 0 <= c <= 255 -> WeightedPick (repeat 0 (S n)) c = Ok n.
Proof. intros c n. apply zero_weights. Qed.
Print Assumptions C71_all_zero.

Theorem C71_empty : (forall c, 1 <= c <= 255 -> WeightedPick [] c = Abort) /\ WeightedPick [] 0 = UB.
Proof.
  split; [|vm_compute; reflexivity]. intros c Hc. exact (no_weights c Hc).
Qed.
Print Assumptions C71_empty.

(** Nodes 2 and 3: a byte is dropped, then "2 + " or "3 + " is written before the formula of the rest. *)
Theorem C71_nodes : forall (node : M blob bytes -> M blob bytes) digit,
  (node = Node2_do_recursion /\ digit = lit "2") \/ (node = Node3_do_recursion /\ digit = lit "3") ->
  forall b, (holds b [] -> runs (node DoRecursion) b (Ok (lit "0")) [])
    /\ forall c r, holds b (c :: r) -> 2 <= zlen r < 2 ^ 31 ->
       exists f s rest, runs (node DoRecursion) b (Ok (digit ++ lit " + " ++ s)) rest /\ proper five_operators f /\ only_numbers f /\ written f s.
Proof.
  intros node digit D b.
  assert (C0 : holds b [] -> Chop 1 b = (OutOfData, b)).
  { intros Hb. destruct Hb as [W C]. apply chop_ood; [exact W|]. rewrite C. change (zlen (@nil byte)) with 0. lia. }
  assert (C1 : forall c r, holds b (c :: r) -> exists x b1, Chop 1 b = (Ok x, b1) /\ holds b1 r).
  { intros c r [W C]. pose proof (zlen_nonneg r). destruct (chop_ok b 1 W) as (x & b1 & E & _ & Wb & _ & Cb); [rewrite C, zlen_cons; lia|].
    exists x, b1. split; [exact E|]. split; [exact Wb|]. rewrite C in Cb. exact Cb. }
  split.
  - intros Hb. exists b. split; [|exact Hb]. destruct D as [[-> ->]|[-> ->]]; unfold Node2_do_recursion, Node3_do_recursion; rewrite (C0 Hb); reflexivity.
  - intros c r Hb L. destruct (C1 c r Hb) as (x & b1 & E & H1). destruct (C59_writes b1 r H1 L) as (f & s & rest & (b2 & E2 & H2) & P & O & W & _).
    exists f, s, rest. split; [|repeat split; assumption]. exists b2. split; [|exact H2].
    destruct D as [[-> ->]|[-> ->]]; unfold Node2_do_recursion, Node3_do_recursion; rewrite E, (bind_ok _ _ _ _ _ E2); reflexivity.
Qed.
Print Assumptions C71_nodes.

(** The weights of the program's own comment (lines 396-405), a boundary. *)
Example C71_case :
  let ws := [1; 2; 3; 4] in
  Forall (fun w => 0 <= w <= 127) ws /\ sum ws = 10 /\ weight_before ws 2 = 3
  /\ map (WeightedPick ws) [0; 25; 26; 76; 77; 153; 154; 255] = [Ok 0%nat; Ok 0%nat; Ok 1%nat; Ok 1%nat; Ok 2%nat; Ok 2%nat; Ok 3%nat; Ok 3%nat]
  /\ map (WeightedPick [1; 1; 1]) [85; 86; 170; 171] = [Ok 0%nat; Ok 1%nat; Ok 1%nat; Ok 2%nat] /\ (sum [1; 1; 1] | 255).
Proof. cbn zeta. split; [repeat constructor; lia|]. repeat (split; [vm_compute; reflexivity|]). exists 85. reflexivity. Qed.
