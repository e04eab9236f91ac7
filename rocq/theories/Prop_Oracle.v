(** C09, C10, C11: OracleProportion. *)
From Coq Require Import ZArith Reals Lia.
From Flocq Require Import Core.Core.
From Verif Require Import Base FloatModel FloatFacts Oracle OracleFacts OracleLarge.
Local Open Scope Z_scope.

(** C09.  The result is within the range, for every range but the full one. *)
Theorem C09_in_range : forall oracle min max, 0 <= oracle <= 65535 -> 0 <= min <= max -> max < 2 ^ 64 ->
  ~ (min = 0 /\ max = 2 ^ 64 - 1) ->
  exists r, OracleProportion oracle min max = Ok r /\ min <= r <= max.
Proof.
  intros o mn mx Ho H1 H2 H3. destruct (oracle_eq o mn mx) as [E B]; try lia.
  eexists. split; [exact E|lia].
Qed.
Print Assumptions C09_in_range.

Theorem C09_full_range : forall oracle, 0 <= oracle <= 65535 ->
  OracleProportion oracle 0 (2 ^ 64 - 1) = Ok 0.
Proof. exact oracle_full. Qed.
Print Assumptions C09_full_range.

Example C09_case : OracleProportion 40000 10 (2 ^ 40) = Ok 671088640010
  /\ OracleProportion 40000 5 7 = Ok 6.
Proof. vm_compute. split; reflexivity. Qed.

(** C10.  Monotone in the oracle, with the ends of the range at the ends. *)
Theorem C10_monotone : forall o1 o2 min max r1 r2, 0 <= o1 <= o2 -> o2 <= 65535 ->
  0 <= min <= max -> max < 2 ^ 64 ->
  OracleProportion o1 min max = Ok r1 -> OracleProportion o2 min max = Ok r2 -> r1 <= r2.
Proof.
  intros o1 o2 mn mx r1 r2 Ho Ho2 H1 H2 E1 E2.
  destruct (Z.eq_dec (mx - mn + 1) (2 ^ 64)) as [F|NF].
  - assert (mn = 0) by lia. assert (mx = 2 ^ 64 - 1) by lia. subst mn mx.
    rewrite oracle_full in E1, E2 by lia. injection E1 as <-. injection E2 as <-. lia.
  - destruct (oracle_eq o1 mn mx) as [F1 _]; try lia. destruct (oracle_eq o2 mn mx) as [F2 _]; try lia.
    rewrite F1 in E1. rewrite F2 in E2. injection E1 as <-. injection E2 as <-.
    assert (X : Zfloor (portion o1 (mx - mn + 1)) <= Zfloor (portion o2 (mx - mn + 1))).
    { apply Zfloor_le. apply portion_mono; lia. }
    lia.
Qed.
Print Assumptions C10_monotone.

Theorem C10_first : forall min max, 0 <= min <= max -> max < 2 ^ 64 -> OracleProportion 0 min max = Ok min.
Proof.
  intros mn mx H1 H2.
  destruct (Z.eq_dec (mx - mn + 1) (2 ^ 64)) as [F|NF].
  - assert (mn = 0) by lia. assert (mx = 2 ^ 64 - 1) by lia. subst mn mx. apply oracle_full. lia.
  - destruct (oracle_eq 0 mn mx) as [E _]; try lia. rewrite E. f_equal. unfold portion.
    replace (IZR 0 / 65536 * rnd32 (IZR (mx - mn + 1)))%R with 0%R by (unfold Rdiv; ring).
    rewrite rnd_0, Zfloor_IZR. lia.
Qed.
Print Assumptions C10_first.

Theorem C10_last : forall min max, 0 <= min <= max -> max < 2 ^ 64 -> max - min + 1 <= 65536 ->
  OracleProportion 65535 min max = Ok max.
Proof.
  intros mn mx H1 H2 H3. destruct (oracle_eq 65535 mn mx) as [E B]; try lia. rewrite E. f_equal.
  pose proof (floor_portion_last (mx - mn + 1)). lia.
Qed.
Print Assumptions C10_last.

(** The last value of the range is produced at all exactly if there are at most 65792 values. *)
Theorem C10_last_iff : forall min max, 0 <= min <= max -> max < 2 ^ 64 ->
  (OracleProportion 65535 min max = Ok max <-> max - min + 1 <= 65792)
  /\ ((exists oracle, 0 <= oracle <= 65535 /\ OracleProportion oracle min max = Ok max)
      <-> max - min + 1 <= 65792).
Proof.
  assert (K : forall mn mx, 0 <= mn <= mx -> mx < 2 ^ 64 -> mx - mn + 1 <= 65792 ->
    OracleProportion 65535 mn mx = Ok mx).
  { intros mn mx H1 H2 H3. destruct (oracle_eq 65535 mn mx) as [E B]; try lia. rewrite E. f_equal.
    destruct (Z.le_gt_cases (mx - mn + 1) 65536).
    - pose proof (floor_portion_last (mx - mn + 1)). lia.
    - pose proof (last_reached (mx - mn + 1)). lia. }
  assert (L : forall mn mx o, 0 <= mn <= mx -> mx < 2 ^ 64 -> 65792 < mx - mn + 1 -> 0 <= o <= 65535 ->
    OracleProportion o mn mx <> Ok mx).
  { intros mn mx o H1 H2 H3 Ho X. destruct (Z.eq_dec (mx - mn + 1) (2 ^ 64)) as [F|NF].
    - assert (mn = 0) by lia. assert (mx = 2 ^ 64 - 1) by lia. subst mn mx.
      rewrite oracle_full in X by lia. discriminate.
    - destruct (oracle_eq 65535 mn mx) as [E B]; try lia.
      assert (M := C10_monotone o 65535 mn mx _ _ ltac:(lia) ltac:(lia) H1 H2 X E).
      pose proof (last_missed (mx - mn + 1)). lia. }
  intros mn mx H1 H2. split; split.
  - intros X. destruct (Z.le_gt_cases (mx - mn + 1) 65792) as [A|A]; [exact A|].
    exfalso. apply (L mn mx 65535); try lia. exact X.
  - intros A. apply K; lia.
  - intros (o & Ho & X). destruct (Z.le_gt_cases (mx - mn + 1) 65792) as [A|A]; [exact A|].
    exfalso. apply (L mn mx o); try lia. exact X.
  - intros A. exists 65535. split; [lia|]. apply K; lia.
Qed.
Print Assumptions C10_last_iff.

Example C10_case : OracleProportion 0 7 65542 = Ok 7 /\ OracleProportion 65535 7 65542 = Ok 65542
  /\ OracleProportion 65535 7 200000 = Ok 199997
  /\ OracleProportion 65535 7 65798 = Ok 65798 /\ OracleProportion 65535 7 65799 = Ok 65798.
Proof. vm_compute. repeat split; reflexivity. Qed.

(** C11.  Every value of a range of at most 65536 values, of any but two sizes, is reached ... *)
Theorem C11_reachable : forall min max v, 0 <= min -> max < 2 ^ 64 -> min <= v <= max ->
  max - min + 1 <= 65536 -> max - min + 1 <> 65522 -> max - min + 1 <> 65524 ->
  exists oracle, 0 <= oracle <= 65535 /\ OracleProportion oracle min max = Ok v.
Proof.
  intros mn mx v H1 H2 H3 H4 H5 H6.
  destruct (reach_all (v - mn) (mx - mn + 1)) as (o & Ho & E); try lia.
  - unfold exceptional. apply Bool.orb_false_intro; apply Z.eqb_neq; assumption.
  - exists o. split; [exact Ho|]. destruct (oracle_eq o mn mx) as [F _]; try lia.
    rewrite F, E. f_equal. lia.
Qed.
Print Assumptions C11_reachable.

(** ... and for these two sizes float rounding makes some values unreachable. *)
Theorem C11_exceptions : forall min max oracle, 0 <= min -> max < 2 ^ 64 -> 0 <= oracle <= 65535 ->
  (max - min + 1 = 65522 -> OracleProportion oracle min max <> Ok (min + 32768))
  /\ (max - min + 1 = 65524 -> OracleProportion oracle min max <> Ok (min + 32768)
                               /\ OracleProportion oracle min max <> Ok (min + 16384)).
Proof.
  assert (K : forall mn mx o n j o0, 0 <= mn -> mx < 2 ^ 64 -> 0 <= o <= 65535 -> mx - mn + 1 = n ->
    (1 <= n <= 65536) -> hits o0 (j - 1) n = true -> hits (o0 + 1) (j + 1) n = true ->
    OracleProportion o mn mx <> Ok (mn + j)).
  { intros mn mx o n j o0 H1 H2 Ho En Hn A B. destruct (oracle_eq o mn mx) as [E _]; try lia.
    rewrite E, En. intros X. injection X as X.
    apply (jump o0 j n Hn A B o Ho). lia. }
  intros mn mx o H1 H2 Ho. split; [intros En|intros En; split].
  - apply (K mn mx o 65522 32768 32775); try lia; vm_compute; reflexivity.
  - apply (K mn mx o 65524 32768 32774); try lia; vm_compute; reflexivity.
  - apply (K mn mx o 65524 16384 16387); try lia; vm_compute; reflexivity.
Qed.
Print Assumptions C11_exceptions.

Example C11_case : OracleProportion 32774 0 65523 = Ok 32767 /\ OracleProportion 32775 0 65523 = Ok 32769.
Proof. vm_compute. split; reflexivity. Qed.

(** A range of more values: different oracles give different values ... *)
Theorem C11_larger : forall min max o1 o2 r1 r2, 0 <= min -> max < 2 ^ 64 -> 65536 < max - min + 1 < 2 ^ 64 ->
  0 <= o1 < o2 -> o2 <= 65535 ->
  OracleProportion o1 min max = Ok r1 -> OracleProportion o2 min max = Ok r2 -> r1 < r2.
Proof.
  intros mn mx o1 o2 r1 r2 H1 H2 H3 H4 H5 E1 E2.
  destruct (oracle_eq o1 mn mx) as [F1 _]; try lia. destruct (oracle_eq o2 mn mx) as [F2 _]; try lia.
  rewrite F1 in E1. rewrite F2 in E2. injection E1 as <-. injection E2 as <-.
  pose proof (portion_strict o1 o2 (mx - mn + 1)). lia.
Qed.
Print Assumptions C11_larger.

(** ... and some value is produced by none. *)
Theorem C11_unreached : forall min max, 0 <= min -> max < 2 ^ 64 -> 65536 < max - min + 1 ->
  exists v, min <= v <= max
    /\ forall oracle, 0 <= oracle <= 65535 -> OracleProportion oracle min max <> Ok v.
Proof.
  intros mn mx H1 H2 H3.
  destruct (Z.eq_dec (mx - mn + 1) (2 ^ 64)) as [F|NF].
  - assert (mn = 0) by lia. assert (mx = 2 ^ 64 - 1) by lia. subst mn mx.
    exists 1. split; [lia|]. intros o Ho X. rewrite oracle_full in X by lia. discriminate.
  - destruct (misses (fun o => mn + Zfloor (portion o (mx - mn + 1))) mn mx) as (v & Hv & N).
    + exact H3.
    + intros o Ho. destruct (oracle_eq o mn mx) as [_ B]; try lia.
    + intros o o' Ho Ho'. pose proof (portion_strict o o' (mx - mn + 1)). lia.
    + exists v. split; [exact Hv|]. intros o Ho X.
      destruct (oracle_eq o mn mx) as [F _]; try lia. rewrite F in X. injection X as X.
      apply (N o Ho). exact X.
Qed.
Print Assumptions C11_unreached.

Example C11_larger_case : OracleProportion 40000 7 65543 = Ok 40007 /\ OracleProportion 40001 7 65543 = Ok 40008
  /\ OracleProportion 32767 7 65543 = Ok 32774 /\ OracleProportion 65535 7 65543 = Ok 65543.
Proof. vm_compute. repeat split; reflexivity. Qed.
