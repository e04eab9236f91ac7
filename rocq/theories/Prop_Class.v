(** C43: the size classes. *)
From Verif Require Import Base BaseFacts Galley.

(** Exactly one of the three holds. *)
Theorem C43_one : forall mn mx, 0 <= mn -> -1 <= mx ->
  (isFixedSize mn mx = true /\ isVariated mn mx = false /\ isUnbounded mn mx = false) \/
  (isFixedSize mn mx = false /\ isVariated mn mx = true /\ isUnbounded mn mx = false) \/
  (isFixedSize mn mx = false /\ isVariated mn mx = false /\ isUnbounded mn mx = true).
Proof.
  intros mn mx H1 H2. unfold isVariated, isFixedSize, isUnbounded.
  destruct (mn =? mx) eqn:E1, (mx =? -1) eqn:E2; cbn; auto 8. exfalso. lia.
Qed.
Print Assumptions C43_one.

(** And it is the one its name says. *)
Theorem C43_meaning : forall mn mx, 0 <= mn -> -1 <= mx ->
  (isFixedSize mn mx = true <-> mn = mx) /\ (isUnbounded mn mx = true <-> mx = -1)
  /\ (isVariated mn mx = true <-> mn <> mx /\ mx <> -1).
Proof.
  intros mn mx H1 H2. unfold isVariated, isFixedSize, isUnbounded. split; [|split]; lia.
Qed.
Print Assumptions C43_meaning.

(** The condition on minSize() is needed: a stamp claiming minSize() == -1 could be in two classes. *)
Example C43_case : isFixedSize (-1) (-1) = true /\ isUnbounded (-1) (-1) = true
  /\ isFixedSize 2 2 = true /\ isVariated 1 8 = true /\ isUnbounded 0 (-1) = true.
Proof. repeat split. Qed.
