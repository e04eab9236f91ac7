(** Even shares (C54, C55). *)
From Verif Require Import Base.
Local Open Scope Z_scope.

(** The number that bytes stand for, low byte first. *)
Definition number (l : bytes) : Z := fold_right (fun c z => bval c + 256 * z) 0 l.

(** [t] cuts the numbers 0 .. N-1 into [n] runs: run [i] is t i .. t (i+1) - 1. Its length times [n] differs
    from N by [e] at most. *)
Definition even_parts (N n e : Z) (t : Z -> Z) : Prop :=
  t 0 = 0 /\ t n = N /\ forall i, 0 <= i < n -> t i <= t (i + 1) /\ Z.abs ((t (i + 1) - t i) * n - N) <= e.

(** The elements of the first list that satisfy [P], in their order, are the second list. *)
Inductive kept {A} (P : A -> Prop) : list A -> list A -> Prop :=
| kept_nil : kept P [] []
| kept_in x l m : P x -> kept P l m -> kept P (x :: l) (x :: m)
| kept_out x l m : ~ P x -> kept P l m -> kept P (x :: l) m.
