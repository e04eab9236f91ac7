(** The exception (or worse) of a part is that of the whole (C62). *)
From Verif Require Import Base.

(** [r] and [e] are the same kind of failure: OutOfData, undefined behaviour, abort, no end. *)
Definition failure {A C} (r : res A) (e : res C) : Prop :=
  match r, e with
  | OutOfData, OutOfData | UB, UB | Abort, Abort | Diverge, Diverge => True
  | _, _ => False
  end.

Definition succeeds {A} (r : res A) : Prop := exists v, r = Ok v.
