(** What "lower-case word" and "sorted" mean in C15. *)
From Verif Require Import Base.

Definition lower_case (c : byte) : Prop := 97 <= bval c <= 122.      (* 'a' .. 'z' *)

Definition plain_word (w : bytes) : Prop := w <> [] /\ Forall lower_case w.

(** Strict dictionary order. *)
Inductive before : bytes -> bytes -> Prop :=
| before_end c w : before [] (c :: w)
| before_here a b u v : bval a < bval b -> before (a :: u) (b :: v)
| before_next a u v : before u v -> before (a :: u) (a :: v).
