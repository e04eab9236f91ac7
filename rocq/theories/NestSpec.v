(** Balanced parentheses (C40). *)
From Verif Require Import Base Stamps.

Definition open_paren : byte := x28.
Definition close_paren : byte := x29.

(** Every opening parenthesis has its closing one. *)
Inductive balanced : bytes -> Prop :=
| bal_nil : balanced []
| bal_other c s : c <> open_paren -> c <> close_paren -> balanced s -> balanced (c :: s)
| bal_paren s t : balanced s -> balanced t -> balanced ((open_paren :: s) ++ (close_paren :: t)).

(** A formula: operators with balanced names over operands whose texts are balanced. *)
Inductive formula {B} : sx B -> Prop :=
| fo_leaf mn mx ex : (forall b s, fst (ex b) = Ok s -> balanced s) -> formula (XLeaf mn mx ex)
| fo_unary o x : balanced o -> formula x -> formula (XUnary o x)
| fo_binary o x y : balanced o -> formula x -> formula y -> formula (XBinary o x y).
