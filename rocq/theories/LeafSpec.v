(** Statements about all leaves of a stamp expression and of a whole graph. *)
From Verif Require Import Base Stamps.

Section Leaves.
  Context {B : Type} (P : Z -> Z -> M B bytes -> Prop).

  (** Every leaf (minSize, maxSize, ExtractStr) of the expression satisfies P. *)
  Inductive leaves : sx B -> Prop :=
  | lv_leaf mn mx ex : P mn mx ex -> leaves (XLeaf mn mx ex)
  | lv_vec j x : leaves x -> leaves (XVec j x)
  | lv_unary o x : leaves x -> leaves (XUnary o x)
  | lv_binary o x y : leaves x -> leaves y -> leaves (XBinary o x y)
  | lv_set j xs : Forall leaves xs -> leaves (XSet j xs)
  | lv_hashel n v : leaves n -> leaves v -> leaves (XHashEl n v)
  | lv_pool p : leaves (XPool p)
  | lv_lot l : leaves (XLot l).

  Definition heap_leaves (h : heap B) : Prop :=
    (forall Pl x, In Pl (pools h) -> In (Some x) (weak_pool Pl) -> leaves x) /\
    (forall Lo x, In Lo (lots h) -> In x (lot_members Lo) -> leaves x).
End Leaves.

(** No GalleyVector (enumerator, text) over a stamp of fixed size 0, which never ends. *)
Section ZeroVec.
  Context {B : Type} (h : heap B).

  (** minSize() and maxSize() are both 0 (compared as size_t). *)
  Definition zero_sized (x : sx B) : Prop := exists k, minSize h x = Ok k /\ maxSize h x = Ok k /\ u64 k = 0.

  Inductive no_zero_vec : sx B -> Prop :=
  | nz_leaf mn mx ex : no_zero_vec (XLeaf mn mx ex)
  | nz_vec j x : no_zero_vec x -> ~ zero_sized x -> no_zero_vec (XVec j x)
  | nz_unary o x : no_zero_vec x -> no_zero_vec (XUnary o x)
  | nz_binary o x y : no_zero_vec x -> no_zero_vec y -> no_zero_vec (XBinary o x y)
  | nz_set j xs : Forall no_zero_vec xs -> no_zero_vec (XSet j xs)
  | nz_hashel n v : no_zero_vec n -> no_zero_vec v -> no_zero_vec (XHashEl n v)
  | nz_pool p : no_zero_vec (XPool p)
  | nz_lot l : no_zero_vec (XLot l).

  Definition heap_no_zero_vec : Prop :=
    (forall Pl x, In Pl (pools h) -> In (Some x) (weak_pool Pl) -> no_zero_vec x) /\
    (forall Lo x, In Lo (lots h) -> In x (lot_members Lo) -> no_zero_vec x).
End ZeroVec.
