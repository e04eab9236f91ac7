(** What a size query may do to the heap of pools and lotteries (C33). *)
From Verif Require Import Base Stamps.

Section Spec.
  Context {B : Type}.

  (** Same members, same in-recursion mark; the cached recursion flag may have been set. *)
  Definition same_but_cache (P P' : pool B) : Prop :=
    weak_pool P' = weak_pool P /\ is_in_recursion P' = is_in_recursion P
    /\ (is_recursive P = true -> is_recursive P' = true).

  Definition heap_kept (h h' : heap B) : Prop :=
    Forall2 same_but_cache (pools h) (pools h') /\ lots h' = lots h.
End Spec.

Section Reach.
  Context {B : Type}.

  (** Pool [p] has pool [q] itself as a member. *)
  Definition pool_edge (h : heap B) (p q : nat) : Prop :=
    exists P, nth_error (pools h) p = Some P /\ In (Some (XPool q)) (weak_pool P).

  (** [q] is [p] or a member of a member ... of [p], all of them pools. *)
  Inductive pool_reach (h : heap B) : nat -> nat -> Prop :=
  | reach_refl p : pool_reach h p p
  | reach_step p q r : pool_edge h p q -> pool_reach h q r -> pool_reach h p r.

  Definition on_pool_cycle (h : heap B) (p : nat) : Prop :=
    exists q, pool_edge h p q /\ pool_reach h q p.

  (** Every pool pointer of every pool points to a live pool, no weak pointer is expired. *)
  Definition no_dangling (h : heap B) : Prop :=
    forall P m, In P (pools h) -> In m (weak_pool P) ->
      exists x, m = Some x /\ forall q, x = XPool q -> nth_error (pools h) q <> None.

  (** Between calls no pool is marked as being in recursion. *)
  Definition at_rest (h : heap B) : Prop := forall P, In P (pools h) -> is_in_recursion P = false.
End Reach.

(** The sizes reported by the leaves are C++ ints. *)
Definition is_int (z : Z) : Prop := - 2 ^ 31 <= z < 2 ^ 31.

Inductive int_sx {B} : sx B -> Prop :=
| int_XLeaf mn mx ex : is_int mn -> is_int mx -> int_sx (XLeaf mn mx ex)
| int_XVec j x : int_sx x -> int_sx (XVec j x)
| int_XUnary o x : int_sx x -> int_sx (XUnary o x)
| int_XBinary o x y : int_sx x -> int_sx y -> int_sx (XBinary o x y)
| int_XSet j xs : Forall int_sx xs -> int_sx (XSet j xs)
| int_XHashEl n v : int_sx n -> int_sx v -> int_sx (XHashEl n v)
| int_XPool p : int_sx (XPool p)
| int_XLot l : int_sx (XLot l).

Definition int_members {B} (P : pool B) : Prop := forall x, In (Some x) (weak_pool P) -> int_sx x.
