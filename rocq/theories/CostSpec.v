(** Vocabulary for the number of calls made by a size query. *)
From Verif Require Import Base Stamps Cost.

Section CostSpec.
  Context {B : Type}.

  (** Both size queries of [x] answer, with so many calls each. *)
  Definition answers (h : heap B) (x : sx B) (mn n mx N : Z) : Prop :=
    minSize_counted h x = (Ok mn, n) /\ maxSize_counted h x = (Ok mx, N).

  (** [d] enumerators around one another, the innermost over [x]. *)
  Fixpoint enumerators (join : list bytes -> bytes) (d : nat) (x : sx B) : sx B :=
    match d with O => x | S d' => XVec join (enumerators join d' x) end.

  (** [d] galley sets of one stamp around one another, the innermost over [x]. *)
  Fixpoint boxes (join : list bytes -> bytes) (d : nat) (x : sx B) : sx B :=
    match d with O => x | S d' => XSet join [boxes join d' x] end.

  (** How many galleys (enumerators, binary operators, sets that are not empty) lie around one another
      at most; what is behind a pool or lottery does not count. *)
  Fixpoint levels (x : sx B) : nat :=
    match x with
    | XLeaf _ _ _ | XPool _ | XLot _ => 0
    | XVec _ y => S (levels y)
    | XUnary _ y => levels y
    | XBinary _ y1 y2 => S (Nat.max (levels y1) (levels y2))
    | XSet _ [] => 0
    | XSet _ ys => S (list_max (map levels ys))
    | XHashEl n v => Nat.max (levels n) (levels v)
    end.

  (** The stamps an expression is made of, one in [d] others counted 5^d times; what is behind a pool
      or lottery does not count. *)
  Fixpoint weight (x : sx B) : Z :=
    match x with
    | XLeaf _ _ _ | XPool _ | XLot _ => 1
    | XVec _ y | XUnary _ y => 1 + 5 * weight y
    | XBinary _ y1 y2 | XHashEl y1 y2 => 1 + 5 * (weight y1 + weight y2)
    | XSet _ ys => 1 + 5 * fold_right Z.add 0 (map weight ys)
    end.

  (** Pool [p] of the heap has at most [k] members, each of weight at most [w]. *)
  Definition roomy (h : heap B) (k w : Z) : Prop :=
    forall p P, nth_error (pools h) p = Some P ->
      zlen (weak_pool P) <= k /\ forall y, In (Some y) (weak_pool P) -> weight y <= w.

  (** [n] pools, each of which has all of them as members. *)
  Definition clique (n : nat) : heap B :=
    mkHeap (repeat (mkPool (map (fun p => Some (XPool p)) (seq 0 n)) false false) n) [].
End CostSpec.

(** A part of a set: its two sizes, each with the calls it takes. *)
Record part : Type := mkPart { p_min : Z; p_min_calls : Z; p_max : Z; p_max_calls : Z }.

(** The parts up to the first unbounded one, that one included. *)
Fixpoint asked_parts (l : list part) : list part :=
  match l with
  | [] => []
  | p :: r => p :: if p_max p =? -1 then [] else asked_parts r
  end.

(** The number of simple paths in a clique, as a recurrence: the calls made when [m] of the [n] pools
    are not being asked yet, besides the one asked now. *)
Fixpoint clique_calls (n m : nat) : Z :=
  match m with
  | O => 1 + Z.of_nat n
  | S m' => 1 + (Z.of_nat n - Z.of_nat m) + Z.of_nat m * clique_calls n m'
  end.
