(** Locality: behaviour determined by the remaining bytes alone. *)
From Verif Require Import Base Blob BlobSpec Stamps.

(** [f] on two blobs with the same remaining bytes: same outcome, same bytes left. *)
Definition local {A} (f : M blob A) : Prop :=
  forall b1 b2, wf b1 -> wf b2 -> content b1 = content b2 ->
    fst (f b1) = fst (f b2) /\ content (snd (f b1)) = content (snd (f b2)).

(** The outcome of a function returning blobs, with these replaced by the bytes they hold. *)
Definition seen (r : res (list blob)) : res (list bytes) :=
  match r with
  | Ok cs => Ok (map content cs)
  | OutOfData => OutOfData
  | UB => UB
  | Abort => Abort
  | Diverge => Diverge
  end.

Definition local_chunks (f : M blob (list blob)) : Prop :=
  forall b1 b2, wf b1 -> wf b2 -> content b1 = content b2 ->
    seen (fst (f b1)) = seen (fst (f b2)) /\ content (snd (f b1)) = content (snd (f b2)).

(** Well behaved user code: local, and leaves a blob behind. *)
Definition good_leaf (ex : M blob bytes) : Prop := local ex /\ forall b, wf b -> wf (snd (ex b)).

(** All stamps at the leaves of an expression are so. *)
Inductive good_sx : sx blob -> Prop :=
| good_XLeaf mn mx ex : good_leaf ex -> good_sx (XLeaf mn mx ex)
| good_XVec j x : good_sx x -> good_sx (XVec j x)
| good_XUnary o x : good_sx x -> good_sx (XUnary o x)
| good_XBinary o x y : good_sx x -> good_sx y -> good_sx (XBinary o x y)
| good_XSet j xs : Forall good_sx xs -> good_sx (XSet j xs)
| good_XHashEl n v : good_sx n -> good_sx v -> good_sx (XHashEl n v)
| good_XPool p : good_sx (XPool p)
| good_XLot l : good_sx (XLot l).

Definition good_heap (h : heap blob) : Prop :=
  (forall P m x, In P (pools h) -> In m (weak_pool P) -> m = Some x -> good_sx x) /\
  (forall L x, In L (lots h) -> In x (lot_members L) -> good_sx x).
