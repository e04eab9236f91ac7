(** How many bytes a stamp needs (C66). *)
From Verif Require Import Base Blob BlobSpec RunSpec Stamps SetSpec LotSpec ContractSpec.

(** Below [k] bytes ExtractStr throws OutOfData. *)
Definition strict (k : Z) (ex : M blob bytes) : Prop :=
  forall b d, holds b d -> zlen d < k -> exists rest, runs ex b OutOfData rest.

(** From [k] bytes up it returns a string and takes exactly [k]. *)
Definition exact_take (k : Z) (ex : M blob bytes) : Prop :=
  forall b d, holds b d -> k <= zlen d -> exists v rest, runs ex b (Ok v) rest /\ zlen rest = zlen d - k.

(** [lo] is the smallest minSize() among the stamps [ys]. *)
Definition smallest (h : heap blob) (ys : list (sx blob)) (lo : Z) : Prop :=
  (exists y s, In y ys /\ report h y s /\ fst s = lo) /\ forall y s, In y ys -> report h y s -> lo <= fst s.

Section Needs.
  Context (h : heap blob).

  (** The stamp [x] needs [k] bytes.  An enumerator is content with its element's minimum (and the two bytes of
      the count, if the element is unbounded); an operator or a set needs the minima and the oracles (min_total); a pool or a
      lottery its oracle and the smallest minimum; a hash element its name and what the value needs. *)
  Inductive needs : sx blob -> Z -> Prop :=
  | n_leaf mn mx ex k : k <= mn -> strict k ex -> safe k ex -> needs (XLeaf mn mx ex) k
  | n_vec j x s : report h x s -> needs (XVec j x) (if snd s =? -1 then Z.max 2 (fst s) else fst s)
  | n_unary op x k : needs x k -> needs (XUnary op x) k
  | n_binary op x y L : Forall2 (report h) [x; y] L -> needs (XBinary op x y) (min_total L)
  | n_set j xs L : Forall2 (report h) xs L -> needs (XSet j xs) (min_total L)
  | n_hashel mn mx ex t v k : t <= mn -> strict t ex -> exact_take t ex -> needs v k -> 0 <= k ->
      needs (XHashEl (XLeaf mn mx ex) v) (t + k)
  | n_pool p ys m lo : pool_of h p ys -> smallest h ys lo -> minSize h (XPool p) = Ok m -> needs (XPool p) (2 + lo)
  | n_lot l L lo : nth_error (lots h) l = Some L -> smallest h (lot_members L) lo ->
      needs (XLot l) (oracle_size (lot_nums L) + lo).
End Needs.
