(** Stamps that do their job whenever they are given minSize() bytes (C41). *)
From Verif Require Import Base Blob BlobSpec RunSpec Stamps VectorSpec SetSpec TermSpec LotSpec.

(** ExtractStr of a stamp that returns a string whenever it is given [mn] bytes or more. *)
Definition safe (mn : Z) (ex : M blob bytes) : Prop :=
  forall b d, holds b d -> mn <= zlen d -> exists v rest, runs ex b (Ok v) rest.

(** One that in addition never consumes more than its minSize(). *)
Definition thrifty (mn : Z) (ex : M blob bytes) : Prop :=
  forall b d, holds b d -> mn <= zlen d -> exists v rest, runs ex b (Ok v) rest /\ zlen d - mn <= zlen rest.

(** Sizes of elements over which a GalleyVector works on blobs of up to [N] bytes. *)
Definition element_ok (N : Z) (s : Z * Z) : Prop :=
  (0 < fst s /\ snd s = fst s)
  \/ (0 <= fst s < snd s /\ fst s + 2 < 2 ^ 31)
  \/ (0 <= fst s < 2 ^ 31 - 4 /\ snd s = -1 /\ N <= 2097152 /\ parts (fst s) N <= 32768).

Section Well.
  Context (h : heap blob) (N : Z).

  (** Stamps put together sensibly: user stamps are safe, vector elements within the limits, no variated
      stamps and at most two unbounded ones in a set. *)
  Inductive well : sx blob -> Prop :=
  | w_leaf mn mx ex : tame ex -> safe mn ex -> well (XLeaf mn mx ex)
  | w_vec j x s : well x -> report h x s -> fst s < 2 ^ 31 -> snd s < 2 ^ 31 -> element_ok N s -> well (XVec j x)
  | w_unary op x : well x -> well (XUnary op x)
  | w_binary op x y L : well x -> well y -> Forall2 (report h) [x; y] L -> set_ok L -> count var L = 0 -> well (XBinary op x y)
  | w_set j xs L : Forall well xs -> Forall2 (report h) xs L -> set_ok L -> zlen L <= 65536 -> count var L = 0 -> count unb L <= 2 ->
      well (XSet j xs)
  | w_hashel mn mx ex v s : tame ex -> thrifty mn ex -> well v -> report h v s -> 0 <= fst s -> well (XHashEl (XLeaf mn mx ex) v)
  | w_pool p : well (XPool p)
  | w_lot l : well (XLot l).

  (** A pool, a lottery of such stamps that does not promise to work with less than a member needs. *)
  Definition pool_well (p : nat) : Prop := exists ys cur, pool_of h p ys /\ Forall well ys /\ Forall2 (report h) ys cur
    /\ Forall pool_sane cur /\ zlen cur < 2 ^ 63 /\ forall m, minSize h (XPool p) = Ok m -> Exists (fun s => fst s + 2 <= m) cur.
  Definition lot_well (l : nat) : Prop := exists L rec cur, nth_error (lots h) l = Some L /\ built L rec /\ Forall well (lot_members L)
    /\ Forall2 (report h) (lot_members L) cur /\ Forall (sane (four_recursion L)) cur /\ zlen cur <= 2 ^ 53
    /\ forall m, minSize h (XLot l) = Ok m -> Exists (fun s => fst s + oracle_size (lot_nums L) <= m) cur.

  Definition graph_well : Prop :=
    (forall p, nth_error (pools h) p <> None -> pool_well p) /\ (forall l, nth_error (lots h) l <> None -> lot_well l).
End Well.
