(** Stamps that keep to their maxSize() (C47). *)
From Verif Require Import Base Blob BlobSpec RunSpec Stamps VectorSpec SetSpec TermSpec LotSpec.

(** Whenever [ex] returns a string it has consumed [mx] bytes at most. *)
Definition within (mx : Z) (ex : M blob bytes) : Prop :=
  forall b d v rest, holds b d -> runs ex b (Ok v) rest -> zlen d - zlen rest <= mx.

Section Modest.
  Context (h : heap blob).

  (** User stamps that keep to their own maxSize(), unless it is -1; sets within the limits of C22-C26. *)
  Inductive modest : sx blob -> Prop :=
  | m_leaf mn mx ex : tame ex -> -1 <= mx < 2 ^ 31 -> (mx <> -1 -> within mx ex) -> modest (XLeaf mn mx ex)
  | m_vec j x : modest x -> modest (XVec j x)
  | m_unary op x : modest x -> modest (XUnary op x)
  | m_binary op x y : modest x -> modest y -> modest (XBinary op x y)
  | m_set j xs L : Forall modest xs -> Forall2 (report h) xs L -> set_ok L -> zlen L <= 65536 ->
      (count unb L = 0 -> sum (map snd L) + 2 * count var L < 2 ^ 31) -> modest (XSet j xs)
  | m_hashel n v : modest n -> modest v -> modest (XHashEl n v)
  | m_pool p : modest (XPool p)
  | m_lot l : modest (XLot l).

  (** A lottery whose maxSize(), if not -1, leaves room for its oracle and any of its members. *)
  Definition honest (l : nat) (L : lottery blob) : Prop :=
    forall m, maxSize h (XLot l) = Ok m -> m <> -1 -> forall y, In y (lot_members L) ->
      exists k, maxSize h y = Ok k /\ 0 <= k /\ k + oracle_size (lot_nums L) <= m.

  Definition graph_modest : Prop :=
    (forall P y, In P (pools h) -> In (Some y) (weak_pool P) -> modest y /\ forall k, maxSize h y = Ok k -> -1 <= k)
    /\ (forall l L, nth_error (lots h) l = Some L -> Forall modest (lot_members L) /\ honest l L).
End Modest.
