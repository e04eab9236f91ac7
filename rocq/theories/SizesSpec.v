(** What minSize() and maxSize() of stamps made of other stamps are (C61). *)
From Verif Require Import Base Blob Stamps VectorSpec SetSpec LotSpec.

(** The oracles a GalleyVector needs besides one element: none for elements of fixed size, the oracle of the
    number of elements and one of a size if elements are unbounded, one of a size otherwise. *)
Definition vec_oracles (s : Z * Z) : Z := if snd s =? fst s then 0 else if snd s =? -1 then 4 else 2.

(** maxSize() of a set or, by addition, of its members: unbounded as soon as one is. *)
Definition max_total (L : list (Z * Z)) : Z := if 0 <? count unb L then -1 else sum (map snd L) + 2 * count var L.
(** maxSize() of a pool: unbounded as soon as a member is, else that of the biggest and the oracle. *)
Definition pool_max (L : list (Z * Z)) (m : Z) : Prop :=
  (0 < count unb L /\ m = -1) \/ (count unb L = 0 /\ exists g, is_greatest g (map snd L) /\ m = g + 2).

Section Sized.
  Context (h : heap blob).

  (** [x], met inside the pools [up], has the sizes (minSize(), maxSize()).  No pool is inside itself, all
      members are alive, all sums are [int]s. *)
  Inductive sized : list nat -> sx blob -> Z * Z -> Prop :=
  | z_leaf up mn mx ex : sized up (XLeaf mn mx ex) (mn, mx)
  | z_vec up j x s : sized up x s -> 0 <= fst s -> fst s + vec_oracles s < 2 ^ 31 ->
      sized up (XVec j x) (fst s + vec_oracles s, -1)
  | z_unary up op x s : sized up x s -> sized up (XUnary op x) (fst s, -1)
  | z_binary up op x y sx sy : sized up x sx -> sized up y sy -> set_ok [sx; sy] ->
      sized up (XBinary op x y) (min_total [sx; sy], -1)
  | z_set up j xs L : Forall2 (sized up) xs L -> set_ok L ->
      sum (map snd (filter (fun s => negb (unb s)) L)) + 2 * count var L < 2 ^ 31 ->
      sized up (XSet j xs) (min_total L, max_total L)
  | z_hashel up n v sn sv : sized up n sn -> sized up v sv -> - 2 ^ 31 <= fst sn + fst sv < 2 ^ 31 ->
      sized up (XHashEl n v) (fst sn + fst sv, -1)
  | z_pool up p P ys L m mx : nth_error (pools h) p = Some P -> weak_pool P = map Some ys -> is_in_recursion P = false ->
      is_recursive P = false -> ~ In p up -> Forall2 (sized (p :: up)) ys L -> Forall pool_sane L ->
      is_least m (map fst L) -> m < 2 ^ 30 - 1 -> pool_max L mx -> mx < 2 ^ 31 ->
      sized up (XPool p) (m + 2, mx)
  | z_lot up l L recorded m g w : nth_error (lots h) l = Some L -> built L recorded ->
      Forall (fun s => 0 <= fst s /\ 0 <= snd s) recorded -> is_least m (map fst recorded) -> is_greatest g (map snd recorded) ->
      is_width (zlen recorded) w -> m + 8 < 2 ^ 31 -> g + 8 < 2 ^ 31 -> Forall (fun s => fst s < 2 ^ 31) recorded ->
      sized up (XLot l) (m + w, g + w).
End Sized.
