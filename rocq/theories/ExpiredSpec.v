(** Stamps that rest on a destroyed one (C63). *)
From Verif Require Import Base Blob Stamps.

Section Spoilt.
  Context (h : heap blob).

  (** [x], met inside the pools [up], is or needs the size of a pool one of whose members has been destroyed.
      Lotteries are not concerned: they have stored their sizes (for lotteries with a destroyed member see C72). *)
  Inductive spoilt : list nat -> sx blob -> Prop :=
  | sp_here up p P : nth_error (pools h) p = Some P -> is_in_recursion P = false -> ~ In p up -> In None (weak_pool P) ->
      spoilt up (XPool p)
  | sp_pool up p P y : nth_error (pools h) p = Some P -> is_in_recursion P = false -> ~ In p up -> In (Some y) (weak_pool P) ->
      spoilt (p :: up) y -> spoilt up (XPool p)
  | sp_vec up j x : spoilt up x -> spoilt up (XVec j x)
  | sp_unary up op x : spoilt up x -> spoilt up (XUnary op x)
  | sp_left up op x y : spoilt up x -> spoilt up (XBinary op x y)
  | sp_right up op x y : spoilt up y -> spoilt up (XBinary op x y)
  | sp_set up j xs y : In y xs -> spoilt up y -> spoilt up (XSet j xs)
  | sp_name up n v : spoilt up n -> spoilt up (XHashEl n v)
  | sp_value up n v : spoilt up v -> spoilt up (XHashEl n v).
End Spoilt.
