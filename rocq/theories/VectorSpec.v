(** How a GalleyVector is supposed to cut its data (C17-C21). *)
From Verif Require Import Base Oracle.

(** The two bytes of an oracle, low byte first. *)
Definition le16 (o : Z) : bytes := [byte_of_Z (o mod 256); byte_of_Z (o / 256)].

(** A 16 bit oracle. *)
Definition oracle16 (o : Z) : Prop := 0 <= o <= 65535.

(** Variated elements: while min+2 bytes are left, an oracle [o] and a chunk of the size it asks for,
    or of all that is left. *)
Inductive variated_cut (mn mx : Z) : bytes -> list bytes -> bytes -> Prop :=
| vc_stop l : zlen l < mn + 2 -> variated_cut mn mx l [] l
| vc_cut o k c l cs rest : oracle16 o -> mn + 2 <= zlen (le16 o ++ c ++ l) ->
    OracleProportion o mn mx = Ok k -> zlen c = Z.min k (zlen (c ++ l)) ->
    variated_cut mn mx l cs rest -> variated_cut mn mx (le16 o ++ c ++ l) (c :: cs) rest.

(** Number of parts that fit into [size] bytes: every part takes a 2-byte oracle and [mn] bytes; 2 bytes
    are taken by the count oracle. *)
Definition parts (mn size : Z) : Z := (size - 2) / (mn + 2).

(** The oracles of a list of parts: all 1 if they are all 0. *)
Definition sum (os : list Z) : Z := fold_right Z.add 0 os.
Definition weights (os : list Z) : list Z := if sum os =? 0 then map (fun _ => 1) os else os.

(** [size] is less than 2 away from min + var * o / total. *)
Definition near_share (mn var total o size : Z) : Prop :=
  Z.abs ((size - mn) * total - var * o) < 2 * total.

(** Unbounded elements: count oracle [o], size oracles [os], chunks. *)
Definition unbounded_cut (mn : Z) (l : bytes) (o : Z) (os : list Z) (cs : list bytes) (rest : bytes) : Prop :=
  l = le16 o ++ concat (map le16 os) ++ concat cs ++ rest
  /\ oracle16 o /\ Forall oracle16 os
  /\ zlen os = Z.min (parts mn (zlen l)) (parts mn (zlen l) * o / 65535 + 1)
  /\ Forall2 (fun w c => mn <= zlen c
       /\ near_share mn (zlen l - 2 - (mn + 2) * zlen os) (sum (weights os)) w (zlen c)) (weights os) cs
  /\ zlen rest <= 1.
