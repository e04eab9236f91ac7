(** GalleyVector over unbounded stamps without limits on the number of parts and the size (C19). *)
From Verif Require Import Base VectorSpec.

(** The number of parts: the count oracle's share of all possible parts, rounded up, as a 16 bit number. *)
Definition part_count (mn size o : Z) : Z := Z.min (parts mn size) ((parts mn size * o / 65535 + 1) mod 65536).

(** [size] differs from the share min + var * o / total by less than 2 plus a millionth of the share. *)
Definition roughly_share (mn var total o size : Z) : Prop :=
  1000000 * Z.abs (size * total - (mn * total + var * o)) < 2000000 * total + (mn * total + var * o).
