(** What a chunk of a stamp may be (C65): its size is between minSize() and maxSize(). *)
From Verif Require Import Base.

Definition within_sizes (s : Z * Z) (c : bytes) : Prop := fst s <= zlen c /\ (snd s <> -1 -> zlen c <= snd s).
