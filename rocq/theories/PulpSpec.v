(** What the program of console_demo says (C58). *)
From Verif Require Import Base.

(** Printable ASCII characters. *)
Definition printable (c : byte) : Prop := 32 <= bval c <= 126.

(** What a program sees that reads [n] bytes of a file with contents [d] into a zeroed buffer. *)
Definition padded (d : bytes) (n : Z) (l : bytes) : Prop :=
  zlen l = n /\ forall i, 0 <= i < n ->
    nth_error l (Z.to_nat i) = if i <? zlen d then nth_error d (Z.to_nat i) else Some x00.
