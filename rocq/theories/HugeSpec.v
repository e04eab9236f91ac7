(** Data of 2 GiB and more (C77): the sizes that an [int] can hold. *)
From Verif Require Import Base VectorSpec SetSpec.

(** What a set makes of [n] bytes above its minimum: the number modulo 2^32, or nothing if that is 2^31 or more. *)
Definition counted (n : Z) : Z := if n mod 2 ^ 32 <? 2 ^ 31 then n mod 2 ^ 32 else 0.
