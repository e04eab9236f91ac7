(** Decimal floating-point texts and the real numbers they denote. *)
From Coq Require Export Reals.
From Verif Require Import Base ArithSpec.
Local Open Scope Z_scope.

(** One or more digits, with their value. *)
Definition digit_string (s : bytes) (n : Z) : Prop := s <> [] /\ read_digits 0 s = Some n.

(** Natural number without superfluous zeros, optionally a point and decimal places. *)
Inductive mantissa : bytes -> R -> Prop :=
| mant_int s n : read_nat s = Some n -> mantissa s (IZR n)
| mant_frac s n f k : read_nat s = Some n -> digit_string f k ->
    mantissa (s ++ lit "." ++ f) (IZR n + IZR k * powerRZ 10 (- zlen f)).

(** ... optionally followed by a signed exponent of ten. *)
Inductive magnitude : bytes -> R -> Prop :=
| mag_plain s x : mantissa s x -> magnitude s x
| mag_up s x t k : mantissa s x -> digit_string t k -> magnitude (s ++ lit "e+" ++ t) (x * powerRZ 10 k)
| mag_down s x t k : mantissa s x -> digit_string t k ->
    magnitude (s ++ lit "e-" ++ t) (x * powerRZ 10 (- k)).

(** Number text with a minus sign exactly if [neg]. *)
Definition number_text (neg : bool) (s : bytes) (x : R) : Prop :=
  if neg then exists t, s = lit "-" ++ t /\ magnitude t (- x) else magnitude s x.
