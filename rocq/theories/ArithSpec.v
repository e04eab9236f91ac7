(** Independent descriptions of integer objects in memory and of decimal numerals. *)
From Verif Require Import Base Arithm.

Definition int_type (t : arith) : Prop := t <> Float /\ t <> Double /\ t <> LDouble.

(** Number of bytes of an object, and whether the type has negative values (ABI of x86-64). *)
Definition width (t : arith) : Z :=
  match t with
  | Char => 1 | SChar => 1 | UChar => 1
  | Short => 2 | UShort => 2
  | Int => 4 | UInt => 4
  | Long => 8 | ULong => 8
  | LLong => 8 | ULLong => 8
  | Float => 4 | Double => 8 | LDouble => 16
  end.
Definition signed (t : arith) : bool :=
  match t with
  | Char | SChar | Short | Int | Long | LLong => true
  | UChar | UShort | UInt | ULong | ULLong => false
  | Float | Double | LDouble => false         (* as bit patterns *)
  end.

(** Values of the integer types. *)
Definition lowest (t : arith) : Z := if signed t then - 2 ^ (8 * width t - 1) else 0.
Definition highest (t : arith) : Z := 2 ^ (if signed t then 8 * width t - 1 else 8 * width t) - 1.

(** [l] is the little-endian two's complement representation of [v]: bit k of v is bit k mod 8 of
    byte k/8; beyond the last byte the bits of a signed value repeat the sign bit, those of an
    unsigned value are zero. *)
Definition represents (t : arith) (v : Z) (l : bytes) : Prop :=
  zlen l = width t /\
  (forall k, 0 <= k < 8 * width t ->
     exists c, nth_error l (Z.to_nat (k / 8)) = Some c /\ Z.testbit v k = Z.testbit (bval c) (k mod 8)) /\
  (forall k, 8 * width t <= k ->
     Z.testbit v k = signed t && Z.testbit v (8 * width t - 1)).

(** Reading decimal numerals. *)
Definition digit_of (c : byte) : option Z :=
  if (48 <=? bval c) && (bval c <=? 57) then Some (bval c - 48) else None.

Fixpoint read_digits (acc : Z) (s : bytes) : option Z :=
  match s with
  | [] => Some acc
  | c :: r => match digit_of c with Some d => read_digits (10 * acc + d) r | None => None end
  end.

(** Natural number: "0" or digits not starting with 0. *)
Definition read_nat (s : bytes) : option Z :=
  match s with
  | [] => None
  | c :: r => if (bval c =? 48) && negb (match r with [] => true | _ => false end) then None
              else read_digits 0 s
  end.

(** Integer: a natural number, or a minus sign and a positive number. *)
Definition read_int (s : bytes) : option Z :=
  match s with
  | c :: r => if bval c =? 45
              then match read_nat r with
                   | Some n => if n =? 0 then None else Some (- n)
                   | None => None
                   end
              else read_nat s
  | [] => None
  end.
