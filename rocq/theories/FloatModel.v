(** The floating point operations of the code: IEEE-754 binary32 ([float]) and binary64
    ([double]), round to nearest even, evaluated in their own format (SSE, FLT_EVAL_METHOD = 0,
    no contraction to FMA).  The operations are Flocq's executable ones. *)
From Verif Require Import Base.
From Flocq Require Import Core.Core IEEE754.BinarySingleNaN.

(** float: src/oracle.cpp:23-36, src/galley.cpp:148-153. *)
Definition prec32 : Z := 24.
(** float: src/oracle.cpp:23-36, src/galley.cpp:148-153. *)
Definition emax32 : Z := 128.
(** double: src/galley.cpp:247-345, src/stamp_dict.cpp:78, include/blobstamper/stamp_lottery.h:203.
    *)
Definition prec64 : Z := 53.
(** double: src/galley.cpp:247-345, src/stamp_dict.cpp:78, include/blobstamper/stamp_lottery.h:203.
    *)
Definition emax64 : Z := 1024.

Lemma prec32_gt_0 : FLX.Prec_gt_0 prec32. Proof. reflexivity. Qed.
Lemma prec64_gt_0 : FLX.Prec_gt_0 prec64. Proof. reflexivity. Qed.
Lemma prec32_lt_emax : Prec_lt_emax prec32 emax32. Proof. reflexivity. Qed.
Lemma prec64_lt_emax : Prec_lt_emax prec64 emax64. Proof. reflexivity. Qed.
Global Existing Instances prec32_gt_0 prec64_gt_0 prec32_lt_emax prec64_lt_emax.

(** Values of type float in src/oracle.cpp:23-36 and src/galley.cpp:148-153. *)
Definition f32 : Type := binary_float prec32 emax32.
(** Values of type double in src/galley.cpp:247-345 and src/stamp_dict.cpp:78. *)
Definition f64 : Type := binary_float prec64 emax64.

(** Conversion of an integer to floating point (rounds to nearest even). src/oracle.cpp:34,
    src/galley.cpp:151-153. *)
Definition f32_of_Z (z : Z) : f32 :=
  binary_normalize prec32 emax32 prec32_gt_0 prec32_lt_emax mode_NE z 0 false.
(** src/galley.cpp:247, 271, 313-345; src/stamp_dict.cpp:78. *)
Definition f64_of_Z (z : Z) : f64 :=
  binary_normalize prec64 emax64 prec64_gt_0 prec64_lt_emax mode_NE z 0 false.

(** src/oracle.cpp:34, src/galley.cpp:151. *)
Definition f32_add (x y : f32) : f32 := Bplus mode_NE x y.
(** src/galley.cpp:153. *)
Definition f32_sub (x y : f32) : f32 := Bminus mode_NE x y.
(** src/oracle.cpp:34, src/galley.cpp:151. *)
Definition f32_mul (x y : f32) : f32 := Bmult mode_NE x y.
(** src/oracle.cpp:34, src/galley.cpp:151. *)
Definition f32_div (x y : f32) : f32 := Bdiv mode_NE x y.
(** src/galley.cpp:275, 278, 292, 335, 342. *)
Definition f64_add (x y : f64) : f64 := Bplus mode_NE x y.
(** src/galley.cpp:337, 344. *)
Definition f64_sub (x y : f64) : f64 := Bminus mode_NE x y.
(** src/galley.cpp:247, 278, 335, 342; src/stamp_dict.cpp:78. *)
Definition f64_mul (x y : f64) : f64 := Bmult mode_NE x y.
(** src/galley.cpp:247, 271, 313, 317; src/stamp_dict.cpp:78. *)
Definition f64_div (x y : f64) : f64 := Bdiv mode_NE x y.
(** src/galley.cpp:307. *)
Definition f64_lt (x y : f64) : bool := Bltb x y.      (* C++ operator<, false on NaN *)
(** src/galley.cpp:283. *)
Definition f64_eq (x y : f64) : bool := Beqb x y.      (* C++ operator==, false on NaN *)

(** Integer part functions; [None] for infinities and NaN. *)
Section IntegerPart.
  Context {prec emax : Z}.

  (** m * 2^e with the sign removed, as a fraction num/den with den = 2^k. Used for the conversions
      of src/galley.cpp:152, 247, 308, 336, 343. *)
  Definition fnum (m : positive) (e : Z) : Z := if 0 <=? e then Zpos m * 2 ^ e else Zpos m.
  (** Used for the conversions of src/galley.cpp:152, 247, 308, 336, 343. *)
  Definition fden (e : Z) : Z := if 0 <=? e then 1 else 2 ^ (- e).

  (** Truncation towards zero (conversion of a floating value to an integer type).
      src/galley.cpp:152, src/stamp_dict.cpp:78, include/blobstamper/stamp_lottery.h:203. *)
  Definition Btrunc_Z (x : binary_float prec emax) : option Z :=
    match x with
    | B754_zero _ => Some 0
    | B754_finite s m e _ => Some (cond_Zopp s (fnum m e / fden e))
    | _ => None
    end.

  (** floor(x). src/oracle.cpp:34. *)
  Definition Bfloor_Z (x : binary_float prec emax) : option Z :=
    match x with
    | B754_zero _ => Some 0
    | B754_finite s m e _ => Some (cond_Zopp s (fnum m e) / fden e)
    | _ => None
    end.

  (** round(x) of the C library: to nearest, halfway cases away from zero. src/galley.cpp:247, 308,
      336, 343. *)
  Definition Bround_Z (x : binary_float prec emax) : option Z :=
    match x with
    | B754_zero _ => Some 0
    | B754_finite s m e _ => Some (cond_Zopp s ((2 * fnum m e + fden e) / (2 * fden e)))
    | _ => None
    end.
End IntegerPart.

(** [int x = <floating expression>]: undefined if the integer part does not fit into [int].
    src/galley.cpp:152, 247, 308, 336, 343. *)
Definition to_int (z : option Z) : res Z :=
  match z with Some z => int_op z | None => UB end.

(** [size_t x = <floating expression>]. src/oracle.cpp:34. *)
Definition to_size (z : option Z) : res Z :=
  match z with
  | Some z => if (0 <=? z) && (z <? 2 ^ 64) then Ok z else UB
  | None => UB
  end.
