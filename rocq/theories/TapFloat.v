(** The comparison of floating point numbers of the test library: t/libtappp/include/tap++/tap++.h:161-218 and
    t/libtappp/src/tap++.cpp:9.  With <cmath> alone the unqualified fabs and fmin are those of double
    (tap++.h:6), so that for float only the difference is computed in float. *)
From Verif Require Import Base FloatModel.
From Flocq Require Import Core.Core IEEE754.BinarySingleNaN.

(** float to double: tap++.h:175-183, 191-196 (the arguments of nearly_equal<double>). *)
Definition f64_of_f32 (x : f32) : f64 :=
  match x with
  | B754_nan => B754_nan
  | B754_infinity s => B754_infinity s
  | B754_zero s => B754_zero s
  | B754_finite s m e _ => binary_normalize prec64 emax64 prec64_gt_0 prec64_lt_emax mode_NE (cond_Zopp s (Zpos m)) e s
  end.

(** tap++.cpp:9, 1.e-4: the double next to 1 / 10000. *)
Definition EPSILON : f64 := f64_div (f64_of_Z 1) (f64_of_Z 10000).

(** std::numeric_limits<T>::min() and max(): tap++.h:180-183. *)
Definition min64 : f64 := binary_normalize prec64 emax64 prec64_gt_0 prec64_lt_emax mode_NE 1 (-1022) false.
Definition max64 : f64 := binary_normalize prec64 emax64 prec64_gt_0 prec64_lt_emax mode_NE (2 ^ 53 - 1) 971 false.
Definition min32 : f64 := binary_normalize prec64 emax64 prec64_gt_0 prec64_lt_emax mode_NE 1 (-126) false.
Definition max32 : f64 := binary_normalize prec64 emax64 prec64_gt_0 prec64_lt_emax mode_NE (2 ^ 24 - 1) 104 false.

(** fmin: tap++.h:183. *)
Definition fmin (x y : f64) : f64 :=
  if is_nan x then y else if is_nan y then x else if f64_lt y x then y else x.

(** tap++.h:176-183, with the numbers of the type. *)
Definition near (eps tiny huge left right diff : f64) : bool :=
  f64_eq left right
  || (f64_eq left (B754_zero false) || f64_eq right (B754_zero false) || f64_lt diff tiny) && f64_lt diff (f64_mul eps tiny)
  || f64_lt (f64_div (f64_mul (f64_of_Z 2) diff) (fmin (f64_add (Babs left) (Babs right)) huge)) eps.

(** tap++.h:170-185 for double and for float; [eps] is the variable EPSILON. *)
Definition nearly_equal64 (eps left right : f64) : bool := near eps min64 max64 left right (Babs (f64_sub left right)).
Definition nearly_equal32 (eps : f64) (left right : f32) : bool :=
  near eps min32 max32 (f64_of_f32 left) (f64_of_f32 right) (f64_of_f32 (Babs (f32_sub left right))).
