(** Text conversions of libstdc++/glibc used by include/blobstamper/helpers.h:31-98:
    decimal integers and the "%.999g" conversion of doubles. *)
From Verif Require Import Base.

(** One decimal digit, [d] in 0..9. std::to_string and "%d", include/blobstamper/helpers.h:32-69. *)
Definition digit (d : Z) : byte := byte_of_Z (48 + d).

(** Decimal digits of z >= 0, most significant first, no leading zeros; [acc] holds the digits
    already produced. [fuel] bounds their number. std::to_string and "%d",
    include/blobstamper/helpers.h:32-69. *)
Fixpoint digits_acc (fuel : nat) (z : Z) (acc : list Z) : list Z :=
  match fuel with
  | O => acc
  | S f => if z <? 10 then z :: acc else digits_acc f (z / 10) (z mod 10 :: acc)
  end.

(** Digits of z >= 0; the number of binary digits bounds the number of decimal ones. std::to_string
    and "%d", include/blobstamper/helpers.h:32-69. *)
Definition digits (z : Z) : list Z := digits_acc (S (Z.to_nat (Z.log2 z))) z [].

(** Conversion "%d"/"%ld"/"%lu"/... and std::to_string of the standard integer types.
    include/blobstamper/helpers.h:32-69. *)
Definition fmt_int (z : Z) : bytes :=
  if z <? 0 then byte_of_Z 45 :: map digit (digits (- z)) else map digit (digits z).

(** Removal of trailing zeros: "%g" without the # flag. include/blobstamper/helpers.h:73-98. *)
Fixpoint strip0 (l : list Z) : list Z :=
  match l with
  | [] => []
  | d :: r => match strip0 r with
              | [] => if d =? 0 then [] else [d]
              | s => d :: s
              end
  end.

(** Leading zeros of "%g", include/blobstamper/helpers.h:73-98. *)
Definition zeros (n : Z) : list Z := repeat 0 (Z.to_nat n).

(** Decimal point and fraction digits; nothing if there are none.
    include/blobstamper/helpers.h:73-98. *)
Definition frac_part (l : list Z) : bytes :=
  match l with [] => [] | _ => lit "." ++ map digit l end.

(** Exponent part of "%e": at least two digits. include/blobstamper/helpers.h:73-98. *)
Definition fmt_exp (x : Z) : bytes :=
  lit "e" ++ (if x <? 0 then lit "-" else lit "+")
          ++ (if Z.abs x <? 10 then lit "0" else []) ++ map digit (digits (Z.abs x)).

(** "%.Pg" of the positive number m * 2^e. The decimal expansion of such a number is finite: m * 2^e
    = D / 10^k. With X the exponent of its leading digit, C11 7.21.6.1 selects style f if P > X >=
    -4 and style e otherwise, trailing zeros removed. Rounding to P digits is not modelled: [None]
    when the expansion has more than P significant digits (proved to be impossible for float and
    double and P = 999). include/blobstamper/helpers.h:73-98. *)
Definition fmt_g_pos (P : Z) (m e : Z) : option bytes :=
  let k := if 0 <=? e then 0 else - e in
  let D := if 0 <=? e then m * 2 ^ e else m * 5 ^ (- e) in
  let ds := digits D in
  let X := zlen ds - 1 - k in
  let sig := strip0 ds in
  if P <? zlen sig then None
  else if (X <? P) && (-4 <=? X) then
    if 0 <=? X
    then Some (map digit (firstn (Z.to_nat (X + 1)) (sig ++ zeros (X + 1 - zlen sig)))
               ++ frac_part (skipn (Z.to_nat (X + 1)) sig))
    else Some (lit "0" ++ frac_part (zeros (- X - 1) ++ sig))
  else Some (map digit (firstn 1 sig) ++ frac_part (skipn 1 sig) ++ fmt_exp X).

(** Decoded floating point datum: sign and m * 2^e, infinity or NaN. The values of float and double,
    include/blobstamper/helpers.h:73-89. *)
Inductive fpval : Type :=
| FpFinite (neg : bool) (m e : Z)
| FpInf (neg : bool)
| FpNan (neg : bool).

(** IEEE-754 interchange format with [ew] exponent bits and [mw] fraction bits. The values of float
    and double, include/blobstamper/helpers.h:73-89. *)
Definition fp_decode (mw ew : Z) (bits : Z) : fpval :=
  let neg := Z.odd (bits / 2 ^ (mw + ew)) in
  let ex := (bits / 2 ^ mw) mod 2 ^ ew in
  let fr := bits mod 2 ^ mw in
  let bias := 2 ^ (ew - 1) - 1 in
  if ex =? 2 ^ ew - 1 then (if fr =? 0 then FpInf neg else FpNan neg)
  else if ex =? 0 then FpFinite neg fr (1 - bias - mw)
  else FpFinite neg (fr + 2 ^ mw) (ex - bias - mw).

(** "%.Pg" including sign, zero, infinities and NaN (glibc prints the sign bit of a NaN).
    include/blobstamper/helpers.h:73-98. *)
Definition fmt_g (P : Z) (v : fpval) : option bytes :=
  let sgn (neg : bool) := if neg then lit "-" else [] in
  match v with
  | FpInf neg => Some (sgn neg ++ lit "inf")
  | FpNan neg => Some (sgn neg ++ lit "nan")
  | FpFinite neg m e =>
      if m =? 0 then Some (sgn neg ++ lit "0")
      else match fmt_g_pos P m e with
           | Some s => Some (sgn neg ++ s)
           | None => None
           end
  end.

(** libstdc++ ext/string_conversions.h, __to_xstring: vsnprintf into a buffer of [n] bytes, then
    std::string(buf, buf + len) with the *untruncated* length [len]; reading past the buffer when
    len > n is undefined. *)
Definition to_xstring (n : Z) (text : bytes) : res bytes :=
  if zlen text <? n then Ok text
  else if zlen text =? n then Ok (firstn (Z.to_nat (n - 1)) text ++ [x00])
  else UB.
