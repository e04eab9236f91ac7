(** include/blobstamper/stamp_arithm.h, to_string_precise of include/blobstamper/helpers.h and the
    value stamps of include/blobstamper/stamp.h:75-120. *)
From Verif Require Import Base Fmt.

(** The types T for which StampArithm<T> is used or usable.
    include/blobstamper/stamp_arithm.h:26-48, include/blobstamper/helpers.h:32-98. *)
Inductive arith : Type :=
| Char | SChar | UChar | Short | UShort | Int | UInt | Long | ULong | LLong | ULLong
| Float | Double | LDouble.

(** sizeof(T) on x86-64 SysV. include/blobstamper/stamp_arithm.h:29-30. *)
Definition sizeof (t : arith) : Z :=
  match t with
  | Char | SChar | UChar => 1
  | Short | UShort => 2
  | Int | UInt | Float => 4
  | Long | ULong | LLong | ULLong | Double => 8
  | LDouble => 16
  end.

(** Template argument of include/blobstamper/stamp_arithm.h:26-48. *)
Definition is_signed (t : arith) : bool :=
  match t with Char | SChar | Short | Int | Long | LLong => true | _ => false end.

(** Memory representation: little endian. The cast of include/blobstamper/stamp_arithm.h:46-47. *)
Fixpoint le_decode (l : bytes) : Z :=
  match l with [] => 0 | b :: r => bval b + 256 * le_decode r end.

(** The object representation copied in include/blobstamper/stamp.h:108 and 118. *)
Fixpoint le_encode (n : nat) (z : Z) : bytes :=
  match n with O => [] | S n' => byte_of_Z z :: le_encode n' (z / 256) end.

(** Value of an object of type T from its bytes: two's complement for the signed integer types; for
    the floating types the value is kept as its bit pattern. The cast of
    include/blobstamper/stamp_arithm.h:46-47. *)
Definition decode (t : arith) (l : bytes) : Z :=
  let n := 8 * sizeof t in
  let u := le_decode l in
  if is_signed t && (2 ^ (n - 1) <=? u) then u - 2 ^ n else u.

(** Bytes of an object of type T with the given value. include/blobstamper/stamp.h:108 and 118. *)
Definition encode (t : arith) (v : Z) : bytes := le_encode (Z.to_nat (sizeof t)) v.

(** include/blobstamper/stamp_arithm.h:42-48, StampArithm<T>::ExtractValue. *)
Definition ExtractValue {B} `{BlobOps B} (t : arith) : M B Z :=
  b2 <- Chop (sizeof t) ;;
  v <- lift (AsByteVector b2) ;;
  ret (decode t v).

(** include/blobstamper/stamp.h:113-120, StampBaseV<T>::ExtractBin. *)
Definition ArithExtractBin {B} `{BlobOps B} (t : arith) : M B bytes :=
  v <- ExtractValue t ;; ret (encode t v).

(** include/blobstamper/stamp.h:104-111, StampBaseV<T>::ExtractPValue: the bytes of the malloc'ed
    object and the recorded size.  Ownership is modelled separately (OwnedPtr.v). *)
Definition ArithExtractPValue {B} `{BlobOps B} (t : arith) : M B (bytes * Z) :=
  v <- ExtractValue t ;; ret (encode t v, sizeof t).

(** include/blobstamper/stamp.h:83-91, StampBasePV<T>::ExtractBin from a sized_ptr. *)
Definition PVExtractBin {B} (pv : M B (bytes * Z)) : M B bytes :=
  p <- pv ;; ret (firstn (Z.to_nat (snd p)) (fst p)).

(** include/blobstamper/helpers.h:31-98.  Overload resolution: unsigned char, short and unsigned
    short promote to int.  float is passed to vsnprintf as double (exact).  For long double the
    format lacks the L modifier: undefined.  Buffer sizes: 4; __max_exponent10 + 999 + 20. *)
Definition to_string_precise (t : arith) (v : Z) : res bytes :=
  match t with
  | Char | SChar => to_xstring 4 (fmt_int v)
  | UChar | Short | UShort | Int | UInt | Long | ULong | LLong | ULLong => Ok (fmt_int v)
  | Float => match fmt_g 999 (fp_decode 23 8 v) with
             | Some s => to_xstring (38 + 999 + 20) s
             | None => UB
             end
  | Double => match fmt_g 999 (fp_decode 52 11 v) with
              | Some s => to_xstring (308 + 999 + 20) s
              | None => UB
              end
  | LDouble => UB
  end.

(** include/blobstamper/stamp_arithm.h:35-40, StampArithm<T>::ExtractStr. *)
Definition ArithExtractStr {B} `{BlobOps B} (t : arith) : M B bytes :=
  v <- ExtractValue t ;; lift (to_string_precise t v).

(** ORACLE_STAMP::ExtractValue (include/blobstamper/oracle.h:25-26). *)
Definition GetOracle {B} `{BlobOps B} : M B Z := ExtractValue UShort.
