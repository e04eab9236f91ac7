(** Outcomes, the extraction monad and the C++ integer conversions used by the code.

    Platform modelled: x86-64, GCC, little endian; [int] 32 bit, [size_t]/[long] 64 bit,
    [char] signed.  Conversions to a narrower signed type are modular (GCC behaviour), signed
    arithmetic overflow is undefined behaviour. *)
From Coq Require Export Strings.String.
From Coq Require Export ZArith List Lia Bool.
From Coq Require Export Init.Byte.
From Coq Require Strings.Byte.
Export ListNotations.
Global Open Scope list_scope.
Global Open Scope Z_scope.

(** ** Outcomes

    [Ok]        normal return;
    [OutOfData] the exception of include/blobstamper/blob.h:51-54;
    [UB]        the C++ program has undefined behaviour at this point;
    [Abort]     the process is terminated by abort()/exit()/an exception other than OutOfData;
    [Diverge]   the fuel of a loop or of a recursion is used up. *)
Inductive res (A : Type) : Type :=
| Ok (a : A)
| OutOfData
| UB
| Abort
| Diverge.
Arguments Ok {A} a.
Arguments OutOfData {A}.
Arguments UB {A}.
Arguments Abort {A}.
Arguments Diverge {A}.

(** A method taking a [shared_ptr<Blob>]: the blob is mutated also when an exception leaves. Model
    of every ExtractX(std::shared_ptr<Blob>) of include/blobstamper/stamp.h:59-120. *)
Definition M (B A : Type) : Type := B -> res A * B.

(** Sequencing, no code of its own: a return statement (e.g. src/stamp_math_op.cpp:25). *)
Definition ret {B A} (a : A) : M B A := fun b => (Ok a, b).

(** Sequencing, no code of its own: two statements in a row, the second not reached when an
    exception leaves the first (e.g. src/stamp_json.cpp:166-168). *)
Definition bind {B A C} (f : M B A) (g : A -> M B C) : M B C := fun b =>
  match f b with
  | (Ok a, b') => g a b'
  | (OutOfData, b') => (OutOfData, b')
  | (UB, b') => (UB, b')
  | (Abort, b') => (Abort, b')
  | (Diverge, b') => (Diverge, b')
  end.

(** The same for code that does not touch a blob (e.g. src/galley.cpp:202-216). *)
Definition rbind {A C} (r : res A) (g : A -> res C) : res C :=
  match r with
  | Ok a => g a
  | OutOfData => OutOfData
  | UB => UB
  | Abort => Abort
  | Diverge => Diverge
  end.

(** Code that does not touch the blob, used in code that does (e.g. src/galley.cpp:143-145). *)
Definition lift {B A} (r : res A) : M B A := fun b => (r, b).
(** Reading the blob without changing it (e.g. blob->Size() in src/galley.cpp:81). *)
Definition gets {B A} (f : B -> A) : M B A := fun b => (Ok (f b), b).

Notation "x <- f ;; g" := (bind f (fun x => g))
  (at level 61, f at next level, right associativity).
Notation "x <-- f ;; g" := (rbind f (fun x => g))
  (at level 61, f at next level, right associativity).

(** ** Bytes and strings: [std::string] and [std::vector<char>] are byte lists. src/blob.cpp:76-111,
    src/stamp_text.cpp:21-55. *)
Definition bytes : Type := list byte.

(** Unsigned value 0..255 of a byte. unsigned char of include/blobstamper/stamp_arithm.h:42-48,
    src/helpers.cpp:56. *)
Definition bval (b : byte) : Z := Z.of_N (Strings.Byte.to_N b).

(** Byte with a given value modulo 256. Conversion to char, src/stamp_text.cpp:50. *)
Definition byte_of_Z (z : Z) : byte :=
  match Strings.Byte.of_N (Z.to_N (z mod 256)) with Some b => b | None => x00 end.

(** String literals of the source. E.g. src/stamp_math_op.cpp:25 and 33, src/stamp_json.cpp:158 and
    168. *)
Definition lit (s : String.string) : bytes := String.list_byte_of_string s.
Arguments lit s%string.

(** Length as an integer. size() of vectors and strings, e.g. src/dict.cpp:22-26,
    src/stamp_json.cpp:99. *)
Definition zlen {A} (l : list A) : Z := Z.of_nat (length l).

(** ** C++ integer conversions. size_t fields and arguments: include/blobstamper/blob.h:33-46. *)
Definition u64 (z : Z) : Z := z mod 2 ^ 64.             (* to size_t / unsigned long *)
(** unsigned short of the oracles and counts: include/blobstamper/oracle.h:25,
    src/galley.cpp:119-122. *)
Definition u16 (z : Z) : Z := z mod 2 ^ 16.             (* to unsigned short *)
(** int variables: src/galley.cpp:143, 217-236; GCC defines the conversion as reduction modulo 2^32.
    *)
Definition i32 (z : Z) : Z := (z + 2 ^ 31) mod 2 ^ 32 - 2 ^ 31.  (* to int *)
(** Range of int, src/galley.cpp:143-145. *)
Definition in_i32 (z : Z) : bool := (- 2 ^ 31 <=? z) && (z <? 2 ^ 31).
(** INT_MAX of src/stamp_json.cpp:106 and include/blobstamper/stamp_lottery.h:77. *)
Definition int_max : Z := 2 ^ 31 - 1.

(** Result of signed [int] arithmetic: undefined when it does not fit. E.g. src/galley.cpp:131, 145,
    207; include/blobstamper/stamp_lottery.h:128 and 136. *)
Definition int_op (z : Z) : res Z := if in_i32 z then Ok z else UB.

(** The interface through which all stamps and galleys use a blob
    (include/blobstamper/blob.h:37-48; the other members are not used by library code). *)
Class BlobOps (B : Type) : Type := {
  Size : B -> Z;                       (* size_t Size() *)
  Chop : Z -> M B B;                   (* Chop(size_t) *)
  AsByteVector : B -> res bytes        (* AsByteVector() *)
}.

(** src/blob.cpp:63-74, Blob::Chop(size_t min_size, size_t max_size). *)
Definition Chop2 {B} `{BlobOps B} (min_size max_size : Z) : M B B := fun b =>
  if Size b <? min_size then (OutOfData, b)
  else if max_size <=? Size b then Chop max_size b
  else Chop (Size b) b.
