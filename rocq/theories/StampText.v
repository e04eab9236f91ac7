(** src/stamp_text.cpp, include/blobstamper/stamp_text.h, src/stamp_enumerator.cpp. *)
From Verif Require Import Base.

(** include/blobstamper/stamp_text.h:30-31 and 38-39. *)
Definition TextMinSize : Z := 1.
(** include/blobstamper/stamp_text.h:31 and 39. *)
Definition TextMaxSize : Z := -1.

(** '\0' becomes ' '. src/stamp_text.cpp:32 and 51. *)
Definition nul_to_space (c : byte) : byte := match c with x00 => x20 | _ => c end.

(** *iterator &= 0x7F. src/stamp_text.cpp:50. *)
Definition strip_high (c : byte) : byte := byte_of_Z (bval c mod 128).

(** src/stamp_text.cpp:21-37; maxSize() == -1 is converted to SIZE_MAX. *)
Definition Latin1ExtractStr {B} `{BlobOps B} : M B bytes :=
  b2 <- Chop2 (u64 TextMinSize) (u64 TextMaxSize) ;;
  v <- lift (AsByteVector b2) ;;
  ret (map nul_to_space v).

(** src/stamp_text.cpp:39-55. *)
Definition ASCIIExtractStr {B} `{BlobOps B} : M B bytes :=
  b2 <- Chop2 (u64 TextMinSize) (u64 TextMaxSize) ;;
  v <- lift (AsByteVector b2) ;;
  ret (map (fun c => nul_to_space (strip_high c)) v).

(** The joining loop of src/stamp_enumerator.cpp:31-38 and include/blobstamper/stamp_text.h:60-67:
    the separator is added when the text so far is not empty. *)
Definition join_step (sep : bytes) (r s : bytes) : bytes :=
  match r with [] => s | _ => r ++ sep ++ s end.

(** src/stamp_enumerator.cpp:29-38, include/blobstamper/stamp_text.h:58-67. *)
Definition join_loop (sep : bytes) (l : list bytes) : bytes := fold_left (join_step sep) l [].

(** src/stamp_enumerator.cpp:26-41, from the vector of element strings. *)
Definition enum_text (sep left right : bytes) (l : list bytes) : bytes :=
  left ++ join_loop sep l ++ right.

(** include/blobstamper/stamp_text.h:54-69, StampText<T>::ExtractStr from the element strings. *)
Definition text_text (l : list bytes) : bytes := join_loop (lit " ") l.
