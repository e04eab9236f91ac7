(** t/test-chars-stamps.h: the stamps that the project's own tests are written with. *)
From Verif Require Import Base Blob StampText Galley Pulp.

(** t/test-chars-stamps.h:26-27, sizes of StampTwoChars. *)
Definition TwoCharsSize : Z := 2.
(** t/test-chars-stamps.h:54, StampSeveralChars::minSize. *)
Definition SeveralCharsMinSize : Z := 2.
(** t/test-chars-stamps.h:55, StampSeveralChars::maxSize. *)
Definition SeveralCharsMaxSize : Z := 8.

Section TestStamps.
  Context {B : Type} `{BlobOps B}.

  (** t/test-chars-stamps.h:31-48 and 59-74: the bytes are copied, a NUL is put after them, and a string is
      made of the buffer up to the first NUL.  Allocation failure is not modelled. *)
  Definition CharsExtractStr (mn mx : Z) : M B bytes :=
    b2 <- Chop2 (u64 mn) (u64 mx) ;;
    v <- lift (AsByteVector b2) ;;
    ret (c_str v).
  (** t/test-chars-stamps.h:31-48, StampTwoChars::ExtractStr. *)
  Definition TwoCharsExtractStr : M B bytes := CharsExtractStr TwoCharsSize TwoCharsSize.
  (** t/test-chars-stamps.h:59-74, StampSeveralChars::ExtractStr. *)
  Definition SeveralCharsExtractStr : M B bytes := CharsExtractStr SeveralCharsMinSize SeveralCharsMaxSize.

  (** t/test-chars-stamps.h:86. *)
  Definition TwoCharsListMinSize : Z := TwoCharsSize.
  (** t/test-chars-stamps.h:87. *)
  Definition TwoCharsListMaxSize : Z := -1.
  (** t/test-chars-stamps.h:90-104, StampTwoCharsList::ExtractStr; the loop is that of an enumerator. *)
  Definition TwoCharsListExtractStr : M B bytes :=
    l <- ExtractVector TwoCharsSize TwoCharsSize TwoCharsExtractStr ;;
    ret (lit "(" ++ join_loop (lit ", ") l ++ lit ")").
End TestStamps.
