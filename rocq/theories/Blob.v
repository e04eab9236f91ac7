(** src/blob.cpp, include/blobstamper/blob.h: the Blob class. *)
From Verif Require Import Base.

(** include/blobstamper/blob.h:30-35.  [mem] is the array object the [char *data] pointer points
    into, [data] the position of the pointer in it ([None]: null pointer); the library never writes
    through it, so the array is part of the value.  [bbegin], [bend] are [size_t]. *)
Record blob : Type := mkBlob {
  mem : bytes;
  data : option Z;
  bbegin : Z;
  bend : Z
}.

(** src/blob.cpp:27-32, Blob::Blob(char *, size_t): end = size - 1, modulo 2^64. *)
Definition newBlob (m : bytes) (data_in : option Z) (size_in : Z) : blob :=
  mkBlob m data_in 0 (u64 (size_in - 1)).

(** src/blob.cpp:34-39, Blob::isEmpty. *)
Definition isEmpty (b : blob) : bool :=
  match data b with None => true | Some _ => false end.

(** src/blob.cpp:83-87, Blob::Size. *)
Definition blobSize (b : blob) : Z := u64 (bend b - bbegin b + 1).

(** Pointer arithmetic [p + k] inside the array [m]; leaving [0, length m] is undefined, and so is
    adding a non-zero offset to a null pointer. src/blob.cpp:45, 57, 79, 93, 101, 109. *)
Definition ptr_add (m : bytes) (p : option Z) (k : Z) : res (option Z) :=
  match p with
  | None => if k =? 0 then Ok None else UB
  | Some a => if (0 <=? a + k) && (a + k <=? zlen m) then Ok (Some (a + k)) else UB
  end.

(** The [n] bytes of the array from position [a]. src/blob.cpp:79, 93, 101, 109. *)
Definition slice (m : bytes) (a n : Z) : bytes := firstn (Z.to_nat n) (skipn (Z.to_nat a) m).

(** Reading the range [p, q). src/blob.cpp:79, 93, 101, 109. *)
Definition read_range (m : bytes) (p q : option Z) : res bytes :=
  match p, q with
  | None, None => Ok []
  | Some a, Some c =>
      if (0 <=? a) && (a <=? c) && (c <=? zlen m) then Ok (slice m a (c - a)) else UB
  | _, _ => UB
  end.

(** src/blob.cpp:49-61, Blob::Chop(size_t). *)
Definition blobChop (n : Z) : M blob blob := fun b =>
  if blobSize b <? n then (OutOfData, b)
  else match ptr_add (mem b) (data b) (bbegin b) with
       | Ok p => (Ok (newBlob (mem b) p n), mkBlob (mem b) (data b) (u64 (bbegin b + n)) (bend b))
       | _ => (UB, b)
       end.

(** src/blob.cpp:76-81, Blob::AsByteVector: the range [data + begin, data + end + 1). *)
Definition blobAsByteVector (b : blob) : res bytes :=
  p <-- ptr_add (mem b) (data b) (bbegin b) ;;
  q0 <-- ptr_add (mem b) (data b) (bend b) ;;
  q <-- ptr_add (mem b) q0 1 ;;
  read_range (mem b) p q.

(** src/blob.cpp:98-103, Blob::asVector: the range [data + begin, data + begin + Size()). *)
Definition asVector (b : blob) : res bytes :=
  p <-- ptr_add (mem b) (data b) (bbegin b) ;;
  q <-- ptr_add (mem b) p (blobSize b) ;;
  read_range (mem b) p q.

(** src/blob.cpp:106-111, Blob::asString: std::string(data + begin, Size()).  On a null pointer and
    a non-zero length the constructor throws std::logic_error ([Abort]). *)
Definition asString (b : blob) : res bytes :=
  p <-- ptr_add (mem b) (data b) (bbegin b) ;;
  match p with
  | None => if blobSize b =? 0 then Ok [] else Abort
  | Some _ => q <-- ptr_add (mem b) p (blobSize b) ;; read_range (mem b) p q
  end.

(** src/blob.cpp:89-96, Blob::DataDup: malloc'ed copy and its size.  Allocation failure is not
    modelled; memcpy from a null pointer is undefined. *)
Definition DataDup (b : blob) : res (bytes * Z) :=
  p <-- ptr_add (mem b) (data b) (bbegin b) ;;
  match p with
  | None => UB
  | Some _ =>
      q <-- ptr_add (mem b) p (blobSize b) ;;
      v <-- read_range (mem b) p q ;;
      Ok (v, blobSize b)
  end.

(** src/blob.cpp:49-87: the Blob class behind the interface the stamps use. *)
Global Instance BlobBlobOps : BlobOps blob := {
  Size := blobSize;
  Chop := blobChop;
  AsByteVector := blobAsByteVector
}.
