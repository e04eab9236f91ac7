(** How the theorems speak about a run of a library function on a blob. *)
From Verif Require Import Base Blob BlobSpec.

(** Called on [b], [f] has outcome [r] (a value, OutOfData, ...) and leaves the bytes [rest] in the
    blob. *)
Definition runs {A} (f : M blob A) (b : blob) (r : res A) (rest : bytes) : Prop :=
  exists b', f b = (r, b') /\ wf b' /\ content b' = rest.

(** Called on [b], [f] returns blobs holding the byte strings [chunks] and leaves [rest]. *)
Definition cuts (f : M blob (list blob)) (b : blob) (chunks : list bytes) (rest : bytes) : Prop :=
  exists cs b', f b = (Ok cs, b') /\ Forall wf cs /\ map content cs = chunks
    /\ wf b' /\ content b' = rest.

(** A blob holding the bytes [l]. *)
Definition holds (b : blob) (l : bytes) : Prop := wf b /\ content b = l.

(** Blob over a whole buffer: the usual way to make one. *)
Definition blob_of (l : bytes) : blob := newBlob l (Some 0) (zlen l).
