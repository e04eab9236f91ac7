(** What a blob is supposed to mean: a window on a buffer. *)
From Verif Require Import Base Blob.

(** A blob on a real buffer: [n] bytes from position [a], of which [bbegin b] are already chopped
    off.  Buffers are smaller than 2^63 bytes (PTRDIFF_MAX). *)
Definition wf (b : blob) : Prop :=
  exists a n, data b = Some a /\ 0 <= a /\ 0 <= bbegin b <= n
    /\ a + n <= zlen (mem b) < 2 ^ 63 /\ bend b = u64 (n - 1).

(** The remaining bytes. *)
Definition content (b : blob) : bytes :=
  match data b with
  | Some a => slice (mem b) (a + bbegin b) (blobSize b)
  | None => []
  end.
