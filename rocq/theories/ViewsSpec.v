(** Vocabulary for blobs as views of the caller's memory (C74). *)
From Verif Require Import Base Blob BlobSpec FrontSpec LocalSpec Galley Views.

(** Where a blob starts in its array, and how many bytes it covers. *)
Definition v_pos (v : view) : Z := match v_data v with Some a => a + v_begin v | None => 0 end.
Definition v_size (v : view) : Z := u64 (v_end v - v_begin v + 1).

(** Blob [v] covers position [i] of array [a]. *)
Definition covers (v : view) (a : nat) (i : Z) : Prop := v_arr v = a /\ v_pos v <= i < v_pos v + v_size v.

(** The bytes a blob covers, as they are now. *)
Definition held (s : vstate) (v : view) : bytes :=
  match nth_error (arrays s) (v_arr v) with
  | Some A => slice (a_bytes A) (v_pos v) (v_size v)
  | None => []
  end.

(** Steps a careful program takes: arrays below 2^63 bytes, blobs inside them, no negative sizes, and
    extractors which depend on the bytes alone (C42) and take them from the front (C60). *)
Definition careful (s : vstate) (op : vop) : Prop :=
  match op with
  | VArray bs => zlen bs < 2 ^ 63
  | VBlob a off n => forall A, nth_error (arrays s) a = Some A -> 0 <= off /\ 0 <= n /\ off + n <= zlen (a_bytes A)
  | VCut _ (CChop n) => 0 <= n
  | VCut _ (CChop2 _ mx) => 0 <= mx
  | VRun _ ex => local ex /\ takes_front ex
  | _ => True
  end.

(** A careful program that has come to [s] with the answers [out]. *)
Inductive came : list vop -> vstate -> list (res bytes) -> Prop :=
| came_nil : came [] vinit []
| came_step p s out op s' out' : came p s out -> careful s op -> vstep s op = (Ok s', out') ->
    came (p ++ [op]) s' (out ++ out').

(** Two programs that differ in the bytes they put into their arrays only, and run no extractors. *)
Definition same_but_bytes (op op' : vop) : Prop :=
  match op, op' with
  | VArray bs, VArray bs' => length bs = length bs'
  | VWrite a i _, VWrite a' i' _ => a = a' /\ i = i'
  | VFree a, VFree a' => a = a'
  | VBlob a off n, VBlob a' off' n' => a = a' /\ off = off' /\ n = n'
  | VCut o c, VCut o' c' => o = o' /\ c = c'
  | _, _ => False
  end.

(** How many blobs a program makes on array [a] by hand. *)
Fixpoint blobs_on (a : nat) (p : list vop) : nat :=
  match p with
  | [] => 0
  | VBlob a' _ _ :: r => (if Nat.eqb a' a then 1 else 0) + blobs_on a r
  | _ :: r => blobs_on a r
  end.

(** The answer a program gets from a call: a value or the exception; nothing after undefined behaviour. *)
Definition answer (r : res bytes) : list (res bytes) := match r with Ok _ | OutOfData => [r] | _ => [] end.

(** Every step of a program from [s] careful, none undefined. *)
Fixpoint careful_run (p : list vop) (s : vstate) : Prop :=
  match p with
  | [] => True
  | op :: r => careful s op /\ match fst (vstep s op) with Ok s' => careful_run r s' | _ => False end
  end.
