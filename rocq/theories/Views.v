(** Blobs as views of the caller's memory: src/blob.cpp and src/stamp.cpp in a program that makes
    arrays, writes to them and gives them up while blobs point into them.

    In Blob.v the array a blob points into is part of its value, as the library never writes to it.
    Here the arrays are kept apart and every step looks at them as they are then. *)
From Verif Require Import Base Blob Galley.

(** An array of the program (new char[n], a std::vector, ...; e.g. tests/test-blob.cpp:34-36) and
    whether it still exists. *)
Record array : Type := mkArray { a_bytes : bytes; a_alive : bool }.

(** include/blobstamper/blob.h:30-35: a Blob object; [v_arr] is the array its pointer points into. *)
Record view : Type := mkView { v_arr : nat; v_data : option Z; v_begin : Z; v_end : Z }.

(** What a program has made so far: arrays and Blob objects, numbered as made. No code of its own. *)
Record vstate : Type := mkV { arrays : list array; views : list view }.

(** The Blob object with the array as it is now: what [data] points to, src/blob.cpp:79, 93, 101, 109. *)
Definition see (A : array) (v : view) : blob := mkBlob (a_bytes A) (v_data v) (v_begin v) (v_end v).
(** Back: the members of a Blob pointing into array [a], include/blobstamper/blob.h:33-35. *)
Definition view_of (a : nat) (b : blob) : view := mkView a (data b) (bbegin b) (bend b).

(** The ways to get a blob out of a blob. *)
Inductive cut : Type :=
| CChop (n : Z)            (* src/blob.cpp:49-61 *)
| CChop2 (mn mx : Z)       (* src/blob.cpp:63-74 *)
| CLoad (mn mx : Z).       (* src/stamp.cpp:29-49, a stamp of these sizes; the blob is its bitten_blob *)

(** src/blob.cpp:49-74, src/stamp.cpp:29-49. *)
Definition run_cut (c : cut) : M blob blob :=
  match c with
  | CChop n => Chop n
  | CChop2 mn mx => Chop2 mn mx
  | CLoad mn mx => Load mn mx
  end.

(** The steps of a program. *)
Inductive vop : Type :=
| VArray (bs : bytes)                 (* a new array with these bytes *)
| VWrite (a : nat) (i : Z) (c : byte) (* arr[i] = c *)
| VFree (a : nat)                     (* the array ends: free, delete[], end of scope *)
| VBlob (a : nat) (off n : Z)         (* Blob(arr + off, n), src/blob.cpp:27-32 *)
| VCut (o : nat) (c : cut)            (* a new blob from blob o *)
| VRun (o : nat) (ex : M blob bytes). (* ExtractStr(o), UnloadStr() on a loaded blob, asVector() ... *)

(** Assignment to the [n]-th element. No code of its own: arr[i] = c. *)
Fixpoint set_nth {A} (l : list A) (n : nat) (v : A) : list A :=
  match l, n with
  | [], _ => []
  | _ :: r, O => v :: r
  | x :: r, S n' => x :: set_nth r n' v
  end.

(** One step: the new state, and what a step on a blob answered.  OutOfData is caught by the program;
    using a blob whose array is gone is undefined, be it only to compute a pointer
    (src/blob.cpp:57, 79). *)
Definition vstep (s : vstate) (op : vop) : res vstate * list (res bytes) :=
  match op with
  | VArray bs => (Ok (mkV (arrays s ++ [mkArray bs true]) (views s)), [])
  | VWrite a i c =>
      match nth_error (arrays s) a with
      | Some A =>
          if a_alive A && (0 <=? i) && (i <? zlen (a_bytes A))
          then (Ok (mkV (set_nth (arrays s) a (mkArray (set_nth (a_bytes A) (Z.to_nat i) c) true)) (views s)), [])
          else (UB, [])
      | None => (UB, [])
      end
  | VFree a =>
      match nth_error (arrays s) a with
      | Some A =>
          if a_alive A then (Ok (mkV (set_nth (arrays s) a (mkArray (a_bytes A) false)) (views s)), [])
          else (UB, [])
      | None => (UB, [])
      end
  | VBlob a off n =>
      match nth_error (arrays s) a with
      | Some A =>
          if a_alive A && (0 <=? off) && (off <=? zlen (a_bytes A))
          then (Ok (mkV (arrays s) (views s ++ [view_of a (newBlob (a_bytes A) (Some off) n)])), [])
          else (UB, [])
      | None => (UB, [])
      end
  | VCut o c =>
      match nth_error (views s) o with
      | Some v =>
          match nth_error (arrays s) (v_arr v) with
          | Some A =>
              if a_alive A then
                match run_cut c (see A v) with
                | (Ok b, b') => (Ok (mkV (arrays s) (set_nth (views s) o (view_of (v_arr v) b') ++ [view_of (v_arr v) b])), [])
                | (OutOfData, b') => (Ok (mkV (arrays s) (set_nth (views s) o (view_of (v_arr v) b'))), [OutOfData])
                | (UB, _) => (UB, [])
                | (Abort, _) => (Abort, [])
                | (Diverge, _) => (Diverge, [])
                end
              else (UB, [])
          | None => (UB, [])
          end
      | None => (UB, [])
      end
  | VRun o ex =>
      match nth_error (views s) o with
      | Some v =>
          match nth_error (arrays s) (v_arr v) with
          | Some A =>
              if a_alive A then
                match ex (see A v) with
                | (Ok r, b') => (Ok (mkV (arrays s) (set_nth (views s) o (view_of (v_arr v) b'))), [Ok r])
                | (OutOfData, b') => (Ok (mkV (arrays s) (set_nth (views s) o (view_of (v_arr v) b'))), [OutOfData])
                | (UB, _) => (UB, [])
                | (Abort, _) => (Abort, [])
                | (Diverge, _) => (Diverge, [])
                end
              else (UB, [])
          | None => (UB, [])
          end
      | None => (UB, [])
      end
  end.

(** A program from some state: the last state, and the answers in order. *)
Fixpoint vrun (p : list vop) (s : vstate) : res vstate * list (res bytes) :=
  match p with
  | [] => (Ok s, [])
  | op :: r =>
      match vstep s op with
      | (Ok s', out) => let (s'', out') := vrun r s' in (s'', out ++ out')
      | (bad, out) => (bad, out)
      end
  end.

(** Before the first step. No code of its own. *)
Definition vinit : vstate := mkV [] [].
