(** Histories of Chop calls: a program holding blobs and chopping them in any order. *)
From Verif Require Import Base Blob BlobSpec.

(** Calls: Chop(n) or Chop(min,max) on the i-th blob the program holds.  Arguments are size_t. *)
Inductive hop : Type :=
| HChop (i : nat) (n : Z)
| HChop2 (i : nat) (mn mx : Z).

Definition hop_index (op : hop) : nat := match op with HChop i _ => i | HChop2 i _ _ => i end.
Definition hop_call (op : hop) : M blob blob :=
  match op with
  | HChop _ n => Chop (u64 n)
  | HChop2 _ mn mx => Chop2 (u64 mn) (u64 mx)
  end.

Fixpoint replace_nth {A} (l : list A) (n : nat) (v : A) : list A :=
  match l, n with
  | [], _ => []
  | _ :: r, O => v :: r
  | x :: r, S n' => x :: replace_nth r n' v
  end.

(** A successful call adds the returned blob; an exception is caught by the program. *)
Definition hstep (live : list blob) (op : hop) : res (list blob) :=
  match nth_error live (hop_index op) with
  | None => Ok live
  | Some b =>
      match hop_call op b with
      | (Ok c, b') => Ok (replace_nth live (hop_index op) b' ++ [c])
      | (OutOfData, b') => Ok (replace_nth live (hop_index op) b')
      | (UB, _) => UB
      | (Abort, _) => Abort
      | (Diverge, _) => Diverge
      end
  end.

Fixpoint hrun (live : list blob) (ops : list hop) : res (list blob) :=
  match ops with
  | [] => Ok live
  | op :: r => l <-- hstep live op ;; hrun l r
  end.

(** Blob [b] is a window on buffer [m] and includes position [p] of it. *)
Definition covers (m : bytes) (b : blob) (p : Z) : Prop :=
  mem b = m /\
  exists a, data b = Some a /\ a + bbegin b <= p < a + bbegin b + blobSize b.

(** The window of [b] lies within positions [lo, hi) of buffer [m]. *)
Definition within (m : bytes) (b : blob) (lo hi : Z) : Prop :=
  mem b = m /\
  exists a, data b = Some a /\ lo <= a + bbegin b /\ a + bbegin b + blobSize b <= hi.
