(** What becomes of StampJSON objects that are copied, moved, assigned and destroyed (C53). *)
From Verif Require Import Base Blob BlobSpec RunSpec Arithm Stamps Json JsonLife.

(** Object [i] exists and its array and object stamps refer to object [r]. *)
Definition refers (t : list slot) (i r : nat) : Prop := nth_error t i = Some (Live (Some r)).

(** Following the references from [i] leads to [j]. *)
Inductive leads (t : list slot) : nat -> nat -> Prop :=
| leads_self i : leads t i i
| leads_on i r j : refers t i r -> leads t r j -> leads t i j.

(** Every object that is reached exists and has its stamps. *)
Definition intact (t : list slot) (i : nat) : Prop := forall j, leads t i j -> exists r, refers t j r.

(** The operation leaves object [i] as it is. *)
Definition leaves_alone (i : nat) (op : life_op) : Prop :=
  match op with
  | Construct | CopyOf _ => True
  | MoveOf s => s <> i
  | CopyAssign d _ => d <> i
  | MoveAssign d s => d <> i /\ s <> i
  | Destroy d => d <> i
  end.

(** ** Histories.  [past] lists what was done, the latest first; objects are numbered as they come into being. *)

Fixpoint made (past : list life_op) : nat :=
  match past with
  | [] => 0
  | (Construct | CopyOf _ | MoveOf _) :: r => S (made r)
  | _ :: r => made r
  end.

(** Object [i] exists and holds the stamps made by the constructor of the given object, or none ([None]). *)
Inductive has : list life_op -> nat -> option nat -> Prop :=
| has_constructed past : has (Construct :: past) (made past) (Some (made past))
| has_copied past s f : has past s f -> has (CopyOf s :: past) (made past) f
| has_moved past s f : has past s f -> has (MoveOf s :: past) (made past) f
| has_moved_from past s f : has past s f -> has (MoveOf s :: past) s None
| has_assigned past d s f : has past s f -> has (CopyAssign d s :: past) d f
| has_move_assigned past d s f : has past s f -> has (MoveAssign d s :: past) d f
| has_move_assigned_from past d s f : has past s f -> has (MoveAssign d s :: past) s None
| has_still past op i f : has past i f -> leaves_alone i op -> has (op :: past) i f.

(** The operation is on objects that exist; an object is not moved into itself. *)
Definition allowed (past : list life_op) (op : life_op) : Prop :=
  match op with
  | Construct => True
  | CopyOf i | MoveOf i | Destroy i => exists f, has past i f
  | CopyAssign d s => (exists f, has past d f) /\ (exists f, has past s f)
  | MoveAssign d s => d <> s /\ (exists f, has past d f) /\ (exists f, has past s f)
  end.

Inductive legal : list life_op -> Prop :=
| legal_start : legal []
| legal_next past op : legal past -> allowed past op -> legal (op :: past).

(** Object [i] does what a StampJSON does: sizes and ExtractStr of every data are those of a StampJSON that is
    alone in its program. *)
Definition works (t : list slot) (i : nat) : Prop :=
  minSize (life_heap t) (XPool (B := blob) i) = Ok 10 /\ maxSize (life_heap t) (XPool (B := blob) i) = Ok (-1)
  /\ forall b : blob, ExtractStr (life_heap t) (XPool i) b = JSONExtractStr b.

(** Asking object [i] for its least size and letting it read two or more bytes is undefined behaviour. *)
Definition broken (t : list slot) (i : nat) : Prop :=
  minSize (life_heap t) (XPool (B := blob) i) = UB
  /\ forall b l, holds b l -> 2 <= zlen l -> fst (ExtractStr (life_heap t) (XPool i) b) = UB.

(** Object [i] still reports the sizes of a StampJSON, and of data between 10 and 2^30 + 2 bytes it makes a
    number or a string of what follows the first two bytes, never an array or an object. *)
Definition writes_scalars (t : list slot) (i : nat) : Prop :=
  minSize (life_heap t) (XPool (B := blob) i) = Ok 10 /\ maxSize (life_heap t) (XPool (B := blob) i) = Ok (-1)
  /\ forall b front r, holds b (front ++ r) -> zlen front = 2 -> 8 <= zlen r <= 2 ^ 30 ->
     exists ex b', In ex [ArithExtractStr Long; ArithExtractStr Double; JSONStringExtractStr]
       /\ holds b' r /\ ExtractStr (life_heap t) (XPool i) b = ex b'.

(** Object [i] never yields anything: no data of up to 2^30 - 2 bytes are enough for it. *)
Definition writes_nothing (t : list slot) (i : nat) : Prop :=
  minSize (life_heap t) (XPool (B := blob) i) = Ok (2 ^ 30 - 1) /\ maxSize (life_heap t) (XPool (B := blob) i) = Ok 2
  /\ forall b l, holds b l -> zlen l < 2 ^ 30 - 1 -> fst (ExtractStr (life_heap t) (XPool i) b) = OutOfData.
