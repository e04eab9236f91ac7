(** StampJSON objects that are copied, moved, assigned and destroyed.

    No class of the hierarchy declares a copy or move operation or a destructor (include/blobstamper/stamp_json.h:91-103,
    32-46, include/blobstamper/stamp.h:32-49 and 62-67), so the implicit ones work member by member: they copy or
    move the five shared_ptr's and weak_pool. The array and object stamps made by the constructor refer to the
    object that was constructed and not to the object they end up in (src/stamp_json.cpp:180-182).

    An object is named by its place in a table; places of destroyed objects are not used again (simplification:
    in C++ another object may be built at the same address). Simplification: isRecursive() has not been called, so
    that no object has its is_recursive set; for StampJSON it changes no size. *)
From Verif Require Import Base Arithm StampDict StampText Galley Stamps Json.

(** One place: the object does not exist any more; or it does, and its five stamps are those made by the
    constructor of object [r] ([Some r]), or it has none because they have been moved away ([None]). The weak
    pointers of an object can be locked whenever the object has its five stamps: it shares their ownership
    (include/blobstamper/stamp_json.h:94-98). *)
Inductive slot : Type := Dead | Live (family : option nat).

(** What a program does to StampJSON objects: the constructor src/stamp_json.cpp:173-189; the implicit copy and
    move constructors, assignments and destructor of include/blobstamper/stamp_json.h:91-103. The constructed
    object takes the next place of the table. *)
Inductive life_op : Type :=
| Construct
| CopyOf (src : nat)
| MoveOf (src : nat)
| CopyAssign (dst src : nat)
| MoveAssign (dst src : nat)
| Destroy (obj : nat).

(** The stamps held by an object that exists, include/blobstamper/stamp_json.h:94-98. *)
Definition alive (t : list slot) (i : nat) : option (option nat) :=
  match nth_error t i with Some (Live f) => Some f | _ => None end.

(** One operation. None: an operation on an object that does not exist, or a move of an object into itself
    (its weak_pool is then unspecified). src/stamp_json.cpp:173-189, include/blobstamper/stamp_json.h:91-103. *)
Definition life_step (t : list slot) (op : life_op) : option (list slot) :=
  match op with
  | Construct => Some (t ++ [Live (Some (length t))])
  | CopyOf s => option_map (fun f => t ++ [Live f]) (alive t s)
  | MoveOf s => option_map (fun f => upd t s (Live None) ++ [Live f]) (alive t s)
  | CopyAssign d s =>
      match alive t d, alive t s with Some _, Some f => Some (upd t d (Live f)) | _, _ => None end
  | MoveAssign d s =>
      if Nat.eqb d s then None
      else match alive t d, alive t s with
           | Some _, Some f => Some (upd (upd t s (Live None)) d (Live f))
           | _, _ => None
           end
  | Destroy i => option_map (fun _ => upd t i Dead) (alive t i)
  end.

(** A program's operations on its StampJSON objects, in order. include/blobstamper/stamp_json.h:91-103. *)
Fixpoint life_run (t : list slot) (ops : list life_op) : option (list slot) :=
  match ops with
  | [] => Some t
  | op :: r => match life_step t op with Some t' => life_run t' r | None => None end
  end.

Section Life.
  Context {B : Type} `{BlobOps B}.

  (** What the constructor of object [r] puts into weak_pool, src/stamp_json.cpp:176-188. *)
  Definition json_pool_of (r : nat) : pool B :=
    fold_left add_weak
      [StampJSONInt; StampJSONFloat; StampJSONString; StampJSONArray r; StampJSONHash r]
      (new_pool []).

  (** The pool at a place. A call through the plain pointer to an object that does not exist any more
      (src/stamp_json.cpp:181-182) is undefined behaviour; the pool with a single expired pointer stands for it.
      An object moved from has an empty weak_pool. include/blobstamper/stamp_json.h:35-36. *)
  Definition pool_of_slot (s : slot) : pool B :=
    match s with
    | Dead => mkPool [None] false false
    | Live None => new_pool []
    | Live (Some r) => json_pool_of r
    end.

  (** The objects of a program; object [i] is [XPool i]. src/stamp_json.cpp:173-189. *)
  Definition life_heap (t : list slot) : heap B := mkHeap (map pool_of_slot t) [].
End Life.
