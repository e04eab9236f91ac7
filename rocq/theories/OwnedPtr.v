(** include/blobstamper/helpers.h:107-147: sized_ptr and VLATO_ptr as owners of malloc'ed blocks. *)
From Verif Require Import Base.

(** A malloc'ed block: its size and whether it was freed. malloc of
    include/blobstamper/helpers.h:144, include/blobstamper/stamp.h:107. *)
Record block : Type := mkBlock { blk_size : Z; blk_freed : bool }.

(** Pointer objects. [_ptr] is [None] for a null pointer, else the number of a block.
    include/blobstamper/helpers.h:107-138. *)
Inductive pobj : Type :=
| OSized (p : option nat) (size : Z)                       (* helpers.h:110-111 *)
| OVlato (p : option nat) (length offset elsize : Z)       (* helpers.h:123-125; sizeof(ArrayT) *)
| ODead.                                                   (* destroyed *)

(** No code of its own: the state of a program using include/blobstamper/helpers.h:107-147. *)
Record pstate : Type := mkP { blocks : list block; objs : list pobj }.

(** VLATO_ptr::size, helpers.h:133, in size_t. *)
Definition vlato_size (length offset elsize : Z) : Z := u64 (offset + u64 (length * elsize)).

(** Actions of a program on pointer objects; objects are numbered in order of construction.
    - [NewSized n]: p = malloc(n); sized_ptr(p, n)             (helpers.h:116)
    - [NewVlato off len es]: VLATO_ptr(off, len)               (helpers.h:141-147)
    - [NewVlatoFrom off len es]: VLATO_ptr(malloc(...), off, len) (helpers.h:136)
    - [Convert o]: conversion of a VLATO_ptr to sized_ptr      (helpers.h:129); the local [res] is
      returned without a copy (NRVO, which GCC always does here)
    - [Copy o]: implicit copy constructor of either class (not deleted)
    - [Use o]: access through operator T*                      (helpers.h:114, 128)
    - [Destroy o]: end of life                                 (helpers.h:117, 137) *)
Inductive pop : Type :=
| NewSized (n : Z)
| NewVlato (off len es : Z)
| NewVlatoFrom (off len es : Z)
| Convert (o : nat)
| Copy (o : nat)
| Use (o : nat)
| Destroy (o : nat).

(** Assignment to a member, include/blobstamper/helpers.h:129. *)
Fixpoint set_nth {A} (l : list A) (n : nat) (v : A) : list A :=
  match l, n with
  | [], _ => []
  | _ :: r, O => v :: r
  | x :: r, S n' => x :: set_nth r n' v
  end.

(** include/blobstamper/helpers.h:114 and 128. *)
Definition obj_ptr (o : pobj) : option nat :=
  match o with OSized p _ => p | OVlato p _ _ _ => p | ODead => None end.

(** free(p): undefined on a block already freed or not existing. include/blobstamper/helpers.h:117
    and 137. *)
Definition do_free (bs : list block) (p : nat) : res (list block) :=
  match nth_error bs p with
  | Some blk => if blk_freed blk then UB else Ok (set_nth bs p (mkBlock (blk_size blk) true))
  | None => UB
  end.

(** include/blobstamper/helpers.h:107-147, see pop. *)
Definition pstep (s : pstate) (op : pop) : res pstate :=
  match op with
  | NewSized n =>
      Ok (mkP (blocks s ++ [mkBlock n false]) (objs s ++ [OSized (Some (length (blocks s))) n]))
  | NewVlato off len es | NewVlatoFrom off len es =>
      Ok (mkP (blocks s ++ [mkBlock (u64 (off + u64 (es * len))) false])
              (objs s ++ [OVlato (Some (length (blocks s))) len off es]))
  | Convert o =>
      match nth_error (objs s) o with
      | Some (OVlato p len off es) =>
          Ok (mkP (blocks s)
                  (set_nth (objs s) o (OVlato None len off es) ++ [OSized p (vlato_size len off es)]))
      | _ => Ok s                                  (* no such conversion in a program *)
      end
  | Copy o =>
      match nth_error (objs s) o with
      | Some ODead | None => Ok s                  (* no such object in a program *)
      | Some v => Ok (mkP (blocks s) (objs s ++ [v]))
      end
  | Use o =>
      match nth_error (objs s) o with
      | Some ODead | None => Ok s
      | Some v =>
          match obj_ptr v with
          | None => UB                             (* null dereference *)
          | Some p =>
              match nth_error (blocks s) p with
              | Some blk => if blk_freed blk then UB else Ok s
              | None => UB
              end
          end
      end
  | Destroy o =>
      match nth_error (objs s) o with
      | Some v =>
          match obj_ptr v with
          | None => Ok (mkP (blocks s) (set_nth (objs s) o ODead))
          | Some p =>
              bs <-- do_free (blocks s) p ;;
              Ok (mkP bs (set_nth (objs s) o ODead))
          end
      | None => Ok s
      end
  end.

(** No code of its own: a program using include/blobstamper/helpers.h:107-147. *)
Fixpoint prun (s : pstate) (ops : list pop) : res pstate :=
  match ops with
  | [] => Ok s
  | op :: r => s' <-- pstep s op ;; prun s' r
  end.

(** No code of its own: the state before any of include/blobstamper/helpers.h:107-147. *)
Definition pinit : pstate := mkP [] [].
