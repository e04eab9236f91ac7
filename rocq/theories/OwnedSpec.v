(** What owning means (C44). *)
From Verif Require Import Base OwnedPtr.

(** Object [o] is alive and holds block [p]. *)
Definition owns (s : pstate) (o p : nat) : Prop :=
  exists v, nth_error (objs s) o = Some v /\ obj_ptr v = Some p.

(** Object [o] is alive and its pointer is null. *)
Definition holds_null (s : pstate) (o : nat) : Prop :=
  exists v, nth_error (objs s) o = Some v /\ v <> ODead /\ obj_ptr v = None.

Definition allocated (s : pstate) (p : nat) : Prop := exists blk, nth_error (blocks s) p = Some blk /\ blk_freed blk = false.
Definition freed (s : pstate) (p : nat) : Prop := exists blk, nth_error (blocks s) p = Some blk /\ blk_freed blk = true.

(** size() of a pointer object (helpers.h:115, 133). *)
Definition obj_size (v : pobj) : option Z :=
  match v with
  | OSized _ n => Some n
  | OVlato _ len off es => Some (vlato_size len off es)
  | ODead => None
  end.

Definition is_copy (op : pop) : bool := match op with Copy _ => true | _ => false end.
Definition no_copy (ops : list pop) : Prop := Forall (fun op => is_copy op = false) ops.
