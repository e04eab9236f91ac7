(** Which values StampJSON writes (C51, C52). *)
From Verif Require Import Base VectorSpec DictWords JsonSpec.
Local Open Scope Z_scope.

Definition compound (t : jtree) : Prop := match t with JArr _ | JObj _ => True | _ => False end.

(** No member of an object is a number or a string. *)
Inductive deep : jtree -> Prop :=
| dp_int z : deep (JInt z)
| dp_double bits : deep (JDouble bits)
| dp_str w : deep (JStr w)
| dp_arr ts : Forall deep ts -> deep (JArr ts)
| dp_obj ms : Forall (fun m => compound (snd m) /\ deep (snd m)) ms -> deep (JObj ms).

(** Numbers of 64 bits, strings of the dictionary, arrays and objects that are not empty, members as above. *)
Inductive regular : jtree -> Prop :=
| rg_int z : - 2 ^ 63 <= z < 2 ^ 63 -> regular (JInt z)
| rg_double bits : 0 <= bits < 2 ^ 64 -> regular (JDouble bits)
| rg_str w : In w DictLCAlphaSmall -> regular (JStr w)
| rg_arr ts : ts <> [] -> Forall regular ts -> regular (JArr ts)
| rg_obj ms : ms <> [] -> Forall (fun m => In (fst m) DictLCAlphaSmall /\ compound (snd m) /\ regular (snd m)) ms -> regular (JObj ms).

(** Data enough to write the value: 11 bytes for a number or a string; two bytes to say that it is an array or an
    object and two for the number of elements; for each element two bytes, what it needs itself, and a byte for the
    name if any; one more if there are several. *)
Definition spare {A} (l : list A) : Z := match l with _ :: _ :: _ => 1 | _ => 0 end.
Fixpoint need (t : jtree) : Z :=
  match t with
  | JArr ts => 4 + sum (map (fun t => 2 + need t) ts) + spare ts
  | JObj ms => 4 + sum (map (fun m => 3 + need (snd m)) ms) + spare ms
  | _ => 11
  end.
