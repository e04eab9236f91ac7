(** Lifetimes of stamps (C72): ownership, told by the history of the program alone. *)
From Verif Require Import Base Owner.

(** The stamps that a stamp keeps alive: the elements of lists, texts, operators, sets and hash elements and the
    stamps given to a pool's constructor.  Not: what add_weak was given, and no member of a lottery. *)
Inductive owns {B} : kind B -> nat -> Prop :=
| owns_enum j x : owns (KEnum j x) x
| owns_text j x : owns (KText j x) x
| owns_unary op x : owns (KUnary op x) x
| owns_left op x y : owns (KBinary op x y) x
| owns_right op x y : owns (KBinary op x y) y
| owns_set j xs x : In x xs -> owns (KSet j xs) x
| owns_name n v : owns (KHashEl n v) n
| owns_value n v : owns (KHashEl n v) v
| owns_pool ms x : In x ms -> owns (KPool ms) x.

(** Number of pointers from a stamp to stamp [i]: lists keep two copies of the pointer to their element, binary
    operators two of that to each operand. *)
Definition pointers {B} (k : kind B) (i : nat) : nat :=
  match k with
  | KLeaf _ _ _ | KLot _ _ => 0
  | KEnum _ x => 2 * count_occ Nat.eq_dec [x] i
  | KText _ x | KUnary _ x => count_occ Nat.eq_dec [x] i
  | KBinary _ x y | KHashEl x y => (match k with KBinary _ _ _ => 2 | _ => 1 end) * count_occ Nat.eq_dec [x; y] i
  | KSet _ xs | KPool xs => count_occ Nat.eq_dec xs i
  end%nat.

Section History.
  Context {B : Type}.

  (** What was made, in order.  Histories begin with the latest act. *)
  Fixpoint makes (past : list (own_op B)) : list (kind B) :=
    match past with
    | [] => []
    | Make k :: r => makes r ++ [k]
    | _ :: r => makes r
    end.

  (** How many shared_ptrs to stamp [i] the program has in its variables. *)
  Fixpoint held (past : list (own_op B)) (i : nat) : nat :=
    match past with
    | [] => 0
    | Make _ :: r => if Nat.eqb i (length (makes r)) then 1 else held r i
    | Share j :: r => if Nat.eqb i j then S (held r i) else held r i
    | Release j :: r => if Nat.eqb i j then pred (held r i) else held r i
    | _ :: r => held r i
    end.

  (** Stamps added to pool or lottery [i] since it was made, in order. *)
  Fixpoint later (past : list (own_op B)) (i : nat) : list nat :=
    match past with
    | [] => []
    | AddWeak p x :: r | Append p x :: r => if Nat.eqb i p then later r i ++ [x] else later r i
    | _ :: r => later r i
    end.

  (** Stamp [i] has stamp [j] among its members without keeping it alive (as far as this goes). *)
  Definition watches (past : list (own_op B)) (i j : nat) : Prop :=
    match nth_error (makes past) i with
    | Some (KPool ms) => In j (ms ++ later past i)
    | Some (KLot _ ms) => In j (ms ++ later past i)
    | _ => False
    end.

  (** The program, or a stamp that is itself kept, has a shared_ptr to stamp [i]. *)
  Inductive kept (past : list (own_op B)) : nat -> Prop :=
  | kept_held i : (0 < held past i)%nat -> kept past i
  | kept_owned i j k : kept past j -> nth_error (makes past) j = Some k -> owns k i -> kept past i.

  (** A program may hand over stamps that exist, copy and drop its own variables, and add to its pools and lotteries. *)
  Definition allowed (past : list (own_op B)) (o : own_op B) : Prop :=
    match o with
    | Make k => forall i, owns k i \/ (exists four ms, k = KLot four ms /\ In i ms) -> kept past i
    | Share i | Release i => (0 < held past i)%nat
    | AddWeak p x => kept past p /\ kept past x /\ exists ms, nth_error (makes past) p = Some (KPool ms)
    | Append l x => kept past l /\ kept past x /\ exists four ms, nth_error (makes past) l = Some (KLot four ms)
    end.

  Fixpoint lawful (past : list (own_op B)) : Prop :=
    match past with
    | [] => True
    | o :: r => lawful r /\ allowed r o
    end.

  (** Everything a call on stamp [i] can come across. *)
  Inductive met (past : list (own_op B)) : nat -> nat -> Prop :=
  | met_self i : met past i i
  | met_part i j k x : met past i j -> nth_error (makes past) j = Some k -> owns k x -> met past i x
  | met_member i j x : met past i j -> watches past j x -> met past i x.

  (** The same program, dropping nothing. *)
  Definition never_drops (ops : list (own_op B)) : list (own_op B) :=
    filter (fun o => match o with Release _ => false | _ => true end) ops.
End History.
