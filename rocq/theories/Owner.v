(** Lifetimes of stamps: who owns whom (shared_ptr), who merely observes (weak_ptr, references).

    A program makes stamps, copies and drops its own shared_ptrs, and hands stamps to constructors,
    to PoolPickerStamp::add_weak and to StampLottery::Append.  Objects are numbered in the order of
    their creation.  The sizes a lottery stores are left out here: see [own_heap]. *)
From Verif Require Import Base Stamps.

Section Owner.
  Context {B : Type} `{BlobOps B}.

  (** What an object was made as; numbers are the stamps given to the constructor.  A constructor
      that makes its own parts (include/blobstamper/galley.h:58, src/stamp_json.cpp:155-161) is the
      making of the parts, of the whole and the dropping of the parts. *)
  Inductive kind : Type :=
  | KLeaf (mn mx : Z) (ex : M B bytes)               (* holds no stamp *)
  | KEnum (join : list bytes -> bytes) (x : nat)     (* include/blobstamper/stamp_enumerator.h:28-49 *)
  | KText (join : list bytes -> bytes) (x : nat)     (* include/blobstamper/galley.h:55-59 *)
  | KUnary (op : bytes) (x : nat)                    (* include/blobstamper/stamp_math_op.h:27-37 *)
  | KBinary (op : bytes) (x1 x2 : nat)               (* include/blobstamper/stamp_math_op.h:41-58 *)
  | KSet (join : list bytes -> bytes) (xs : list nat)  (* include/blobstamper/galley.h:92-104 *)
  | KHashEl (n v : nat)                              (* include/blobstamper/stamp_json.h:72-83 *)
  | KPool (ms : list nat)                            (* include/blobstamper/stamp_json.h:30-45 *)
  | KLot (four : bool) (ms : list nat).              (* include/blobstamper/stamp_lottery.h:23-58 *)

  (** The shared_ptr members, one entry for each pointer.  include/blobstamper/galley.h:39 and 95,
      stamp_enumerator.h:31, stamp_math_op.h:31 and 45-46, stamp_json.h:33-34 and 75-76,
      src/stamp_json.cpp:27-35.  Lotteries hold references only, stamp_lottery.h:26. *)
  Definition strong (k : kind) : list nat :=
    match k with
    | KLeaf _ _ _ => []
    | KEnum _ x => [x; x]
    | KText _ x => [x]
    | KUnary _ x => [x]
    | KBinary _ x1 x2 => [x1; x2; x1; x2]
    | KSet _ xs => xs
    | KHashEl n v => [n; v]
    | KPool ms => ms
    | KLot _ _ => []
    end.

  (** The stamps handed to the constructor: each must exist.  Lines as for [kind]. *)
  Definition mentions (k : kind) : list nat := match k with KLot _ ms => ms | _ => strong k end.

  (** [added]: by add_weak (src/stamp_json.cpp:149-153) or Append
      (include/blobstamper/stamp_lottery.h:211-231); [uses]: use_count() of its control block, 0 once
      destroyed; [mine]: shared_ptr variables of the program to it.  Control blocks are the standard
      library's. *)
  Record object : Type := mkObject { what : kind; added : list nat; uses : nat; mine : nat }.

  (** All objects ever made.  No code of its own. *)
  Definition store : Type := list object.

  (** The object exists.  No code of its own. *)
  Definition alive (s : store) (i : nat) : bool :=
    match nth_error s i with Some o => negb (Nat.eqb (uses o) 0) | None => false end.

  (** Copying a shared_ptr, e.g. include/blobstamper/stamp_math_op.h:35.  Copying from a destroyed
      object's pointer is undefined. *)
  Definition take (s : store) (i : nat) : res store :=
    match nth_error s i with
    | Some o => if Nat.eqb (uses o) 0 then UB else Ok (upd s i (mkObject (what o) (added o) (S (uses o)) (mine o)))
    | None => UB
    end.

  (** The initialisers of a constructor, lines as for [strong]. *)
  Fixpoint take_all (s : store) (l : list nat) : res store :=
    match l with
    | [] => Ok s
    | i :: r => s' <-- take s i ;; take_all s' r
    end.

  (** ~shared_ptr() for each pointer in turn: the last one destroys the object and with it the
      shared_ptrs it holds.  Simplification: the pointers of a destroyed object are dropped in the
      order of [strong]; no destructor of a stamp looks at another stamp, so the order shows
      nowhere.  Implicit destructors of the classes at [strong]. *)
  Fixpoint drain (fuel : nat) (pending : list nat) (s : store) : res store :=
    match pending with
    | [] => Ok s
    | i :: r =>
        match fuel with
        | O => Diverge
        | S f =>
            match nth_error s i with
            | None => UB
            | Some o =>
                match uses o with
                | O => UB
                | S O => drain f (strong (what o) ++ r) (upd s i (mkObject (what o) (added o) 0 (mine o)))
                | S n => drain f r (upd s i (mkObject (what o) (added o) n (mine o)))
                end
            end
        end
    end.

  (** Fuel for [drain]: the pointers there are.  No code of its own. *)
  Definition pointers_in (s : store) : nat := fold_right (fun o n => (length (strong (what o)) + n)%nat) 0%nat s.

  (** What a program can do. *)
  Inductive own_op : Type :=
  | Make (k : kind)                (* std::make_shared, kept in a variable *)
  | Share (i : nat)                (* copy of a variable *)
  | Release (i : nat)              (* end of a variable *)
  | AddWeak (p x : nat)            (* src/stamp_json.cpp:149-153 *)
  | Append (l x : nat).            (* include/blobstamper/stamp_lottery.h:211-231 *)

  (** One step; acts without a meaning (a stamp that no longer exists, a variable the program has
      not got, add_weak on a stamp that is not a pool) are undefined.  Lines as for [own_op]. *)
  Definition own_step (s : store) (o : own_op) : res store :=
    match o with
    | Make k =>
        if forallb (alive s) (mentions k)
        then s' <-- take_all s (strong k) ;; Ok (s' ++ [mkObject k [] 1 1])
        else UB
    | Share i =>
        match nth_error s i with
        | Some o => if Nat.eqb (mine o) 0 then UB else Ok (upd s i (mkObject (what o) (added o) (S (uses o)) (S (mine o))))
        | None => UB
        end
    | Release i =>
        match nth_error s i with
        | Some o => if Nat.eqb (mine o) 0 then UB
                    else drain (S (pointers_in s)) [i] (upd s i (mkObject (what o) (added o) (uses o) (pred (mine o))))
        | None => UB
        end
    | AddWeak p x =>
        match nth_error s p with
        | Some o =>
            match what o with
            | KPool _ => if alive s p && alive s x then Ok (upd s p (mkObject (what o) (added o ++ [x]) (uses o) (mine o))) else UB
            | _ => UB
            end
        | None => UB
        end
    | Append l x =>
        match nth_error s l with
        | Some o =>
            match what o with
            | KLot _ _ => if alive s l && alive s x then Ok (upd s l (mkObject (what o) (added o ++ [x]) (uses o) (mine o))) else UB
            | _ => UB
            end
        | None => UB
        end
    end.

  (** A program from its start.  No code of its own. *)
  Fixpoint own_run (s : store) (ops : list own_op) : res store :=
    match ops with
    | [] => Ok s
    | o :: r => s' <-- own_step s o ;; own_run s' r
    end.

  (** ** The stamps as src/stamp_json.cpp, src/galley.cpp etc. see them *)

  (** The stamp behind a pointer or reference to object [i]; one to a destroyed object leads
      nowhere, so that every use of it is undefined ([Stamps.get_pool]).  [n] bounds the nesting: what an object owns was made
      before it.  Classes as for [kind]. *)
  Fixpoint own_sx (n : nat) (s : store) (i : nat) : sx B :=
    let nowhere := XPool (length s) in
    match n with
    | O => nowhere
    | S n' =>
        match nth_error s i with
        | None => nowhere
        | Some o =>
            if Nat.eqb (uses o) 0 then nowhere else
            match what o with
            | KLeaf mn mx ex => XLeaf mn mx ex
            | KEnum j x => XVec j (own_sx n' s x)
            | KText j x => XVec j (own_sx n' s x)
            | KUnary op x => XUnary op (own_sx n' s x)
            | KBinary op x1 x2 => XBinary op (own_sx n' s x1) (own_sx n' s x2)
            | KSet j xs => XSet j (map (own_sx n' s) xs)
            | KHashEl a v => XHashEl (own_sx n' s a) (own_sx n' s v)
            | KPool _ => XPool i
            | KLot _ _ => XLot i
            end
        end
    end.

  (** Object [i] as a stamp.  No code of its own. *)
  Definition stamp_of (s : store) (i : nat) : sx B := own_sx (S i) s i.

  (** The members of pool or lottery [o] in order: src/stamp_json.cpp:27-35 and 149-153,
      include/blobstamper/stamp_lottery.h:36-39 and 211-231. *)
  Definition observed (o : object) : list nat :=
    match what o with KPool ms => ms ++ added o | KLot _ ms => ms ++ added o | _ => [] end.

  (** weak_pool of include/blobstamper/stamp_json.h:34: an expired pointer is [None].  Objects that
      are no pools are given an empty one that nothing points to. *)
  Definition own_pool (s : store) (o : object) : pool B :=
    mkPool (match what o with
            | KPool _ => map (fun x => if alive s x then Some (stamp_of s x) else None) (observed o)
            | _ => []
            end) false false.

  (** include/blobstamper/stamp_lottery.h:26-33; [nums]: the sizes it has stored. *)
  Definition own_lot (s : store) (nums : lotnums) (o : object) : lottery B :=
    mkLottery (match what o with KLot _ _ => map (stamp_of s) (observed o) | _ => [] end) nums
      (match what o with KLot four _ => four | _ => false end).

  (** The heap of Stamps.v.  Simplification: nobody has asked isRecursive(), so no pool is marked.
      [nums i]: what lottery [i] has stored of the sizes of its members
      (include/blobstamper/stamp_lottery.h:28-30), any numbers. *)
  Definition own_heap (s : store) (nums : nat -> lotnums) : heap B :=
    mkHeap (map (own_pool s) s) (map (fun io => own_lot s (nums (fst io)) (snd io)) (combine (seq 0 (length s)) s)).
End Owner.
Arguments kind B : clear implicits.
Arguments own_op B : clear implicits.
Arguments object B : clear implicits.
Arguments store B : clear implicits.
