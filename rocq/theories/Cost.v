(** How many calls one size query makes: minSize() and maxSize() of Stamps.v with a counter.

    The answers are worked out by the same code as in Stamps.v ([q_vector_min] and the others, which
    do not care what the state is); only the cases of [query] are written again, with a tick at the
    entry of every minSize() and maxSize().  isFixedSize(), isVariated() and isUnbounded()
    (include/blobstamper/stamp.h:43-45) are not counted themselves, the calls they make are. *)
From Verif Require Import Base Oracle Galley Stamps.

Section Cost.
  Context {B : Type}.

  (** A size query beside the number of minSize() and maxSize() calls entered so far. No code of its
      own: what a counter at the first line of every minSize() and maxSize() would show, e.g.
      src/galley.cpp:30, src/stamp_json.cpp:104. *)
  Definition C (A : Type) : Type := M (heap B * Z) A.

  (** One more call entered. No code of its own, see [C]; e.g. src/galley.cpp:30. *)
  Definition tick : C unit := fun s => (Ok tt, (fst s, snd s + 1)).

  (** Steps which call no other stamp: reading and setting the members of a pool or lottery,
      src/stamp_json.cpp:110-112, 119, 130-132, 144; include/blobstamper/stamp_lottery.h:125-137. *)
  Definition onheap {A} (q : Q B A) : C A := fun s =>
    (fst (q (fst s)), (snd (q (fst s)), snd s)).

  (** minSize() ([qmin] = true) and maxSize() of every stamp class, counted; [fuel] as in [query].
      File and lines at each case. *)
  Fixpoint cquery (fuel : nat) : bool -> sx B -> C Z :=
    fix go (qmin : bool) (x : sx B) {struct x} : C Z :=
      _ <- tick ;;
      match x with
      | XLeaf mn mx _ => ret (if qmin then mn else mx)
      | XVec _ y =>                                  (* src/galley.cpp:29-47, galley.h:44 *)
          if qmin then q_vector_min (go true y) (go false y) else ret VectorMaxSize
      | XUnary _ y =>                                (* include/blobstamper/stamp_math_op.h:35-36 *)
          if qmin then go true y else ret (-1)
      | XBinary _ y1 y2 =>                           (* include/blobstamper/stamp_math_op.h:41-56 *)
          if qmin then q_set_min [(go true y1, go false y1); (go true y2, go false y2)]
          else ret (-1)
      | XSet _ ys =>                                 (* src/galley.cpp:396-452 *)
          let l := map (fun y => (go true y, go false y)) ys in
          if qmin then q_set_min l else q_set_max l 0
      | XHashEl n v =>                               (* include/blobstamper/stamp_json.h:80-81 *)
          if qmin then (a <- go true n ;; b <- go true v ;; lift (int_op (a + b))) else ret (-1)
      | XLot l =>                                    (* include/blobstamper/stamp_lottery.h:125-137 *)
          L <- onheap (get_lot l) ;;
          lift (if qmin then lotMinSize (lot_nums L) else lotMaxSize (lot_nums L))
      | XPool p =>
          match fuel with
          | O => lift Diverge
          | S f =>
              P <- onheap (get_pool p) ;;
              if qmin then                           (* src/stamp_json.cpp:103-124 *)
                if is_in_recursion P then ret (int_max / 2)
                else
                  _ <- onheap (mark_in_recursion p true) ;;
                  r <- q_pool_min (map (option_map (cquery f true)) (weak_pool P)) (int_max / 2) ;;
                  _ <- onheap (mark_in_recursion p false) ;;
                  ret (if r =? int_max / 2 then int_max / 2 else i32 (r + ORACLE_SIZE))
              else                                   (* src/stamp_json.cpp:126-147 *)
                if is_recursive P || is_in_recursion P then ret (-1)
                else
                  _ <- onheap (mark_in_recursion p true) ;;
                  r <- q_pool_max (map (option_map (cquery f false)) (weak_pool P)) 0 ;;
                  _ <- onheap (mark_in_recursion p false) ;;
                  ret (match r with None => -1 | Some r => i32 (r + ORACLE_SIZE) end)
          end
      end.

  (** A counted minSize() from a fresh counter: the answer and the number of calls, the outermost one
      among them. include/blobstamper/stamp.h:38. *)
  Definition minSize_counted (h : heap B) (x : sx B) : res Z * Z :=
    let r := cquery (qfuel h) true x (h, 0) in (fst r, snd (snd r)).
  (** The same for maxSize(). include/blobstamper/stamp.h:39. *)
  Definition maxSize_counted (h : heap B) (x : sx B) : res Z * Z :=
    let r := cquery (qfuel h) false x (h, 0) in (fst r, snd (snd r)).
End Cost.
Arguments C : clear implicits.
