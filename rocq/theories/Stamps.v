(** Composite string stamps as a graph: enumerators, math operators, hash elements, pools
    (src/stamp_json.cpp) and lotteries (include/blobstamper/stamp_lottery.h).

    Stamps hold shared pointers to other stamps; cycles arise only through pools (weak pointers) and
    lotteries (references).  A stamp is therefore a finite expression [sx] whose cyclic references
    are indices into a heap of pools and lotteries. *)
From Verif Require Import Base FloatModel Oracle Arithm StampDict StampText Galley.

(** ** Lottery arithmetic (include/blobstamper/stamp_lottery.h) on the members' sizes *)

(** include/blobstamper/stamp_lottery.h:106-117, init_oracle_size. *)
Definition init_oracle_size (n : Z) : Z :=
  if n <? 255 then 1
  else if n <? 65535 then 2
  else if n <? 4294967295 then 4
  else 8.

(** include/blobstamper/stamp_lottery.h:73-86, init_stored_min. *)
Definition init_stored_min (l : list (Z * Z)) : Z :=
  fold_left (fun m s => if fst s <? m then fst s else m) l int_max.

(** include/blobstamper/stamp_lottery.h:88-103, init_stored_max. *)
Fixpoint init_stored_max_loop (l : list (Z * Z)) (max : Z) : Z :=
  match l with
  | [] => max
  | (_, mx) :: r => if mx =? -1 then -1 else init_stored_max_loop r (if max <? mx then mx else max)
  end.
(** include/blobstamper/stamp_lottery.h:88-103. *)
Definition init_stored_max (l : list (Z * Z)) : Z := init_stored_max_loop l 0.

(** Numeric members of include/blobstamper/stamp_lottery.h:26-33. *)
Record lotnums : Type := mkLotnums { stored_min : Z; stored_max : Z; oracle_size : Z }.

(** include/blobstamper/stamp_lottery.h:36-39 and 40, constructors. *)
Definition lot_new (l : list (Z * Z)) : lotnums :=
  mkLotnums (init_stored_min l) (init_stored_max l) (init_oracle_size (zlen l)).
(** include/blobstamper/stamp_lottery.h:40. *)
Definition lot_default : lotnums := mkLotnums (-1) (-2) 1.

(** include/blobstamper/stamp_lottery.h:211-231, Append; [n] members before. *)
Definition lot_append (n : Z) (L : lotnums) (mn mx : Z) : lotnums :=
  let max' := if mx =? -1 then -1 else if stored_max L <? mx then mx else stored_max L in
  let min0 := if stored_min L =? -1 then mn else stored_min L in
  let min' := if mn <? min0 then mn else min0 in
  mkLotnums min' max' (init_oracle_size (n + 1)).

(** include/blobstamper/stamp_lottery.h:125-129 and 131-137. *)
Definition lotMinSize (L : lotnums) : res Z := int_op (stored_min L + oracle_size L).
(** include/blobstamper/stamp_lottery.h:131-137. *)
Definition lotMaxSize (L : lotnums) : res Z :=
  if stored_max L =? -1 then Ok (-1) else int_op (stored_max L + oracle_size L).

(** include/blobstamper/stamp_lottery.h:45 and 61-71, soft_maxsize_filter on the queried sizes. *)
Definition soft_filter (four_recursion : bool) (qmin qmax : res Z) (data_size : Z) : res bool :=
  if four_recursion then
    mx <-- qmax ;;
    if mx =? -1 then Ok true
    else if data_size <? mx then Ok true
    else mn <-- qmin ;; s <-- int_op (mn + mx) ;; Ok (data_size <? s)
  else Ok true.

(** Largest value of an oracle of that many bytes: include/blobstamper/stamp_lottery.h:152-173. *)
Definition oracle_max (size : Z) : Z := 2 ^ (8 * size) - 1.

Section Pick.
  Context {B : Type} `{BlobOps B}.

  (** A member as seen by an extraction: its size queries and its extractor.
      src/stamp_json.cpp:65-76, include/blobstamper/stamp_lottery.h:182-188. *)
  Definition member : Type := (res Z * res Z * M B bytes)%type.

  (** include/blobstamper/stamp_lottery.h:182-188: fitting members which pass the soft filter. *)
  Fixpoint lot_filter (four_recursion : bool) (ms : list member) (sz : Z) : res (list (M B bytes)) :=
    match ms with
    | [] => Ok []
    | (qmin, qmax, ex) :: r =>
        mn <-- qmin ;;
        if sz <? u64 mn then lot_filter four_recursion r sz
        else
          keep <-- soft_filter four_recursion qmin qmax (i32 sz) ;;
          rest <-- lot_filter four_recursion r sz ;;
          Ok (if keep then ex :: rest else rest)
    end.

  (** include/blobstamper/stamp_lottery.h:140-208, StampLottery::ExtractStr. *)
  Definition lot_extract (four_recursion : bool) (osize : Z) (ms : list member) : M B bytes :=
    oracle <- sized_oracle osize ;;
    sz <- gets Size ;;
    a0 <- lift (lot_filter four_recursion ms sz) ;;
    a <- (match a0 with [] => lift (lot_filter false ms sz) | _ => ret a0 end) ;;
    match a with
    | [] => lift OutOfData
    | _ =>
        index <- lift (pick_index oracle (oracle_max osize) (zlen a)) ;;
        if u64 index <? zlen a
        then match nth_error a (Z.to_nat (u64 index)) with Some ex => ex | None => lift UB end
        else lift UB
    end.

  (** src/stamp_json.cpp:65-76: target_pool and unbounded_pool. *)
  Fixpoint pool_filter (ms : list member) (sz : Z) : res (list (M B bytes) * list (M B bytes)) :=
    match ms with
    | [] => Ok ([], [])
    | (qmin, qmax, ex) :: r =>
        mn <-- qmin ;;
        if u64 mn <=? sz then
          mx <-- qmax ;;
          rest <-- pool_filter r sz ;;
          Ok (ex :: fst rest,
              if (mx =? -1) || (sz <=? u64 mx) then ex :: snd rest else snd rest)
        else pool_filter r sz
    end.

  (** src/stamp_json.cpp:56-101, PoolPickerStamp::ExtractStr; [self_min] is this->minSize(). *)
  Definition pool_extract (ms : list member) (self_min : res Z) : M B bytes :=
    oracle <- GetOracle ;;
    sz <- gets Size ;;
    tu <- lift (pool_filter ms sz) ;;
    let target := match snd tu with [] => fst tu | _ => snd tu end in
    match target with
    | [] => mn <- lift self_min ;; if sz <? u64 mn then lift OutOfData else lift Abort
    | _ =>
        index <- lift (OracleProportion oracle 0 (u64 (zlen target - 1))) ;;
        if index <? zlen target
        then match nth_error target (Z.to_nat index) with Some ex => ex | None => lift UB end
        else lift UB
    end.
End Pick.

(** ** Stamp expressions and the heap *)
Section Graph.
  Context {B : Type} `{BlobOps B}.

  (** The classes deriving from StampBaseStr (include/blobstamper/stamp.h:59-64): see each line. *)
  Inductive sx : Type :=
  | XLeaf (mn mx : Z) (ex : M B bytes)            (* any other StampBaseStr, library or user made *)
  | XVec (join : list bytes -> bytes) (x : sx)    (* StampStrEnumerator, stamp_enumerator.h:28-49;
                                                     StampText<T>, stamp_text.h:43-47 *)
  | XUnary (op : bytes) (x : sx)                  (* stamp_math_op.h:27-37 *)
  | XBinary (op : bytes) (x1 x2 : sx)             (* stamp_math_op.h:41-58 *)
  | XSet (join : list bytes -> bytes) (xs : list sx)
      (* user class deriving from GalleySetStr and StampBaseStr, as the "Galleys are stamps too"
         examples do: ExtractStr joins ExtractStrSet *)
  | XHashEl (name value : sx)                     (* stamp_json.h:72-83 *)
  | XPool (p : nat)                               (* pointer to pool p, stamp_json.h:30-45 *)
  | XLot (l : nat).                               (* reference to lottery l, stamp_lottery.h:23-58 *)

  (** include/blobstamper/stamp_json.h:30-45: PoolPickerStamp.  [weak_pool] entries are [None] when
      the pointed-to stamp was destroyed. *)
  Record pool : Type := mkPool {
    weak_pool : list (option sx);
    is_recursive : bool;
    is_in_recursion : bool
  }.

  (** include/blobstamper/stamp_lottery.h:23-49 and 52-58 ([four_recursion]). *)
  Record lottery : Type := mkLottery {
    lot_members : list sx;
    lot_nums : lotnums;
    four_recursion : bool
  }.

  (** All PoolPickerStamp and StampLottery objects (include/blobstamper/stamp_json.h:30-45,
      stamp_lottery.h:23-58). *)
  Record heap : Type := mkHeap { pools : list pool; lots : list lottery }.

  (** Assignment to a member of one of the objects, src/stamp_json.cpp:42-52,
      include/blobstamper/stamp_lottery.h:211-231. *)
  Fixpoint upd {A} (l : list A) (n : nat) (v : A) : list A :=
    match l, n with
    | [], _ => []
    | _ :: r, O => v :: r
    | x :: r, S n' => x :: upd r n' v
    end.

  (** Assignment to a member of pool p, src/stamp_json.cpp:42-52. *)
  Definition set_pool (h : heap) (p : nat) (P : pool) : heap := mkHeap (upd (pools h) p P) (lots h).

  (** Size queries may change the recursion marks, so they run over the heap.
      src/stamp_json.cpp:37-54 and 103-147. *)
  Definition Q (A : Type) : Type := M heap A.

  (** Pool p; a dangling index is undefined. Call through a pointer to a pool,
      src/stamp_json.cpp:45, 115, 135. *)
  Definition get_pool (p : nat) : Q pool := fun h =>
    match nth_error (pools h) p with Some P => (Ok P, h) | None => (UB, h) end.

  (** src/stamp_json.cpp:42, 48, 52, 112, 119, 132, 138, 144. *)
  Definition mark_in_recursion (p : nat) (v : bool) : Q unit := fun h =>
    match nth_error (pools h) p with
    | Some P => (Ok tt, set_pool h p (mkPool (weak_pool P) (is_recursive P) v))
    | None => (UB, h)
    end.

  (** src/stamp_json.cpp:47. *)
  Definition mark_recursive (p : nat) : Q unit := fun h =>
    match nth_error (pools h) p with
    | Some P => (Ok tt, set_pool h p (mkPool (weak_pool P) true (is_in_recursion P)))
    | None => (UB, h)
    end.

  (** Call through a reference to a lottery, include/blobstamper/stamp_lottery.h:125-137. *)
  Definition get_lot (l : nat) : Q lottery := fun h =>
    match nth_error (lots h) l with Some L => (Ok L, h) | None => (UB, h) end.

  (** include/blobstamper/stamp.h:43-45 on queries; here and below over any state [S]. *)
  Definition q_fixed {S} (qmin qmax : M S Z) : M S bool := a <- qmin ;; b <- qmax ;; ret (a =? b).
  (** include/blobstamper/stamp.h:45. *)
  Definition q_unbounded {S} (qmax : M S Z) : M S bool := b <- qmax ;; ret (b =? -1).
  (** include/blobstamper/stamp.h:44. *)
  Definition q_variated {S} (qmin qmax : M S Z) : M S bool :=
    f <- q_fixed qmin qmax ;; if f then ret false else (u <- q_unbounded qmax ;; ret (negb u)).

  (** src/galley.cpp:29-47. *)
  Definition q_vector_min {S} (qmin qmax : M S Z) : M S Z :=
    f <- q_fixed qmin qmax ;;
    if f then qmin
    else u <- q_unbounded qmax ;;
         if u then (m <- qmin ;; ret (i32 (m + ORACLE_SIZE * 2)))
         else (m <- qmin ;; ret (i32 (m + ORACLE_SIZE))).

  (** src/galley.cpp:408-421. *)
  Fixpoint q_set_totals {S} (l : list (M S Z * M S Z)) (t : totals) : M S totals :=
    match l with
    | [] => ret t
    | (qmin, qmax) :: r =>
        m <- qmin ;;
        f <- lift (int_op (t_fixed t + m)) ;;
        v <- q_variated qmin qmax ;;
        u <- q_unbounded qmax ;;
        q_set_totals r (mkTotals f (t_maxvar t)
                          (if u then t_unb t + 1 else t_unb t)
                          (if v then t_var t + 1 else t_var t))
    end.

  (** src/galley.cpp:396-431. *)
  Definition q_set_min {S} (l : list (M S Z * M S Z)) : M S Z :=
    t <- q_set_totals l (mkTotals 0 0 0 0) ;;
    let a := if (0 <? t_var t) && (0 <? t_unb t) then i32 (t_fixed t + ORACLE_SIZE) else t_fixed t in
    let b := i32 (a + ORACLE_SIZE * t_var t) in
    ret (if 1 <? t_unb t then i32 (b + ORACLE_SIZE * t_unb t) else b).

  (** src/galley.cpp:433-452. *)
  Fixpoint q_set_max {S} (l : list (M S Z * M S Z)) (r : Z) : M S Z :=
    match l with
    | [] => ret r
    | (qmin, qmax) :: rest =>
        m <- qmax ;;
        a <- lift (int_op (r + m)) ;;
        v <- q_variated qmin qmax ;;
        let b := if v then i32 (a + ORACLE_SIZE) else a in
        u <- q_unbounded qmax ;;
        if u then ret (-1) else q_set_max rest b
    end.

  (** src/stamp_json.cpp:113-118: minimum over the members. *)
  Fixpoint q_pool_min {S} (l : list (option (M S Z))) (r : Z) : M S Z :=
    match l with
    | [] => ret r
    | None :: _ => lift UB
    | Some q :: rest => c <- q ;; q_pool_min rest (if c <? r then c else r)
    end.

  (** src/stamp_json.cpp:133-143: maximum over the members, [None] when an unbounded one is met. *)
  Fixpoint q_pool_max {S} (l : list (option (M S Z))) (r : Z) : M S (option Z) :=
    match l with
    | [] => ret (Some r)
    | None :: _ => lift UB
    | Some q :: rest =>
        c <- q ;;
        if c =? -1 then ret None else q_pool_max rest (if r <? c then c else r)
    end.

  (** minSize() ([qmin] = true) and maxSize() of every stamp class. [fuel] bounds the number of
      nested entries into pools. File and lines at each case. *)
  Fixpoint query (fuel : nat) : bool -> sx -> Q Z :=
    fix go (qmin : bool) (x : sx) {struct x} : Q Z :=
      match x with
      | XLeaf mn mx _ => ret (if qmin then mn else mx)
      | XVec _ y =>                                  (* src/galley.cpp:29-47, galley.h:44 *)
          if qmin then q_vector_min (go true y) (go false y) else ret VectorMaxSize
      | XUnary _ y =>                                (* include/blobstamper/stamp_math_op.h:35-36 *)
          if qmin then go true y else ret (-1)
      | XBinary _ y1 y2 =>                           (* include/blobstamper/stamp_math_op.h:41-56 *)
          if qmin then q_set_min [(go true y1, go false y1); (go true y2, go false y2)]
          else ret (-1)
      | XSet _ ys =>
          let l := map (fun y => (go true y, go false y)) ys in
          if qmin then q_set_min l else q_set_max l 0
      | XHashEl n v =>                               (* include/blobstamper/stamp_json.h:80-81 *)
          if qmin then (a <- go true n ;; b <- go true v ;; lift (int_op (a + b))) else ret (-1)
      | XLot l =>                                    (* include/blobstamper/stamp_lottery.h:125-137 *)
          L <- get_lot l ;;
          lift (if qmin then lotMinSize (lot_nums L) else lotMaxSize (lot_nums L))
      | XPool p =>
          match fuel with
          | O => lift Diverge
          | S f =>
              P <- get_pool p ;;
              if qmin then                           (* src/stamp_json.cpp:103-124 *)
                if is_in_recursion P then ret (int_max / 2)
                else
                  _ <- mark_in_recursion p true ;;
                  r <- q_pool_min (map (option_map (query f true)) (weak_pool P)) (int_max / 2) ;;
                  _ <- mark_in_recursion p false ;;
                  ret (if r =? int_max / 2 then int_max / 2 else i32 (r + ORACLE_SIZE))
              else                                   (* src/stamp_json.cpp:126-147 *)
                if is_recursive P || is_in_recursion P then ret (-1)
                else
                  _ <- mark_in_recursion p true ;;
                  r <- q_pool_max (map (option_map (query f false)) (weak_pool P)) 0 ;;
                  _ <- mark_in_recursion p false ;;
                  ret (match r with None => -1 | Some r => i32 (r + ORACLE_SIZE) end)
          end
      end.

  (** The loop of src/stamp_json.cpp:43-51: is there a member answering true? *)
  Fixpoint q_any (l : list (option (Q bool))) : Q bool :=
    match l with
    | [] => ret false
    | None :: _ => lift UB
    | Some q :: rest => r <- q ;; if r then ret true else q_any rest
    end.

  (** isRecursive(): include/blobstamper/stamp.h:46 (is_recursive, never set outside pools, as no
      class derives from StampRecursive) and src/stamp_json.cpp:37-54. *)
  Fixpoint isRecursive (fuel : nat) (x : sx) : Q bool :=
    match x with
    | XPool p =>
        match fuel with
        | O => lift Diverge
        | S f =>
            P <- get_pool p ;;
            if is_recursive P || is_in_recursion P then ret true
            else
              _ <- mark_in_recursion p true ;;
              r <- q_any (map (option_map (isRecursive f)) (weak_pool P)) ;;
              _ <- (if r then mark_recursive p else ret tt) ;;
              _ <- mark_in_recursion p false ;;
              ret r
        end
    | _ => ret false
    end.

  (** Enough fuel for every query: pools cannot be entered twice. No code of its own: depth of the
      calls of src/stamp_json.cpp:115 and 135. *)
  Definition qfuel (h : heap) : nat := S (length (pools h)).

  (** include/blobstamper/stamp.h:38, for any stamp class. *)
  Definition minSize (h : heap) (x : sx) : res Z := fst (query (qfuel h) true x h).
  (** include/blobstamper/stamp.h:39, for any stamp class. *)
  Definition maxSize (h : heap) (x : sx) : res Z := fst (query (qfuel h) false x h).

  (** Both sizes of a list of stamps. src/galley.cpp:202-216. *)
  Fixpoint sizes_of (h : heap) (xs : list sx) : res (list (Z * Z)) :=
    match xs with
    | [] => Ok []
    | x :: r =>
        mn <-- minSize h x ;; mx <-- maxSize h x ;; rest <-- sizes_of h r ;; Ok ((mn, mx) :: rest)
    end.

  (** ExtractStr() of every stamp class. Size queries made during an extraction leave the heap
      unchanged, so it is a parameter here. [fuel] bounds the nesting of pools and lotteries. File
      and lines at each case. *)
  Fixpoint extract (fuel : nat) (h : heap) : sx -> M B bytes :=
    fix go (x : sx) {struct x} : M B bytes :=
      match x with
      | XLeaf _ _ ex => ex
      | XVec join y =>                    (* src/stamp_enumerator.cpp:26-41, stamp_text.h:54-69 *)
          mn <- lift (minSize h y) ;;
          mx <- lift (maxSize h y) ;;
          l <- ExtractVector mn mx (go y) ;;
          ret (join l)
      | XUnary op y =>                    (* src/stamp_math_op.cpp:22-26 *)
          s <- go y ;; ret (op ++ lit "(" ++ s ++ lit ")")
      | XBinary op y1 y2 =>               (* src/stamp_math_op.cpp:29-34 *)
          l <- lift (sizes_of h [y1; y2]) ;;
          chunks <- set_extract l ;;
          match chunks with
          | [c1; c2] =>
              s1 <- lift (fst (go y1 c1)) ;;
              s2 <- lift (fst (go y2 c2)) ;;
              ret (lit "(" ++ s1 ++ lit " " ++ op ++ lit " " ++ s2 ++ lit ")")
          | _ => lift UB
          end
      | XSet join ys =>                   (* src/galley.cpp:366-379 *)
          l <- lift (sizes_of h ys) ;;
          chunks <- set_extract l ;;
          r <- lift (stamp_zip (map go ys) chunks) ;;
          ret (join r)
      | XHashEl n v =>                    (* src/stamp_json.cpp:163-169 *)
          a <- go n ;; b <- go v ;; ret (a ++ lit ": " ++ b)
      | XPool p =>                        (* src/stamp_json.cpp:56-101 *)
          match fuel with
          | O => lift Diverge
          | S f =>
              match nth_error (pools h) p with
              | None => lift UB
              | Some P =>
                  pool_extract
                    (map (fun m => match m with
                                   | None => (UB, UB, lift UB)    (* expired weak pointer *)
                                   | Some y => (minSize h y, maxSize h y, extract f h y)
                                   end) (weak_pool P))
                    (minSize h x)
              end
          end
      | XLot l =>                         (* include/blobstamper/stamp_lottery.h:140-208 *)
          match fuel with
          | O => lift Diverge
          | S f =>
              match nth_error (lots h) l with
              | None => lift UB
              | Some L =>
                  lot_extract (four_recursion L) (oracle_size (lot_nums L))
                    (map (fun y => (minSize h y, maxSize h y, extract f h y)) (lot_members L))
              end
          end
      end.

  (** Every pool or lottery entered consumes at least one byte, so this fuel is never used up.
      include/blobstamper/stamp.h:62, for any stamp class. *)
  Definition ExtractStr (h : heap) (x : sx) : M B bytes := fun b =>
    extract (S (Z.to_nat (Size b))) h x b.

  (** src/stamp_json.cpp:27-35, PoolPickerStamp constructor, and 149-153, add_weak. *)
  Definition new_pool (l : list sx) : pool := mkPool (map Some l) false false.
  (** src/stamp_json.cpp:149-153. *)
  Definition add_weak (P : pool) (x : sx) : pool :=
    mkPool (weak_pool P ++ [Some x]) (is_recursive P) (is_in_recursion P).

  (** include/blobstamper/stamp_lottery.h:211-231 on the heap: sizes are queried, then stored. *)
  Definition append_lottery (h : heap) (l : nat) (x : sx) : res heap :=
    match nth_error (lots h) l with
    | None => UB
    | Some L =>
        mx <-- maxSize h x ;;
        mn <-- minSize h x ;;
        Ok (mkHeap (pools h)
              (upd (lots h) l
                 (mkLottery (lot_members L ++ [x])
                            (lot_append (zlen (lot_members L)) (lot_nums L) mn mx)
                            (four_recursion L))))
    end.
End Graph.
Arguments sx B : clear implicits.
Arguments pool B : clear implicits.
Arguments lottery B : clear implicits.
Arguments heap B : clear implicits.
Arguments member B : clear implicits.
Arguments Q B A : clear implicits.
