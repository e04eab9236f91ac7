(** Unfolding equations of the recursive functions of Stamps.v. *)
From Verif Require Import Base BaseFacts Oracle Arithm StampDict StampText Galley Stamps.

Section Eq.
  Context {B : Type} `{BlobOps B}.
  Implicit Types (h : heap B) (x y n v : sx B) (f : nat) (xs : list (sx B)).

  Lemma query_leaf f q mn mx (ex : M B bytes) : query f q (XLeaf mn mx ex) = ret (if q then mn else mx).
  Proof. destruct f; reflexivity. Qed.
  Lemma query_vec f q j x : query f q (XVec j x) =
    if q then q_vector_min (query f true x) (query f false x) else ret (-1).
  Proof. destruct f; reflexivity. Qed.
  Lemma query_unary f q o x : query f q (XUnary o x) = if q then query f true x else ret (-1).
  Proof. destruct f; reflexivity. Qed.
  Lemma query_binary f q o x y : query f q (XBinary o x y) =
    if q then q_set_min [(query f true x, query f false x); (query f true y, query f false y)]
    else ret (-1).
  Proof. destruct f; reflexivity. Qed.
  Lemma query_set f q j xs : query f q (XSet j xs) =
    let l := map (fun y => (query f true y, query f false y)) xs in
    if q then q_set_min l else q_set_max l 0.
  Proof. destruct f; reflexivity. Qed.
  Lemma query_hashel f q n v : query f q (XHashEl n v) =
    if q then (a <- query f true n ;; b <- query f true v ;; lift (int_op (a + b))) else ret (-1).
  Proof. destruct f; reflexivity. Qed.
  Lemma query_lot f q l : query f q (XLot (B := B) l) =
    (L <- get_lot l ;; lift (if q then lotMinSize (lot_nums L) else lotMaxSize (lot_nums L))).
  Proof. destruct f; reflexivity. Qed.
  Lemma query_pool_0 q p : query 0 q (XPool (B := B) p) = lift Diverge.
  Proof. reflexivity. Qed.
  Lemma query_pool_S f q p : query (S f) q (XPool (B := B) p) =
    (P <- get_pool p ;;
     if q then
       if is_in_recursion P then ret (int_max / 2)
       else
         _ <- mark_in_recursion p true ;;
         r <- q_pool_min (map (option_map (query f true)) (weak_pool P)) (int_max / 2) ;;
         _ <- mark_in_recursion p false ;;
         ret (if r =? int_max / 2 then int_max / 2 else i32 (r + ORACLE_SIZE))
     else
       if is_recursive P || is_in_recursion P then ret (-1)
       else
         _ <- mark_in_recursion p true ;;
         r <- q_pool_max (map (option_map (query f false)) (weak_pool P)) 0 ;;
         _ <- mark_in_recursion p false ;;
         ret (match r with None => -1 | Some r => i32 (r + ORACLE_SIZE) end)).
  Proof. reflexivity. Qed.

  Lemma extract_leaf f h mn mx ex : extract f h (XLeaf mn mx ex) = ex.
  Proof. destruct f; reflexivity. Qed.
  Lemma extract_vec f h j x : extract f h (XVec j x) =
    (mn <- lift (minSize h x) ;; mx <- lift (maxSize h x) ;;
     l <- ExtractVector mn mx (extract f h x) ;; ret (j l)).
  Proof. destruct f; reflexivity. Qed.
  Lemma extract_unary f h o x : extract f h (XUnary o x) =
    (s <- extract f h x ;; ret (o ++ lit "(" ++ s ++ lit ")")).
  Proof. destruct f; reflexivity. Qed.
  Lemma extract_binary f h o x y : extract f h (XBinary o x y) =
    (l <- lift (sizes_of h [x; y]) ;;
     chunks <- set_extract l ;;
     match chunks with
     | [c1; c2] =>
         s1 <- lift (fst (extract f h x c1)) ;;
         s2 <- lift (fst (extract f h y c2)) ;;
         ret (lit "(" ++ s1 ++ lit " " ++ o ++ lit " " ++ s2 ++ lit ")")
     | _ => lift UB
     end).
  Proof. destruct f; reflexivity. Qed.
  Lemma extract_set f h j xs : extract f h (XSet j xs) =
    (l <- lift (sizes_of h xs) ;;
     chunks <- set_extract l ;;
     r <- lift (stamp_zip (map (extract f h) xs) chunks) ;;
     ret (j r)).
  Proof. destruct f; reflexivity. Qed.
  Lemma extract_hashel f h n v : extract f h (XHashEl n v) =
    (a <- extract f h n ;; b <- extract f h v ;; ret (a ++ lit ": " ++ b)).
  Proof. destruct f; reflexivity. Qed.
  Lemma extract_pool_0 h p : extract 0 h (XPool p) = lift Diverge.
  Proof. reflexivity. Qed.
  Lemma extract_pool_S f h p : extract (S f) h (XPool p) =
    match nth_error (pools h) p with
    | None => lift UB
    | Some P =>
        pool_extract
          (map (fun m => match m with
                         | None => (UB, UB, lift UB)
                         | Some y => (minSize h y, maxSize h y, extract f h y)
                         end) (weak_pool P))
          (minSize h (XPool p))
    end.
  Proof. reflexivity. Qed.
  Lemma extract_lot_0 h l : extract 0 h (XLot l) = lift Diverge.
  Proof. reflexivity. Qed.
  Lemma extract_lot_S f h l : extract (S f) h (XLot l) =
    match nth_error (lots h) l with
    | None => lift UB
    | Some L =>
        lot_extract (four_recursion L) (oracle_size (lot_nums L))
          (map (fun y => (minSize h y, maxSize h y, extract f h y)) (lot_members L))
    end.
  Proof. reflexivity. Qed.
End Eq.

Ltac unf_query :=
  rewrite ?query_leaf, ?query_vec, ?query_unary, ?query_binary, ?query_set, ?query_hashel, ?query_lot.
Ltac unf_extract :=
  rewrite ?extract_leaf, ?extract_vec, ?extract_unary, ?extract_binary, ?extract_set, ?extract_hashel,
    ?extract_pool_0, ?extract_pool_S, ?extract_lot_0, ?extract_lot_S.
