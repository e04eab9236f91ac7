(** src/galley.cpp, include/blobstamper/galley.h, src/stamp.cpp and the size classes of
    include/blobstamper/stamp.h.

    A galley asks its stamps only for minSize() and maxSize(); the same query is made many times and
    always gives the same answer (QueryFacts proves that queries leave the recursion marks of pools as
    they found them), so the model takes the two numbers once, as [mn] and [mx]. *)
From Verif Require Import Base FloatModel Oracle Arithm.

(** include/blobstamper/stamp.h:43-45. *)
Definition isFixedSize (mn mx : Z) : bool := mn =? mx.
(** include/blobstamper/stamp.h:45. *)
Definition isUnbounded (mn mx : Z) : bool := mx =? -1.
(** include/blobstamper/stamp.h:44. *)
Definition isVariated (mn mx : Z) : bool := negb (isFixedSize mn mx) && negb (isUnbounded mn mx).

(** ** GalleyVectorBase *)

(** src/galley.cpp:29-47, GalleyVectorBase::minSize; ORACLE_SIZE is a size_t, so the sum is taken
    modulo 2^64 and converted to int. *)
Definition VectorMinSize (mn mx : Z) : Z :=
  if isFixedSize mn mx then mn
  else if isUnbounded mn mx then i32 (mn + ORACLE_SIZE * 2)
  else i32 (mn + ORACLE_SIZE).

(** include/blobstamper/galley.h:44. *)
Definition VectorMaxSize : Z := -1.

Section Vector.
  Context {B : Type} `{BlobOps B}.

  (** src/galley.cpp:88-93: while (blob->Size() >= size). *)
  Fixpoint fixed_loop (fuel : nat) (size : Z) : M B (list B) := fun b =>
    match fuel with
    | O => (Diverge, b)
    | S f =>
        if u64 size <=? Size b
        then (el <- Chop (u64 size) ;; r <- fixed_loop f size ;; ret (el :: r)) b
        else (Ok [], b)
    end.

  (** src/galley.cpp:125-132: [n] size oracles and their sum in int. *)
  Fixpoint read_oracles (n : nat) (total : Z) : M B (list Z * Z) :=
    match n with
    | O => ret ([], total)
    | S n' =>
        o <- GetOracle ;;
        t <- lift (int_op (total + o)) ;;
        r <- read_oracles n' t ;;
        ret (o :: fst r, snd r)
    end.

  (** src/galley.cpp:147-157: sizes with carried remainder, in float. *)
  Fixpoint unbounded_loop (mn total var : Z) (os : list Z) (remainder : f32) : M B (list B) :=
    match os with
    | [] => ret []
    | o :: os' =>
        let el_size_f :=
          f32_add (f32_add (f32_of_Z mn)
                           (f32_mul (f32_div (f32_of_Z o) (f32_of_Z total)) (f32_of_Z var)))
                  remainder in
        el_size <- lift (to_int (Btrunc_Z el_size_f)) ;;
        let remainder' := f32_sub el_size_f (f32_of_Z el_size) in
        blob2 <- Chop (u64 el_size) ;;
        r <- unbounded_loop mn total var os' remainder' ;;
        ret (blob2 :: r)
    end.

  (** src/galley.cpp:116-122: number of parts for a blob of size [sz] (before the count oracle was
      taken off) and the count oracle. *)
  Definition count_target (mn sz count_oracle : Z) : Z :=
    let count_max := u64 (sz - ORACLE_SIZE) / u64 (mn + ORACLE_SIZE) in
    let t := u16 (u64 (count_max * count_oracle) / ORACLE_MAX + 1) in
    if count_max <? t then u16 count_max else t.

  (** src/galley.cpp:97-158. *)
  Definition vector_unbounded (mn : Z) : M B (list B) :=
    sz <- gets Size ;;
    if u64 (mn + ORACLE_SIZE) =? 0 then lift UB     (* division by zero *)
    else
      count_oracle <- GetOracle ;;
      let n := count_target mn sz count_oracle in
      ot <- read_oracles (Z.to_nat n) 0 ;;
      let os := if snd ot =? 0 then map (fun _ => 1) (fst ot) else fst ot in
      let total := if snd ot =? 0 then n else snd ot in
      sz2 <- gets Size ;;
      let data_size := i32 sz2 in
      fixed_data_size <- lift (int_op (mn * n)) ;;
      var_data_size <- lift (int_op (data_size - fixed_data_size)) ;;
      unbounded_loop mn total var_data_size os (f32_of_Z 0).

  (** src/galley.cpp:166-179. *)
  Fixpoint variated_loop (fuel : nat) (mn mx : Z) : M B (list B) := fun b =>
    match fuel with
    | O => (Diverge, b)
    | S f =>
        match int_op (mn + ORACLE_SIZE) with        (* stamp_oracle.minSize() is an int *)
        | Ok need =>
            if Size b <? u64 need then (Ok [], b)
            else
              (oracle <- GetOracle ;;
               p <- lift (OracleProportion oracle (u64 mn) (u64 mx)) ;;
               sz <- gets Size ;;
               let size0 := i32 p in
               let size := if sz <? u64 size0 then i32 sz else size0 in
               blob2 <- Chop (u64 size) ;;
               r <- variated_loop f mn mx ;;
               ret (blob2 :: r)) b
        | _ => (UB, b)
        end
    end.

  (** src/galley.cpp:159-180; var_size is computed and not used. *)
  Definition vector_variated (mn mx : Z) : M B (list B) := fun b =>
    (_ <- lift (int_op (mx - mn)) ;; variated_loop (S (Z.to_nat (Size b))) mn mx) b.

  (** src/galley.cpp:78-183, GalleyVectorBase::extract_internal. *)
  Definition vector_extract (mn mx : Z) : M B (list B) := fun b =>
    if Size b <? u64 mn then (OutOfData, b)
    else if isFixedSize mn mx then fixed_loop (S (Z.to_nat (Size b))) mn b
    else if isUnbounded mn mx then vector_unbounded mn b
    else vector_variated mn mx b.
End Vector.

(** ** Stamping the chunks *)
Section Each.
  Context {B A : Type}.

  (** The loops of src/galley.cpp:57-61, 71-74 and include/blobstamper/galley.h:84-87: every chunk is
      stamped on its own; the outer blob is not touched any more. *)
  Fixpoint stamp_each (ex : M B A) (l : list B) : res (list A) :=
    match l with
    | [] => Ok []
    | c :: r =>
        x <-- fst (ex c) ;;
        xs <-- stamp_each ex r ;;
        Ok (x :: xs)
    end.

  (** The loops of src/galley.cpp:371-377 and 386-392: chunk i goes to stamp i.  A stamp with no
      chunk is not reached. *)
  Fixpoint stamp_zip (exs : list (M B A)) (l : list B) : res (list A) :=
    match exs, l with
    | ex :: exs', c :: r =>
        x <-- fst (ex c) ;;
        xs <-- stamp_zip exs' r ;;
        Ok (x :: xs)
    | _, _ => Ok []
    end.
End Each.

(** src/galley.cpp:51-63 ExtractStrVector, 65-76 ExtractBinVector and
    include/blobstamper/galley.h:78-89 ExtractValuesVector. *)
Definition ExtractVector {B A} `{BlobOps B} (mn mx : Z) (ex : M B A) : M B (list A) :=
  chunks <- vector_extract mn mx ;; lift (stamp_each ex chunks).

(** ** GalleySetBase *)

(** Totals of src/galley.cpp:202-216. *)
Record totals : Type := mkTotals {
  t_fixed : Z;        (* fixed_total_size *)
  t_maxvar : Z;       (* max_varited_total_size *)
  t_unb : Z;          (* unbounded_count *)
  t_var : Z           (* variated_count *)
}.

(** src/galley.cpp:202-216. *)
Fixpoint set_totals (l : list (Z * Z)) (t : totals) : res totals :=
  match l with
  | [] => Ok t
  | (mn, mx) :: r =>
      f <-- int_op (t_fixed t + mn) ;;
      mv <-- (if isVariated mn mx
              then (d <-- int_op (mx - mn) ;; int_op (t_maxvar t + d))
              else Ok (t_maxvar t)) ;;
      set_totals r (mkTotals f mv
        (if isUnbounded mn mx then t_unb t + 1 else t_unb t)
        (if isVariated mn mx then t_var t + 1 else t_var t))
  end.

(** src/galley.cpp:217-225: the oracles (size_t arithmetic, stored into int). *)
Definition set_fixed_total (t : totals) : Z :=
  let a := i32 (t_fixed t + ORACLE_SIZE * t_var t) in
  let b := if 1 <? t_unb t then i32 (a + ORACLE_SIZE * t_unb t) else a in
  if (0 <? t_var t) && (0 <? t_unb t) then i32 (b + ORACLE_SIZE) else b.

Section Set_.
  Context {B : Type} `{BlobOps B}.

  (** src/galley.cpp:258-282: modifiers, predicted_variated_total_size, total_unbounded_modifiers. *)
  Fixpoint read_modifiers (uc : Z) (l : list (Z * Z)) (pred totu : f64) : M B (list f64 * f64 * f64) :=
    match l with
    | [] => ret ([], pred, totu)
    | (mn, mx) :: r =>
        if isFixedSize mn mx then
          x <- read_modifiers uc r pred totu ;;
          ret (f64_of_Z 0 :: fst (fst x), snd (fst x), snd x)
        else
          md <- (if isUnbounded mn mx && (uc <=? 1) then ret (f64_of_Z 1)
                 else (o <- GetOracle ;; ret (f64_div (f64_of_Z o) (f64_of_Z ORACLE_MAX)))) ;;
          x <- (if isUnbounded mn mx
                then read_modifiers uc r pred (f64_add totu md)
                else (d <- lift (int_op (mx - mn)) ;;
                      read_modifiers uc r (f64_add pred (f64_mul (f64_of_Z d) md)) totu)) ;;
          ret (md :: fst (fst x), snd (fst x), snd x)
    end.

  (** src/galley.cpp:283-295: all unbounded modifiers become 1 if their sum is 0. *)
  Fixpoint reset_modifiers (l : list (Z * Z)) (mods : list f64) (totu : f64) : list f64 * f64 :=
    match l, mods with
    | (mn, mx) :: r, m :: ms =>
        if isUnbounded mn mx
        then let x := reset_modifiers r ms (f64_add totu (f64_of_Z 1)) in (f64_of_Z 1 :: fst x, snd x)
        else let x := reset_modifiers r ms totu in (m :: fst x, snd x)
    | _, _ => (mods, totu)
    end.

  (** One size of src/galley.cpp:335-345: el_size = round(len), the new remainder, el_size += mn. *)
  Definition el_round (mn : Z) (len : f64) : res (Z * f64) :=
    el <-- to_int (Bround_Z len) ;;
    el' <-- int_op (el + mn) ;;
    Ok (el', f64_sub len (f64_of_Z el)).

  (** src/galley.cpp:319-349: sizes and chunks.  The three ifs follow each other; a stamp with
      minSize() == maxSize() == -1 would satisfy the first and the last. *)
  Fixpoint set_chunks (l : list (Z * Z)) (mods : list f64) (kv ku vrem urem : f64) : M B (list B) :=
    match l, mods with
    | (mn, mx) :: r, md :: ms =>
        s1 <- lift (if isVariated mn mx
                    then (d <-- int_op (mx - mn) ;;
                          x <-- el_round mn (f64_add (f64_mul (f64_mul (f64_of_Z d) md) kv) vrem) ;;
                          Ok (fst x, snd x, urem))
                    else if isUnbounded mn mx
                    then (x <-- el_round mn (f64_add (f64_mul md ku) urem) ;;
                          Ok (fst x, vrem, snd x))
                    else Ok (mn, vrem, urem)) ;;
        blob2 <- Chop (u64 (fst (fst s1))) ;;
        rest <- set_chunks r ms kv ku (snd (fst s1)) (snd s1) ;;
        ret (blob2 :: rest)
    | _, _ => ret []
    end.

  (** src/galley.cpp:187-351, GalleySetBase::extract_internal; stamps as (minSize, maxSize). *)
  Definition set_extract (l : list (Z * Z)) : M B (list B) :=
    t <- lift (set_totals l (mkTotals 0 0 0 0)) ;;
    let fixed_total := set_fixed_total t in
    let has_var := 0 <? t_var t in
    let has_unb := 0 <? t_unb t in
    sz <- gets Size ;;
    if sz <? u64 fixed_total then lift OutOfData
    else
      let avail := i32 (sz - u64 fixed_total) in
      let limit0 := if avail <? t_maxvar t then avail else t_maxvar t in
      limit <- (if has_var && has_unb then
                  o <- GetOracle ;;
                  p <- lift (to_int (Bround_Z (f64_mul (f64_div (f64_of_Z o) (f64_of_Z ORACLE_MAX))
                                                       (f64_of_Z avail)))) ;;
                  ret (if p <? limit0 then p else limit0)
                else ret limit0) ;;
      x <- read_modifiers (t_unb t) l (f64_of_Z 0) (f64_of_Z 0) ;;
      let mods0 := fst (fst x) in
      let pred := snd (fst x) in
      let totu0 := snd x in
      let mt := if f64_eq totu0 (f64_of_Z 0) then reset_modifiers l mods0 (f64_of_Z 0)
                else (mods0, totu0) in
      final_var <- lift (if f64_lt pred (f64_of_Z limit) then to_int (Bround_Z pred) else Ok limit) ;;
      let kv := if has_var then f64_div (f64_of_Z final_var) pred else f64_of_Z 1 in
      final_unb <- lift (int_op (avail - final_var)) ;;
      let ku := if has_unb then f64_div (f64_of_Z final_unb) (snd mt) else f64_of_Z 1 in
      set_chunks l (fst mt) kv ku (f64_of_Z 0) (f64_of_Z 0).
End Set_.

(** src/galley.cpp:366-379 ExtractStrSet and 381-394 ExtractBinSet; stamps as sizes and extractor. *)
Definition ExtractSet {B A} `{BlobOps B} (l : list (Z * Z * M B A)) : M B (list A) :=
  chunks <- set_extract (map fst l) ;; lift (stamp_zip (map snd l) chunks).

(** src/galley.cpp:408-421: sum of minSize() and the counts. *)
Fixpoint set_min_totals (l : list (Z * Z)) (t : totals) : res totals :=
  match l with
  | [] => Ok t
  | (mn, mx) :: r =>
      f <-- int_op (t_fixed t + mn) ;;
      set_min_totals r (mkTotals f (t_maxvar t)
        (if isUnbounded mn mx then t_unb t + 1 else t_unb t)
        (if isVariated mn mx then t_var t + 1 else t_var t))
  end.

(** src/galley.cpp:396-431, GalleySetBase::minSize. *)
Definition SetMinSize (l : list (Z * Z)) : res Z :=
  t <-- set_min_totals l (mkTotals 0 0 0 0) ;;
  let a := if (0 <? t_var t) && (0 <? t_unb t) then i32 (t_fixed t + ORACLE_SIZE) else t_fixed t in
  let b := i32 (a + ORACLE_SIZE * t_var t) in
  Ok (if 1 <? t_unb t then i32 (b + ORACLE_SIZE * t_unb t) else b).

(** src/galley.cpp:433-452, GalleySetBase::maxSize. *)
Fixpoint set_max_loop (l : list (Z * Z)) (r : Z) : res Z :=
  match l with
  | [] => Ok r
  | (mn, mx) :: rest =>
      a <-- int_op (r + mx) ;;
      let b := if isVariated mn mx then i32 (a + ORACLE_SIZE) else a in
      if isUnbounded mn mx then Ok (-1) else set_max_loop rest b
  end.
(** src/galley.cpp:433-452. *)
Definition SetMaxSize (l : list (Z * Z)) : res Z := set_max_loop l 0.

(** ** StampBase::Load *)

(** src/stamp.cpp:30-49: the bitten blob. *)
Definition Load {B} `{BlobOps B} (mn mx : Z) : M B B := fun b =>
  if Size b <? u64 mn then (OutOfData, b)
  else
    let res_size :=
      if isUnbounded mn mx then Size b
      else if Size b <? u64 mx then Size b else u64 mx in
    Chop res_size b.

(** The stamps' bitten_blob members (include/blobstamper/stamp.h:34): stamp object -> loaded blob. *)
Definition loads (B : Type) : Type := nat -> option B.
(** Assignment to bitten_blob, src/stamp.cpp:48. *)
Definition loads_set {B} (st : loads B) (s : nat) (v : option B) : loads B :=
  fun s' => if Nat.eqb s' s then v else st s'.

(** One Load on stamp object [s]. src/stamp.cpp:30-49. *)
Definition LoadInto {B} `{BlobOps B} (s : nat) (mn mx : Z) (st : loads B) : M B (loads B) :=
  bitten <- Load mn mx ;; ret (loads_set st s (Some bitten)).

(** src/galley.cpp:353-363, GalleySetBase::LoadAll; the stamps are given as object and sizes.  On an
    exception the stamps loaded so far keep their data, which is why the state is returned besides
    the outcome. *)
Fixpoint load_each {B} `{BlobOps B} (l : list (nat * (Z * Z))) (cs : list B) (st : loads B)
  : res unit * loads B :=
  match l, cs with
  | (s, (mn, mx)) :: r, c :: cs' =>
      match fst (Load mn mx c) with
      | Ok bitten => load_each r cs' (loads_set st s (Some bitten))
      | OutOfData => (OutOfData, st)
      | UB => (UB, st)
      | Abort => (Abort, st)
      | Diverge => (Diverge, st)
      end
  | _, _ => (Ok tt, st)
  end.

(** src/galley.cpp:353-363. *)
Definition LoadAll {B} `{BlobOps B} (l : list (nat * (Z * Z))) (st : loads B) : M B (res unit * loads B) :=
  chunks <- set_extract (map snd l) ;; ret (load_each l chunks st).

(** include/blobstamper/stamp.h:63 and 71, 79, 98: UnloadX() is ExtractX(bitten_blob); extraction
    through a null shared_ptr is undefined. *)
Definition Unload {B A} (ex : M B A) (s : nat) (st : loads B) : res A * loads B :=
  match st s with
  | None => (UB, st)
  | Some c => let x := ex c in (fst x, loads_set st s (Some (snd x)))
  end.
