(** examples/exampleZZ.cpp: formulas from a StampLottery4Recursion that holds operators over itself. *)
From Verif Require Import Base Blob Arithm StampDict DictWords Galley Stamps.

Section Formula.
  Context {B : Type} `{BlobOps B}.

  (** examples/exampleZZ.cpp:11-34, BinaryOp: ExtractStr, minSize() and maxSize() are those of
      StampMathBinaryOp ([XBinary], include/blobstamper/stamp_math_op.h:41-58).  The example hands over
      references where GalleySetBase (include/blobstamper/galley.h:93-97) takes shared pointers by now; who
      owns the stamps is not modelled. *)
  Definition BinaryOp (op_name : bytes) (stamp1 stamp2 : sx B) : sx B := XBinary op_name stamp1 stamp2.

  (** examples/exampleZZ.cpp:55-58: the stamps of numbers and words. *)
  Definition zz_leaves : list (sx B) :=
    [XLeaf (sizeof UChar) (sizeof UChar) (ArithExtractStr UChar);
     XLeaf (DictMinSize DictLCAlphaSmall) (DictMaxSize DictLCAlphaSmall) (DictExtractStr DictLCAlphaSmall)].

  (** examples/exampleZZ.cpp:60, constructor of the lottery, which is lottery 0. *)
  Definition zz_lottery : heap B :=
    mkHeap [] [mkLottery zz_leaves
                 (lot_new [(sizeof UChar, sizeof UChar); (DictMinSize DictLCAlphaSmall, DictMaxSize DictLCAlphaSmall)]) true].
  (** examples/exampleZZ.cpp:60, the object stamp_lot. *)
  Definition stamp_lot : sx B := XLot 0.

  (** examples/exampleZZ.cpp:62-66, the loop over the names of operators. *)
  Fixpoint zz_append (h : heap B) (ops : list bytes) : res (heap B) :=
    match ops with
    | [] => Ok h
    | op_name :: r => h1 <-- append_lottery h 0 (BinaryOp op_name stamp_lot stamp_lot) ;; zz_append h1 r
    end.
  (** examples/exampleZZ.cpp:55-66. *)
  Definition zz_build (ops : list bytes) : res (heap B) := zz_append zz_lottery ops.
End Formula.

(** examples/exampleZZ.cpp:36. *)
Definition zz_ops : list bytes := map lit ["+"%string; "-"%string; "*"%string; "/"%string; "^"%string].

(** strlen() of the characters at the beginning of array [m]; examples/exampleZZ.cpp:68. *)
Fixpoint strlen (m : bytes) : res Z :=
  match m with
  | [] => UB
  | c :: r => if bval c =? 0 then Ok 0 else n <-- strlen r ;; Ok (n + 1)
  end.

(** examples/exampleZZ.cpp:68-72; [n] bounds the number of rounds.  The result is the list of the numbers and
    texts printed. *)
Fixpoint zz_loop (n : nat) (h : heap blob) (data : bytes) (i : Z) : res (list (Z * bytes)) :=
  match n with
  | O => Diverge
  | S n' =>
      len <-- strlen data ;;
      if u64 i <=? len then
        s <-- fst (ExtractStr h stamp_lot (newBlob data (Some 0) (u64 i))) ;;
        i1 <-- int_op (i + 1) ;;
        r <-- zz_loop n' h data i1 ;;
        Ok ((i, s) :: r)
      else Ok []
  end.
(** examples/exampleZZ.cpp:38-73, main, for any operators and any data. *)
Definition zz_main (ops : list bytes) (data : bytes) : res (list (Z * bytes)) :=
  h <-- zz_build ops ;;
  mn <-- minSize h stamp_lot ;;
  zz_loop (S (length data)) h data mn.
