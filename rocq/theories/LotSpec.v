(** What lotteries and pools are supposed to do (C29-C32). *)
From Verif Require Import Base Blob BlobSpec Stamps.

Definition is_least (m : Z) (l : list Z) : Prop := In m l /\ Forall (fun x => m <= x) l.
Definition is_greatest (m : Z) (l : list Z) : Prop := In m l /\ Forall (fun x => x <= m) l.

(** Oracle bytes for n members: the least of 1, 2, 4, 8 with n < 256^w - 1; 8 if there is none. *)
Definition is_width (n w : Z) : Prop :=
  In w [1; 2; 4; 8] /\ (n < 256 ^ w - 1 \/ w = 8) /\ forall w', In w' [1; 2; 4; 8] -> w' < w -> 256 ^ w' - 1 <= n.

(** The numbers of a lottery after Append calls; the list holds the sizes that the appended stamps reported;
    [n] members before. *)
Fixpoint lot_grow (n : Z) (L : lotnums) (apps : list (Z * Z)) : lotnums :=
  match apps with
  | [] => L
  | s :: r => lot_grow (n + 1) (lot_append n L (fst s) (snd s)) r
  end.

(** A lottery just constructed: from a list of stamps, or without arguments. *)
Definition lot_start (init : list (Z * Z)) (L : lotnums) : Prop :=
  L = lot_new init \/ (init = [] /\ L = lot_default).

(** Append calls on lottery [l] of a graph; each reported its sizes at that moment. *)
Inductive appends {B} `{BlobOps B} (l : nat) : heap B -> list (sx B) -> list (Z * Z) -> heap B -> Prop :=
| app_none h : appends l h [] [] h
| app_one h x mn mx h1 xs ss h2 : minSize h x = Ok mn -> maxSize h x = Ok mx -> append_lottery h l x = Ok h1 ->
    appends l h1 xs ss h2 -> appends l h (x :: xs) ((mn, mx) :: ss) h2.

(** A stamp as a lottery or pool sees it: minSize(), maxSize() and ExtractStr. *)
Definition stamp : Type := (Z * Z * M blob bytes)%type.
Definition as_member (s : stamp) : member blob := (Ok (fst (fst s)), Ok (snd (fst s)), snd s).

(** Sizes (minSize(), maxSize()) against [n] bytes of data: it fits; it can leave less than its minSize()
    unused; it can use everything. *)
Definition fits (n : Z) (s : Z * Z) : Prop := fst s <= n.
Definition leaves_little (n : Z) (s : Z * Z) : Prop := snd s = -1 \/ n - snd s < fst s.
Definition uses_all (n : Z) (s : Z * Z) : Prop := snd s = -1 \/ n <= snd s.

(** Sizes that a StampLottery can work with; for StampLottery4Recursion minSize() + maxSize() must be an
    [int] as well. *)
Definition sane (four : bool) (s : Z * Z) : Prop :=
  0 <= fst s < 2 ^ 31 /\ (four = true -> snd s = -1 \/ (0 <= snd s /\ fst s + snd s < 2 ^ 31)).

(** The lottery was built from stamps that reported the sizes [recorded] when they were put in. *)
Definition built (L : lottery blob) (recorded : list (Z * Z)) : Prop :=
  exists init apps L0, recorded = init ++ apps /\ lot_start init L0
    /\ lot_nums L = lot_grow (zlen init) L0 apps /\ zlen (lot_members L) = zlen recorded.

(** Sizes that stamps report now. *)
Definition report (h : heap blob) (x : sx blob) (s : Z * Z) : Prop := minSize h x = Ok (fst s) /\ maxSize h x = Ok (snd s).

(** Sizes that a pool can work with: they are [int]s, maxSize() -1 or more. *)
Definition pool_sane (s : Z * Z) : Prop := 0 <= fst s < 2 ^ 31 /\ -1 <= snd s < 2 ^ 31.

(** Pool [p] of the graph, all its members alive. *)
Definition pool_of (h : heap blob) (p : nat) (ys : list (sx blob)) : Prop :=
  exists P, nth_error (pools h) p = Some P /\ weak_pool P = map Some ys.

(** A stamp that is not made of pools. *)
Inductive pool_free {B} : sx B -> Prop :=
| pf_leaf mn mx ex : pool_free (XLeaf mn mx ex)
| pf_vec j x : pool_free x -> pool_free (XVec j x)
| pf_unary o x : pool_free x -> pool_free (XUnary o x)
| pf_binary o x y : pool_free x -> pool_free y -> pool_free (XBinary o x y)
| pf_set j xs : Forall pool_free xs -> pool_free (XSet j xs)
| pf_hashel n v : pool_free n -> pool_free v -> pool_free (XHashEl n v)
| pf_lot l : pool_free (XLot l).
