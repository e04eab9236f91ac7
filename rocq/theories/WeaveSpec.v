(** The parts of a division can be changed one by one (C68). *)
From Verif Require Import Base Blob BlobSpec RunSpec.

(** [parts] in their order, with [gaps] before, between and after them (one gap more than parts). *)
Fixpoint weave (gaps parts : list bytes) : bytes :=
  match gaps, parts with
  | g :: gs, p :: ps => g ++ p ++ weave gs ps
  | g :: _, [] => g
  | [], _ => []
  end.

(** The bytes [d] are [parts] with [gaps] around them, followed by [rest]. *)
Definition laid_out (d : bytes) (gaps parts : list bytes) (rest : bytes) : Prop :=
  length gaps = S (length parts) /\ d = weave gaps parts ++ rest.

(** As many parts, each as long as its counterpart. *)
Definition same_lengths (parts parts2 : list bytes) : Prop := map (@zlen byte) parts2 = map (@zlen byte) parts.

(** Whenever [f] divides a blob, it reads the division off the gaps alone: other parts of the same lengths, and
    another rest of the same length, in the same places, come out as they are. *)
Definition divides_by_gaps (f : M blob (list blob)) : Prop :=
  forall b d parts rest, holds b d -> cuts f b parts rest ->
  exists gaps, laid_out d gaps parts rest /\
    forall d2 parts2 rest2 b2, laid_out d2 gaps parts2 rest2 -> same_lengths parts parts2 -> zlen rest2 = zlen rest ->
      holds b2 d2 -> cuts f b2 parts2 rest2.

(** The stamp [ex] makes [v] of the bytes [p], wherever they are. *)
Definition makes {A} (ex : M blob A) (p : bytes) (v : A) : Prop := forall c, holds c p -> fst (ex c) = Ok v.

(** The stamps [exs] make [vals] of [parts], each of its own. *)
Inductive each_makes {A} : list (M blob A) -> list bytes -> list A -> Prop :=
| em_nil : each_makes [] [] []
| em_cons ex p v exs ps vs : makes ex p v -> each_makes exs ps vs -> each_makes (ex :: exs) (p :: ps) (v :: vs).

(** Whenever [f] returns something from a blob, the blob is laid out in parts and gaps, the result is [j] of the values
    made of the parts, and with other parts of the same lengths in the same places it is [j] of what is made of those. *)
Definition made_of_parts {A C} (made : list bytes -> list A -> Prop) (j : list A -> C) (f : M blob C) : Prop :=
  forall b d r rest, holds b d -> runs f b (Ok r) rest ->
  exists gaps parts vals, laid_out d gaps parts rest /\ made parts vals /\ r = j vals /\
    forall d2 parts2 vals2 rest2 b2, laid_out d2 gaps parts2 rest2 -> same_lengths parts parts2 -> zlen rest2 = zlen rest ->
      made parts2 vals2 -> holds b2 d2 -> runs f b2 (Ok (j vals2)) rest2.

(** The text of a binary operator around its two operands. *)
Definition binary_text (op : bytes) (l : list bytes) : bytes :=
  match l with
  | [t1; t2] => lit "(" ++ t1 ++ lit " " ++ op ++ lit " " ++ t2 ++ lit ")"
  | _ => []
  end.
