(** The normal form of text (C16) and separated lists (C28). *)
From Verif Require Import Base.

(** Latin-1: NUL becomes a space, everything else stays. *)
Definition latin1_byte (c d : byte) : Prop := (bval c = 0 /\ bval d = 32) \/ (bval c <> 0 /\ d = c).

(** ASCII: the top bit is dropped, then NUL becomes a space. *)
Definition ascii_byte (c d : byte) : Prop :=
  (bval c mod 128 = 0 /\ bval d = 32) \/ (bval c mod 128 <> 0 /\ bval d = bval c mod 128).

(** s1 sep s2 sep ... sn. *)
Fixpoint separated (sep : bytes) (l : list bytes) : bytes :=
  match l with
  | [] => []
  | [s] => s
  | s :: r => s ++ sep ++ separated sep r
  end.

(** The list without its leading empty strings. *)
Fixpoint drop_empty (l : list bytes) : list bytes :=
  match l with [] :: r => drop_empty r | _ => l end.
