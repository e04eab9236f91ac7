(** Points and lines: their bytes and their texts (C57). *)
From Verif Require Import Base Arithm ArithSpec TextSpec Points.

(** [d] is the memory of a point: its three coordinates, one after the other. *)
Definition point_data (p : Point3D) (d : bytes) : Prop :=
  exists x y z, d = x ++ y ++ z /\ represents Short (pX p) x /\ represents Short (pY p) y /\ represents Short (pZ p) z.

(** [s] is "(X, Y, Z)" with decimal numerals. *)
Definition point_text (p : Point3D) (s : bytes) : Prop :=
  exists x y z, s = lit "(" ++ x ++ lit ", " ++ y ++ lit ", " ++ z ++ lit ")"
    /\ read_int x = Some (pX p) /\ read_int y = Some (pY p) /\ read_int z = Some (pZ p).

(** The texts of the points in brackets, with separators between them. *)
Definition line_text (sep : bytes) (ps : list Point3D) (s : bytes) : Prop :=
  exists texts, Forall2 point_text ps texts /\ s = lit "(" ++ separated sep texts ++ lit ")".

(** Coordinates a short int can have. *)
Definition short_point (p : Point3D) : Prop :=
  -32768 <= pX p <= 32767 /\ -32768 <= pY p <= 32767 /\ -32768 <= pZ p <= 32767.
