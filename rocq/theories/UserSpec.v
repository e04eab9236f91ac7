(** Stamps that users write: bytes up to a NUL, complex numbers, stamps applied in turn (C69, C70). *)
From Verif Require Import Base Blob BlobSpec RunSpec Arithm ArithSpec TextSpec Readme.

(** [s] is the part of [d] before its first NUL, all of [d] if there is none. *)
Definition until_nul (d s : bytes) : Prop :=
  Forall (fun c => bval c <> 0) s /\ (d = s \/ exists r, d = s ++ x00 :: r).

(** [d] is the memory of a complex number: its two parts, one after the other. *)
Definition complex_data (c : complex_short) (d : bytes) : Prop :=
  exists x y, d = x ++ y /\ represents Short (c_re c) x /\ represents Short (c_im c) y.

(** [s] is "RE + IMi" with decimal numerals. *)
Definition complex_text (c : complex_short) (s : bytes) : Prop :=
  exists x y, s = x ++ lit " + " ++ y ++ lit "i" /\ read_int x = Some (c_re c) /\ read_int y = Some (c_im c).

(** The texts of the numbers in brackets, with ", " between them. *)
Definition complex_array_text (cs : list complex_short) (s : bytes) : Prop :=
  exists texts, Forall2 complex_text cs texts /\ s = lit "[" ++ separated (lit ", ") texts ++ lit "]".

(** Of [n] bytes a greedy stamp of maxSize() [mx] takes as many as it may. *)
Definition appetite (mx n : Z) : Z := if mx =? -1 then n else Z.min mx n.

(** Less than [mn] bytes: OutOfData; otherwise a value, and as much as allowed is taken from the front. *)
Definition greedy {A} (mn mx : Z) (ex : M blob A) : Prop :=
  forall b d, holds b d ->
    (zlen d < mn -> exists rest, runs ex b OutOfData rest)
    /\ (mn <= zlen d -> exists v, runs ex b (Ok v) (skipn (Z.to_nat (appetite mx (zlen d))) d)).

(** A stamp with its sizes: of minSize() above 0, greedy. *)
Definition greedy_stamp {A} (s : Z * Z * M blob A) : Prop :=
  0 < fst (fst s) /\ (snd (fst s) = -1 \/ fst (fst s) <= snd (fst s)) /\ greedy (fst (fst s)) (snd (fst s)) (snd s).

(** A stamp of a fixed size, one with a maximum. *)
Definition fixed_size {A} (s : Z * Z * M blob A) : Prop := fst (fst s) = snd (fst s).
Definition limited {A} (s : Z * Z * M blob A) : Prop := snd (fst s) <> -1.

(** Sums of the maximum sizes and of the minimum sizes. *)
Definition max_sum {A} (l : list (Z * Z * M blob A)) : Z := fold_right Z.add 0 (map (fun s => snd (fst s)) l).
Definition min_sum {A} (l : list (Z * Z * M blob A)) : Z := fold_right Z.add 0 (map (fun s => fst (fst s)) l).

(** minSize() and maxSize() are exact: a string from [mn] bytes on and OutOfData below; never more than [mx] bytes are
    taken, and that many are if they are there; -1: there is no limit to what is taken. *)
Definition exact_sizes (s : Z * Z * M blob bytes) : Prop :=
  let '(mn, mx, ex) := s in
  (forall b d, holds b d -> if zlen d <? mn then exists rest, runs ex b OutOfData rest else exists v rest, runs ex b (Ok v) rest)
  /\ (mx <> -1 -> forall b d, holds b d -> mn <= zlen d -> exists v rest, runs ex b (Ok v) rest /\ zlen d - zlen rest = Z.min mx (zlen d))
  /\ (mx = -1 -> forall n, 0 <= n < 2 ^ 62 -> exists b d v rest, holds b d /\ runs ex b (Ok v) rest /\ n <= zlen d - zlen rest).
