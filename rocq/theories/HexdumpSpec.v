(** What hexdump is supposed to print (C45). *)
From Verif Require Import Base.

(** Hexadecimal digit of a value 0..15. *)
Definition hexchar (v : Z) : byte := nth (Z.to_nat v) (lit "0123456789ABCDEF") x00.

(** The value of a text of hexadecimal digits. *)
Definition hexchar_value (c : byte) : option Z :=
  let v := bval c in
  if (48 <=? v) && (v <=? 57) then Some (v - 48)
  else if (65 <=? v) && (v <=? 70) then Some (v - 55)
  else None.

Fixpoint hex_value (acc : Z) (s : bytes) : option Z :=
  match s with
  | [] => Some acc
  | c :: r => match hexchar_value c with Some d => hex_value (16 * acc + d) r | None => None end
  end.

(** Bytes in hexadecimal, a blank before every fourth one except the first; [i] is the number of bytes
    before. *)
Fixpoint hexed (i : Z) (l : bytes) : bytes :=
  match l with
  | [] => []
  | c :: r =>
      (if (0 <? i) && (i mod 4 =? 0) then lit " " else [])
      ++ [hexchar (bval c / 16); hexchar (bval c mod 16)] ++ hexed (i + 1) r
  end.

Definition shown (c : byte) : byte := if (32 <=? bval c) && (bval c <=? 126) then c else x2e.

Definition blanks (n : Z) : bytes := repeat x20 (Z.to_nat n).

(** A line for 1..16 bytes [l]; [off] is the text of the offset. *)
Definition dump_line (off : bytes) (l : bytes) : bytes :=
  lit " >" ++ hexed 0 l ++ [x09; x09]
  ++ blanks (35 - zlen (hexed 0 l)) ++ map shown l ++ blanks (17 - zlen l) ++ off ++ [x0a].

(** The lines of the bytes [l] from offset [at_]: 16 bytes per line, offsets in 8 hexadecimal digits. *)
Inductive dump_lines : Z -> bytes -> list bytes -> Prop :=
| dl_end at_ : dump_lines at_ [] []
| dl_last at_ l off : 0 < zlen l <= 16 -> zlen off = 8 -> hex_value 0 off = Some at_ ->
    dump_lines at_ l [dump_line off l]
| dl_next at_ l r off ls : zlen l = 16 -> r <> [] -> zlen off = 8 -> hex_value 0 off = Some at_ ->
    dump_lines (at_ + 16) r ls -> dump_lines at_ (l ++ r) (dump_line off l :: ls).
