(** src/helpers.cpp:25-76, hexdump, and src/blob.cpp:41-46, Blob::Dump.

    The line buffer szBuf[100] is explicit: every write is checked against its bounds.  It is not
    initialised, its first content is a parameter.  The printed lines are returned. *)
From Verif Require Import Base Blob.

(** src/helpers.cpp:27. *)
Definition szBuf_size : Z := 100.

(** src/helpers.cpp:27: the buffer before the first write; [junk] is what happens to be there. *)
Definition szBuf (junk : nat -> byte) : bytes := map junk (seq 0 (Z.to_nat szBuf_size)).

(** Writing the bytes [s] at index [i] of the buffer. src/helpers.cpp:46-48, 58, 60, 63, 68, 69. *)
Definition put (buf : bytes) (i : Z) (s : bytes) : res bytes :=
  if (0 <=? i) && (i + zlen s <=? zlen buf)
  then Ok (firstn (Z.to_nat i) buf ++ s ++ skipn (Z.to_nat i + length s) buf)
  else UB.

(** "%X" of src/helpers.cpp:46-48 and 58. *)
Definition hexdigit (d : Z) : byte := byte_of_Z (if d <? 10 then 48 + d else 55 + d).

(** "%02X" of a byte value. src/helpers.cpp:58. *)
Definition hex2 (v : Z) : bytes := [hexdigit (v / 16); hexdigit (v mod 16)].

(** Hexadecimal digits, most significant first, at least [n] of them. src/helpers.cpp:46-48. *)
Fixpoint hex_pad (n : nat) (v : Z) (acc : bytes) : bytes :=
  match n with
  | O => acc
  | S n' => hex_pad n' (v / 16) (hexdigit (v mod 16) :: acc)
  end.

(** "%08lX": at least 8 digits, as many as needed. src/helpers.cpp:46-48. *)
Definition hex8 (v : Z) : bytes :=
  hex_pad (Nat.max 8 (Z.to_nat (Z.log2 v / 4 + 1))) v [].

(** isprint in the C locale. src/helpers.cpp:59. *)
Definition isprint (v : Z) : bool := (32 <=? v) && (v <=? 126).

(** State of the inner loop: buffer, lIndex, lIndex2, lRelPos. src/helpers.cpp:27-30. *)
Record lstate : Type := mkL { l_buf : bytes; l_index : Z; l_index2 : Z; l_rel : Z }.

(** src/helpers.cpp:56-63 and the increments of line 53, for one byte. *)
Definition line_step (s : lstate) (c : byte) : res lstate :=
  b1 <-- put (l_buf s) (l_index s) (hex2 (bval c) ++ [x20; x00]) ;;
  b2 <-- put b1 (l_index2 s) [if isprint (bval c) then c else byte_of_Z 46] ;;
  let rel := l_rel s + 1 in
  if rel mod 4 =? 0
  then b3 <-- put b2 (l_index s + 1 + 2) [x20] ;;
       Ok (mkL b3 (l_index s + 1 + 2) (l_index2 s + 1) rel)
  else Ok (mkL b2 (l_index s + 2) (l_index2 s + 1) rel).

(** src/helpers.cpp:51-64: the loop runs until lOutLen2 == 0; [cnt] is lOutLen2, negative when
    lOutLen is.  Reading past the data is undefined. *)
Fixpoint line_loop (fuel : nat) (cnt : Z) (data : bytes) (s : lstate) : res lstate :=
  match fuel with
  | O => Diverge
  | S f =>
      if cnt =? 0 then Ok s
      else match data with
           | [] => UB
           | c :: r => s' <-- line_step s c ;; line_loop f (cnt - 1) r s'
           end
  end.

(** The C string in the buffer; undefined if not terminated. The argument of printf,
    src/helpers.cpp:71. *)
Fixpoint cstr (buf : bytes) : res bytes :=
  match buf with
  | [] => UB
  | x00 :: _ => Ok []
  | c :: r => s <-- cstr r ;; Ok (c :: s)
  end.

(** src/helpers.cpp:46-48: the sprintf of the empty line with the offset. *)
Definition line_template (offset : Z) : bytes :=
  lit " >                            " ++ lit "                      " ++ lit "    " ++ hex8 offset.

(** src/helpers.cpp:40-71: one line; the text printed and the buffer. *)
Definition hexdump_line (buf : bytes) (offset lOutLen : Z) (data : bytes) : res (bytes * bytes) :=
  b0 <-- put buf 0 (line_template offset ++ [x00]) ;;
  s <-- line_loop 101 lOutLen data (mkL b0 (1 + 1) (53 - 15 + 1) 0) ;;
  let lIndex := if l_rel s mod 4 =? 0 then l_index s - 1 else l_index s in
  b1 <-- put (l_buf s) lIndex [x09] ;;
  b2 <-- put b1 (lIndex + 1) [x09] ;;
  t <-- cstr b2 ;;
  Ok (t ++ [x0a], b2).

(** src/helpers.cpp:38-75; [offset] is pTmp - pAddress, [lSize] the remaining size. *)
Fixpoint hexdump_loop (fuel : nat) (buf : bytes) (offset lSize : Z) (data : bytes)
  : res (list bytes) :=
  match fuel with
  | O => Diverge
  | S f =>
      if lSize =? 0 then Ok []
      else
        let out0 := i32 lSize in
        let lOutLen := if 16 <? out0 then 16 else out0 in
        tb <-- hexdump_line buf offset lOutLen data ;;
        rest <-- hexdump_loop f (snd tb) (offset + lOutLen) (u64 (lSize - lOutLen))
                              (skipn (Z.to_nat lOutLen) data) ;;
        Ok (fst tb :: rest)
  end.

(** hexdump(p, lSize), [data] the bytes readable from p; long -> unsigned long.
    src/helpers.cpp:25-76. *)
Definition hexdump (junk : nat -> byte) (data : bytes) (lSize : Z) : res (list bytes) :=
  hexdump_loop (S (Z.to_nat (u64 lSize))) (szBuf junk) 0 (u64 lSize) data.

(** src/blob.cpp:41-46. *)
Definition Dump (junk : nat -> byte) (b : blob) : res (list bytes) :=
  p <-- ptr_add (mem b) (data b) (bbegin b) ;;
  match p with
  | None => hexdump junk [] (blobSize b)
  | Some a => hexdump junk (skipn (Z.to_nat a) (mem b)) (blobSize b)
  end.
