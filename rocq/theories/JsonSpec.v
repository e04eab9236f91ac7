(** JSON texts (RFC 8259) and what StampJSON writes (C36-C39). *)
From Flocq Require Import IEEE754.Binary IEEE754.Bits.
From Verif Require Import Base ArithSpec FloatTextSpec Arithm DictWords.
Local Open Scope Z_scope.

(** ** The grammar, over the bytes of a UTF-8 text *)

(** Section 2: insignificant white space. *)
Definition ws (s : bytes) : Prop := Forall (fun c => In (bval c) [32; 9; 10; 13]) s.

(** Section 6: numbers. *)
Definition is_digit (c : byte) : Prop := 48 <= bval c <= 57.
Definition digits1 (s : bytes) : Prop := s <> [] /\ Forall is_digit s.
Definition int_part (s : bytes) : Prop := s = lit "0" \/ exists c r, s = c :: r /\ 49 <= bval c <= 57 /\ Forall is_digit r.
Definition frac_part (s : bytes) : Prop := s = [] \/ exists f, s = lit "." ++ f /\ digits1 f.
Definition exp_part (s : bytes) : Prop := s = [] \/ exists e sg x, s = e ++ sg ++ x /\ In e [lit "e"; lit "E"] /\ In sg [[]; lit "+"; lit "-"] /\ digits1 x.
Definition number (s : bytes) : Prop :=
  exists sg i f e, s = sg ++ i ++ f ++ e /\ In sg [[]; lit "-"] /\ int_part i /\ frac_part f /\ exp_part e.

(** Section 7: strings.  Characters above U+007F are UTF-8 sequences as in RFC 3629. *)
Definition hex (c : byte) : Prop := 48 <= bval c <= 57 \/ 65 <= bval c <= 70 \/ 97 <= bval c <= 102.
Definition tail (c : byte) : Prop := 128 <= bval c <= 191.
Definition utf8 (s : bytes) : Prop :=
  match s with
  | [a; b] => 194 <= bval a <= 223 /\ tail b
  | [a; b; c] => (bval a = 224 /\ 160 <= bval b <= 191 \/ (225 <= bval a <= 236 \/ 238 <= bval a <= 239) /\ tail b \/ bval a = 237 /\ 128 <= bval b <= 159) /\ tail c
  | [a; b; c; d] => (bval a = 240 /\ 144 <= bval b <= 191 \/ 241 <= bval a <= 243 /\ tail b \/ bval a = 244 /\ 128 <= bval b <= 143) /\ tail c /\ tail d
  | _ => False
  end.
Definition quote : byte := x22.
Definition backslash : byte := x5c.
Inductive char : bytes -> Prop :=
| ch_plain c : 32 <= bval c <= 127 -> c <> quote -> c <> backslash -> char [c]
| ch_utf8 s : utf8 s -> char s
| ch_escape c : In c (lit "/bfnrt" ++ [quote; backslash]) -> char [backslash; c]
| ch_hex a b c d : hex a -> hex b -> hex c -> hex d -> char (backslash :: lit "u" ++ [a; b; c; d]).
Definition jstring (s : bytes) : Prop := exists cs, Forall char cs /\ s = [quote] ++ concat cs ++ [quote].

(** Sections 2-5: values, arrays, objects. *)
Inductive value : bytes -> Prop :=
| v_name s : In s [lit "false"; lit "null"; lit "true"] -> value s
| v_number s : number s -> value s
| v_string s : jstring s -> value s
| v_array0 w : ws w -> value (lit "[" ++ w ++ lit "]")
| v_array s : elements s -> value (lit "[" ++ s ++ lit "]")
| v_object0 w : ws w -> value (lit "{" ++ w ++ lit "}")
| v_object s : members s -> value (lit "{" ++ s ++ lit "}")
with element : bytes -> Prop :=
| el w1 s w2 : ws w1 -> value s -> ws w2 -> element (w1 ++ s ++ w2)
with elements : bytes -> Prop :=
| es_one s : element s -> elements s
| es_more s r : element s -> elements r -> elements (s ++ lit "," ++ r)
with member : bytes -> Prop :=
| mb w1 k w2 s : ws w1 -> jstring k -> ws w2 -> element s -> member (w1 ++ k ++ w2 ++ lit ":" ++ s)
with members : bytes -> Prop :=
| ms_one s : member s -> members s
| ms_more s r : member s -> members r -> members (s ++ lit "," ++ r).

Definition json_text : bytes -> Prop := element.

(** ** The values that StampJSON writes, and how *)
Inductive jtree : Type :=
| JInt (z : Z)
| JDouble (bits : Z)                     (* IEEE 754 binary64, as an integer *)
| JStr (w : bytes)
| JArr (ts : list jtree)
| JObj (ms : list (bytes * jtree)).

Definition finite (bits : Z) : Prop := is_finite 53 1024 (b64_of_bits bits) = true.
Definition double_text (bits : Z) (s : bytes) : Prop :=
  let x := b64_of_bits bits in
  if is_finite 53 1024 x then number_text (Bsign 53 1024 x) s (B2R 53 1024 x)
  else s = (if Bsign 53 1024 x then lit "-" else []) ++ (if is_nan 53 1024 x then lit "nan" else lit "inf").

Inductive text : jtree -> bytes -> Prop :=
| t_int z s : read_int s = Some z -> text (JInt z) s
| t_double bits s : double_text bits s -> text (JDouble bits) s
| t_str w : text (JStr w) ([quote] ++ w ++ [quote])
| t_arr ts s : texts ts s -> text (JArr ts) (lit "[" ++ s ++ lit "]")
| t_obj ms s : pairs ms s -> text (JObj ms) (lit "{" ++ s ++ lit "}")
with texts : list jtree -> bytes -> Prop :=
| ts_nil : texts [] []
| ts_one t s : text t s -> texts [t] s
| ts_more t s ts r : ts <> [] -> text t s -> texts ts r -> texts (t :: ts) (s ++ lit ", " ++ r)
with pairs : list (bytes * jtree) -> bytes -> Prop :=
| ps_nil : pairs [] []
| ps_one k t s : text t s -> pairs [(k, t)] ([quote] ++ k ++ [quote] ++ lit ": " ++ s)
| ps_more k t s ms r : ms <> [] -> text t s -> pairs ms r -> pairs ((k, t) :: ms) ([quote] ++ k ++ [quote] ++ lit ": " ++ s ++ lit ", " ++ r).

Fixpoint doubles (t : jtree) : list Z :=
  match t with
  | JDouble bits => [bits]
  | JArr ts => flat_map doubles ts
  | JObj ms => flat_map (fun m => doubles (snd m)) ms
  | _ => []
  end.

(** Consecutive bytes of the data. *)
Definition within (r d : bytes) : Prop := exists a c, d = a ++ r ++ c.

(** Every number of the tree was read from the data, every string is a word of the dictionary. *)
Inductive drawn (d : bytes) : jtree -> Prop :=
| d_int z r : represents Long z r -> within r d -> drawn d (JInt z)
| d_double bits r : represents ULong bits r -> within r d -> drawn d (JDouble bits)
| d_str w : In w DictLCAlphaSmall -> drawn d (JStr w)
| d_arr ts : Forall (drawn d) ts -> drawn d (JArr ts)
| d_obj ms : Forall (fun m => In (fst m) DictLCAlphaSmall /\ drawn d (snd m)) ms -> drawn d (JObj ms).
