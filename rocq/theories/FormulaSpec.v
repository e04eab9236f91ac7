(** Formulas and their texts (C56). *)
From Verif Require Import Base ArithSpec DictWords.

Inductive formula : Type :=
| FNum (n : Z)
| FWord (w : bytes)
| FOp (op : bytes) (l r : formula).

(** Numbers of one byte, words of the dictionary, operators among [ops]. *)
Fixpoint proper (ops : list bytes) (f : formula) : Prop :=
  match f with
  | FNum n => 0 <= n <= 255
  | FWord w => In w DictLCAlphaSmall
  | FOp op l r => In op ops /\ proper ops l /\ proper ops r
  end.

Fixpoint operators (f : formula) : Z :=
  match f with
  | FOp _ l r => 1 + operators l + operators r
  | _ => 0
  end.

(** A number is written as a decimal numeral, a word as it is, an operator between its operands, in
    brackets. *)
Inductive written : formula -> bytes -> Prop :=
| w_num n s : read_int s = Some n -> written (FNum n) s
| w_word w : written (FWord w) w
| w_op op l r s1 s2 : written l s1 -> written r s2 ->
    written (FOp op l r) (lit "(" ++ s1 ++ lit " " ++ op ++ lit " " ++ s2 ++ lit ")").

(** Names of operators that can be told from what is around them: no spaces or brackets. *)
Definition separator (c : byte) : Prop := bval c = 32 \/ bval c = 40 \/ bval c = 41.
Definition op_name (s : bytes) : Prop := Forall (fun c => ~ separator c) s.

(** Sum, difference, product, quotient, power. *)
Definition five_operators : list bytes := map (fun c => [byte_of_Z c]) [43; 45; 42; 47; 94].
