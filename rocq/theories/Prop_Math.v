(** C40: text of operators. *)
From Verif Require Import Base BaseFacts Blob BlobSpec RunSpec RunFacts Sim Arithm StampText Galley Stamps
  StampsEq LeafSpec TermSpec TermFacts NestSpec NestFacts.

(** Unary operator: op(operand); it succeeds exactly when the operand does, on the same bytes. *)
Theorem C40_unary : forall (h : heap blob) op y b s b',
  ExtractStr h (XUnary op y) b = (Ok s, b') <->
  exists t, ExtractStr h y b = (Ok t, b') /\ s = op ++ lit "(" ++ t ++ lit ")".
Proof. exact unary_iff. Qed.
Print Assumptions C40_unary.

(** Binary operator: (left op right), the operands stamped on the two chunks cut by the galley. *)
Theorem C40_binary : forall (h : heap blob) op x y b s b', tame_graph h x -> tame_graph h y -> wf b ->
  (ExtractStr h (XBinary op x y) b = (Ok s, b') <->
   exists mn1 mx1 mn2 mx2 c1 c2 t1 t2,
     minSize h x = Ok mn1 /\ maxSize h x = Ok mx1 /\ minSize h y = Ok mn2 /\ maxSize h y = Ok mx2
     /\ set_extract [(mn1, mx1); (mn2, mx2)] b = (Ok [c1; c2], b')
     /\ fst (ExtractStr h x c1) = Ok t1 /\ fst (ExtractStr h y c2) = Ok t2
     /\ s = lit "(" ++ t1 ++ lit " " ++ op ++ lit " " ++ t2 ++ lit ")").
Proof. exact binary_iff. Qed.
Print Assumptions C40_binary.

(** Any nesting of operators over balanced operands has balanced text. *)
Theorem C40_balanced : forall (h : heap blob) x b s, formula x -> fst (ExtractStr h x b) = Ok s -> balanced s.
Proof. intros h x b s Hx. apply formula_balanced. exact Hx. Qed.
Print Assumptions C40_balanced.

(** -(a + b) over decimal bytes is a formula, and its text for two bytes. *)
Definition digits : sx blob := XLeaf 1 1 (ArithExtractStr UChar).
Definition minus_sum : sx blob := XUnary (lit "-") (XBinary (lit "+") digits digits).

Example C40_case :
  fst (ExtractStr (mkHeap [] []) minus_sum (blob_of [x07; xff])) = Ok (lit "-((7 + 255))").
Proof. vm_compute. reflexivity. Qed.

Example C40_formula : formula minus_sum.
Proof.
  assert (D : formula digits).
  { constructor. intros b s. unfold ArithExtractStr. intros E. destruct (bind _ _ b) as [r b'] eqn:E'. cbn [fst] in E. subst r.
    apply bind_ok_inv in E' as (v & b1 & E1 & E'). apply lift_ok_inv in E' as [E' _]. injection E' as <-.
    apply fmt_int_balanced. }
  assert (P : forall c, c = x2d \/ c = x2b -> balanced [c]) by (intros c [->| ->]; constructor; (discriminate || constructor)).
  constructor; [apply P; auto|]. constructor; [apply P; auto|exact D|exact D].
Qed.
