(** What the parts of t/320-galley-recursion-experiments.cpp are supposed to do (C59). *)
From Verif Require Import Base VectorSpec FormulaSpec Experiment.

(** ** Sizes *)

(** Zeros are at the beginning or at the end only. *)
Definition zeros_outside (seeds : list Z) : Prop :=
  forall a b, seeds = a ++ 0 :: b -> sum a = 0 \/ sum b = 0.

(** [sizes] divide [whole] in proportion to [seeds]: they add up, and no boundary between two of them is further
    than 5/8 from where it belongs. *)
Definition divides_up (whole : Z) (seeds sizes : list Z) : Prop :=
  length sizes = length seeds /\ Forall (fun s => 0 <= s) sizes /\ sum sizes = whole
  /\ forall m, 8 * Z.abs (sum (firstn m sizes) * sum seeds - whole * sum (firstn m seeds)) <= 5 * sum seeds.

(** ** Variants *)

(** The number of variants an element offers, of all elements, and of those before element [k]. *)
Definition offers (v : Variants) : Z := if enabled v then variant_count v else 0.
Definition total_offers (vs : list Variants) : Z := sum (map offers vs).
Definition offers_before (vs : list Variants) (k : nat) : Z := total_offers (firstn k vs).

(** [vs'] is [vs] with variant [i] selected in element [k]. *)
Definition selected (vs : list Variants) (k : nat) (i : Z) (vs' : list Variants) : Prop :=
  length vs' = length vs
  /\ (exists v, nth_error vs k = Some v /\ nth_error vs' k = Some (mkVariants (variant_count v) i (enabled v)))
  /\ forall m, m <> k -> nth_error vs' m = nth_error vs m.

(** Variant [i] of element [k] is one that element [k] offers. *)
Definition offered (vs : list Variants) (k : nat) (i : Z) : Prop :=
  exists v, nth_error vs k = Some v /\ 0 <= i < offers v.

(** ** Formulas *)

Fixpoint only_numbers (f : formula) : Prop :=
  match f with
  | FNum _ => True
  | FWord _ => False
  | FOp _ l r => only_numbers l /\ only_numbers r
  end.
