(** t/320-galley-recursion-experiments.cpp: the parts that its main() does not use, WeightedRefPicker and the nodes 2
    and 3. *)
From Verif Require Import Base FloatModel Arithm Experiment.
From Flocq Require Import IEEE754.BinarySingleNaN.

(** t/320-galley-recursion-experiments.cpp:163-167, the sum is an int; a weight is a char (line 144). *)
Fixpoint weights_total (total : Z) (ws : list Z) : res Z :=
  match ws with
  | [] => Ok total
  | w :: r => t <-- int_op (total + w) ;; weights_total t r
  end.

(** t/320-galley-recursion-experiments.cpp:173-178; [k] is the index of the first element of [ws]. *)
Fixpoint weighted_loop (ws : list Z) (k : nat) (c : Z) (step sum : f64) : nat + f64 :=
  match ws with
  | [] => inr sum
  | w :: r =>
      let sum := f64_add sum (f64_mul step (f64_of_Z w)) in
      if Bleb (f64_of_Z c) sum then inl k else weighted_loop r (S k) c step sum
  end.

(** t/320-galley-recursion-experiments.cpp:159-188, WeightedRefPicker::pick: the index of the reference returned.
    abs() as in VariantPicker. *)
Definition WeightedPick (ws : list Z) (c : Z) : res nat :=
  total <-- weights_total 0 ws ;;
  let step := f64_div (f64_of_Z 255) (f64_of_Z total) in
  match weighted_loop ws 0 c step (f64_of_Z 0) with
  | inl k => Ok k
  | inr sum =>
      if f64_lt tenth (Babs (f64_sub (f64_of_Z c) sum)) then Abort         (* exit(1) *)
      else match ws with
           | [] => UB                                                      (* vec.back() *)
           | _ => Ok (length ws - 1)%nat
           end
  end.

Section Nodes.
  Context {B : Type} `{BlobOps B}.

  (** t/320-galley-recursion-experiments.cpp:302-314, TestRNode2::do_recursion; [recur] is recursor->do_recursion. *)
  Definition Node2_do_recursion (recur : M B bytes) : M B bytes := fun b =>
    match Chop 1 b with
    | (OutOfData, b1) => (Ok (lit "0"), b1)
    | (_, b1) => (s <- recur ;; ret (lit "2 + " ++ s)) b1
    end.
  (** t/320-galley-recursion-experiments.cpp:317-329, TestRNode3::do_recursion. *)
  Definition Node3_do_recursion (recur : M B bytes) : M B bytes := fun b =>
    match Chop 1 b with
    | (OutOfData, b1) => (Ok (lit "0"), b1)
    | (_, b1) => (s <- recur ;; ret (lit "3 + " ++ s)) b1
    end.
End Nodes.
