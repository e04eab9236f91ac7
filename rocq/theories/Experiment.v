(** t/320-galley-recursion-experiments.cpp: formulas by splitting the data in two, again and again.  WeightedRefPicker
    and the nodes 2 and 3, not used by the program, are in Weighted.v.  What it prints on the way is not modelled. *)
From Verif Require Import Base FloatModel Arithm.
From Flocq Require Import IEEE754.BinarySingleNaN.

(** ** Variants *)

(** t/320-galley-recursion-experiments.cpp:49-63, class Variants. *)
Record Variants : Type := mkVariants { variant_count : Z; variant_selected : Z; enabled : bool }.
(** t/320-galley-recursion-experiments.cpp:58. *)
Definition GetVariantCount (v : Variants) : Z := if enabled v then variant_count v else 0.
(** t/320-galley-recursion-experiments.cpp:59. *)
Definition SetVariantSelected (v : Variants) (i : Z) : Variants := mkVariants (variant_count v) i (enabled v).

(** t/320-galley-recursion-experiments.cpp:70-73, the sum is an int. *)
Fixpoint variants_total (total : Z) (vs : list Variants) : res Z :=
  match vs with
  | [] => Ok total
  | v :: r => t <-- int_op (total + GetVariantCount v) ;; variants_total t r
  end.

(** t/320-galley-recursion-experiments.cpp:86-94, the inner loop from i on, [n] rounds to go: the i it stops at,
    if any, and the sum. *)
Fixpoint variants_inner (n : nat) (i seed : Z) (step sum : f64) : option Z * f64 :=
  match n with
  | O => (None, sum)
  | S n' =>
      let sum := f64_add sum step in
      if Bleb (f64_of_Z seed) sum then (Some i, sum) else variants_inner n' (i + 1) seed step sum
  end.

(** t/320-galley-recursion-experiments.cpp:81-95.  [k] is the index of the first element of [vs], [last] that of
    last_variant, if it is initialised.  Result: index of the variant found and what is to be selected, or the
    final sum and last_variant. *)
Fixpoint variants_outer (vs : list Variants) (k : nat) (last : option nat) (seed : Z) (step sum : f64)
  : (nat * Z) + (f64 * option nat) :=
  match vs with
  | [] => inr (sum, last)
  | v :: r =>
      if GetVariantCount v =? 0 then variants_outer r (S k) last seed step sum
      else match variants_inner (Z.to_nat (GetVariantCount v)) 0 seed step sum with
           | (Some i, _) => inl (k, i)
           | (None, sum') => variants_outer r (S k) (Some k) seed step sum'
           end
  end.

(** ref_vec[k].SetVariantSelected(i), t/320-galley-recursion-experiments.cpp:91 and 105. *)
Definition select (vs : list Variants) (k : nat) (i : Z) : list Variants :=
  match nth_error vs k with
  | Some v => firstn k vs ++ SetVariantSelected v i :: skipn (S k) vs
  | None => vs
  end.

(** 0.1 of t/320-galley-recursion-experiments.cpp:99: the double next to it. *)
Definition tenth : f64 := f64_div (f64_of_Z 1) (f64_of_Z 10).

(** t/320-galley-recursion-experiments.cpp:65-108, VariantPicker: the index of the reference returned and the
    variants afterwards.  abs() is taken as the one of double; if the compiler finds the one of int, the test of
    line 99 differs for a distance between 0.1 and 1 only. *)
Definition VariantPicker (vs : list Variants) (seed : Z) : res (nat * list Variants) :=
  total <-- variants_total 0 vs ;;
  let step := f64_div (f64_of_Z 255) (f64_of_Z total) in
  match variants_outer vs 0 None seed step (f64_of_Z 0) with
  | inl (k, i) => Ok (k, select vs k i)
  | inr (sum, last) =>
      if f64_lt tenth (Babs (f64_sub (f64_of_Z seed) sum)) then Abort      (* exit(1) *)
      else match last with
           | Some k =>
               match nth_error vs k with
               | Some v =>
                   i <-- int_op (GetVariantCount v - 1) ;;
                   Ok ((length vs - 1)%nat, select vs k i)                 (* ref_vec.back() *)
               | None => UB
               end
           | None => UB                                                    (* last_variant has no value *)
           end
  end.

(** ** Sizes *)

(** To unsigned int, t/320-galley-recursion-experiments.cpp:111, 291. *)
Definition u32 (z : Z) : Z := z mod 2 ^ 32.

(** unsigned int size = round(d_size), t/320-galley-recursion-experiments.cpp:128. *)
Definition to_uint (z : option Z) : res Z :=
  match z with
  | Some z => if (0 <=? z) && (z <? 2 ^ 32) then Ok z else UB
  | None => UB
  end.

(** t/320-galley-recursion-experiments.cpp:113-117; long does not overflow with fewer than 2^32 seeds. *)
Definition seeds_sum (seeds : list Z) : Z := fold_left (fun s seed => s + i32 seed) seeds 0.

(** t/320-galley-recursion-experiments.cpp:125-132, the sizes and res_sum. *)
Fixpoint fit_loop (proportion : f64) (seeds : list Z) (remainder : f64) (res_sum : Z) : res (list Z * Z) :=
  match seeds with
  | [] => Ok ([], res_sum)
  | seed :: r =>
      let d_size := f64_add (f64_mul (f64_of_Z (i32 seed)) proportion) remainder in
      size <-- to_uint (Bround_Z d_size) ;;
      t <-- fit_loop proportion r (f64_sub d_size (f64_of_Z size)) (i32 (res_sum + size)) ;;
      Ok (size :: fst t, snd t)
  end.

(** t/320-galley-recursion-experiments.cpp:110-135, fit_sizes. *)
Definition fit_sizes (seeds : list Z) (fit_in : Z) : res (list Z) :=
  let proportion := f64_div (f64_of_Z fit_in) (f64_of_Z (seeds_sum seeds)) in
  t <-- fit_loop proportion seeds (f64_of_Z 0) 0 ;;
  if u32 (snd t) =? fit_in then Ok (fst t) else Abort.                     (* assert *)

(** ** The recursion *)

(** t/320-galley-recursion-experiments.cpp:207. *)
Definition operations : list bytes := map lit ["+"%string; "-"%string; "*"%string; "/"%string; "^"%string].

(** t/320-galley-recursion-experiments.cpp:213, node1 as constructed. *)
Definition node1 : Variants := mkVariants (zlen operations) (-1) true.

Section Recursion.
  Context {B : Type} `{BlobOps B}.

  (** t/320-galley-recursion-experiments.cpp:257-300, TestRNode1::do_recursion.  [recur] is
      recursor->do_recursion.  The two calls of line 299 are on different blobs, so their order does not matter. *)
  Definition Node1_do_recursion (recur : M B bytes) (variant_n : Z) : M B bytes := fun b =>
    if Size b <? u64 (sizeof UShort + 4 * sizeof UChar) then
      match ArithExtractStr UChar b with
      | (OutOfData, b1) => (Ok (lit "Q"), b1)
      | r => r
      end
    else
      match ExtractValue UShort b with
      | (OutOfData, b1) => (Ok (lit "Z"), b1)
      | (Ok spl_val, b1) =>
          (split_data <- lift (fit_sizes [spl_val; u32 (65535 - spl_val)] (u32 (u64 (Size b1 - 4 * sizeof UChar)))) ;;
           left <- lift (match nth_error split_data 0 with Some x => Ok x | None => UB end) ;;
           blob_left <- Chop (u32 (left + 2 * sizeof UChar)) ;;
           s1 <- lift (fst (recur blob_left)) ;;
           op <- lift (if variant_n <? 0 then UB
                       else match nth_error operations (Z.to_nat variant_n) with Some x => Ok x | None => UB end) ;;
           s2 <- recur ;;
           ret (lit "(" ++ s1 ++ lit " " ++ op ++ lit " " ++ s2 ++ lit ")")) b1
      | (UB, b1) => (UB, b1)
      | (Abort, b1) => (Abort, b1)
      | (Diverge, b1) => (Diverge, b1)
      end.

  (** t/320-galley-recursion-experiments.cpp:331-377, GalleySimpleRecusion::do_recursion; [fuel] bounds the depth.  The node
      of the galley is given as VariantPicker finds it; only variant_selected changes, and that is set before each use
      and copied at once (line 260), so the recursion starts from [node1] again. *)
  Fixpoint do_recursion (fuel : nat) : M B bytes := fun b =>
    match fuel with
    | O => (Diverge, b)
    | S f =>
        match ExtractValue UChar b with
        | (OutOfData, b1) => (Ok (lit "0"), b1)
        | (Ok c, b1) =>
            match VariantPicker [node1] c with
            | Ok (k, vs) =>
                match nth_error vs k with
                | Some node => Node1_do_recursion (do_recursion f) (variant_selected node) b1
                | None => (UB, b1)
                end
            | OutOfData => (OutOfData, b1)
            | UB => (UB, b1)
            | Abort => (Abort, b1)
            | Diverge => (Diverge, b1)
            end
        | (UB, b1) => (UB, b1)
        | (Abort, b1) => (Abort, b1)
        | (Diverge, b1) => (Diverge, b1)
        end
    end.

  (** The call from outside, t/320-galley-recursion-experiments.cpp:419. *)
  Definition DoRecursion : M B bytes := fun b => do_recursion (S (Z.to_nat (Size b))) b.
End Recursion.
