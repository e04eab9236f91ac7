(** README.md: the stamps of complex numbers of "Creating your own Stamps" and stamps applied one after another. *)
From Verif Require Import Base Blob Arithm StampText Galley.

(** README.md:237-240, the struct complex_short. *)
Record complex_short : Type := mkComplex { c_re : Z; c_im : Z }.

(** README.md:192-195 and 264-267, ComplexIntStamp::minSize. *)
Definition ComplexMinSize : Z := sizeof Short + sizeof Short.
(** README.md:197-200 and 269-272, ComplexIntStamp::maxSize. *)
Definition ComplexMaxSize : Z := sizeof Short + sizeof Short.

Section Readme.
  Context {B : Type} `{BlobOps B}.

  (** README.md:207-213, ExtractStr of the string stamp. *)
  Definition ComplexExtractStr : M B bytes :=
    a <- ArithExtractStr Short ;;
    b <- ArithExtractStr Short ;;
    ret (a ++ lit " + " ++ b ++ lit "i").

  (** README.md:279-285, ExtractValue of the value stamp. *)
  Definition ComplexExtractValue : M B complex_short :=
    re <- ExtractValue Short ;;
    im <- ExtractValue Short ;;
    ret (mkComplex re im).

  (** README.md:327-342, ArrayOfComplexIntStamp::ExtractStr over the galley of README.md:310-316; its loop is that
      of an enumerator. *)
  Definition ArrayOfComplexExtractStr : M B bytes :=
    data <- ExtractVector ComplexMinSize ComplexMaxSize ComplexExtractStr ;;
    ret (lit "[" ++ join_loop (lit ", ") data ++ lit "]").

  (** The bytes of a complex_short object: two short ints, no padding on x86-64. *)
  Definition complex_bytes (c : complex_short) : bytes := encode Short (c_re c) ++ encode Short (c_im c).

  (** README.md:404-411: ExtractValuesVector, and the memory of the vector's elements copied to an array of
      result_size elements, an int.  &vec[0] of an empty vector is undefined, and so is memcpy with a negative number of
      elements (malloc returns a null pointer). *)
  Definition ComplexArrayTrick : M B (Z * bytes) :=
    vec <- ExtractVector ComplexMinSize ComplexMaxSize ComplexExtractValue ;;
    match vec with
    | [] => lift UB
    | _ =>
        let result_size := i32 (zlen vec) in
        if result_size <? 0 then lift UB
        else ret (result_size, firstn (Z.to_nat (4 * result_size)) (concat (map complex_bytes vec)))
    end.

  (** A user stamp that calls the extract methods of its stamps in turn on its own blob (README.md:209-212 and
      281-284, examples/example04.cpp:39-42). *)
  Fixpoint in_turn {A} (exs : list (M B A)) : M B (list A) :=
    match exs with
    | [] => ret []
    | ex :: r => v <- ex ;; vs <- in_turn r ;; ret (v :: vs)
    end.
End Readme.
