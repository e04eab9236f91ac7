(** examples/example01.cpp to example08.cpp: programs over StampArithm<short int> and over two stamps of
    their own, a point of three numbers and a line of points. *)
From Verif Require Import Base Blob Arithm StampText Galley Stamps Formula.

(** ** StampPoint3D *)

(** examples/example04.cpp:9-14, the struct; the same in example05.cpp to example08.cpp. *)
Record Point3D : Type := mkPoint { pX : Z; pY : Z; pZ : Z }.

(** examples/example03.cpp:19-22 and example04.cpp to example08.cpp:27-30, minSize(). *)
Definition PointMinSize : Z := sizeof Short + sizeof Short + sizeof Short.
(** examples/example03.cpp:24-27 and example04.cpp to example08.cpp:32-35, maxSize(). *)
Definition PointMaxSize : Z := sizeof Short + sizeof Short + sizeof Short.

(** sizeof(Point3D): three short ints, no padding on x86-64 (include/blobstamper/stamp.h:106-118). *)
Definition PointSizeof : Z := 6.

Section Points.
  Context {B : Type} `{BlobOps B}.

  (** examples/example03.cpp:29-36 and example04.cpp to example08.cpp:37-44, ExtractStr. *)
  Definition PointExtractStr : M B bytes :=
    x <- ArithExtractStr Short ;;
    y <- ArithExtractStr Short ;;
    z <- ArithExtractStr Short ;;
    ret (lit "(" ++ x ++ lit ", " ++ y ++ lit ", " ++ z ++ lit ")").

  (** examples/example04.cpp to example08.cpp:46-53, ExtractValue. *)
  Definition PointExtractValue : M B Point3D :=
    x <- ExtractValue Short ;;
    y <- ExtractValue Short ;;
    z <- ExtractValue Short ;;
    ret (mkPoint x y z).

  (** The bytes of a Point3D object, include/blobstamper/stamp.h:108 and 118. *)
  Definition point_bytes (p : Point3D) : bytes := encode Short (pX p) ++ encode Short (pY p) ++ encode Short (pZ p).

  (** ExtractBin inherited from StampBaseV<Point3D>, include/blobstamper/stamp.h:113-120. *)
  Definition PointExtractBin : M B bytes := p <- PointExtractValue ;; ret (point_bytes p).
  (** ExtractPValue inherited from StampBaseV<Point3D>, include/blobstamper/stamp.h:104-111. *)
  Definition PointExtractPValue : M B (bytes * Z) := p <- PointExtractValue ;; ret (point_bytes p, PointSizeof).

  (** examples/example05.cpp:59-63: GalleyVectorStr over the stamp. *)
  Definition PointStrVector : M B (list bytes) := ExtractVector PointMinSize PointMaxSize PointExtractStr.
  (** examples/example06.cpp:59-62: GalleyVectorV<Point3D> over the stamp. *)
  Definition PointValuesVector : M B (list Point3D) := ExtractVector PointMinSize PointMaxSize PointExtractValue.

  (** ** StampPolyLine3D *)

  (** examples/example07.cpp:67-76, the loop over the texts of points. *)
  Fixpoint poly_loop (res : bytes) (data : list bytes) : bytes :=
    match data with
    | [] => res
    | s :: r => poly_loop (match res with [] => res ++ s | _ => (res ++ lit ", ") ++ s end) r
    end.
  (** examples/example07.cpp:64-79, ExtractStr. *)
  Definition PolyLineExtractStr : M B bytes :=
    data <- PointStrVector ;; ret (lit "(" ++ poly_loop [] data ++ lit ")").

  (** examples/example08.cpp:56-60: StampStrEnumerator over the stamp. *)
  Definition PolyLineEnum : sx B :=
    XVec (enum_text (lit ",") (lit "(") (lit ")")) (XLeaf PointMinSize PointMaxSize PointExtractStr).
  (** examples/example08.cpp:69-72, its ExtractStr. *)
  Definition PolyLineEnumExtractStr : M B bytes := ExtractStr (mkHeap [] []) PolyLineEnum.
End Points.

(** ** The programs.  An exception nobody catches is the outcome of the program. *)

(** std::make_shared<Blob>(data, strlen(data)) of every main, e.g. examples/example01.cpp:11-12. *)
Definition data_blob (data : bytes) : res blob := n <-- strlen data ;; Ok (newBlob data (Some 0) n).

(** examples/example01.cpp:9-20: what is printed. *)
Definition example01 (data : bytes) : res (Z * Z * bytes * bytes) :=
  blob <-- data_blob data ;;
  let x := ArithExtractStr Short blob in
  s <-- fst x ;;
  rest <-- asString (snd x) ;;
  Ok (sizeof Short, sizeof Short, s, rest).

(** examples/example01a.cpp:9-22. *)
Definition example01a (data : bytes) : res (Z * Z * bytes * bytes) :=
  blob <-- data_blob data ;;
  let x := LoadInto 0 (sizeof Short) (sizeof Short) (fun _ => None) blob in
  st <-- fst x ;;
  s <-- fst (Unload (ArithExtractStr Short) 0 st) ;;
  rest <-- asString (snd x) ;;
  Ok (sizeof Short, sizeof Short, s, rest).

(** vec[i] of examples/example02.cpp:24; an index outside is undefined. *)
Definition vec_at (v : bytes) (i : nat) : res byte := match nth_error v i with Some c => Ok c | None => UB end.

(** examples/example02.cpp:9-27. *)
Definition example02 (data : bytes) : res (bytes * byte * byte * Z * Z) :=
  blob <-- data_blob data ;;
  fst ((s <- ArithExtractStr Short ;;
        vec <- ArithExtractBin Short ;;
        i <- ExtractValue Short ;;
        spi <- ArithExtractPValue Short ;;
        v0 <- lift (vec_at vec 0) ;;
        v1 <- lift (vec_at vec 1) ;;
        ret (s, v0, v1, i, decode Short (fst spi))) blob).

(** examples/example02a.cpp:9-35; the stamps are the objects 0 to 3. *)
Definition example02a (data : bytes) : res (bytes * byte * byte * Z * Z) :=
  blob <-- data_blob data ;;
  st <-- fst ((st1 <- LoadInto 0 (sizeof Short) (sizeof Short) (fun _ => None) ;;
               st2 <- LoadInto 1 (sizeof Short) (sizeof Short) st1 ;;
               st3 <- LoadInto 2 (sizeof Short) (sizeof Short) st2 ;;
               LoadInto 3 (sizeof Short) (sizeof Short) st3) blob) ;;
  let u1 := Unload (ArithExtractStr Short) 0 st in
  s <-- fst u1 ;;
  let u2 := Unload (ArithExtractBin Short) 1 (snd u1) in
  vec <-- fst u2 ;;
  let u3 := Unload (ExtractValue Short) 2 (snd u2) in
  i <-- fst u3 ;;
  spi <-- fst (Unload (ArithExtractPValue Short) 3 (snd u3)) ;;
  v0 <-- vec_at vec 0 ;;
  v1 <-- vec_at vec 1 ;;
  Ok (s, v0, v1, i, decode Short (fst spi)).

(** examples/example03.cpp:39-48. *)
Definition example03 (data : bytes) : res bytes := blob <-- data_blob data ;; fst (PointExtractStr blob).

(** examples/example04.cpp:55-66: text of the first point, numbers of the second. *)
Definition example04 (data : bytes) : res (bytes * Point3D) :=
  blob <-- data_blob data ;;
  fst ((s <- PointExtractStr ;; p <- PointExtractValue ;; ret (s, p)) blob).

(** examples/example05.cpp:55-67. *)
Definition example05 (data : bytes) : res (list bytes) := blob <-- data_blob data ;; fst (PointStrVector blob).

(** examples/example06.cpp:55-71: the points printed, p_size of them; &res[0] of an empty vector would be
    undefined. *)
Definition example06 (data : bytes) : res (list Point3D) :=
  blob <-- data_blob data ;;
  r <-- fst (PointValuesVector blob) ;;
  match r with [] => UB | _ => Ok (firstn (Z.to_nat (i32 (zlen r))) r) end.

(** examples/example07.cpp:81-89. *)
Definition example07 (data : bytes) : res bytes := blob <-- data_blob data ;; fst (PolyLineExtractStr blob).

(** examples/example08.cpp:64-74. *)
Definition example08 (data : bytes) : res bytes := blob <-- data_blob data ;; fst (PolyLineEnumExtractStr blob).
