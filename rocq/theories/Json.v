(** src/stamp_json.cpp, include/blobstamper/stamp_json.h: the JSON stamps. *)
From Verif Require Import Base Arithm StampDict DictWords StampText Galley Stamps.

Section Json.
  Context {B : Type} `{BlobOps B}.

  (** src/stamp_json.cpp:155-160, StampJSONString::ExtractStr. *)
  Definition JSONStringExtractStr : M B bytes :=
    s <- DictExtractStr DictLCAlphaSmall ;;
    ret ([byte_of_Z 34] ++ s ++ [byte_of_Z 34]).

  (** include/blobstamper/stamp_json.h:47-49. *)
  Definition StampJSONInt : sx B := XLeaf (sizeof Long) (sizeof Long) (ArithExtractStr Long).
  (** include/blobstamper/stamp_json.h:51-53. *)
  Definition StampJSONFloat : sx B := XLeaf (sizeof Double) (sizeof Double) (ArithExtractStr Double).
  (** include/blobstamper/stamp_json.h:55-63. *)
  Definition StampJSONString : sx B := XLeaf 8 8 JSONStringExtractStr.

  (** include/blobstamper/stamp_json.h:65-90, over pool [p]. *)
  Definition StampJSONArray (p : nat) : sx B :=
    XVec (enum_text (lit ", ") (lit "[") (lit "]")) (XPool p).
  (** include/blobstamper/stamp_json.h:72-83. *)
  Definition StampJSONHashEl (p : nat) : sx B := XHashEl StampJSONString (XPool p).
  (** include/blobstamper/stamp_json.h:85-90. *)
  Definition StampJSONHash (p : nat) : sx B :=
    XVec (enum_text (lit ", ") (lit "{") (lit "}")) (StampJSONHashEl p).

  (** src/stamp_json.cpp:173-189, StampJSON::StampJSON: the pool of the five members; the StampJSON
      object is pool 0. *)
  Definition json_pool : pool B :=
    fold_left add_weak
      [StampJSONInt; StampJSONFloat; StampJSONString; StampJSONArray 0; StampJSONHash 0]
      (new_pool []).
  (** src/stamp_json.cpp:173-189: the one pool there is. *)
  Definition json_heap : heap B := mkHeap [json_pool] [].
  (** include/blobstamper/stamp_json.h:93-104. *)
  Definition StampJSON : sx B := XPool 0.

  (** src/stamp_json.cpp:56-101 on the StampJSON object. *)
  Definition JSONExtractStr : M B bytes := ExtractStr json_heap StampJSON.
End Json.
