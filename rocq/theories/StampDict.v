(** src/stamp_dict.cpp, include/blobstamper/stamp_dict.h, src/dict.cpp:22-32. *)
From Verif Require Import Base FloatModel Arithm.

(** include/blobstamper/dict.h: DictBase, a vector of strings. *)
Definition dict : Type := list bytes.

(** src/dict.cpp:22-26, DictBase::size. *)
Definition dict_size (d : dict) : Z := zlen d.

(** src/dict.cpp:28-32, DictBase::get: data[n], undefined outside the vector. *)
Definition dict_get (d : dict) (n : Z) : res bytes :=
  if n <? dict_size d
  then match nth_error d (Z.to_nat n) with Some w => Ok w | None => UB end
  else UB.

(** src/stamp_dict.cpp:24-44, StampDict::ChooseStampSize: (stamp_size, stamp_max_value).
    UINT_MAX + 1 is computed in unsigned int. *)
Definition ChooseStampSize (d : dict) : Z * Z :=
  if dict_size d <=? 255 + 1 then (1, 255)
  else if dict_size d <=? 65535 + 1 then (2, 65535)
  else if dict_size d <=? (4294967295 + 1) mod 2 ^ 32 then (4, 4294967295)
  else (8, 2 ^ 64 - 1).

(** Conversion of a floating value to long long. src/stamp_dict.cpp:78,
    include/blobstamper/stamp_lottery.h:203. *)
Definition to_llong (z : option Z) : res Z :=
  match z with
  | Some z => if (- 2 ^ 63 <=? z) && (z <? 2 ^ 63) then Ok z else UB
  | None => UB
  end.

(** The expression ((double) oracle) / max * size, truncated to long long, and the step inside the
    boundary: src/stamp_dict.cpp:78-79, include/blobstamper/stamp_lottery.h:203-204. *)
Definition pick_index (oracle max size : Z) : res Z :=
  i <-- to_llong (Btrunc_Z (f64_mul (f64_div (f64_of_Z oracle) (f64_of_Z max)) (f64_of_Z size))) ;;
  Ok (if u64 i =? size then i - 1 else i).

(** src/stamp_dict.cpp:52-77: the oracle of 1, 2, 4 or 8 bytes. *)
Definition sized_oracle {B} `{BlobOps B} (size : Z) : M B Z :=
  if size =? 1 then ExtractValue UChar
  else if size =? 2 then ExtractValue UShort
  else if size =? 4 then ExtractValue UInt
  else if size =? 8 then ExtractValue ULLong
  else lift Abort.

(** src/stamp_dict.cpp:46-81, StampDict::ExtractStr. *)
Definition DictExtractStr {B} `{BlobOps B} (d : dict) : M B bytes :=
  let (stamp_size, stamp_max_value) := ChooseStampSize d in
  index_oracle <- sized_oracle stamp_size ;;
  actual_index <- lift (pick_index index_oracle stamp_max_value (dict_size d)) ;;
  lift (dict_get d (u64 actual_index)).

(** include/blobstamper/stamp_dict.h:46-47. *)
Definition DictMinSize (d : dict) : Z := fst (ChooseStampSize d).
(** include/blobstamper/stamp_dict.h:47. *)
Definition DictMaxSize (d : dict) : Z := fst (ChooseStampSize d).
