(** src/oracle.cpp, include/blobstamper/oracle.h. *)
From Verif Require Import Base FloatModel.

(** include/blobstamper/oracle.h:27. *)
Definition ORACLE_SIZE : Z := 2.       (* include/blobstamper/oracle.h:27, sizeof(unsigned short) *)
Definition ORACLE_MAX : Z := 65535.    (* include/blobstamper/oracle.h:28 *)

(** src/oracle.cpp:23-36.  [oracle] is an unsigned short, [min], [max] are size_t.
    (float) ORACLE_MAX + 1 is a float addition; delta is converted to float. *)
Definition OracleProportion (oracle min max : Z) : res Z :=
  let delta := u64 (u64 (max - min) + 1) in
  let x := f32_mul (f32_div (f32_of_Z oracle) (f32_add (f32_of_Z ORACLE_MAX) (f32_of_Z 1)))
                   (f32_of_Z delta) in
  r <-- to_size (Bfloor_Z x) ;;
  Ok (u64 (min + r)).
