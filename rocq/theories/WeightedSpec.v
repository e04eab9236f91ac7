(** Choice by weights (C71). *)
From Verif Require Import Base VectorSpec.

(** What lies before element [k] in the sum of all weights. *)
Definition weight_before (ws : list Z) (k : nat) : Z := sum (firstn k ws).

(** The number of values from 0 to 255 that fulfil [p]. *)
Definition how_many (p : Z -> bool) : Z := zlen (filter p (map Z.of_nat (seq 0 256))).
