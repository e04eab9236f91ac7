(** The bytes an operation leaves do not matter to it, only their number (C67). *)
From Verif Require Import Base Blob BlobSpec RunSpec.

(** Whatever [f] does, result or failure, on [taken] followed by [rest], leaving [rest], it does on [taken] followed
    by any other bytes of the same number. *)
Definition blind {A} (f : M blob A) : Prop :=
  forall b taken rest r, holds b (taken ++ rest) -> runs f b r rest ->
  forall b2 rest2, holds b2 (taken ++ rest2) -> zlen rest2 = zlen rest -> runs f b2 r rest2.

(** The same for an operation that cuts off parts. *)
Definition blind_cut (f : M blob (list blob)) : Prop :=
  forall b taken rest parts, holds b (taken ++ rest) -> cuts f b parts rest ->
  forall b2 rest2, holds b2 (taken ++ rest2) -> zlen rest2 = zlen rest -> cuts f b2 parts rest2.
