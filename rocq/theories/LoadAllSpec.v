(** Loading all stamps of a set, and unloading them one after another (C48). *)
From Verif Require Import Base Blob BlobSpec RunSpec LocalSpec Galley.

(** UnloadStr (or UnloadBin) of the stamp objects, in this order, until one of them throws. *)
Fixpoint unload_all {A} (l : list (nat * M blob A)) (st : loads blob) : res (list A) :=
  match l with
  | [] => Ok []
  | (s, ex) :: r =>
      match Unload ex s st with
      | (Ok v, st') => match unload_all r st' with Ok vs => Ok (v :: vs) | e => e end
      | (OutOfData, _) => OutOfData
      | (UB, _) => UB
      | (Abort, _) => Abort
      | (Diverge, _) => Diverge
      end
  end.

(** What a stamp keeps of its chunk: at most maxSize() bytes, everything if unbounded. *)
Definition kept (mx : Z) (c : bytes) : bytes := if mx =? -1 then c else firstn (Z.to_nat mx) c.

(** A stamp object with its sizes and its ExtractStr. *)
Record member (A : Type) := mkMember { obj : nat; sizes : Z * Z; takes : M blob A }.
Arguments obj {A}. Arguments sizes {A}. Arguments takes {A}. Arguments mkMember {A}.
