(** Well-behaved user stamps for the termination theorem. *)
From Verif Require Import Base Blob BlobSpec Stamps LeafSpec.

(** ExtractStr of a user stamp that returns or throws, and only chops its blob. *)
Definition tame (ex : M blob bytes) : Prop := forall b, wf b ->
  fst (ex b) <> Diverge /\ wf (snd (ex b)) /\ blobSize (snd (ex b)) <= blobSize b.

(** All leaves reachable from the stamp [x] in the graph [h] are tame. *)
Definition tame_graph (h : heap blob) (x : sx blob) : Prop :=
  heap_leaves (fun _ _ ex => tame ex) h /\ leaves (fun _ _ ex => tame ex) x.
