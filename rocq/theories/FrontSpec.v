(** What an operation that only takes data from the front leaves of a blob (C60). *)
From Verif Require Import Base Blob BlobSpec.

(** [b'] is [b] further on: the same buffer, unchanged, the same end. *)
Definition further (b b' : blob) : Prop :=
  mem b' = mem b /\ data b' = data b /\ bend b' = bend b /\ bbegin b <= bbegin b'.

(** Whatever the outcome of [f], an exception included, the blob is merely further on. *)
Definition takes_front {A} (f : M blob A) : Prop := forall b, wf b -> wf (snd (f b)) /\ further b (snd (f b)).

(** Operations of any result type, run one after another on the same blob; an exception ends the
    operation it comes from, not the sequence (the caller catches it). *)
Fixpoint run_all (fs : list { A : Type & M blob A }) (b : blob) : blob :=
  match fs with
  | [] => b
  | existT _ A f :: r => run_all r (snd (f b))
  end.
