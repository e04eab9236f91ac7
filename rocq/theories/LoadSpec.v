(** Load and Unload calls on stamp objects sharing one blob, and their meaning on bytes (C27). *)
From Verif Require Import Base Blob BlobSpec RunSpec LocalSpec Galley.

(** Calls: Load of stamp object [s] with sizes [mn], [mx]; UnloadStr (or UnloadBin) of object [s], whose
    ExtractStr is [ex]. *)
Inductive call : Type :=
| CLoad (s : nat) (mn mx : Z)
| CUnload (s : nat) (ex : M blob bytes).

Definition finished {A} (r : res A) : res bytes :=
  match r with
  | Ok _ => Ok [] | OutOfData => OutOfData | UB => UB | Abort => Abort | Diverge => Diverge
  end.

(** One call on the model; exceptions are caught by the caller.  (A Load that returns is reported as
    [Ok []].) *)
Definition do_call (c : call) (st : loads blob) (b : blob) : res bytes * loads blob * blob :=
  match c with
  | CLoad s mn mx =>
      match LoadInto s mn mx st b with
      | (Ok st', b') => (Ok [], st', b')
      | (r, b') => (finished r, st, b')
      end
  | CUnload s ex => let (r, st') := Unload ex s st in (r, st', b)
  end.

Fixpoint do_calls (cs : list call) (st : loads blob) (b : blob) : list (res bytes) * loads blob * blob :=
  match cs with
  | [] => ([], st, b)
  | c :: r =>
      let '(o, st', b') := do_call c st b in
      let '(os, st'', b'') := do_calls r st' b' in (o :: os, st'', b'')
  end.

(** The same on bytes.  Number of bytes bitten off [l]: *)
Definition bite_size (mx : Z) (l : bytes) : Z := if mx =? -1 then zlen l else Z.min mx (zlen l).

Definition says_call (c : call) (st : nat -> option bytes) (l : bytes) : res bytes * (nat -> option bytes) * bytes :=
  match c with
  | CLoad s mn mx =>
      if zlen l <? mn then (OutOfData, st, l)
      else
        let k := Z.to_nat (bite_size mx l) in
        (Ok [], fun s' => if Nat.eqb s' s then Some (firstn k l) else st s', skipn k l)
  | CUnload s ex =>
      match st s with
      | None => (UB, st, l)
      | Some d =>
          (* what ExtractStr does on a blob with just these bytes *)
          let r := ex (blob_of d) in
          (fst r, fun s' => if Nat.eqb s' s then Some (content (snd r)) else st s', l)
      end
  end.

Fixpoint says_calls (cs : list call) (st : nat -> option bytes) (l : bytes)
  : list (res bytes) * (nat -> option bytes) * bytes :=
  match cs with
  | [] => ([], st, l)
  | c :: r =>
      let '(o, st', l') := says_call c st l in
      let '(os, st'', l'') := says_calls r st' l' in (o :: os, st'', l'')
  end.

(** int sizes of a stamp. *)
Definition sane_sizes (mn mx : Z) : Prop := 0 <= mn < 2 ^ 31 /\ -1 <= mx < 2 ^ 31.

(** The stamps' loaded blobs hold the bytes [rs]. *)
Definition ldrel (st : loads blob) (rs : nat -> option bytes) : Prop :=
  forall s, match st s, rs s with Some c, Some d => holds c d | None, None => True | _, _ => False end.

(** Int sizes for Load; for Unload a stamp depending only on the bytes. *)
Definition sane_call (c : call) : Prop :=
  match c with CLoad _ mn mx => sane_sizes mn mx | CUnload _ ex => good_leaf ex end.
