(** How StampJSON reads its data (C49) and how large the result can be (C50). *)
From Verif Require Import Base Blob ArithSpec Arithm VectorSpec Stamps Json JsonSpec.
Local Open Scope Z_scope.

(** The data of an array or object: an oracle for the number of parts, an oracle per part, the parts, what is left.
    Up to 2^31 bytes no part is smaller than [mn]; if the data would do for at most 65534 parts there is a part; and up to
    393229 bytes number and sizes of parts are those of C19. *)
Definition parted (mn : Z) (r : bytes) (cs : list bytes) (rest : bytes) : Prop :=
  exists o os, r = le16 o ++ concat (map le16 os) ++ concat cs ++ rest /\ length os = length cs
    /\ (zlen r < 2 ^ 31 -> Forall (fun c => mn <= zlen c) cs)
    /\ (parts mn (zlen r) <= 65534 -> cs <> [])
    /\ (zlen r <= 393229 -> unbounded_cut mn r o os cs rest).

Section Decode.
  (** The word that a byte stands for. *)
  Context (word : byte -> bytes).

  (** [d] is read as the tree [t], and [rest] is not used.  Two bytes decide what kind of value comes next, among
      those for which there is enough data. *)
  Inductive decodes : bytes -> jtree -> bytes -> Prop :=
  | dec_int front r rest z : zlen front = 2 -> represents Long z r -> zlen (r ++ rest) < 14 -> decodes (front ++ r ++ rest) (JInt z) rest
  | dec_double front r rest bits : zlen front = 2 -> represents ULong bits r -> zlen (r ++ rest) < 14 -> decodes (front ++ r ++ rest) (JDouble bits) rest
  | dec_str front c rest : zlen front = 2 -> 8 <= zlen (c :: rest) < 14 -> decodes (front ++ c :: rest) (JStr (word c)) rest
  | dec_arr front r cs rest ts : zlen front = 2 -> 14 <= zlen r -> parted 10 r cs rest ->
      Forall2 (fun c t => exists e, decodes c t e) cs ts -> decodes (front ++ r) (JArr ts) rest
  (* each part: a byte for the name, then the value *)
  | dec_obj front r cs rest ms : zlen front = 2 -> 22 <= zlen r -> parted 18 r cs rest ->
      Forall2 (fun c m => exists k v e, c = k :: v /\ fst m = word k /\ decodes v (snd m) e) cs ms -> decodes (front ++ r) (JObj ms) rest.
End Decode.

(** The stamps that StampJSON chooses from when [k] bytes follow the first two. *)
Definition eligible (k : Z) : list (sx blob) :=
  if k <? 8 then [] else if k <? 14 then [StampJSONInt; StampJSONFloat; StampJSONString]
  else if k <? 22 then [StampJSONArray 0] else [StampJSONArray 0; StampJSONHash 0].

(** Levels of arrays and objects; numbers and strings that are values. *)
Definition maximum (l : list Z) : Z := fold_right Z.max 0 l.
Fixpoint depth (t : jtree) : Z :=
  match t with
  | JArr ts => 1 + maximum (map depth ts)
  | JObj ms => 1 + maximum (map (fun m => depth (snd m)) ms)
  | _ => 0
  end.
Fixpoint scalars (t : jtree) : Z :=
  match t with
  | JArr ts => sum (map scalars ts)
  | JObj ms => sum (map (fun m => scalars (snd m)) ms)
  | _ => 1
  end.
