(** How a GalleySet is supposed to divide its data (C22-C26).  A stamp is a pair of its minSize() and
    its maxSize(). *)
From Verif Require Import Base VectorSpec.

(** The three kinds of stamps. *)
Definition unb (s : Z * Z) : bool := snd s =? -1.
Definition var (s : Z * Z) : bool := fst s <? snd s.
Definition fixed (s : Z * Z) : bool := fst s =? snd s.
Definition stamp_ok (s : Z * Z) : Prop := 0 <= fst s /\ (snd s = fst s \/ snd s = -1 \/ fst s < snd s).

Definition count (p : Z * Z -> bool) (L : list (Z * Z)) : Z := zlen (filter p L).
Definition both (L : list (Z * Z)) : bool := (0 <? count var L) && (0 <? count unb L).

(** The fixed part: the minimal sizes and 2 bytes for every oracle. *)
Definition min_total (L : list (Z * Z)) : Z :=
  sum (map fst L) + 2 * count var L + (if 1 <? count unb L then 2 * count unb L else 0)
  + (if both L then 2 else 0).

(** What variated stamps can take above their minimum. *)
Definition max_extra (L : list (Z * Z)) : Z := sum (map (fun s => snd s - fst s) (filter var L)).

(** All stamps sensible, totals within [int]. *)
Definition set_ok (L : list (Z * Z)) : Prop :=
  Forall stamp_ok L /\ min_total L < 2 ^ 31 /\ max_extra L < 2 ^ 31.

(** The oracles: one that divides the data between the two kinds, if there are both; then, in the order of
    stamps, one for every variated stamp and one for every unbounded stamp that is not the only one. *)
Definition division_oracle (L : list (Z * Z)) (o0 : Z) : bytes := if both L then le16 o0 else [].
Definition has_oracle (nu : Z) (s : Z * Z) : bool := var s || (unb s && (1 <? nu)).
Definition size_oracles (nu : Z) (L : list (Z * Z)) (os : list Z) : bytes :=
  concat (map (fun so => if has_oracle nu (fst so) then le16 (snd so) else []) (combine L os)).

(** The items that belong to stamps of one kind. *)
Definition of_kind {A} (p : Z * Z -> bool) (L : list (Z * Z)) (xs : list A) : list A :=
  map snd (filter (fun sx => p (fst sx)) (combine L xs)).

(** Bytes above (or, if negative, below) minSize(). *)
Definition extras (L : list (Z * Z)) (cs : list bytes) : list Z :=
  map (fun sc => zlen (snd sc) - fst (fst sc)) (combine L cs).

(** Weights: oracle times (max - min) for variated stamps, the oracle for unbounded ones (all 1 if they
    are all 0). *)
Definition var_weights (L : list (Z * Z)) (os : list Z) : list Z :=
  of_kind var L (map (fun so => (snd (fst so) - fst (fst so)) * snd so) (combine L os)).
Definition unb_weights (L : list (Z * Z)) (os : list Z) : list Z := weights (of_kind unb L os).

(** [es] is a fair division of [F] with weights [ws]: what the first k got together is at most 5/8 of a
    byte away from their exact proportional share. *)
Definition fair (F : Z) (ws es : list Z) : Prop :=
  length es = length ws
  /\ forall k, 8 * Z.abs (sum (firstn k es) * sum ws - F * sum (firstn k ws)) <= 5 * sum ws.

(** Data above the minimum, and the part of it that variated stamps may use: not more than they can take;
    if there are unbounded stamps, the fraction o0/65535 (rounded) at most. *)
Definition avail (L : list (Z * Z)) (l : bytes) : Z := zlen l - min_total L.
Definition limit (L : list (Z * Z)) (l : bytes) (o0 : Z) : Z :=
  let a := Z.min (avail L l) (max_extra L) in
  if both L then Z.min a ((2 * (o0 * avail L l) + 65535) / (2 * 65535)) else a.

(** The division of [l]: [Fv] bytes above the minimum go to variated stamps, [Fu] to unbounded ones. *)
Record set_cut (L : list (Z * Z)) (l : bytes) (o0 : Z) (os : list Z) (cs : list bytes) (rest : bytes) (Fv Fu : Z) : Prop := {
  cut_layout : l = division_oracle L o0 ++ size_oracles (count unb L) L os ++ concat cs ++ rest;
  cut_oracles : oracle16 o0 /\ Forall oracle16 os /\ length os = length L /\ length cs = length L;
  cut_fixed : Forall (fun e => e = 0) (of_kind fixed L (extras L cs));
  cut_var : fair Fv (var_weights L os) (of_kind var L (extras L cs));
  cut_unb : fair Fu (unb_weights L os) (of_kind unb L (extras L cs));
  (* weight above zero: not below the minimum *)
  cut_var_min : Forall2 (fun w e => w <> 0 -> 0 <= e) (var_weights L os) (of_kind var L (extras L cs));
  cut_unb_min : Forall2 (fun w e => w <> 0 -> 0 <= e) (unb_weights L os) (of_kind unb L (extras L cs));
  (* as much as the oracles of variated stamps ask for, up to the limit *)
  cut_total : 0 <= Fv <= limit L l o0
    /\ 8 * Z.abs (65535 * Fv - Z.min (sum (var_weights L os)) (65535 * limit L l o0)) <= 5 * 65535;
  cut_rest : Fv + Fu = avail L l /\ zlen rest = if 0 <? count unb L then 0 else Fu
}.

(** Stamps that cannot be driven below zero: at most two of a kind, or minSize() at least 1. *)
Definition roomy (p : Z * Z -> bool) (L : list (Z * Z)) : Prop :=
  count p L <= 2 \/ Forall (fun s => p s = true -> 1 <= fst s) L.
