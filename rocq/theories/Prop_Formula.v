(** C56: formulas from a StampLottery4Recursion with operators over itself (examples/exampleZZ.cpp). *)
From Verif Require Import Base BaseFacts Blob BlobSpec RunSpec RunFacts Stamps LotSpec TermSpec ArithSpec DictWords NestFacts Formula FormulaSpec FormulaFacts.
Local Open Scope Z_scope.

(** Up to 252 operators can be put into the lottery while it is their operand. *)
Theorem C56_setup : forall ops, ops <> [] -> zlen ops <= 252 ->
  exists h : heap blob, zz_build ops = Ok h /\ minSize h stamp_lot = Ok 2 /\ maxSize h stamp_lot = Ok (-1).
Proof. intros ops Hn Hs. exists (zz_heap ops). split; [exact (zz_build_ok ops Hn Hs)|]. split; [apply zz_lot_min|apply zz_lot_max]. Qed.
Print Assumptions C56_setup.

(** Whatever the data, the result is a formula, and their size bounds its size from both sides.  All data are
    used if there is an operator. *)
Theorem C56_writes : forall ops (h : heap blob) b d, ops <> [] -> zlen ops <= 252 -> zz_build ops = Ok h -> holds b d -> 2 <= zlen d < 2 ^ 31 ->
  exists f s rest, runs (ExtractStr h stamp_lot) b (Ok s) rest /\ proper ops f /\ written f s
    /\ 7 * operators f + 2 <= zlen d <= 13 * operators f + 8
    /\ zlen rest = if operators f =? 0 then zlen d - 2 else 0.
Proof.
  intros ops h b d Hn Hs E Hb H. rewrite (zz_build_ok ops Hn Hs) in E. injection E as <-.
  destruct (zz_writes ops Hn Hs (S (Z.to_nat (zlen d))) b d Hb ltac:(lia) (proj1 H) (proj2 H)) as (f & s & rest & R & P & W & B & _ & L).
  exists f, s, rest. repeat split; try assumption; apply B.
Qed.
Print Assumptions C56_writes.

Theorem C56_short : forall ops (h : heap blob) b d, ops <> [] -> zlen ops <= 252 -> zz_build ops = Ok h -> holds b d -> zlen d < 2 ->
  exists rest, runs (ExtractStr h stamp_lot) b OutOfData rest.
Proof.
  intros ops h b d Hn Hs E Hb H. rewrite (zz_build_ok ops Hn Hs) in E. injection E as <-. exact (zz_short ops Hn Hs b d Hb H).
Qed.
Print Assumptions C56_short.

(** Up to 65537 bytes these bounds are the only restriction: every formula comes out of some data of every
    such size. *)
Theorem C56_reach : forall ops (h : heap blob) f n, ops <> [] -> zlen ops <= 252 -> zz_build ops = Ok h -> proper ops f ->
  7 * operators f + 2 <= n <= 13 * operators f + 8 -> n <= 65537 ->
  exists d, zlen d = n /\ forall b, holds b d -> exists s rest, runs (ExtractStr h stamp_lot) b (Ok s) rest /\ written f s.
Proof.
  intros ops h f n Hn Hs E P Hl Hm. rewrite (zz_build_ok ops Hn Hs) in E. injection E as <-.
  destruct (zz_reach ops Hn Hs f P n Hl Hm) as (d & Ld & G). exists d. split; [exact Ld|]. intros b Hb. destruct (G b Hb) as (s & R & W).
  exists s, (content (snd (ExtractStr (zz_heap ops) stamp_lot b))). split; [|exact W].
  exists (snd (ExtractStr (zz_heap ops) stamp_lot b)). split; [rewrite (surjective_pairing (ExtractStr (zz_heap ops) stamp_lot b)) at 1; f_equal; exact R|].
  split; [|reflexivity]. apply tame_result; [exact (zz_lot_graph ops)|exact (proj1 Hb)].
Qed.
Print Assumptions C56_reach.

(** A text is the text of one formula only. *)
Theorem C56_unambiguous : forall ops f1 f2 s, Forall op_name ops -> proper ops f1 -> proper ops f2 -> written f1 s -> written f2 s -> f1 = f2.
Proof.
  intros ops f1 f2 s HO P1 P2 W1 W2. destruct (read_formula ops HO f1 s W1 P1 f2 s W2 P2 [] [] I I eq_refl) as [E _]. exact E.
Qed.
Print Assumptions C56_unambiguous.

(** The program: a line for every number of bytes from 2 to that of the string in its array. *)
Theorem C56_main : forall ops pre post, ops <> [] -> zlen ops <= 252 -> Forall (fun c => bval c <> 0) pre ->
  zlen pre < 2 ^ 31 - 1 -> zlen (pre ++ x00 :: post) < 2 ^ 63 ->
  exists lines, zz_main ops (pre ++ x00 :: post) = Ok lines
    /\ map fst lines = map Z.of_nat (seq 2 (length pre - 1))
    /\ Forall (fun line => exists f, proper ops f /\ written f (snd line) /\ 7 * operators f + 2 <= fst line <= 13 * operators f + 8) lines.
Proof.
  intros ops pre post Hn Hs F Hp Hm. unfold zz_main. rewrite (zz_build_ok ops Hn Hs). cbn [rbind]. rewrite zz_lot_min. cbn [rbind].
  destruct (zz_loop_run ops pre post Hn Hs F Hp Hm _ 2 ltac:(lia) eq_refl (S (length (pre ++ x00 :: post)))) as (lines & L1 & L2 & L3).
  { rewrite app_length. unfold zlen. cbn [length]. lia. }
  exists lines. split; [exact L1|]. split; [|exact L3]. rewrite L2. do 2 f_equal. unfold zlen. lia.
Qed.
Print Assumptions C56_main.

(** The program as it is, with its five operators: the lines it prints, and that its stamp leaves out no
    formula. *)
Theorem C56_program : forall pre post, Forall (fun c => bval c <> 0) pre -> zlen pre < 2 ^ 31 - 1 -> zlen (pre ++ x00 :: post) < 2 ^ 63 ->
  (exists lines, zz_main zz_ops (pre ++ x00 :: post) = Ok lines
    /\ map fst lines = map Z.of_nat (seq 2 (length pre - 1))
    /\ Forall (fun line => exists f, proper five_operators f /\ written f (snd line) /\ 7 * operators f + 2 <= fst line <= 13 * operators f + 8) lines)
  /\ exists h : heap blob, zz_build zz_ops = Ok h
     /\ forall f n, proper five_operators f -> 7 * operators f + 2 <= n <= 13 * operators f + 8 -> n <= 65537 ->
        exists d, zlen d = n /\ forall b, holds b d -> exists s rest, runs (ExtractStr h stamp_lot) b (Ok s) rest /\ written f s.
Proof.
  change zz_ops with five_operators.
  assert (Hn : five_operators <> []) by discriminate. assert (Hs : zlen five_operators <= 252) by (unfold zlen; cbn; lia).
  intros pre post F Hp Hm. split; [exact (C56_main five_operators pre post Hn Hs F Hp Hm)|].
  destruct (C56_setup five_operators Hn Hs) as (h & E & _). exists h. split; [exact E|].
  intros f n P Hl Hu. exact (C56_reach five_operators h f n Hn Hs E P Hl Hu).
Qed.
Print Assumptions C56_program.

Example C56_case : zz_build zz_ops = Ok (zz_heap zz_ops) /\ Forall op_name zz_ops
  /\ fst (ExtractStr (zz_heap zz_ops) stamp_lot (blob_of (lit "tzz !-abcd" ++ [xc0] ++ lit "!gh!yzz3"))) = Ok (lit "((castoffs + 104) * 122)")
  /\ written (FOp (lit "*") (FOp (lit "+") (FWord (lit "castoffs")) (FNum 104)) (FNum 122)) (lit "((castoffs + 104) * 122)").
Proof.
  split; [reflexivity|]. split; [repeat constructor; intros [H|[H|H]]; discriminate H|]. split; [vm_compute; reflexivity|].
  apply (w_op (lit "*") _ _ (lit "(castoffs + 104)") (lit "122")); [|constructor; reflexivity].
  apply (w_op (lit "+") _ _ (lit "castoffs") (lit "104")); constructor; reflexivity.
Qed.
