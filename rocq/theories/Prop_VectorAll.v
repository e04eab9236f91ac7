(** C19, C20: GalleyVector over an unbounded stamp, any number of parts and any size. *)
From Verif Require Import Base BaseFacts Blob BlobSpec RunSpec RunFacts Sim Oracle Arithm Galley
  VectorSpec VectorFacts VectorUnbounded VectorLimits VectorAllSpec VectorAll.
Local Open Scope Z_scope.

(** All data of two bytes and more start with a count oracle and the size oracles it asks for. *)
Theorem C19_layout : forall mn l, 0 <= mn -> 2 <= zlen l ->
  exists o os r, l = le16 o ++ concat (map le16 os) ++ r /\ oracle16 o /\ Forall oracle16 os /\ zlen os = part_count mn (zlen l) o.
Proof. exact layout_ex. Qed.
Print Assumptions C19_layout.

(** Up to 2 MiB, however many parts: no parts if the 16 bit count is 0, undefined if the size oracles exceed INT_MAX in
    sum, otherwise the division. *)
Theorem C19_any_count : forall mn b o os l, 0 <= mn < 2 ^ 31 -> oracle16 o -> Forall oracle16 os ->
  let data := le16 o ++ concat (map le16 os) ++ l in
  holds b data -> mn <= zlen data <= 2097152 -> zlen os = part_count mn (zlen data) o ->
  (os = [] -> cuts (vector_extract mn (-1)) b [] l)
  /\ (2 ^ 31 <= sum os -> fst (vector_extract mn (-1) b) = UB)
  /\ (os <> [] -> sum os < 2 ^ 31 ->
      exists chunks rest, cuts (vector_extract mn (-1)) b chunks rest /\ l = concat chunks ++ rest /\ zlen rest <= 1
        /\ Forall2 (fun w c => mn <= zlen c /\ near_share mn (zlen l - mn * zlen os) (sum (weights os)) w (zlen c)) (weights os) chunks).
Proof.
  intros mn b o os l Hm Ho Hos data Hb Hl Hn. pose proof (holds_small _ _ Hb) as Hs.
  assert (L2 : 2 <= zlen data) by (unfold data; rewrite zlen_app, le16_len; pose proof (zlen_nonneg (concat (map le16 os) ++ l)); lia).
  pose proof (count_all mn (zlen data) o Hm ltac:(lia) Ho) as C. rewrite <- Hn in C. split; [|split].
  - intros ->. refine (cuts_transfer _ _ b data [] l (sim_vector_extract mn (-1)) Hb _). apply no_parts; [exact Hm|exact Ho|split; [exact (proj1 Hl)|exact Hs]|exact C].
  - intros S. apply (run_transfer_ub _ _ _ b data (sim_vector_extract mn (-1)) Hb). apply oracles_overflow; [exact Hm|exact Ho|exact Hos|exact (conj (proj1 Hl) Hs)|symmetry; exact C|exact S].
  - intros N S. destruct (all_counts mn o os l Hm Ho Hos N Hl Hn S) as (cs & rest & R & E & Lr & F).
    exists cs, rest. split; [exact (cuts_transfer _ _ b data cs rest (sim_vector_extract mn (-1)) Hb R)|]. split; [exact E|]. split; [exact Lr|exact F].
Qed.
Print Assumptions C19_any_count.

(** Up to 4 KiB below 2 GiB: as many parts in the same order, their sizes right up to a millionth, or OutOfData. *)
Theorem C19_any_size : forall mn b o os l, 0 <= mn < 2 ^ 31 -> oracle16 o -> Forall oracle16 os ->
  let data := le16 o ++ concat (map le16 os) ++ l in
  holds b data -> mn <= zlen data <= 2 ^ 31 - 4096 -> zlen os = part_count mn (zlen data) o ->
  (os = [] -> cuts (vector_extract mn (-1)) b [] l)
  /\ (2 ^ 31 <= sum os -> fst (vector_extract mn (-1) b) = UB)
  /\ (os <> [] -> sum os < 2 ^ 31 ->
      (exists chunks rest, cuts (vector_extract mn (-1)) b chunks rest /\ l = concat chunks ++ rest /\ 1000000 * zlen rest <= 2000000 + zlen l
        /\ Forall2 (fun w c => roughly_share mn (zlen l - mn * zlen os) (sum (weights os)) w (zlen c)) (weights os) chunks)
      \/ exists rest, runs (vector_extract mn (-1)) b OutOfData rest).
Proof.
  intros mn b o os l Hm Ho Hos data Hb Hl Hn. pose proof (holds_small _ _ Hb) as Hs.
  assert (L2 : 2 <= zlen data) by (unfold data; rewrite zlen_app, le16_len; pose proof (zlen_nonneg (concat (map le16 os) ++ l)); lia).
  pose proof (count_all mn (zlen data) o Hm ltac:(lia) Ho) as C. rewrite <- Hn in C. split; [|split].
  - intros ->. refine (cuts_transfer _ _ b data [] l (sim_vector_extract mn (-1)) Hb _). apply no_parts; [exact Hm|exact Ho|split; [exact (proj1 Hl)|exact Hs]|exact C].
  - intros S. apply (run_transfer_ub _ _ _ b data (sim_vector_extract mn (-1)) Hb). apply oracles_overflow; [exact Hm|exact Ho|exact Hos|exact (conj (proj1 Hl) Hs)|symmetry; exact C|exact S].
  - intros N S. destruct (any_size mn o os l Hm Ho Hos N ltac:(fold data; lia) Hn S) as [(cs & rest & R & E & Lr & F)|(rest & R)].
    + left. exists cs, rest. split; [exact (cuts_transfer _ _ b data cs rest (sim_vector_extract mn (-1)) Hb R)|]. split; [exact E|]. split; [exact Lr|exact F].
    + right. exists rest. exact (cuts_transfer_fail _ _ _ b data rest (sim_vector_extract mn (-1)) Hb R).
Qed.
Print Assumptions C19_any_size.

(** C20 (d).  A stamp of minSize() 2^24 + 1, which is not a float: its only part is one byte too short, and the byte
    remains. *)
Theorem C20_min_missed : forall b o o' c x, oracle16 o -> oracle16 o' -> zlen c = 16777216 ->
  holds b (le16 o ++ le16 o' ++ c ++ [x]) -> cuts (vector_extract 16777217 (-1)) b [c] [x].
Proof.
  intros b o o' c x Ho Ho' Hc Hb. exact (cuts_transfer _ _ b _ [c] [x] (sim_vector_extract 16777217 (-1)) Hb (min_missed o o' c x Ho Ho' Hc)).
Qed.
Print Assumptions C20_min_missed.

(** 200000 bytes for a stamp that needs nothing: 99999 parts are possible, oracle 50000 would mean 76295 and means 10759. *)
Example C19_any_case : parts 0 200000 = 99999 /\ 99999 * 50000 / 65535 + 1 = 76295 /\ part_count 0 200000 50000 = 10759
  /\ part_count 0 200000 42948 = 65534 /\ part_count 0 200000 42949 = 0
  /\ roughly_share 0 20000000 3 1 6666667 /\ ~ roughly_share 0 20000000 3 1 6666700.
Proof. repeat split; try (vm_compute; reflexivity). vm_compute. discriminate. Qed.
