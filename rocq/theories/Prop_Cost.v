(** C73: how many minSize() and maxSize() calls one size query makes. *)
From Verif Require Import Base Oracle Arithm Blob StampDict StampText Galley Stamps Json Cost CostSpec CostFacts CostExact.
From Coq Require Import Factorial.

(** Counting changes no answer. *)
Theorem C73_same {B} (h : heap B) (x : sx B) :
  fst (minSize_counted h x) = minSize h x /\ fst (maxSize_counted h x) = maxSize h x.
Proof. split; apply counted_same. Qed.

(** Every galley a stamp lies in at least doubles the work of minSize(). *)
Theorem C73_doubles {B} (h : heap B) (x : sx B) a n :
  minSize_counted h x = (Ok a, n) -> 2 ^ Z.of_nat (levels x) <= n.
Proof. apply counted_lower. Qed.

(** [d] enumerators in one another: the exact number, for any leaf. *)
Theorem C73_enumerators {B} (h : heap B) join d mn mx ex :
  0 <= mn -> mn + 4 * Z.of_nat (S d) < 2 ^ 31 ->
  snd (minSize_counted h (enumerators join (S d) (XLeaf mn mx ex)))
    = (if mn =? mx then 7 * 2 ^ Z.of_nat d - 3 else 8 * 2 ^ Z.of_nat d - 3)
  /\ snd (maxSize_counted h (enumerators join (S d) (XLeaf mn mx ex))) = 1.
Proof.
  intros H0 H1. split.
  - destruct (enumerators_exact (qfuel h) join d mn mx ex h H0 H1) as (m & E & _).
    unfold minSize_counted. rewrite E. reflexivity.
  - unfold maxSize_counted. cbn [enumerators]. rewrite ex_vec_max. reflexivity.
Qed.

(** [d] sets of one stamp in one another: the exact number, the same for both queries. *)
Theorem C73_sets {B} (h : heap B) join d mn mx ex :
  0 <= mn -> -1 <= mx -> mn + 2 * Z.of_nat d < 2 ^ 31 -> mx + 2 * Z.of_nat d < 2 ^ 31 ->
  let n := if mn =? mx then (4 ^ (Z.of_nat d + 1) - 1) / 3 else (5 ^ (Z.of_nat d + 1) - 1) / 4 in
  snd (minSize_counted h (boxes join d (XLeaf mn mx ex))) = n
  /\ snd (maxSize_counted h (boxes join d (XLeaf mn mx ex))) = n.
Proof.
  intros H0 H1 H2 H3.
  destruct (boxes_exact (qfuel h) join d mn mx ex h H0 H1 H2 H3) as (m & M & Em & EM & _).
  unfold minSize_counted, maxSize_counted. rewrite Em, EM. cbn [fst snd]. cbv zeta.
  rewrite !Z.pow_add_r by lia. rewrite !(Z.mul_comm _ (_ ^ 1)). split; reflexivity.
Qed.

(** What every stamp made of others asks of them, exactly. *)
Theorem C73_unary {B} (h : heap B) op x :
  snd (minSize_counted h (XUnary op x)) = 1 + snd (minSize_counted h x)
  /\ snd (maxSize_counted h (XUnary op x)) = 1.
Proof. split; [apply unary_calls|apply one_call; exact I]. Qed.

Theorem C73_hash_element {B} (h : heap B) name value mn n mn' n' :
  minSize_counted h name = (Ok mn, n) -> minSize_counted h value = (Ok mn', n') ->
  snd (minSize_counted h (XHashEl name value)) = 1 + n + n'
  /\ snd (maxSize_counted h (XHashEl name value)) = 1.
Proof. intros H1 H2. split; [exact (hashel_calls h name value mn n mn' n' H1 H2)|apply one_call; exact I]. Qed.

Theorem C73_enumerator {B} (h : heap B) join x mn n mx N : answers h x mn n mx N ->
  snd (minSize_counted h (XVec join x)) = 1 + 2 * n + (if mn =? mx then 1 else 2) * N
  /\ snd (maxSize_counted h (XVec join x)) = 1.
Proof. intros H. split; [exact (vec_calls h join x mn n mx N H)|apply one_call; exact I]. Qed.

Theorem C73_binary {B} (h : heap B) op x y p q a :
  answers h x (p_min p) (p_min_calls p) (p_max p) (p_max_calls p) ->
  answers h y (p_min q) (p_min_calls q) (p_max q) (p_max_calls q) ->
  minSize h (XBinary op x y) = Ok a ->
  snd (minSize_counted h (XBinary op x y))
    = 1 + (2 * p_min_calls p + (if p_min p =? p_max p then 2 else 3) * p_max_calls p)
        + (2 * p_min_calls q + (if p_min q =? p_max q then 2 else 3) * p_max_calls q)
  /\ snd (maxSize_counted h (XBinary op x y)) = 1.
Proof.
  intros Hx Hy E. split; [|apply one_call; exact I]. rewrite (binary_calls h op x y p q a Hx Hy E).
  cbn [map sum fold_right]. lia.
Qed.

Theorem C73_set {B} (h : heap B) join xs ps a b :
  Forall2 (fun x p => answers h x (p_min p) (p_min_calls p) (p_max p) (p_max_calls p)) xs ps ->
  minSize h (XSet join xs) = Ok a -> maxSize h (XSet join xs) = Ok b ->
  snd (minSize_counted h (XSet join xs))
    = 1 + fold_right Z.add 0 (map (fun p => 2 * p_min_calls p + (if p_min p =? p_max p then 2 else 3) * p_max_calls p) ps)
  /\ snd (maxSize_counted h (XSet join xs))
    = 1 + fold_right Z.add 0 (map (fun p => p_min_calls p + (if p_min p =? p_max p then 3 else 4) * p_max_calls p)
                                (asked_parts ps)).
Proof. intros H Ea Eb. split; [exact (set_calls h join xs ps a H Ea)|exact (set_max_calls h join xs ps b H Eb)]. Qed.

(** A lottery asks nobody, however many members it has. *)
Theorem C73_lottery {B} (h : heap B) l :
  snd (minSize_counted h (XLot l)) = 1 /\ snd (maxSize_counted h (XLot l)) = 1.
Proof. split; apply lot_calls. Qed.

(** No more than that: no stamp asks one of its parts more than five times, and a pool asks each
    member at most once. *)
Theorem C73_at_most {B} (h : heap B) (x : sx B) k w :
  0 <= k -> 0 <= w -> roomy h k w ->
  snd (minSize_counted h x) <= weight x * (1 + k * w) ^ zlen (pools h)
  /\ snd (maxSize_counted h x) <= weight x * (1 + k * w) ^ zlen (pools h).
Proof. intros Hk Hw R. split; apply counted_upper; assumption. Qed.

(** [n] pools that are members of each other: every order in which pools can be entered is gone
    through. *)
Theorem C73_pools {B} n p : (p < n)%nat ->
  snd (minSize_counted (clique (B := B) n) (XPool p)) = clique_calls n (n - 1)
  /\ (Z.of_nat n + 1) * Z.of_nat (fact (n - 1)) <= clique_calls n (n - 1).
Proof.
  intros Hp. split; [rewrite clique_counted by exact Hp; reflexivity|]. apply clique_calls_fact. lia.
Qed.

Print Assumptions C73_same.
Print Assumptions C73_doubles.
Print Assumptions C73_enumerators.
Print Assumptions C73_sets.
Print Assumptions C73_unary.
Print Assumptions C73_hash_element.
Print Assumptions C73_enumerator.
Print Assumptions C73_binary.
Print Assumptions C73_set.
Print Assumptions C73_lottery.
Print Assumptions C73_at_most.
Print Assumptions C73_pools.

(** ** Cases *)

(** Ten enumerators around an int stamp: 3581 calls for one minSize(). *)
Example C73_enumerators_case (h : heap blob) j :
  snd (minSize_counted h (enumerators j 10 (XLeaf 4 4 (ArithExtractStr Int)))) = 3581.
Proof. exact (proj1 (C73_enumerators h j 9 4 4 _ ltac:(lia) ltac:(lia))). Qed.

(** Eight sets around a stamp of 3 to 9 bytes: 488281 calls. *)
Example C73_sets_case (h : heap blob) j ex :
  snd (minSize_counted h (boxes j 8 (XLeaf 3 9 ex))) = 488281.
Proof. exact (proj1 (C73_sets h j 8 3 9 ex ltac:(lia) ltac:(lia) ltac:(lia) ltac:(lia))). Qed.

(** Six pools that are members of each other: 1957 calls. *)
Example C73_pools_case : snd (minSize_counted (clique (B := blob) 6) (XPool 2)) = 1957.
Proof. rewrite (proj1 (C73_pools 6 2 ltac:(lia))). reflexivity. Qed.

(** The JSON stamp: 18 calls for minSize(), 5 for maxSize(); the bound of [C73_at_most] is far off. *)
Example C73_json_case : minSize_counted (json_heap (B := blob)) StampJSON = (Ok 10, 18)
  /\ maxSize_counted (json_heap (B := blob)) StampJSON = (Ok (-1), 5)
  /\ roomy (json_heap (B := blob)) 5 56.
Proof.
  split; [reflexivity|]. split; [reflexivity|]. intros [|p] P E.
  - cbn [json_heap pools nth_error] in E. injection E as <-. split; [reflexivity|].
    cbn [json_pool fold_left add_weak weak_pool new_pool app map In]. intros y Hy.
    repeat destruct Hy as [E|Hy]; try (injection E as <-; vm_compute; discriminate); contradiction.
  - destruct p; discriminate E.
Qed.

(** [C73_doubles]: a set of an int and an enumerator of enumerators of ints. *)
Example C73_doubles_case (h : heap blob) :
  let j := @concat _ in
  let int := XLeaf 4 4 (ArithExtractStr Int) in
  let x := XSet j [int; XVec j (XVec j int)] in
  minSize_counted h x = (Ok 12, 30) /\ levels x = 3%nat.
Proof. split; reflexivity. Qed.

(** The exact counts of compound stamps: a set of a fixed, a variated and an unbounded stamp. *)
Example C73_set_case (h : heap blob) ex :
  let x := XSet (@concat _) [XLeaf 4 4 ex; XLeaf 1 5 ex; XLeaf 3 (-1) ex; XLeaf 2 2 ex] in
  snd (minSize_counted h x) = 19 /\ snd (maxSize_counted h x) = 15.
Proof.
  exact (C73_set h (@concat _) [XLeaf 4 4 ex; XLeaf 1 5 ex; XLeaf 3 (-1) ex; XLeaf 2 2 ex]
    [mkPart 4 1 4 1; mkPart 1 1 5 1; mkPart 3 1 (-1) 1; mkPart 2 1 2 1] 14 (-1)
    ltac:(repeat constructor) eq_refl eq_refl).
Qed.
