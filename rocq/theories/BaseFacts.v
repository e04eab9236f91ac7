(** Facts about bytes, lists and integer conversions. *)
From Verif Require Import Base.
From Coq Require Export ZifyBool.

Lemma zlen_nonneg {A} (l : list A) : 0 <= zlen l.
Proof. unfold zlen. lia. Qed.

Lemma zlen_app {A} (l r : list A) : zlen (l ++ r) = zlen l + zlen r.
Proof. unfold zlen. rewrite app_length. lia. Qed.

Lemma zlen_cons {A} (x : A) l : zlen (x :: l) = zlen l + 1.
Proof. unfold zlen. cbn [length]. lia. Qed.

Lemma zlen_nil {A} : zlen (@nil A) = 0.
Proof. reflexivity. Qed.

Lemma zlen_map {A C} (f : A -> C) l : zlen (map f l) = zlen l.
Proof. unfold zlen. rewrite map_length. reflexivity. Qed.

Lemma zlen_firstn {A} n (l : list A) : 0 <= n <= zlen l -> zlen (firstn (Z.to_nat n) l) = n.
Proof. unfold zlen. intros H. rewrite firstn_length. lia. Qed.

Lemma zlen_skipn {A} n (l : list A) : 0 <= n <= zlen l -> zlen (skipn (Z.to_nat n) l) = zlen l - n.
Proof. unfold zlen. intros H. rewrite skipn_length. lia. Qed.

Lemma zlen_repeat {A} (x : A) n : zlen (repeat x n) = Z.of_nat n.
Proof. unfold zlen. rewrite repeat_length. reflexivity. Qed.

Lemma zlen_0_nil {A} (l : list A) : zlen l = 0 -> l = [].
Proof. destruct l; [reflexivity|rewrite zlen_cons; pose proof (zlen_nonneg l); lia]. Qed.

Lemma skipn_skipn {A} (a b : nat) (l : list A) : skipn a (skipn b l) = skipn (b + a) l.
Proof. revert l. induction b as [|b IH]; intros [|x l]; cbn; rewrite ?skipn_nil; auto. Qed.

Lemma zlen_concat_cons {A} (c : list A) l : zlen (concat (c :: l)) = zlen c + zlen (concat l).
Proof. cbn. apply zlen_app. Qed.

(** ** Bytes *)
Lemma bval_range b : 0 <= bval b < 256.
Proof. unfold bval. pose proof (Strings.Byte.to_N_bounded b). lia. Qed.

Lemma byte_of_bval b : byte_of_Z (bval b) = b.
Proof.
  unfold byte_of_Z. rewrite Z.mod_small by apply bval_range.
  unfold bval. rewrite N2Z.id, Strings.Byte.of_to_N. reflexivity.
Qed.

Lemma bval_byte_of_Z z : bval (byte_of_Z z) = z mod 256.
Proof.
  unfold byte_of_Z. pose proof (Z.mod_pos_bound z 256 eq_refl) as Hb.
  set (n := Z.to_N (z mod 256)).
  destruct (Strings.Byte.of_N n) as [b|] eqn:E.
  - apply Strings.Byte.to_of_N in E. unfold bval. rewrite E. subst n. rewrite Z2N.id; lia.
  - exfalso. apply Strings.Byte.of_N_None_iff in E. subst n. lia.
Qed.

Lemma bval_inj a b : bval a = bval b -> a = b.
Proof. intros H. rewrite <- (byte_of_bval a), <- (byte_of_bval b), H. reflexivity. Qed.

(** ** Conversions *)
Lemma u64_id z : 0 <= z < 2 ^ 64 -> u64 z = z.
Proof. intros H. apply Z.mod_small. exact H. Qed.

Lemma u64_range z : 0 <= u64 z < 2 ^ 64.
Proof. apply Z.mod_pos_bound. reflexivity. Qed.

Lemma u16_range z : 0 <= u16 z < 2 ^ 16.
Proof. apply Z.mod_pos_bound. reflexivity. Qed.

Lemma u16_id z : 0 <= z < 2 ^ 16 -> u16 z = z.
Proof. intros H. apply Z.mod_small. exact H. Qed.

Lemma i32_id z : - 2 ^ 31 <= z < 2 ^ 31 -> i32 z = z.
Proof. intros H. unfold i32. rewrite Z.mod_small; lia. Qed.

Lemma i32_range z : - 2 ^ 31 <= i32 z < 2 ^ 31.
Proof. unfold i32. pose proof (Z.mod_pos_bound (z + 2 ^ 31) (2 ^ 32) eq_refl). lia. Qed.

Lemma i32_add_l a c : i32 (i32 a + c) = i32 (a + c).
Proof.
  unfold i32.
  replace ((a + 2 ^ 31) mod 2 ^ 32 - 2 ^ 31 + c + 2 ^ 31) with ((a + 2 ^ 31) mod 2 ^ 32 + c) by lia.
  rewrite Z.add_mod_idemp_l by discriminate. f_equal. f_equal. lia.
Qed.

Lemma int_op_ok z : - 2 ^ 31 <= z < 2 ^ 31 -> int_op z = Ok z.
Proof. intros H. unfold int_op, in_i32. replace _ with true by lia. reflexivity. Qed.

Lemma int_op_inv z r : int_op z = Ok r -> r = z /\ - 2 ^ 31 <= z < 2 ^ 31.
Proof.
  unfold int_op, in_i32. destruct ((- 2 ^ 31 <=? z) && (z <? 2 ^ 31)) eqn:E; intros [=]; subst. lia.
Qed.

(** ** Monad *)
Lemma bind_ok {B A C} (f : M B A) (g : A -> M B C) b a b' :
  f b = (Ok a, b') -> bind f g b = g a b'.
Proof. intros H. unfold bind. rewrite H. reflexivity. Qed.

Lemma bind_lift_ok {B A C} (r : res A) (g : A -> M B C) b a :
  r = Ok a -> bind (lift r) g b = g a b.
Proof. intros ->. reflexivity. Qed.

Lemma bind_gets {B A C} (f : B -> A) (g : A -> M B C) b : bind (gets f) g b = g (f b) b.
Proof. reflexivity. Qed.

Lemma bind_ret {B A C} (a : A) (g : A -> M B C) b : bind (ret a) g b = g a b.
Proof. reflexivity. Qed.

Lemma bind_ood {B A C} (f : M B A) (g : A -> M B C) b b' :
  f b = (OutOfData, b') -> bind f g b = (OutOfData, b').
Proof. intros H. unfold bind. rewrite H. reflexivity. Qed.
