(** Text stamps and separated lists. *)
From Verif Require Import Base BaseFacts Blob Sim StampText TextSpec.

Lemma latin1_spec l : Forall2 latin1_byte l (map nul_to_space l).
Proof.
  induction l as [|c l IH]; cbn [map]; constructor; [|exact IH].
  destruct (Z.eq_dec (bval c) 0) as [E|E].
  - left. split; [exact E|]. replace c with x00; [reflexivity|]. apply bval_inj. rewrite E. reflexivity.
  - right. split; [exact E|]. destruct c; try reflexivity. exfalso. apply E. reflexivity.
Qed.

Lemma ascii_spec l : Forall2 ascii_byte l (map (fun c => nul_to_space (strip_high c)) l).
Proof.
  induction l as [|c l IH]; cbn [map]; constructor; [|exact IH].
  assert (S : bval (strip_high c) = bval c mod 128).
  { unfold strip_high. rewrite bval_byte_of_Z. apply Z.mod_small.
    pose proof (Z.mod_pos_bound (bval c) 128 eq_refl). lia. }
  pose proof (latin1_spec [strip_high c]) as H. inversion H as [|? ? ? ? [[H1 H2]|[H1 H2]] _]; subst.
  - left. split; [lia|exact H2].
  - right. split; [lia|]. rewrite H2. exact S.
Qed.

Lemma list_text (k : bytes -> bytes) l : 0 < zlen l < 2 ^ 63 ->
  (b2 <- Chop2 (u64 TextMinSize) (u64 TextMaxSize) ;; v <- lift (AsByteVector b2) ;; ret (k v)) l
  = (Ok (k l), [] : bytes).
Proof.
  intros H. unfold bind, Chop2. cbn [Size Chop AsByteVector ListOps].
  change (u64 TextMinSize) with 1. change (u64 TextMaxSize) with (2 ^ 64 - 1).
  replace (zlen l <? 1) with false by lia. replace (2 ^ 64 - 1 <=? zlen l) with false by lia.
  replace (zlen l <? zlen l) with false by lia. cbn [lift ret].
  unfold zlen. rewrite Nat2Z.id, firstn_all, skipn_all. reflexivity.
Qed.

Lemma list_text_empty (k : bytes -> bytes) :
  (b2 <- Chop2 (u64 TextMinSize) (u64 TextMaxSize) ;; v <- lift (AsByteVector b2) ;; ret (k v)) []
  = (OutOfData, [] : bytes).
Proof. reflexivity. Qed.

Lemma latin1_no_nul l s : Forall2 latin1_byte l s -> Forall (fun c => bval c <> 0) s.
Proof.
  induction 1 as [|c d l s H _ IH]; constructor; [|exact IH].
  destruct H as [[_ H]|[H ->]]; [lia|exact H].
Qed.

Lemma ascii_range l s : Forall2 ascii_byte l s -> Forall (fun c => 1 <= bval c <= 127) s.
Proof.
  induction 1 as [|c d l s H _ IH]; constructor; [|exact IH].
  pose proof (Z.mod_pos_bound (bval c) 128 eq_refl). destruct H as [[_ H]|[H ->]]; lia.
Qed.

(** ** Joining *)
Lemma fold_join sep l : forall r, r <> [] ->
  fold_left (join_step sep) l r = r ++ concat (map (fun s => sep ++ s) l).
Proof.
  induction l as [|s l IH]; intros r Hr; cbn [fold_left map concat]; [rewrite app_nil_r; reflexivity|].
  rewrite IH.
  - destruct r; [congruence|]. cbn [join_step]. rewrite <- !app_assoc. reflexivity.
  - destruct r; [congruence|]. discriminate.
Qed.

Lemma separated_cons sep s l : separated sep (s :: l) = s ++ concat (map (fun s => sep ++ s) l).
Proof.
  revert s. induction l as [|t l IH]; intros s; [cbn; rewrite app_nil_r; reflexivity|].
  change (separated sep (s :: t :: l)) with (s ++ sep ++ separated sep (t :: l)). rewrite IH.
  cbn [map concat]. rewrite <- !app_assoc. reflexivity.
Qed.

Lemma join_spec sep l : join_loop sep l = separated sep (drop_empty l).
Proof.
  unfold join_loop. induction l as [|s l IH]; [reflexivity|]. cbn [fold_left].
  destruct s as [|c s]; [exact IH|]. cbn [join_step drop_empty]. rewrite fold_join by discriminate.
  symmetry. apply separated_cons.
Qed.

Lemma drop_empty_id l : Forall (fun s => s <> []) l -> drop_empty l = l.
Proof. intros H. destruct H as [|s l Hs H]; [reflexivity|]. destruct s; [congruence|reflexivity]. Qed.

(** How [drop_empty] relates to the list: only empty strings in front are gone. *)
Lemma drop_empty_spec l : exists n, l = repeat [] n ++ drop_empty l
  /\ match drop_empty l with [] :: _ => False | _ => True end.
Proof.
  induction l as [|s l (n & E & H)]; [exists 0%nat; split; [reflexivity|exact I]|].
  destruct s as [|c s].
  - exists (S n). cbn. split; [f_equal; exact E|exact H].
  - exists 0%nat. split; [reflexivity|exact I].
Qed.
