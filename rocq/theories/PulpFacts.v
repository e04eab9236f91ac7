(** console_demo/pulp2json.cpp. *)
From Flocq Require Import IEEE754.Binary IEEE754.Bits.
From Verif Require Import Base BaseFacts Blob BlobSpec BlobFacts RunSpec RunFacts ArithSpec ArithFacts FloatTextSpec DictWords DictSpec Json JsonSpec JsonGrammar JsonFacts Pulp PulpSpec.
Local Open Scope Z_scope.

(** ** The text is printable *)
Lemma print_app s t : Forall printable s -> Forall printable t -> Forall printable (s ++ t).
Proof. intros H1 H2. apply Forall_app. split; assumption. Qed.
Ltac print_lit := repeat constructor; unfold printable; cbn; lia.
Lemma print_digits s : Forall is_digit s -> Forall printable s.
Proof. apply Forall_impl. unfold is_digit, printable. intros c H. lia. Qed.

Lemma print_number s : number s -> Forall printable s.
Proof.
  intros (sg & i & f & e & -> & Hs & Hi & Hf & He).
  apply print_app; [destruct Hs as [<-|[<-|[]]]; print_lit|]. apply print_app; [|apply print_app].
  - destruct Hi as [->|(c & r & -> & Hc & Hr)]; [print_lit|]. apply (print_digits (c :: r)). constructor; [unfold is_digit; lia|exact Hr].
  - destruct Hf as [->|(d & -> & _ & Hd)]; [constructor|]. apply print_app; [print_lit|apply print_digits; exact Hd].
  - destruct He as [->|(m & sg' & x & -> & Hm & Hg & _ & Hx)]; [constructor|]. apply print_app; [|apply print_app; [|apply print_digits; exact Hx]].
    + destruct Hm as [<-|[<-|[]]]; print_lit.
    + destruct Hg as [<-|[<-|[<-|[]]]]; print_lit.
Qed.

Lemma print_double bits s : double_text bits s -> Forall printable s.
Proof.
  intros H. destruct (finite_dec bits) as [F|F]; [apply print_number; exact (double_number _ _ F H)|].
  unfold finite, double_text in *. cbv zeta in H. destruct (is_finite 53 1024 (b64_of_bits bits)); [contradiction F; reflexivity|]. subst s.
  destruct (Bsign _ _ _), (is_nan _ _ _); print_lit.
Qed.

Lemma print_word w : plain_word w -> Forall printable ([quote] ++ w ++ [quote]).
Proof.
  intros (_ & H). apply print_app; [print_lit|]. apply print_app; [|print_lit]. eapply Forall_impl; [|exact H]. unfold lower_case, printable. intros c Hc. lia.
Qed.

Lemma print_text :
  (forall t s, text t s -> Forall plain_word (words t) -> Forall printable s)
  /\ (forall ts s, texts ts s -> Forall plain_word (flat_map words ts) -> Forall printable s)
  /\ (forall ms s, pairs ms s -> Forall plain_word (flat_map (fun m => fst m :: words (snd m)) ms) -> Forall printable s).
Proof.
  assert (PK : forall k s, plain_word k -> Forall printable s -> Forall printable ([quote] ++ k ++ [quote] ++ lit ": " ++ s)).
  { intros k s Hk Hs. replace ([quote] ++ k ++ [quote] ++ lit ": " ++ s) with (([quote] ++ k ++ [quote]) ++ lit ": " ++ s) by (rewrite <- !app_assoc; reflexivity).
    apply print_app; [exact (print_word k Hk)|]. apply print_app; [print_lit|exact Hs]. }
  apply output_mut.
  - intros z s E _. apply print_number. exact (read_int_number _ _ E).
  - intros bits s D _. exact (print_double _ _ D).
  - intros w P. exact (print_word w (Forall_inv P)).
  - intros ts s _ IH P. apply print_app; [print_lit|]. apply print_app; [exact (IH P)|print_lit].
  - intros ms s _ IH P. apply print_app; [print_lit|]. apply print_app; [exact (IH P)|print_lit].
  - intros _. constructor.
  - intros t s _ IH P. cbn [flat_map] in P. rewrite app_nil_r in P. exact (IH P).
  - intros t s ts r _ _ IH1 _ IH2 P. cbn [flat_map] in P. apply Forall_app in P as [P1 P2].
    apply print_app; [exact (IH1 P1)|]. apply print_app; [print_lit|exact (IH2 P2)].
  - intros _. constructor.
  - intros k t s _ IH P. cbn [flat_map fst snd] in P. rewrite app_nil_r in P. inversion P as [|? ? P1 P2]; subst. exact (PK k s P1 (IH P2)).
  - intros k t s ms r _ _ IH1 _ IH2 P. cbn [flat_map fst snd] in P. rewrite <- app_comm_cons in P. inversion P as [|? ? P1 P']; subst. apply Forall_app in P' as [P2 P3].
    apply (PK k (s ++ lit ", " ++ r) P1). apply print_app; [exact (IH1 P2)|]. apply print_app; [print_lit|exact (IH2 P3)].
Qed.

Lemma c_str_all s : Forall printable s -> c_str s = s.
Proof.
  induction 1 as [|c s H F IH]; [reflexivity|]. cbn [c_str]. unfold printable in H. destruct (bval c =? 0) eqn:E; [lia|]. rewrite IH. reflexivity.
Qed.

(** A line feed behind the text changes nothing. *)
Lemma line_iff t s : text t s -> Forall plain_word (words t) -> (json_text (s ++ [nl]) <-> Forall finite (doubles t)).
Proof.
  intros H P. split.
  - intros J. destruct (proj1 text_seg t s H P) as [_ B]. destruct (Forall_Exists_dec _ finite_dec (doubles t)) as [F|F]; [exact F|].
    refine (False_ind _ (bad_not_json (s ++ [nl]) _ J)). apply bad_l; [exact (B F)|]. exists [nl]. apply seg_plain. repeat constructor; discriminate.
  - intros F. pose proof (proj1 finite_json t s H F P) as V. apply (el [] s [nl]); [constructor|exact V|]. constructor; [right; right; left; reflexivity|constructor].
Qed.

(** ** Reading the file *)
Lemma read_padded d n : 0 < n < 2 ^ 63 -> exists l, (zeros <-- make_buffer n ;; read_file d zeros) = Ok l /\ padded d n l.
Proof.
  intros Hn. unfold make_buffer. rewrite u64_id by lia. destruct (n <=? 2 ^ 63 - 1) eqn:E; [|lia]. cbn [rbind].
  set (z := repeat x00 (Z.to_nat n)). assert (Lz : length z = Z.to_nat n) by apply repeat_length.
  unfold read_file. destruct z as [|c z'] eqn:Ez; [cbn in Lz; lia|]. rewrite <- Ez in *. clear c z' Ez.
  set (k := Nat.min (length z) (length d)). exists (firstn k d ++ skipn k z). split; [reflexivity|]. split.
  - unfold zlen. rewrite app_length, firstn_length, skipn_length. unfold k. lia.
  - intros i Hi. destruct (i <? zlen d) eqn:C; unfold zlen in C.
    + rewrite nth_error_app1 by (rewrite firstn_length; unfold k; lia). assert (Hk : (Z.to_nat i < k)%nat) by (unfold k; lia). clear - Hk.
      rewrite <- (firstn_skipn k d) at 2. destruct (le_lt_dec (length d) (Z.to_nat i)) as [G|G].
      * rewrite firstn_skipn. rewrite (proj2 (nth_error_None d _) G). apply nth_error_None. rewrite firstn_length. lia.
      * rewrite nth_error_app1 by (rewrite firstn_length; lia). reflexivity.
    + rewrite nth_error_app2 by (rewrite firstn_length; unfold k; lia). rewrite firstn_length.
      replace (Z.to_nat i - Nat.min k (length d))%nat with (Z.to_nat i - length d)%nat by (unfold k; lia). replace k with (length d) by (unfold k; lia).
      assert (Hz : (Z.to_nat i - length d < length (skipn (length d) z))%nat) by (rewrite skipn_length; lia).
      destruct (nth_error (skipn (length d) z) (Z.to_nat i - length d)) as [c|] eqn:En; [|apply nth_error_None in En; lia].
      apply nth_error_In in En. assert (In c z) by (rewrite <- (firstn_skipn (length d) z); apply in_or_app; right; exact En).
      apply repeat_spec in H. subst c. reflexivity.
Qed.

Lemma same_list {A} : forall l d : list A, (forall i, nth_error l i = nth_error d i) -> l = d.
Proof.
  induction l as [|a l IH]; intros [|c d] H; [reflexivity|discriminate (H O)|discriminate (H O)|].
  pose proof (H O) as H0. injection H0 as ->. f_equal. apply IH. intros i. exact (H (S i)).
Qed.

Lemma padded_same d l : padded d (zlen d) l -> l = d.
Proof.
  intros [L N]. apply (same_list l d). intros i. destruct (le_lt_dec (length d) i) as [G|G].
  - rewrite (proj2 (nth_error_None d i) G). apply nth_error_None. unfold zlen in L. lia.
  - specialize (N (Z.of_nat i)). unfold zlen in N. rewrite Nat2Z.id in N. destruct (Z.of_nat i <? Z.of_nat (length d)) eqn:E; [apply N; lia|lia].
Qed.
