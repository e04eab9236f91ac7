(** C69: stamps that users write (the tests' character stamps, README's complex numbers).
    C70: stamps applied one after another to the same blob. *)
From Verif Require Import Base BaseFacts Blob BlobSpec RunSpec RunFacts ArithSpec Arithm ArithFacts LocalSpec StampText TextSpec TextFacts StampDict Galley Prop_Text Prop_Vector
  TermSpec ContractSpec NeedSpec Pulp TestStamps FrontSpec FrontFacts BlindSpec BlindFacts PointsFacts Readme UserSpec UserFacts.

(** C69.  StampTwoChars and StampSeveralChars: below two bytes OutOfData and nothing taken; otherwise the text is the
    bytes before the first NUL of the first two, or of the first eight (all if there are less). *)
Theorem C69_chars : forall b d, holds b d ->
  (zlen d < 2 -> runs TwoCharsExtractStr b OutOfData d /\ runs SeveralCharsExtractStr b OutOfData d)
  /\ (2 <= zlen d -> exists s, runs TwoCharsExtractStr b (Ok s) (skipn 2 d) /\ until_nul (firstn 2 d) s)
  /\ (2 <= zlen d -> exists s, runs SeveralCharsExtractStr b (Ok s) (skipn 8 d) /\ until_nul (firstn 8 d) s).
Proof.
  intros b d Hb. split; [|split].
  - intros L. split; [apply (chars_short 2 2)|apply (chars_short 2 8)]; try assumption; lia.
  - intros L. exists (c_str (firstn 2 d)). split; [|apply c_str_until]. pose proof (chars_run 2 2 b d ltac:(lia) ltac:(lia) Hb L) as R.
    cbv zeta in R. replace (Z.min 2 (zlen d)) with 2 in R by lia. exact R.
  - intros L. exists (c_str (firstn 8 d)). split; [|apply c_str_until]. pose proof (chars_run 2 8 b d ltac:(lia) ltac:(lia) Hb L) as R.
    cbv zeta in R. destruct (Z_le_gt_dec 8 (zlen d)) as [C|C].
    + replace (Z.min 8 (zlen d)) with 8 in R by lia. exact R.
    + replace (Z.min 8 (zlen d)) with (zlen d) in R by lia. replace (Z.to_nat (zlen d)) with (length d) in R by (unfold zlen; lia).
      rewrite firstn_all, skipn_all in R. rewrite firstn_all2, skipn_all2 by (unfold zlen in C; lia). exact R.
Qed.
Print Assumptions C69_chars.

(** The part before the first NUL is unique. *)
Theorem C69_until : forall d, exists s, until_nul d s /\ forall t, until_nul d t -> t = s.
Proof. intros d. exists (c_str d). split; [apply c_str_until|]. intros t T. exact (until_unique d t (c_str d) T (c_str_until d)). Qed.
Print Assumptions C69_until.

(** StampTwoCharsList: the texts of all pairs in parentheses, an odd byte stays behind; empty texts in front of the
    first non-empty one leave no separator. *)
Theorem C69_list : forall b d, holds b d ->
  (zlen d < 2 -> runs TwoCharsListExtractStr b OutOfData d)
  /\ (2 <= zlen d -> exists pairs texts rest, d = concat pairs ++ rest /\ Forall (fun p => zlen p = 2) pairs /\ zlen rest < 2 /\ Forall2 until_nul pairs texts
       /\ runs TwoCharsListExtractStr b (Ok (lit "(" ++ separated (lit ", ") (drop_empty texts) ++ lit ")")) rest).
Proof.
  intros b d Hb. unfold TwoCharsListExtractStr. change TwoCharsSize with 2. split; intros L.
  - apply runs_bind_ood. unfold ExtractVector. apply runs_bind_ood. exact (C17_short 2 b d ltac:(lia) Hb L).
  - destruct (C17_fixed 2 b d ltac:(lia) Hb L) as (ps & r & C & E & F & _ & Lr). exists ps, (map c_str ps), r. split; [exact E|]. split; [exact F|].
    split; [rewrite Lr; apply Z.mod_pos_bound; lia|]. split.
    + clear. induction ps; constructor; [apply c_str_until|assumption].
    + eapply runs_bind.
      * apply (C17_values _ 2 2 TwoCharsExtractStr c_str b ps r C). intros c w I Hc. rewrite Forall_forall in F. specialize (F w I).
        pose proof (chars_run 2 2 c w ltac:(lia) ltac:(lia) Hc ltac:(lia)) as R. cbv zeta in R. destruct R as (c' & R & _).
        unfold TwoCharsExtractStr. change TwoCharsSize with 2. rewrite R. cbn [fst]. replace (Z.min 2 (zlen w)) with (zlen w) by lia.
        replace (Z.to_nat (zlen w)) with (length w) by (unfold zlen; lia). rewrite firstn_all. reflexivity.
      * intros b1 H1. rewrite join_spec. apply runs_ret. exact H1.
Qed.
Print Assumptions C69_list.

(** They are good leaves of a stamp graph: the theorems on galleys, sets, pools and lots apply to them. *)
Theorem C69_leaves : Forall (fun ex => takes_front ex /\ blind ex /\ good_leaf ex /\ tame ex /\ safe 2 ex /\ strict 2 ex)
    [TwoCharsExtractStr; SeveralCharsExtractStr] /\ thrifty 2 TwoCharsExtractStr /\ exact_take 2 TwoCharsExtractStr.
Proof.
  assert (K : forall mx, 2 <= mx < 2 ^ 63 -> let ex := CharsExtractStr 2 mx in takes_front ex /\ blind ex /\ good_leaf ex /\ tame ex /\ safe 2 ex /\ strict 2 ex).
  { intros mx Hm ex. pose proof (bl_chars 2 mx ltac:(lia) ltac:(lia)) as BE. pose proof (proj1 BE) as T. split; [exact T|]. split; [apply bl_blind; exact BE|].
    split; [split; [apply be_local; exact BE|intros b Hb; exact (proj1 (T b Hb))]|]. split; [|split].
    - apply tf_tame; [exact T|]. intros b Hb. destruct (Z_lt_ge_dec (zlen (content b)) 2) as [C|C].
      + destruct (chars_short 2 mx b (content b) ltac:(lia) ltac:(lia) (conj Hb eq_refl) C) as (b' & E & _). unfold ex. rewrite E. discriminate.
      + pose proof (chars_run 2 mx b (content b) ltac:(lia) ltac:(lia) (conj Hb eq_refl) ltac:(lia)) as R. cbv zeta in R. destruct R as (b' & E & _). unfold ex. rewrite E. discriminate.
    - intros b d Hb L. eexists _, _. exact (chars_run 2 mx b d ltac:(lia) ltac:(lia) Hb L).
    - intros b d Hb L. exists d. exact (chars_short 2 mx b d ltac:(lia) ltac:(lia) Hb L). }
  assert (X : forall b d, holds b d -> 2 <= zlen d -> exists v, runs TwoCharsExtractStr b (Ok v) (skipn 2 d) /\ zlen (skipn 2 d) = zlen d - 2).
  { intros b d Hb L. destruct (proj1 (proj2 (C69_chars b d Hb)) L) as (s & R & _). exists s. split; [exact R|]. change 2%nat with (Z.to_nat 2). apply zlen_skipn. lia. }
  split; [|split].
  - constructor; [apply (K 2); lia|]. constructor; [apply (K 8); lia|constructor].
  - intros b d Hb L. destruct (X b d Hb L) as (v & R & Lr). eexists _, _. split; [exact R|lia].
  - intros b d Hb L. destruct (X b d Hb L) as (v & R & Lr). eexists _, _. split; [exact R|lia].
Qed.
Print Assumptions C69_leaves.

(** README's complex numbers: from the memory of a number come its text and its value, and the number's four bytes
    are taken; all four-byte sequences are numbers; with less than four bytes OutOfData. *)
Theorem C69_complex : forall b d, holds b d ->
  (forall c mem rest, d = mem ++ rest -> complex_data c mem ->
     runs ComplexExtractValue b (Ok c) rest /\ exists s, runs ComplexExtractStr b (Ok s) rest /\ complex_text c s)
  /\ (4 <= zlen d -> exists c mem rest, d = mem ++ rest /\ complex_data c mem)
  /\ (zlen d < 4 -> (exists rest, runs ComplexExtractValue b OutOfData rest) /\ exists rest, runs ComplexExtractStr b OutOfData rest).
Proof.
  intros b d Hb. split; [|split].
  - intros c m r -> C. split; [exact (complex_value b c m r C Hb)|]. exists (complex_str c). split; [exact (complex_string b c m r C Hb)|apply complex_str_text].
  - intros L. destruct (complex_chunks b d Hb L) as (cs & ds & r & -> & F & N & _). destruct F as [|c m cs ds C F]; [destruct N; reflexivity|].
    exists c, m, (concat ds ++ r). split; [symmetry; apply app_assoc|exact C].
  - intros L. destruct complex_greedy as [(_ & _ & G1) (_ & _ & G2)]. split; [exact (proj1 (G2 b d Hb) L)|exact (proj1 (G1 b d Hb) L)].
Qed.
Print Assumptions C69_complex.

(** README's array of complex numbers: all numbers that the data hold, in order, up to three bytes stay behind. *)
Theorem C69_array : forall b d, holds b d ->
  (forall cs mems rest, d = concat mems ++ rest -> Forall2 complex_data cs mems -> cs <> [] -> zlen rest < 4 ->
     (exists s, runs ArrayOfComplexExtractStr b (Ok s) rest /\ complex_array_text cs s)
     /\ runs (ExtractVector ComplexMinSize ComplexMaxSize ComplexExtractValue) b (Ok cs) rest)
  /\ (4 <= zlen d -> exists cs mems rest, d = concat mems ++ rest /\ Forall2 complex_data cs mems /\ cs <> [] /\ zlen rest < 4)
  /\ (zlen d < 4 -> runs ArrayOfComplexExtractStr b OutOfData d).
Proof.
  intros b d Hb. split; [|split].
  - intros cs ms r -> F N L. assert (N2 : ms <> []) by (intros ->; inversion F; congruence). destruct (complex_array_run b cs ms r F N2 L Hb) as [R1 R2].
    split; [|exact R2]. eexists. split; [exact R1|]. apply array_text_str. reflexivity.
  - intros L. destruct (complex_chunks b d Hb L) as (cs & ds & r & E & F & N & Lr & _). exists cs, ds, r. repeat split; try assumption. intros ->. inversion F; subst. apply N. reflexivity.
  - intros L. unfold ArrayOfComplexExtractStr, ExtractVector. do 2 apply runs_bind_ood. exact (C17_short 4 b d ltac:(lia) Hb L).
Qed.
Print Assumptions C69_array.

(** The numbers can be read back: equal texts are texts of equal numbers. *)
Theorem C69_readable : (forall c1 c2 s, complex_text c1 s -> complex_text c2 s -> c1 = c2)
  /\ (forall l1 l2 s, complex_array_text l1 s -> complex_array_text l2 s -> l1 = l2).
Proof.
  split.
  - intros c1 c2 s H1 H2. apply complex_text_str in H1, H2. apply (read_complex c1 c2 [] []). rewrite !app_nil_r. congruence.
  - intros l1 l2 s H1 H2. apply array_text_str in H1, H2. apply read_array. rewrite H1 in H2. apply app_inv_head in H2. exact H2.
Qed.
Print Assumptions C69_readable.

(** README's memory copy (an int counts the elements): the array is the front of the blob, byte by byte. *)
Theorem C69_memory : forall b d, holds b d ->
  (zlen d < 4 -> runs ComplexArrayTrick b OutOfData d)
  /\ (4 <= zlen d -> zlen d / 4 < 2 ^ 31 -> exists front rest, d = front ++ rest /\ zlen rest = zlen d mod 4 /\ runs ComplexArrayTrick b (Ok (zlen d / 4, front)) rest).
Proof.
  intros b d Hb. split; intros L.
  - unfold ComplexArrayTrick, ExtractVector. do 2 apply runs_bind_ood. exact (C17_short 4 b d ltac:(lia) Hb L).
  - intros M. destruct (complex_chunks b d Hb L) as (cs & ds & r & E & F & N & Lr & Lc & Lm). exists (concat ds), r. split; [exact E|]. split; [exact Lm|].
    pose proof (zlen_nonneg cs). rewrite E in Hb. destruct (complex_array_run b cs ds r F N Lr Hb) as [_ R]. unfold ComplexArrayTrick. eapply runs_bind; [exact R|]. intros b1 H1.
    destruct cs as [|c cs]; [inversion F; subst; destruct N; reflexivity|]. cbv zeta. rewrite i32_id by lia. replace (zlen (c :: cs) <? 0) with false by lia.
    assert (C : concat (map complex_bytes (c :: cs)) = concat ds).
    { clear - F. induction F as [|x m l ms P F I]; [reflexivity|]. cbn [map concat]. rewrite I, (complex_bytes_data _ _ P). reflexivity. }
    assert (Z4 : zlen (concat ds) = 4 * zlen (c :: cs)).
    { clear - F. induction F as [|x m l ms P F I]; [reflexivity|]. cbn [concat]. rewrite zlen_app, zlen_cons, I, (complex_data_len _ _ P). lia. }
    rewrite C, <- Z4. replace (Z.to_nat (zlen (concat ds))) with (length (concat ds)) by (unfold zlen; lia). rewrite firstn_all, Lc. apply runs_ret. exact H1.
Qed.
Print Assumptions C69_memory.

(** The sizes that these stamps report are exact. *)
Theorem C69_sizes : Forall exact_sizes
  [(TwoCharsSize, TwoCharsSize, TwoCharsExtractStr); (SeveralCharsMinSize, SeveralCharsMaxSize, SeveralCharsExtractStr);
   (TwoCharsListMinSize, TwoCharsListMaxSize, TwoCharsListExtractStr); (ComplexMinSize, ComplexMaxSize, ComplexExtractStr);
   (VectorMinSize ComplexMinSize ComplexMaxSize, -1, ArrayOfComplexExtractStr)].
Proof.
  assert (G : forall mn mx (ex : M blob bytes), greedy_stamp (mn, mx, ex) -> mx <> -1 -> exact_sizes (mn, mx, ex)).
  { intros mn mx ex (P1 & P2 & P3) N. cbn [fst snd] in *. assert (K : forall b d, holds b d -> mn <= zlen d -> exists v rest, runs ex b (Ok v) rest /\ zlen d - zlen rest = Z.min mx (zlen d)).
    { intros b d Hb L. destruct (proj2 (P3 b d Hb) L) as (v & R). eexists _, _. split; [exact R|]. unfold appetite. destruct (mx =? -1) eqn:E; [lia|]. rewrite zlen_skipn; lia. }
    split; [|split; [intros _; exact K|intros; congruence]]. intros b d Hb. destruct (zlen d <? mn) eqn:E; [exact (proj1 (P3 b d Hb) ltac:(lia))|].
    destruct (K b d Hb ltac:(lia)) as (v & r & R & _). eauto. }
  assert (U : forall k (ex : M blob bytes), 2 <= k <= 4 -> (forall b d, holds b d -> zlen d < k -> runs ex b OutOfData d) ->
    (forall b d, holds b d -> k <= zlen d -> exists v rest, runs ex b (Ok v) rest /\ zlen rest < k) -> exact_sizes (k, -1, ex)).
  { intros k ex Hk S R. split; [|split; [congruence|]].
    - intros b d Hb. destruct (zlen d <? k) eqn:E; [exists d; apply S; [exact Hb|lia]|]. destruct (R b d Hb ltac:(lia)) as (v & r & Q & _). eauto.
    - intros _ n Hn. set (d := repeat x31 (Z.to_nat (n + k))). assert (Ld : zlen d = n + k) by (unfold d, zlen; rewrite repeat_length; lia).
      assert (Hd : holds (blob_of d) d) by (apply holds_blob_of; lia). destruct (R _ d Hd ltac:(lia)) as (v & r & Q & Lr). exists (blob_of d), d, v, r. split; [exact Hd|]. split; [exact Q|]. lia. }
  constructor; [apply G; [apply (chars_greedy 2 2); lia|discriminate]|]. constructor; [apply G; [apply (chars_greedy 2 8); lia|discriminate]|].
  constructor; [|constructor; [apply G; [exact (proj1 complex_greedy)|discriminate]|constructor; [|constructor]]].
  - apply (U 2); [lia|intros b d Hb; exact (proj1 (C69_list b d Hb))|]. intros b d Hb L. destruct (proj2 (C69_list b d Hb) L) as (ps & ts & r & _ & _ & Lr & _ & R). eauto.
  - apply (U 4); [lia|intros b d Hb; exact (proj2 (proj2 (C69_array b d Hb)))|]. intros b d Hb L. destruct (C69_array b d Hb) as (A1 & A2 & _).
    destruct (A2 L) as (cs & ms & r & E & F & N & Lr). destruct (A1 cs ms r E F N Lr) as [(s & R & _) _]. eauto.
Qed.
Print Assumptions C69_sizes.

(** Characters with a NUL, pairs in front that start with one, two complex numbers. *)
Example C69_case :
  fst (TwoCharsExtractStr (blob_of (lit "a" ++ [x00] ++ lit "bc"))) = Ok (lit "a")
  /\ fst (SeveralCharsExtractStr (blob_of (lit "0123456789"))) = Ok (lit "01234567")
  /\ fst (TwoCharsListExtractStr (blob_of ([x00; x31] ++ lit "ab" ++ [x00; x32] ++ lit "cde"))) = Ok (lit "(ab, , cd)")
  /\ complex_data (mkComplex (-1) 258) [xff; xff; x02; x01] /\ complex_text (mkComplex (-1) 258) (lit "-1 + 258i")
  /\ fst (ArrayOfComplexExtractStr (blob_of ([xff; xff; x02; x01; x07; x00; x00; x80; x05]))) = Ok (lit "[-1 + 258i, 7 + -32768i]")
  /\ fst (ComplexArrayTrick (blob_of ([xff; xff; x02; x01; x07; x00; x00; x80; x05]))) = Ok (2, [xff; xff; x02; x01; x07; x00; x00; x80]).
Proof.
  repeat (split; [vm_compute; reflexivity|]). split.
  { exists [xff; xff], [x02; x01]. split; [reflexivity|]. split; [apply (encode_represents Short (-1))|apply (encode_represents Short 258)]; vm_compute; split; discriminate. }
  split; [|split; vm_compute; reflexivity]. exists (lit "-1"), (lit "258"). repeat split; vm_compute; reflexivity.
Qed.

(** C70.  Stamps applied in turn: every stamp but the last takes its maxSize(); the list works exactly if none of these
    is unbounded and the last one still finds its minSize(). *)
Theorem C70_enough : forall A (front : list (Z * Z * M blob A)) last, Forall greedy_stamp (front ++ [last]) -> Forall limited front ->
  forall b d, holds b d -> max_sum front + fst (fst last) <= zlen d ->
  exists vs, runs (in_turn (map snd (front ++ [last]))) b (Ok vs) (skipn (Z.to_nat (max_sum front + appetite (snd (fst last)) (zlen d - max_sum front))) d)
    /\ length vs = length (front ++ [last])
    /\ forall i s v, nth_error (front ++ [last]) i = Some s -> nth_error vs i = Some v ->
         exists bi, holds bi (skipn (Z.to_nat (max_sum (firstn i front))) d) /\ fst (snd s bi) = Ok v.
Proof. exact @turn_enough. Qed.
Print Assumptions C70_enough.

Theorem C70_starved : forall A (front : list (Z * Z * M blob A)) last, Forall greedy_stamp (front ++ [last]) ->
  forall b d, holds b d -> ~ (Forall limited front /\ max_sum front + fst (fst last) <= zlen d) ->
  exists rest, runs (in_turn (map snd (front ++ [last]))) b OutOfData rest.
Proof. exact @turn_starved. Qed.
Print Assumptions C70_starved.

(** So the sizes such a stamp should report: it is greedy with these. *)
Theorem C70_sizes : forall A (front : list (Z * Z * M blob A)) last, Forall greedy_stamp (front ++ [last]) -> Forall limited front ->
  greedy_stamp (max_sum front + fst (fst last), (if snd (fst last) =? -1 then -1 else max_sum front + snd (fst last)), in_turn (map snd (front ++ [last]))).
Proof.
  intros A front last G L. pose proof (proj1 (Forall_app _ _ _) G) as [G1 G2]. pose proof (max_sum_nonneg front G1 L). inversion G2 as [|? ? (P1 & P2 & _) _]; subst.
  split; [cbn; lia|]. split; [cbn; destruct (_ =? -1) eqn:E; lia|]. intros b d Hb. cbn [fst snd]. split.
  - intros C. apply (turn_starved front last G b d Hb). lia.
  - intros C. destruct (turn_enough front last G L b d Hb C) as (vs & R & _). exists vs.
    replace (appetite (if snd (fst last) =? -1 then -1 else max_sum front + snd (fst last)) (zlen d)) with (max_sum front + appetite (snd (fst last)) (zlen d - max_sum front)); [exact R|].
    unfold appetite. destruct (snd (fst last) =? -1) eqn:E; [rewrite Z.eqb_refl; lia|]. replace (max_sum front + snd (fst last) =? -1) with false by lia. lia.
Qed.
Print Assumptions C70_sizes.

(** README's rule, minSize() as the sum of the minSize() of the stamps: with that many bytes it works exactly if all
    stamps but the last are of fixed size. *)
Theorem C70_sum_of_minima : forall A (front : list (Z * Z * M blob A)) last, Forall greedy_stamp (front ++ [last]) ->
  forall b d, holds b d -> zlen d = min_sum (front ++ [last]) ->
  ((exists vs rest, runs (in_turn (map snd (front ++ [last]))) b (Ok vs) rest) <-> Forall fixed_size front).
Proof.
  intros A front last G b d Hb E. pose proof (proj1 (Forall_app _ _ _) G) as [G1 _].
  assert (S : min_sum (front ++ [last]) = min_sum front + fst (fst last)).
  { clear. induction front as [|s l I]; [cbn; lia|]. change (fst (fst s) + min_sum (l ++ [last]) = fst (fst s) + min_sum l + fst (fst last)). lia. }
  assert (LE : Forall limited front -> min_sum front <= max_sum front /\ (min_sum front = max_sum front -> Forall fixed_size front)).
  { clear - G1. induction G1 as [|s l (P1 & P2 & _) F I]; intros H; [split; [cbn; lia|constructor]|]. inversion H as [|? ? H1 H2]; subst. specialize (I H2). destruct I as [I1 I2]. unfold limited in H1.
    change (fst (fst s) + min_sum l <= snd (fst s) + max_sum l /\ (fst (fst s) + min_sum l = snd (fst s) + max_sum l -> Forall fixed_size (s :: l))).
    split; [lia|]. intros Q. constructor; [unfold fixed_size; lia|apply I2; lia]. }
  split.
  - intros (vs & rest & (b' & R & _)). assert (D : ~ ~ (Forall limited front /\ max_sum front + fst (fst last) <= zlen d)).
    { intros N. destruct (turn_starved front last G b d Hb N) as (r2 & (b2 & R2 & _)). congruence. }
    assert (DL : Forall limited front \/ ~ Forall limited front).
    { clear. induction front as [|s l [I|I]]; [left; constructor| |right; intros H; inversion H; congruence].
      destruct (Z.eq_dec (snd (fst s)) (-1)) as [C|C]; [right; intros H; inversion H; unfold limited in *; congruence|left; constructor; assumption]. }
    destruct DL as [DL|DL]; [|tauto]. apply (LE DL). assert (max_sum front + fst (fst last) <= zlen d) by lia. destruct (LE DL). lia.
  - intros F. assert (L : Forall limited front /\ min_sum front = max_sum front).
    { clear - F G1. induction F as [|s l H F I]; [split; [constructor|reflexivity]|]. inversion G1 as [|? ? (P1 & P2 & _) G2]; subst. destruct (I G2) as [I1 I2]. unfold fixed_size in H.
      split; [constructor; [unfold limited; lia|exact I1]|]. change (fst (fst s) + min_sum l = snd (fst s) + max_sum l). lia. }
    destruct (turn_enough front last G (proj1 L) b d Hb) as (vs & R & _); [lia|]. eexists _, _. exact R.
Qed.
Print Assumptions C70_sum_of_minima.

(** Stamps this applies to: all arithmetic ones, texts, dictionaries, the tests' characters, README's complex numbers. *)
Theorem C70_stamps :
  (forall t, t <> LDouble -> greedy_stamp (sizeof t, sizeof t, ArithExtractStr (B := blob) t))
  /\ greedy_stamp (1, -1, Latin1ExtractStr (B := blob)) /\ greedy_stamp (1, -1, ASCIIExtractStr (B := blob))
  /\ (forall d, d <> [] -> zlen d <= 2 ^ 53 -> greedy_stamp (DictMinSize d, DictMaxSize d, DictExtractStr (B := blob) d))
  /\ greedy_stamp (TwoCharsSize, TwoCharsSize, TwoCharsExtractStr (B := blob))
  /\ greedy_stamp (SeveralCharsMinSize, SeveralCharsMaxSize, SeveralCharsExtractStr (B := blob))
  /\ greedy_stamp (ComplexMinSize, ComplexMaxSize, ComplexExtractStr (B := blob))
  /\ greedy_stamp (ComplexMinSize, ComplexMaxSize, ComplexExtractValue (B := blob)).
Proof.
  split; [exact arith_greedy|]. split; [|split; [|split; [exact dict_greedy|split; [apply (chars_greedy 2 2); lia|split; [apply (chars_greedy 2 8); lia|exact complex_greedy]]]]].
  - apply text_greedy; [intros b Hb; apply (proj1 (C16_empty b Hb))|]. intros b d Hb N. destruct (C16_latin1 b d Hb N) as (s & R & _). eauto.
  - apply text_greedy; [intros b Hb; apply (proj2 (C16_empty b Hb))|]. intros b d Hb N. destruct (C16_ascii b d Hb N) as (s & R & _). eauto.
Qed.
Print Assumptions C70_stamps.

(** Two stamps of two to eight characters: README's rule says four bytes, nine are not enough. *)
Example C70_case :
  let S : Z * Z * M blob bytes := (SeveralCharsMinSize, SeveralCharsMaxSize, SeveralCharsExtractStr) in
  Forall greedy_stamp ([S] ++ [S]) /\ Forall limited [S] /\ min_sum [S; S] = 4 /\ max_sum [S] + fst (fst S) = 10
  /\ fst (in_turn (map snd ([S] ++ [S])) (blob_of (lit "abcd"))) = OutOfData
  /\ fst (in_turn (map snd ([S] ++ [S])) (blob_of (lit "abcdefghi"))) = OutOfData
  /\ fst (in_turn (map snd ([S] ++ [S])) (blob_of (lit "abcdefghij"))) = Ok [lit "abcdefgh"; lit "ij"]
  /\ fst (in_turn [Latin1ExtractStr; TwoCharsExtractStr] (blob_of (lit "abcdefghij"))) = OutOfData
  /\ fst (in_turn [TwoCharsExtractStr; Latin1ExtractStr] (blob_of (lit "abcdefghij"))) = Ok [lit "ab"; lit "cdefghij"].
Proof.
  cbn zeta. split; [apply Forall_forall; intros x [<-|[<-|[]]]; apply (chars_greedy 2 8); lia|]. split; [constructor; [discriminate|constructor]|].
  repeat split; vm_compute; reflexivity.
Qed.
