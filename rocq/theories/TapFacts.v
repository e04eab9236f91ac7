(** What test programs print and return. *)
From Verif Require Import Base BaseFacts Fmt Pulp ArithSpec ArithFacts Tap TapSpec.

(** ** Text *)
Definition unlines (ls : list bytes) : bytes := flat_map (fun l => l ++ [nl]) ls.

Lemma lines_from_line acc l rest : oneline l -> lines_from acc (l ++ nl :: rest) = (rev acc ++ l) :: lines_from [] rest.
Proof.
  revert acc. induction l as [|c l IH]; intros acc H; cbn [app lines_from].
  - rewrite (Byte.byte_dec_lb (x := nl) eq_refl). rewrite app_nil_r. reflexivity.
  - destruct (Byte.eqb c nl) eqn:E; [apply Byte.byte_dec_bl in E; subst c; exfalso; apply H; left; reflexivity|].
    rewrite IH by (intros N; apply H; right; exact N). cbn [rev]. rewrite <- app_assoc. reflexivity.
Qed.

Lemma lines_unlines ls : Forall oneline ls -> lines (unlines ls) = ls.
Proof.
  unfold lines. induction 1 as [|l ls Hl _ IH]; [reflexivity|]. cbn [unlines flat_map]. rewrite <- app_assoc. cbn [app].
  rewrite lines_from_line by exact Hl. cbn [rev app]. apply (f_equal (cons l)). exact IH.
Qed.

Lemma oneline_app a b : oneline a -> oneline b -> oneline (a ++ b).
Proof. unfold oneline. intros Ha Hb H. apply in_app_or in H. tauto. Qed.
Lemma plain_app a b : plain a -> plain b -> plain (a ++ b).
Proof. intros [H1 H2] [H3 H4]. split; intros H; apply in_app_or in H; tauto. Qed.
Lemma plain_oneline a : plain a -> oneline a.
Proof. intros [H _]. exact H. Qed.

Fixpoint plainb (m : bytes) : bool := match m with [] => true | c :: r => negb (Byte.eqb c nl) && negb (Byte.eqb c x23) && plainb r end.
Lemma plainb_ok m : plainb m = true -> plain m.
Proof.
  induction m as [|c m IH]; cbn [plainb]; intros H; [split; intros []|].
  apply andb_true_iff in H as [H H3]. apply andb_true_iff in H as [H1 H2]. destruct (IH H3) as [P1 P2].
  split; intros [->|K]; try tauto; [rewrite (Byte.byte_dec_lb (x := nl) eq_refl) in H1; discriminate|].
  rewrite (Byte.byte_dec_lb (x := x23) eq_refl) in H2; discriminate.
Qed.
Fixpoint onelineb (m : bytes) : bool := match m with [] => true | c :: r => negb (Byte.eqb c nl) && onelineb r end.
Lemma onelineb_ok m : onelineb m = true -> oneline m.
Proof.
  induction m as [|c m IH]; cbn [onelineb]; intros H; [intros []|].
  apply andb_true_iff in H as [H1 H3]. intros [->|K]; [|exact (IH H3 K)].
  rewrite (Byte.byte_dec_lb (x := nl) eq_refl) in H1; discriminate.
Qed.

(** Numerals. *)
Definition numeral (s : bytes) : Prop := Forall (fun c => 48 <= bval c <= 57) s.

Lemma read_digits_numeral s : forall acc v, read_digits acc s = Some v -> numeral s.
Proof.
  induction s as [|c s IH]; intros acc v H; [constructor|]. cbn [read_digits] in H. unfold digit_of in H.
  destruct ((48 <=? bval c) && (bval c <=? 57)) eqn:E; [|discriminate]. constructor; [lia|]. eapply IH; exact H.
Qed.

Lemma fmt_numeral z : 0 <= z -> numeral (fmt_int z).
Proof.
  intros Hz. pose proof (read_int_fmt z) as H. unfold read_int in H. destruct (fmt_int z) as [|c r] eqn:E; [constructor|].
  destruct (bval c =? 45).
  - destruct (read_nat r) as [n|] eqn:En; [|discriminate]. destruct (n =? 0) eqn:E0; [discriminate|]. injection H as H.
    assert (0 <= n) by (destruct (read_nat_unique r n En) as [_ Hn]; lia). lia.
  - unfold read_nat in H. destruct ((bval c =? 48) && _); [discriminate|]. exact (read_digits_numeral _ _ _ H).
Qed.

Lemma numeral_plain s : numeral s -> plain s.
Proof.
  intros H. split; intros N; eapply Forall_forall in H; try exact N; cbn in H; vm_compute in H; destruct H as [H1 H2]; lia || (exfalso; apply H1; reflexivity).
Qed.

Lemma word_numeral s rest : numeral s -> word (s ++ x20 :: rest) = s.
Proof.
  induction 1 as [|c s Hc _ IH]; cbn [app word]; [reflexivity|].
  destruct (Byte.eqb c x20) eqn:E; [apply Byte.byte_dec_bl in E; subst c; vm_compute in Hc; destruct Hc as [Hc _]; exfalso; apply Hc; reflexivity|].
  f_equal. exact IH.
Qed.
Lemma word_numeral_end s : numeral s -> word s = s.
Proof.
  induction 1 as [|c s Hc _ IH]; cbn [app word]; [reflexivity|].
  destruct (Byte.eqb c x20) eqn:E; [apply Byte.byte_dec_bl in E; subst c; vm_compute in Hc; destruct Hc as [Hc _]; exfalso; apply Hc; reflexivity|].
  f_equal. exact IH.
Qed.

(** ** Directives *)
Definition quiet (m : bytes) : Prop := forall t, within (lit "# TODO") (m ++ t) = within (lit "# TODO") t.

Lemma quiet_app a b : quiet a -> quiet b -> quiet (a ++ b).
Proof. intros Ha Hb t. rewrite <- app_assoc, Ha. apply Hb. Qed.
Lemma plain_quiet m : plain m -> quiet m.
Proof.
  intros [_ H] t. induction m as [|c m IH]; [reflexivity|]. cbn [app within]. 
  change (lit "# TODO") with (x23 :: lit " TODO") at 1. cbn [behind].
  destruct (Byte.eqb x23 c) eqn:E; [apply Byte.byte_dec_bl in E; subst c; exfalso; apply H; left; reflexivity|].
  apply IH. intros N. apply H. right. exact N.
Qed.
Lemma skip_quiet r : plain r -> quiet (lit " # skip " ++ r).
Proof. intros H t. rewrite <- app_assoc. rewrite <- (plain_quiet r H t). reflexivity. Qed.

Lemma behind_app p r : behind p (p ++ r) = Some r.
Proof. induction p as [|c p IH]; [reflexivity|]. cbn [behind app]. rewrite (Byte.byte_dec_lb (x := c) eq_refl). exact IH. Qed.

Lemma read_ok (b : bool) c m s : 0 <= c -> quiet m ->
  read_line ((if b then [] else lit "not ") ++ lit "ok " ++ fmt_int c ++ lit " - " ++ m ++ todo_test s) = LTest b c (is_todo_test s).
Proof.
  intros Hc Hm.
  assert (K : forall p, read_test p (fmt_int c ++ lit " - " ++ m ++ todo_test s) = LTest p c (is_todo_test s)).
  { intros p. unfold read_test. change (lit " - " ++ m ++ todo_test s) with (x20 :: lit "- " ++ m ++ todo_test s).
    rewrite word_numeral by (apply fmt_numeral; exact Hc). rewrite read_int_fmt. f_equal.
    change (x20 :: lit "- " ++ m ++ todo_test s) with (lit " - " ++ m ++ todo_test s).
    rewrite (plain_quiet (fmt_int c) (numeral_plain _ (fmt_numeral c Hc))).
    rewrite (plain_quiet (lit " - ")) by (apply plainb_ok; reflexivity). rewrite Hm.
    unfold todo_test. destruct (is_todo_test s); reflexivity. }
  unfold read_line. destruct b.
  - change ([] ++ ?x) with x. replace (behind (lit "not ok ") (lit "ok " ++ _)) with (@None bytes) by reflexivity.
    rewrite behind_app. apply K.
  - rewrite app_assoc. change (lit "not " ++ lit "ok ") with (lit "not ok "). rewrite behind_app. apply K.
Qed.

Lemma read_plan n extra : 0 <= n -> (extra = [] \/ exists e, extra = x20 :: e) ->
  read_line (lit "1.." ++ fmt_int n ++ extra) = LPlan n.
Proof.
  intros Hn He. unfold read_line.
  replace (behind (lit "not ok ") _) with (@None bytes) by reflexivity.
  replace (behind (lit "ok ") _) with (@None bytes) by reflexivity.
  rewrite behind_app. destruct He as [->|[e ->]].
  - rewrite app_nil_r, word_numeral_end by (apply fmt_numeral; exact Hn). rewrite read_int_fmt. reflexivity.
  - rewrite word_numeral by (apply fmt_numeral; exact Hn). rewrite read_int_fmt. reflexivity.
Qed.

Lemma read_comment t : read_line (lit "# " ++ t) = LOther.
Proof. reflexivity. Qed.
Lemma read_bail t : read_line (lit "Bail out!  " ++ t) = LBail.
Proof. reflexivity. Qed.

(** ** The report grows line by line *)
Lemma plans_app a b : plans (a ++ b) = plans a ++ plans b.
Proof. induction a as [|[] a IH]; cbn; congruence. Qed.
Lemma tests_app a b : tests (a ++ b) = tests a ++ tests b.
Proof. induction a as [|[] a IH]; cbn; congruence. Qed.
Lemma failures_app a b : failures (a ++ b) = failures a + failures b.
Proof. induction a as [|[[p n] t] a IH]; cbn [app failures]; [reflexivity|]. rewrite IH. lia. Qed.
Lemma failures_nonneg a : 0 <= failures a <= zlen a.
Proof. induction a as [|[[p n] t] a IH]; [unfold zlen; cbn; lia|]. unfold zlen in *. cbn [failures length]. destruct (p || t); lia. Qed.

(** The numbers as the counter gives them. *)
Definition counted (ts : list (bool * Z * bool)) : Prop :=
  map (fun t => snd (fst t)) ts = map (fun k => uint (Z.of_nat k)) (seq 1 (length ts)).

Lemma counted_snoc ts p t : counted ts -> counted (ts ++ [(p, uint (zlen ts + 1), t)]).
Proof.
  unfold counted. intros H. rewrite map_app, H, app_length. cbn [length map fst snd]. rewrite seq_app, map_app. cbn [seq map].
  unfold zlen. do 3 f_equal. lia.
Qed.

Lemma uint_small z : 0 <= z < 2 ^ 32 -> uint z = z.
Proof. apply Z.mod_small. Qed.
Lemma uint_range z : 0 <= uint z < 2 ^ 32.
Proof. apply Z.mod_pos_bound. lia. Qed.
Lemma uint_plus z k : uint (uint z + k) = uint (z + k).
Proof. apply Zplus_mod_idemp_l. Qed.

Lemma counted_numbered ts : counted ts -> zlen ts < 2 ^ 32 -> numbered ts.
Proof.
  unfold counted, numbered, zlen. intros -> H. apply map_ext_in. intros k Hk. apply in_seq in Hk. apply uint_small. lia.
Qed.

(** ** What holds whenever the program's own code runs *)
Record Good (rs : list tline) (s : tap) : Prop := {
  g_counter : counter s = uint (zlen (tests rs));
  g_numbers : counted (tests rs);
  g_not_oks : not_oks s = uint (failures (tests rs));
  g_bail : ~ In LBail rs;
  g_plans : plans rs = if has_output_plan s then [expected s] else [];
  g_none : has_output_plan s = false -> expected s = 0;
  g_some : has_output_plan s = true -> is_done s = false -> expected s <> 0;
  g_planned : has_output_plan s = true -> is_planned s = true;
  g_range : 0 <= expected s < 2 ^ 32;
  g_todo : oneline (TODO s);
  g_message : match current_message s with Some m => plain m | None => True end }.

Definition Inv (s : tap) : Prop :=
  exists ls, printed s = unlines ls /\ Forall oneline ls /\ Good (map read_line ls) s.

Definition post (r : flow * tap) : Prop :=
  match r with
  | (Fine, s) => Inv s
  | (Thrown e, s) => Inv s /\ tame e
  | (Exited st, s) => st = 255 /\ In LBail (report (printed s))
  | _ => True
  end.
Definition keeps (f : T) : Prop := forall s, Inv s -> post (f s).

Lemma keeps_then f g : keeps f -> keeps g -> keeps (andthen f g).
Proof. intros Hf Hg s H. unfold andthen. specialize (Hf s H). destruct (f s) as [[] s1]; try exact Hf. exact (Hg s1 Hf). Qed.

Lemma keeps_caught f h : keeps f -> (forall e, tame e -> keeps (h e)) -> keeps (caught f h).
Proof.
  intros Hf Hh s H. unfold caught. specialize (Hf s H). destruct (f s) as [[|e| | |] s1]; try exact Hf.
  destruct Hf as [H1 H2]. exact (Hh e H2 s1 H1).
Qed.

Lemma Inv_todo s v : oneline v -> Inv s -> Inv (set_TODO v s).
Proof. intros Hv (ls & E & F & G). exists ls. split; [exact E|]. split; [exact F|]. destruct G. constructor; assumption. Qed.
Lemma Inv_message s v : match v with Some m => plain m | None => True end -> Inv s -> Inv (set_message v s).
Proof. intros Hv (ls & E & F & G). exists ls. split; [exact E|]. split; [exact F|]. destruct G. constructor; assumption. Qed.
Lemma Inv_blocks s v : Inv s -> Inv (set_blocks v s).
Proof. intros (ls & E & F & G). exists ls. split; [exact E|]. split; [exact F|]. destruct G. constructor; assumption. Qed.

Lemma keeps_guarded f : keeps f -> keeps (guarded f).
Proof.
  intros Hf s H. unfold guarded. specialize (Hf s H). assert (O : oneline (TODO s)) by (destruct H as (ls & _ & _ & G); exact (g_todo _ _ G)).
  destruct (f s) as [[|e| | |] s1]; try exact Hf.
  - apply Inv_todo; assumption.
  - destruct Hf as [H1 H2]. split; [apply Inv_todo; assumption|exact H2].
Qed.

Lemma unlines_snoc ls l : unlines (ls ++ [l]) = unlines ls ++ l ++ [nl].
Proof. unfold unlines. rewrite flat_map_app. cbn [flat_map]. rewrite app_nil_r. reflexivity. Qed.
Lemma Forall_snoc {A} (P : A -> Prop) l x : Forall P l -> P x -> Forall P (l ++ [x]).
Proof. intros H Hx. apply Forall_app. split; [exact H|constructor; [exact Hx|constructor]]. Qed.

(** Lines that are no part of the protocol. *)
Lemma keeps_comment t : oneline t -> keeps (put (lit "# " ++ t)).
Proof.
  intros Ht s (ls & E & F & G). cbn [put post]. exists (ls ++ [lit "# " ++ t]). cbn [printed].
  split; [rewrite E, unlines_snoc; reflexivity|]. split; [apply Forall_snoc; [exact F|apply oneline_app; [apply onelineb_ok; reflexivity|exact Ht]]|].
  rewrite map_app. cbn [map]. rewrite read_comment.
  assert (T1 : tests (map read_line ls ++ [LOther]) = tests (map read_line ls)) by (rewrite tests_app; apply app_nil_r).
  assert (P1 : plans (map read_line ls ++ [LOther]) = plans (map read_line ls)) by (rewrite plans_app; apply app_nil_r).
  destruct G. constructor; rewrite ?T1, ?P1; try assumption.
  intros N. apply in_app_or in N as [N|[N|[]]]; [exact (g_bail0 N)|discriminate N].
Qed.

Lemma todo_oneline s : oneline (TODO s) -> oneline (todo_test s).
Proof. intros H. unfold todo_test. destruct (is_todo_test s); [apply oneline_app; [apply onelineb_ok; reflexivity|exact H]|intros []]. Qed.

Lemma ok_step b m s ls : printed s = unlines ls -> Forall oneline ls -> Good (map read_line ls) s -> oneline m -> quiet m ->
  exists (l : bytes) s1, ok b m s = (Fine, s1) /\ printed s1 = unlines (ls ++ [l]) /\ Forall oneline (ls ++ [l])
    /\ Good (map read_line (ls ++ [l])) s1 /\ tests (map read_line (ls ++ [l])) = tests (map read_line ls) ++ [(b, uint (counter s + 1), is_todo_test s)]
    /\ TODO s1 = TODO s /\ expected s1 = expected s /\ counter s1 = uint (counter s + 1) /\ block_expected s1 = block_expected s
    /\ current_message s1 = current_message s /\ has_output_plan s1 = has_output_plan s /\ is_planned s1 = is_planned s /\ no_planned s1 = no_planned s
    /\ is_done s1 = is_done s.
Proof.
  intros E F G Hm Hq. pose proof (uint_range (counter s + 1)) as U.
  set (l := ((if b then [] else lit "not ") ++ lit "ok " ++ fmt_int (uint (counter s + 1)) ++ lit " - " ++ m ++ todo_test s) : bytes).
  assert (O : oneline l).
  { apply oneline_app; [destruct b; apply onelineb_ok; reflexivity|]. apply oneline_app; [apply onelineb_ok; reflexivity|].
    apply oneline_app; [apply plain_oneline, numeral_plain, fmt_numeral; lia|]. apply oneline_app; [apply onelineb_ok; reflexivity|].
    apply oneline_app; [exact Hm|apply todo_oneline; exact (g_todo _ _ G)]. }
  assert (R : map read_line (ls ++ [l]) = map read_line ls ++ [LTest b (uint (counter s + 1)) (is_todo_test s)]).
  { rewrite map_app. cbn [map]. unfold l. rewrite read_ok by (lia || assumption). reflexivity. }
  exists l. eexists. split; [unfold ok; fold l; cbn [put]; reflexivity|]. clearbody l.
  cbn [set_counts printed TODO expected counter not_oks block_expected current_message has_output_plan is_planned no_planned is_done].
  split; [rewrite unlines_snoc, E; reflexivity|].
  split; [apply Forall_snoc; assumption|].
  rewrite R. set (rs := map read_line ls) in *.
  assert (TT : tests (rs ++ [LTest b (uint (counter s + 1)) (is_todo_test s)]) = tests rs ++ [(b, uint (counter s + 1), is_todo_test s)])
    by (rewrite tests_app; reflexivity).
  assert (TP : plans (rs ++ [LTest b (uint (counter s + 1)) (is_todo_test s)]) = plans rs) by (rewrite plans_app; apply app_nil_r).
  split; [|repeat split; exact TT].
  assert (EC : uint (counter s + 1) = uint (zlen (tests rs) + 1)) by (rewrite (g_counter _ _ G); apply uint_plus).
  destruct G. constructor; rewrite ?TT, ?TP;
    cbn [set_counts printed TODO expected counter not_oks block_expected current_message has_output_plan is_planned no_planned is_done]; try assumption.
  - rewrite EC. f_equal. unfold zlen. rewrite app_length. cbn [length]. lia.
  - rewrite EC. apply counted_snoc. exact g_numbers0.
  - rewrite failures_app. cbn [failures]. destruct b, (is_todo_test s); cbn [negb andb orb]; rewrite ?Z.add_0_r; try exact g_not_oks0.
    rewrite g_not_oks0. rewrite uint_plus. reflexivity.
  - intros N. apply in_app_or in N as [N|[N|[]]]; [exact (g_bail0 N)|discriminate N].
Qed.

Lemma keeps_ok_gen b m : oneline m -> quiet m -> keeps (ok b m).
Proof.
  intros Hm Hq s (ls & E & F & G). destruct (ok_step b m s ls E F G Hm Hq) as (l & s1 & -> & E1 & F1 & G1 & _).
  exists (ls ++ [l]). auto.
Qed.
Lemma keeps_ok b m : plain m -> keeps (ok b m).
Proof. intros H. apply keeps_ok_gen; [apply plain_oneline|apply plain_quiet]; exact H. Qed.

Lemma keeps_it : keeps skip_it.
Proof. intros s H. exact H. Qed.

Lemma keeps_skip n r : plain r -> keeps (skip n r).
Proof.
  intros H. unfold skip. induction (Z.to_nat (uint n)) as [|k IH]; cbn [skip_loop]; [exact keeps_it|].
  apply keeps_then; [|exact IH]. apply keeps_ok_gen; [apply oneline_app; [apply onelineb_ok; reflexivity|exact (proj1 H)]|apply skip_quiet; exact H].
Qed.

Lemma keeps_bail r : oneline r -> keeps (bail_out r).
Proof.
  intros Hr s (ls & E & F & G). cbn [bail_out put post printed]. split; [reflexivity|].
  assert (O : oneline (lit "Bail out!  " ++ r)) by (apply oneline_app; [apply onelineb_ok; reflexivity|exact Hr]).
  rewrite E. rewrite <- unlines_snoc. unfold report. rewrite lines_unlines by (apply Forall_snoc; assumption).
  rewrite map_app. apply in_or_app. right. left. apply read_bail.
Qed.

Lemma plan_line n : 0 <= n -> oneline (lit "1.." ++ fmt_int n ++ []) /\ read_line (lit "1.." ++ fmt_int n ++ []) = LPlan n.
Proof.
  intros Hn. split; [|apply read_plan; [exact Hn|left; reflexivity]].
  apply oneline_app; [apply onelineb_ok; reflexivity|]. rewrite app_nil_r. apply plain_oneline, numeral_plain, fmt_numeral, Hn.
Qed.

(** The plan goes out: the state is good again once [expected] is its number. *)
Lemma plan_step n s ls : 0 <= n < 2 ^ 32 -> printed s = unlines ls -> Forall oneline ls -> Good (map read_line ls) s -> has_output_plan s = false ->
  exists (l : bytes) s1, output_plan n [] s = (Fine, s1) /\ s1 = set_output_plan (snd (put l s)) /\ printed s1 = unlines (ls ++ [l]) /\ Forall oneline (ls ++ [l])
    /\ tests (map read_line (ls ++ [l])) = tests (map read_line ls) /\ plans (map read_line (ls ++ [l])) = [n] /\ ~ In LBail (map read_line (ls ++ [l])).
Proof.
  intros Hn E F G Hh. destruct (plan_line n ltac:(lia)) as [O R].
  exists (lit "1.." ++ fmt_int n ++ []), (set_output_plan (snd (put (lit "1.." ++ fmt_int n ++ []) s))).
  split; [unfold output_plan; rewrite Hh; reflexivity|]. split; [reflexivity|]. split; [rewrite unlines_snoc, <- E; reflexivity|].
  split; [apply Forall_snoc; assumption|]. rewrite map_app. cbn [map]. rewrite R, tests_app, plans_app. cbn [tests plans]. rewrite app_nil_r.
  split; [reflexivity|]. rewrite (g_plans _ _ G), Hh. split; [reflexivity|].
  intros N. apply in_app_or in N as [N|[N|[]]]; [exact (g_bail _ _ G N)|discriminate N].
Qed.

Lemma keeps_plan n : n mod 2 ^ 32 <> 0 -> keeps (plan n).
Proof.
  intros Hn s H. unfold plan. destruct (is_planned s) eqn:P; [apply keeps_bail; [apply onelineb_ok; reflexivity|exact H]|].
  destruct H as (ls & E & F & G).
  assert (Hh : has_output_plan s = false) by (destruct (has_output_plan s) eqn:Q; [rewrite (g_planned _ _ G Q) in P; discriminate|reflexivity]).
  set (s0 := set_flags true (no_planned s) s).
  assert (G0 : Good (map read_line ls) s0) by (destruct G; constructor; try assumption; intros _; reflexivity).
  destruct (plan_step (uint n) s0 ls (uint_range n) E F G0 Hh) as (l & s1 & E1 & Es1 & E2 & F2 & T2 & P2 & B2).
  unfold andthen. rewrite E1. cbn [post]. exists (ls ++ [l]). split; [exact E2|]. split; [exact F2|]. subst s1.
  destruct G0. constructor; rewrite ?T2, ?P2; cbn [set_expected set_output_plan put snd set_flags TODO expected counter not_oks block_expected current_message has_output_plan is_planned no_planned is_done printed] in *; try assumption; try reflexivity.
  - discriminate.
  - intros _ _. exact Hn.
  - apply uint_range.
Qed.

Lemma keeps_done_ n : 0 <= n < 2 ^ 32 -> keeps (done_testing_ n).
Proof.
  intros Hn s H. unfold done_testing_. destruct (is_done s) eqn:D; [apply keeps_ok; [apply plainb_ok; reflexivity|exact H]|].
  destruct H as (ls & E & F & G).
  destruct (has_output_plan s) eqn:Hh.
  - assert (Ne : expected s <> 0) by (apply (g_some _ _ G); assumption).
    assert (G0 : Good (map read_line ls) (set_done s)) by (destruct G; constructor; try assumption; discriminate).
    unfold andthen at 1. cbn [set_done expected]. replace (expected s =? 0) with false by lia. cbn [negb andb].
    destruct (Z.eqb_spec n (expected s)) as [->|N]; cbn [negb].
    + unfold andthen. cbn [set_expected set_done set_flags has_output_plan]. rewrite Hh. cbn [post].
      exists ls. split; [exact E|]. split; [exact F|]. destruct G0. constructor; try assumption. intros _. reflexivity.
    + assert (PM : plain (lit "planned to run " ++ fmt_int (expected s) ++ lit " tests but done_testing() expects " ++ fmt_int n)).
      { apply plain_app; [apply plainb_ok; reflexivity|]. apply plain_app; [apply numeral_plain, fmt_numeral; pose proof (g_range _ _ G); lia|].
        apply plain_app; [apply plainb_ok; reflexivity|]. apply numeral_plain, fmt_numeral. lia. }
      destruct (ok_step false _ (set_done s) ls E F G0 (plain_oneline _ PM) (plain_quiet _ PM)) as (l & s1 & K & E1 & F1 & G1 & _ & _ & _ & _ & _ & _ & Q1 & Q2 & Q3 & Q4).
      unfold fail. rewrite K. unfold andthen. cbn [set_flags has_output_plan]. rewrite Q1. cbn [set_done has_output_plan]. rewrite Hh. cbn [post].
      exists (ls ++ [l]). split; [exact E1|]. split; [exact F1|]. destruct G1. constructor; try assumption. intros _. reflexivity.
  - assert (Ez : expected s = 0) by exact (g_none _ _ G Hh).
    unfold andthen at 1. cbn [set_done expected]. rewrite Ez. cbn [Z.eqb negb andb].
    unfold andthen. cbn [set_expected set_done set_flags has_output_plan]. rewrite Hh.
    destruct (plan_line n ltac:(lia)) as [O R].
    unfold output_plan. cbn [set_expected set_done set_flags has_output_plan no_planned]. rewrite Hh. unfold andthen. cbn [put post].
    exists (ls ++ [lit "1.." ++ fmt_int n ++ []]). split; [rewrite unlines_snoc, <- E; reflexivity|]. split; [apply Forall_snoc; assumption|].
    rewrite map_app. cbn [map]. rewrite R.
    assert (T1 : tests (map read_line ls ++ [LPlan n]) = tests (map read_line ls)) by (rewrite tests_app; apply app_nil_r).
    assert (P1 : plans (map read_line ls ++ [LPlan n]) = [n]) by (rewrite plans_app, (g_plans _ _ G), Hh; reflexivity).
    destruct G. constructor; rewrite ?T1, ?P1; cbn [set_expected set_output_plan set_flags TODO expected counter not_oks block_expected current_message has_output_plan is_planned no_planned is_done printed] in *; try assumption; try reflexivity; try discriminate.
    intros N. apply in_app_or in N as [N|[N|[]]]; [exact (g_bail0 N)|discriminate N].
Qed.

Lemma Inv_counter s : Inv s -> 0 <= counter s < 2 ^ 32.
Proof. intros (ls & _ & _ & G). rewrite (g_counter _ _ G). apply uint_range. Qed.

Lemma keeps_done : keeps done_testing.
Proof. intros s H. apply keeps_done_; [exact (Inv_counter s H)|exact H]. Qed.

Lemma Inv_flags s n : Inv s -> Inv (set_flags (is_planned s) n s).
Proof. intros (ls & E & F & G). exists ls. split; [exact E|]. split; [exact F|]. destruct G. constructor; assumption. Qed.
Lemma keeps_done_n n : keeps (done_testing_n n).
Proof. intros s H. apply keeps_done_; [apply uint_range|apply Inv_flags; exact H]. Qed.
Lemma keeps_no_plan : keeps plan_no_plan.
Proof.
  intros s (ls & E & F & G). cbn [plan_no_plan post]. exists ls. split; [exact E|]. split; [exact F|]. destruct G. constructor; try assumption. intros _. reflexivity.
Qed.

Lemma keeps_is c l r m : tame_comparison c -> oneline l -> oneline r -> plain m -> keeps (is_ c l r m).
Proof.
  intros Hc Hl Hr Hm.
  assert (K1 : keeps (fun s => diag (failed_test_msg s ++ lit " '" ++ m ++ lit "'") s)).
  { intros s H. apply keeps_comment; [|exact H]. apply oneline_app; [unfold failed_test_msg; destruct (is_todo_test s); apply onelineb_ok; reflexivity|].
    apply oneline_app; [apply onelineb_ok; reflexivity|]. apply oneline_app; [exact (proj1 Hm)|apply onelineb_ok; reflexivity]. }
  assert (K2 : keeps (andthen (diag (lit "       Got: " ++ l)) (diag (lit "  Expected: " ++ r)))).
  { apply keeps_then; apply keeps_comment; apply oneline_app; try assumption; apply onelineb_ok; reflexivity. }
  unfold is_. destruct c as [| |w|]; [apply keeps_ok; exact Hm| | |]; (apply keeps_then; [apply keeps_ok; exact Hm|]); (apply keeps_then; [exact K1|]); try exact K2;
    (apply keeps_then; [apply keeps_comment|exact K2]); [|apply onelineb_ok; reflexivity].
  apply oneline_app; [apply onelineb_ok; reflexivity|]. apply oneline_app; [exact Hc|apply onelineb_ok; reflexivity].
Qed.

Lemma keeps_isnt c m : tame_comparison c -> plain m -> keeps (isnt c m).
Proof.
  intros Hc Hm.
  assert (K1 : keeps (diag (lit "In test " ++ m))) by (apply keeps_comment, oneline_app; [apply onelineb_ok; reflexivity|exact (proj1 Hm)]).
  unfold isnt. destruct c as [| |w|]; [apply keeps_ok; exact Hm|apply keeps_ok; exact Hm| |]; (apply keeps_then; [apply keeps_ok; exact Hm|]); (apply keeps_then; [exact K1|]); apply keeps_comment;
    [apply oneline_app; [apply onelineb_ok; reflexivity|exact Hc]|apply onelineb_ok; reflexivity].
Qed.

Lemma keeps_note_lit t w : onelineb t = true -> oneline w -> keeps (note (t ++ w)).
Proof. intros H Hw. apply keeps_comment, oneline_app; [apply onelineb_ok; exact H|exact Hw]. Qed.

Lemma keeps_fail_current : keeps fail_current.
Proof.
  intros s H. unfold fail_current. destruct (current_message s) as [m|] eqn:E.
  - apply keeps_ok; [|exact H]. destruct H as (ls & _ & _ & G). pose proof (g_message _ _ G) as Q. rewrite E in Q. exact Q.
  - split; [exact H|apply onelineb_ok; reflexivity].
Qed.
Lemma keeps_pass_current : keeps pass_current.
Proof.
  intros s H. unfold pass_current. destruct (current_message s) as [m|] eqn:E.
  - apply keeps_ok; [|exact H]. destruct H as (ls & _ & _ & G). pose proof (g_message _ _ G) as Q. rewrite E in Q. exact Q.
  - split; [exact H|apply onelineb_ok; reflexivity].
Qed.
Lemma keeps_fail_current_if : keeps fail_current_if.
Proof.
  intros s H. unfold fail_current_if. destruct (current_message s) as [m|] eqn:E; [|exact H].
  apply keeps_ok; [|exact H]. destruct H as (ls & _ & _ & G). pose proof (g_message _ _ G) as Q. rewrite E in Q. exact Q.
Qed.

Lemma keeps_stop_block k : (forall top, keeps (k top)) -> keeps (stop_block k).
Proof. intros Hk s H. unfold stop_block. destruct (block_expected s) as [|top r]; [exact I|]. apply Hk, Inv_blocks, H. Qed.

Lemma keeps_exec p : tidy p -> keeps (exec p).
Proof.
  induction p as [|a IHa b IHb|b m|b m|m|m|c l r m|c m|n r|n|r| | |n|t|t|r|w|e|b IHb|b IHb|b IHb m|b IHb m|b IHb m|n b IHb];
    cbn [tidy exec]; intros H; unfold not_ok, pass, fail.
  - exact keeps_it.
  - apply keeps_then; tauto.
  - apply keeps_ok; exact H.
  - apply keeps_ok; exact H.
  - apply keeps_ok; exact H.
  - apply keeps_ok; exact H.
  - apply keeps_is; tauto.
  - apply keeps_isnt; tauto.
  - apply keeps_skip; exact H.
  - apply keeps_plan; exact H.
  - contradiction.
  - exact keeps_no_plan.
  - exact keeps_done.
  - apply keeps_done_n.
  - apply keeps_comment; exact H.
  - apply keeps_comment; exact H.
  - apply keeps_bail; exact H.
  - intros s Hs. apply Inv_todo; assumption.
  - intros s Hs. split; assumption.
  - apply keeps_caught; [exact (IHb H)|]. intros e _. exact keeps_it.
  - apply keeps_guarded, IHb, H.
  - destruct H as [H1 H2]. apply keeps_caught; [apply keeps_then; [exact (IHb H1)|apply keeps_ok; exact H2]|].
    intros e He. destruct e; try (apply keeps_ok; exact H2); (apply keeps_then; [apply keeps_ok; exact H2|apply keeps_note_lit; [reflexivity|exact He]]).
  - destruct H as [H1 H2]. apply keeps_caught; [apply keeps_then; [exact (IHb H1)|apply keeps_ok; exact H2]|].
    intros e He. apply keeps_ok; exact H2.
  - destruct H as [H1 H2]. apply keeps_then; [intros s Hs; apply Inv_message; assumption|].
    apply keeps_then; [exact (IHb H1)|]. apply keeps_then; [exact keeps_pass_current|]. intros s Hs. apply Inv_message; [exact I|exact Hs].
  - apply keeps_caught.
    + apply keeps_guarded, keeps_then; [intros s Hs; apply Inv_blocks; exact Hs|]. apply keeps_then; [exact (IHb H)|].
      apply keeps_stop_block. intros top s Hs. destruct (counter s =? top); [exact Hs|]. apply keeps_comment; [apply onelineb_ok; reflexivity|exact Hs].
    + intros e He. destruct e as [r|r|w|w|].
      * apply keeps_stop_block. intros top s Hs. apply keeps_skip; assumption.
      * apply keeps_comment, onelineb_ok. reflexivity.
      * apply keeps_then; [exact keeps_fail_current|apply keeps_note_lit; [reflexivity|exact He]].
      * apply keeps_then; [exact keeps_fail_current|apply keeps_note_lit; [reflexivity|exact He]].
      * apply keeps_then; [exact keeps_fail_current|apply keeps_comment, onelineb_ok; reflexivity].
Qed.

Lemma Inv_tap0 : Inv tap0.
Proof.
  exists []. split; [reflexivity|]. split; [constructor|]. constructor; cbn; try reflexivity; try tauto; try lia; try discriminate. intros [].
Qed.

(** ** The status *)
Lemma exit_cases s : Inv s ->
  match exit_status s with
  | (Exited st, s') => ~ In LBail (report (printed s')) /\ (zlen (tests (report (printed s'))) < 2 ^ 32 -> numbered (tests (report (printed s'))) /\ verdict (report (printed s')) st)
  | (Terminated, _) => no_planned s = true /\ has_output_plan s = true
  | _ => False
  end.
Proof.
  intros H. unfold exit_status. set (d := fun s => if _ && _ then _ else _).
  assert (D : exists s1, d s = (Fine, s1) /\ Inv s1 /\ no_planned s1 = no_planned s /\ has_output_plan s1 = has_output_plan s).
  { unfold d. destruct (negb (is_planned s) && negb (counter s =? 0)).
    - pose proof (keeps_comment (lit "Tests were run but no plan was declared and done_testing() was not seen.") ltac:(apply onelineb_ok; reflexivity) s H) as K.
      eexists. split; [reflexivity|]. split; [exact K|split; reflexivity].
    - exists s. auto. }
  destruct D as (s1 & Ed & H1 & En & Eh). unfold andthen. rewrite Ed. rewrite <- En, <- Eh. clear d Ed H En Eh s. rename s1 into s.
  destruct H1 as (ls & E & F & G).
  assert (R0 : report (printed s) = map read_line ls) by (unfold report; rewrite E, lines_unlines by exact F; reflexivity).
  pose proof (failures_nonneg (tests (map read_line ls))) as FN.
  destruct (no_planned s) eqn:NP.
  - destruct (has_output_plan s) eqn:Hh.
    + unfold output_plan. rewrite Hh. auto.
    + pose proof (Inv_counter s ltac:(exists ls; auto)) as CR.
      destruct (plan_step (counter s) s ls CR E F G Hh) as (l & s1 & -> & Es & E1 & F1 & T1 & P1 & B1).
      assert (R1 : report (printed s1) = map read_line (ls ++ [l])) by (unfold report; rewrite E1, lines_unlines by exact F1; reflexivity).
      rewrite R1. split; [exact B1|]. rewrite T1. intros Hz. split; [apply counted_numbered; [exact (g_numbers _ _ G)|exact Hz]|].
      unfold verdict. rewrite P1, T1. subst s1. cbn [set_output_plan put snd not_oks].
      rewrite (g_counter _ _ G), (uint_small (zlen _)) by (unfold zlen in *; lia). rewrite Z.eqb_refl.
      rewrite (g_not_oks _ _ G), uint_small by lia. reflexivity.
  - assert (G' : (if expected s =? counter s then (Exited (Z.min 254 (not_oks s)), s) else (Exited 255, s)) = (Exited (if expected s =? counter s then Z.min 254 (not_oks s) else 255), s)) by (destruct (expected s =? counter s); reflexivity).
    rewrite G'. clear G'. rewrite R0. split; [exact (g_bail _ _ G)|]. intros Hz. split; [apply counted_numbered; [exact (g_numbers _ _ G)|exact Hz]|].
    unfold verdict. rewrite (g_plans _ _ G). rewrite (g_counter _ _ G), (uint_small (zlen _)) by (unfold zlen in *; lia).
    rewrite (g_not_oks _ _ G), (uint_small (failures _)) by lia.
    destruct (has_output_plan s) eqn:Hh; [reflexivity|]. rewrite (g_none _ _ G Hh).
    destruct (tests (map read_line ls)) as [|t ts]; [reflexivity|]. unfold zlen. cbn [length]. replace (0 =? _) with false by lia. reflexivity.
Qed.

(** ** Whole programs *)
Lemma finish f : keeps f ->
  match (match (andthen f exit_status) tap0 with (Thrown _, s) => (Terminated, s) | r => r end) with
  | (Exited st, s) =>
      st = 255 /\ In LBail (report (printed s)) \/
      ~ In LBail (report (printed s)) /\ (zlen (tests (report (printed s))) < 2 ^ 32 -> numbered (tests (report (printed s))) /\ verdict (report (printed s)) st)
  | (Terminated, s) =>
      (exists e, f tap0 = (Thrown e, s)) \/ fst (f tap0) = Terminated \/
      (exists s1, f tap0 = (Fine, s1) /\ no_planned s1 = true /\ plans (report (printed s1)) <> [])
  | (Undefined, _) => fst (f tap0) = Undefined
  | _ => False
  end.
Proof.
  intros K. specialize (K tap0 Inv_tap0). unfold andthen. destruct (f tap0) as [fl s1]. cbn [fst].
  destruct fl as [|e|st| |]; cbn [post] in K; [|eauto|left; exact K|auto|reflexivity].
  pose proof (exit_cases s1 K) as C. destruct (exit_status s1) as [[|e|st| |] s2]; try contradiction; [right; exact C|].
  right. right. exists s1. split; [reflexivity|]. destruct C as [C1 C2]. split; [exact C1|].
  destruct K as (ls & E & F & G). unfold report. rewrite E, lines_unlines by exact F. rewrite (g_plans _ _ G), C2. discriminate.
Qed.

(** No statement takes more from the stack of blocks than it put there. *)
Definition deepens (f : T) : Prop := forall s,
  match f s with
  | (Fine, s') | (Thrown _, s') => (length (block_expected s) <= length (block_expected s'))%nat
  | (Exited _, _) => True
  | _ => False
  end.

Lemma deepens_then f g : deepens f -> deepens g -> deepens (andthen f g).
Proof.
  intros Hf Hg s. unfold andthen. specialize (Hf s). destruct (f s) as [[|e|st| |] s1]; try exact Hf.
  specialize (Hg s1). destruct (g s1) as [[|e|st| |] s2]; try exact Hg; lia.
Qed.
Lemma deepens_caught f h : deepens f -> (forall e, deepens (h e)) -> deepens (caught f h).
Proof.
  intros Hf Hh s. unfold caught. specialize (Hf s). destruct (f s) as [[|e|st| |] s1]; try exact Hf.
  specialize (Hh e s1). destruct (h e s1) as [[|e'|st| |] s2]; try exact Hh; lia.
Qed.
Lemma deepens_guarded f : deepens f -> deepens (guarded f).
Proof. intros Hf s. unfold guarded. specialize (Hf s). destruct (f s) as [[|e|st| |] s1]; exact Hf. Qed.
Lemma deepens_same f : (forall s, match f s with (Fine, s') | (Thrown _, s') => block_expected s' = block_expected s | (Exited _, _) => True | _ => False end) -> deepens f.
Proof. intros H s. specialize (H s). destruct (f s) as [[|e|st| |] s1]; try exact H; rewrite H; lia. Qed.

Lemma blocks_ok b m s : block_expected (snd (ok b m s)) = block_expected s.
Proof. reflexivity. Qed.
Lemma deepens_ok b m : deepens (ok b m).
Proof. apply deepens_same. intros s. reflexivity. Qed.
Lemma deepens_put t : deepens (put t).
Proof. apply deepens_same. intros s. reflexivity. Qed.
Lemma deepens_it : deepens skip_it.
Proof. apply deepens_same. intros s. reflexivity. Qed.
Lemma deepens_skip n r : deepens (skip n r).
Proof. unfold skip. induction (Z.to_nat (uint n)) as [|k IH]; [exact deepens_it|]. cbn [skip_loop]. apply deepens_then; [apply deepens_ok|exact IH]. Qed.
Lemma deepens_output n x : deepens (output_plan n x).
Proof. apply deepens_same. intros s. unfold output_plan, andthen. destruct (has_output_plan s); reflexivity. Qed.
Lemma deepens_plan n : deepens (plan n).
Proof.
  intros s. unfold plan. destruct (is_planned s); [exact I|].
  apply (deepens_then (output_plan (uint n) []) (fun s => (Fine, set_expected (uint n) s)) (deepens_output _ _) ltac:(apply deepens_same; intros; reflexivity)
           (set_flags true (no_planned s) s)).
Qed.
Lemma deepens_done_ n : deepens (done_testing_ n).
Proof.
  intros s. unfold done_testing_. destruct (is_done s); [apply deepens_ok|].
  match goal with |- match ?f _ with _ => _ end => assert (D : deepens f); [|exact (D (set_done s))] end.
  apply deepens_then; [intros t; destruct (_ && _); [apply deepens_ok|cbn; lia]|].
  apply deepens_then; [apply deepens_same; reflexivity|]. intros t. destruct (has_output_plan t); [cbn; lia|apply deepens_output].
Qed.
Lemma deepens_fail_current : deepens fail_current.
Proof. apply deepens_same. intros s. unfold fail_current. destruct (current_message s); reflexivity. Qed.
Lemma deepens_pass_current : deepens pass_current.
Proof. apply deepens_same. intros s. unfold pass_current. destruct (current_message s); reflexivity. Qed.

Lemma deepens_exec p : deepens (exec p).
Proof.
  induction p as [|a IHa b IHb|b m|b m|m|m|c l r m|c m|n r|n|r| | |n|t|t|r|w|e|b IHb|b IHb|b IHb m|b IHb m|b IHb m|n b IHb];
    cbn [exec]; try (apply deepens_ok); try (apply deepens_put); try (apply deepens_same; intros s; reflexivity).
  - apply deepens_then; assumption.
  - unfold is_. destruct c; repeat (apply deepens_then); try (apply deepens_ok); try (apply deepens_put); intros s; apply deepens_put.
  - unfold isnt. destruct c; repeat (apply deepens_then); try (apply deepens_ok); try (apply deepens_put).
  - apply deepens_skip.
  - apply deepens_plan.
  - apply deepens_then; [apply deepens_output|intros s; exact I].
  - intros s. apply deepens_done_.
  - intros s. apply (deepens_done_ _ (set_flags (is_planned s) false s)).
  - apply deepens_caught; [exact IHb|]. intros e. exact deepens_it.
  - apply deepens_guarded. exact IHb.
  - apply deepens_caught; [apply deepens_then; [exact IHb|apply deepens_ok]|]. intros [| | | |]; try apply deepens_ok; (apply deepens_then; [apply deepens_ok|apply deepens_put]).
  - apply deepens_caught; [apply deepens_then; [exact IHb|apply deepens_ok]|]. intros e; apply deepens_ok.
  - apply deepens_then; [apply deepens_same; reflexivity|]. apply deepens_then; [exact IHb|]. apply deepens_then; [apply deepens_pass_current|apply deepens_same; reflexivity].
  - intros s. unfold caught, guarded, andthen at 1. cbn [start_block]. set (s0 := set_blocks _ s).
    pose proof (IHb s0) as D. unfold andthen at 1. destruct (exec b s0) as [[|e|st| |] s1]; try exact D.
    + unfold stop_block. assert (L : (length (block_expected s) < length (block_expected s1))%nat) by (cbn [s0 set_blocks block_expected length] in D; exact D).
      destruct (block_expected s1) as [|top r]; [cbn in L; lia|]. cbn [length] in L. cbn [set_blocks counter].
      destruct (counter s1 =? top); cbn [note put set_TODO set_blocks block_expected]; lia.
    + assert (L : (length (block_expected s) < length (block_expected s1))%nat) by (cbn [s0 set_blocks block_expected length] in D; exact D).
      set (s2 := set_TODO _ s1). assert (L2 : (length (block_expected s) < length (block_expected s2))%nat) by exact L.
      assert (FN : forall t, deepens (andthen fail_current (note t))) by (intros t; apply deepens_then; [apply deepens_fail_current|apply deepens_put]).
      destruct e as [r|r|w|w|].
      * unfold stop_block. destruct (block_expected s2) as [|top q]; [cbn in L2; lia|]. cbn [length] in L2.
        pose proof (deepens_skip (top - counter (set_blocks q s2)) r (set_blocks q s2)) as K.
        destruct (skip _ r (set_blocks q s2)) as [[|e|st| |] s3]; try exact K; cbn [set_blocks block_expected] in K; lia.
      * cbn [note put block_expected]. cbn [s2 set_TODO block_expected] in L2 |- *. lia.
      * pose proof (FN (lit "Got error: " ++ w) s2) as K. destruct (andthen fail_current _ s2) as [[|e|st| |] s3]; try exact K; lia.
      * pose proof (FN (lit "Got error: " ++ w) s2) as K. destruct (andthen fail_current _ s2) as [[|e|st| |] s3]; try exact K; lia.
      * pose proof (FN (lit "Died with some mysterious error") s2) as K. destruct (andthen fail_current _ s2) as [[|e|st| |] s3]; try exact K; lia.
Qed.

Lemma exit_defined s : fst (exit_status s) <> Undefined.
Proof.
  unfold exit_status, andthen. destruct (negb (is_planned s) && negb (counter s =? 0)); cbn [diag put];
    (destruct (no_planned _); [unfold output_plan; destruct (has_output_plan _); discriminate|]); destruct (_ =? _); discriminate.
Qed.

(** ** Blocks of programs that throw nothing but skip(reason) *)
Definition level (f : T) : Prop := forall s,
  match f s with
  | (Fine, s') => block_expected s' = block_expected s
  | (Thrown e, s') => (exists r, e = ESkip r) /\ block_expected s' = block_expected s
  | (Exited _, _) => True
  | _ => False
  end.
Lemma level_then f g : level f -> level g -> level (andthen f g).
Proof.
  intros Hf Hg s. unfold andthen. specialize (Hf s). destruct (f s) as [[|e|st| |] s1]; try exact Hf.
  specialize (Hg s1). rewrite Hf in Hg. exact Hg.
Qed.
Lemma level_caught f h : level f -> (forall r, level (h (ESkip r))) -> level (caught f h).
Proof.
  intros Hf Hh s. unfold caught. specialize (Hf s). destruct (f s) as [[|e|st| |] s1]; try exact Hf.
  destruct Hf as [[r ->] Hf]. specialize (Hh r s1). rewrite Hf in Hh. exact Hh.
Qed.
Lemma level_ok b m : level (ok b m).
Proof. intros s. reflexivity. Qed.
Lemma level_put t : level (put t).
Proof. intros s. reflexivity. Qed.
Lemma level_skip n r : level (skip n r).
Proof. unfold skip. induction (Z.to_nat (uint n)) as [|k IH]; [intros s; reflexivity|]. cbn [skip_loop]. apply level_then; [apply level_ok|exact IH]. Qed.

Lemma skip_fine k r : forall s, exists s', skip_loop k r s = (Fine, s') /\ counter s' = (if Nat.eqb k 0 then counter s else uint (counter s + Z.of_nat k))
  /\ block_expected s' = block_expected s /\ TODO s' = TODO s /\ expected s' = expected s /\ has_output_plan s' = has_output_plan s /\ no_planned s' = no_planned s
  /\ current_message s' = current_message s.
Proof.
  induction k as [|k IH]; intros s; [exists s; repeat split|].
  destruct (IH (snd (pass (lit " # skip " ++ r) s))) as (s' & E & C & Q). exists s'. split; [exact E|]. split; [|exact Q].
  rewrite C. cbn [pass ok put snd counter set_counts Nat.eqb]. destruct k; [reflexivity|]. cbn [Nat.eqb]. rewrite uint_plus. f_equal. lia.
Qed.

Lemma level_exec p : calm p -> level (exec p).
Proof.
  induction p as [|a IHa b IHb|b m|b m|m|m|c l r m|c m|n r|n|r| | |n|t|t|r|w|e|b IHb|b IHb|b IHb m|b IHb m|b IHb m|n b IHb];
    cbn [exec calm]; intros H; try contradiction; try (apply level_ok); try (apply level_put); try (intros s; reflexivity).
  - apply level_then; tauto.
  - unfold is_. destruct c; repeat (apply level_then); try (apply level_ok); try (apply level_put); intros s; apply level_put.
  - unfold isnt. destruct c; repeat (apply level_then); try (apply level_ok); try (apply level_put).
  - apply level_skip.
  - destruct e as [r| | | |]; try contradiction. intros s. split; [exists r|]; reflexivity.
  - apply level_caught; [exact (IHb H)|]. intros r s. reflexivity.
  - intros s. unfold guarded. pose proof (IHb H s) as K. destruct (exec b s) as [[|e|st| |] s1]; exact K.
  - apply level_caught; [apply level_then; [exact (IHb H)|apply level_ok]|]. intros r. apply level_ok.
  - apply level_caught; [apply level_then; [exact (IHb H)|apply level_ok]|]. intros r. apply level_ok.
  - intros s. unfold caught, guarded, andthen at 1. cbn [start_block]. set (s0 := set_blocks _ s).
    pose proof (IHb H s0) as D. unfold andthen at 1. destruct (exec b s0) as [[|e|st| |] s1]; try exact D.
    + unfold stop_block. rewrite D. cbn [s0 set_blocks block_expected counter].
      destruct (counter s1 =? _); reflexivity.
    + destruct D as [[r ->] D]. unfold stop_block. cbn [set_TODO block_expected]. rewrite D. cbn [s0 set_blocks block_expected].
      match goal with |- match skip ?k r ?t with _ => _ end => pose proof (level_skip k r t) as K; destruct (skip k r t) as [[|e|st| |] s3]; exact K end.
Qed.

(** plan(no_plan) is the only call that sets its flag. *)
Definition unset (f : T) : Prop := forall s, no_planned s = false -> no_planned (snd (f s)) = false.
Lemma unset_then f g : unset f -> unset g -> unset (andthen f g).
Proof. intros Hf Hg s H. unfold andthen. specialize (Hf s H). destruct (f s) as [[] s1]; try exact Hf. exact (Hg s1 Hf). Qed.
Lemma unset_caught f h : unset f -> (forall e, unset (h e)) -> unset (caught f h).
Proof. intros Hf Hh s H. unfold caught. specialize (Hf s H). destruct (f s) as [[] s1]; try exact Hf. exact (Hh _ s1 Hf). Qed.
Lemma unset_guarded f : unset f -> unset (guarded f).
Proof. intros Hf s H. unfold guarded. specialize (Hf s H). destruct (f s) as [[] s1]; exact Hf. Qed.
Lemma unset_ok b m : unset (ok b m).
Proof. intros s H. exact H. Qed.
Lemma unset_put t : unset (put t).
Proof. intros s H. exact H. Qed.
Lemma unset_skip n r : unset (skip n r).
Proof. unfold skip. induction (Z.to_nat (uint n)) as [|k IH]; [intros s H; exact H|]. cbn [skip_loop]. apply unset_then; [apply unset_ok|exact IH]. Qed.
Lemma unset_output n x : unset (output_plan n x).
Proof. intros s H. unfold output_plan, andthen. destruct (has_output_plan s); exact H. Qed.
Lemma unset_plan n : unset (plan n).
Proof.
  intros s H. unfold plan. destruct (is_planned s); [exact H|].
  exact (unset_then (output_plan (uint n) []) (fun s => (Fine, set_expected (uint n) s)) (unset_output _ _) (fun s H => H) (set_flags true (no_planned s) s) H).
Qed.
Lemma unset_done_ n : unset (done_testing_ n).
Proof.
  intros s H. unfold done_testing_. destruct (is_done s); [exact H|].
  match goal with |- no_planned (snd (?f _)) = _ => assert (D : unset f); [|exact (D (set_done s) H)] end.
  apply unset_then; [intros t Ht; destruct (_ && _); exact Ht|].
  apply unset_then; [intros t Ht; exact Ht|]. intros t Ht. destruct (has_output_plan t); [exact Ht|apply unset_output; exact Ht].
Qed.
Lemma unset_fail_current : unset fail_current.
Proof. intros s H. unfold fail_current. destruct (current_message s); exact H. Qed.
Lemma unset_stop k : (forall top, unset (k top)) -> unset (stop_block k).
Proof. intros Hk s H. unfold stop_block. destruct (block_expected s) as [|top r]; [exact H|]. apply Hk. exact H. Qed.

Lemma unset_exec p : planless p -> unset (exec p).
Proof.
  induction p as [|a IHa b IHb|b m|b m|m|m|c l r m|c m|n r|n|r| | |n|t|t|r|w|e|b IHb|b IHb|b IHb m|b IHb m|b IHb m|n b IHb];
    cbn [exec planless]; intros P; try contradiction; try (intros s H; exact H).
  - apply unset_then; tauto.
  - unfold is_. destruct c; repeat (apply unset_then); try (apply unset_ok); try (apply unset_put); intros s; apply unset_put.
  - unfold isnt. destruct c; repeat (apply unset_then); try (apply unset_ok); try (apply unset_put).
  - apply unset_skip.
  - apply unset_plan.
  - apply unset_then; [apply unset_output|intros s H; exact H].
  - intros s. apply unset_done_.
  - intros s H. apply unset_done_. reflexivity.
  - apply unset_caught; [exact (IHb P)|]. intros e s H. exact H.
  - apply unset_guarded, IHb, P.
  - apply unset_caught; [apply unset_then; [exact (IHb P)|apply unset_ok]|]. intros [| | | |]; try apply unset_ok; (apply unset_then; [apply unset_ok|apply unset_put]).
  - apply unset_caught; [apply unset_then; [exact (IHb P)|apply unset_ok]|]. intros e; apply unset_ok.
  - apply unset_then; [intros s H; exact H|]. apply unset_then; [exact (IHb P)|]. apply unset_then; [intros s H; unfold pass_current; destruct (current_message s); exact H|intros s H; exact H].
  - apply unset_caught.
    + apply unset_guarded, unset_then; [intros s H; exact H|]. apply unset_then; [exact (IHb P)|]. apply unset_stop. intros top s H. destruct (counter s =? top); exact H.
    + intros [r|r|w|w|]; try (apply unset_then; [apply unset_fail_current|apply unset_put]); [|apply unset_put].
      apply unset_stop. intros top s H. apply unset_skip. exact H.
Qed.

(** ** Programs between TEST_START and TEST_END *)
Definition closing : T := fun s =>
  if counter s <? expected s
  then note (lit "Looks like you planned " ++ fmt_int (expected s) ++ lit " tests but only ran " ++ fmt_int (counter s)) s
  else if expected s <? counter s
  then note (lit "Looks like you planned " ++ fmt_int (expected s) ++ lit " tests but ran " ++ fmt_int (uint (counter s - expected s)) ++ lit " extra") s
  else (Fine, s).
Definition dying (e : exc) : T :=
  match e with
  | ESkip reason => fun s => skip (expected s - counter s) reason s
  | ETodo _ => skip_it
  | EFatal what => andthen fail_current_if (note (lit "A fatal error occured:," ++ what ++ lit " aborting"))
  | EStd what => andthen fail_current_if (note (lit "Got unknown error: " ++ what))
  | EOther => fail_current_if
  end.
Definition test_body (num : Z) (body : stmt) : T := andthen (plan num) (caught (andthen (exec body) closing) dying).

Lemma test_main_body num body :
  test_main num body = match (andthen (test_body num body) exit_status) tap0 with (Thrown _, s) => (Terminated, s) | r => r end.
Proof.
  unfold test_main, test_body. fold closing. change (fun e : exc => _) with dying.
  replace ((andthen (plan num) (andthen (caught (andthen (exec body) closing) dying) exit_status)) tap0)
    with ((andthen (andthen (plan num) (caught (andthen (exec body) closing) dying)) exit_status) tap0); [reflexivity|].
  unfold andthen at 1 2 3 4. destruct (plan num tap0) as [[] s]; reflexivity.
Qed.

Lemma numeral_oneline n : 0 <= n -> oneline (fmt_int n).
Proof. intros H. apply plain_oneline, numeral_plain, fmt_numeral, H. Qed.
Lemma keeps_closing : keeps closing.
Proof.
  intros s H. pose proof (Inv_counter s H) as C. assert (Ex : 0 <= expected s < 2 ^ 32) by (destruct H as (ls & _ & _ & G); exact (g_range _ _ G)).
  unfold closing. destruct (counter s <? expected s).
  - apply keeps_comment; [|exact H]. apply oneline_app; [apply onelineb_ok; reflexivity|]. apply oneline_app; [apply numeral_oneline; lia|].
    apply oneline_app; [apply onelineb_ok; reflexivity|apply numeral_oneline; lia].
  - destruct (expected s <? counter s); [|exact H].
    apply keeps_comment; [|exact H]. apply oneline_app; [apply onelineb_ok; reflexivity|]. apply oneline_app; [apply numeral_oneline; lia|].
    apply oneline_app; [apply onelineb_ok; reflexivity|]. apply oneline_app; [apply numeral_oneline, uint_range|apply onelineb_ok; reflexivity].
Qed.
Lemma keeps_dying e : tame e -> keeps (dying e).
Proof.
  intros He. destruct e as [r|r|w|w|]; cbn [dying].
  - intros s Hs. apply keeps_skip; assumption.
  - exact keeps_it.
  - apply keeps_then; [exact keeps_fail_current_if|]. apply keeps_note_lit; [reflexivity|]. apply oneline_app; [exact He|apply onelineb_ok; reflexivity].
  - apply keeps_then; [exact keeps_fail_current_if|]. apply keeps_note_lit; [reflexivity|exact He].
  - exact keeps_fail_current_if.
Qed.
Lemma keeps_test_body num body : num mod 2 ^ 32 <> 0 -> tidy body -> keeps (test_body num body).
Proof.
  intros Hn Hb. apply keeps_then; [apply keeps_plan; exact Hn|]. apply keeps_caught; [apply keeps_then; [apply keeps_exec; exact Hb|exact keeps_closing]|exact keeps_dying].
Qed.

Lemma dying_fine e s : exists s', dying e s = (Fine, s') /\ no_planned s' = no_planned s.
Proof.
  destruct e as [r|r|w|w|]; cbn [dying].
  - unfold skip. destruct (skip_fine (Z.to_nat (uint (expected s - counter s))) r s) as (s' & E & _ & _ & _ & _ & _ & N & _). eauto.
  - eexists. split; reflexivity.
  - unfold andthen, fail_current_if. destruct (current_message s); eexists; split; reflexivity.
  - unfold andthen, fail_current_if. destruct (current_message s); eexists; split; reflexivity.
  - unfold fail_current_if. destruct (current_message s); eexists; split; reflexivity.
Qed.
Lemma closing_fine s : exists s', closing s = (Fine, s') /\ no_planned s' = no_planned s.
Proof. unfold closing. destruct (counter s <? expected s); [|destruct (expected s <? counter s)]; eexists; split; reflexivity. Qed.

Lemma plan_start num : plan num tap0 = (Fine, snd (plan num tap0)).
Proof. reflexivity. Qed.

Lemma test_body_ends num body : match fst (test_body num body tap0) with Fine | Exited _ => True | _ => False end.
Proof.
  unfold test_body. unfold andthen at 1. rewrite plan_start. unfold caught, andthen. pose proof (deepens_exec body (snd (plan num tap0))) as D.
  destruct (exec body _) as [[|e|st| |] s1]; try contradiction; [| |exact I].
  - destruct (closing_fine s1) as (s' & -> & _). exact I.
  - destruct (dying_fine e s1) as (s' & -> & _). exact I.
Qed.

Lemma test_body_planless num body s1 : planless body -> test_body num body tap0 = (Fine, s1) -> no_planned s1 = false.
Proof.
  intros P. unfold test_body. unfold andthen at 1. rewrite plan_start. unfold caught, andthen. pose proof (unset_exec body P (snd (plan num tap0)) eq_refl) as U.
  destruct (exec body _) as [[|e|st| |] s2]; cbn [snd] in U; try discriminate.
  - destruct (closing_fine s2) as (s' & -> & N). intros [= <-]. congruence.
  - destruct (dying_fine e s2) as (s' & -> & N). intros [= <-]. congruence.
Qed.

(** ** Skipped tests *)
Lemma Inv_report s : Inv s -> Good (report (printed s)) s.
Proof. intros (ls & E & F & G). unfold report. rewrite E, lines_unlines by exact F. exact G. Qed.

Lemma skip_tests r : plain r -> forall k s, Inv s ->
  exists s', skip_loop k r s = (Fine, s') /\ Inv s' /\ zlen (tests (report (printed s'))) = zlen (tests (report (printed s))) + Z.of_nat k
    /\ plans (report (printed s')) = plans (report (printed s)) /\ failures (tests (report (printed s'))) = failures (tests (report (printed s))).
Proof.
  intros Hr k. induction k as [|k IH]; intros s H; [exists s; split; [reflexivity|]; split; [exact H|]; split; [lia|split; reflexivity]|].
  pose proof H as (ls & E & F & G).
  assert (Hm : oneline (lit " # skip " ++ r)) by (apply oneline_app; [apply onelineb_ok; reflexivity|exact (proj1 Hr)]).
  destruct (ok_step true _ s ls E F G Hm (skip_quiet r Hr)) as (l & s1 & Es & E1 & F1 & G1 & T1 & _ & X1 & _ & _ & _ & X2 & _).
  assert (H1 : Inv s1) by (exists (ls ++ [l]); auto).
  destruct (IH s1 H1) as (s' & Es' & H' & Z' & P' & F').
  assert (R0 : report (printed s) = map read_line ls) by (unfold report; rewrite E, lines_unlines by exact F; reflexivity).
  assert (R1 : report (printed s1) = map read_line (ls ++ [l])) by (unfold report; rewrite E1, lines_unlines by exact F1; reflexivity).
  exists s'. split; [cbn [skip_loop]; unfold andthen, pass; rewrite Es; exact Es'|]. split; [exact H'|].
  rewrite Z', P', F', R1, R0, T1. split; [unfold zlen; rewrite app_length; cbn [length]; lia|]. split; [|rewrite failures_app; cbn [failures orb]; lia].
  rewrite (g_plans _ _ G1), (g_plans _ _ G), X1, X2. reflexivity.
Qed.
