(** C75: the TAP library the project's tests are written with. *)
From Verif Require Import Base Fmt Pulp Tap TapSpec TapFacts.

(** The status a program returns is the verdict of its own output, however it got there. *)
Theorem C75_status : forall body, tidy body ->
  match main body with
  | (Exited status, s) =>
      let r := report (printed s) in
      status = 255 /\ In LBail r \/ ~ In LBail r /\ (zlen (tests r) < 2 ^ 32 -> numbered (tests r) /\ verdict r status)
  | (Terminated, s) =>
      (exists e, exec body tap0 = (Thrown e, s)) \/
      (exists s1, exec body tap0 = (Fine, s1) /\ no_planned s1 = true /\ plans (report (printed s1)) <> [])
  | _ => False
  end.
Proof.
  intros body H. pose proof (finish (exec body) (keeps_exec body H)) as F. pose proof (deepens_exec body tap0) as D.
  change (match (andthen (exec body) exit_status) tap0 with (Thrown _, s) => (Terminated, s) | r => r end) with (main body) in F.
  destruct (main body) as [[|e|st| |] s]; try exact F.
  - destruct F as [F|[F|F]]; [left; exact F| |right; exact F]. destruct (exec body tap0) as [fl s1]. cbn [fst] in F. subst fl. contradiction.
  - destruct (exec body tap0) as [fl s1]. cbn [fst] in F. subst fl. contradiction.
Qed.
Print Assumptions C75_status.

(** The same between TEST_START(num) and TEST_END, where every exception is caught. *)
Theorem C75_test_status : forall num body, num mod 2 ^ 32 <> 0 -> tidy body -> planless body ->
  exists status s, test_main num body = (Exited status, s) /\
    let r := report (printed s) in
    (status = 255 /\ In LBail r \/ ~ In LBail r /\ (zlen (tests r) < 2 ^ 32 -> numbered (tests r) /\ verdict r status)).
Proof.
  intros num body Hn Hb Hp. pose proof (finish (test_body num body) (keeps_test_body num body Hn Hb)) as F. rewrite <- test_main_body in F.
  pose proof (test_body_ends num body) as E. destruct (test_main num body) as [[|e|st| |] s]; try contradiction.
  - exists st, s. split; [reflexivity|exact F].
  - destruct F as [[e F]|[F|(s1 & F & N & _)]].
    + rewrite F in E. contradiction.
    + rewrite F in E. contradiction.
    + rewrite (test_body_planless num body s1 Hp F) in N. discriminate.
  - rewrite F in E. contradiction.
Qed.
Print Assumptions C75_test_status.

(** Status 0 is what a harness accepts (or a program that tested nothing and said nothing). *)
Theorem C75_harness : forall body status s, tidy body -> main body = (Exited status, s) ->
  zlen (tests (report (printed s))) < 2 ^ 32 ->
  (status = 0 <-> accepts (report (printed s)) \/ (~ In LBail (report (printed s)) /\ plans (report (printed s)) = [] /\ tests (report (printed s)) = [])).
Proof.
  intros body st s H E Hz. pose proof (C75_status body H) as C. rewrite E in C. cbv zeta in C. set (r := report (printed s)) in *.
  destruct C as [[-> B]|[B C]].
  - split; [discriminate|]. intros [[N _]|[N _]]; contradiction.
  - destruct (C Hz) as [N V]. unfold verdict in V. pose proof (failures_nonneg (tests r)) as FN. unfold accepts.
    destruct (plans r) as [|n [|n2 q]]; [| |contradiction].
    + destruct (tests r) as [|t ts]; subst st.
      * split; [intros _; right; auto|reflexivity].
      * split; [discriminate|]. intros [(_ & K & _)|(_ & _ & K)]; discriminate.
    + destruct (Z.eqb_spec n (zlen (tests r))) as [En|Ne]; subst st.
      * split; [intros K; left; split; [exact B|]; split; [congruence|]; split; [exact N|lia]|]. intros [(_ & _ & _ & K)|(_ & K & _)]; [rewrite K; reflexivity|discriminate].
      * split; [discriminate|]. intros [(_ & K & _)|(_ & K & _)]; [congruence|discriminate].
Qed.
Print Assumptions C75_harness.

Example C75_status_case : exists s,
  main (SSeq (SPlan 4) (SSeq (SPass (lit "a")) (SSeq (STodo (lit "later")) (SSeq (SFail (lit "b")) (SSeq (STodo []) (SSeq (SIs CFalse (lit "1") (lit "2") (lit "c")) (SNotOk false (lit "d")))))))) = (Exited 1, s)
  /\ report (printed s) = [LPlan 4; LTest true 1 false; LTest false 2 true; LTest false 3 false; LOther; LOther; LOther; LTest true 4 false].
Proof. eexists. split; vm_compute; reflexivity. Qed.
Example C75_status_tidy :
  tidy (SSeq (SPlan 4) (SSeq (SPass (lit "a")) (SSeq (STodo (lit "later")) (SSeq (SFail (lit "b")) (SSeq (STodo []) (SSeq (SIs CFalse (lit "1") (lit "2") (lit "c")) (SNotOk false (lit "d")))))))).
Proof.
  cbn [tidy tame_comparison].
  repeat match goal with
         | |- plain _ => apply plainb_ok; reflexivity
         | |- oneline _ => apply onelineb_ok; reflexivity
         | |- _ /\ _ => split
         | |- True => exact I
         | |- _ <> _ => discriminate
         end.
Qed.

(** plan(skip_all, reason) leaves a plan of no tests and status 0, and nothing behind it runs. *)
Theorem C75_skip_all : forall reason rest, oneline reason ->
  exists s, main (SSeq (SSkipAll reason) rest) = (Exited 0, s) /\ report (printed s) = [LPlan 0].
Proof.
  intros r p Hr. eexists. split; [reflexivity|]. cbn [put set_output_plan printed app tap0].
  change (lit "1.." ++ fmt_int 0 ++ lit " #skip " ++ r) with (lit "1..0 #skip " ++ r).
  replace ((lit "1..0 #skip " ++ r) ++ [nl]) with (unlines [lit "1..0 #skip " ++ r]) by (unfold unlines; cbn [flat_map]; apply app_nil_r).
  unfold report. rewrite lines_unlines by (constructor; [apply oneline_app; [apply onelineb_ok; reflexivity|exact Hr]|constructor]).
  cbn [map]. change (lit "1..0 #skip " ++ r) with (lit "1.." ++ fmt_int 0 ++ x20 :: (lit "#skip " ++ r)). rewrite read_plan; [reflexivity|lia|right; eauto].
Qed.
Print Assumptions C75_skip_all.

(** plan(0) is not kept: done_testing(n) raises the expectation behind the plan already printed, the status says
    success and the output says otherwise. *)
Theorem C75_zero_plan_refuted : exists body s, main body = (Exited 0, s) /\ plans (report (printed s)) = [0] /\ zlen (tests (report (printed s))) = 2.
Proof. exists (SSeq (SPlan 0) (SSeq (SPass (lit "a")) (SSeq (SPass (lit "b")) (SDoneN 2)))). eexists. split; [vm_compute; reflexivity|]. split; vm_compute; reflexivity. Qed.
Print Assumptions C75_zero_plan_refuted.

(** A program that dies when its last test is behind it ends as if it had not, whatever it throws; README.md:286-288
    has 255 for it. *)
Theorem C75_died : forall num body e s1, (andthen (plan num) (exec body)) tap0 = (Fine, s1) ->
  no_planned s1 = false -> current_message s1 = None -> counter s1 = expected s1 ->
  fst (test_main num (SSeq body (SThrow e))) = Exited (Z.min 254 (not_oks s1)).
Proof.
  intros num body e s1 E N M C. rewrite test_main_body. unfold andthen in E. rewrite plan_start in E.
  assert (X : exists s2, test_body num (SSeq body (SThrow e)) tap0 = (Fine, s2) /\ no_planned s2 = false /\ counter s2 = expected s2 /\ not_oks s2 = not_oks s1).
  { unfold test_body. unfold andthen at 1. rewrite plan_start. unfold caught. cbn [exec]. unfold andthen. rewrite E.
    destruct e as [r|r|w|w|]; cbn [dying].
    - rewrite C, Z.sub_diag. eexists. split; [reflexivity|]. auto.
    - eexists. split; [reflexivity|]. auto.
    - unfold andthen, fail_current_if. rewrite M. eexists. split; [reflexivity|]. auto.
    - unfold andthen, fail_current_if. rewrite M. eexists. split; [reflexivity|]. auto.
    - unfold fail_current_if. rewrite M. eexists. split; [reflexivity|]. auto. }
  destruct X as (s2 & X & N2 & C2 & K2). unfold andthen. rewrite X. unfold exit_status, andthen.
  destruct (negb (is_planned s2) && negb (counter s2 =? 0)); cbn [diag put no_planned expected counter not_oks]; rewrite N2, C2, Z.eqb_refl, K2; reflexivity.
Qed.
Print Assumptions C75_died.
Example C75_died_case : exists s, test_main 1 (SSeq (SPass (lit "a")) (SThrow (EStd (lit "boom")))) = (Exited 0, s).
Proof. eexists. vm_compute. reflexivity. Qed.

(** Skipping the rest by skip(reason): as many passed tests are added as are missing to the plan, reckoned
    without sign. *)
Theorem C75_skip_rest : forall num body reason s1 N,
  num mod 2 ^ 32 <> 0 -> tidy body -> plain reason -> (andthen (plan num) (exec body)) tap0 = (Thrown (ESkip reason), s1) -> no_planned s1 = false ->
  plans (report (printed s1)) = [N] -> zlen (tests (report (printed s1))) < 2 ^ 32 ->
  let ran := zlen (tests (report (printed s1))) in
  exists status s, test_main num body = (Exited status, s)
    /\ plans (report (printed s)) = [N]
    /\ failures (tests (report (printed s))) = failures (tests (report (printed s1)))
    /\ zlen (tests (report (printed s))) = (if ran <=? N then N else N + 2 ^ 32).
Proof.
  intros num body r s1 N Hn Hb Hr E NP P Z ran.
  assert (K : Inv s1) by (pose proof (keeps_then (plan num) (exec body) (keeps_plan num Hn) (keeps_exec body Hb) tap0 Inv_tap0) as K; rewrite E in K; exact (proj1 K)).
  pose proof (Inv_report s1 K) as G.
  assert (EN : expected s1 = N /\ has_output_plan s1 = true).
  { pose proof (g_plans _ _ G) as Q. rewrite P in Q. destruct (has_output_plan s1); [split; congruence|discriminate]. }
  destruct EN as [EN EH]. pose proof (g_range _ _ G) as RN. rewrite EN in RN.
  assert (EC : counter s1 = ran) by (rewrite (g_counter _ _ G); apply uint_small; unfold ran in *; unfold zlen in *; lia).
  destruct (skip_tests r Hr (Z.to_nat (uint (N - ran))) s1 K) as (s2 & E2 & K2 & Z2 & P2 & F2).
  destruct (skip_fine (Z.to_nat (uint (N - ran))) r s1) as (s2' & E2' & _ & _ & _ & _ & _ & NP2 & _). rewrite E2 in E2'. injection E2' as <-.
  assert (X : test_body num body tap0 = (Fine, s2)).
  { unfold andthen in E. rewrite plan_start in E. unfold test_body. unfold andthen at 1. rewrite plan_start. unfold caught, andthen. rewrite E. cbn [dying].
    rewrite EN, EC. exact E2. }
  rewrite test_main_body. unfold andthen. rewrite X.
  pose proof (Inv_report s2 K2) as G2.
  assert (H2 : has_output_plan s2 = true) by (pose proof (g_plans _ _ G2) as Q; rewrite P2, P in Q; destruct (has_output_plan s2); [reflexivity|discriminate]).
  assert (Y : exists st, exit_status s2 = (Exited st, s2)).
  { unfold exit_status, andthen. rewrite (g_planned _ _ G2 H2). cbn [negb andb]. rewrite NP2, NP. destruct (_ =? _); eauto. }
  destruct Y as [st Y]. exists st, s2. rewrite Y. split; [reflexivity|]. split; [congruence|]. split; [exact F2|]. rewrite Z2. fold ran.
  pose proof (uint_range (N - ran)) as U. rewrite Z2Nat.id by lia.
  assert (R0 : 0 <= ran) by (unfold ran, zlen; lia).
  destruct (Z.leb_spec ran N).
  - rewrite uint_small by lia. lia.
  - replace (uint (N - ran)) with (N - ran + 2 ^ 32); [lia|]. unfold uint. symmetry. rewrite <- (Z_mod_plus_full _ 1). apply Z.mod_small. unfold ran in *. lia.
Qed.
Print Assumptions C75_skip_rest.
Example C75_skip_rest_case : exists s, test_main 3 (SSeq (SPass (lit "a")) (SThrow (ESkip (lit "no disk")))) = (Exited 0, s)
  /\ report (printed s) = [LPlan 3; LTest true 1 false; LTest true 2 false; LTest true 3 false].
Proof. eexists. split; vm_compute; reflexivity. Qed.
(** One test too many and then skip(reason): 4294967295 lines follow. *)
Example C75_skip_rest_over : exists s1,
  (andthen (plan 1) (exec (SSeq (SPass (lit "a")) (SSeq (SPass (lit "b")) (SThrow (ESkip (lit "no disk"))))))) tap0 = (Thrown (ESkip (lit "no disk")), s1)
  /\ no_planned s1 = false /\ plans (report (printed s1)) = [1] /\ zlen (tests (report (printed s1))) = 2 /\ uint (1 - counter s1) = 4294967295.
Proof. eexists. split; [vm_compute; reflexivity|]. repeat split; vm_compute; reflexivity. Qed.

(** A block whose body throws nothing but skip(reason) counts as planned if it is skipped, and in any case leaves
    TODO and the numbers of the blocks around it as they were. *)
Theorem C75_block : forall n body s, calm body ->
  match exec (SBlock n body) s with
  | (Fine, s') =>
      block_expected s' = block_expected s /\ TODO s' = TODO s
      /\ forall e s1, exec body (snd (start_block n s)) = (Thrown e, s1) -> uint (counter s') = uint (counter s + n)
  | (Exited _, _) => True
  | _ => False
  end.
Proof.
  intros n b s Hb. cbn [exec]. unfold caught, guarded, andthen at 1. cbn [start_block snd]. set (s0 := set_blocks _ s).
  pose proof (level_exec b Hb s0) as D. unfold andthen at 1. destruct (exec b s0) as [[|e|st| |] s1]; try exact D.
  - unfold stop_block. rewrite D. cbn [s0 set_blocks block_expected counter].
    destruct (counter s1 =? _); (split; [reflexivity|]; split; [reflexivity|]; discriminate).
  - destruct D as [[r ->] D]. unfold stop_block. cbn [set_TODO block_expected]. rewrite D. cbn [s0 set_blocks block_expected].
    match goal with |- context [skip ?k r ?t] => unfold skip; destruct (skip_fine (Z.to_nat (uint k)) r t) as (s2 & E & C & B & T2 & _); pose proof (uint_range k) as U end.
    rewrite E. split; [exact B|]. split; [rewrite T2; reflexivity|]. intros e s3 _. rewrite C. clear - U. cbn [counter set_TODO set_blocks] in *.
    set (c := counter s1) in *. set (t := counter s + n) in *. unfold uint in *.
    destruct (Z.to_nat ((t mod 2 ^ 32 - c) mod 2 ^ 32)) as [|k] eqn:K.
    + cbn [Nat.eqb]. assert (Q : (t mod 2 ^ 32 - c) mod 2 ^ 32 = 0) by lia. rewrite Zminus_mod_idemp_l in Q.
      apply Z.mod_divide in Q; [|lia]. destruct Q as [q Q]. replace t with (c + q * 2 ^ 32) by lia. symmetry. apply Z_mod_plus_full.
    + cbn [Nat.eqb]. rewrite <- K, Z2Nat.id by lia. rewrite Z.mod_mod by lia. rewrite Zplus_mod_idemp_r.
      replace (c + (t mod 2 ^ 32 - c)) with (t mod 2 ^ 32) by lia. apply Z.mod_mod. lia.
Qed.
Print Assumptions C75_block.
Example C75_block_case : exists s, test_main 4 (SSeq (SBlock 3 (SSeq (SPass (lit "a")) (SSeq (STodo (lit "later")) (SSeq (SBlock 1 (SThrow (ESkip (lit "x")))) (SThrow (ESkip (lit "y"))))))) (SPass (lit "z"))) = (Exited 0, s)
  /\ block_expected s = [] /\ TODO s = [] /\ counter s = 4.
Proof. eexists. split; [vm_compute; reflexivity|]. repeat split. Qed.

(** Any other exception leaves the number of its block behind: the block around takes it for its own. *)
Theorem C75_leak : forall n m what name reason s,
  exists s', exec (SBlock n (SSeq (SBlock m (SDecl (SThrow (EStd what)) name)) (SThrow (ESkip reason)))) s = (Fine, s')
    /\ uint (counter s') = uint (counter s + m) /\ block_expected s' = uint (counter s + n) :: block_expected s.
Proof.
  intros n m w name r s. cbn [exec]. unfold caught, guarded, andthen, fail_current, stop_block.
  cbn [start_block set_blocks set_message set_TODO current_message block_expected counter TODO fail ok put note set_counts].
  match goal with |- context [skip ?k r ?t] => unfold skip; destruct (skip_fine (Z.to_nat (uint k)) r t) as (s2 & E & C & B & _); pose proof (uint_range k) as U end.
  exists s2. split; [exact E|]. split; [|rewrite B; reflexivity]. rewrite C. clear - U. cbn [counter set_TODO set_blocks set_message set_counts] in *.
  set (c := counter s + 1) in *. set (t := counter s + m) in *. unfold uint in *.
  destruct (Z.to_nat ((t mod 2 ^ 32 - c mod 2 ^ 32) mod 2 ^ 32)) as [|k] eqn:K.
  - cbn [Nat.eqb]. assert (Q : (t mod 2 ^ 32 - c mod 2 ^ 32) mod 2 ^ 32 = 0) by lia. rewrite Zminus_mod_idemp_l, Zminus_mod_idemp_r in Q.
    apply Z.mod_divide in Q; [|lia]. destruct Q as [q Q]. replace t with (c + q * 2 ^ 32) by lia. rewrite Z.mod_mod by lia. symmetry. apply Z_mod_plus_full.
  - cbn [Nat.eqb]. rewrite <- K, Z2Nat.id by lia. rewrite Z.mod_mod by lia. rewrite Zplus_mod_idemp_r.
    replace (c mod 2 ^ 32 + (t mod 2 ^ 32 - c mod 2 ^ 32)) with (t mod 2 ^ 32) by lia. apply Z.mod_mod. lia.
Qed.
Print Assumptions C75_leak.

(** TODO is put back however the scope of a guard or of a block is left. *)
Theorem C75_guard : forall body s fl s',
  exec (SGuard body) s = (fl, s') \/ (exists n, exec (SBlock n body) s = (fl, s')) -> fl = Fine \/ (exists e, fl = Thrown e) -> TODO s' = TODO s.
Proof.
  intros body s fl s' H F.
  assert (FC : forall t u, TODO (snd (andthen fail_current (note t) u)) = TODO u).
  { intros t u. unfold andthen, fail_current. destruct (current_message u); reflexivity. }
  destruct H as [H|[n H]]; cbn [exec] in H.
  - unfold guarded in H. destruct (exec body s) as [[|e|st| |] s1]; injection H as <- <-; try reflexivity; destruct F as [F|[x F]]; discriminate.
  - unfold caught in H. set (g := guarded _) in H.
    assert (K : match g s with (Fine, s1) | (Thrown _, s1) => TODO s1 = TODO s | _ => True end) by (unfold g, guarded; match goal with |- context [match ?f s with _ => _ end] => destruct (f s) as [[|e|st| |] s1]; exact I || reflexivity end).
    destruct (g s) as [[|e|st| |] s1]; try (injection H as <- <-; exact K || (destruct F as [F|[x F]]; discriminate)).
    destruct e as [r|r|w|w|].
    + unfold stop_block in H. destruct (block_expected s1) as [|top q]; [injection H as <- <-; exact K|].
      unfold skip in H. match type of H with skip_loop ?k r ?t = _ => destruct (skip_fine k r t) as (s2 & E & _ & _ & T2 & _) end.
      rewrite E in H. injection H as <- <-. rewrite T2. exact K.
    + injection H as <- <-. exact K.
    + rewrite <- K, <- (FC (lit "Got error: " ++ w) s1), H. reflexivity.
    + rewrite <- K, <- (FC (lit "Got error: " ++ w) s1), H. reflexivity.
    + rewrite <- K, <- (FC (lit "Died with some mysterious error") s1), H. reflexivity.
Qed.
Print Assumptions C75_guard.
Example C75_guard_case : exists s, exec (SGuard (SSeq (STodo (lit "later")) (SThrow EOther))) tap0 = (Thrown EOther, s) /\ TODO s = [].
Proof. eexists. split; reflexivity. Qed.

(** is() and isnt() are one test each, whatever the comparison does; if it throws, a failed one, for both. *)
Theorem C75_comparison : forall c left right message s,
  let failed := fun b : bool => if b || is_todo_test s then not_oks s else uint (not_oks s + 1) in
  (exists s', exec (SIs c left right message) s = (Fine, s') /\ counter s' = uint (counter s + 1)
     /\ not_oks s' = failed (match c with CTrue => true | _ => false end))
  /\ (exists s', exec (SIsnt c message) s = (Fine, s') /\ counter s' = uint (counter s + 1)
     /\ not_oks s' = failed (match c with CFalse => true | _ => false end)).
Proof.
  intros c l r m s failed. unfold failed. cbn [exec].
  assert (D : forall t u, exists u', diag t u = (Fine, u') /\ counter u' = counter u /\ not_oks u' = not_oks u) by (intros t u; eexists; split; [reflexivity|split; reflexivity]).
  assert (O : forall b, exists u, ok b m s = (Fine, u) /\ counter u = uint (counter s + 1) /\ not_oks u = if b || is_todo_test s then not_oks s else uint (not_oks s + 1))
    by (intros b; eexists; split; [reflexivity|split; [reflexivity|destruct b, (is_todo_test s); reflexivity]]).
  unfold is_, isnt, fail, andthen. split; destruct c as [| |w|].
  - exact (O true).
  - destruct (O false) as (u & -> & C & N). repeat match goal with |- context [diag ?t ?v] => destruct (D t v) as (? & -> & ? & ?) end.
    eexists. split; [reflexivity|]. split; congruence.
  - destruct (O false) as (u & -> & C & N). repeat match goal with |- context [diag ?t ?v] => destruct (D t v) as (? & -> & ? & ?) end.
    eexists. split; [reflexivity|]. split; congruence.
  - destruct (O false) as (u & -> & C & N). repeat match goal with |- context [diag ?t ?v] => destruct (D t v) as (? & -> & ? & ?) end.
    eexists. split; [reflexivity|]. split; congruence.
  - exact (O false).
  - exact (O true).
  - destruct (O false) as (u & -> & C & N). repeat match goal with |- context [diag ?t ?v] => destruct (D t v) as (? & -> & ? & ?) end.
    eexists. split; [reflexivity|]. split; congruence.
  - destruct (O false) as (u & -> & C & N). repeat match goal with |- context [diag ?t ?v] => destruct (D t v) as (? & -> & ? & ?) end.
    eexists. split; [reflexivity|]. split; congruence.
Qed.
Print Assumptions C75_comparison.

(** Each call of the kind is one test, and passes when its name says so. *)
Theorem C75_calls : forall b message s,
  (exists s', exec (SOk b message) s = (Fine, s') /\ tested b s s')
  /\ (exists s', exec (SNotOk b message) s = (Fine, s') /\ tested (negb b) s s')
  /\ (exists s', exec (SPass message) s = (Fine, s') /\ tested true s s')
  /\ (exists s', exec (SFail message) s = (Fine, s') /\ tested false s s').
Proof.
  intros b m s. assert (O : forall c, exists s', ok c m s = (Fine, s') /\ tested c s s').
  { intros c. eexists. split; [reflexivity|]. split; [reflexivity|]. cbn [put set_counts not_oks]. unfold is_todo_test. destruct c, (TODO s); reflexivity. }
  split; [exact (O b)|]. split; [exact (O (negb b))|]. split; [exact (O true)|exact (O false)].
Qed.
Print Assumptions C75_calls.

(** TRY passes if its code throws nothing, FAIL if it throws; either is one test behind those of its code. *)
Theorem C75_try : forall body name s,
  match exec body s with
  | (Fine, s1) => (exists s', exec (STry body name) s = (Fine, s') /\ tested true s1 s') /\ (exists s', exec (SFAIL body name) s = (Fine, s') /\ tested false s1 s')
  | (Thrown e, s1) => (exists s', exec (STry body name) s = (Fine, s') /\ tested false s1 s') /\ (exists s', exec (SFAIL body name) s = (Fine, s') /\ tested true s1 s')
  | r => exec (STry body name) s = r /\ exec (SFAIL body name) s = r
  end.
Proof.
  intros body name s. assert (O : forall c s, exists s', ok c name s = (Fine, s') /\ tested c s s').
  { intros c t. destruct (C75_calls c name t) as [H _]. exact H. }
  cbn [exec]. unfold caught, andthen, pass, fail. destruct (exec body s) as [[|e|st| |] s1]; try (split; reflexivity).
  - destruct (O true s1) as (s2 & E & K). destruct (O false s1) as (s3 & E' & K'). rewrite E, E'. split; eauto.
  - split; [|destruct (O true s1) as (s2 & E & K); rewrite E; eauto].
    destruct (O false s1) as (s3 & E & K). destruct e; rewrite E; eauto; (eexists; split; [reflexivity|]; exact K).
Qed.
Print Assumptions C75_try.
Example C75_try_case : exists s, exec (STry (SFAIL (SPass (lit "a")) (lit "b")) (lit "c")) tap0 = (Fine, s) /\ counter s = 3 /\ not_oks s = 1.
Proof. eexists. split; [reflexivity|]. split; reflexivity. Qed.

(** plan(no_plan) and done_testing() do not go together: after any tests, exit_status() throws out of a
    NOEXCEPT function. *)
Theorem C75_no_plan_done : forall l, exists s, main (SSeq SNoPlan (SSeq (checks l) SDone)) = (Terminated, s).
Proof.
  intros l.
  assert (C : forall l s, exists s', exec (checks l) s = (Fine, s') /\ has_output_plan s' = has_output_plan s /\ is_done s' = is_done s /\ expected s' = expected s /\ no_planned s' = no_planned s).
  { clear l. induction l as [|[b m] l IH]; intros s; [exists s; repeat split|].
    cbn [checks exec]. unfold andthen. destruct (IH (snd (ok b m s))) as (s' & E & Q). exists s'. split; [exact E|exact Q]. }
  unfold main. cbn [exec]. unfold andthen, plan_no_plan.
  destruct (C l (set_flags true true tap0)) as (s' & -> & H1 & H2 & H3 & H4). cbn [set_flags tap0 has_output_plan is_done expected no_planned] in *.
  assert (D : exists s2, done_testing s' = (Fine, s2) /\ no_planned s2 = true /\ has_output_plan s2 = true /\ is_planned s2 = true).
  { unfold done_testing, done_testing_. rewrite H2. unfold andthen. cbn [set_done expected]. rewrite H3. cbn [Z.eqb negb andb].
    cbn [set_expected set_flags set_done has_output_plan]. rewrite H1. unfold output_plan. cbn [set_expected set_flags set_done has_output_plan]. rewrite ?H1.
    unfold andthen. cbn [put]. eexists. split; [reflexivity|]. cbn. auto. }
  destruct D as (s2 & -> & D1 & D2 & D3). unfold exit_status, andthen. rewrite D3. cbn [negb andb]. rewrite D1. unfold output_plan. rewrite D2. eauto.
Qed.
Print Assumptions C75_no_plan_done.

(** No program takes a number from an empty stack of blocks. *)
Theorem C75_defined : forall body num, fst (main body) <> Undefined /\ fst (test_main num body) <> Undefined.
Proof.
  intros body num. split.
  - unfold main, andthen. pose proof (deepens_exec body tap0) as D. destruct (exec body tap0) as [[|e|st| |] s1]; try contradiction; try discriminate.
    pose proof (exit_defined s1) as X. destruct (exit_status s1) as [[|e|st| |] s2]; try discriminate. exfalso. apply X. reflexivity.
  - rewrite test_main_body. unfold andthen. pose proof (test_body_ends num body) as D. destruct (test_body num body tap0) as [[|e|st| |] s1]; try contradiction; try discriminate.
    pose proof (exit_defined s1) as X. destruct (exit_status s1) as [[|e|st| |] s2]; try discriminate. exfalso. apply X. reflexivity.
Qed.
Print Assumptions C75_defined.
