(** hexdump prints what it should. *)
From Verif Require Import Base BaseFacts Blob BlobSpec BlobFacts RunSpec RunFacts Hexdump HexdumpSpec.

Lemma put_app (A M C s : bytes) i : i = zlen A -> zlen s = zlen M -> put (A ++ M ++ C) i s = Ok (A ++ s ++ C).
Proof.
  intros -> E. unfold put. rewrite !zlen_app. pose proof (zlen_nonneg A). pose proof (zlen_nonneg C).
  destruct ((0 <=? zlen A) && _) eqn:T; [|lia]. f_equal.
  rewrite !firstn_app. unfold zlen in *. rewrite Nat2Z.id, firstn_all, Nat.sub_diag, firstn_O, app_nil_r.
  f_equal. f_equal. rewrite skipn_app. rewrite (skipn_all2 A) by lia. cbn [app].
  rewrite skipn_app, (skipn_all2 M) by lia. cbn [app]. replace (_ - _)%nat with 0%nat by lia. reflexivity.
Qed.

Lemma hexdigit_char v : 0 <= v < 16 -> hexdigit v = hexchar v.
Proof.
  intros H. assert (K : forall n, (n < 16)%nat -> hexdigit (Z.of_nat n) = hexchar (Z.of_nat n)).
  { intros n Hn. do 16 (destruct n as [|n]; [reflexivity|]). lia. }
  rewrite <- (Z2Nat.id v) by lia. apply K. lia.
Qed.

Lemma hexdigit_value v : 0 <= v < 16 -> hexchar_value (hexdigit v) = Some v.
Proof.
  intros H. assert (K : forall n, (n < 16)%nat -> hexchar_value (hexdigit (Z.of_nat n)) = Some (Z.of_nat n)).
  { intros n Hn. do 16 (destruct n as [|n]; [reflexivity|]). lia. }
  rewrite <- (Z2Nat.id v) by lia. apply K. lia.
Qed.

Lemma hexdigit_nonzero v : 0 <= v < 16 -> hexdigit v <> x00.
Proof. intros H E. pose proof (hexdigit_value v H) as V. rewrite E in V. discriminate. Qed.

(** ** The offset *)
Definition nz (s : bytes) : Prop := Forall (fun c => c <> x00) s.

Lemma hex_pad_spec n : forall v acc, 0 <= v -> nz acc ->
  zlen (hex_pad n v acc) = Z.of_nat n + zlen acc /\ nz (hex_pad n v acc)
  /\ forall a, v < 16 ^ Z.of_nat n -> hex_value a (hex_pad n v acc) = hex_value (a * 16 ^ Z.of_nat n + v) acc.
Proof.
  induction n as [|n IH]; intros v acc Hv Ha; cbn [hex_pad].
  - split; [reflexivity|]. split; [exact Ha|]. intros a H. cbn in H. f_equal. cbn. lia.
  - pose proof (Z.mod_pos_bound v 16 eq_refl) as Hm.
    destruct (IH (v / 16) (hexdigit (v mod 16) :: acc)) as (I1 & I2 & I3).
    + apply Z.div_pos; lia.
    + constructor; [apply hexdigit_nonzero; lia|exact Ha].
    + split; [rewrite I1, zlen_cons; lia|]. split; [exact I2|]. intros a H.
      rewrite Nat2Z.inj_succ, Z.pow_succ_r in * by lia.
      rewrite I3 by (apply Z.div_lt_upper_bound; lia). cbn [hex_value]. rewrite hexdigit_value by lia.
      f_equal. pose proof (Z.div_mod v 16). lia.
Qed.

Lemma hex8_spec v : 0 <= v < 2 ^ 32 -> zlen (hex8 v) = 8 /\ nz (hex8 v) /\ hex_value 0 (hex8 v) = Some v.
Proof.
  intros H. unfold hex8.
  assert (E : Nat.max 8 (Z.to_nat (Z.log2 v / 4 + 1)) = 8%nat).
  { assert (Z.log2 v <= 31); [|pose proof (Z.log2_nonneg v); pose proof (Z.div_lt_upper_bound (Z.log2 v) 4 8); pose proof (Z.div_pos (Z.log2 v) 4); lia].
    destruct (Z.eq_dec v 0) as [->|]; [cbn; lia|]. assert (Z.log2 v < 32); [|lia]. apply Z.log2_lt_pow2; lia. }
  rewrite E. destruct (hex_pad_spec 8 v []) as (H1 & H2 & H3); [lia|constructor|].
  split; [exact H1|]. split; [exact H2|]. rewrite H3 by (change (16 ^ Z.of_nat 8) with (2 ^ 32); lia). cbn. f_equal.
Qed.

(** ** One line *)
Lemma hexed_app l c : forall i, hexed i (l ++ [c]) =
  hexed i l ++ (if (0 <? i + zlen l) && ((i + zlen l) mod 4 =? 0) then lit " " else [])
            ++ [hexchar (bval c / 16); hexchar (bval c mod 16)].
Proof.
  induction l as [|d l IH]; intros i; cbn [hexed app].
  - change (@zlen byte []) with 0. rewrite Z.add_0_r. reflexivity.
  - rewrite IH. rewrite zlen_cons. replace (i + 1 + zlen l) with (i + (zlen l + 1)) by lia.
    rewrite <- !app_assoc. reflexivity.
Qed.

(** The blank already written after a full group. *)
Definition sep (i : Z) : bytes := if (0 <? i) && (i mod 4 =? 0) then [x20] else [].

Lemma hexed_len l : zlen (hexed 0 l ++ sep (zlen l)) = 2 * zlen l + zlen l / 4.
Proof.
  induction l as [|c l IH] using rev_ind; [reflexivity|]. rewrite hexed_app, Z.add_0_l, zlen_app.
  change (lit " ") with [x20]. change (if (0 <? zlen l) && (zlen l mod 4 =? 0) then [x20] else []) with (sep (zlen l)).
  rewrite app_assoc, zlen_app. rewrite IH. rewrite zlen_app. change (zlen [c]) with 1.
  change (zlen [hexchar (bval c / 16); hexchar (bval c mod 16)]) with 2.
  unfold sep. pose proof (zlen_nonneg l).
  pose proof (Z.div_mod (zlen l) 4). pose proof (Z.mod_pos_bound (zlen l) 4).
  pose proof (Z.div_mod (zlen l + 1) 4). pose proof (Z.mod_pos_bound (zlen l + 1) 4).
  destruct ((0 <? zlen l + 1) && ((zlen l + 1) mod 4 =? 0)) eqn:E; [change (zlen [x20]) with 1|rewrite zlen_nil]; lia.
Qed.

Lemma blanks_len n : 0 <= n -> zlen (blanks n) = n.
Proof. intros H. unfold blanks. rewrite zlen_repeat. lia. Qed.

Lemma blanks_S n : 0 < n -> blanks n = x20 :: blanks (n - 1).
Proof. intros H. unfold blanks. replace (Z.to_nat n) with (S (Z.to_nat (n - 1))) by lia. reflexivity. Qed.

(** The buffer after the bytes [l]; [M] is what lies between the cursor and the character column. *)
Definition line_buf (off junk l M : bytes) : bytes :=
  (lit " >" ++ hexed 0 l ++ sep (zlen l)) ++ M
  ++ map shown l ++ blanks (17 - zlen l) ++ off ++ x00 :: junk.

Definition mid (n : Z) (M : bytes) : Prop :=
  M = blanks (37 - 2 * n - n / 4)
  \/ n mod 4 <> 0 /\ exists m0 m1, M = m0 :: m1 :: blanks (35 - 2 * n - n / 4).

Lemma line_step_spec off junk l c M : zlen l <= 15 -> mid (zlen l) M -> exists M',
  line_step (mkL (line_buf off junk l M) (2 + 2 * zlen l + zlen l / 4) (39 + zlen l) (zlen l)) c
  = Ok (mkL (line_buf off junk (l ++ [c]) M') (2 + 2 * (zlen l + 1) + (zlen l + 1) / 4) (39 + (zlen l + 1)) (zlen l + 1))
  /\ mid (zlen l + 1) M'.
Proof.
  intros H HM. pose proof (zlen_nonneg l).
  pose proof (Z.div_mod (zlen l) 4). pose proof (Z.mod_pos_bound (zlen l) 4).
  pose proof (Z.div_mod (zlen l + 1) 4). pose proof (Z.mod_pos_bound (zlen l + 1) 4).
  unfold mid in *. set (n := zlen l) in *. set (q := n / 4) in *.
  assert (HM' : exists m0 m1, M = [m0; m1; x20; x20] ++ blanks (33 - 2 * n - q)).
  { assert (EB : blanks (35 - 2 * n - q) = x20 :: x20 :: blanks (33 - 2 * n - q)).
    { rewrite blanks_S by lia. rewrite blanks_S by lia. do 3 f_equal. lia. }
    destruct HM as [->|(_ & m0 & m1 & ->)].
    - exists x20, x20. cbn [app]. rewrite <- EB. rewrite blanks_S by lia. rewrite blanks_S by lia. do 3 f_equal. lia.
    - exists m0, m1. rewrite EB. reflexivity. }
  clear HM. destruct HM' as (m0 & m1 & ->).
  assert (Hh : hex2 (bval c) = [hexchar (bval c / 16); hexchar (bval c mod 16)]).
  { unfold hex2. pose proof (bval_range c). rewrite !hexdigit_char; [reflexivity|apply Z.mod_pos_bound; lia|].
    split; [apply Z.div_pos; lia|apply Z.div_lt_upper_bound; lia]. }
  unfold line_step. cbn [l_buf l_index l_index2 l_rel]. rewrite Hh.
  set (h1 := hexchar _). set (h2 := hexchar (bval c mod 16)).
  unfold line_buf. fold n. set (P := lit " >" ++ hexed 0 l ++ sep n).
  assert (LP : zlen P = 2 + 2 * n + q) by (unfold P; rewrite zlen_app; unfold n at 1; rewrite hexed_len; change (zlen (lit " >")) with 2; fold n; fold q; lia).
  set (T := map shown l ++ blanks (17 - n) ++ off ++ x00 :: junk).
  rewrite <- (app_assoc [m0; m1; x20; x20]).
  rewrite (put_app P _ _ _ _ (eq_sym LP)) by reflexivity. cbn [rbind app].
  (* the character column *)
  assert (ET : T = map shown l ++ [x20] ++ blanks (16 - n) ++ off ++ x00 :: junk).
  { unfold T. rewrite (blanks_S (17 - n)) by lia. replace (17 - n - 1) with (16 - n) by lia. reflexivity. }
  set (Q := P ++ [h1; h2; x20; x00] ++ blanks (33 - 2 * n - q) ++ map shown l).
  assert (LQ : zlen Q = 39 + n).
  { unfold Q. rewrite !zlen_app, LP, zlen_map, blanks_len by lia. fold n. change (zlen [h1; h2; x20; x00]) with 4. lia. }
  set (T' := blanks (16 - n) ++ off ++ x00 :: junk).
  assert (E1 : P ++ h1 :: h2 :: x20 :: x00 :: blanks (33 - 2 * n - q) ++ T = Q ++ [x20] ++ T').
  { unfold Q. rewrite ET. fold T'. rewrite <- !app_assoc. cbn [app]. rewrite <- ?app_assoc. reflexivity. }
  rewrite E1. rewrite (put_app Q [x20] T' _ _ (eq_sym LQ)) by reflexivity. cbn [rbind].
  assert (Es : (if isprint (bval c) then c else byte_of_Z 46) = shown c) by reflexivity. rewrite Es.
  assert (EQ : forall a0 a1, (P ++ [h1; h2; a0; a1] ++ blanks (33 - 2 * n - q) ++ map shown l) ++ [shown c] ++ T'
    = P ++ [h1; h2; a0] ++ [a1] ++ blanks (33 - 2 * n - q) ++ map shown (l ++ [c]) ++ T').
  { intros. rewrite map_app. cbn [map]. rewrite <- !app_assoc. reflexivity. }
  destruct ((n + 1) mod 4 =? 0) eqn:Em.
  - unfold Q. rewrite EQ. rewrite app_assoc.
    rewrite (put_app (P ++ [h1; h2; x20]) [x00] _ [x20]); [|rewrite zlen_app, LP; change (zlen [h1; h2; x20]) with 3; lia|reflexivity].
    cbn [rbind]. assert (Eq : (n + 1) / 4 = q + 1) by lia.
    exists ([x20] ++ blanks (33 - 2 * n - q)). split.
    + f_equal. unfold line_buf. rewrite zlen_app. fold n. change (zlen [c]) with 1. f_equal; try lia.
      rewrite hexed_app, Z.add_0_l. fold n. change (lit " ") with [x20]. change (if (0 <? n) && (n mod 4 =? 0) then [x20] else []) with (sep n).
      unfold sep at 2. rewrite Em. destruct (0 <? n + 1) eqn:E0; [|lia]. cbn [andb].
      unfold T', P. rewrite <- !app_assoc. cbn [app]. replace (17 - (n + 1)) with (16 - n) by lia. reflexivity.
    + left. rewrite Eq. rewrite (blanks_S (37 - 2 * (n + 1) - (q + 1))) by lia. cbn [app]. do 2 f_equal. lia.
  - cbn [rbind]. assert (Eq : (n + 1) / 4 = q) by lia.
    exists ([x20; x00] ++ blanks (33 - 2 * n - q)). split.
    + f_equal. unfold Q. rewrite EQ. unfold line_buf. rewrite zlen_app. fold n. change (zlen [c]) with 1. f_equal; try lia.
      rewrite hexed_app, Z.add_0_l. fold n. change (lit " ") with [x20]. change (if (0 <? n) && (n mod 4 =? 0) then [x20] else []) with (sep n).
      unfold sep at 2. rewrite Em, andb_false_r.
      unfold T', P. rewrite <- !app_assoc. cbn [app]. replace (17 - (n + 1)) with (16 - n) by lia. reflexivity.
    + right. split; [lia|]. exists x20, x00. cbn [app]. do 3 f_equal. lia.
Qed.

Lemma line_loop_spec off junk r : forall l M fuel more, zlen l + zlen r <= 16 -> (length r < fuel)%nat ->
  mid (zlen l) M ->
  exists M',
  line_loop fuel (zlen r) (r ++ more) (mkL (line_buf off junk l M) (2 + 2 * zlen l + zlen l / 4) (39 + zlen l) (zlen l))
  = Ok (mkL (line_buf off junk (l ++ r) M') (2 + 2 * zlen (l ++ r) + zlen (l ++ r) / 4) (39 + zlen (l ++ r)) (zlen (l ++ r)))
  /\ mid (zlen (l ++ r)) M'.
Proof.
  induction r as [|c r IH]; intros l M fuel more H Hf Hm; (destruct fuel as [|fuel]; [cbn in Hf; lia|]); cbn [line_loop].
  - rewrite app_nil_r. exists M. split; [reflexivity|exact Hm].
  - rewrite zlen_cons in *. pose proof (zlen_nonneg r). destruct (zlen r + 1 =? 0) eqn:E; [lia|].
    cbn [app]. destruct (line_step_spec off junk l c M) as (a & -> & Ha); [lia|exact Hm|]. cbn [rbind].
    replace (zlen r + 1 - 1) with (zlen r) by lia.
    assert (Lc : zlen (l ++ [c]) = zlen l + 1) by (rewrite zlen_app; reflexivity).
    rewrite <- Lc. rewrite <- Lc in Ha.
    destruct (IH (l ++ [c]) a fuel more ltac:(lia) ltac:(cbn in Hf; lia) Ha) as (b & Eb & Hb).
    exists b. rewrite <- app_assoc in Eb, Hb. split; [exact Eb|exact Hb].
Qed.

Lemma cstr_spec s r : nz s -> cstr (s ++ x00 :: r) = Ok s.
Proof.
  intros H. induction H as [|c s Hc H IH]; [reflexivity|]. cbn [app cstr].
  destruct c; try (rewrite IH; reflexivity). exfalso. apply Hc. reflexivity.
Qed.

Lemma nz_app s t : nz s -> nz t -> nz (s ++ t).
Proof. intros H1 H2. apply Forall_app. split; assumption. Qed.

Lemma nz_blanks n : nz (blanks n).
Proof. unfold blanks. induction (Z.to_nat n); constructor; auto. discriminate. Qed.

Lemma nz_shown l : nz (map shown l).
Proof.
  induction l as [|c l IH]; constructor; [|exact IH]. unfold shown. destruct (_ && _) eqn:E; [|discriminate].
  intros ->. discriminate E.
Qed.

Lemma nz_hexed l : forall i, nz (hexed i l).
Proof.
  induction l as [|c l IH]; intros i; cbn [hexed]; [constructor|]. pose proof (bval_range c).
  apply nz_app; [destruct (_ && _); [repeat constructor; discriminate|constructor]|].
  apply nz_app; [|apply IH]. constructor; [|constructor; [|constructor]].
  - rewrite <- hexdigit_char; [apply hexdigit_nonzero|]; (split; [apply Z.div_pos; lia|apply Z.div_lt_upper_bound; lia]).
  - rewrite <- hexdigit_char by (apply Z.mod_pos_bound; lia). apply hexdigit_nonzero. apply Z.mod_pos_bound. lia.
Qed.

Lemma line_spec buf at_ l more : zlen buf = 100 -> 0 <= at_ < 2 ^ 32 -> 0 < zlen l <= 16 ->
  exists buf', hexdump_line buf at_ (zlen l) (l ++ more) = Ok (dump_line (hex8 at_) l, buf') /\ zlen buf' = 100.
Proof.
  intros Hbuf Hat Hl. destruct (hex8_spec at_ Hat) as (L8 & N8 & _).
  unfold hexdump_line, line_template. set (off := hex8 at_) in *.
  set (tpl := lit " >                            " ++ lit "                      " ++ lit "    ").
  replace (lit " >                            " ++ lit "                      " ++ lit "    " ++ off)
    with (tpl ++ off) by (unfold tpl; rewrite <- !app_assoc; reflexivity).
  assert (Lt : zlen tpl = 56) by reflexivity.
  (* the first sprintf *)
  set (junk := skipn 65 buf).
  assert (E0 : put buf 0 ((tpl ++ off) ++ [x00]) = Ok (line_buf off junk [] (blanks 37))).
  { rewrite <- (firstn_skipn 65 buf) at 1. fold junk.
    change (firstn 65 buf ++ junk) with ([] ++ firstn 65 buf ++ junk).
    rewrite put_app; [|reflexivity|].
    - cbn [app]. unfold line_buf. f_equal. rewrite <- !app_assoc. cbn [app]. reflexivity.
    - rewrite !zlen_app, L8, Lt. change (zlen [x00]) with 1. symmetry. exact (zlen_firstn 65 buf ltac:(lia)). }
  rewrite E0. cbn [rbind].
  destruct (line_loop_spec off junk l [] (blanks 37) 101 more) as (M & E1 & Hm);
    [rewrite zlen_nil; lia|unfold zlen in Hl; lia|left; reflexivity|].
  change (@zlen byte []) with 0 in E1. cbn [app] in E1, Hm. change (2 + 2 * 0 + 0 / 4) with (1 + 1) in E1. change (39 + 0) with (53 - 15 + 1) in E1.
  rewrite E1. cbn [rbind l_buf l_index l_rel]. clear E0 E1.
  set (n := zlen l) in *.
  pose proof (Z.div_mod n 4). pose proof (Z.mod_pos_bound n 4). pose proof (hexed_len l) as HL. fold n in HL.
  set (X := hexed 0 l) in *. set (q := n / 4) in *.
  assert (EI : exists m2 m3, line_buf off junk l M
      = (lit " >" ++ X) ++ [m2] ++ [m3] ++ blanks (35 - zlen X) ++ map shown l ++ blanks (17 - n) ++ off ++ x00 :: junk
    /\ (if n mod 4 =? 0 then 2 + 2 * n + q - 1 else 2 + 2 * n + q) = zlen (lit " >" ++ X)).
  { unfold line_buf. fold n. fold X. rewrite zlen_app. change (zlen (lit " >")) with 2.
    unfold mid in Hm. fold q in Hm. rewrite zlen_app in HL. unfold sep in HL |- *.
    destruct (n mod 4 =? 0) eqn:En.
    - destruct (0 <? n) eqn:E0; [|lia]. cbn [andb] in HL |- *. change (zlen [x20]) with 1 in HL.
      destruct Hm as [->|[Hm _]]; [|lia].
      exists x20, x20. split; [|lia]. rewrite (blanks_S (37 - 2 * n - q)) by lia.
      rewrite <- !app_assoc. cbn [app]. replace (37 - 2 * n - q - 1) with (35 - zlen X) by lia. reflexivity.
    - rewrite andb_false_r in HL |- *. rewrite zlen_nil in HL. rewrite app_nil_r.
      assert (Hm' : exists m0 m1, M = m0 :: m1 :: blanks (35 - zlen X)).
      { destruct Hm as [->|(_ & m0 & m1 & ->)].
        - exists x20, x20. rewrite blanks_S by lia. rewrite blanks_S by lia. do 3 f_equal. lia.
        - exists m0, m1. do 3 f_equal. lia. }
      destruct Hm' as (m0 & m1 & ->). exists m0, m1. split; [|lia]. rewrite <- !app_assoc. reflexivity. }
  destruct EI as (m2 & m3 & EI & Ei). rewrite EI.
  rewrite Ei. rewrite (put_app (lit " >" ++ X) [m2] _ [x09] _ eq_refl eq_refl). cbn [rbind].
  rewrite (app_assoc (lit " >" ++ X) [x09]).
  rewrite (put_app ((lit " >" ++ X) ++ [x09]) [m3] _ [x09]); [|rewrite (zlen_app _ [x09]); reflexivity|reflexivity]. cbn [rbind].
  set (line := (((lit " >" ++ X) ++ [x09]) ++ [x09]) ++ blanks (35 - zlen X) ++ map shown l ++ blanks (17 - n) ++ off).
  assert (EL : ((lit " >" ++ X) ++ [x09]) ++ [x09] ++ blanks (35 - zlen X) ++ map shown l ++ blanks (17 - n) ++ off ++ x00 :: junk
    = line ++ x00 :: junk) by (unfold line; rewrite <- !app_assoc; reflexivity).
  rewrite EL. rewrite cstr_spec.
  - cbn [rbind]. eexists. split.
    + f_equal. unfold dump_line. fold X. fold n. f_equal. unfold line. rewrite <- !app_assoc. reflexivity.
    + assert (LH : zlen X + 1 <= 37 /\ 0 <= 35 - zlen X).
      { rewrite zlen_app in HL. unfold sep in HL. destruct (_ && _) eqn:Es; [change (zlen [x20]) with 1 in HL|rewrite zlen_nil in HL]; lia. }
      assert (LJ : zlen junk = 35) by (pose proof (zlen_skipn 65 buf ltac:(lia)) as K; change (skipn (Z.to_nat 65) buf) with junk in K; lia).
      pose proof (zlen_nonneg X).
      unfold line. rewrite !zlen_app, !zlen_cons, zlen_map, !blanks_len, L8, LJ by lia. fold n.
      change (zlen (lit " >")) with 2. change (@zlen byte []) with 0. lia.
  - unfold line. assert (nz (lit " >")) by (repeat constructor; discriminate).
    assert (nz [x09]) by (repeat constructor; discriminate).
    repeat apply nz_app; auto using nz_blanks, nz_shown, nz_hexed. apply nz_hexed.
Qed.

(** ** All lines *)
Lemma i32_small n : 0 <= n < 2 ^ 31 -> i32 n = n.
Proof. intros H. apply i32_id. lia. Qed.

Lemma loop_spec fuel : forall buf at_ l more, zlen buf = 100 -> 0 <= at_ -> at_ + zlen l < 2 ^ 31 ->
  zlen l < Z.of_nat fuel ->
  exists ls, hexdump_loop fuel buf at_ (zlen l) (l ++ more) = Ok ls /\ dump_lines at_ l ls.
Proof.
  induction fuel as [|fuel IH]; intros buf at_ l more Hb Ha Hl Hf; [pose proof (zlen_nonneg l); lia|].
  pose proof (zlen_nonneg l) as Hl0. cbn [hexdump_loop]. destruct (zlen l =? 0) eqn:E0.
  - exists []. split; [reflexivity|]. rewrite (zlen_0_nil l) by lia. constructor.
  - cbv zeta. rewrite i32_small by lia.
    destruct (hex8_spec at_ ltac:(lia)) as (L8 & _ & V8).
    destruct (16 <? zlen l) eqn:E16.
    + set (a := firstn (Z.to_nat 16) l). set (r := skipn (Z.to_nat 16) l).
      assert (El : l = a ++ r) by (unfold a, r; rewrite firstn_skipn; reflexivity).
      assert (La : zlen a = 16) by (apply zlen_firstn; lia).
      assert (Lr : zlen r = zlen l - 16) by (apply zlen_skipn; lia).
      replace (l ++ more) with (a ++ (r ++ more)) by (rewrite El, <- app_assoc; reflexivity).
      destruct (line_spec buf at_ a (r ++ more) Hb ltac:(lia) ltac:(lia)) as (buf' & E1 & Hb').
      rewrite La in E1. rewrite E1. cbn [rbind fst snd].
      assert (Es : skipn (Z.to_nat 16) (a ++ r ++ more) = r ++ more).
      { rewrite skipn_app. unfold zlen in La. rewrite skipn_all2 by lia. replace (Z.to_nat 16 - length a)%nat with 0%nat by lia. reflexivity. }
      rewrite Es. rewrite u64_id by (unfold zlen in *; lia). rewrite <- Lr.
      destruct (IH buf' (at_ + 16) r more Hb' ltac:(lia) ltac:(lia) ltac:(lia)) as (ls & E2 & Hls).
      rewrite E2. cbn [rbind]. eexists. split; [reflexivity|]. rewrite El. apply dl_next; auto.
      intros ->. rewrite zlen_nil in Lr. lia.
    + destruct (line_spec buf at_ l more Hb ltac:(lia) ltac:(lia)) as (buf' & E1 & Hb').
      rewrite E1. cbn [rbind fst snd]. rewrite Z.sub_diag, u64_id by lia.
      destruct fuel as [|fuel]; [lia|]. cbn [hexdump_loop Z.eqb rbind].
      eexists. split; [reflexivity|]. apply dl_last; auto. lia.
Qed.

Lemma szBuf_len junk : zlen (szBuf junk) = 100.
Proof. unfold szBuf. rewrite zlen_map. unfold zlen. rewrite seq_length. reflexivity. Qed.

Lemma hexdump_spec junk l more : zlen l < 2 ^ 31 ->
  exists ls, hexdump junk (l ++ more) (zlen l) = Ok ls /\ dump_lines 0 l ls.
Proof.
  intros Hl. pose proof (szBuf_len junk). pose proof (zlen_nonneg l). unfold hexdump. rewrite u64_id by lia.
  apply loop_spec; auto; lia.
Qed.

(** ** What the lines say *)
Lemma dump_lines_count at_ l ls : dump_lines at_ l ls -> zlen ls = (zlen l + 15) / 16.
Proof.
  induction 1 as [a|a l off Hl|a l r off ls Hl Hr Ho Hv Hd IH]; [reflexivity| |].
  - change (zlen [dump_line off l]) with 1. apply Z.div_unique with (zlen l - 1); lia.
  - rewrite zlen_cons, IH, zlen_app, Hl. replace (16 + zlen r + 15) with (zlen r + 15 + 1 * 16) by lia.
    rewrite Z.div_add by lia. lia.
Qed.

(** ** Sizes that do not fit int *)
Lemma put_ub_or buf i s : put buf i s = UB
  \/ 0 <= i /\ i + zlen s <= zlen buf /\ exists b, put buf i s = Ok b /\ zlen b = zlen buf.
Proof.
  unfold put. destruct ((0 <=? i) && (i + zlen s <=? zlen buf)) eqn:E; [right|left; reflexivity].
  pose proof (zlen_nonneg s). split; [lia|]. split; [lia|]. eexists. split; [reflexivity|].
  rewrite !zlen_app. rewrite zlen_firstn by lia.
  replace (Z.to_nat i + length s)%nat with (Z.to_nat (i + zlen s)) by (unfold zlen; lia).
  rewrite zlen_skipn by lia. lia.
Qed.

Lemma line_loop_neg fuel : forall cnt data s, cnt < 0 -> zlen (l_buf s) = 100 -> 0 <= l_index s < 100 ->
  100 <= l_index s + Z.of_nat fuel -> line_loop fuel cnt data s = UB.
Proof.
  induction fuel as [|fuel IH]; intros cnt data [buf i j k] Hc Hb Hi Hf; cbn [l_buf l_index] in *; [lia|].
  cbn [line_loop]. destruct (cnt =? 0) eqn:E; [lia|]. destruct data as [|c data]; [reflexivity|].
  unfold line_step. cbn [l_buf l_index l_index2 l_rel].
  destruct (put_ub_or buf i (hex2 (bval c) ++ [x20; x00])) as [->|(G1 & G2 & b1 & -> & L1)]; [reflexivity|]. cbn [rbind].
  change (zlen (hex2 (bval c) ++ [x20; x00])) with 4 in G2.
  match goal with |- context [put b1 j ?t] => destruct (put_ub_or b1 j t) as [->|(_ & _ & b2 & -> & L2)] end; [reflexivity|]. cbn [rbind].
  destruct ((k + 1) mod 4 =? 0).
  - match goal with |- context [put b2 ?x ?t] => destruct (put_ub_or b2 x t) as [->|(_ & _ & b3 & -> & L3)] end; [reflexivity|]. cbn [rbind].
    apply IH; cbn [l_buf l_index]; lia.
  - cbn [rbind]. apply IH; cbn [l_buf l_index]; lia.
Qed.

Lemma line_step_len s c s' : line_step s c = Ok s' -> zlen (l_buf s') = zlen (l_buf s).
Proof.
  destruct s as [buf i j k]. unfold line_step. cbn [l_buf l_index l_index2 l_rel].
  destruct (put_ub_or buf i (hex2 (bval c) ++ [x20; x00])) as [->|(_ & _ & b1 & -> & L1)]; [discriminate|]. cbn [rbind].
  match goal with |- context [put b1 j ?t] => destruct (put_ub_or b1 j t) as [->|(_ & _ & b2 & -> & L2)] end; [discriminate|]. cbn [rbind].
  destruct ((k + 1) mod 4 =? 0).
  - match goal with |- context [put b2 ?x ?t] => destruct (put_ub_or b2 x t) as [->|(_ & _ & b3 & -> & L3)] end; [discriminate|].
    cbn [rbind]. intros [= <-]. cbn [l_buf]. lia.
  - intros [= <-]. cbn [l_buf]. lia.
Qed.

Lemma line_loop_len fuel : forall cnt data s s', line_loop fuel cnt data s = Ok s' -> zlen (l_buf s') = zlen (l_buf s).
Proof.
  induction fuel as [|fuel IH]; intros cnt data s s'; cbn [line_loop]; [discriminate|].
  destruct (cnt =? 0); [intros [= <-]; reflexivity|]. destruct data as [|c data]; [discriminate|].
  destruct (line_step s c) as [t| | | | ] eqn:E; cbn [rbind]; try discriminate.
  intros H. rewrite (IH _ _ _ _ H). apply (line_step_len _ _ _ E).
Qed.

Lemma hexdump_line_len buf at_ n data t b : hexdump_line buf at_ n data = Ok (t, b) -> zlen b = zlen buf.
Proof.
  unfold hexdump_line.
  match goal with |- context [put buf 0 ?t] => destruct (put_ub_or buf 0 t) as [->|(_ & _ & b0 & -> & L0)] end; [discriminate|]. cbn [rbind].
  match goal with |- context [line_loop ?f ?n ?d ?s] => destruct (line_loop f n d s) as [[b' i j k]| | | | ] eqn:E end; cbn [rbind]; try discriminate.
  apply line_loop_len in E. cbn [l_buf l_index l_rel] in E |- *.
  match goal with |- context [put b' ?x ?t] => destruct (put_ub_or b' x t) as [->|(_ & _ & b1 & -> & L1)] end; [discriminate|]. cbn [rbind].
  match goal with |- context [put b1 ?x ?t] => destruct (put_ub_or b1 x t) as [->|(_ & _ & b2 & -> & L2)] end; [discriminate|]. cbn [rbind].
  destruct (cstr b2); cbn [rbind]; try discriminate. intros [= _ <-]. lia.
Qed.

Lemma hexdump_neg fuel buf at_ data n : zlen buf = 100 -> 2 ^ 31 <= n mod 2 ^ 32 ->
  hexdump_loop (S fuel) buf at_ n data = UB.
Proof.
  intros Hj Hn. cbn [hexdump_loop].
  destruct (n =? 0) eqn:E; [replace n with 0 in Hn by lia; rewrite Z.mod_0_l in Hn; lia|]. cbv zeta.
  pose proof (Z.mod_pos_bound n (2 ^ 32) eq_refl) as Hm.
  assert (Ei : i32 n = n mod 2 ^ 32 - 2 ^ 32).
  { unfold i32. pose proof (Z.div_mod n (2 ^ 32) ltac:(lia)).
    rewrite <- (Z.mod_unique (n + 2 ^ 31) (2 ^ 32) (n / 2 ^ 32 + 1) (n mod 2 ^ 32 - 2 ^ 31)) by lia. lia. }
  rewrite Ei. destruct (16 <? n mod 2 ^ 32 - 2 ^ 32) eqn:E16; [lia|]. unfold hexdump_line.
  destruct (put_ub_or buf 0 (line_template at_ ++ [x00])) as [->|(_ & _ & b & -> & L)]; [reflexivity|]. cbn [rbind].
  rewrite line_loop_neg; [reflexivity|lia|cbn; lia|cbn; lia|cbn; lia].
Qed.

Lemma hexdump_big fuel : forall buf at_ data n ls, zlen buf = 100 -> 2 ^ 31 <= n < 2 ^ 64 ->
  hexdump_loop fuel buf at_ n data <> Ok ls.
Proof.
  induction fuel as [|fuel IH]; intros buf at_ data n ls Hb Hn; [discriminate|].
  pose proof (Z.mod_pos_bound n (2 ^ 32) eq_refl) as Hm. pose proof (Z.div_mod n (2 ^ 32) ltac:(lia)) as Hd.
  destruct (Z_lt_le_dec (n mod 2 ^ 32) (2 ^ 31)) as [Hs|Hs]; [|rewrite hexdump_neg by lia; discriminate].
  cbn [hexdump_loop]. destruct (n =? 0) eqn:E; [lia|]. cbv zeta.
  assert (Ei : i32 n = n mod 2 ^ 32).
  { unfold i32. rewrite <- (Z.mod_unique (n + 2 ^ 31) (2 ^ 32) (n / 2 ^ 32) (n mod 2 ^ 32 + 2 ^ 31)) by lia. lia. }
  rewrite Ei. set (k := if 16 <? n mod 2 ^ 32 then 16 else n mod 2 ^ 32).
  assert (Hk : 0 <= k <= n mod 2 ^ 32) by (unfold k; destruct (16 <? n mod 2 ^ 32) eqn:E16; lia).
  destruct (hexdump_line buf at_ k data) as [[t b']| | | | ] eqn:El; cbn [rbind]; try discriminate.
  apply hexdump_line_len in El. cbn [fst snd].
  rewrite u64_id by lia.
  assert (Hq : 1 <= n / 2 ^ 32) by (assert (0 < n / 2 ^ 32 * 2 ^ 32) by lia; lia).
  match goal with |- context [hexdump_loop ?f ?b ?o ?m ?d] =>
    pose proof (fun l => IH b o d m l) as K; destruct (hexdump_loop f b o m d) as [l'| | | | ] end; cbn [rbind]; try discriminate.
  exfalso. apply (K l'); [lia|lia|reflexivity].
Qed.

(** ** The lines determine the bytes *)
Lemma hexchar_inj a b : 0 <= a < 16 -> 0 <= b < 16 -> hexchar a = hexchar b -> a = b.
Proof.
  intros Ha Hb E. rewrite <- !hexdigit_char in E by assumption.
  assert (Some a = Some b); [|congruence]. rewrite <- (hexdigit_value a Ha), <- (hexdigit_value b Hb), E. reflexivity.
Qed.

Lemma hexchar_plain a : 0 <= a < 16 -> hexchar a <> x09 /\ hexchar a <> x20.
Proof.
  intros Ha. pose proof (hexdigit_value a Ha) as V. rewrite hexdigit_char in V by exact Ha.
  split; intros E; rewrite E in V; discriminate.
Qed.

Lemma nibbles c : 0 <= bval c / 16 < 16 /\ 0 <= bval c mod 16 < 16.
Proof.
  pose proof (bval_range c). split; [split; [apply Z.div_pos; lia|apply Z.div_lt_upper_bound; lia]|].
  apply Z.mod_pos_bound. lia.
Qed.

Lemma hexed_inj l : forall i l' s s', hexed i l ++ x09 :: s = hexed i l' ++ x09 :: s' -> l = l'.
Proof.
  induction l as [|c l IH]; intros i l' s s' E; (destruct l' as [|c' l']; [try reflexivity|]); cbn [hexed] in E.
  - exfalso. destruct (hexchar_plain _ (proj1 (nibbles c'))).
    destruct (_ && _); cbn [app lit] in E; [discriminate|]. injection E. congruence.
  - exfalso. destruct (hexchar_plain _ (proj1 (nibbles c))).
    destruct (_ && _); cbn [app lit] in E; [discriminate|]. injection E. congruence.
  - set (p := if (0 <? i) && (i mod 4 =? 0) then lit " " else []) in E. rewrite <- !app_assoc in E.
    apply app_inv_head in E. cbn [app] in E. injection E. intros E3 E2 E1.
    apply hexchar_inj in E1; [|apply nibbles|apply nibbles]. apply hexchar_inj in E2; [|apply nibbles|apply nibbles].
    assert (c = c').
    { apply bval_inj. pose proof (Z.div_mod (bval c) 16 ltac:(lia)). pose proof (Z.div_mod (bval c') 16 ltac:(lia)). lia. }
    subst. f_equal. apply (IH _ _ _ _ E3).
Qed.

Lemma dump_line_inj o l o' l' : dump_line o l = dump_line o' l' -> l = l'.
Proof. unfold dump_line. intros E. apply app_inv_head in E. cbn [app] in E. apply (hexed_inj _ _ _ _ _ E). Qed.

Lemma dump_lines_cons a l t ls : dump_lines a l (t :: ls) ->
  exists m r off, l = m ++ r /\ t = dump_line off m /\ dump_lines (a + 16) r ls.
Proof.
  inversion 1; subst.
  - exists l, [], off. rewrite app_nil_r. split; [reflexivity|]. split; [reflexivity|constructor].
  - eauto 6.
Qed.

Lemma dump_lines_inj ls : forall a l l', dump_lines a l ls -> dump_lines a l' ls -> l = l'.
Proof.
  induction ls as [|t ls IH]; intros a l l' H H'.
  - inversion H. inversion H'. reflexivity.
  - apply dump_lines_cons in H. apply dump_lines_cons in H'.
    destruct H as (m & r & o & -> & -> & Hr). destruct H' as (m' & r' & o' & -> & E & Hr').
    apply dump_line_inj in E. f_equal; [exact E|]. apply (IH _ _ _ Hr Hr').
Qed.

(** ** Dump *)
Lemma dump_run junk b l : holds b l -> zlen l < 2 ^ 31 ->
  exists ls, Dump junk b = Ok ls /\ dump_lines 0 l ls.
Proof.
  intros [Hw <-] Hl. pose proof (content_len b Hw) as Hs. unfold Dump. rewrite Hs.
  destruct Hw as (a & n & Hd & Ha & Hn & Hm & He).
  pose proof (wf_size b a n) as K. unfold ptr_add. rewrite Hd.
  assert (E : blobSize b = n - bbegin b) by (apply K; lia || auto).
  destruct (_ && _) eqn:Eb; [|lia]. cbn [rbind].
  assert (Ec : skipn (Z.to_nat (a + bbegin b)) (mem b)
    = content b ++ skipn (Z.to_nat (zlen (content b))) (skipn (Z.to_nat (a + bbegin b)) (mem b))).
  { unfold content at 1. rewrite Hd. unfold slice. rewrite <- Hs. symmetry. apply firstn_skipn. }
  rewrite Ec. apply hexdump_spec; assumption.
Qed.
