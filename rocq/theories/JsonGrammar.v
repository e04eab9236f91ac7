(** Which texts written for a tree are JSON (C38). *)
From Flocq Require Import IEEE754.Binary IEEE754.Bits.
From Coq Require Strings.Byte.
From Verif Require Import Base BaseFacts ArithSpec ArithFacts FloatTextSpec FloatTextFacts Arithm DictWords DictSpec JsonSpec.
Local Open Scope Z_scope.

Scheme value_mut := Induction for value Sort Prop
  with element_mut := Induction for element Sort Prop
  with elements_mut := Induction for elements Sort Prop
  with member_mut := Induction for member Sort Prop
  with members_mut := Induction for members Sort Prop.
Combined Scheme grammar_mut from value_mut, element_mut, elements_mut, member_mut, members_mut.

Scheme text_mut := Induction for text Sort Prop
  with texts_mut := Induction for texts Sort Prop
  with pairs_mut := Induction for pairs Sort Prop.
Combined Scheme output_mut from text_mut, texts_mut, pairs_mut.

(** ** Numbers *)
Lemma read_digits_all s : forall acc n, read_digits acc s = Some n -> Forall is_digit s.
Proof.
  induction s as [|c s IH]; intros acc n E; [constructor|]. cbn [read_digits] in E. unfold digit_of in E.
  destruct ((48 <=? bval c) && (bval c <=? 57)) eqn:Q; [|discriminate]. constructor; [unfold is_digit; lia|]. exact (IH _ _ E).
Qed.

Lemma read_nat_int s n : read_nat s = Some n -> int_part s.
Proof.
  destruct s as [|c r]; [discriminate|]. cbn [read_nat]. destruct ((bval c =? 48) && _) eqn:Q; [discriminate|]. intros E.
  pose proof (read_digits_all _ _ _ E) as F. inversion F as [|? ? Hc Hr]; subst. unfold is_digit in Hc.
  destruct (Z.eq_dec (bval c) 48) as [H|H].
  - left. destruct r; [|cbn in Q; lia]. change (lit "0") with [x30]. f_equal. apply bval_inj. exact H.
  - right. exists c, r. split; [reflexivity|]. split; [lia|exact Hr].
Qed.

Lemma digit_string_1 s n : digit_string s n -> digits1 s.
Proof. intros (H1 & H2). split; [exact H1|exact (read_digits_all _ _ _ H2)]. Qed.

Lemma read_int_number s z : read_int s = Some z -> number s.
Proof.
  destruct s as [|c r]; [discriminate|]. cbn [read_int]. destruct (bval c =? 45) eqn:Q.
  - destruct (read_nat r) as [n|] eqn:E; [|discriminate]. intros _. exists (lit "-"), r, [], [].
    split; [rewrite !app_nil_r; change (c :: r = [x2d] ++ r); cbn; f_equal; apply bval_inj; change (bval x2d) with 45; lia|].
    split; [right; left; reflexivity|]. split; [exact (read_nat_int _ _ E)|]. split; left; reflexivity.
  - intros E. exists [], (c :: r), [], []. split; [rewrite !app_nil_r; reflexivity|]. split; [left; reflexivity|].
    split; [exact (read_nat_int _ _ E)|]. split; left; reflexivity.
Qed.

Lemma mantissa_number s x : mantissa s x -> exists i f, s = i ++ f /\ int_part i /\ frac_part f.
Proof.
  intros [t n E|t n f k E F].
  - exists t, []. split; [rewrite app_nil_r; reflexivity|]. split; [exact (read_nat_int _ _ E)|left; reflexivity].
  - exists t, (lit "." ++ f). split; [reflexivity|]. split; [exact (read_nat_int _ _ E)|]. right. exists f. split; [reflexivity|exact (digit_string_1 _ _ F)].
Qed.

Lemma magnitude_number sg s x : In sg [[]; lit "-"] -> magnitude s x -> number (sg ++ s).
Proof.
  intros Hs [t y M|t y u k M D|t y u k M D]; destruct (mantissa_number _ _ M) as (i & f & -> & Hi & Hf).
  - exists sg, i, f, []. split; [rewrite app_nil_r; reflexivity|]. split; [exact Hs|]. split; [exact Hi|]. split; [exact Hf|left; reflexivity].
  - exists sg, i, f, (lit "e+" ++ u). split; [rewrite <- !app_assoc; reflexivity|]. split; [exact Hs|]. split; [exact Hi|]. split; [exact Hf|].
    right. exists (lit "e"), (lit "+"), u. split; [reflexivity|]. split; [left; reflexivity|]. split; [right; left; reflexivity|exact (digit_string_1 _ _ D)].
  - exists sg, i, f, (lit "e-" ++ u). split; [rewrite <- !app_assoc; reflexivity|]. split; [exact Hs|]. split; [exact Hi|]. split; [exact Hf|].
    right. exists (lit "e"), (lit "-"), u. split; [reflexivity|]. split; [left; reflexivity|]. split; [right; right; left; reflexivity|exact (digit_string_1 _ _ D)].
Qed.

Lemma double_number bits s : finite bits -> double_text bits s -> number s.
Proof.
  unfold finite, double_text. cbv zeta. intros -> H. unfold number_text in H.
  destruct (Bsign 53 1024 (b64_of_bits bits)).
  - destruct H as (t & -> & M). apply magnitude_number with (x := (- B2R 53 1024 (b64_of_bits bits))%R); [right; left; reflexivity|exact M].
  - apply (magnitude_number [] s _ (or_introl eq_refl) H).
Qed.

(** ** A tree of finite doubles is written as JSON *)
Fixpoint words (t : jtree) : list bytes :=
  match t with
  | JStr w => [w]
  | JArr ts => flat_map words ts
  | JObj ms => flat_map (fun m => fst m :: words (snd m)) ms
  | _ => []
  end.

Lemma plain_string w : plain_word w -> jstring ([quote] ++ w ++ [quote]).
Proof.
  intros (_ & H). exists (map (fun c => [c]) w). split.
  - apply Forall_map. eapply Forall_impl; [|exact H]. unfold lower_case. intros c Hc. constructor; [lia| |];
      intros ->; cbn in Hc; lia.
  - do 2 f_equal. clear H. induction w as [|c w IH]; [reflexivity|]. cbn [map concat]. rewrite <- IH. reflexivity.
Qed.

Lemma element_value s : value s -> element s.
Proof. intros H. rewrite <- (app_nil_r s). apply (el [] s []); [constructor|exact H|constructor]. Qed.
Lemma element_sp s : value s -> element (lit " " ++ s).
Proof.
  intros H. replace (lit " " ++ s) with (lit " " ++ s ++ []) by (rewrite app_nil_r; reflexivity).
  apply el; [|exact H|constructor]. constructor; [left; reflexivity|constructor].
Qed.

Lemma finite_json :
  (forall t s, text t s -> Forall finite (doubles t) -> Forall plain_word (words t) -> value s)
  /\ (forall ts s, texts ts s -> Forall finite (flat_map doubles ts) -> Forall plain_word (flat_map words ts) ->
       ts = [] /\ s = [] \/ forall w, ws w -> elements (w ++ s))
  /\ (forall ms s, pairs ms s -> Forall finite (flat_map (fun m => doubles (snd m)) ms) -> Forall plain_word (flat_map (fun m => fst m :: words (snd m)) ms) ->
       ms = [] /\ s = [] \/ forall w, ws w -> members (w ++ s)).
Proof.
  assert (EW : forall w s, ws w -> value s -> element (w ++ s)).
  { intros w s Hw Hs. rewrite <- (app_nil_r s). apply el; [exact Hw|exact Hs|constructor]. }
  assert (SP : ws (lit " ")) by (constructor; [left; reflexivity|constructor]).
  assert (MB : forall w k s, ws w -> plain_word k -> value s -> member (w ++ [quote] ++ k ++ [quote] ++ lit ": " ++ s)).
  { intros w k s Hw Hk Hs. pose proof (mb w ([quote] ++ k ++ [quote]) [] (lit " " ++ s) Hw (plain_string k Hk) (Forall_nil _) (element_sp s Hs)) as M.
    rewrite <- !app_assoc in M. exact M. }
  apply output_mut.
  - intros z s E _ _. apply v_number. exact (read_int_number _ _ E).
  - intros bits s D F _. apply v_number. exact (double_number _ _ (Forall_inv F) D).
  - intros w _ P. apply v_string. apply plain_string. exact (Forall_inv P).
  - intros ts s _ IH F P. destruct (IH F P) as [(_ & ->)|K].
    + apply (v_array0 []). constructor.
    + apply v_array. exact (K [] (Forall_nil _)).
  - intros ms s _ IH F P. destruct (IH F P) as [(_ & ->)|K].
    + apply (v_object0 []). constructor.
    + apply v_object. exact (K [] (Forall_nil _)).
  - intros _ _. left. split; reflexivity.
  - intros t s _ IH F P. right. intros w Hw. cbn [flat_map] in F, P. rewrite app_nil_r in F, P. apply es_one. apply EW; [exact Hw|exact (IH F P)].
  - intros t s ts r Hn _ IH1 _ IH2 F P. right. intros w Hw. cbn [flat_map] in F, P. apply Forall_app in F as [F1 F2]. apply Forall_app in P as [P1 P2].
    destruct (IH2 F2 P2) as [(-> & _)|K]; [congruence|]. pose proof (es_more (w ++ s) (lit " " ++ r) (EW w s Hw (IH1 F1 P1)) (K _ SP)) as M.
    rewrite <- !app_assoc in M. exact M.
  - intros _ _. left. split; reflexivity.
  - intros k t s _ IH F P. right. intros w Hw. cbn [flat_map fst snd] in F, P. rewrite app_nil_r in F, P. inversion P as [|? ? P1 P2]; subst.
    apply ms_one. apply MB; [exact Hw|exact P1|exact (IH F P2)].
  - intros k t s ms r Hn _ IH1 _ IH2 F P. right. intros w Hw. cbn [flat_map fst snd] in F, P. apply Forall_app in F as [F1 F2].
    rewrite <- app_comm_cons in P. inversion P as [|? ? P1 P']; subst. apply Forall_app in P' as [P2 P3].
    destruct (IH2 F2 P3) as [(-> & _)|K]; [congruence|].
    pose proof (ms_more _ (lit " " ++ r) (MB w k s Hw P1 (IH1 F1 P2)) (K _ SP)) as M.
    rewrite <- !app_assoc in M. exact M.
Qed.

(** ** A tree with another double is not *)

(** The text without its strings. *)
Inductive place := Out | In_string | Escaped.
Fixpoint outside (p : place) (s : bytes) : bytes :=
  match s with
  | [] => []
  | c :: r =>
      match p with
      | Out => if Strings.Byte.byte_eq_dec c quote then outside In_string r else c :: outside Out r
      | In_string => if Strings.Byte.byte_eq_dec c quote then outside Out r else if Strings.Byte.byte_eq_dec c backslash then outside Escaped r else outside In_string r
      | Escaped => outside In_string r
      end
  end.
Definition seg (s o : bytes) : Prop := forall r, outside Out (s ++ r) = o ++ outside Out r.
Definition in_str (s : bytes) : Prop := forall r, outside In_string (s ++ r) = outside In_string r.

Lemma seg_app s o s' o' : seg s o -> seg s' o' -> seg (s ++ s') (o ++ o').
Proof. intros H1 H2 r. rewrite <- app_assoc, H1, H2, app_assoc. reflexivity. Qed.
Lemma seg_plain s : Forall (fun c => c <> quote) s -> seg s s.
Proof.
  intros H r. induction H as [|c s Hc H IH]; [reflexivity|]. cbn [app outside]. destruct (Strings.Byte.byte_eq_dec c quote); [contradiction|]. rewrite IH. reflexivity.
Qed.
Lemma seg_unique s o o' : seg s o -> seg s o' -> o = o'.
Proof. intros H1 H2. specialize (H1 []). specialize (H2 []). rewrite H1 in H2. cbn [outside] in H2. rewrite !app_nil_r in H2. exact H2. Qed.
Lemma seg_quoted s : in_str s -> seg ([quote] ++ s ++ [quote]) [].
Proof. intros H r. cbn [app outside]. destruct (Strings.Byte.byte_eq_dec quote quote); [|contradiction]. rewrite <- app_assoc, H. reflexivity. Qed.
Lemma in_str_plain s : Forall (fun c => c <> quote /\ c <> backslash) s -> in_str s.
Proof.
  intros H r. induction H as [|c s [H1 H2] H IH]; [reflexivity|]. cbn [app outside].
  destruct (Strings.Byte.byte_eq_dec c quote); [contradiction|]. destruct (Strings.Byte.byte_eq_dec c backslash); [contradiction|]. exact IH.
Qed.
Lemma in_str_concat cs : Forall in_str cs -> in_str (concat cs).
Proof. intros H r. induction H as [|c cs Hc H IH]; [reflexivity|]. cbn [concat]. rewrite <- app_assoc, Hc. exact IH. Qed.

Lemma in_str_char s : char s -> in_str s.
Proof.
  assert (T : forall c, bval c <> 34 -> bval c <> 92 -> c <> quote /\ c <> backslash) by (intros c H1 H2; split; intros ->; cbn in *; lia).
  intros [c H1 H2 H3|u H|c H|a b c d Ha Hb Hc Hd].
  - apply in_str_plain. repeat constructor; assumption.
  - apply in_str_plain. unfold utf8, tail in H. destruct u as [|a [|b [|c [|d [|? ?]]]]]; try contradiction; repeat constructor; apply T; lia.
  - intros r. reflexivity.
  - assert (HP : in_str [a; b; c; d]) by (apply in_str_plain; unfold hex in *; repeat constructor; apply T; lia).
    intros r. exact (HP r).
Qed.

Lemma seg_string s : jstring s -> seg s [].
Proof. intros (cs & H & ->). apply seg_quoted, in_str_concat. eapply Forall_impl; [|exact H]. exact in_str_char. Qed.

(** JSON has no letter i and no n without a following u, outside strings. *)
Definition ci : byte := x69.
Definition cn : byte := x6e.
Definition cu : byte := x75.
Fixpoint okay (o : bytes) : bool :=
  match o with
  | [] => true
  | c :: r => if Strings.Byte.byte_eq_dec c ci then false
              else if Strings.Byte.byte_eq_dec c cn then match r with d :: _ => (if Strings.Byte.byte_eq_dec d cu then true else false) && okay r | [] => false end
              else okay r
  end.

Lemma okay_app o1 o2 : okay o1 = true -> okay o2 = true -> okay (o1 ++ o2) = true.
Proof.
  intros H1 H2. induction o1 as [|c o1 IH]; [exact H2|]. cbn [app okay] in *.
  destruct (Strings.Byte.byte_eq_dec c ci); [discriminate|]. destruct (Strings.Byte.byte_eq_dec c cn); [|exact (IH H1)].
  destruct o1 as [|d o1]; [discriminate|]. cbn [app] in *. apply andb_prop in H1 as [H1 H3]. rewrite H1. exact (IH H3).
Qed.

Lemma okay_bad o1 o2 : okay o2 = false -> okay (o1 ++ o2) = false.
Proof.
  intros H2. induction o1 as [|c o1 IH]; [exact H2|]. cbn [app okay] in *.
  destruct (Strings.Byte.byte_eq_dec c ci); [reflexivity|]. destruct (Strings.Byte.byte_eq_dec c cn); [|exact IH].
  destruct o1 as [|d o1]; cbn [app] in *.
  - destruct o2; [reflexivity|]. rewrite H2. apply andb_false_r.
  - rewrite IH. apply andb_false_r.
Qed.

Definition clean (s : bytes) : Prop := Forall (fun c => c <> quote /\ c <> ci /\ c <> cn) s.
Definition good_seg (s : bytes) : Prop := exists o, seg s o /\ okay o = true.
Lemma good_clean s : clean s -> good_seg s.
Proof.
  intros H. exists s. split; [apply seg_plain; eapply Forall_impl; [|exact H]; cbv beta; tauto|].
  induction H as [|c s (H1 & H2 & H3) H IH]; [reflexivity|]. cbn [okay]. destruct (Strings.Byte.byte_eq_dec c ci); [contradiction|]. destruct (Strings.Byte.byte_eq_dec c cn); [contradiction|]. exact IH.
Qed.
Lemma good_app s s' : good_seg s -> good_seg s' -> good_seg (s ++ s').
Proof. intros (o & H1 & H2) (o' & H3 & H4). exists (o ++ o'). split; [apply seg_app; assumption|apply okay_app; assumption]. Qed.
Lemma good_string s : jstring s -> good_seg s.
Proof. intros H. exists []. split; [exact (seg_string s H)|reflexivity]. Qed.

Lemma clean_by (P : byte -> Prop) s : (forall c, P c -> bval c <> 34 /\ bval c <> 105 /\ bval c <> 110) -> Forall P s -> clean s.
Proof.
  intros HP H. eapply Forall_impl; [|exact H]. intros c Hc. destruct (HP c Hc) as (H1 & H2 & H3). repeat split; intros ->; cbn in *; lia.
Qed.
Lemma clean_ws s : ws s -> clean s.
Proof. apply clean_by. intros c [H|[H|[H|[H|[]]]]]; lia. Qed.
Lemma clean_digits s : Forall is_digit s -> clean s.
Proof. apply clean_by. unfold is_digit. intros c H. lia. Qed.
Lemma clean_app s s' : clean s -> clean s' -> clean (s ++ s').
Proof. intros H1 H2. apply Forall_app. split; assumption. Qed.
Ltac clean_lit := repeat constructor; discriminate.

Lemma clean_number s : number s -> clean s.
Proof.
  intros (sg & i & f & e & -> & Hs & Hi & Hf & He).
  apply clean_app; [destruct Hs as [<-|[<-|[]]]; clean_lit|]. apply clean_app; [|apply clean_app].
  - destruct Hi as [->|(c & r & -> & Hc & Hr)]; [clean_lit|]. apply (clean_digits (c :: r)). constructor; [unfold is_digit; lia|exact Hr].
  - destruct Hf as [->|(d & -> & _ & Hd)]; [constructor|]. apply clean_app; [clean_lit|apply clean_digits; exact Hd].
  - destruct He as [->|(m & sg' & x & -> & Hm & Hg & _ & Hx)]; [constructor|]. apply clean_app; [|apply clean_app; [|apply clean_digits; exact Hx]].
    + destruct Hm as [<-|[<-|[]]]; clean_lit.
    + destruct Hg as [<-|[<-|[<-|[]]]]; clean_lit.
Qed.

Lemma json_good :
  (forall s, value s -> good_seg s) /\ (forall s, element s -> good_seg s) /\ (forall s, elements s -> good_seg s)
  /\ (forall s, member s -> good_seg s) /\ (forall s, members s -> good_seg s).
Proof.
  assert (L : forall s, clean s -> good_seg s) by exact good_clean. pose proof good_app as A. pose proof clean_ws as W.
  apply grammar_mut; intros.
  - destruct i as [<-|[<-|[<-|[]]]]; eexists; (split; [apply seg_plain; clean_lit|reflexivity]).
  - apply L, clean_number. assumption.
  - apply good_string. assumption.
  - apply A; [apply L; clean_lit|]. apply A; [apply L, W; assumption|apply L; clean_lit].
  - apply A; [apply L; clean_lit|]. apply A; [assumption|apply L; clean_lit].
  - apply A; [apply L; clean_lit|]. apply A; [apply L, W; assumption|apply L; clean_lit].
  - apply A; [apply L; clean_lit|]. apply A; [assumption|apply L; clean_lit].
  - apply A; [apply L, W; assumption|]. apply A; [assumption|apply L, W; assumption].
  - assumption.
  - apply A; [assumption|]. apply A; [apply L; clean_lit|assumption].
  - apply A; [apply L, W; assumption|]. apply A; [apply good_string; assumption|]. apply A; [apply L, W; assumption|].
    apply A; [apply L; clean_lit|assumption].
  - assumption.
  - apply A; [assumption|]. apply A; [apply L; clean_lit|assumption].
Qed.

(** Texts with a nan or inf. *)
Definition bad_seg (s : bytes) : Prop := exists p q, seg s (p ++ q) /\ forall r, okay (q ++ r) = false.
Definition some_seg (s : bytes) : Prop := exists o, seg s o.
Lemma some_app s s' : some_seg s -> some_seg s' -> some_seg (s ++ s').
Proof. intros (o & H) (o' & H'). exists (o ++ o'). apply seg_app; assumption. Qed.
Lemma bad_l s s' : bad_seg s -> some_seg s' -> bad_seg (s ++ s').
Proof.
  intros (p & q & H & B) (o & H'). exists p, (q ++ o). split; [rewrite app_assoc; apply seg_app; assumption|]. intros r. rewrite <- app_assoc. apply B.
Qed.
Lemma bad_r s s' : some_seg s -> bad_seg s' -> bad_seg (s ++ s').
Proof. intros (o & H') (p & q & H & B). exists (o ++ p), q. split; [rewrite <- app_assoc; apply seg_app; assumption|exact B]. Qed.

Lemma bad_not_json s : bad_seg s -> ~ json_text s.
Proof.
  intros (p & q & H & B) J. destruct json_good as (_ & JE & _). destruct (JE s J) as (o & H1 & H2).
  rewrite (seg_unique _ _ _ H1 H) in H2. specialize (B []). rewrite app_nil_r in B. rewrite (okay_bad p q B) in H2. discriminate.
Qed.

Lemma some_clean s : clean s -> some_seg s.
Proof. intros H. destruct (good_clean s H) as (o & H1 & _). exists o. exact H1. Qed.
Lemma some_word w : plain_word w -> some_seg ([quote] ++ w ++ [quote]).
Proof. intros H. exists []. exact (seg_string _ (plain_string w H)). Qed.

Lemma finite_dec bits : {finite bits} + {~ finite bits}.
Proof. unfold finite. destruct (is_finite 53 1024 (b64_of_bits bits)); [left; reflexivity|right; discriminate]. Qed.

Lemma double_some bits s : double_text bits s -> some_seg s.
Proof.
  intros H. destruct (finite_dec bits) as [F|F]; [apply some_clean, clean_number; exact (double_number _ _ F H)|].
  unfold finite, double_text in *. cbv zeta in H. destruct (is_finite 53 1024 (b64_of_bits bits)); [contradiction F; reflexivity|]. subst s.
  exists ((if Bsign 53 1024 (b64_of_bits bits) then lit "-" else []) ++ (if is_nan 53 1024 (b64_of_bits bits) then lit "nan" else lit "inf")).
  apply seg_plain. destruct (Bsign _ _ _), (is_nan _ _ _); repeat constructor; discriminate.
Qed.
Lemma double_bad bits s : ~ finite bits -> double_text bits s -> bad_seg s.
Proof.
  unfold finite, double_text. cbv zeta. intros F H. destruct (is_finite 53 1024 (b64_of_bits bits)); [contradiction F; reflexivity|]. subst s.
  exists (if Bsign 53 1024 (b64_of_bits bits) then lit "-" else []), (if is_nan 53 1024 (b64_of_bits bits) then lit "nan" else lit "inf"). split.
  - apply seg_plain. destruct (Bsign _ _ _), (is_nan _ _ _); repeat constructor; discriminate.
  - intros r. destruct (is_nan _ _ _); reflexivity.
Qed.

Lemma text_seg :
  (forall t s, text t s -> Forall plain_word (words t) -> some_seg s /\ (Exists (fun x => ~ finite x) (doubles t) -> bad_seg s))
  /\ (forall ts s, texts ts s -> Forall plain_word (flat_map words ts) -> some_seg s /\ (Exists (fun x => ~ finite x) (flat_map doubles ts) -> bad_seg s))
  /\ (forall ms s, pairs ms s -> Forall plain_word (flat_map (fun m => fst m :: words (snd m)) ms) ->
       some_seg s /\ (Exists (fun x => ~ finite x) (flat_map (fun m => doubles (snd m)) ms) -> bad_seg s)).
Proof.
  assert (WR : forall (P : Prop) l r s, clean l -> clean r -> some_seg s /\ (P -> bad_seg s) -> some_seg (l ++ s ++ r) /\ (P -> bad_seg (l ++ s ++ r))).
  { intros P l r s Hl Hr (H1 & H2). split.
    - apply some_app; [apply some_clean; exact Hl|]. apply some_app; [exact H1|apply some_clean; exact Hr].
    - intros HP. apply bad_r; [apply some_clean; exact Hl|]. apply bad_l; [exact (H2 HP)|apply some_clean; exact Hr]. }
  apply output_mut.
  - intros z s E _. split; [apply some_clean, clean_number; exact (read_int_number _ _ E)|]. intros X. inversion X.
  - intros bits s D _. split; [exact (double_some _ _ D)|]. intros X. inversion X as [? ? Y|? ? Y]; subst; [|inversion Y]. exact (double_bad _ _ Y D).
  - intros w P. split; [apply some_word; exact (Forall_inv P)|]. intros X. inversion X.
  - intros ts s _ IH P. apply WR; [clean_lit|clean_lit|exact (IH P)].
  - intros ms s _ IH P. apply WR; [clean_lit|clean_lit|exact (IH P)].
  - intros _. split; [exists []; intros r; reflexivity|]. intros X. inversion X.
  - intros t s _ IH P. cbn [flat_map] in *. rewrite app_nil_r in *. exact (IH P).
  - intros t s ts r Hn _ IH1 _ IH2 P. cbn [flat_map] in *. apply Forall_app in P as [P1 P2]. destruct (IH1 P1) as [A1 A2], (IH2 P2) as [B1 B2].
    assert (S2 : some_seg (lit ", ")) by (apply some_clean; clean_lit).
    split; [apply some_app; [exact A1|apply some_app; [exact S2|exact B1]]|]. intros X. apply Exists_app in X as [X|X].
    + apply bad_l; [exact (A2 X)|apply some_app; [exact S2|exact B1]].
    + apply bad_r; [exact A1|]. apply bad_r; [exact S2|exact (B2 X)].
  - intros _. split; [exists []; intros r; reflexivity|]. intros X. inversion X.
  - intros k t s _ IH P. cbn [flat_map fst snd] in *. rewrite app_nil_r in *. inversion P as [|? ? P1 P2]; subst. destruct (IH P2) as [A1 A2].
    assert (SK : some_seg (([quote] ++ k ++ [quote]) ++ lit ": ")) by (apply some_app; [apply some_word; exact P1|apply some_clean; clean_lit]).
    replace ([quote] ++ k ++ [quote] ++ lit ": " ++ s) with ((([quote] ++ k ++ [quote]) ++ lit ": ") ++ s) by (rewrite <- !app_assoc; reflexivity).
    split; [apply some_app; assumption|]. intros X. apply bad_r; [exact SK|exact (A2 X)].
  - intros k t s ms r Hn _ IH1 _ IH2 P. cbn [flat_map fst snd] in *. rewrite <- app_comm_cons in P. inversion P as [|? ? P1 P']; subst. apply Forall_app in P' as [P2 P3].
    destruct (IH1 P2) as [A1 A2], (IH2 P3) as [B1 B2].
    assert (SK : some_seg (([quote] ++ k ++ [quote]) ++ lit ": ")) by (apply some_app; [apply some_word; exact P1|apply some_clean; clean_lit]).
    assert (S2 : some_seg (lit ", ")) by (apply some_clean; clean_lit).
    replace ([quote] ++ k ++ [quote] ++ lit ": " ++ s ++ lit ", " ++ r) with ((([quote] ++ k ++ [quote]) ++ lit ": ") ++ s ++ lit ", " ++ r) by (rewrite <- !app_assoc; reflexivity).
    split; [apply some_app; [exact SK|apply some_app; [exact A1|apply some_app; [exact S2|exact B1]]]|]. intros X. apply bad_r; [exact SK|]. apply Exists_app in X as [X|X].
    + apply bad_l; [exact (A2 X)|apply some_app; [exact S2|exact B1]].
    + apply bad_r; [exact A1|]. apply bad_r; [exact S2|exact (B2 X)].
Qed.

Lemma text_iff t s : text t s -> Forall plain_word (words t) -> (json_text s <-> Forall finite (doubles t)).
Proof.
  intros H P. split.
  - intros J. destruct (proj1 text_seg t s H P) as [_ B]. destruct (Forall_Exists_dec _ finite_dec (doubles t)) as [F|F]; [exact F|].
    destruct (bad_not_json s (B F) J).
  - intros F. apply element_value. exact (proj1 finite_json t s H F P).
Qed.
