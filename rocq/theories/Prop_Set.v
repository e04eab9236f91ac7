(** C22-C26: how GalleySet divides its data. *)
From Verif Require Import Base BaseFacts Blob BlobSpec RunSpec RunFacts Sim Oracle Arithm Galley
  VectorSpec VectorFacts VectorUnbounded SetSpec SetFacts SetRun SetLimits.
Local Open Scope Z_scope.

(** C22.  minSize(), and OutOfData with nothing consumed exactly below it. *)
Theorem C22_minSize : forall L, set_ok L -> SetMinSize L = Ok (min_total L).
Proof. intros L (HL & Hm & _). apply SetMinSize_run; assumption. Qed.
Print Assumptions C22_minSize.

Theorem C22_short : forall L b l, set_ok L -> zlen L <= 65536 -> holds b l -> zlen l < 2 ^ 31 ->
  (runs (set_extract L) b OutOfData l <-> zlen l < min_total L).
Proof.
  intros L b l HS HN Hb Hl. split.
  - intros (b' & E & Hw & Hc). destruct (Z_lt_le_dec (zlen l) (min_total L)) as [C|C]; [exact C|exfalso].
    apply (set_not_short L l HS HN ltac:(lia)).
    destruct (sim_set_extract L b l (holds_rel b l Hb)) as (Hr & _ & _ & Hc'). rewrite E in Hr, Hc'. cbn [fst snd cont BlobBlobLaws ListLaws] in Hr, Hc'.
    destruct (set_extract L l) as [[v| | | |] l'] eqn:Q; cbn in Hr; try tauto. cbn [snd] in Hc'. rewrite <- Hc', Hc. reflexivity.
  - intros C. exact (cuts_transfer_fail _ _ _ b l l (sim_set_extract L) Hb (set_short L l HS C)).
Qed.
Print Assumptions C22_short.

(** No matter how many stamps, how large the blob: short input is refused. *)
Theorem C22_refuse : forall L b l, set_ok L -> holds b l -> zlen l < min_total L -> runs (set_extract L) b OutOfData l.
Proof.
  intros L b l HS Hb C. exact (cuts_transfer_fail _ _ _ b l l (sim_set_extract L) Hb (set_short L l HS C)).
Qed.
Print Assumptions C22_refuse.

(** What ExtractStrSet and ExtractBinSet return: stamp i applied to chunk i. *)
Theorem C23_values : forall A (st : list (Z * Z * M blob A)) (values : list (bytes -> A)) b chunks rest,
  cuts (set_extract (map fst st)) b chunks rest -> length chunks = length st ->
  Forall2 (fun s v => forall c w, In w chunks -> holds c w -> fst (snd s c) = Ok (v w)) st values ->
  runs (ExtractSet st) b (Ok (map (fun vc => fst vc (snd vc)) (combine values chunks))) rest.
Proof.
  intros A st values b chunks rest (cs & b' & E & Hw & Hc & Hb & Hr) Len Hex.
  exists b'. split; [|split; assumption]. unfold ExtractSet. rewrite (bind_ok _ _ _ _ _ E).
  unfold lift. f_equal. clear E. revert cs chunks values Hw Hc Len Hex.
  induction st as [|[[mn mx] ex] st IH]; intros cs chunks values Hw Hc Len Hex.
  - inversion Hex. destruct cs; [reflexivity|]. cbn in Hc. subst chunks. discriminate Len.
  - inversion Hex as [|? v ? vs H1 H2]. subst. destruct cs as [|c cs]; [discriminate Len|]. cbn [map] in *.
    cbn [stamp_zip map combine snd fst]. pose proof (Forall_inv Hw) as W. apply Forall_inv_tail in Hw.
    cbn [snd] in H1. rewrite (H1 c (content c)); [|left; reflexivity|split; [exact W|reflexivity]]. cbn [rbind].
    rewrite (IH cs (map content cs) vs Hw eq_refl); [reflexivity|cbn in Len; lia|].
    clear - H2. induction H2 as [|s v st vs H H2 IH]; constructor; [|exact IH].
    intros c' w Hi. apply H. right. exact Hi.
Qed.
Print Assumptions C23_values.

(** C23.  No variated stamps.  [set_cut] is the description in SetSpec.v. *)
Theorem C23_division : forall L b l, set_ok L -> zlen L <= 65536 -> count var L = 0 -> roomy unb L ->
  holds b l -> min_total L <= zlen l < 2 ^ 31 ->
  exists o0 os chunks rest Fv Fu, cuts (set_extract L) b chunks rest /\ set_cut L l o0 os chunks rest Fv Fu
    /\ (0 < count unb L -> rest = [])
    /\ (forall s c, In (s, c) (combine L chunks) -> fixed s = true -> zlen c = fst s)
    /\ (forall s c, In (s, c) (combine L chunks) -> unb s = true -> fst s - 1 <= zlen c)
    /\ (forall e es, of_kind unb L (extras L chunks) = e :: es -> 0 <= e)
    /\ (forall e es, of_kind unb L (extras L chunks) = es ++ [e] -> 0 <= e).
Proof.
  intros L b l HS HN HV HR Hb Hl. pose proof HS as (HL & Hm & HX). pose proof (count_nonneg unb L) as U0.
  destruct (layout_ex L l HL ltac:(lia)) as (o0 & os & r & El & Ho0 & Ho & E & Hr).
  destruct (set_cut_run L o0 os r HS HN Ho0 Ho E Hr ltac:(rewrite <- El; lia) (or_introl HV) ltac:(left; lia) HR) as (cs & rest & Fv & Fu & X & C).
  rewrite <- El in C. assert (X' : set_extract L l = (Ok cs, rest)) by (rewrite El; exact X).
  exists o0, os, cs, rest, Fv, Fu. split; [exact (cuts_transfer _ _ b l cs rest (sim_set_extract L) Hb X')|]. split; [exact C|].
  pose proof C as [_ _ _ _ CU _ _ [CT _] [CA CR]].
  assert (A0 : 0 <= avail L l) by (unfold avail; lia).
  assert (FV : Fv = 0).
  { destruct (weights_empty L os HV E) as [_ M0]. unfold limit in CT. rewrite M0 in CT.
    assert (both L = false) as B0 by (unfold both; rewrite HV; reflexivity). rewrite B0 in CT. lia. }
  assert (FU : 0 <= Fu) by lia.
  split; [intros H; destruct (0 <? count unb L) eqn:Q; [apply zlen_0_nil; exact CR|lia]|].
  split; [exact (cut_fixed_size _ _ _ _ _ _ _ _ C)|]. split; [exact (cut_unb_size _ _ _ _ _ _ _ _ HS HN C FU)|].
  destruct (unb_mods L os HL Ho E HN) as (_ & _ & _ & q & _ & _ & Wn & Ws & _).
  assert (Lc : zlen (of_kind unb L (extras L cs)) = count unb L).
  { apply of_kind_len. unfold extras. rewrite map_length, combine_length. destruct C as [_ (_ & _ & _ & C5) _ _ _ _ _ _ _]. lia. }
  split; intros e es H; rewrite H in CU, Lc.
  - rewrite zlen_cons in Lc. pose proof (zlen_nonneg es). apply (fair_first Fu _ e es FU Wn ltac:(specialize (Ws ltac:(lia)); lia) CU).
  - rewrite zlen_app in Lc. pose proof (zlen_nonneg es). change (zlen [e]) with 1 in Lc. apply (fair_last Fu _ e es FU Wn ltac:(specialize (Ws ltac:(lia)); lia) CU).
Qed.
Print Assumptions C23_division.

(** Without the condition on minimal sizes the only other outcome is OutOfData. *)
Theorem C23_otherwise : forall L b l, set_ok L -> zlen L <= 65536 -> count var L = 0 ->
  holds b l -> min_total L <= zlen l < 2 ^ 31 ->
  (exists o0 os chunks rest Fv Fu, cuts (set_extract L) b chunks rest /\ set_cut L l o0 os chunks rest Fv Fu)
  \/ (~ roomy unb L /\ exists rest, runs (set_extract L) b OutOfData rest).
Proof.
  intros L b l HS HN HV Hb Hl. pose proof HS as (HL & Hm & HX).
  destruct (layout_ex L l HL ltac:(lia)) as (o0 & os & r & El & Ho0 & Ho & E & Hr).
  destruct (set_cut_or L o0 os r HS HN Ho0 Ho E Hr ltac:(rewrite <- El; lia) (or_introl HV)) as [(cs & rest & Fv & Fu & X & C)|(rest & X & R)].
  - left. rewrite <- El in C. assert (X' : set_extract L l = (Ok cs, rest)) by (rewrite El; exact X).
    exists o0, os, cs, rest, Fv, Fu. split; [exact (cuts_transfer _ _ b l cs rest (sim_set_extract L) Hb X')|exact C].
  - right. split; [intros R2; apply R; split; [left; lia|exact R2]|]. exists rest.
    assert (X' : set_extract L l = (OutOfData, rest)) by (rewrite El; exact X).
    exact (cuts_transfer_fail _ _ _ b l rest (sim_set_extract L) Hb X').
Qed.
Print Assumptions C23_otherwise.

(** C24.  2q+1 bytes to distribute among three unbounded stamps with oracles 65535, 0, 65535. *)
Theorem C24_one_byte_short : forall bl x y z q r, 0 <= x -> 1 <= y -> 0 <= z -> 0 <= q ->
  zlen r = x + y + z + (2 * q + 1) -> zlen r + 6 < 2 ^ 31 ->
  holds bl (le16 65535 ++ le16 0 ++ le16 65535 ++ r) ->
  exists c1 c2 c3, r = c1 ++ c2 ++ c3 /\ zlen c1 = x + (q + 1) /\ zlen c2 = y - 1 /\ zlen c3 = z + (q + 1)
    /\ cuts (set_extract [(x, -1); (y, -1); (z, -1)]) bl [c1; c2; c3] [].
Proof.
  intros bl x y z q r Hx Hy Hz Hq Hr Hl Hb.
  destruct (cut_ex [q + 1 + x; -1 + y; q + 1 + z] r) as (cs & rest & Er & Em).
  { repeat apply Forall_cons; try apply Forall_nil; lia. }
  { rewrite !sum_cons. cbn [sum fold_right]. lia. }
  assert (rest = []) as ->.
  { apply zlen_0_nil. assert (H : zlen r = zlen (concat cs) + zlen rest) by (rewrite Er, zlen_app; reflexivity).
    rewrite concat_sum, Em, !sum_cons in H. change (sum []) with 0 in H. lia. }
  destruct cs as [|c1 [|c2 [|c3 [|]]]]; try discriminate Em. cbn [map] in Em. injection Em as E1 E2 E3. change (zlen c2 = -1 + y) in E2.
  exists c1, c2, c3. split; [rewrite Er; cbn [concat]; rewrite !app_nil_r; reflexivity|]. split; [lia|]. split; [lia|]. split; [lia|].
  apply (cuts_transfer _ _ bl _ _ _ (sim_set_extract _) Hb).
  apply (eq_trans (three_unbounded x y z q r Hx ltac:(lia) Hz Hq Hr Hl)). rewrite Er.
  apply chop_all_run; [repeat apply Forall_cons; try apply Forall_nil; lia|].
  cbn [map]. rewrite E1, E2, E3. reflexivity.
Qed.
Print Assumptions C24_one_byte_short.

Theorem C24_refused : forall bl x z q r, 0 <= x -> 0 <= z -> 0 <= q ->
  zlen r = x + 0 + z + (2 * q + 1) -> zlen r + 6 < 2 ^ 31 ->
  holds bl (le16 65535 ++ le16 0 ++ le16 65535 ++ r) ->
  (exists rest, runs (set_extract [(x, -1); (0, -1); (z, -1)]) bl OutOfData rest)
  /\ min_total [(x, -1); (0, -1); (z, -1)] + (2 * q + 1) = zlen (le16 65535 ++ le16 0 ++ le16 65535 ++ r).
Proof.
  intros bl x z q r Hx Hz Hq Hr Hl Hb. split.
  - destruct (chop_all_neg [q + 1 + x; -1 + 0; q + 1 + z]) with (r := r) as (rest & E); try lia.
    + repeat apply Forall_cons; try apply Forall_nil; unfold in_int; lia.
    + apply Exists_cons_tl, Exists_cons_hd. lia.
    + exists rest. apply (cuts_transfer_fail _ _ _ bl _ _ (sim_set_extract _) Hb).
      apply (eq_trans (three_unbounded x 0 z q r Hx ltac:(lia) Hz Hq Hr Hl)). exact E.
  - rewrite !zlen_app. change (zlen (le16 65535)) with 2. change (zlen (le16 0)) with 2.
    rewrite three_total by lia. lia.
Qed.
Print Assumptions C24_refused.

(** Every blob of at least minSize() bytes starts with the oracles. *)
Theorem C25_layout : forall L l, set_ok L -> min_total L <= zlen l ->
  exists o0 os r, l = division_oracle L o0 ++ size_oracles (count unb L) L os ++ r
    /\ oracle16 o0 /\ Forall oracle16 os /\ length os = length L /\ sum (map fst L) <= zlen r.
Proof. intros L l (HL & _) Hl. exact (layout_ex L l HL Hl). Qed.
Print Assumptions C25_layout.

(** C25.  The oracles of all variated stamps are zero. *)
Theorem C25_undefined : forall L b o0 os r, set_ok L -> zlen L <= 65536 -> oracle16 o0 -> Forall oracle16 os -> length os = length L ->
  sum (map fst L) <= zlen r ->
  let l := division_oracle L o0 ++ size_oracles (count unb L) L os ++ r in
  holds b l -> zlen l < 2 ^ 31 -> 0 < count var L -> Forall (fun o => o = 0) (of_kind var L os) -> roomy unb L ->
  fst (set_extract L b) = UB.
Proof.
  intros L b o0 os r HS HN Ho0 Ho E Hr l Hb Hl HV HZ HR.
  apply (run_transfer_ub _ _ _ b l (sim_set_extract L) Hb).
  refine (proj2 (set_zero L o0 os r HS HN Ho0 Ho E Hr Hl HV _) HR). exact (zero_weights L os E HZ).
Qed.
Print Assumptions C25_undefined.

(** Whatever the minimal sizes: no result. *)
Theorem C25_never : forall L b o0 os r, set_ok L -> zlen L <= 65536 -> oracle16 o0 -> Forall oracle16 os -> length os = length L ->
  sum (map fst L) <= zlen r ->
  let l := division_oracle L o0 ++ size_oracles (count unb L) L os ++ r in
  holds b l -> zlen l < 2 ^ 31 -> 0 < count var L -> Forall (fun o => o = 0) (of_kind var L os) ->
  forall cs, fst (set_extract L b) <> Ok cs.
Proof.
  intros L b o0 os r HS HN Ho0 Ho E Hr l Hb Hl HV HZ cs X.
  pose proof (proj1 (set_zero L o0 os r HS HN Ho0 Ho E Hr Hl HV (zero_weights L os E HZ))) as N. fold l in N.
  destruct (sim_set_extract L b l (holds_rel b l Hb)) as (Hr' & _). rewrite X in Hr'.
  destruct (fst (set_extract L l)) as [v| | | |] eqn:Q; cbn in Hr'; try tauto. exact (N v eq_refl).
Qed.
Print Assumptions C25_never.

(** C26.  Variated stamps, not all of their oracles zero. *)
Theorem C26_division : forall L b o0 os r, set_ok L -> zlen L <= 65536 -> oracle16 o0 -> Forall oracle16 os -> length os = length L ->
  sum (map fst L) <= zlen r ->
  let l := division_oracle L o0 ++ size_oracles (count unb L) L os ++ r in
  holds b l -> zlen l < 2 ^ 31 -> Exists (fun o => o <> 0) (of_kind var L os) -> roomy var L -> roomy unb L ->
  exists chunks rest Fv Fu, cuts (set_extract L) b chunks rest /\ set_cut L l o0 os chunks rest Fv Fu
    /\ (forall s c, In (s, c) (combine L chunks) -> var s = true -> fst s - 1 <= zlen c <= snd s + 1)
    /\ (forall s c, In (s, c) (combine L chunks) -> fixed s = true -> zlen c = fst s)
    /\ (forall s c, In (s, c) (combine L chunks) -> unb s = true -> fst s - 1 <= zlen c)
    /\ (0 < count unb L -> rest = [])
    /\ (forall mx, count unb L = 0 -> SetMaxSize L = Ok mx -> sum (map snd L) + 2 * count var L < 2 ^ 31 ->
        zlen l - zlen rest <= mx).
Proof.
  intros L b o0 os r HS HN Ho0 Ho E Hr l Hb Hl HE R1 R2. pose proof HS as (HL & Hm & HX). pose proof (count_nonneg unb L) as U0.
  pose proof (weights_pos L os HL Ho E HE) as W.
  destruct (set_cut_run L o0 os r HS HN Ho0 Ho E Hr Hl (or_intror W) R1 R2) as (cs & rest & Fv & Fu & X & C). fold l in X, C.
  exists cs, rest, Fv, Fu. split; [exact (cuts_transfer _ _ b l cs rest (sim_set_extract L) Hb X)|]. split; [exact C|].
  pose proof (avail_range L o0 os r HS E Hr Hl) as [EA RA]. fold l in EA, RA.
  pose proof (limit_range L l o0 Ho0 RA) as LR.
  pose proof C as [_ _ _ _ CU _ _ [CT _] [CA CR]].
  assert (FU : 0 <= Fu) by lia.
  split; [exact (cut_var_size _ _ _ _ _ _ _ _ HS C W)|]. split; [exact (cut_fixed_size _ _ _ _ _ _ _ _ C)|].
  split; [exact (cut_unb_size _ _ _ _ _ _ _ _ HS HN C FU)|].
  split; [intros H; destruct (0 <? count unb L) eqn:Q; [apply zlen_0_nil; exact CR|lia]|].
  intros mx HU HM Hs. rewrite (SetMaxSize_run L HL HU Hs) in HM. apply (f_equal (fun x => match x with Ok v => v | _ => 0 end)) in HM. cbv beta iota in HM. rewrite <- HM.
  rewrite (max_total L HL HU). rewrite HU in CR. change (0 <? 0) with false in CR. cbv iota in CR. unfold avail in *.
  assert (MT : min_total L = sum (map fst L) + 2 * count var L).
  { unfold min_total, both. rewrite HU. change (0 <? 0) with false. change (1 <? 0) with false. rewrite andb_false_r. cbv iota. 
    rewrite !Z.add_0_r. reflexivity. }
  clear - MT LR CT CA CR. lia.
Qed.
Print Assumptions C26_division.

Theorem C26_otherwise : forall L b o0 os r, set_ok L -> zlen L <= 65536 -> oracle16 o0 -> Forall oracle16 os -> length os = length L ->
  sum (map fst L) <= zlen r ->
  let l := division_oracle L o0 ++ size_oracles (count unb L) L os ++ r in
  holds b l -> zlen l < 2 ^ 31 -> Exists (fun o => o <> 0) (of_kind var L os) ->
  (exists chunks rest Fv Fu, cuts (set_extract L) b chunks rest /\ set_cut L l o0 os chunks rest Fv Fu)
  \/ (~ (roomy var L /\ roomy unb L) /\ exists rest, runs (set_extract L) b OutOfData rest).
Proof.
  intros L b o0 os r HS HN Ho0 Ho E Hr l Hb Hl HE. pose proof HS as (HL & Hm & HX).
  pose proof (weights_pos L os HL Ho E HE) as W.
  destruct (set_cut_or L o0 os r HS HN Ho0 Ho E Hr Hl (or_intror W)) as [(cs & rest & Fv & Fu & X & C)|(rest & X & R)]; fold l in X.
  - left. exists cs, rest, Fv, Fu. split; [exact (cuts_transfer _ _ b l cs rest (sim_set_extract L) Hb X)|exact C].
  - right. split; [exact R|]. exists rest. exact (cuts_transfer_fail _ _ _ b l rest (sim_set_extract L) Hb X).
Qed.
Print Assumptions C26_otherwise.

(** ** Cases *)
Definition mixed := [(2, 2); (1, 5); (1, -1); (0, -1)].

Example C22_case : set_ok mixed /\ min_total mixed = 12 /\ SetMinSize mixed = Ok 12.
Proof.
  split; [|split; reflexivity]. split; [|split; reflexivity].
  repeat apply Forall_cons; try apply Forall_nil; split; cbn; lia.
Qed.

(** 2 fixed bytes, then 1 and 3 parts of 8 above the minima 1 and 0. *)
Example C23_case : set_extract [(2, 2); (1, -1); (0, -1)] (le16 10000 ++ le16 30000 ++ lit "abcdefghijk")
  = (Ok [lit "ab"; lit "cde"; lit "fghijk"], [])
  /\ roomy unb [(2, 2); (1, -1); (0, -1)].
Proof. split; [vm_compute; reflexivity|left; vm_compute; discriminate]. Qed.

Example C24_case : set_extract [(0, -1); (1, -1); (0, -1)] (le16 65535 ++ le16 0 ++ le16 65535 ++ lit "abcd")
  = (Ok [lit "ab"; []; lit "cd"], [])
  /\ fst (set_extract [(0, -1); (0, -1); (0, -1)] (le16 65535 ++ le16 0 ++ le16 65535 ++ lit "abc")) = OutOfData.
Proof. vm_compute. split; reflexivity. Qed.

Example C25_case : fst (set_extract [(1, 5)] (le16 0 ++ lit "abcdefgh")) = UB
  /\ Forall (fun o => o = 0) (of_kind var [(1, 5)] [0]) /\ 0 < count var [(1, 5)].
Proof. vm_compute. repeat split. repeat constructor. Qed.

(** Half of 11 bytes may go to the variated stamps; the oracles ask for 4 of 4 and 2 of 4. *)
Example C26_case : let L := [(1, 5); (2, 6); (1, -1)] in
  let l := le16 32768 ++ le16 65535 ++ le16 32768 ++ lit "abcdefghijklmno" in
  set_extract L l = (Ok [lit "abcde"; lit "fghi"; lit "jklmno"], [])
  /\ l = division_oracle L 32768 ++ size_oracles (count unb L) L [65535; 32768; 0] ++ lit "abcdefghijklmno"
  /\ Exists (fun o => o <> 0) (of_kind var L [65535; 32768; 0]).
Proof. vm_compute. repeat split. apply Exists_cons_hd. discriminate. Qed.
