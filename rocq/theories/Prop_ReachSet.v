(** C65: every division can come out of a set. *)
From Verif Require Import Base BaseFacts Blob BlobSpec RunSpec RunFacts Sim Oracle Arithm StampText Galley Stamps StampsEq VectorSpec VectorUnbounded SetSpec SetFacts SetRun SetLimits
  LeafSpec TermSpec ShrinkFacts TermFacts NestFacts LotSpec ReachSetSpec ReachSet Prop_Set Prop_Math.
Local Open Scope Z_scope.

(** Any chunks of allowed sizes: the oracles that give them, then the chunks themselves.  Variated stamps may
    take 8191 bytes above their minima together; if there are several unbounded stamps, each gets at most
    65535 bytes above its minimum. *)
Theorem C65_division : forall L chunks, set_ok L -> zlen L <= 65536 -> max_extra L <= 8191 -> Forall2 within_sizes L chunks ->
  (1 < count unb L -> Forall (fun e => e <= 65535) (of_kind unb L (extras L chunks))) ->
  min_total L - sum (map fst L) + zlen (concat chunks) < 2 ^ 31 ->
  exists head, zlen head = min_total L - sum (map fst L)
    /\ forall b, holds b (head ++ concat chunks) -> cuts (set_extract L) b chunks [].
Proof.
  intros L cs HS HN HX HF HU HT. destruct (set_reach L cs HS HN HX HF HU HT) as [LD E]. unfold set_data in LD, E.
  exists (division_oracle L 65535 ++ size_oracles (count unb L) L (orcs (count unb L) L cs)).
  rewrite app_assoc, zlen_app in LD. split; [lia|]. intros b Hb. rewrite <- app_assoc in Hb.
  exact (cuts_transfer _ _ b _ cs [] (sim_set_extract L) Hb E).
Qed.
Print Assumptions C65_division.

(** ExtractStrSet, ExtractBinSet: every list of values that the stamps can give one by one. *)
Theorem C65_values : forall A (st : list (Z * Z * M blob A)) chunks vals, let L := map fst st in
  set_ok L -> zlen L <= 65536 -> max_extra L <= 8191 -> Forall2 within_sizes L chunks ->
  (1 < count unb L -> Forall (fun e => e <= 65535) (of_kind unb L (extras L chunks))) ->
  min_total L - sum (map fst L) + zlen (concat chunks) < 2 ^ 31 ->
  Forall2 (fun s wv => forall c, holds c (fst wv) -> fst (snd s c) = Ok (snd wv)) st (combine chunks vals) -> length vals = length st ->
  exists d, forall b, holds b d -> runs (ExtractSet st) b (Ok vals) [].
Proof.
  intros A st ws vals L HS HN HX HF HU HT HV Lv. destruct (C65_division L ws HS HN HX HF HU HT) as (head & _ & C).
  exists (head ++ concat ws). intros b Hb. destruct (C b Hb) as (cs & b' & E & Hw & Hc & Hb' & Er).
  exists b'. split; [|split; assumption]. unfold ExtractSet. fold L. rewrite (bind_ok _ _ _ _ _ E). unfold lift. f_equal.
  assert (Lw : length ws = length st) by (unfold L in HF; rewrite <- (map_length fst st); clear - HF; induction HF; cbn; congruence).
  clear - Hw Hc HV Lv Lw. revert cs ws vals Hw Hc HV Lv Lw. induction st as [|[s ex] st IH]; intros cs ws vals Hw <- HV Lv Lw.
  - destruct cs; [|discriminate]. destruct vals; [|discriminate]. reflexivity.
  - destruct cs as [|c cs]; [discriminate|]. destruct vals as [|v vals]; [discriminate|]. cbn [map combine] in HV. inversion HV as [|? ? ? ? V1 V2]; subst.
    cbn [stamp_zip map snd]. cbn [fst snd] in V1. rewrite (V1 c) by (split; [exact (Forall_inv Hw)|reflexivity]). cbn [rbind].
    rewrite (IH cs (map content cs) vals (Forall_inv_tail Hw) eq_refl V2) by (cbn in *; lia). reflexivity.
Qed.
Print Assumptions C65_values.

(** Binary operators in any graph: every pair of texts that the operands can give. *)
Theorem C65_operands : forall (h : heap blob) op x y s1 s2 w1 w2 t1 t2, tame_graph h x -> tame_graph h y ->
  report h x s1 -> report h y s2 -> set_ok [s1; s2] -> max_extra [s1; s2] <= 8191 ->
  within_sizes s1 w1 -> within_sizes s2 w2 -> (snd s1 = -1 -> snd s2 = -1 -> zlen w1 - fst s1 <= 65535 /\ zlen w2 - fst s2 <= 65535) ->
  zlen w1 + zlen w2 + 6 < 2 ^ 31 ->
  (forall c, holds c w1 -> fst (ExtractStr h x c) = Ok t1) -> (forall c, holds c w2 -> fst (ExtractStr h y c) = Ok t2) ->
  exists d, forall b, holds b d ->
    runs (ExtractStr h (XBinary op x y)) b (Ok (lit "(" ++ t1 ++ lit " " ++ op ++ lit " " ++ t2 ++ lit ")")) [].
Proof.
  intros h op x y [mn1 mx1] [mn2 mx2] w1 w2 t1 t2 Tx Ty [R1 R2] [R3 R4] HS HX F1 F2 HU HT G1 G2. cbn [fst snd] in *.
  set (L := [(mn1, mx1); (mn2, mx2)]) in *.
  assert (MT : min_total L - sum (map fst L) <= 6).
  { unfold min_total. assert (count var L + count unb L <= 2).
    { destruct HS as (HL & _). pose proof (Forall_inv HL) as H1. pose proof (Forall_inv (Forall_inv_tail HL)) as H2.
      unfold L. rewrite !count_cons. change (count var []) with 0. change (count unb []) with 0.
      destruct (kind_cases _ H1) as [(_ & A & B & _)|[(_ & A & B & _)|(_ & A & B & _)]]; destruct (kind_cases _ H2) as [(_ & C & D & _)|[(_ & C & D & _)|(_ & C & D & _)]];
        rewrite A, B, C, D; lia. }
    pose proof (count_nonneg var L). pose proof (count_nonneg unb L).
    destruct (1 <? count unb L); destruct (both L); lia. }
  destruct (C65_division L [w1; w2] HS ltac:(change (zlen L) with 2; lia) HX) as (head & _ & C).
  - constructor; [exact F1|constructor; [exact F2|constructor]].
  - intros C1. unfold L in C1. rewrite !count_cons in C1. change (count unb []) with 0 in C1.
    destruct (unb (mn1, mx1)) eqn:U1; destruct (unb (mn2, mx2)) eqn:U2; try lia.
    change (extras L [w1; w2]) with [zlen w1 - mn1; zlen w2 - mn2]. unfold L. rewrite !of_kind_cons, U1, U2, of_kind_nil.
    unfold unb in U1, U2. cbn [snd] in U1, U2. destruct (HU ltac:(lia) ltac:(lia)) as [K1 K2]. repeat constructor; assumption.
  - cbn [concat]. rewrite app_nil_r, zlen_app. lia.
  - exists (head ++ concat [w1; w2]). intros b Hb. destruct (C b Hb) as (cs & b' & E & Hw & Hc & Hb' & Er).
    destruct cs as [|c1 [|c2 [|]]]; try discriminate. cbn [map] in Hc. injection Hc as Q1 Q2.
    exists b'. split; [|split; assumption]. apply C40_binary; [exact Tx|exact Ty|exact (proj1 Hb)|].
    exists mn1, mx1, mn2, mx2, c1, c2, t1, t2. do 5 (split; [assumption|]).
    split; [apply G1; split; [exact (Forall_inv Hw)|exact Q1]|]. split; [apply G2; split; [exact (Forall_inv (Forall_inv_tail Hw))|exact Q2]|].
    reflexivity.
Qed.
Print Assumptions C65_operands.

(** Sets in any graph. *)
Theorem C65_set_stamp : forall (h : heap blob) j xs L chunks texts, Forall (tame_graph h) xs -> sizes_of h xs = Ok L ->
  set_ok L -> zlen L <= 65536 -> max_extra L <= 8191 -> Forall2 within_sizes L chunks ->
  (1 < count unb L -> Forall (fun e => e <= 65535) (of_kind unb L (extras L chunks))) ->
  min_total L - sum (map fst L) + zlen (concat chunks) < 2 ^ 31 ->
  Forall2 (fun y wt => forall c, holds c (fst wt) -> fst (ExtractStr h y c) = Ok (snd wt)) xs (combine chunks texts) -> length texts = length chunks ->
  exists d, forall b, holds b d -> runs (ExtractStr h (XSet j xs)) b (Ok (j texts)) [].
Proof.
  intros h j xs L ws texts T EL HS HN HX HF HU HT HV Lt. destruct (C65_division L ws HS HN HX HF HU HT) as (head & _ & C).
  exists (head ++ concat ws). intros b Hb. destruct (C b Hb) as (cs & b' & E & Hw & Hc & Hb' & Er).
  assert (Sb : small (Size b) b) by (split; [exact (proj1 Hb)|lia]).
  pose proof (proj2 (shr_set (Size b) L b Sb) cs) as Sc. rewrite E in Sc. specialize (Sc eq_refl).
  exists b'. split; [|split; assumption]. unfold ExtractStr. rewrite extract_set. rewrite (bind_lift_ok _ _ _ _ EL). rewrite (bind_ok _ _ _ _ _ E).
  rewrite (bind_lift_ok _ _ _ texts); [reflexivity|].
  clear - Hw Hc HV Lt T Sc. revert cs ws texts Hw Hc HV Lt Sc. induction T as [|y xs Ty T IH]; intros cs ws texts Hw <- HV Lt Sc.
  - destruct cs as [|c cs]; [|destruct texts; [discriminate|inversion HV]]. destruct texts; [|discriminate]. reflexivity.
  - destruct cs as [|c cs]; [inversion HV|]. destruct texts as [|t texts]; [discriminate|]. cbn [map combine] in HV. inversion HV as [|? ? ? ? V1 V2]; subst.
    cbn [stamp_zip map snd]. cbn [fst snd] in V1. rewrite (tame_agree h y b c Ty (Forall_inv Sc)).
    rewrite (V1 c) by (split; [exact (Forall_inv Hw)|reflexivity]). cbn [rbind].
    rewrite (IH cs (map content cs) texts (Forall_inv_tail Hw) eq_refl V2) by (first [exact (Forall_inv_tail Sc)|cbn in *; lia]). reflexivity.
Qed.
Print Assumptions C65_set_stamp.

(** The limit is not idle: a stamp of 0 to 131070 bytes gets an odd number of them only if they are all there is. *)
Theorem C65_gap : forall b l c rest, holds b l -> zlen l < 2 ^ 31 -> cuts (set_extract [(0, 131070)]) b [c] rest ->
  zlen c mod 2 = 1 -> rest = [].
Proof.
  intros b l c rest Hb Hl (cs & b' & E & Hw & Hc & Hb' & Er) Hodd. set (L := [(0, 131070)]) in *.
  assert (HS : set_ok L) by (split; [repeat constructor; cbn; lia|split; reflexivity]).
  assert (M : min_total L <= zlen l).
  { destruct (Z_lt_le_dec (zlen l) (min_total L)) as [Q|Q]; [|exact Q].
    destruct (C22_refuse L b l HS Hb Q) as (b2 & E2 & _). rewrite E in E2. discriminate. }
  destruct (C25_layout L l HS M) as (o0 & os & r & El & O0 & Os & Lo & Hr).
  destruct os as [|o [|]]; try discriminate. change (sum (map fst L)) with 0 in Hr.
  destruct (Z.eq_dec o 0) as [Z0|Z0].
  { exfalso. refine (C25_never L b o0 [o] r HS ltac:(change (zlen L) with 1; lia) O0 Os eq_refl Hr _ _ _ _ cs _).
    - rewrite <- El. exact Hb.
    - rewrite <- El. exact Hl.
    - reflexivity.
    - repeat constructor. exact Z0.
    - rewrite E. reflexivity. }
  destruct (C26_division L b o0 [o] r HS ltac:(change (zlen L) with 1; lia) O0 Os eq_refl Hr) as (ch & rst & Fv & Fu & C & SC & _).
  { rewrite <- El. exact Hb. } { rewrite <- El. exact Hl. } { constructor. exact Z0. } { left. change (count var L) with 1. lia. } { left. change (count unb L) with 0. lia. }
  rewrite <- El in SC. destruct C as (cs2 & b2 & E2 & _ & C2 & _ & R2). rewrite E in E2. injection E2 as <- <-. subst ch. rewrite Hc in SC.
  assert (rst = rest) as -> by congruence. clear R2.
  destruct SC as [_ _ _ SV _ _ _ [_ ST] [SA SR]]. change (0 <? count unb L) with false in SR. cbv iota in SR.
  unfold limit in ST. change (both L) with false in ST. cbv iota zeta in ST. change (max_extra L) with 131070 in ST.
  change (var_weights L [o]) with [131070 * o] in *. change (of_kind var L (extras L [c])) with [zlen c - 0] in SV.
  pose proof (Forall_inv Os) as Oo. unfold oracle16 in Oo.
  assert (FV : zlen c = Fv).
  { assert (fair Fv [131070 * o] [zlen c - 0]) as SV' by exact SV. assert (P : 0 < sum [131070 * o]) by (change (sum [131070 * o]) with (131070 * o + 0); lia).
    rewrite <- (fair_sum _ _ _ P SV'). change (sum [zlen c - 0]) with (zlen c - 0 + 0). lia. }
  change (sum [131070 * o]) with (131070 * o + 0) in ST.
  apply zlen_0_nil. rewrite SR. subst Fv. clear - ST Hodd SA Oo Hl.
  assert (V : avail L l < 2 ^ 31) by (unfold avail; change (min_total L) with 2; lia).
  set (a := avail L l) in *. clearbody a. set (z := zlen c) in *. clearbody z.
  pose proof (Z.div_mod z 2 ltac:(lia)) as D. lia.
Qed.
Print Assumptions C65_gap.

(** A fixed, two variated and two unbounded stamps: the chunks "ab", "", "cde", "f" and "ghij"; the limits hold. *)
Definition five := [(2, 2); (0, 3); (1, 4); (0, -1); (1, -1)].
Example C65_case :
  set_ok five /\ max_extra five <= 8191 /\ Forall2 within_sizes five [lit "ab"; lit ""; lit "cde"; lit "f"; lit "ghij"]
  /\ cuts (set_extract five) (blob_of (le16 65535 ++ le16 1 ++ le16 43690 ++ le16 1 ++ le16 3 ++ lit "abcdefghij")) [lit "ab"; lit ""; lit "cde"; lit "f"; lit "ghij"] []
  /\ cuts (set_extract [(0, 131070)]) (blob_of (le16 65535 ++ lit "abc")) [lit "abc"] [].
Proof.
  split; [|split; [|split; [|split]]].
  - split; [repeat constructor; cbn; lia|split; reflexivity].
  - discriminate.
  - repeat constructor; cbn; lia.
  - refine (cuts_transfer _ _ _ _ _ _ (sim_set_extract five) (holds_blob_of _ _) _); [reflexivity|vm_compute; reflexivity].
  - refine (cuts_transfer _ _ _ _ _ _ (sim_set_extract _) (holds_blob_of _ _) _); [reflexivity|vm_compute; reflexivity].
Qed.
