(** The recursion of t/320-galley-recursion-experiments.cpp. *)
From Verif Require Import Base BaseFacts Blob BlobSpec BlobFacts RunSpec RunFacts Sim ArithSpec Fmt Arithm ArithFacts Prop_Blob Prop_Arithm VectorSpec SetFacts
  ShapeFacts FormulaSpec FormulaFacts PointsFacts Experiment ExperimentSpec ExperimentFacts.
Local Open Scope Z_scope.

Lemma pick_node1 c : 0 <= c <= 255 -> exists i op, VariantPicker [node1] c = Ok (0%nat, [mkVariants 5 i true]) /\ 0 <= i < 5
  /\ (i = 0 \/ 51 * i < c) /\ c <= 51 * (i + 1) /\ nth_error operations (Z.to_nat i) = Some op /\ In op five_operators.
Proof.
  intros Hc. assert (T : total_offers [node1] = 5) by reflexivity.
  destruct (pick_exact [node1] c) as (k & i & vs' & E & S & O & L & U); [constructor; [cbn; lia|constructor]|rewrite T; lia|rewrite T; exists 51; reflexivity|exact Hc|].
  rewrite T in *. destruct O as (v & Ev & Hi). destruct k as [|k]; [|destruct k; discriminate Ev]. injection Ev as <-. change (offers node1) with 5 in Hi.
  change (offers_before [node1] 0) with 0 in *. cbn [Z.add] in *.
  destruct S as (S1 & (v & S2 & S3) & _). injection S2 as <-. destruct vs' as [|w [|w2 vs']]; try discriminate S1. injection S3 as ->.
  assert (Io : exists op, nth_error operations (Z.to_nat i) = Some op /\ In op five_operators).
  { assert (D : i = 0 \/ i = 1 \/ i = 2 \/ i = 3 \/ i = 4) by lia.
    destruct D as [->|[->|[->|[->| ->]]]]; eexists; (split; [reflexivity|]); cbn; tauto. }
  destruct Io as (op & Io1 & Io2). exists i, op. split; [exact E|]. split; [exact Hi|]. split; [lia|]. split; [lia|]. split; assumption.
Qed.

Lemma uchar_head b c r : holds b (c :: r) -> exists n, 0 <= n <= 255 /\ represents UChar n [c] /\ runs (ExtractValue UChar) b (Ok n) r.
Proof.
  intros Hb. destruct (C06_extract UChar b (c :: r) ltac:(repeat split; discriminate) Hb) as (v & E & R & V & _).
  { rewrite zlen_cons. pose proof (zlen_nonneg r). cbn. lia. }
  exists v. split; [exact V|]. split; [exact R|exact E].
Qed.

Lemma fit_two spl N : 0 <= spl <= 65535 -> 0 <= N < 2 ^ 31 ->
  exists x, 0 <= x <= N /\ fit_sizes [spl; u32 (65535 - spl)] N = Ok [x; N - x] /\ 8 * Z.abs (x * 65535 - N * spl) <= 5 * 65535.
Proof.
  intros Hs HN. replace (u32 (65535 - spl)) with (65535 - spl) by (unfold u32; rewrite Z.mod_small; lia).
  destruct (fit_ok [spl; 65535 - spl] N) as (es & E & L & P & S & C).
  - repeat constructor; lia.
  - cbn [sum fold_right]. lia.
  - unfold zlen. cbn [length]. lia.
  - exact HN.
  - intros a b Eq. destruct a as [|a1 [|a2 a]]; [left; reflexivity|right; injection Eq as _ _ <-; reflexivity|].
    destruct a; discriminate Eq.
  - destruct es as [|x [|y [|z es]]]; try discriminate L. pose proof (Forall_inv P). pose proof (Forall_inv (Forall_inv_tail P)). cbn in S. cbv beta in *.
    exists x. split; [lia|]. split; [rewrite E; do 2 f_equal; [f_equal; lia]|]. specialize (C 1%nat). cbn [firstn sum fold_right] in C. lia.
Qed.

Lemma ushort_ex r : zlen r = 2 -> exists v, represents UShort v r /\ 0 <= v <= 65535.
Proof. intros H. exists (decode UShort r). exact (decode_bits UShort r H). Qed.

(** One step of the recursion, on data that is split. *)
Lemma node_split rec i op b r l1 l2 spl b1 : holds b (r ++ b1) -> represents UShort spl r -> zlen b1 = l1 + l2 -> 2 <= l1 -> 2 <= l2 ->
  l1 + l2 < 2 ^ 31 -> fit_sizes [spl; u32 (65535 - spl)] (l1 + l2 - 4) = Ok [l1 - 2; l2 - 2] ->
  0 <= i -> nth_error operations (Z.to_nat i) = Some op ->
  exists c1 b2, holds c1 (firstn (Z.to_nat l1) b1) /\ holds b2 (skipn (Z.to_nat l1) b1)
    /\ forall s1 s2 b3, fst (rec c1) = Ok s1 -> rec b2 = (Ok s2, b3) ->
       Node1_do_recursion rec i b = (Ok (lit "(" ++ s1 ++ lit " " ++ op ++ lit " " ++ s2 ++ lit ")"), b3).
Proof.
  intros Hb R Lb H1 H2 H3 Fs Hi Op. assert (Lr : zlen r = 2) by (destruct R as [R _]; exact R).
  destruct (C06_round_trip UShort b spl r b1 ltac:(repeat split; discriminate) R Hb) as (b' & E & W' & C').
  pose proof (content_len b' W') as Sb'. rewrite C' in Sb'.
  destruct (C01_chop_splits b' l1 W' ltac:(lia)) as [Ch _]. destruct (Ch ltac:(lia)) as (c1 & b2 & E2 & Wc & Wb & C1 & _ & C2 & _ & _).
  rewrite C' in C1, C2. exists c1, b2. split; [split; assumption|]. split; [split; assumption|].
  intros s1 s2 b3 S1 S2. unfold Node1_do_recursion.
  change (Size b) with (blobSize b). rewrite (holds_size _ _ Hb), zlen_app, Lr.
  change (u64 (sizeof UShort + 4 * sizeof UChar)) with 6. replace (2 + zlen b1 <? 6) with false by lia. rewrite E.
  change (Size b') with (blobSize b'). rewrite Sb', Lb. change (4 * sizeof UChar) with 4. change (2 * sizeof UChar) with 2.
  replace (u32 (u64 (l1 + l2 - 4))) with (l1 + l2 - 4) by (unfold u32, u64; rewrite (Z.mod_small _ (2 ^ 64)), Z.mod_small by lia; reflexivity).
  unfold bind at 1, lift at 1. rewrite Fs. cbn [nth_error].
  unfold bind at 1, lift at 1. replace (u32 (l1 - 2 + 2)) with l1 by (unfold u32; rewrite Z.mod_small by lia; lia).
  unfold bind at 1. change (Chop l1 b') with (blobChop l1 b'). rewrite E2. unfold bind at 1, lift at 1. rewrite S1.
  unfold bind at 1, lift at 1. replace (i <? 0) with false by lia. rewrite Op. unfold bind at 1. rewrite S2. reflexivity.
Qed.

Lemma node_leaf rec i b c r : holds b (c :: r) -> zlen r < 5 -> exists s, runs (Node1_do_recursion rec i) b (Ok s) r
  /\ forall n, represents UChar n [c] -> read_int s = Some n.
Proof.
  intros Hb Hr. destruct (num_leaf b c r Hb) as (s & (b2 & E & H) & n & V & S). exists s. split.
  - exists b2. split; [|exact H]. unfold Node1_do_recursion. change (Size b) with (blobSize b). rewrite (holds_size _ _ Hb), zlen_cons.
    change (u64 (sizeof UShort + 4 * sizeof UChar)) with 6. replace (zlen r + 1 <? 6) with true by lia. rewrite E. reflexivity.
  - intros m R. destruct (C07_decimal UChar b [c] r m ltac:(repeat split; discriminate) ltac:(discriminate) ltac:(discriminate) R Hb) as (s' & (b3 & E3 & _) & S').
    rewrite E in E3. injection E3 as <- _. exact S'.
Qed.

Lemma rec_start fuel b c r : holds b (c :: r) -> exists n i op b1, represents UChar n [c] /\ holds b1 r /\ 0 <= i < 5
  /\ (i = 0 \/ 51 * i < n) /\ n <= 51 * (i + 1) /\ nth_error operations (Z.to_nat i) = Some op /\ In op five_operators
  /\ do_recursion (S fuel) b = Node1_do_recursion (do_recursion fuel) i b1.
Proof.
  intros Hb. destruct (uchar_head b c r Hb) as (n & V & R & (b1 & E & H1)). destruct (pick_node1 n V) as (i & op & P & I1 & I2 & I3 & I4 & I5).
  exists n, i, op, b1. split; [exact R|]. split; [exact H1|]. split; [exact I1|]. split; [exact I2|]. split; [exact I3|]. split; [exact I4|]. split; [exact I5|].
  cbn [do_recursion]. rewrite E, P. reflexivity.
Qed.

Lemma rec_writes : forall n fuel b d, holds b d -> zlen d < Z.of_nat n -> zlen d < Z.of_nat fuel -> 2 <= zlen d -> zlen d < 2 ^ 31 ->
  exists f s rest, runs (do_recursion fuel) b (Ok s) rest /\ proper five_operators f /\ only_numbers f /\ written f s
    /\ 5 * operators f + 2 <= zlen d <= 9 * operators f + 6 /\ 0 <= operators f /\ zlen rest <= 4.
Proof.
  induction n as [|n IH]; intros fuel b d Hb Hn Hf H2 H3; [lia|]. destruct fuel as [|fuel]; [lia|].
  destruct d as [|c d]; [change (@zlen byte []) with 0 in H2; lia|]. rewrite zlen_cons in *.
  destruct (rec_start fuel b c d Hb) as (v & i & op & b1 & _ & Hb1 & Hi & _ & _ & Op & Io & E).
  destruct (Z_lt_le_dec (zlen d) 6) as [Hs|Hs].
  - destruct d as [|x d]; [change (@zlen byte []) with 0 in H2; lia|]. rewrite zlen_cons in *. pose proof (zlen_nonneg d).
    destruct (node_leaf (do_recursion fuel) i b1 x d Hb1 ltac:(lia)) as (s & (b2 & E2 & H4) & S). destruct (uchar_head b1 x d Hb1) as (m & M1 & M2 & _).
    exists (FNum m), s, d. split; [exists b2; split; [rewrite E; exact E2|exact H4]|]. split; [exact M1|]. split; [exact I|].
    split; [constructor; exact (S m M2)|]. cbn [operators]. lia.
  - set (r := firstn 2 d). set (t := skipn 2 d). assert (Ed : d = r ++ t) by (symmetry; apply firstn_skipn).
    assert (Lr : zlen r = 2) by (unfold r, zlen; rewrite firstn_length; unfold zlen in Hs; lia). assert (Ld : zlen d = 2 + zlen t) by (rewrite Ed at 1; rewrite zlen_app; lia).
    destruct (ushort_ex r Lr) as (spl & Rs & Vs). destruct (fit_two spl (zlen t - 4) Vs ltac:(lia)) as (x & Hx & Fx & _).
    rewrite Ed in Hb1. destruct (node_split (do_recursion fuel) i op b1 r (x + 2) (zlen t - 2 - x) spl t Hb1 Rs) as (c1 & b2 & Hc & Hb2 & G); try lia.
    { replace (x + 2 + (zlen t - 2 - x) - 4) with (zlen t - 4) by lia. rewrite Fx. do 2 f_equal; [lia|f_equal; lia]. } { exact Op. }
    assert (L1 : zlen (firstn (Z.to_nat (x + 2)) t) = x + 2) by (apply zlen_firstn; lia).
    assert (L2 : zlen (skipn (Z.to_nat (x + 2)) t) = zlen t - 2 - x) by (rewrite zlen_skipn; lia).
    destruct (IH fuel c1 _ Hc ltac:(lia) ltac:(lia) ltac:(lia) ltac:(lia)) as (f1 & s1 & r1 & R1 & P1 & O1 & T1 & B1 & N1 & _).
    destruct (IH fuel b2 _ Hb2 ltac:(lia) ltac:(lia) ltac:(lia) ltac:(lia)) as (f2 & s2 & r2 & (b3 & E3 & H4) & P2 & O2 & T2 & B2 & N2 & Z2).
    eexists (FOp op f1 f2), _, r2. split; [|split; [split; [exact Io|split; assumption]|split; [split; assumption|split; [constructor; eassumption|]]]].
    + exists b3. split; [|exact H4]. rewrite E. apply G; [exact (runs_fst _ _ _ _ R1)|exact E3].
    + cbn [operators]. lia.
Qed.

Lemma rec_reach : forall f, proper five_operators f -> only_numbers f -> forall n, 5 * operators f + 2 <= n <= 9 * operators f + 6 -> n <= 49158 ->
  exists d, zlen d = n /\ forall b fuel, holds b d -> zlen d < Z.of_nat fuel -> exists s b', do_recursion fuel b = (Ok s, b') /\ written f s.
Proof.
  induction f as [v|w|op f1 IH1 f2 IH2]; intros P O n Hl Hm; cbn [proper operators only_numbers] in P, O, Hl; [|destruct O|].
  - destruct (C06_every_value UChar v ltac:(repeat split; discriminate) P) as (q & Q). destruct (some_bytes (n - 2) ltac:(lia)) as (x & Lx).
    assert (Lq : zlen q = 1) by (destruct Q as [Q _]; exact Q).
    destruct q as [|q0 [|q1 q]]; [discriminate Lq| |rewrite !zlen_cons in Lq; pose proof (zlen_nonneg q); lia].
    exists (x00 :: q0 :: x). split; [rewrite !zlen_cons; lia|]. intros b fuel Hb Hf. destruct fuel as [|fuel]; [rewrite !zlen_cons in Hf; pose proof (zlen_nonneg x); lia|].
    destruct (rec_start fuel b x00 (q0 :: x) Hb) as (m & i & op & b1 & _ & Hb1 & _ & _ & _ & _ & _ & E).
    destruct (node_leaf (do_recursion fuel) i b1 q0 x Hb1 ltac:(lia)) as (s & (b2 & E2 & _) & S). exists s, b2. split; [rewrite E; exact E2|]. constructor. exact (S v Q).
  - destruct P as (Po & P1 & P2). destruct O as (O1 & O2). pose proof (operators_nonneg f1). pose proof (operators_nonneg f2).
    destruct (split_range (5 * operators f1 + 2) (9 * operators f1 + 6) (5 * operators f2 + 2) (9 * operators f2 + 6) (n - 3)) as (n1 & n2 & En & R1 & R2); [lia|lia|lia|].
    destruct (IH1 P1 O1 n1 R1 ltac:(lia)) as (d1 & L1 & G1). destruct (IH2 P2 O2 n2 R2 ltac:(lia)) as (d2 & L2 & G2).
    (* the byte for the operator *)
    assert (Io : exists i, 0 <= i < 5 /\ nth_error operations (Z.to_nat i) = Some op).
    { change five_operators with operations in Po. apply In_nth_error in Po as (k & Pk). exists (Z.of_nat k). rewrite Nat2Z.id. split; [|exact Pk].
      assert (k < length operations)%nat by (apply nth_error_Some; congruence). cbn in *. lia. }
    destruct Io as (i & Hi & Op). destruct (C06_every_value UChar (51 * i + 1) ltac:(repeat split; discriminate) ltac:(change (lowest UChar) with 0; change (highest UChar) with 255; lia)) as (q & Q).
    assert (Lq : zlen q = 1) by (destruct Q as [Q _]; exact Q).
    destruct q as [|q0 [|q1 q]]; [discriminate Lq| |rewrite !zlen_cons in Lq; pose proof (zlen_nonneg q); lia].
    (* the two bytes for the split *)
    set (N := n1 + n2 - 4).
    assert (Sp : exists spl, 0 <= spl <= 65535 /\ fit_sizes [spl; u32 (65535 - spl)] N = Ok [n1 - 2; n2 - 2]).
    { destruct (Z.eq_dec N 0) as [Z0|Z0].
      - exists 0. split; [lia|]. destruct (fit_two 0 N ltac:(lia) ltac:(lia)) as (x & Hx & Fx & _). rewrite Fx. do 2 f_equal; [lia|f_equal; lia].
      - set (spl := (2 * (n1 - 2) * 65535 + N) / (2 * N)).
        assert (B : 2 * N * spl <= 2 * (n1 - 2) * 65535 + N < 2 * N * (spl + 1)).
        { unfold spl. pose proof (Z.div_mod (2 * (n1 - 2) * 65535 + N) (2 * N) ltac:(lia)). pose proof (Z.mod_pos_bound (2 * (n1 - 2) * 65535 + N) (2 * N) ltac:(lia)). lia. }
        assert (Bs : 0 <= spl <= 65535).
        { split; [apply Z.div_pos; lia|]. apply Z.lt_succ_r. apply Z.div_lt_upper_bound; lia. }
        exists spl. split; [exact Bs|]. destruct (fit_two spl N Bs ltac:(lia)) as (x & Hx & Fx & Cx). rewrite Fx.
        assert (x = n1 - 2) as -> by lia. do 2 f_equal. f_equal. lia. }
    destruct Sp as (spl & Hs & Fs). destruct (C06_every_value UShort spl ltac:(repeat split; discriminate) Hs) as (p & Rp).
    assert (Lp : zlen p = 2) by (destruct Rp as [Rp _]; exact Rp).
    exists (q0 :: p ++ d1 ++ d2). split; [rewrite zlen_cons, !zlen_app; lia|]. intros b fuel Hb Hf. rewrite zlen_cons, !zlen_app in Hf.
    destruct fuel as [|fuel]; [lia|].
    destruct (rec_start fuel b q0 (p ++ d1 ++ d2) Hb) as (m & j & op' & b1 & Rm & Hb1 & Hj & J1 & J2 & Op' & _ & E).
    pose proof (represents_inj _ _ _ _ Rm Q) as ->. assert (j = i) as -> by lia.
    destruct (node_split (do_recursion fuel) i op b1 p n1 n2 spl (d1 ++ d2) Hb1 Rp) as (c1 & b2 & Hc & Hb2 & G); try lia.
    { rewrite zlen_app. lia. } { exact Fs. } { exact Op. }
    assert (Ln : Z.to_nat n1 = length d1) by (unfold zlen in L1; lia). rewrite Ln in Hc, Hb2.
    rewrite firstn_app, Nat.sub_diag, firstn_all in Hc. cbn [firstn] in Hc. rewrite app_nil_r in Hc. rewrite skipn_app, Nat.sub_diag, skipn_all in Hb2. cbn [skipn app] in Hb2.
    destruct (G1 c1 fuel Hc ltac:(lia)) as (s1 & c1' & E1 & T1). destruct (G2 b2 fuel Hb2 ltac:(lia)) as (s2 & b3 & E2 & T2).
    eexists _, b3. split; [rewrite E; apply G; [rewrite E1; reflexivity|exact E2]|]. constructor; assumption.
Qed.
