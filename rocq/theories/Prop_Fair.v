(** C54, C55: even shares. *)
From Flocq Require Import Core.Core.
From Verif Require Import Base BaseFacts Blob BlobSpec BlobFacts RunSpec RunFacts Sim Oracle Arithm StampDict OracleFacts Prop_Oracle PickFacts DictFacts DictWords
  StampText VectorSpec VectorFacts Stamps StampsEq LeafSpec TermSpec Prop_Termination LotSpec LotFacts Prop_Lottery Prop_Pool FairSpec FairFacts FairRun FairBig OracleLarge.
Local Open Scope Z_scope.

(** C54.  Each value of a range of n <= 65536 values belongs to one run of oracle values, in order. Its length
    differs from 65536/n by less than 1 + 128/n, for up to 256 values by less than one. *)
Theorem C54_values : forall min max, 0 <= min <= max -> max < 2 ^ 64 -> max - min + 1 <= 65536 ->
  exists t, even_parts 65536 (max - min + 1) (max - min + 1 + 127) t
    /\ (max - min + 1 <= 256 -> even_parts 65536 (max - min + 1) (max - min + 1 - 1) t)
    /\ forall v oracle, min <= v <= max -> 0 <= oracle <= 65535 ->
         (t (v - min) <= oracle < t (v - min + 1) <-> OracleProportion oracle min max = Ok v).
Proof.
  intros mn mx H1 H2 H3. destruct (oracle_cut (mx - mn + 1)) as (t & T1 & T2 & T3); [lia|].
  exists t. split; [exact T1|]. split; [exact T2|]. intros v o Hv Ho. rewrite T3 by lia.
  destruct (oracle_eq o mn mx) as [E _]; try lia. rewrite E. split; [intros ->; f_equal; lia|intros X; injection X as X; lia].
Qed.
Print Assumptions C54_values.

(** Up to 256 values nothing is rounded. *)
Theorem C54_exact : forall oracle min max, 0 <= oracle <= 65535 -> 0 <= min <= max -> max < 2 ^ 64 -> max - min + 1 <= 256 ->
  OracleProportion oracle min max = Ok (min + oracle * (max - min + 1) / 65536).
Proof.
  intros o mn mx Ho H1 H2 H3. destruct (oracle_eq o mn mx) as [E _]; try lia. rewrite E, portion_small by lia. reflexivity.
Qed.
Print Assumptions C54_exact.

(** The members of a pool that are eligible for the data left after the oracle share the oracle values in the
    same way. *)
Theorem C54_pool : forall (h : heap blob) p ys cur r,
  heap_leaves (fun _ _ ex => tame ex) h -> pool_of h p ys ->
  Forall2 (report h) ys cur -> Forall pool_sane cur -> zlen cur <= 65536 -> Exists (fits (zlen r)) cur ->
  exists zs t, kept (fun y => exists s, report h y s /\ fits (zlen r) s
        /\ (uses_all (zlen r) s \/ Forall (fun s => fits (zlen r) s -> ~ uses_all (zlen r) s) cur)) ys zs
    /\ even_parts 65536 (zlen zs) (zlen zs + 127) t /\ (zlen zs <= 256 -> even_parts 65536 (zlen zs) (zlen zs - 1) t)
    /\ forall i z front b, nth_error zs (Z.to_nat i) = Some z -> zlen front = 2 -> 0 <= i -> t i <= number front < t (i + 1) ->
         holds b (front ++ r) -> exists b', holds b' r /\ ExtractStr h (XPool p) b = ExtractStr h z b'.
Proof.
  intros h p ys cur r Hh (P & HP & WP) HR HS HN HE.
  set (f := Z.to_nat (2 + zlen r)). destruct (stamps_of f h _ _ HR) as (ms & M1 & M2 & M3).
  assert (SA : Forall (fun s : stamp => pool_sane (fst s)) ms) by (subst cur; apply Forall_map; exact HS).
  assert (ZM : zlen ms <= 65536) by (subst cur; rewrite zlen_map in HN; exact HN).
  destruct (targets_kept f h (zlen r) ys ms M3) as (zs & K1 & K2). rewrite M2 in K1.
  pose proof (Forall2_zlen _ _ _ K2) as LZ.
  assert (LC : zlen (targets (zlen r) ms) <= zlen ms).
  { unfold targets. destruct (filling (zlen r) ms) eqn:Q; [apply filter_len|rewrite <- Q; apply filter_len]. }
  assert (L1 : 1 <= zlen zs).
  { subst cur. apply Exists_exists in HE. destruct HE as (s & Hi & Hs). apply in_map_iff in Hi. destruct Hi as (m & <- & Hi).
    pose proof (targets_some _ _ m Hi Hs) as NE. rewrite LZ. destruct (targets (zlen r) ms) as [|c0 c]; [congruence|].
    unfold zlen. cbn [length]. lia. }
  assert (LM : zlen zs <= 65536) by (rewrite LZ; exact (Z.le_trans _ _ _ LC ZM)).
  destruct (C54_values 0 (zlen zs - 1)) as (t & T1 & T2 & T3); try lia.
  replace (zlen zs - 1 - 0 + 1) with (zlen zs) in * by lia.
  exists zs, t. split; [exact K1|]. split; [exact T1|]. split; [exact T2|].
  intros i z front b Hz Hf H0 Ht Hb. destruct (number_GetOracle front r Hf) as [Eo Ro].
  destruct (run_transfer _ _ b _ _ _ sim_GetOracle Hb Eo) as (b' & E1 & Hb').
  exists b'. split; [exact Hb'|].
  assert (Hi : 0 <= i < zlen zs).
  { split; [exact H0|]. assert (Q : (Z.to_nat i < length zs)%nat) by (apply nth_error_Some; congruence). unfold zlen. lia. }
  assert (Po : OracleProportion (number front) 0 (zlen zs - 1) = Ok i).
  { apply (T3 i (number front)); [lia|lia|]. rewrite Z.sub_0_r. exact Ht. }
  pose proof (pool_run ms (minSize h (XPool p)) b b' r (number front) SA ltac:(lia) E1 Hb' Ro) as R.
  destruct (targets (zlen r) ms) as [|c0 c] eqn:C; [rewrite LZ in L1; change (zlen (@nil stamp)) with 0 in L1; lia|].
  rewrite LZ in Po. destruct R as (j & m & R1 & _ & R3 & R4). pose proof (eq_trans (eq_sym R1) Po) as RJ. injection RJ as ->.
  destruct (Forall2_nth _ _ _ K2 _ _ _ Hz R3) as (_ & Em).
  unfold ExtractStr at 1. rewrite extract_pool_S, HP, WP, map_map.
  assert (Fb : Z.to_nat (Size b) = f) by (unfold f; cbn [Size BlobBlobOps]; rewrite (holds_size b _ Hb), zlen_app, Hf; reflexivity).
  rewrite Fb, <- M1. etransitivity; [exact R4|]. rewrite Em. apply C46_depth; [exact Hh| |exact (proj1 Hb')|].
  - apply (proj1 Hh P z); [exact (nth_error_In _ _ HP)|]. rewrite WP. apply in_map. apply (kept_In _ _ _ _ K1). exact (nth_error_In _ _ Hz).
  - rewrite (holds_size b' r Hb'). unfold f. pose proof (zlen_nonneg r). lia.
Qed.
Print Assumptions C54_pool.

(** A pool of which more than 65536 stamps are eligible: every oracle value selects another stamp, the larger
    oracle the later stamp; the first is selected by 0, and the last is not selected if more than 65792 are eligible. *)
Theorem C54_pool_large : forall (h : heap blob) p ys cur r,
  heap_leaves (fun _ _ ex => tame ex) h -> pool_of h p ys ->
  Forall2 (report h) ys cur -> Forall pool_sane cur -> zlen cur < 2 ^ 63 -> Exists (fits (zlen r)) cur ->
  exists zs t, kept (fun y => exists s, report h y s /\ fits (zlen r) s
        /\ (uses_all (zlen r) s \/ Forall (fun s => fits (zlen r) s -> ~ uses_all (zlen r) s) cur)) ys zs
    /\ t 0 = 0 /\ (65536 < zlen zs -> forall o o', 0 <= o < o' -> o' <= 65535 -> t o < t o')
    /\ (65792 < zlen zs -> forall o, 0 <= o <= 65535 -> t o < zlen zs - 1)
    /\ forall front b, zlen front = 2 -> holds b (front ++ r) ->
         exists z b', 0 <= t (number front) /\ nth_error zs (Z.to_nat (t (number front))) = Some z
           /\ holds b' r /\ ExtractStr h (XPool p) b = ExtractStr h z b'.
Proof.
  intros h p ys cur r Hh (P & HP & WP) HR HS HN HE.
  set (f := Z.to_nat (2 + zlen r)). destruct (stamps_of f h _ _ HR) as (ms & M1 & M2 & M3).
  assert (SA : Forall (fun s : stamp => pool_sane (fst s)) ms) by (subst cur; apply Forall_map; exact HS).
  assert (ZM : zlen ms < 2 ^ 63) by (subst cur; rewrite zlen_map in HN; exact HN).
  destruct (targets_kept f h (zlen r) ys ms M3) as (zs & K1 & K2). rewrite M2 in K1.
  pose proof (Forall2_zlen _ _ _ K2) as LZ.
  assert (LC : zlen (targets (zlen r) ms) <= zlen ms).
  { unfold targets. destruct (filling (zlen r) ms) eqn:Q; [apply filter_len|rewrite <- Q; apply filter_len]. }
  assert (L1 : 1 <= zlen zs).
  { subst cur. apply Exists_exists in HE. destruct HE as (s & Hi & Hs). apply in_map_iff in Hi. destruct Hi as (m & <- & Hi).
    pose proof (targets_some _ _ m Hi Hs) as NE. rewrite LZ. destruct (targets (zlen r) ms) as [|c0 c]; [congruence|].
    unfold zlen. cbn [length]. lia. }
  assert (LM : zlen zs < 2 ^ 63) by (rewrite LZ; exact (Z.le_lt_trans _ _ _ LC ZM)).
  set (t := fun o => Zfloor (portion o (zlen zs))).
  assert (T : forall o, 0 <= o <= 65535 -> OracleProportion o 0 (zlen zs - 1) = Ok (t o) /\ 0 <= t o < zlen zs).
  { intros o Ho. destruct (oracle_eq o 0 (zlen zs - 1)) as [E B]; try lia.
    replace (zlen zs - 1 - 0 + 1) with (zlen zs) in * by lia. rewrite E. split; [reflexivity|]. unfold t. lia. }
  exists zs, t. split; [exact K1|]. split; [|split; [|split]].
  - apply portion_0.
  - intros H o o' Ho Ho'. apply portion_strict; lia.
  - intros H o Ho. apply Z.le_lt_trans with (t 65535).
    + apply Zfloor_le. apply portion_mono; lia.
    + apply last_missed. lia.
  - intros front b Hf Hb. destruct (number_GetOracle front r Hf) as [Eo Ro].
    destruct (run_transfer _ _ b _ _ _ sim_GetOracle Hb Eo) as (b' & E1 & Hb').
    destruct (T (number front)) as [Po Ri]; [lia|].
    destruct (nth_error zs (Z.to_nat (t (number front)))) as [z|] eqn:Hz;
      [|apply nth_error_None in Hz; unfold zlen in Ri; lia].
    exists z, b'. split; [lia|]. split; [reflexivity|]. split; [exact Hb'|].
    pose proof (pool_run ms (minSize h (XPool p)) b b' r (number front) SA ltac:(lia) E1 Hb' Ro) as R.
    destruct (targets (zlen r) ms) as [|c0 c] eqn:C; [rewrite LZ in L1; change (zlen (@nil stamp)) with 0 in L1; lia|].
    rewrite LZ in Po. destruct R as (j & m & R1 & _ & R3 & R4). pose proof (eq_trans (eq_sym R1) Po) as RJ. injection RJ as ->.
    destruct (Forall2_nth _ _ _ K2 _ _ _ Hz R3) as (_ & Em).
    unfold ExtractStr at 1. rewrite extract_pool_S, HP, WP, map_map.
    assert (Fb : Z.to_nat (Size b) = f) by (unfold f; cbn [Size BlobBlobOps]; rewrite (holds_size b _ Hb), zlen_app, Hf; reflexivity).
    rewrite Fb, <- M1. etransitivity; [exact R4|]. rewrite Em. apply C46_depth; [exact Hh| |exact (proj1 Hb')|].
    + apply (proj1 Hh P z); [exact (nth_error_In _ _ HP)|]. rewrite WP. apply in_map. apply (kept_In _ _ _ _ K1). exact (nth_error_In _ _ Hz).
    + rewrite (holds_size b' r Hb'). unfold f. pose proof (zlen_nonneg r). lia.
Qed.
Print Assumptions C54_pool_large.

(** C55.  Each word of a dictionary of n <= 65536 words belongs to one run of oracle values, in order and not
    empty. Its length differs from 256/n or, above 256 words, from 65536/n, by 1 + 1/n at most. *)
Theorem C55_words : forall d, d <> [] -> zlen d <= 65536 ->
  exists w t, (w = 1 /\ zlen d <= 256 \/ w = 2 /\ 256 < zlen d)
    /\ even_parts (256 ^ w) (zlen d) (zlen d + 1) t /\ (forall i, 0 <= i < zlen d -> t i < t (i + 1))
    /\ forall i word front rest b, 0 <= i -> nth_error d (Z.to_nat i) = Some word -> zlen front = w ->
         t i <= number front < t (i + 1) -> holds b (front ++ rest) -> runs (DictExtractStr d) b (Ok word) rest.
Proof.
  intros d Hd Hn. assert (L1 : 1 <= zlen d) by (destruct d; [congruence|rewrite zlen_cons; pose proof (zlen_nonneg d); lia]).
  assert (W : exists w mx, (w = 1 /\ zlen d <= 256 \/ w = 2 /\ 256 < zlen d) /\ ChooseStampSize d = (w, mx) /\ 256 ^ w = mx + 1
    /\ (mx = 255 \/ mx = 65535) /\ zlen d <= mx + 1).
  { rewrite choose_cases. destruct (Z.leb_spec (zlen d) 256).
    - exists 1, 255. repeat split; auto; lia.
    - destruct (Z.leb_spec (zlen d) 65536); [|lia]. exists 2, 65535. repeat split; auto; lia. }
  destruct W as (w & mx & W1 & W2 & W3 & W4 & W5). destruct (pick_cut mx (zlen d)) as (t & T1 & T2); [lia|lia|].
  rewrite <- W3 in T1. exists w, t. split; [exact W1|]. split; [exact T1|]. split.
  - intros i Hi. destruct (pick_reach_all mx (zlen d) i W4 ltac:(lia) Hi) as (o & Ro & Eo). apply T2 in Eo; lia.
  - intros i word front rest b H0 Hi Hf Ht Hb.
    assert (Wn : w = 1 \/ w = 2 \/ w = 4 \/ w = 8) by lia.
    destruct (number_oracle w front rest Wn Hf) as [Eo Ro].
    assert (P8 : 2 ^ (8 * w) = mx + 1) by (rewrite <- W3, Z.pow_mul_r by lia; reflexivity).
    assert (Ri : 0 <= i < zlen d).
    { split; [exact H0|]. assert (Q : (Z.to_nat i < length d)%nat) by (apply nth_error_Some; congruence). unfold zlen. lia. }
    assert (Pk : pick_index (number front) mx (zlen d) = Ok i) by (apply T2; lia).
    apply (run_transfer _ _ b (front ++ rest) _ _ (sim_DictExtractStr d) Hb).
    unfold DictExtractStr. rewrite W2. rewrite (bind_ok _ _ _ _ _ Eo). rewrite (bind_lift_ok _ _ _ i) by exact Pk.
    rewrite u64_id by lia. destruct (dict_get_ok d i Ri) as (x & X1 & X2). unfold lift. rewrite X1. congruence.
Qed.
Print Assumptions C55_words.

(** Larger dictionaries use 8 bytes: of the 2^64 oracle values every word gets a 1/n, give or take 8195. *)
Theorem C55_large : forall d, 65536 < zlen d <= 2 ^ 50 ->
  exists t, even_parts (2 ^ 64) (zlen d) (zlen d * 8195) t /\ (forall i, 0 <= i < zlen d -> t i < t (i + 1))
    /\ forall i word front rest b, 0 <= i -> nth_error d (Z.to_nat i) = Some word -> zlen front = 8 ->
         t i <= number front < t (i + 1) -> holds b (front ++ rest) -> runs (DictExtractStr d) b (Ok word) rest.
Proof.
  intros d Hn.
  assert (W : ChooseStampSize d = (8, 2 ^ 64 - 1)).
  { rewrite choose_cases. destruct (Z.leb_spec (zlen d) 256); [lia|]. destruct (Z.leb_spec (zlen d) 65536); [lia|reflexivity]. }
  destruct (pick_cut_8 (zlen d) ltac:(lia)) as (t & T1 & T2). exists t. split; [exact T1|]. split.
  - intros i Hi. destruct T1 as (_ & _ & T1). specialize (T1 i Hi). nia.
  - intros i word front rest b H0 Hi Hf Ht Hb.
    destruct (number_oracle 8 front rest ltac:(auto) Hf) as [Eo Ro].
    assert (Ri : 0 <= i < zlen d).
    { split; [exact H0|]. assert (Q : (Z.to_nat i < length d)%nat) by (apply nth_error_Some; congruence). unfold zlen. lia. }
    assert (Pk : pick_index (number front) (2 ^ 64 - 1) (zlen d) = Ok i) by (apply T2; lia).
    apply (run_transfer _ _ b (front ++ rest) _ _ (sim_DictExtractStr d) Hb).
    unfold DictExtractStr. rewrite W. rewrite (bind_ok _ _ _ _ _ Eo). rewrite (bind_lift_ok _ _ _ i) by exact Pk.
    rewrite u64_id by lia. destruct (dict_get_ok d i Ri) as (x & X1 & X2). unfold lift. rewrite X1. congruence.
Qed.
Print Assumptions C55_large.

(** The members of a lottery that are eligible for the data left after the oracle share the oracle values in
    the same way. *)
Theorem C55_lottery : forall (h : heap blob) l L rec cur r,
  heap_leaves (fun _ _ ex => tame ex) h -> nth_error (lots h) l = Some L -> built L rec ->
  Forall2 (report h) (lot_members L) cur -> Forall (sane (four_recursion L)) cur -> zlen cur < 65535 ->
  (four_recursion L = true -> zlen r < 2 ^ 31) -> Exists (fits (zlen r)) cur ->
  exists w zs t, (w = 1 /\ zlen cur < 255 \/ w = 2 /\ 255 <= zlen cur)
    /\ kept (fun y => exists s, report h y s /\ fits (zlen r) s
        /\ (four_recursion L = true -> leaves_little (zlen r) s \/ Forall (fun s => fits (zlen r) s -> ~ leaves_little (zlen r) s) cur)) (lot_members L) zs
    /\ even_parts (256 ^ w) (zlen zs) (zlen zs + 1) t /\ (forall i, 0 <= i < zlen zs -> t i < t (i + 1))
    /\ forall i z front b, nth_error zs (Z.to_nat i) = Some z -> zlen front = w -> 0 <= i -> t i <= number front < t (i + 1) ->
         holds b (front ++ r) -> exists b', holds b' r /\ ExtractStr h (XLot l) b = ExtractStr h z b'.
Proof.
  intros h l L rec cur r Hh HL HB HR HS HN H4 HE.
  destruct (built_width L rec HB) as [Ew Hw]. set (w := oracle_size (lot_nums L)) in *.
  set (f := Z.to_nat (w + zlen r)). destruct (stamps_of f h _ _ HR) as (ms & M1 & M2 & M3).
  assert (SA : sane_all (four_recursion L) ms) by (subst cur; apply Forall_map; exact HS).
  assert (ZC : zlen cur = zlen ms) by (subst cur; apply zlen_map).
  assert (ZR : zlen rec = zlen ms).
  { pose proof HB as (init & apps & L0 & -> & _ & _ & ZL). rewrite <- ZL. exact (Forall2_zlen _ _ _ M3). }
  destruct (candidates_kept f h (four_recursion L) (zlen r) _ ms SA M3) as (zs & K1 & K2). rewrite M2 in K1.
  pose proof (Forall2_zlen _ _ _ K2) as LZ. pose proof (candidates_len (four_recursion L) (zlen r) ms) as LC.
  assert (LM : zlen zs <= zlen ms) by (rewrite LZ; exact LC).
  assert (L1 : 1 <= zlen zs).
  { subst cur. apply Exists_exists in HE. destruct HE as (s & Hi & Hs). apply in_map_iff in Hi. destruct Hi as (m & <- & Hi).
    pose proof (candidates_some (four_recursion L) _ _ m Hi Hs) as NE. rewrite LZ. destruct (candidates (four_recursion L) (zlen r) ms) as [|c0 c]; [congruence|].
    unfold zlen. cbn [length]. lia. }
  assert (WC : (w = 1 /\ zlen cur < 255 \/ w = 2 /\ 255 <= zlen cur) /\ zlen ms < oracle_max w).
  { rewrite Ew, ZR, ZC. unfold init_oracle_size. destruct (zlen ms <? 255) eqn:Q1; [split; [left; split; [reflexivity|lia]|change (oracle_max 1) with 255; lia]|].
    destruct (zlen ms <? 65535) eqn:Q2; [|lia]. split; [right; split; [reflexivity|lia]|change (oracle_max 2) with 65535; lia]. }
  destruct WC as [WC MC].
  assert (MX : (oracle_max w = 255 \/ oracle_max w = 65535) /\ 256 ^ w = oracle_max w + 1 /\ (w = 1 \/ w = 2 \/ w = 4 \/ w = 8) /\ 2 ^ (8 * w) - 1 = oracle_max w).
  { destruct WC as [[-> _]|[-> _]]; repeat split; auto. }
  destruct MX as (MX1 & MX2 & Wn & MX3).
  destruct (pick_cut (oracle_max w) (zlen zs)) as (t & T1 & T2); [lia|lia|].
  rewrite <- MX2 in T1. exists w, zs, t. split; [exact WC|]. split; [exact K1|]. split; [exact T1|]. split.
  - intros i Hi. destruct (pick_reach_all (oracle_max w) (zlen zs) i MX1 ltac:(lia) Hi) as (o & Ro & Eo). apply T2 in Eo; lia.
  - intros i z front b Hz Hf H0 Ht Hb. destruct (number_oracle w front r Wn Hf) as [Eo Ro].
    destruct (run_transfer _ _ b _ _ _ (sim_sized_oracle w) Hb Eo) as (b' & E1 & Hb').
    exists b'. split; [exact Hb'|].
    assert (Hi : 0 <= i < zlen zs).
    { split; [exact H0|]. assert (Q : (Z.to_nat i < length zs)%nat) by (apply nth_error_Some; congruence). unfold zlen. lia. }
    assert (Pk : pick_index (number front) (oracle_max w) (zlen zs) = Ok i) by (apply T2; lia).
    pose proof (lot_run (four_recursion L) w ms b b' r (number front) Hw SA ltac:(lia) E1 Hb' H4 ltac:(lia)) as R.
    destruct (candidates (four_recursion L) (zlen r) ms) as [|c0 c] eqn:C; [rewrite LZ in L1; change (zlen (@nil stamp)) with 0 in L1; lia|].
    rewrite LZ in Pk. destruct R as (j & m & R1 & _ & R3 & R4). pose proof (eq_trans (eq_sym R1) Pk) as RJ. injection RJ as ->.
    destruct (Forall2_nth _ _ _ K2 _ _ _ Hz R3) as (_ & Em).
    unfold ExtractStr at 1. rewrite extract_lot_S, HL. fold w.
    assert (Fb : Z.to_nat (Size b) = f) by (unfold f; cbn [Size BlobBlobOps]; rewrite (holds_size b _ Hb), zlen_app, Hf; reflexivity).
    rewrite Fb, <- M1. etransitivity; [exact R4|]. rewrite Em. apply C46_depth; [exact Hh| |exact (proj1 Hb')|].
    + apply (proj2 Hh L z); [exact (nth_error_In _ _ HL)|]. apply (kept_In _ _ _ _ K1). exact (nth_error_In _ _ Hz).
    + rewrite (holds_size b' r Hb'). unfold f. pose proof (zlen_nonneg r). lia.
Qed.
Print Assumptions C55_lottery.

(** Lotteries of 65535 members or more have oracles of 4 bytes, from 2^32 - 1 members on of 8 bytes. *)
Theorem C55_lottery_large : forall (h : heap blob) l L rec cur r,
  heap_leaves (fun _ _ ex => tame ex) h -> nth_error (lots h) l = Some L -> built L rec ->
  Forall2 (report h) (lot_members L) cur -> Forall (sane (four_recursion L)) cur -> 65535 <= zlen cur <= 2 ^ 50 ->
  (four_recursion L = true -> zlen r < 2 ^ 31) -> Exists (fits (zlen r)) cur ->
  exists w zs t, (w = 4 /\ zlen cur < 2 ^ 32 - 1 \/ w = 8 /\ 2 ^ 32 - 1 <= zlen cur)
    /\ kept (fun y => exists s, report h y s /\ fits (zlen r) s
        /\ (four_recursion L = true -> leaves_little (zlen r) s \/ Forall (fun s => fits (zlen r) s -> ~ leaves_little (zlen r) s) cur)) (lot_members L) zs
    /\ even_parts (256 ^ w) (zlen zs) (if w =? 4 then zlen zs + zlen zs / 262144 + 3 else zlen zs * 8195) t
    /\ (zlen zs <= 2 ^ 31 \/ w = 8 -> forall i, 0 <= i < zlen zs -> t i < t (i + 1))
    /\ forall i z front b, nth_error zs (Z.to_nat i) = Some z -> zlen front = w -> 0 <= i -> t i <= number front < t (i + 1) ->
         holds b (front ++ r) -> exists b', holds b' r /\ ExtractStr h (XLot l) b = ExtractStr h z b'.
Proof.
  intros h l L rec cur r Hh HL HB HR HS HN H4 HE.
  destruct (built_width L rec HB) as [Ew Hw]. set (w := oracle_size (lot_nums L)) in *.
  set (f := Z.to_nat (w + zlen r)). destruct (stamps_of f h _ _ HR) as (ms & M1 & M2 & M3).
  assert (SA : sane_all (four_recursion L) ms) by (subst cur; apply Forall_map; exact HS).
  assert (ZC : zlen cur = zlen ms) by (subst cur; apply zlen_map).
  assert (ZR : zlen rec = zlen ms).
  { pose proof HB as (init & apps & L0 & -> & _ & _ & ZL). rewrite <- ZL. exact (Forall2_zlen _ _ _ M3). }
  destruct (candidates_kept f h (four_recursion L) (zlen r) _ ms SA M3) as (zs & K1 & K2). rewrite M2 in K1.
  pose proof (Forall2_zlen _ _ _ K2) as LZ. pose proof (candidates_len (four_recursion L) (zlen r) ms) as LC.
  assert (LM : zlen zs <= zlen ms) by (rewrite LZ; exact LC).
  assert (L1 : 1 <= zlen zs).
  { subst cur. apply Exists_exists in HE. destruct HE as (s & Hi & Hs). apply in_map_iff in Hi. destruct Hi as (m & <- & Hi).
    pose proof (candidates_some (four_recursion L) _ _ m Hi Hs) as NE. rewrite LZ. destruct (candidates (four_recursion L) (zlen r) ms) as [|c0 c]; [congruence|].
    unfold zlen. cbn [length]. lia. }
  assert (WC : (w = 4 /\ zlen cur < 2 ^ 32 - 1 \/ w = 8 /\ 2 ^ 32 - 1 <= zlen cur) /\ 256 ^ w = oracle_max w + 1 /\ 2 ^ (8 * w) - 1 = oracle_max w
    /\ (w = 1 \/ w = 2 \/ w = 4 \/ w = 8)).
  { rewrite Ew, ZR, ZC. unfold init_oracle_size. destruct (zlen ms <? 255) eqn:Q1; [lia|]. destruct (zlen ms <? 65535) eqn:Q2; [lia|].
    destruct (zlen ms <? 4294967295) eqn:Q3; repeat split; auto; lia. }
  destruct WC as (WC & MX2 & MX3 & Wn).
  assert (CT : exists t, even_parts (256 ^ w) (zlen zs) (if w =? 4 then zlen zs + zlen zs / 262144 + 3 else zlen zs * 8195) t
    /\ (zlen zs <= 2 ^ 31 \/ w = 8 -> forall i, 0 <= i < zlen zs -> t i < t (i + 1))
    /\ forall i o, 0 <= i < zlen zs -> 0 <= o <= oracle_max w -> (t i <= o < t (i + 1) <-> pick_index o (oracle_max w) (zlen zs) = Ok i)).
  { destruct WC as [[W4 WC]|[W8 WC]].
    - destruct (pick_cut_4 (zlen zs) ltac:(lia)) as (t & T1 & T2). exists t. rewrite W4. change (4 =? 4) with true. cbv iota.
      split; [exact T1|]. split; [|exact T2]. intros Hz i Hi. destruct Hz as [Hz|Hz]; [|lia]. destruct T1 as (_ & _ & T1). specialize (T1 i Hi).
      assert (zlen zs / 262144 <= 2 ^ 31 / 262144) by (apply Z.div_le_mono; lia). change (2 ^ 31 / 262144) with 8192 in *. nia.
    - destruct (pick_cut_8 (zlen zs) ltac:(lia)) as (t & T1 & T2). exists t. rewrite W8. change (8 =? 4) with false. cbv iota.
      split; [exact T1|]. split; [|exact T2]. intros _ i Hi. destruct T1 as (_ & _ & T1). specialize (T1 i Hi). nia. }
  destruct CT as (t & T1 & TP & T2).
  exists w, zs, t. split; [exact WC|]. split; [exact K1|]. split; [exact T1|]. split; [exact TP|].
  intros i z front b Hz Hf H0 Ht Hb. destruct (number_oracle w front r Wn Hf) as [Eo Ro].
  destruct (run_transfer _ _ b _ _ _ (sim_sized_oracle w) Hb Eo) as (b' & E1 & Hb').
  exists b'. split; [exact Hb'|].
  assert (Hi : 0 <= i < zlen zs).
  { split; [exact H0|]. assert (Q : (Z.to_nat i < length zs)%nat) by (apply nth_error_Some; congruence). unfold zlen. lia. }
  assert (Pk : pick_index (number front) (oracle_max w) (zlen zs) = Ok i) by (apply T2; lia).
  pose proof (lot_run (four_recursion L) w ms b b' r (number front) Hw SA ltac:(lia) E1 Hb' H4 ltac:(lia)) as R.
  destruct (candidates (four_recursion L) (zlen r) ms) as [|c0 c] eqn:C; [rewrite LZ in L1; change (zlen (@nil stamp)) with 0 in L1; lia|].
  rewrite LZ in Pk. destruct R as (j & m & R1 & _ & R3 & R4). pose proof (eq_trans (eq_sym R1) Pk) as RJ. injection RJ as ->.
  destruct (Forall2_nth _ _ _ K2 _ _ _ Hz R3) as (_ & Em).
  unfold ExtractStr at 1. rewrite extract_lot_S, HL. fold w.
  assert (Fb : Z.to_nat (Size b) = f) by (unfold f; cbn [Size BlobBlobOps]; rewrite (holds_size b _ Hb), zlen_app, Hf; reflexivity).
  rewrite Fb, <- M1. etransitivity; [exact R4|]. rewrite Em. apply C46_depth; [exact Hh| |exact (proj1 Hb')|].
  + apply (proj2 Hh L z); [exact (nth_error_In _ _ HL)|]. apply (kept_In _ _ _ _ K1). exact (nth_error_In _ _ Hz).
  + rewrite (holds_size b' r Hb'). unfold f. pose proof (zlen_nonneg r). lia.
Qed.
Print Assumptions C55_lottery_large.

(** A range of 3 values: 21846, 21845 and 21845 oracle values; three words: 85, 85 and 86 oracle bytes. *)
Example C54_case : map (fun o => OracleProportion o 5 7) [0; 21845; 21846; 43690; 43691; 65535]
    = [Ok 5; Ok 5; Ok 6; Ok 6; Ok 7; Ok 7]
  /\ (let h := mkHeap [ex_pool] [] in exists ys cur, pool_of h 0 ys /\ heap_leaves (fun _ _ ex => tame ex) h
      /\ Forall2 (report h) ys cur /\ Forall pool_sane cur /\ zlen cur <= 65536 /\ Exists (fits 7) cur).
Proof.
  split; [vm_compute; reflexivity|]. cbv zeta. destruct C32_case as (ys & cur & H1 & H2 & H3 & H4 & H5 & H6 & H7 & H8 & H9 & _).
  exists ys, cur. split; [exists ex_pool; split; assumption|]. split; [exact H4|]. split; [exact H6|]. split; [exact H7|]. split.
  - apply (f_equal (@zlen _)) in H2. rewrite zlen_map in H2. rewrite <- (Forall2_zlen _ _ _ H6), <- H2. vm_compute. discriminate.
  - apply Exists_exists in H9. destruct H9 as (s & Hi & Hs & _). apply Exists_exists. exists s. split; assumption.
Qed.

Example C55_case : map (fun c => fst (DictExtractStr [lit "one"; lit "two"; lit "three"] (blob_of [byte_of_Z c]))) [0; 84; 85; 169; 170; 255]
    = [Ok (lit "one"); Ok (lit "one"); Ok (lit "two"); Ok (lit "two"); Ok (lit "three"); Ok (lit "three")]
  /\ exists L rec cur, nth_error (lots ex_heap) 0 = Some L /\ built L rec /\ heap_leaves (fun _ _ ex => tame ex) ex_heap
      /\ Forall2 (report ex_heap) (lot_members L) cur /\ Forall (sane (four_recursion L)) cur /\ zlen cur < 65535 /\ Exists (fits 20) cur.
Proof.
  split; [vm_compute; reflexivity|]. destruct C31_case as (L & rec & cur & H1 & H2 & H3 & H4 & H5 & _ & _ & _ & H6 & _).
  exists L, rec, cur. repeat (split; [assumption|]). split; [|exact H6].
  rewrite <- (Forall2_zlen _ _ _ H4). injection H1 as <-. vm_compute. reflexivity.
Qed.

(** There are dictionaries of 100000 words; the words that four oracle values select. *)
Example C55_large_case : (exists d : list bytes, zlen d = 100000 /\ 65536 < zlen d <= 2 ^ 50)
  /\ map (fun o => pick_index o (2 ^ 64 - 1) 100000) [0; 2 ^ 63 - 4096; 2 ^ 63; 2 ^ 64 - 1] = [Ok 0; Ok 49999; Ok 50000; Ok 99999].
Proof.
  split; [|vm_compute; reflexivity]. destruct (some_dict 100000) as (d & Hd); [lia|]. exists d. rewrite Hd. split; [reflexivity|lia].
Qed.

(** A lottery of 70000 stamps. *)
Example C55_lottery_large_case : exists (h : heap blob) L rec cur, nth_error (lots h) 0 = Some L /\ built L rec /\ heap_leaves (fun _ _ ex => tame ex) h
  /\ Forall2 (report h) (lot_members L) cur /\ Forall (sane (four_recursion L)) cur /\ zlen cur = 70000 /\ Exists (fits 20) cur
  /\ map (fun o => pick_index o (oracle_max 4) 70000) [0; 61356; 61357; 2 ^ 32 - 1] = [Ok 0; Ok 0; Ok 1; Ok 69999].
Proof.
  set (x := XLeaf 4 4 (ArithExtractStr (B := blob) Int)).
  assert (G : forall n, (1 <= n)%nat -> exists (h : heap blob) L rec cur, nth_error (lots h) 0 = Some L /\ built L rec /\ heap_leaves (fun _ _ ex => tame ex) h
    /\ Forall2 (report h) (lot_members L) cur /\ Forall (sane (four_recursion L)) cur /\ zlen cur = Z.of_nat n /\ Exists (fits 20) cur).
  { intros n Hn. set (L := mkLottery (repeat x n) (lot_new (repeat (4, 4) n)) true).
    exists (mkHeap [] [L]), L, (repeat (4, 4) n), (repeat (4, 4) n). split; [reflexivity|]. split.
    { exists (repeat (4, 4) n), [], (lot_new (repeat (4, 4) n)). rewrite app_nil_r. split; [reflexivity|]. split; [left; reflexivity|].
      split; [reflexivity|]. unfold zlen. cbn [L lot_members]. rewrite !repeat_length. reflexivity. }
    split.
    { split; [intros P y []|]. intros L' y [<-|[]] Hy. apply repeat_spec in Hy. subst y. constructor. apply C46_leaves. }
    split; [cbn [L lot_members]; generalize (mkHeap [] [L]); intros hh; clear; induction n; cbn [repeat]; constructor; [split; reflexivity|assumption]|].
    split; [apply Forall_forall; intros s Hs; apply repeat_spec in Hs; subst s; split; cbn; lia|].
    split; [unfold zlen; rewrite repeat_length; reflexivity|]. destruct n; [lia|]. left. unfold fits. cbn. lia. }
  destruct (G (Z.to_nat 70000) ltac:(lia)) as (h & L & rec & cur & H1 & H2 & H3 & H4 & H5 & H6 & H7).
  rewrite Z2Nat.id in H6 by lia. exists h, L, rec, cur. repeat (split; [assumption|]). vm_compute. reflexivity.
Qed.

(** A pool of 70000 stamps. *)
Example C54_pool_large_case : exists (h : heap blob) ys cur, pool_of h 0 ys /\ heap_leaves (fun _ _ ex => tame ex) h
  /\ Forall2 (report h) ys cur /\ Forall pool_sane cur /\ zlen cur = 70000 /\ Exists (fits 20) cur
  /\ map (fun o => OracleProportion o 0 69999) [0; 1; 2; 14; 15; 65535] = [Ok 0; Ok 1; Ok 2; Ok 14; Ok 16; Ok 69998].
Proof.
  set (x := XLeaf 4 4 (ArithExtractStr (B := blob) Int)).
  assert (G : forall n, (1 <= n)%nat -> exists (h : heap blob) ys cur, pool_of h 0 ys /\ heap_leaves (fun _ _ ex => tame ex) h
    /\ Forall2 (report h) ys cur /\ Forall pool_sane cur /\ zlen cur = Z.of_nat n /\ Exists (fits 20) cur).
  { intros n Hn. exists (mkHeap [new_pool (repeat x n)] []), (repeat x n), (repeat (4, 4) n). split.
    { exists (new_pool (repeat x n)). split; reflexivity. }
    split.
    { split; [|intros L y []]. intros P y [<-|[]] Hy. cbn [new_pool weak_pool] in Hy. apply in_map_iff in Hy.
      destruct Hy as (y' & Ey & Hy). injection Ey as <-. apply repeat_spec in Hy. subst y'. constructor. apply C46_leaves. }
    split; [generalize (mkHeap [new_pool (repeat x n)] []); intros hh; clear; induction n; cbn [repeat]; constructor; [split; reflexivity|assumption]|].
    split; [apply Forall_forall; intros s Hs; apply repeat_spec in Hs; subst s; unfold pool_sane; cbn; lia|].
    split; [unfold zlen; rewrite repeat_length; reflexivity|]. destruct n; [lia|]. left. unfold fits. cbn. lia. }
  destruct (G (Z.to_nat 70000) ltac:(lia)) as (h & ys & cur & H1 & H2 & H3 & H4 & H5 & H6).
  rewrite Z2Nat.id in H5 by lia. exists h, ys, cur. repeat (split; [assumption|]). vm_compute. reflexivity.
Qed.
