(** C77: galleys on data of 2 GiB and more. *)
From Coq Require Import ZArith Lia.
From Verif Require Import Base BaseFacts Blob BlobSpec RunSpec RunFacts Sim Oracle Arithm Galley
  VectorSpec VectorFacts VectorUnbounded VectorLimits VectorAllSpec VectorAll SetSpec SetFacts SetRun SetLimits HugeSpec HugeFacts HugeVector HugeSet.
Local Open Scope Z_scope.

(** A set without variated stamps divides a front part of its data, which is described by [counted], and leaves the rest. *)
Theorem C77_set : forall L b l, set_ok L -> zlen L <= 65536 -> count var L = 0 -> roomy unb L ->
  holds b l -> min_total L <= zlen l -> min_total L + counted (zlen l - min_total L) < 2 ^ 31 ->
  exists p q o0 os chunks rest Fv Fu, l = p ++ q /\ zlen p = min_total L + counted (zlen l - min_total L)
    /\ cuts (set_extract L) b chunks (rest ++ q) /\ set_cut L p o0 os chunks rest Fv Fu.
Proof.
  intros L b l HS HN HV HR Hb Hl Hc. pose proof HS as (HL & Hm & HX). pose proof (holds_small _ _ Hb) as Hs.
  pose proof (min_total_ge L HL) as MT. set (d := zlen l - min_total L) in *.
  assert (Hd : 0 <= counted d <= d).
  { unfold counted. pose proof (Z.mod_pos_bound d (2 ^ 32) ltac:(lia)). pose proof (Z.mod_le d (2 ^ 32) ltac:(lia) ltac:(lia)).
    destruct (_ <? _); lia. }
  assert (MT0 : 0 <= min_total L) by (pose proof (count_nonneg unb L); pose proof (count_nonneg var L); lia).
  destruct (list_split l (min_total L + counted d) ltac:(lia)) as (p & q & -> & Lp).
  destruct (layout_ex L p HL ltac:(lia)) as (o0 & os & r & Ep & Ho0 & Ho & E & Hr).
  destruct (set_cut_run L o0 os r HS HN Ho0 Ho E Hr ltac:(rewrite <- Ep; lia) (or_introl HV) ltac:(left; lia) HR) as (cs & rest & Fv & Fu & X & C).
  rewrite <- Ep in C. assert (X' : set_extract L p = (Ok cs, rest)) by (rewrite Ep; exact X).
  exists p, q, o0, os, cs, rest, Fv, Fu. split; [reflexivity|]. split; [exact Lp|]. split; [|exact C].
  refine (cuts_transfer _ _ b _ _ _ (sim_set_extract L) Hb _).
  rewrite set_divide in X' |- * by (try assumption; try (rewrite zlen_app in *); lia).
  replace (Z.max 0 (i32 (zlen (p ++ q) - min_total L))) with (Z.max 0 (i32 (zlen p - min_total L))).
  - exact (st_divide L _ p cs rest X' q).
  - fold d. rewrite Lp. replace (min_total L + counted d - min_total L) with (counted d) by lia. clear - Hc MT0 Hd.
    rewrite (i32_id (counted d)) by lia. unfold counted in *. pose proof (Z.mod_pos_bound d (2 ^ 32) ltac:(lia)).
    destruct (d mod 2 ^ 32 <? 2 ^ 31) eqn:Q.
    + unfold i32. pose proof (Z.div_mod d (2 ^ 32) ltac:(lia)) as D.
      replace (d + 2 ^ 31) with ((d mod 2 ^ 32 + 2 ^ 31) + (d / 2 ^ 32) * 2 ^ 32) by lia.
      rewrite Z_mod_plus_full, (Z.mod_small (d mod 2 ^ 32 + 2 ^ 31)) by lia. lia.
    + rewrite i32_high by lia. lia.
Qed.
Print Assumptions C77_set.

(** From 2 to 4 GiB above the minimum, and so on: only the minimum is divided, everything above it is left. *)
Theorem C77_set_waste : forall L b l, set_ok L -> zlen L <= 65536 -> count var L = 0 -> roomy unb L -> holds b l ->
  min_total L <= zlen l -> 2 ^ 31 <= (zlen l - min_total L) mod 2 ^ 32 ->
  exists p q o0 os chunks rest Fv Fu, l = p ++ q /\ zlen p = min_total L
    /\ cuts (set_extract L) b chunks (rest ++ q) /\ set_cut L p o0 os chunks rest Fv Fu
    /\ forall s c, In (s, c) (combine L chunks) -> zlen c = fst s.
Proof.
  intros L b l HS HN HV HR Hb Hl Hd. assert (E : counted (zlen l - min_total L) = 0) by (unfold counted; destruct (_ <? _) eqn:Q; [lia|reflexivity]).
  pose proof HS as (HL & Hm & HX).
  destruct (C77_set L b l HS HN HV HR Hb Hl ltac:(rewrite E; lia)) as (p & q & o0 & os & cs & rest & Fv & Fu & H1 & H2 & H3 & H4).
  exists p, q, o0, os, cs, rest, Fv, Fu. rewrite E, Z.add_0_r in H2.
  pose proof (cut_minimum _ _ _ _ _ _ _ _ HS HN HV H4 H2). auto.
Qed.
Print Assumptions C77_set_waste.

(** Any set: 2^32 bytes more, or a multiple of that, make no difference; they are left. *)
Theorem C77_set_more : forall L b b' p q chunks rest, set_ok L -> holds b p -> holds b' (p ++ q) -> min_total L <= zlen p ->
  zlen q mod 2 ^ 32 = 0 ->
  (cuts (set_extract L) b chunks rest -> cuts (set_extract L) b' chunks (rest ++ q))
  /\ (fst (set_extract L b) = UB -> fst (set_extract L b') = UB).
Proof.
  intros L b b' p q cs rest HS Hb Hb' Hp Hq. pose proof (holds_small _ _ Hb') as Hs.
  destruct (set_front L p q HS Hp ltac:(lia) Hq) as [F1 F2].
  pose proof (sim_set_extract L b p (holds_rel b p Hb)) as (R & _ & _ & C). split.
  - intros (bs & b1 & E & W & M & _ & K). rewrite E in R, C. cbn [fst snd cont BlobBlobLaws ListLaws] in R, C.
    destruct (set_extract L p) as [[xs| | | |] l1] eqn:Q; cbn [fst snd res_rel] in R, C; try tauto.
    assert (Ex : xs = cs).
    { rewrite <- M. clear - R. induction R as [|c w bs xs (_ & _ & E) R IH]; [reflexivity|]. cbn [map]. rewrite IH. f_equal. symmetry. exact E. }
    assert (El : l1 = rest) by (rewrite <- K; symmetry; exact C). subst xs. rewrite <- El.
    exact (cuts_transfer _ _ b' _ _ _ (sim_set_extract L) Hb' (F1 cs l1 eq_refl)).
  - intros U. apply (run_transfer_ub _ _ _ b' _ (sim_set_extract L) Hb'). apply F2. rewrite U in R.
    destruct (fst (set_extract L p)); cbn [res_rel] in R; tauto.
Qed.
Print Assumptions C77_set_more.

(** A set with variated stamps whose size above the minimum, modulo 2^32, falls short of 2^32 by [G], 2^31 at most: this shortage is taken
    from the variated stamps.  Fixed and unbounded stamps get their minSize(). *)
Theorem C77_set_negative : forall L b o0 os r G, set_ok L -> zlen L <= 65536 -> 0 < count var L ->
  oracle16 o0 -> Forall oracle16 os -> length os = length L ->
  let l := division_oracle L o0 ++ size_oracles (count unb L) L os ++ r in
  holds b l -> min_total L <= zlen l < 2 ^ 63 -> (zlen l - min_total L) mod 2 ^ 32 = 2 ^ 32 - G -> 0 < G <= 2 ^ 31 ->
  (sum (var_weights L os) = 0 -> fst (set_extract L b) = UB)
  /\ (0 < sum (var_weights L os) ->
      (exists chunks rest, cuts (set_extract L) b chunks rest /\ r = concat chunks ++ rest /\ length chunks = length L
         /\ fair (- G) (var_weights L os) (of_kind var L (extras L chunks))
         /\ Forall (fun e => e = 0) (of_kind fixed L (extras L chunks)) /\ Forall (fun e => e = 0) (of_kind unb L (extras L chunks)))
      \/ exists rest es, runs (set_extract L) b OutOfData rest /\ fair (- G) (var_weights L os) es
         /\ Exists (fun se => fst (fst se) + snd se < 0) (combine (filter var L) es))
  /\ (0 < sum (var_weights L os) -> sum (map fst (filter var L)) < G -> exists rest, runs (set_extract L) b OutOfData rest).
Proof.
  intros L b o0 os r G HS HN HV Ho0 Ho E l Hb Hl EG HG. pose proof HS as (HL & Hm & HX). pose proof (min_total_ge L HL) as MT.
  assert (EI : i32 (zlen l - min_total L) = - G) by (rewrite i32_high by lia; lia).
  pose proof (layout_len L o0 os r HL E) as Ll. fold l in Ll.
  assert (Two : 0 < sum (var_weights L os) ->
      (exists chunks rest, cuts (set_extract L) b chunks rest /\ r = concat chunks ++ rest /\ length chunks = length L
         /\ fair (- G) (var_weights L os) (of_kind var L (extras L chunks))
         /\ Forall (fun e => e = 0) (of_kind fixed L (extras L chunks)) /\ Forall (fun e => e = 0) (of_kind unb L (extras L chunks)))
      \/ exists rest es, runs (set_extract L) b OutOfData rest /\ fair (- G) (var_weights L os) es
         /\ Exists (fun se => fst (fst se) + snd se < 0) (combine (filter var L) es)).
  { intros HW. destruct (set_run_neg L o0 os r G HS HN Ho0 Ho E HW ltac:(fold l; lia) HG EI) as (ev & eu & Run & Zv & Zu & Fv & Fu & SI). fold l in Run.
    destruct (sizes_props L HL ev eu Zv Zu) as (SL & SS & SE).
    assert (Sv : sum ev = - G) by (apply (fair_sum (- G) (var_weights L os)); assumption).
    assert (Su : sum eu = 0) by (clear - Fu; induction Fu as [|e es He H IH]; [reflexivity|]; rewrite sum_cons, IH; lia).
    destruct (Forall_Exists_dec (fun k => 0 <= k) (fun k => Z_le_dec 0 k) (sizes L ev eu)) as [S0|S0].
    - left. destruct (cut_ex (sizes L ev eu) r S0 ltac:(lia)) as (cs & rest & Er & Ec).
      exists cs, rest. destruct (SE cs Ec) as (X1 & X2 & X3). split; [|split; [exact Er|split; [|rewrite X1, X2; auto]]].
      + apply (cuts_transfer _ _ b l cs rest (sim_set_extract L) Hb).
        change (@set_extract (list byte)) with (@set_extract bytes) in *. rewrite Run, Er. apply chop_all_run; [|exact Ec].
        apply Forall_forall. intros k Hk. rewrite Forall_forall in SI, S0. specialize (SI k Hk). specialize (S0 k Hk). cbv beta in S0. unfold in_int in SI. lia.
      + rewrite <- SL, <- Ec, map_length. reflexivity.
    - right. assert (S1 : Exists (fun k => k < 0) (sizes L ev eu)) by (eapply Exists_impl; [|exact S0]; cbv beta; intros; lia).
      destruct (chop_all_huge _ SI S1 r ltac:(lia)) as (rest & Er). exists rest, ev. split; [|split; [exact Fv|exact (sizes_negative L HL ev eu Fu S1)]].
      apply (cuts_transfer_fail _ _ _ b l rest (sim_set_extract L) Hb).
      change (@set_extract (list byte)) with (@set_extract bytes) in *. rewrite Run. exact Er. }
  split; [|split; [exact Two|]].
  - intros HW. apply (run_transfer_ub _ _ _ b l (sim_set_extract L) Hb).
    apply (set_zero_neg L o0 os r G HS HN Ho0 Ho E HV HW); fold l; lia || assumption.
  - intros HW Hs. destruct (Two HW) as [(cs & rest & _ & _ & Lc & Fv & _)|(rest & es & R & _)]; [|exists rest; exact R].
    exfalso. pose proof (fair_sum _ _ _ HW Fv). pose proof (var_extras_ge L cs Lc). lia.
Qed.
Print Assumptions C77_set_negative.

(** A vector of unbounded stamps, size negative as an int: OutOfData, up to 256 bytes at the lower and 4 KiB at the upper end. *)
Theorem C77_vector_negative : forall mn b o os l, 0 <= mn <= 2 ^ 30 -> oracle16 o -> Forall oracle16 os -> os <> [] ->
  let data := le16 o ++ concat (map le16 os) ++ l in
  holds b data -> mn <= zlen data < 2 ^ 46 -> zlen os = part_count mn (zlen data) o -> sum os < 2 ^ 31 ->
  2 ^ 31 + mn * zlen os + 256 <= zlen l mod 2 ^ 32 <= 2 ^ 32 - 4096 ->
  exists rest, runs (vector_extract mn (-1)) b OutOfData rest.
Proof.
  intros mn b o os l Hm Ho Hos Onil data Hb Hl Hn Hs Hz.
  destruct (negative_size mn o os l Hm Ho Hos Onil Hl Hn Hs Hz) as (rest & R).
  exists rest. exact (cuts_transfer_fail _ _ _ b data rest (sim_vector_extract mn (-1)) Hb R).
Qed.
Print Assumptions C77_vector_negative.

(** Minimal sizes that an int cannot hold or that cannot be subtracted from the size, or weights that an int cannot hold. *)
Theorem C77_vector_overflow : forall mn b o os l, 0 <= mn < 2 ^ 31 -> oracle16 o -> Forall oracle16 os -> os <> [] ->
  let data := le16 o ++ concat (map le16 os) ++ l in
  holds b data -> mn <= zlen data < 2 ^ 46 -> zlen os = part_count mn (zlen data) o ->
  2 ^ 31 <= mn * zlen os \/ 2 ^ 31 <= zlen l mod 2 ^ 32 < 2 ^ 31 + mn * zlen os \/ 2 ^ 31 <= sum os ->
  fst (vector_extract mn (-1) b) = UB.
Proof.
  intros mn b o os l Hm Ho Hos Onil data Hb Hl Hn Hc. pose proof (holds_small _ _ Hb) as Hd.
  assert (L2 : 2 <= zlen data) by (unfold data; rewrite zlen_app, le16_len; pose proof (zlen_nonneg (concat (map le16 os) ++ l)); lia).
  apply (run_transfer_ub _ _ _ b data (sim_vector_extract mn (-1)) Hb).
  destruct (Z_lt_le_dec (sum os) (2 ^ 31)) as [S|S].
  - unfold data. rewrite to_the_loop_huge by (try assumption; fold data; lia).
    destruct (Z_lt_le_dec (mn * zlen os) (2 ^ 31)) as [F|F].
    + destruct Hc as [Hc|[Hc|Hc]]; [lia| |lia]. pose proof (zlen_nonneg os). assert (0 <= mn * zlen os) by nia.
      rewrite (bind_lift_ok _ _ _ (mn * zlen os)) by (unfold int_op, in_i32; destruct (_ && _) eqn:E; [reflexivity|lia]).
      rewrite i32_high by lia. unfold bind at 1, lift, int_op, in_i32. destruct (_ && _) eqn:E; [lia|reflexivity].
    + unfold bind at 1, lift, int_op, in_i32. destruct (_ && _) eqn:E; [lia|reflexivity].
  - apply oracles_overflow; [exact Hm|exact Ho|exact Hos|exact (conj (proj1 Hl) Hd)| |exact S].
    rewrite Hn. symmetry. apply count_all; [exact Hm|lia|exact Ho].
Qed.
Print Assumptions C77_vector_overflow.

(** From 4 GiB on, size small as an int: the parts are shares of the size modulo 2^32, everything else is left. *)
Theorem C77_vector_wraps : forall mn b o os l, 0 <= mn < 2 ^ 31 -> oracle16 o -> Forall oracle16 os -> os <> [] ->
  let data := le16 o ++ concat (map le16 os) ++ l in let z := zlen l mod 2 ^ 32 in
  holds b data -> mn <= zlen data < 2 ^ 46 -> zlen os = part_count mn (zlen data) o -> sum os < 2 ^ 31 ->
  2 ^ 32 <= zlen l -> mn * zlen os <= z <= 2 ^ 31 - 4096 ->
  exists chunks rest, cuts (vector_extract mn (-1)) b chunks rest /\ l = concat chunks ++ rest
    /\ 1000000 * Z.abs (zlen (concat chunks) - z) <= 2000000 + z
    /\ Forall2 (fun w c => roughly_share mn (z - mn * zlen os) (sum (weights os)) w (zlen c)) (weights os) chunks.
Proof.
  intros mn b o os l Hm Ho Hos Onil data z Hb Hl Hn Hs Hbig Hz.
  destruct (wrapped_size mn o os l Hm Ho Hos Onil Hl Hn Hs Hbig Hz) as (cs & rest & R & P).
  exists cs, rest. split; [exact (cuts_transfer _ _ b data cs rest (sim_vector_extract mn (-1)) Hb R)|exact P].
Qed.
Print Assumptions C77_vector_wraps.

(** Two unbounded stamps of 8 and 2 bytes with their two oracles: of 3 GiB 14 bytes are used, of 4 GiB and 114 bytes 114. *)
Example C77_set_case : exists L, set_ok L /\ count var L = 0 /\ roomy unb L /\ min_total L = 14
  /\ counted (3 * 2 ^ 30 - 14) = 0 /\ counted (2 ^ 32 + 114 - 14) = 100.
Proof.
  exists [(8, -1); (2, -1)]. split; [|split; [reflexivity|split; [|split; [reflexivity|split; reflexivity]]]].
  - split; [|split; reflexivity]. repeat constructor; unfold stamp_ok; cbn; lia.
  - left. vm_compute. discriminate.
Qed.

(** 3 GiB for a stamp of at least 10 bytes, count oracle 0: one part, and OutOfData. *)
Example C77_vector_case : exists b d, zlen d = 3 * 2 ^ 30 /\ holds b d /\ exists rest, runs (vector_extract 10 (-1)) b OutOfData rest.
Proof.
  set (l := repeat x00 (Z.to_nat (3 * 2 ^ 30 - 4))).
  assert (Ll : zlen l = 3 * 2 ^ 30 - 4) by (unfold l; rewrite zlen_repeat; lia). clearbody l.
  set (d := le16 0 ++ concat (map le16 [7]) ++ l).
  assert (Ld : zlen d = 3 * 2 ^ 30) by (unfold d; rewrite !zlen_app, le16_len; change (zlen (concat (map le16 [7]))) with 2; lia).
  exists (blob_of d), d. split; [exact Ld|]. assert (Hd : holds (blob_of d) d) by (apply holds_blob_of; lia). split; [exact Hd|].
  apply (C77_vector_negative 10 (blob_of d) 0 [7] l); try (unfold oracle16; lia); try discriminate.
  - repeat constructor; unfold oracle16; lia.
  - exact Hd.
  - fold d. lia.
  - fold d. rewrite Ld. reflexivity.
  - reflexivity.
  - rewrite Ll. vm_compute. split; discriminate.
Qed.

(** A variated stamp of 10 to 20 bytes and 4 GiB and 8 bytes of data: a chunk of 6 bytes; 3 GiB: OutOfData. *)
Example C77_negative_case : exists L, set_ok L /\ count var L = 1 /\ min_total L = 12 /\ sum (var_weights L [1]) = 10
  /\ (forall b l c rest, holds b l -> zlen l = 2 ^ 32 + 8 -> (exists r, l = le16 1 ++ r) -> cuts (set_extract L) b [c] rest -> zlen c = 6)
  /\ (forall b l, holds b l -> zlen l = 3 * 2 ^ 30 -> (exists r, l = le16 1 ++ r) -> exists rest, runs (set_extract L) b OutOfData rest).
Proof.
  exists [(10, 20)]. assert (S : set_ok [(10, 20)]) by (split; [repeat constructor; unfold stamp_ok; cbn; lia|split; reflexivity]).
  assert (O : Forall oracle16 [1]) by (repeat constructor; unfold oracle16; lia).
  assert (O0 : oracle16 0) by (unfold oracle16; lia).
  split; [exact S|]. split; [reflexivity|]. split; [reflexivity|]. split; [reflexivity|]. split.
  - intros b l c rest Hb Hl [r ->] X.
    destruct (C77_set_negative [(10, 20)] b 0 [1] r 4 S ltac:(vm_compute; discriminate) ltac:(reflexivity) O0 O eq_refl) as (_ & T & _).
    + exact Hb.
    + change (zlen (le16 1 ++ r)) with (zlen (division_oracle [(10, 20)] 0 ++ size_oracles (count unb [(10, 20)]) [(10, 20)] [1] ++ r)) in Hl. rewrite Hl. vm_compute. split; [discriminate|reflexivity].
    + change (zlen (le16 1 ++ r)) with (zlen (division_oracle [(10, 20)] 0 ++ size_oracles (count unb [(10, 20)]) [(10, 20)] [1] ++ r)) in Hl. rewrite Hl. reflexivity.
    + lia.
    + destruct (T ltac:(reflexivity)) as [(cs & rest' & Y & _ & Lc & [_ F] & _)|(rest' & es & Y & _)].
      * destruct X as (xs & b1 & E1 & _ & M1 & _). destruct Y as (ys & b2 & E2 & _ & M2 & _). rewrite E1 in E2. injection E2 as <- <-.
        rewrite M1 in M2. subst cs. specialize (F 1%nat). change (extras [(10, 20)] [c]) with [zlen c - 10] in F.
        change (sum (var_weights [(10, 20)] [1])) with 10 in F. change (sum (firstn 1 (var_weights [(10, 20)] [1]))) with 10 in F.
        change (sum (firstn 1 (of_kind var [(10, 20)] [zlen c - 10]))) with (zlen c - 10 + 0) in F. lia.
      * exfalso. destruct X as (xs & b1 & E1 & _). destruct Y as (b2 & E2 & _). rewrite E1 in E2. discriminate E2.
  - intros b l Hb Hl [r ->].
    destruct (C77_set_negative [(10, 20)] b 0 [1] r (2 ^ 30 + 12) S ltac:(vm_compute; discriminate) ltac:(reflexivity) O0 O eq_refl) as (_ & _ & T).
    + exact Hb.
    + change (zlen (le16 1 ++ r)) with (zlen (division_oracle [(10, 20)] 0 ++ size_oracles (count unb [(10, 20)]) [(10, 20)] [1] ++ r)) in Hl. rewrite Hl. vm_compute. split; [discriminate|reflexivity].
    + change (zlen (le16 1 ++ r)) with (zlen (division_oracle [(10, 20)] 0 ++ size_oracles (count unb [(10, 20)]) [(10, 20)] [1] ++ r)) in Hl. rewrite Hl. reflexivity.
    + lia.
    + apply T; reflexivity.
Qed.
