(** Every division can come out of a GalleySet: lemmas for C65. *)
From Verif Require Import Base BaseFacts Blob Sim Oracle OracleFacts Galley VectorSpec VectorFloat VectorUnbounded SetSpec SetFacts SetFloat SetRun SetLimits ReachSetSpec.
Local Open Scope Z_scope.

(** ** Divisions that leave no choice *)
Lemma same_prefixes (es : list Z) : forall es', length es' = length es -> (forall k, sum (firstn k es') = sum (firstn k es)) -> es' = es.
Proof.
  induction es as [|e es IH]; intros [|e' es'] L H; try discriminate; [reflexivity|].
  assert (e' = e) as -> by (specialize (H 1%nat); cbn in H; lia). f_equal. apply IH; [cbn in L; lia|].
  intros k. specialize (H (S k)). cbn [firstn] in H. rewrite !sum_cons in H. lia.
Qed.

(** Weights 65535 times the wanted parts, up to 8191. *)
Lemma fair_wanted ws es es' : Forall (fun e => 0 <= e) es -> length es = length ws -> 0 < sum ws ->
  (forall k, Z.abs (sum (firstn k ws) - 65535 * sum (firstn k es)) <= 8191) -> fair (sum es) ws es' -> es' = es.
Proof.
  intros N L W H (L' & F). apply same_prefixes; [congruence|]. intros k.
  pose proof (sum_firstn_le es N k) as R. pose proof (H k) as A. pose proof (H (length ws)) as B. rewrite firstn_all in B.
  rewrite <- L, firstn_all in B. specialize (F k).
  set (S := sum (firstn k es')) in *. set (Ek := sum (firstn k es)) in *. set (E := sum es) in *. set (Wk := sum (firstn k ws)) in *. set (T := sum ws) in *.
  clearbody S Ek E Wk T. clear - R A B F W.
  set (a := Wk - 65535 * Ek) in *. set (c := T - 65535 * E) in *.
  assert (EQ : S * T - E * Wk = (S - Ek) * T + (Ek * c - E * a)) by (unfold a, c; ring).
  assert (C1 : Z.abs (Ek * c) <= E * 8191) by (rewrite Z.abs_mul, (Z.abs_eq Ek) by lia; apply Z.mul_le_mono_nonneg; lia).
  assert (C2 : Z.abs (E * a) <= E * 8191) by (rewrite Z.abs_mul, (Z.abs_eq E) by lia; apply Z.mul_le_mono_nonneg; lia).
  destruct (Z.eq_dec S Ek) as [->|Q]; [reflexivity|]. exfalso.
  assert (G : T <= Z.abs ((S - Ek) * T)) by (rewrite Z.abs_mul, (Z.abs_eq T) by lia; nia).
  destruct (Z.eq_dec E 0) as [E0|E0]; [subst E; lia|]. lia.
Qed.

(** Weights equal to the wanted parts. *)
Lemma fair_same es es' : Forall (fun e => 0 <= e) es -> fair (sum es) (weights es) es' -> es' = es.
Proof.
  intros N (L & F). unfold weights in *. destruct (sum es =? 0) eqn:Z0.
  - rewrite map_length in L. apply same_prefixes; [exact L|]. intros k. assert (sum es = 0) as E0 by lia. rewrite E0 in F. specialize (F k).
    pose proof (sum_firstn_le es N k). destruct es as [|e es]; [destruct es'; [|discriminate]; rewrite !firstn_nil; reflexivity|].
    assert (P : 0 < sum (map (fun _ : Z => 1) (e :: es))).
    { cbn [map]. rewrite sum_cons. enough (0 <= sum (map (fun _ : Z => 1) es)) by lia. apply sum_nonneg. rewrite Forall_map. apply Forall_forall. intros; lia. }
    set (T := sum (map _ _)) in *. clearbody T. nia.
  - apply same_prefixes; [exact L|]. intros k. specialize (F k). pose proof (sum_nonneg es N). nia.
Qed.

Lemma fair_only e es' : fair e (weights [0]) es' -> es' = [e].
Proof. intros (L & F). destruct es' as [|x [|]]; try discriminate. specialize (F 1%nat). change (sum (firstn 1 [x])) with (x + 0) in F. change (sum (weights [0])) with 1 in F. change (sum (firstn 1 (weights [0]))) with 1 in F. f_equal. lia. Qed.

(** ** The oracles that ask for given chunks *)
Definition orc (nu : Z) (s : Z * Z) (c : bytes) : Z :=
  if var s then Z.max 1 (65535 * (zlen c - fst s) / (snd s - fst s))
  else if unb s && (1 <? nu) then zlen c - fst s else 0.
Definition orcs (nu : Z) (L : list (Z * Z)) (cs : list bytes) : list Z := map (fun sc => orc nu (fst sc) (snd sc)) (combine L cs).

Lemma weight_bound e d : 0 <= e <= d -> 0 < d -> 1 <= Z.max 1 (65535 * e / d) <= 65535
  /\ Z.abs (d * Z.max 1 (65535 * e / d) - 65535 * e) <= d.
Proof.
  intros He Hd. pose proof (Z.mul_div_le (65535 * e) d Hd). pose proof (Z.mul_succ_div_gt (65535 * e) d Hd).
  set (q := 65535 * e / d) in *. assert (0 <= q) by (apply Z.div_pos; lia). assert (q <= 65535) by nia.
  split; [lia|]. destruct (Z.max_spec 1 q) as [[? ->]|[? ->]]; nia.
Qed.

Lemma extras_cons s L c cs : extras (s :: L) (c :: cs) = zlen c - fst s :: extras L cs. Proof. reflexivity. Qed.

Lemma sum_firstn_S x l k : sum (firstn (S k) (x :: l)) = x + sum (firstn k l). Proof. reflexivity. Qed.

Lemma orcs_data nu L cs : Forall2 within_sizes L cs -> Forall stamp_ok L ->
  (1 < nu -> Forall (fun e => e <= 65535) (of_kind unb L (extras L cs))) ->
  let os := orcs nu L cs in let ev := of_kind var L (extras L cs) in let eu := of_kind unb L (extras L cs) in
  Forall oracle16 os /\ length os = length L
  /\ Forall (fun e => 0 <= e) ev /\ Forall (fun e => 0 <= e) eu
  /\ length ev = length (var_weights L os)
  /\ (0 < count var L -> 0 < sum (var_weights L os)) /\ 0 <= sum (var_weights L os)
  /\ (forall k, Z.abs (sum (firstn k (var_weights L os)) - 65535 * sum (firstn k ev)) <= max_extra L)
  /\ sum ev <= max_extra L
  /\ sizes L ev eu = map zlen cs
  /\ zlen (concat cs) = sum (map fst L) + sum ev + sum eu
  /\ (1 < nu -> of_kind unb L os = eu) /\ (~ 1 < nu -> of_kind unb L os = map (fun _ => 0) eu).
Proof.
  intros HF HL. induction HF as [|s c L cs Hf HF IH]; intros HU; cbv zeta.
  { repeat split; try constructor; try (cbn; lia). intros k. rewrite !firstn_nil. cbn. lia. }
  pose proof (Forall_inv HL) as Hs. apply Forall_inv_tail in HL. destruct Hf as [F1 F2].
  rewrite extras_cons in *. unfold orcs. cbn [combine map fst snd]. fold (orcs nu L cs).
  rewrite of_kind_cons in HU.
  specialize (IH HL). cbv zeta in IH.
  rewrite !of_kind_cons, var_weights_cons, max_extra_cons, count_cons. cbn [length sizes map concat]. rewrite zlen_app, sum_cons.
  set (os := orcs nu L cs) in *. set (ev := of_kind var L (extras L cs)) in *. set (eu := of_kind unb L (extras L cs)) in *.
  destruct (kind_cases s Hs) as [(K1 & K2 & K3 & K4)|[(K1 & K2 & K3 & K4)|(K1 & K2 & K3 & K4)]]; rewrite K2, K3 in *; cbn [andb].
  - unfold fixed in K1. assert (zlen c = fst s) by (destruct (unb s) eqn:U; [congruence|]; unfold unb in U; specialize (F2 ltac:(lia)); lia).
    destruct (IH HU) as (A1 & A2 & A3 & A4 & A5 & A6 & A7 & A8 & A9 & A10 & A11 & A12 & A13).
    unfold orc. rewrite K2, K3. cbn [andb].
    repeat (split; [first [assumption | constructor; [unfold oracle16; lia|assumption] | lia | f_equal; lia || assumption | (intros; apply A6; lia) | idtac]|]); assumption || (f_equal; lia || assumption) || idtac.
  - assert (HU' : 1 < nu -> Forall (fun e => e <= 65535) eu) by (intros N; exact (Forall_inv_tail (HU N))).
    destruct (IH HU') as (A1 & A2 & A3 & A4 & A5 & A6 & A7 & A8 & A9 & A10 & A11 & A12 & A13).
    unfold orc. rewrite K2, K3. cbn [andb].
    split; [constructor; [|exact A1]; unfold oracle16; destruct (1 <? nu) eqn:N; [pose proof (Forall_inv (HU ltac:(lia))) as X; cbv beta in X; lia|lia]|].
    split; [lia|]. split; [exact A3|]. split; [constructor; [lia|exact A4]|]. split; [exact A5|]. split; [intros; apply A6; lia|]. split; [exact A7|].
    split; [exact A8|]. split; [lia|]. split; [f_equal; [lia|exact A10]|]. split; [rewrite sum_cons; lia|].
    split; intros N; destruct (1 <? nu) eqn:Q; try lia; cbn [map]; f_equal; auto.
  - unfold var in K3. assert (D : 0 < snd s - fst s) by lia. assert (U : snd s <> -1) by (unfold stamp_ok in Hs; lia).
    specialize (F2 U). destruct (weight_bound (zlen c - fst s) (snd s - fst s) ltac:(lia) D) as [W1 W2].
    destruct (IH HU) as (A1 & A2 & A3 & A4 & A5 & A6 & A7 & A8 & A9 & A10 & A11 & A12 & A13).
    unfold orc. unfold var. rewrite K3. set (o := Z.max _ _) in *.
    split; [constructor; [unfold oracle16; lia|exact A1]|]. split; [lia|]. split; [constructor; [lia|exact A3]|]. split; [exact A4|].
    split; [cbn [length]; lia|]. rewrite !sum_cons. split; [nia|]. split; [nia|].
    split; [intros [|k]; [cbn [firstn]; change (sum []) with 0; pose proof (max_extra_nonneg L); lia|rewrite !sum_firstn_S; specialize (A8 k); lia]|].
    split; [lia|]. split; [f_equal; [lia|exact A10]|]. split; [lia|]. split; assumption.
Qed.

Lemma limit_all L l : 0 <= avail L l -> limit L l 65535 = Z.min (avail L l) (max_extra L).
Proof.
  intros A. unfold limit. cbv zeta. destruct (both L); [|reflexivity].
  replace (2 * (65535 * avail L l) + 65535) with (65535 + avail L l * (2 * 65535)) by ring.
  rewrite Z.div_add by lia. change (65535 / (2 * 65535)) with 0. lia.
Qed.

Lemma count_zero_kind {A} p L (xs : list A) : length xs = length L -> count p L = 0 -> of_kind p L xs = [].
Proof. intros E H. apply zlen_0_nil. rewrite of_kind_len; assumption. Qed.

(** The data that give the chunks. *)
Definition set_data (L : list (Z * Z)) (cs : list bytes) : bytes :=
  division_oracle L 65535 ++ size_oracles (count unb L) L (orcs (count unb L) L cs) ++ concat cs.

Lemma set_reach L cs : set_ok L -> zlen L <= 65536 -> max_extra L <= 8191 -> Forall2 within_sizes L cs ->
  (1 < count unb L -> Forall (fun e => e <= 65535) (of_kind unb L (extras L cs))) ->
  min_total L - sum (map fst L) + zlen (concat cs) < 2 ^ 31 ->
  zlen (set_data L cs) = min_total L - sum (map fst L) + zlen (concat cs) /\ set_extract L (set_data L cs) = (Ok cs, []).
Proof.
  intros HS HN HX HF HU HT. pose proof HS as (HL & Hm & _).
  destruct (orcs_data (count unb L) L cs HF HL HU) as (A1 & A2 & A3 & A4 & A5 & A6 & A7 & A8 & A9 & A10 & A11 & A12 & A13).
  set (os := orcs _ L cs) in *. set (ev := of_kind var L (extras L cs)) in *. set (eu := of_kind unb L (extras L cs)) in *.
  pose proof (layout_len L 65535 os (concat cs) HL A2) as LL. fold (set_data L cs) in LL.
  pose proof (sum_nonneg ev A3) as V0. pose proof (sum_nonneg eu A4) as U0.
  assert (LD : zlen (set_data L cs) = min_total L - sum (map fst L) + zlen (concat cs)) by (unfold set_data; fold os; lia).
  split; [exact LD|].
  assert (VT : var_total_ok L os). { unfold var_total_ok. pose proof (count_nonneg var L). destruct (Z.eq_dec (count var L) 0); [left; assumption|right; apply A6; lia]. }
  destruct (set_run L 65535 os (concat cs) HS HN ltac:(unfold oracle16; lia) A1 A2 ltac:(lia) ltac:(fold (set_data L cs); unfold set_data in LD; fold os in LD; lia) VT)
    as (ev' & eu' & Fv & Fu & Run & Zv & Zu & Fa & Fb & _ & _ & T & ES & Fu0 & _).
  assert (AV : avail L (division_oracle L 65535 ++ size_oracles (count unb L) L os ++ concat cs) = sum ev + sum eu).
  { unfold avail. unfold set_data in LD. fold os in LD. rewrite LD. lia. }
  rewrite limit_all in T by (rewrite AV; lia). rewrite AV in T, ES.
  pose proof (A8 (length (var_weights L os))) as B. rewrite firstn_all in B. rewrite <- A5, firstn_all in B.
  assert (Fv = sum ev) as -> by lia. assert (Fu = sum eu) as -> by lia.
  assert (ev' = ev) as ->.
  { destruct (Z.eq_dec (count var L) 0) as [C0|C0].
    - rewrite C0 in Zv. rewrite (zlen_0_nil _ Zv). symmetry. apply count_zero_kind; [|exact C0].
      unfold extras. rewrite map_length, combine_length. apply Nat.min_l. clear - HF. induction HF; cbn; lia.
    - apply (fair_wanted (var_weights L os)); auto; [apply A6; pose proof (count_nonneg var L); lia|]. intros k. specialize (A8 k). lia. }
  assert (LE : length (extras L cs) = length L).
  { unfold extras. rewrite map_length, combine_length. apply Nat.min_l. clear - HF. induction HF; cbn; lia. }
  assert (Zeu : zlen eu = count unb L) by (apply of_kind_len; exact LE).
  assert (eu' = eu) as ->.
  { unfold unb_weights in Fb. destruct (Z_lt_le_dec 1 (count unb L)) as [C1|C1].
    - rewrite (A12 C1) in Fb. exact (fair_same eu eu' A4 Fb).
    - rewrite (A13 ltac:(lia)) in Fb. destruct eu as [|e [|]].
      + change (zlen []) with 0 in Zeu. rewrite <- Zeu in Zu. exact (zlen_0_nil _ Zu).
      + cbn [map] in Fb. rewrite (fair_only _ _ Fb). f_equal. cbn. lia.
      + rewrite !zlen_cons in Zeu. pose proof (zlen_nonneg l). lia. }
  etransitivity; [exact Run|]. rewrite A10.
  rewrite <- (app_nil_r (concat cs)) at 1. apply chop_all_run; [|reflexivity].
  rewrite Forall_map. apply Forall_forall. intros c Ic.
  assert (zlen c <= zlen (concat cs)).
  { clear - Ic. induction cs as [|a cs IH]; [destruct Ic|]. cbn [concat]. rewrite zlen_app. pose proof (zlen_nonneg a). pose proof (zlen_nonneg (concat cs)).
    destruct Ic as [->|Ic]; [lia|]. specialize (IH Ic). lia. }
  pose proof (zlen_nonneg c). pose proof (min_total_ge L HL). lia.
Qed.
