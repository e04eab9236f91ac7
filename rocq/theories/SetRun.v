(** GalleySet: the whole extraction. *)
From Coq Require Import ZArith Reals Lia Lra.
From Flocq Require Import Core.Core IEEE754.BinarySingleNaN.
From Verif Require Import Base BaseFacts FloatModel FloatFacts PickFacts Oracle Arithm Sim Galley VectorSpec VectorFacts VectorUnbounded SetSpec SetFloat SetFacts.
Local Open Scope Z_scope.

(** ** Fair divisions *)
Lemma sum_firstn_le ws : Forall (fun w => 0 <= w) ws -> forall k, 0 <= sum (firstn k ws) <= sum ws.
Proof.
  induction 1 as [|w ws Hw H IH]; intros [|k]; cbn [firstn]; rewrite ?sum_cons; try (cbn; lia).
  - pose proof (sum_nonneg ws H). cbn [sum fold_right]. lia.
  - specialize (IH k). lia.
Qed.

Lemma fair_range F ws es : 0 <= F -> Forall (fun w => 0 <= w) ws -> 0 < sum ws -> fair F ws es ->
  forall k, 0 <= sum (firstn k es) <= F.
Proof.
  intros HF Hw HW [_ H] k. specialize (H k). pose proof (sum_firstn_le ws Hw k) as S.
  set (C := sum (firstn k es)) in *. set (p := sum (firstn k ws)) in *. set (W := sum ws) in *.
  assert (0 <= F * p <= F * W) by nia. split.
  - destruct (Z_lt_le_dec C 0) as [N|N]; [exfalso|exact N]. assert (C * W <= - W) by nia. lia.
  - destruct (Z_le_gt_dec C F) as [N|N]; [exact N|exfalso]. assert (F * W + W <= C * W) by nia. lia.
Qed.

Lemma fair_sum F ws es : 0 < sum ws -> fair F ws es -> sum es = F.
Proof.
  intros HW [E H]. specialize (H (length ws)). rewrite firstn_all in H. rewrite <- E, firstn_all in H.
  set (C := sum es) in *. set (W := sum ws) in *.
  destruct (Z_lt_le_dec C F) as [N|N]; [exfalso; assert (C * W + W <= F * W) by nia; lia|].
  destruct (Z_lt_le_dec F C) as [N'|N']; [exfalso; assert (F * W + W <= C * W) by nia; lia|]. lia.
Qed.

Lemma in_firstn e es : In e es -> exists k, sum (firstn (S k) es) = sum (firstn k es) + e.
Proof.
  intros H. apply in_split in H. destruct H as (a & c & ->). exists (length a).
  replace (S (length a)) with (length a + 1)%nat by lia. rewrite !firstn_app_2.
  rewrite firstn_app, Nat.sub_diag, firstn_all, !sum_app. cbn [firstn sum fold_right]. lia.
Qed.

Lemma fair_el F ws es : 0 <= F -> Forall (fun w => 0 <= w) ws -> 0 < sum ws -> fair F ws es ->
  Forall (fun e => -1 <= e <= F) es.
Proof.
  intros HF Hw HW H. apply Forall_forall. intros e He. destruct (in_firstn e es He) as [k E].
  pose proof (fair_range F ws es HF Hw HW H k) as R1. pose proof (fair_range F ws es HF Hw HW H (S k)) as R2.
  split; [|lia]. destruct H as [_ H]. pose proof (H k) as H1. pose proof (H (S k)) as H2.
  assert (M : sum (firstn k ws) <= sum (firstn (S k) ws)).
  { clear - Hw. revert k. induction Hw as [|w ws Hw H IH]; intros k; [rewrite !firstn_nil; lia|].
    destruct k as [|k]; [cbn; lia|]. cbn [firstn] in *. rewrite !sum_cons. specialize (IH k). cbn [firstn] in IH. lia. }
  rewrite E in H2. set (C := sum (firstn k es)) in *. set (W := sum ws) in *.
  set (p := sum (firstn k ws)) in *. set (q := sum (firstn (S k) ws)) in *.
  destruct (Z_lt_le_dec e (-1)) as [N|N]; [exfalso|exact N].
  assert ((C + e) * W <= C * W - 2 * W) by nia. assert (F * p <= F * q) by nia. lia.
Qed.

(** First and last are not negative. *)
Lemma fair_first F ws e es : 0 <= F -> Forall (fun w => 0 <= w) ws -> 0 < sum ws -> fair F ws (e :: es) -> 0 <= e.
Proof.
  intros HF Hw HW H. pose proof (fair_range F ws _ HF Hw HW H 1) as R. cbn [firstn sum fold_right] in R. lia.
Qed.

Lemma fair_last F ws e es : 0 <= F -> Forall (fun w => 0 <= w) ws -> 0 < sum ws -> fair F ws (es ++ [e]) -> 0 <= e.
Proof.
  intros HF Hw HW H. pose proof (fair_range F ws _ HF Hw HW H (length es)) as R. pose proof (fair_sum F ws _ HW H) as S.
  rewrite firstn_app, Nat.sub_diag, firstn_all, app_nil_r in R. rewrite sum_app in S. cbn [sum fold_right] in S. lia.
Qed.

Lemma fair_small F ws es : 0 <= F -> Forall (fun w => 0 <= w) ws -> 0 < sum ws -> fair F ws es -> zlen es <= 2 ->
  Forall (fun e => 0 <= e) es.
Proof.
  intros HF Hw HW H L. destruct es as [|a [|c [|d es]]].
  - constructor.
  - constructor; [|constructor]. exact (fair_first F ws a [] HF Hw HW H).
  - constructor; [exact (fair_first F ws a [c] HF Hw HW H)|]. constructor; [|constructor].
    exact (fair_last F ws c [a] HF Hw HW H).
  - rewrite !zlen_cons in L. pose proof (zlen_nonneg es). lia.
Qed.

(** ** One kind of stamps *)
Lemma class_rounds F c xs ws : 0 <= F <= 2 ^ 31 -> (bpow radix2 (-20) <= c <= 1)%R ->
  Forall (fun w => 0 <= w) ws -> 1 <= sum ws <= 2 ^ 48 -> Forall2 (scaled c) xs ws -> zlen xs <= 65536 ->
  exists es, rounds (f64_div (f64_of_Z F) (fold_left f64_add xs (f64_of_Z 0))) xs (f64_of_Z 0) = Ok es
    /\ fair F ws es /\ Forall2 (fun w e => w <> 0 -> 0 <= e) ws es /\ Forall (fun e => - F <= e <= F) es.
Proof.
  intros HF Hc Hw HW Hs Hn. destruct (shares_good F c xs ws HF Hc Hw HW Hs Hn) as (t & _ & _ & _ & G).
  assert (Fz : fin (f64_of_Z 0) 0%R) by (apply of_Z_exact; vm_compute; discriminate).
  destruct (rounds_run F (sum ws) _ HF ltac:(lia) xs ws 0 0 (f64_of_Z 0) 0%R 0 G Hw ltac:(lia) ltac:(lia) Fz) as (es & E & I & P & Q).
  - rewrite Rabs_R0. lra.
  - reflexivity.
  - replace (part F (sum ws) 0) with 0%R by (unfold part, Rdiv; ring). rewrite !Rmult_0_l, Rmult_0_r, !Rplus_0_l, Rminus_0_r, Rabs_R0. lra.
  - lia.
  - lia.
  - exists es. split; [exact E|]. split; [|split; assumption]. split.
    + clear - P. induction P; cbn; congruence.
    + intros k. specialize (Q k). rewrite !Z.add_0_l in Q. exact Q.
Qed.

Lemma class_run F c xs ws : 0 <= F < 2 ^ 31 -> (bpow radix2 (-20) <= c <= 1)%R ->
  Forall (fun w => 0 <= w) ws -> 1 <= sum ws <= 2 ^ 48 -> Forall2 (scaled c) xs ws -> zlen xs <= 65536 ->
  exists es, shares (f64_div (f64_of_Z F) (fold_left f64_add xs (f64_of_Z 0))) xs (f64_of_Z 0) = Ok es
    /\ fair F ws es /\ Forall2 (fun w e => w <> 0 -> 0 <= e) ws es.
Proof.
  intros HF Hc Hw HW Hs Hn. destruct (class_rounds F c xs ws ltac:(lia) Hc Hw HW Hs Hn) as (es & E & P & Q & I).
  exists es. split; [|split; assumption]. apply shares_rounds; [exact E|]. eapply Forall_impl; [|exact I]. cbv beta. intros. lia.
Qed.

(** ** Modifiers *)
Fixpoint resetm (L : list (Z * Z)) (ms : list f64) : list f64 :=
  match L, ms with s :: L', m :: ms' => (if unb s then f64_of_Z 1 else m) :: resetm L' ms' | _, _ => ms end.

Lemma reset_run L : forall ms t, length ms = length L ->
  reset_modifiers L ms t = (resetm L ms, fold_left f64_add (umods L (resetm L ms)) t).
Proof.
  induction L as [|[mn mx] L IH]; intros [|m ms] t E; try discriminate; [reflexivity|].
  cbn [reset_modifiers resetm]. rewrite umods_cons. change (isUnbounded mn mx) with (unb (mn, mx)). cbn in E.
  destruct (unb (mn, mx)); rewrite IH by lia; reflexivity.
Qed.

Lemma resetm_len L : forall ms, length ms = length L -> length (resetm L ms) = length L.
Proof. induction L as [|s L IH]; intros [|m ms] E; try discriminate; [reflexivity|]. cbn in *. rewrite IH; lia. Qed.

Lemma resetm_vmods L : Forall stamp_ok L -> forall ms, length ms = length L -> vmods L (resetm L ms) = vmods L ms.
Proof.
  induction 1 as [|s L Hs H IH]; intros [|m ms] E; try discriminate; [reflexivity|]. cbn in E. cbn [resetm].
  rewrite !vmods_cons, IH by lia.
  destruct (kind_cases s Hs) as [(_ & -> & -> & _)|[(_ & -> & -> & _)|(_ & -> & -> & _)]]; reflexivity.
Qed.

Lemma resetm_umods L : forall ms, length ms = length L -> umods L (resetm L ms) = map (fun _ => f64_of_Z 1) (umods L ms).
Proof.
  induction L as [|s L IH]; intros [|m ms] E; try discriminate; [reflexivity|]. cbn in E. cbn [resetm].
  rewrite !umods_cons. destruct (unb s); cbn [map]; rewrite IH by lia; reflexivity.
Qed.

Lemma vmods_scaled nu L : Forall stamp_ok L -> max_extra L < 2 ^ 31 -> forall os, Forall oracle16 os -> length os = length L ->
  Forall2 (scaled (/ 65535)) (vmods L (mods nu L os)) (var_weights L os) /\ Forall (fun w => 0 <= w) (var_weights L os)
  /\ sum (var_weights L os) <= 65535 * max_extra L.
Proof.
  induction 1 as [|s L Hs H IH]; intros HX [|o os] Ho E; try discriminate.
  - split; [constructor|]. split; [constructor|cbn; lia].
  - pose proof (Forall_inv Ho) as Ho0. apply Forall_inv_tail in Ho. cbn in E. rewrite max_extra_cons in *.
    pose proof (max_extra_nonneg L) as X0. cbn [mods]. rewrite vmods_cons, var_weights_cons.
    destruct (kind_cases s Hs) as [(_ & U & V & _)|[(_ & U & V & _)|(K & U & V & D)]]; rewrite V in *.
    + apply IH; auto; lia.
    + apply IH; auto; lia.
    + destruct (IH ltac:(lia) os Ho ltac:(lia)) as (A & B & C). unfold md. rewrite K, U. cbn [andb]. rewrite sum_cons.
      split; [constructor; [apply scaled_mul; [exact Ho0|lia]|exact A]|].
      unfold oracle16 in Ho0. split; [constructor; [nia|exact B]|nia].
Qed.

Lemma umods_scaled nu L : Forall stamp_ok L -> 1 < nu -> forall os, Forall oracle16 os -> length os = length L ->
  Forall2 (scaled (/ 65535)) (umods L (mods nu L os)) (of_kind unb L os) /\ Forall oracle16 (of_kind unb L os).
Proof.
  intros HL Hn. induction HL as [|s L Hs H IH]; intros [|o os] Ho E; try discriminate.
  - split; constructor.
  - pose proof (Forall_inv Ho) as Ho0. apply Forall_inv_tail in Ho. cbn in E. cbn [mods]. rewrite umods_cons, of_kind_cons.
    destruct (IH os Ho ltac:(lia)) as (A & B). unfold md.
    destruct (kind_cases s Hs) as [(K & U & V & _)|[(K & U & V & _)|(K & U & V & D)]]; rewrite U in *; auto.
    rewrite K. destruct (nu <=? 1) eqn:N; [lia|]. cbn [andb]. split; [constructor; [apply scaled_oracle; exact Ho0|exact A]|constructor; assumption].
Qed.

Lemma umods_one L : Forall stamp_ok L -> forall os, length os = length L ->
  umods L (mods 1 L os) = map (fun _ => f64_of_Z 1) (of_kind unb L os).
Proof.
  induction 1 as [|s L Hs H IH]; intros [|o os] E; try discriminate; [reflexivity|].
  cbn in E. cbn [mods]. rewrite umods_cons, of_kind_cons. unfold md.
  destruct (kind_cases s Hs) as [(K & U & V & _)|[(K & U & V & _)|(K & U & V & D)]]; rewrite U, ?K; cbn [andb Z.leb Z.compare map];
    rewrite IH by lia; reflexivity.
Qed.

Lemma umods_none nu L : Forall stamp_ok L -> count unb L = 0 -> forall os, length os = length L ->
  umods L (mods nu L os) = [] /\ of_kind unb L os = [].
Proof.
  intros HL Hc os E. split; apply zlen_0_nil; unfold umods; rewrite of_kind_len; auto. apply mods_len. exact E.
Qed.

Lemma Forall2_map_r {A C D} (P : A -> D -> Prop) (f : C -> D) l m : Forall2 (fun a c => P a (f c)) l m -> Forall2 P l (map f m).
Proof. induction 1; constructor; assumption. Qed.

Lemma ones_scaled {A C} (xs : list A) (ws : list C) : length xs = length ws ->
  Forall2 (scaled 1) (map (fun _ => f64_of_Z 1) xs) (map (fun _ => 1) ws).
Proof.
  revert ws. induction xs as [|x xs IH]; intros [|w ws] E; try discriminate; [constructor|].
  cbn [map]. constructor; [exact scaled_one|apply IH; cbn in E; lia].
Qed.

Lemma beq_fin (x y : f64) a c : fin x a -> fin y c -> f64_eq x y = Req_bool a c.
Proof. intros [Fx <-] [Fy <-]. unfold f64_eq. apply Beqb_correct; assumption. Qed.

Lemma blt_fin (x y : f64) a c : fin x a -> fin y c -> f64_lt x y = Rlt_bool a c.
Proof. intros [Fx <-] [Fy <-]. unfold f64_lt. apply Bltb_correct; assumption. Qed.

Lemma fold_zero xs : Forall (fun x : f64 => fin x 0%R) xs -> forall t, fin t 0%R -> fin (fold_left f64_add xs t) 0%R.
Proof.
  induction 1 as [|x xs Hx H IH]; intros t Ht; [exact Ht|]. cbn [fold_left]. apply IH.
  replace 0%R with (rnd64 (0 + 0))%R by (rewrite Rplus_0_r; apply (rnd_0 prec64 emax64)).
  apply (plus_fin _ _ _ _ _ _ _ _ 1%Z Ht Hx); [vm_compute; split; [discriminate|reflexivity]|].
  rewrite Rplus_0_r, Rabs_R0. apply bpow_ge_0.
Qed.

Lemma sum_zero ws : Forall (fun w => 0 <= w) ws -> sum ws = 0 -> Forall (fun w => w = 0) ws.
Proof.
  induction 1 as [|w ws Hw H IH]; intros E; constructor; rewrite sum_cons in E; pose proof (sum_nonneg ws H); [lia|apply IH; lia].
Qed.

Lemma zero_scaled c xs ws : Forall2 (scaled c) xs ws -> Forall (fun w => w = 0) ws -> Forall (fun x : f64 => fin x 0%R) xs.
Proof.
  induction 1 as [|x w xs ws Hx H IH]; intros Hw; constructor.
  - pose proof (Forall_inv Hw) as W. cbv beta in W. subst w. apply (scaled_zero c). exact Hx.
  - apply IH. exact (Forall_inv_tail Hw).
Qed.

Lemma oracle_nonneg ws : Forall oracle16 ws -> Forall (fun w => 0 <= w) ws.
Proof. intros H. eapply Forall_impl; [|exact H]. unfold oracle16. intros. lia. Qed.

Lemma zero_fin : fin (f64_of_Z 0) 0%R.
Proof. apply of_Z_exact. vm_compute. discriminate. Qed.

(** The modifiers of unbounded stamps after the reset, and their total. *)
Lemma unb_mods L os : Forall stamp_ok L -> Forall oracle16 os -> length os = length L -> zlen L <= 65536 ->
  let nu := count unb L in
  let t0 := fold_left f64_add (umods L (mods nu L os)) (f64_of_Z 0) in
  let mt := if f64_eq t0 (f64_of_Z 0) then reset_modifiers L (mods nu L os) (f64_of_Z 0) else (mods nu L os, t0) in
  length (fst mt) = length L /\ vmods L (fst mt) = vmods L (mods nu L os)
  /\ snd mt = fold_left f64_add (umods L (fst mt)) (f64_of_Z 0)
  /\ exists c, (bpow radix2 (-20) <= c <= 1)%R /\ Forall2 (scaled c) (umods L (fst mt)) (unb_weights L os)
     /\ Forall (fun w => 0 <= w) (unb_weights L os)
     /\ (0 < nu -> 1 <= sum (unb_weights L os) <= 2 ^ 48) /\ (nu = 0 -> unb_weights L os = []).
Proof.
  intros HL Ho E Hn nu t0 mt.
  pose proof (of_kind_len unb L os E) as Ek. fold nu in Ek. pose proof (count_le unb L) as Cl. fold nu in Cl.
  assert (Eu : zlen (umods L (mods nu L os)) = nu) by (unfold umods; rewrite of_kind_len; [reflexivity|apply mods_len; exact E]).
  assert (G1 : length (fst mt) = length L).
  { unfold mt. destruct (f64_eq t0 (f64_of_Z 0)); [rewrite reset_run by (apply mods_len; exact E); cbn [fst]; apply resetm_len|cbn [fst]]; apply mods_len; exact E. }
  assert (G2 : vmods L (fst mt) = vmods L (mods nu L os)).
  { unfold mt. destruct (f64_eq t0 (f64_of_Z 0)); [|reflexivity]. rewrite reset_run by (apply mods_len; exact E). cbn [fst].
    apply resetm_vmods; [exact HL|apply mods_len; exact E]. }
  assert (G3 : snd mt = fold_left f64_add (umods L (fst mt)) (f64_of_Z 0)).
  { unfold mt. destruct (f64_eq t0 (f64_of_Z 0)); [|reflexivity]. rewrite reset_run by (apply mods_len; exact E). reflexivity. }
  split; [exact G1|]. split; [exact G2|]. split; [exact G3|].
  assert (C1 : (bpow radix2 (-20) <= 1 <= 1)%R) by (change (bpow radix2 (-20)) with (/ 1048576)%R; lra).
  assert (C2 : (bpow radix2 (-20) <= / 65535 <= 1)%R) by (change (bpow radix2 (-20)) with (/ 1048576)%R; lra).
  pose proof (count_nonneg unb L) as N0. fold nu in N0.
  destruct (Z.eq_dec nu 0) as [Z0|Z0].
  { destruct (umods_none nu L HL Z0 os E) as [U1 U2]. exists 1%R. split; [exact C1|].
    unfold unb_weights. rewrite U2. cbn [weights sum fold_right Z.eqb map].
    assert (umods L (fst mt) = []) as ->.
    { apply zlen_0_nil. unfold umods. rewrite of_kind_len by exact G1. exact Z0. }
    split; [constructor|]. split; [constructor|]. split; [lia|reflexivity]. }
  destruct (Z.eq_dec nu 1) as [Z1|Z1].
  { (* the only unbounded stamp *)
    unfold mt, t0. rewrite Z1. rewrite (umods_one L HL os E).
    destruct (of_kind unb L os) as [|w [|w' ws]] eqn:W; [change (@zlen Z []) with 0 in Ek; lia| |rewrite !zlen_cons in Ek; pose proof (zlen_nonneg ws); lia].
    cbn [map fold_left].
    assert (T : fin (f64_add (f64_of_Z 0) (f64_of_Z 1)) 1%R).
    { rewrite <- (rnd64_int 1) by lia. rewrite <- (Rplus_0_l 1). 
      apply (plus_fin _ _ _ _ _ _ _ _ 1%Z zero_fin); [apply of_Z_exact; vm_compute; discriminate|vm_compute; split; [discriminate|reflexivity]|].
      rewrite Rplus_0_l, Rabs_R1. change (bpow radix2 1) with 2%R. lra. }
    rewrite (beq_fin _ _ _ _ T zero_fin). rewrite Req_bool_false by (intros X; lra). cbn [fst].
    rewrite (umods_one L HL os E), W. cbn [map].
    assert (Hw : oracle16 w).
    { assert (A : Forall oracle16 (of_kind unb L os)).
      { destruct (umods_scaled 2 L HL ltac:(lia) os Ho E) as [_ A]. exact A. }
      rewrite W in A. exact (Forall_inv A). }
    unfold oracle16 in Hw. unfold unb_weights. rewrite W. unfold weights. cbn [sum fold_right].
    destruct (w + 0 =? 0) eqn:Ew.
    - exists 1%R. split; [exact C1|]. cbn [map]. split; [constructor; [exact scaled_one|constructor]|].
      split; [constructor; [lia|constructor]|]. split; [intros _; cbn [sum fold_right]; lia|intros; discriminate].
    - assert (1 <= IZR w)%R by (apply IZR_le; lia). assert (IZR w <= 65535)%R by (apply IZR_le; lia).
      exists (/ IZR w)%R. split.
      + change (bpow radix2 (-20)) with (/ 1048576)%R. split; [apply Rinv_le; lra|]. replace 1%R with (/ 1)%R by apply Rinv_1. apply Rinv_le; lra.
      + split; [constructor; [|constructor]|split; [constructor; [lia|constructor]|split; [intros _; cbn [sum fold_right]; lia|intros; discriminate]]].
        exists 1%R. split; [apply of_Z_exact; vm_compute; discriminate|]. rewrite Rinv_l by lra. unfold near. lra. }
  destruct (umods_scaled nu L HL ltac:(lia) os Ho E) as [S1 S2].
  pose proof (oracle_nonneg _ S2) as S3. pose proof (sum_bound _ S2) as S4. rewrite Ek in S4.
  unfold unb_weights, weights. destruct (sum (of_kind unb L os) =? 0) eqn:Es.
  - assert (Fz : fin t0 0%R).
    { apply fold_zero; [|exact zero_fin]. apply (zero_scaled _ _ _ S1). apply sum_zero; [exact S3|lia]. }
    unfold mt. rewrite (beq_fin _ _ _ _ Fz zero_fin), Req_bool_true by reflexivity.
    rewrite reset_run by (apply mods_len; exact E). cbn [fst]. rewrite resetm_umods by (apply mods_len; exact E).
    exists 1%R. split; [exact C1|]. split; [apply ones_scaled; unfold zlen in Ek, Eu; lia|].
    split; [clear; induction (of_kind unb L os); constructor; auto; lia|]. rewrite sum_ones, Ek.
    split; [lia|intros; lia].
  - destruct (shares_good 0 (/ 65535) _ _ ltac:(lia) C2 S3 ltac:(lia) S1 ltac:(lia)) as (t & Ft & Tp & _).
    change (fold_left f64_add (umods L (mods nu L os)) (f64_of_Z 0)) with t0 in Ft.
    unfold mt. rewrite (beq_fin _ _ _ _ Ft zero_fin), Req_bool_false by (intros X; lra). cbn [fst].
    exists (/ 65535)%R. split; [exact C2|]. split; [exact S1|]. split; [exact S3|]. split; [lia|intros; lia].
Qed.

(** ** The division between the two kinds *)
Lemma predict o A : oracle16 o -> 0 <= A < 2 ^ 31 ->
  to_int (Bround_Z (f64_mul (f64_div (f64_of_Z o) (f64_of_Z ORACLE_MAX)) (f64_of_Z A)))
  = Ok ((2 * (o * A) + 65535) / (2 * 65535)) /\ 0 <= (2 * (o * A) + 65535) / (2 * 65535) <= A.
Proof.
  intros Ho HA. set (N := (2 * (o * A) + 65535) / (2 * 65535)). unfold oracle16 in Ho.
  assert (HN : 0 <= N <= A).
  { split; [apply Z.div_pos; nia|]. unfold N. apply Z.lt_succ_r. apply Z.div_lt_upper_bound; nia. }
  split; [|exact HN].
  assert (D := Z.div_mod (2 * (o * A) + 65535) (2 * 65535) ltac:(lia)). fold N in D.
  set (m := (2 * (o * A) + 65535) mod (2 * 65535)) in D.
  assert (Hm : 0 <= m < 2 * 65535) by (apply Z.mod_pos_bound; lia).
  assert (Hm1 : 1 <= m) by lia.
  assert (F1 : fin (f64_of_Z A) (IZR A)) by (apply of_Z_exact; change (2 ^ prec64) with 9007199254740992; lia).
  assert (O0 := IZR_le _ _ (proj1 Ho)). assert (O1 := IZR_le _ _ (proj2 Ho)). change (IZR 0) with 0%R in O0.
  assert (A0 := IZR_le _ _ (proj1 HA)). assert (A1 := IZR_lt _ _ (proj2 HA)). change (2 ^ 31) with 2147483648 in A1. change (IZR 0) with 0%R in A0.
  assert (S : scaled (/ 65535) (f64_mul (f64_of_Z A) (f64_div (f64_of_Z o) (f64_of_Z ORACLE_MAX))) (A * o)) by (apply scaled_mul; [exact Ho|lia]).
  destruct (scaled_oracle o Ho) as (q & Fq & Nq). destruct S as (r & Fr & Nr).
  assert (P0 : (0 <= IZR A * IZR o)%R) by (apply Rmult_le_pos; lra).
  assert (P1 : (IZR A * IZR o <= 2147483648 * 65535)%R) by (apply Rmult_le_compat; lra).
  assert (Q1 : (0 <= q <= 2)%R) by (destruct Nq; lra).
  assert (F2 : fin (f64_mul (f64_div (f64_of_Z o) (f64_of_Z ORACLE_MAX)) (f64_of_Z A)) r).
  { assert (G : forall x y, fin x q -> fin y (IZR A) -> fin (f64_mul x y) (rnd64 (q * IZR A)%R)).
    { intros x y Fx Fy. apply (mult_fin _ _ _ _ _ _ _ _ 33%Z Fx Fy); [vm_compute; split; [discriminate|reflexivity]|].
      change (bpow radix2 33) with 8589934592%R. rewrite Rabs_pos_eq by (apply Rmult_le_pos; lra).
      apply Rle_trans with (2 * 2147483648)%R; [apply Rmult_le_compat; lra|lra]. }
    assert (G' : forall x y, fin x (IZR A) -> fin y q -> fin (f64_mul x y) (rnd64 (q * IZR A)%R)).
    { intros x y Fx Fy. rewrite (Rmult_comm q). apply (mult_fin _ _ _ _ _ _ _ _ 33%Z Fx Fy); [vm_compute; split; [discriminate|reflexivity]|].
      change (bpow radix2 33) with 8589934592%R. rewrite Rabs_pos_eq by (apply Rmult_le_pos; lra).
      apply Rle_trans with (2147483648 * 2)%R; [apply Rmult_le_compat; lra|lra]. }
    destruct (G' _ _ F1 Fq) as [_ X]. destruct Fr as [_ Y]. rewrite X in Y. subst r. apply G; assumption. }
  rewrite (round_fin _ _ _ _ F2). cbn [to_int]. replace (cround r) with N; [apply int_op_ok; lia|].
  rewrite mult_IZR in Nr. destruct Nr as [N1 N2].
  assert (DR : (2 * (IZR o * IZR A) + 65535 = 131070 * IZR N + IZR m)%R).
  { rewrite <- !mult_IZR, <- !plus_IZR. f_equal. lia. }
  assert (M1 : (1 <= IZR m)%R) by (apply IZR_le; exact Hm1).
  assert (M2 : (IZR m <= 131069)%R) by (apply IZR_le; lia).
  unfold cround. rewrite Rlt_bool_false by lra. symmetry. apply Zfloor_imp. rewrite plus_IZR. lra.
Qed.

Lemma Rcase_min a c : (IZR (Z.min a c) = Rmin (IZR a) (IZR c))%R.
Proof.
  unfold Rmin. destruct (Rle_dec (IZR a) (IZR c)) as [H|H].
  - apply le_IZR in H. f_equal. lia.
  - f_equal. assert (~ a <= c) by (intros X; apply H; apply IZR_le; exact X). lia.
Qed.

(** final_variated_total_size. *)
Lemma final_var_run (p : f64) t W lim : fin p t -> (near (/ 60000000000) t (/ 65535 * IZR W))%R ->
  0 <= W < 65535 * 2 ^ 31 -> 0 <= lim < 2 ^ 31 ->
  exists Fv, (if f64_lt p (f64_of_Z lim) then to_int (Bround_Z p) else Ok lim) = Ok Fv
    /\ 0 <= Fv <= lim /\ 8 * Z.abs (65535 * Fv - Z.min W (65535 * lim)) <= 5 * 65535.
Proof.
  intros Fp [N1 N2] HW Hl.
  assert (W0 := IZR_le _ _ (proj1 HW)). assert (W1 := IZR_lt _ _ (proj2 HW)).
  change (65535 * 2 ^ 31)%Z with 140735340871680%Z in W1. change (IZR 0) with 0%R in W0.
  assert (L0 := IZR_le _ _ (proj1 Hl)). change (IZR 0) with 0%R in L0.
  assert (Fl : fin (f64_of_Z lim) (IZR lim)) by (apply of_Z_exact; change (2 ^ prec64) with 9007199254740992; lia).
  assert (Fin : forall Fv, (Rabs (65535 * IZR Fv - Rmin (IZR W) (65535 * IZR lim)) <= 5 / 8 * 65535)%R ->
     8 * Z.abs (65535 * Fv - Z.min W (65535 * lim)) <= 5 * 65535).
  { intros Fv H. apply le_IZR. rewrite !mult_IZR, abs_IZR, minus_IZR, Rcase_min, !mult_IZR. lra. }
  rewrite (blt_fin _ _ _ _ Fp Fl). destruct (Rlt_bool_spec t (IZR lim)) as [H|H].
  - rewrite (round_fin _ _ _ _ Fp). cbn [to_int].
    pose proof (cround_err t) as Er. apply Rabs_le_inv in Er.
    assert (R : 0 <= cround t <= lim).
    { split; [apply cround_nonneg; lra|]. apply Zlt_succ_le. unfold Z.succ. apply lt_IZR. rewrite plus_IZR. lra. }
    exists (cround t). split; [apply int_op_ok; lia|]. split; [exact R|]. apply Fin.
    unfold Rmin. destruct (Rle_dec (IZR W) (65535 * IZR lim)) as [M|M]; apply Rabs_le; lra.
  - exists lim. split; [reflexivity|]. split; [lia|]. apply Fin.
    unfold Rmin. destruct (Rle_dec (IZR W) (65535 * IZR lim)) as [M|M]; apply Rabs_le; lra.
Qed.

(** ** Extraction *)
Definition var_total_ok (L : list (Z * Z)) (os : list Z) : Prop := count var L = 0 \/ 0 < sum (var_weights L os).

Lemma weights_empty L os : count var L = 0 -> length os = length L -> var_weights L os = [] /\ max_extra L = 0.
Proof.
  intros Hc E. split.
  - apply zlen_0_nil. unfold var_weights. rewrite of_kind_len; [exact Hc|]. rewrite map_length, combine_length. lia.
  - unfold max_extra. assert (filter var L = []) as -> by (apply zlen_0_nil; exact Hc). reflexivity.
Qed.

Lemma avail_range L o0 os r : set_ok L -> length os = length L -> sum (map fst L) <= zlen r ->
  let l := division_oracle L o0 ++ size_oracles (count unb L) L os ++ r in
  zlen l < 2 ^ 31 -> avail L l = zlen r - sum (map fst L) /\ 0 <= avail L l < 2 ^ 31.
Proof.
  intros (HL & Hm & HX) E Hr l Hl. pose proof (min_total_ge L HL). unfold avail, l in *. rewrite layout_len in * by assumption. lia.
Qed.

Lemma limit_range L l o0 : oracle16 o0 -> 0 <= avail L l < 2 ^ 31 -> 0 <= limit L l o0 <= Z.min (avail L l) (max_extra L).
Proof.
  intros Ho HA. pose proof (max_extra_nonneg L). unfold limit. destruct (both L); [|lia].
  destruct (predict o0 (avail L l) Ho HA) as [_ P]. lia.
Qed.

Lemma set_prefix L o0 os (r : bytes) : set_ok L -> oracle16 o0 -> Forall oracle16 os -> length os = length L ->
  sum (map fst L) <= zlen r ->
  let l := division_oracle L o0 ++ size_oracles (count unb L) L os ++ r in
  zlen l < 2 ^ 31 ->
  let nu := count unb L in
  let ms := mods nu L os in
  let pred := fold_left f64_add (vmods L ms) (f64_of_Z 0) in
  let t0 := fold_left f64_add (umods L ms) (f64_of_Z 0) in
  let mt := if f64_eq t0 (f64_of_Z 0) then reset_modifiers L ms (f64_of_Z 0) else (ms, t0) in
  set_extract L l =
  (final_var <- lift (if f64_lt pred (f64_of_Z (limit L l o0)) then to_int (Bround_Z pred) else Ok (limit L l o0)) ;;
   let kv := if 0 <? count var L then f64_div (f64_of_Z final_var) pred else f64_of_Z 1 in
   final_unb <- lift (int_op (avail L l - final_var)) ;;
   let ku := if 0 <? nu then f64_div (f64_of_Z final_unb) (snd mt) else f64_of_Z 1 in
   set_chunks L (fst mt) kv ku (f64_of_Z 0) (f64_of_Z 0)) r.
Proof.
  intros HS Ho0 Ho E Hr l Hl nu ms pred t0 mt. destruct HS as (HL & Hm & HX).
  pose proof (avail_range L o0 os r (conj HL (conj Hm HX)) E Hr Hl) as [EA RA]. fold l in EA, RA.
  pose proof (max_extra_nonneg L) as X0. pose proof (min_total_ge L HL) as MT.
  pose proof (count_nonneg var L) as V0. pose proof (count_nonneg unb L) as U0.
  unfold set_extract.
  rewrite (bind_lift_ok _ _ _ _ (set_totals_run L (mkTotals 0 0 0 0) HL ltac:(cbn; lia) ltac:(cbn; lia) ltac:(cbn [t_fixed]; lia) ltac:(cbn [t_maxvar]; lia))).
  cbn [t_fixed t_maxvar t_unb t_var]. rewrite !Z.add_0_l. rewrite set_fixed_total_run by assumption.
  rewrite bind_gets. cbn [Size ListOps]. rewrite u64_id by lia.
  destruct (zlen l <? min_total L) eqn:Q; [unfold avail in *; lia|].
  fold (avail L l). rewrite i32_id by lia.
  set (lim0 := if avail L l <? max_extra L then avail L l else max_extra L).
  assert (El0 : lim0 = Z.min (avail L l) (max_extra L)) by (unfold lim0; destruct (avail L l <? max_extra L) eqn:C; lia).
  assert (Rm : forall p t, read_modifiers nu L p t (size_oracles (count unb L) L os ++ r) =
    (Ok (ms, fold_left f64_add (vmods L ms) p, fold_left f64_add (umods L ms) t), r)).
  { intros p t. apply read_modifiers_run; assumption. }
  unfold limit. fold (both L). cbv zeta. rewrite <- El0. destruct (both L) eqn:B.
  - destruct (predict o0 (avail L l) Ho0 RA) as [P1 P2].
    assert (EO : GetOracle l = (Ok o0, size_oracles (count unb L) L os ++ r)).
    { unfold l, division_oracle. rewrite B. apply list_oracle. exact Ho0. }
    rewrite (bind_ok _ _ _ _ _ (eq_trans (bind_ok _ _ _ _ _ EO) (bind_lift_ok _ _ _ _ P1))).
    rewrite (bind_ok _ _ _ _ _ (Rm _ _)). cbn [fst snd].
    replace (if (2 * (o0 * avail L l) + 65535) / (2 * 65535) <? lim0 then (2 * (o0 * avail L l) + 65535) / (2 * 65535) else lim0)
      with (Z.min lim0 ((2 * (o0 * avail L l) + 65535) / (2 * 65535))) by (destruct (_ <? lim0) eqn:C; lia).
    reflexivity.
  - rewrite bind_ret. assert (EL : l = size_oracles (count unb L) L os ++ r) by (unfold l, division_oracle; rewrite B; reflexivity).
    specialize (Rm (f64_of_Z 0) (f64_of_Z 0)). rewrite <- EL in Rm. rewrite (bind_ok _ _ _ _ _ Rm). reflexivity.
Qed.

Lemma fair_nil F : fair F [] [].
Proof. split; [reflexivity|]. intros k. rewrite firstn_nil. cbn [sum fold_right]. rewrite Z.mul_0_r. lia. Qed.

Lemma set_run L o0 os (r : bytes) : set_ok L -> zlen L <= 65536 -> oracle16 o0 -> Forall oracle16 os -> length os = length L ->
  sum (map fst L) <= zlen r ->
  let l := division_oracle L o0 ++ size_oracles (count unb L) L os ++ r in
  zlen l < 2 ^ 31 -> var_total_ok L os ->
  exists ev eu Fv Fu, set_extract L l = chop_all (sizes L ev eu) r
    /\ zlen ev = count var L /\ zlen eu = count unb L
    /\ fair Fv (var_weights L os) ev /\ fair Fu (unb_weights L os) eu
    /\ Forall2 (fun w e => w <> 0 -> 0 <= e) (var_weights L os) ev
    /\ Forall2 (fun w e => w <> 0 -> 0 <= e) (unb_weights L os) eu
    /\ (0 <= Fv <= limit L l o0
        /\ 8 * Z.abs (65535 * Fv - Z.min (sum (var_weights L os)) (65535 * limit L l o0)) <= 5 * 65535)
    /\ Fv + Fu = avail L l /\ 0 <= Fu
    /\ Forall (fun w => 0 <= w) (var_weights L os) /\ Forall (fun w => 0 <= w) (unb_weights L os)
    /\ (0 < count unb L -> 0 < sum (unb_weights L os))
    /\ Forall (fun e => -1 <= e <= Fv) ev /\ Forall (fun e => -1 <= e <= Fu) eu.
Proof.
  intros HS HN Ho0 Ho E Hr l Hl HV.
  rewrite (set_prefix L o0 os r HS Ho0 Ho E Hr Hl : set_extract L l = _). fold l.
  pose proof (avail_range L o0 os r HS E Hr Hl) as [EA RA]. fold l in EA, RA.
  pose proof (limit_range L l o0 Ho0 RA) as LR. pose proof HS as (HL & Hm & HX).
  pose proof (min_total_ge L HL) as MT.
  destruct (unb_mods L os HL Ho E HN) as (G1 & G2 & G3 & c & Cr & Sc & Wn & Ws & Wz).
  destruct (vmods_scaled (count unb L) L HL HX os Ho E) as (V1 & V2 & V3).
  set (nu := count unb L) in *. set (ms := mods nu L os) in *.
  set (pred := fold_left f64_add (vmods L ms) (f64_of_Z 0)) in *.
  set (t0 := fold_left f64_add (umods L ms) (f64_of_Z 0)) in *.
  set (mt := if f64_eq t0 (f64_of_Z 0) then reset_modifiers L ms (f64_of_Z 0) else (ms, t0)) in *.
  assert (Lv : length (vmods L ms) = length (var_weights L os)) by (clear - V1; induction V1; cbn; congruence).
  assert (Zv : zlen (var_weights L os) = count var L).
  { unfold var_weights. rewrite of_kind_len; [reflexivity|]. rewrite map_length, combine_length. lia. }
  assert (Zu : zlen (unb_weights L os) = nu).
  { unfold unb_weights, weights. destruct (_ =? 0); rewrite ?zlen_map; apply of_kind_len; exact E. }
  pose proof (count_le var L) as Cv. pose proof (count_le unb L) as Cu. pose proof (count_nonneg var L) as V0. pose proof (count_nonneg unb L) as U0.
  assert (C65 : (bpow radix2 (-20) <= / 65535 <= 1)%R) by (change (bpow radix2 (-20)) with (/ 1048576)%R; lra).
  (* variated stamps *)
  assert (KV : exists Fv ev, (if f64_lt pred (f64_of_Z (limit L l o0)) then to_int (Bround_Z pred) else Ok (limit L l o0)) = Ok Fv
     /\ 0 <= Fv <= limit L l o0
     /\ 8 * Z.abs (65535 * Fv - Z.min (sum (var_weights L os)) (65535 * limit L l o0)) <= 5 * 65535
     /\ shares (if 0 <? count var L then f64_div (f64_of_Z Fv) pred else f64_of_Z 1) (vmods L ms) (f64_of_Z 0) = Ok ev
     /\ fair Fv (var_weights L os) ev /\ Forall2 (fun w e => w <> 0 -> 0 <= e) (var_weights L os) ev
     /\ Forall (fun e => -1 <= e <= Fv) ev).
  { destruct (Z.eq_dec (count var L) 0) as [Z0|Z0].
    - destruct (weights_empty L os Z0 E) as [W0 M0]. rewrite W0 in *. rewrite M0 in *.
      assert (limit L l o0 = 0) as -> by lia.
      assert (vmods L ms = []) as Em by (destruct (vmods L ms); [reflexivity|discriminate]).
      exists 0, []. unfold pred. rewrite Em. cbn [fold_left]. rewrite (blt_fin _ _ _ _ zero_fin zero_fin), Rlt_bool_false by lra.
      split; [reflexivity|]. split; [lia|]. split; [cbn; lia|]. split; [reflexivity|]. split; [apply fair_nil|]. split; constructor.
    - destruct HV as [HV|HV]; [lia|].
      assert (W48 : 1 <= sum (var_weights L os) <= 2 ^ 48) by lia.
      assert (Lz : zlen (vmods L ms) <= 65536) by (unfold zlen in *; lia).
      destruct (shares_good 0 (/ 65535) _ _ ltac:(lia) C65 V2 W48 V1 Lz) as (t & Ft & Tp & Nt & _). fold pred in Ft.
      destruct (final_var_run pred t (sum (var_weights L os)) (limit L l o0) Ft Nt ltac:(lia) ltac:(lia)) as (Fv & F1 & F2 & F3).
      destruct (class_run Fv (/ 65535) _ _ ltac:(lia) C65 V2 W48 V1 Lz) as (ev & E1 & E2 & E3). fold pred in E1.
      exists Fv, ev. split; [exact F1|]. split; [exact F2|]. split; [exact F3|].
      destruct (0 <? count var L) eqn:Q; [|lia]. split; [exact E1|]. split; [exact E2|]. split; [exact E3|].
      apply (fair_el Fv (var_weights L os)); auto; lia. }
  destruct KV as (Fv & ev & F1 & F2 & F3 & E1 & E2 & E3 & E4).
  (* unbounded stamps *)
  set (Fu := avail L l - Fv).
  assert (KU : exists eu, shares (if 0 <? nu then f64_div (f64_of_Z Fu) (snd mt) else f64_of_Z 1) (umods L (fst mt)) (f64_of_Z 0) = Ok eu
     /\ fair Fu (unb_weights L os) eu /\ Forall2 (fun w e => w <> 0 -> 0 <= e) (unb_weights L os) eu
     /\ Forall (fun e => -1 <= e <= Fu) eu).
  { assert (Lm : length (umods L (fst mt)) = length (unb_weights L os)) by (clear - Sc; induction Sc; cbn; congruence).
    destruct (Z.eq_dec nu 0) as [Z0|Z0].
    - rewrite (Wz Z0) in *. assert (umods L (fst mt) = []) as -> by (destruct (umods L (fst mt)); [reflexivity|discriminate]).
      exists []. split; [reflexivity|]. split; [apply fair_nil|]. split; constructor.
    - rewrite G3. destruct (0 <? nu) eqn:Q; [|lia].
      assert (Lz : zlen (umods L (fst mt)) <= 65536) by (unfold zlen in *; lia).
      destruct (class_run Fu c _ _ ltac:(unfold Fu; lia) Cr Wn (Ws ltac:(lia)) Sc Lz) as (eu & U1 & U2 & U3).
      exists eu. split; [exact U1|]. split; [exact U2|]. split; [exact U3|].
      apply (fair_el Fu (unb_weights L os)); auto; [unfold Fu; lia|]. pose proof (Ws ltac:(lia)). lia. }
  destruct KU as (eu & U1 & U2 & U3 & U4).
  assert (Lev : zlen ev = count var L) by (rewrite <- Zv; unfold zlen; f_equal; exact (proj1 E2)).
  assert (Leu : zlen eu = count unb L) by (fold nu; rewrite <- Zu; unfold zlen; f_equal; exact (proj1 U2)).
  exists ev, eu, Fv, Fu. split.
  { rewrite (bind_lift_ok _ _ _ _ F1). rewrite (bind_lift_ok _ _ _ Fu) by (apply int_op_ok; unfold Fu; lia).
    apply set_chunks_eq; auto.
    - rewrite G2. exact E1.
    - assert (Bd : forall s, In s L -> 0 <= fst s /\ fst s + avail L l < 2 ^ 31).
      { intros s Hs. assert (0 <= fst s) by (rewrite Forall_forall in HL; exact (proj1 (HL s Hs))). split; [assumption|].
        assert (fst s <= sum (map fst L)).
        { clear - HL Hs. induction HL as [|a L Ha H IH]; [destruct Hs|]. cbn [map]. rewrite sum_cons. pose proof (mins_nonneg L H).
          destruct Hs as [->|Hs]; [lia|]. specialize (IH Hs). destruct Ha. lia. }
        unfold avail in *. lia. }
      apply sizes_bound; auto; unfold in_int.
      + intros s Hs _. specialize (Bd s Hs). lia.
      + intros s e Hs _ He. specialize (Bd s Hs). rewrite Forall_forall in E4. specialize (E4 e He). cbv beta in E4. lia.
      + intros s e Hs _ He. specialize (Bd s Hs). rewrite Forall_forall in U4. specialize (U4 e He). cbv beta in U4. unfold Fu in U4. lia. }
  split; [exact Lev|]. split; [exact Leu|]. split; [exact E2|]. split; [exact U2|]. split; [exact E3|]. split; [exact U3|].
  split; [split; assumption|]. split; [unfold Fu; lia|]. split; [unfold Fu; lia|]. split; [exact V2|]. split; [exact Wn|].
  split; [intros Hp; specialize (Ws Hp); lia|]. split; assumption.
Qed.

Lemma roomy_sizes L p es F ws : roomy p L -> Forall stamp_ok L -> 0 <= F -> zlen es = count p L ->
  Forall (fun w => 0 <= w) ws -> (0 < count p L -> 0 < sum ws) -> fair F ws es ->
  forall s e, In s L -> p s = true -> In e es -> 0 <= e + fst s.
Proof.
  intros HR HL HF Hz Hw Hs Hf s e Is Ps Ie.
  assert (Cp : 0 < count p L). { rewrite <- Hz. destruct es; [destruct Ie|]. rewrite zlen_cons. pose proof (zlen_nonneg es). lia. }
  rewrite Forall_forall in HL. destruct (HL s Is) as [M0 _]. destruct HR as [HR|HR].
  - pose proof (fair_small F ws es HF Hw (Hs Cp) Hf ltac:(lia)) as G. rewrite Forall_forall in G. specialize (G e Ie). cbv beta in G. lia.
  - rewrite Forall_forall in HR. specialize (HR s Is Ps). pose proof (fair_el F ws es HF Hw (Hs Cp) Hf) as G.
    rewrite Forall_forall in G. specialize (G e Ie). cbv beta in G. lia.
Qed.

Lemma chop_all_neg ks : Forall in_int ks -> Exists (fun k => k < 0) ks -> forall r : bytes, zlen r < 2 ^ 31 ->
  exists rest, chop_all ks r = (OutOfData, rest).
Proof.
  intros Hi He. induction Hi as [|k ks Hk Hi IH]; [inversion He|]. intros r Hr. unfold in_int in Hk.
  cbn [chop_all]. destruct (Z_le_gt_dec 0 k) as [K|K].
  - apply Exists_cons in He. destruct He as [He|He]; [lia|]. rewrite u64_id by lia.
    destruct (Z_le_gt_dec k (zlen r)) as [Q|Q].
    + destruct (@law_chop_ok bytes _ ListLaws r k ltac:(cbn [okb ListLaws]; lia) ltac:(cbn [cont ListLaws]; lia)) as (c & r' & EC & _ & _ & _ & C2).
      cbn [cont ListLaws] in C2. destruct (IH He r') as [rest Er]; [rewrite C2, zlen_skipn by lia; lia|].
      exists rest. rewrite (bind_ok _ _ _ _ _ EC). unfold bind. rewrite Er. reflexivity.
    + exists r. rewrite (bind_ood _ _ _ _ (@law_chop_ood bytes _ ListLaws r k ltac:(cbn [okb ListLaws]; lia) ltac:(cbn [cont ListLaws]; lia))). reflexivity.
  - exists r. assert (Q : zlen r < u64 k) by (unfold u64; rewrite (Z.mod_small_iff) || idtac; replace k with (k + 2 ^ 64 - 1 * 2 ^ 64) by lia; rewrite Zminus_mod, Z.mod_mul, Z.sub_0_r, Z.mod_mod, Z.mod_small by lia; lia).
    rewrite (bind_ood _ _ _ _ (@law_chop_ood bytes _ ListLaws r _ ltac:(cbn [okb ListLaws]; lia) Q)). reflexivity.
Qed.

(** The data is divided, or it runs out because a chunk would have a negative size. *)
Lemma set_cut_or L o0 os (r : bytes) : set_ok L -> zlen L <= 65536 -> oracle16 o0 -> Forall oracle16 os -> length os = length L ->
  sum (map fst L) <= zlen r ->
  let l := division_oracle L o0 ++ size_oracles (count unb L) L os ++ r in
  zlen l < 2 ^ 31 -> var_total_ok L os ->
  (exists cs rest Fv Fu, set_extract L l = (Ok cs, rest) /\ set_cut L l o0 os cs rest Fv Fu)
  \/ (exists rest, set_extract L l = (OutOfData, rest) /\ ~ (roomy var L /\ roomy unb L)).
Proof.
  intros HS HN Ho0 Ho E Hr l Hl HV.
  destruct (set_run L o0 os r HS HN Ho0 Ho E Hr Hl HV) as (ev & eu & Fv & Fu & Run & Zv & Zu & Fa & Fb & P1 & P2 & T & ES & Fu0 & Wv & Wu & Su & B1 & B2).
  fold l in Run, T, ES. pose proof HS as (HL & Hm & HX). pose proof (avail_range L o0 os r HS E Hr Hl) as [EA RA]. fold l in EA, RA.
  destruct (sizes_props L HL ev eu Zv Zu) as (SL & SS & SE).
  assert (Sv : sum ev = Fv).
  { destruct HV as [HV|HV]; [|apply (fair_sum Fv (var_weights L os)); auto].
    rewrite HV in Zv. apply zlen_0_nil in Zv. subst ev. destruct (weights_empty L os HV E) as [_ M0].
    pose proof (limit_range L l o0 Ho0 RA). cbn [sum fold_right]. lia. }
  pose proof (count_nonneg unb L) as U0.
  assert (Sn : sum eu = if 0 <? count unb L then Fu else 0).
  { destruct (0 <? count unb L) eqn:Q; [apply (fair_sum Fu (unb_weights L os)); auto; apply Su; lia|].
    assert (zlen eu = 0) as Z by lia. apply zlen_0_nil in Z. subst eu. reflexivity. }
  assert (Bd : forall s, In s L -> 0 <= fst s /\ fst s + avail L l < 2 ^ 31).
  { intros s Hs. assert (0 <= fst s) by (rewrite Forall_forall in HL; exact (proj1 (HL s Hs))). split; [assumption|].
    assert (fst s <= sum (map fst L)).
    { clear - HL Hs. induction HL as [|a L Ha H IH]; [destruct Hs|]. cbn [map]. rewrite sum_cons. pose proof (mins_nonneg L H).
      destruct Hs as [->|Hs]; [lia|]. specialize (IH Hs). destruct Ha. lia. }
    pose proof (min_total_ge L HL). unfold avail in *. lia. }
  assert (SI : Forall in_int (sizes L ev eu)).
  { apply sizes_bound; auto; unfold in_int.
    - intros s Hs _. specialize (Bd s Hs). lia.
    - intros s e Hs Vs He. specialize (Bd s Hs). rewrite Forall_forall in B1. specialize (B1 e He). cbv beta in B1. lia.
    - intros s e Hs Vs He. specialize (Bd s Hs). rewrite Forall_forall in B2. specialize (B2 e He). cbv beta in B2. lia. }
  destruct (Forall_Exists_dec (fun k => 0 <= k) (fun k => Z_le_dec 0 k) (sizes L ev eu)) as [S0|S0].
  2:{ right. assert (zlen r < 2 ^ 31) by (pose proof (layout_len L o0 os r HL E); fold l in H; pose proof (min_total_ge L HL); lia).
      destruct (chop_all_neg (sizes L ev eu) SI ltac:(eapply Exists_impl; [|exact S0]; cbv beta; intros; lia) r H) as [rest Er].
      exists rest. rewrite Run. split; [exact Er|]. intros [R1 R2].
      assert (Sz : Forall (fun k => 0 <= k) (sizes L ev eu)).
      { apply sizes_bound; auto.
        - intros s Hs _. specialize (Bd s Hs). lia.
        - intros s e Hs Vs He.
          apply (roomy_sizes L var ev Fv (var_weights L os) R1 HL (proj1 (proj1 T)) Zv Wv); auto. intros. destruct HV; [lia|assumption].
        - intros s e Hs Vs He.
          apply (roomy_sizes L unb eu Fu (unb_weights L os) R2 HL Fu0 Zu Wu Su Fb); auto. }
      rewrite Exists_exists in S0. destruct S0 as (k & Hk & Nk). rewrite Forall_forall in Sz. exact (Nk (Sz k Hk)). }
  left. assert (Sz : Forall (fun k => 0 <= k < 2 ^ 31) (sizes L ev eu)).
  { apply Forall_forall. intros k Hk. rewrite Forall_forall in SI, S0. specialize (SI k Hk). specialize (S0 k Hk). unfold in_int in SI. cbv beta in S0. lia. }
  assert (Tot : sum (sizes L ev eu) <= zlen r) by (rewrite SS; destruct (0 <? count unb L); lia).
  destruct (cut_ex (sizes L ev eu) r) as (cs & rest & Er & Em); [eapply Forall_impl; [|exact Sz]; cbv beta; intros; lia|exact Tot|].
  destruct (SE cs Em) as (X1 & X2 & X3).
  exists cs, rest, Fv, Fu. split; [rewrite Run, Er; apply chop_all_run; assumption|].
  constructor; rewrite ?X1, ?X2; auto.
  - unfold l. rewrite Er. reflexivity.
  - split; [exact Ho0|]. split; [exact Ho|]. split; [exact E|]. rewrite <- SL, <- Em, map_length. reflexivity.
  - split; [exact ES|]. assert (zlen r = zlen (concat cs) + zlen rest) by (rewrite Er, zlen_app; reflexivity).
    rewrite concat_sum, Em, SS in H. destruct (0 <? count unb L); lia.
Qed.

Lemma set_cut_run L o0 os (r : bytes) : set_ok L -> zlen L <= 65536 -> oracle16 o0 -> Forall oracle16 os -> length os = length L ->
  sum (map fst L) <= zlen r ->
  let l := division_oracle L o0 ++ size_oracles (count unb L) L os ++ r in
  zlen l < 2 ^ 31 -> var_total_ok L os -> roomy var L -> roomy unb L ->
  exists cs rest Fv Fu, set_extract L l = (Ok cs, rest) /\ set_cut L l o0 os cs rest Fv Fu.
Proof.
  intros HS HN Ho0 Ho E Hr l Hl HV R1 R2.
  destruct (set_cut_or L o0 os r HS HN Ho0 Ho E Hr Hl HV) as [H|(rest & _ & H)]; [exact H|]. exfalso. apply H. split; assumption.
Qed.
