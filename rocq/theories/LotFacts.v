(** Lottery and pool lemmas. *)
From Verif Require Import Base BaseFacts Blob BlobSpec BlobFacts RunSpec RunFacts Sim Oracle Arithm StampDict DictFacts PickFacts
  OracleFacts Prop_Oracle RecursionFacts Stamps LotSpec.
Local Open Scope Z_scope.

(** ** Sizes *)
Lemma int_op_ub z : 2 ^ 31 <= z -> int_op z = UB.
Proof. intros H. unfold int_op, in_i32. replace _ with false by lia. reflexivity. Qed.

Lemma width_ok n : 0 <= n -> is_width n (init_oracle_size n).
Proof.
  intros Hn. unfold is_width, init_oracle_size. change (256 ^ 1) with 256.
  assert (P : forall w', In w' [1; 2; 4; 8] -> w' = 1 /\ 256 ^ w' = 256 \/ w' = 2 /\ 256 ^ w' = 65536 \/ w' = 4 /\ 256 ^ w' = 4294967296 \/ w' = 8).
  { intros w' [<-|[<-|[<-|[<-|[]]]]]; [left|right; left|right; right; left|right; right; right]; try split; reflexivity. }
  destruct (n <? 255) eqn:Q1; [|destruct (n <? 65535) eqn:Q2; [|destruct (n <? 4294967295) eqn:Q3]].
  - split; [left; reflexivity|]. split; [left; change (256 ^ 1) with 256; lia|]. intros w' Hw Hl. destruct (P w' Hw) as [[-> _]|[[-> _]|[[-> _]| ->]]]; lia.
  - split; [right; left; reflexivity|]. split; [left; change (256 ^ 2) with 65536; lia|]. intros w' Hw Hl. destruct (P w' Hw) as [[-> E]|[[-> _]|[[-> _]| ->]]]; lia.
  - split; [right; right; left; reflexivity|]. split; [left; change (256 ^ 4) with 4294967296; lia|]. intros w' Hw Hl. destruct (P w' Hw) as [[-> E]|[[-> E]|[[-> _]| ->]]]; lia.
  - split; [right; right; right; left; reflexivity|]. split; [right; reflexivity|]. intros w' Hw Hl. destruct (P w' Hw) as [[-> E]|[[-> E]|[[-> E]| ->]]]; lia.
Qed.

Lemma grow_app n L a b : lot_grow n L (a ++ b) = lot_grow (n + zlen a) (lot_grow n L a) b.
Proof.
  revert n L. induction a as [|s a IH]; intros n L; [cbn [app lot_grow]; change (@zlen (Z * Z) []) with 0; f_equal; lia|].
  cbn [app lot_grow]. rewrite IH, zlen_cons. f_equal. lia.
Qed.

Lemma grow_osize n L apps : oracle_size L = init_oracle_size n -> oracle_size (lot_grow n L apps) = init_oracle_size (n + zlen apps).
Proof.
  revert n L. induction apps as [|s apps IH]; intros n L H; cbn [lot_grow]; [change (@zlen (Z * Z) []) with 0; rewrite H; f_equal; lia|].
  rewrite IH by reflexivity. rewrite zlen_cons. f_equal. lia.
Qed.

Lemma start_osize init L : lot_start init L -> oracle_size L = init_oracle_size (zlen init).
Proof. intros [->|[-> ->]]; reflexivity. Qed.

(** The stored minimum: of the constructor, then of the history. *)
Lemma stored_min_fold l : forall m, Forall (fun s : Z * Z => 0 <= fst s) l -> 0 <= m ->
  let r := fold_left (fun m s => if fst s <? m then fst s else m) l m in
  is_least r (m :: map fst l).
Proof.
  induction l as [|s l IH]; intros m Hl Hm; cbn [fold_left map].
  - split; [left; reflexivity|]. constructor; [lia|constructor].
  - pose proof (Forall_inv Hl) as Hs. apply Forall_inv_tail in Hl. cbv beta in Hs.
    destruct (IH (if fst s <? m then fst s else m) Hl ltac:(destruct (fst s <? m); lia)) as [I1 I2].
    set (r := fold_left _ l _) in *. pose proof (Forall_inv I2) as H0. apply Forall_inv_tail in I2. cbv beta in H0.
    split.
    + destruct I1 as [I1|I1]; [|right; right; exact I1]. rewrite <- I1. destruct (fst s <? m); [right; left|left]; reflexivity.
    + constructor; [destruct (fst s <? m) eqn:Q; lia|]. constructor; [destruct (fst s <? m) eqn:Q; lia|exact I2].
Qed.

Lemma is_least_perm m a b l : is_least m (a :: b :: l) -> is_least m (b :: a :: l).
Proof.
  intros [H1 H2]. split; [destruct H1 as [H1|[H1|H1]]; cbn; auto|]. inversion H2 as [|? ? A B]. inversion B. repeat constructor; assumption.
Qed.

Lemma least_dup m a c l : In c (a :: l) -> is_least m (c :: a :: l) -> is_least m (a :: l).
Proof.
  intros Hi [H1 H2]. split; [destruct H1 as [<-|H1]; assumption|]. exact (Forall_inv_tail H2).
Qed.

Lemma least_drop m c l : is_least m (c :: l) -> l <> [] -> Forall (fun x => x <= c) l -> is_least m l.
Proof.
  intros [H1 H2] Hn Hc. split; [|exact (Forall_inv_tail H2)].
  destruct H1 as [<-|H1]; [|exact H1]. destruct l as [|a l]; [congruence|]. left.
  pose proof (Forall_inv Hc). pose proof (Forall_inv (Forall_inv_tail H2)). cbv beta in *. lia.
Qed.

(** Stored minimum of a growing lottery with at least one member. *)
Definition min_inv (mem : list (Z * Z)) (m : Z) : Prop :=
  (mem = [] /\ (m = -1 \/ m = int_max)) \/ is_least m (map fst mem).

Lemma start_min init L : lot_start init L -> Forall (fun s => 0 <= fst s <= int_max) init -> min_inv init (stored_min L).
Proof.
  intros [->|[-> ->]] H; [|left; split; [reflexivity|left; reflexivity]].
  destruct init as [|s init]; [left; split; [reflexivity|right; reflexivity]|]. right.
  unfold lot_new, init_stored_min. cbn [stored_min].
  apply least_drop with (c := int_max); [|discriminate|].
  - apply stored_min_fold; [|unfold int_max; lia]. eapply Forall_impl; [|exact H]. cbv beta. intros; lia.
  - apply Forall_map. eapply Forall_impl; [|exact H]. cbv beta. intros; lia.
Qed.

Lemma append_min mem n L mn mx : min_inv mem (stored_min L) -> Forall (fun s => 0 <= fst s <= int_max) mem -> 0 <= mn <= int_max ->
  min_inv (mem ++ [(mn, mx)]) (stored_min (lot_append n L mn mx)).
Proof.
  intros HI HM Hn. right. unfold lot_append. cbn [stored_min]. rewrite map_app. cbn [map fst].
  destruct HI as [[-> Hm]|[H1 H2]].
  - cbn [map app]. destruct Hm as [-> | ->].
    + cbn [Z.eqb Pos.eqb]. destruct (mn <? mn) eqn:Q; split; [left; reflexivity|constructor; [lia|constructor]|left; reflexivity|constructor; [lia|constructor]].
    + change (int_max =? -1) with false. cbv iota. destruct (mn <? int_max) eqn:Q.
      * split; [left; reflexivity|constructor; [lia|constructor]].
      * assert (mn = int_max) as -> by lia. split; [left; reflexivity|constructor; [lia|constructor]].
  - assert (0 <= stored_min L).
    { apply in_map_iff in H1. destruct H1 as (s & <- & Hs). rewrite Forall_forall in HM. specialize (HM s Hs). cbv beta in HM. lia. }
    destruct (stored_min L =? -1) eqn:Q0; [lia|]. destruct (mn <? stored_min L) eqn:Q.
    + split; [apply in_or_app; right; left; reflexivity|]. apply Forall_app. split; [|constructor; [lia|constructor]].
      eapply Forall_impl; [|exact H2]. cbv beta. intros; lia.
    + split; [apply in_or_app; left; exact H1|]. apply Forall_app. split; [exact H2|constructor; [lia|constructor]].
Qed.

Lemma grow_min apps : forall mem n L, min_inv mem (stored_min L) -> Forall (fun s => 0 <= fst s <= int_max) (mem ++ apps) ->
  min_inv (mem ++ apps) (stored_min (lot_grow n L apps)).
Proof.
  induction apps as [|[mn mx] apps IH]; intros mem n L HI HM; [rewrite app_nil_r; exact HI|]. cbn [lot_grow fst snd].
  replace (mem ++ (mn, mx) :: apps) with ((mem ++ [(mn, mx)]) ++ apps) in * by (rewrite <- app_assoc; reflexivity).
  apply IH; [|exact HM]. apply Forall_app in HM. destruct HM as [HM _]. apply Forall_app in HM. destruct HM as [HM H1].
  apply append_min; [exact HI|exact HM|]. exact (Forall_inv H1).
Qed.

(** The stored maximum. *)
Lemma max_loop_bounded l : forall m, Forall (fun s : Z * Z => 0 <= snd s) l -> 0 <= m ->
  is_greatest (init_stored_max_loop l m) (m :: map snd l).
Proof.
  induction l as [|[mn mx] l IH]; intros m Hl Hm; cbn [init_stored_max_loop map snd].
  - split; [left; reflexivity|]. constructor; [lia|constructor].
  - pose proof (Forall_inv Hl) as Hs. apply Forall_inv_tail in Hl. cbn [snd] in Hs.
    destruct (mx =? -1) eqn:Q0; [lia|].
    destruct (IH (if m <? mx then mx else m) Hl ltac:(destruct (m <? mx); lia)) as [I1 I2].
    set (r := init_stored_max_loop l _) in *. pose proof (Forall_inv I2) as H0. apply Forall_inv_tail in I2. cbv beta in H0.
    split.
    + destruct I1 as [I1|I1]; [|right; right; exact I1]. rewrite <- I1. destruct (m <? mx); [right; left|left]; reflexivity.
    + constructor; [destruct (m <? mx) eqn:Q; lia|]. constructor; [destruct (m <? mx) eqn:Q; lia|exact I2].
Qed.

Lemma max_loop_unbounded l : forall m, Exists (fun s : Z * Z => snd s = -1) l -> init_stored_max_loop l m = -1.
Proof.
  induction l as [|[mn mx] l IH]; intros m H; [inversion H|]. cbn [init_stored_max_loop]. destruct (mx =? -1) eqn:Q; [reflexivity|].
  apply Exists_cons in H. destruct H as [H|H]; [cbn [snd] in H; lia|]. apply IH. exact H.
Qed.

Definition max_inv (mem : list (Z * Z)) (m : Z) : Prop :=
  (mem = [] /\ -2 <= m <= 0) \/ is_greatest m (map snd mem).

Lemma append_max mem n L mn mx : max_inv mem (stored_max L) -> 0 <= mx ->
  max_inv (mem ++ [(mn, mx)]) (stored_max (lot_append n L mn mx)).
Proof.
  intros HI Hx. right. unfold lot_append. cbn [stored_max]. rewrite map_app. cbn [map snd]. destruct (mx =? -1) eqn:Q0; [lia|].
  destruct HI as [[-> Hm]|[H1 H2]].
  - cbn [map app]. destruct (stored_max L <? mx) eqn:Q.
    + split; [left; reflexivity|constructor; [lia|constructor]].
    + assert (stored_max L = mx) as -> by lia. split; [left; reflexivity|constructor; [lia|constructor]].
  - destruct (stored_max L <? mx) eqn:Q.
    + split; [apply in_or_app; right; left; reflexivity|]. apply Forall_app. split; [|constructor; [lia|constructor]].
      eapply Forall_impl; [|exact H2]. cbv beta. intros; lia.
    + split; [apply in_or_app; left; exact H1|]. apply Forall_app. split; [exact H2|constructor; [lia|constructor]].
Qed.

Lemma grow_max apps : forall mem n L, max_inv mem (stored_max L) -> Forall (fun s => 0 <= snd s) apps ->
  max_inv (mem ++ apps) (stored_max (lot_grow n L apps)).
Proof.
  induction apps as [|[mn mx] apps IH]; intros mem n L HI HM; [rewrite app_nil_r; exact HI|]. cbn [lot_grow fst snd].
  replace (mem ++ (mn, mx) :: apps) with ((mem ++ [(mn, mx)]) ++ apps) by (rewrite <- app_assoc; reflexivity).
  apply IH; [|exact (Forall_inv_tail HM)]. apply append_max; [exact HI|]. exact (Forall_inv HM).
Qed.

Lemma start_max init L : lot_start init L -> Forall (fun s => 0 <= snd s) init -> max_inv init (stored_max L).
Proof.
  intros [->|[-> ->]] H; [|left; split; [reflexivity|cbn; lia]].
  destruct init as [|s init]; [left; split; [reflexivity|cbn; lia]|]. right.
  unfold lot_new, init_stored_max. cbn [stored_max].
  destruct (max_loop_bounded (s :: init) 0 H ltac:(lia)) as [H1 H2].
  split; [|exact (Forall_inv_tail H2)]. destruct H1 as [H1|H1]; [|exact H1].
  cbn [map]. left. pose proof (Forall_inv H). cbn [map] in H2. pose proof (Forall_inv (Forall_inv_tail H2)). cbv beta in *. lia.
Qed.

(** ** Picking *)
Definition soft (four : bool) (n : Z) (s : Z * Z) : bool :=
  negb four || (snd s =? -1) || (n <? snd s) || (n <? fst s + snd s).

Lemma soft_run four n s : sane four s -> 0 <= n -> (four = true -> n < 2 ^ 31) ->
  soft_filter four (Ok (fst s)) (Ok (snd s)) (i32 n) = Ok (soft four n s).
Proof.
  intros (H1 & H2) H0 Hn. unfold soft_filter, soft. destruct four; [|reflexivity]. specialize (H2 eq_refl). specialize (Hn eq_refl).
  rewrite i32_id by lia. cbn [rbind negb orb].
  destruct (snd s =? -1) eqn:Q; [reflexivity|]. destruct (n <? snd s); [reflexivity|]. destruct H2 as [H2|H2]; [lia|].
  rewrite int_op_ok by lia. reflexivity.
Qed.

Lemma soft_spec n s : sane true s -> soft true n s = true <-> leaves_little n s.
Proof.
  intros (H1 & H2). specialize (H2 eq_refl). unfold soft, leaves_little. cbn [negb orb].
  destruct (snd s =? -1) eqn:Q1; [split; intros _; [left; lia|reflexivity]|].
  destruct (n <? snd s) eqn:Q2; cbn [orb]; [split; intros _; [right; lia|reflexivity]|]. split; intros H; [right; lia|lia].
Qed.

Definition keep (four : bool) (n : Z) (s : stamp) : bool := (fst (fst s) <=? n) && soft four n (fst s).
Definition sane_all (four : bool) (ms : list stamp) : Prop := Forall (fun s => sane four (fst s)) ms.

Lemma sane_weak four ms : sane_all four ms -> sane_all false ms.
Proof. apply Forall_impl. intros s (H1 & _). split; [exact H1|discriminate]. Qed.

Lemma lot_filter_run four n ms : sane_all four ms -> 0 <= n -> (four = true -> n < 2 ^ 31) ->
  lot_filter four (map as_member ms) n = Ok (map snd (filter (keep four n) ms)).
Proof.
  intros Hs Hn Hf. induction Hs as [|s ms Hs H IH]; [reflexivity|]. cbn [map lot_filter]. unfold as_member at 1. cbn [rbind filter].
  pose proof Hs as ((M1 & M2) & _). rewrite u64_id by lia. unfold keep at 1. destruct (n <? fst (fst s)) eqn:Q.
  - destruct (fst (fst s) <=? n) eqn:Q1; [lia|]. exact IH.
  - destruct (fst (fst s) <=? n) eqn:Q1; [|lia]. rewrite (soft_run four n (fst s) Hs Hn Hf). cbn [rbind]. rewrite IH. cbn [rbind andb].
    destruct (soft four n (fst s)); reflexivity.
Qed.

(** The candidates of a lottery. *)
Definition candidates (four : bool) (n : Z) (ms : list stamp) : list stamp :=
  match filter (keep four n) ms with [] => filter (keep false n) ms | a => a end.

Lemma width_cases w : In w [1; 2; 4; 8] -> w = 1 \/ w = 2 \/ w = 4 \/ w = 8.
Proof. cbn. intuition. Qed.

Lemma oracle_max_range w : In w [1; 2; 4; 8] -> oracle_max w = 2 ^ (8 * w) - 1 /\ 1 <= oracle_max w < 2 ^ 64.
Proof. intros H. apply width_cases in H. split; [reflexivity|]. destruct H as [->|[->|[->| ->]]]; vm_compute; split; (discriminate || reflexivity). Qed.

Lemma filter_len {A} (p : A -> bool) l : zlen (filter p l) <= zlen l.
Proof. unfold zlen. induction l as [|s l IH]; cbn [filter]; [lia|]. destruct (p s); cbn [length]; lia. Qed.

Lemma candidates_len four n ms : zlen (candidates four n ms) <= zlen ms.
Proof. unfold candidates. destruct (filter (keep four n) ms) eqn:Q; [apply filter_len|rewrite <- Q; apply filter_len]. Qed.

Lemma lot_run four w ms (b b' : blob) r o : In w [1; 2; 4; 8] -> sane_all four ms -> zlen ms <= 2 ^ 53 ->
  sized_oracle w b = (Ok o, b') -> holds b' r -> (four = true -> zlen r < 2 ^ 31) -> 0 <= o <= oracle_max w ->
  match candidates four (zlen r) ms with
  | [] => lot_extract four w (map as_member ms) b = (OutOfData, b')
  | c => exists i m, pick_index o (oracle_max w) (zlen c) = Ok i /\ 0 <= i < zlen c /\ nth_error c (Z.to_nat i) = Some m
         /\ lot_extract four w (map as_member ms) b = snd m b'
  end.
Proof.
  intros Hw Hs Hn Eo Hb Hr Ho. destruct (oracle_max_range w Hw) as [_ OM].
  unfold lot_extract. rewrite (bind_ok _ _ _ _ _ Eo), bind_gets. cbn [Size BlobBlobOps]. rewrite (holds_size b' r Hb).
  pose proof (zlen_nonneg r) as R0. rewrite (bind_lift_ok _ _ _ _ (lot_filter_run four (zlen r) ms Hs R0 Hr)).
  set (X := fun a : list (M blob bytes) => match a with [] => lift OutOfData | _ => _ end).
  assert (K : (a <- (match map snd (filter (keep four (zlen r)) ms) with [] => lift (lot_filter false (map as_member ms) (zlen r)) | _ => ret (map snd (filter (keep four (zlen r)) ms)) end);; X a) b'
     = X (map snd (candidates four (zlen r) ms)) b').
  { unfold candidates. destruct (filter (keep four (zlen r)) ms) as [|a c] eqn:F; cbn [map].
    - rewrite (bind_lift_ok _ _ _ _ (lot_filter_run false (zlen r) ms (sane_weak _ _ Hs) R0 ltac:(discriminate))). reflexivity.
    - rewrite bind_ret. reflexivity. }
  pose proof (candidates_len four (zlen r) ms) as LC.
  destruct (candidates four (zlen r) ms) as [|c0 c] eqn:C.
  - etransitivity; [exact K|]. reflexivity.
  - assert (Z1 : 1 <= zlen (c0 :: c)) by (rewrite zlen_cons; pose proof (zlen_nonneg c); lia).
    destruct (pick_range o (oracle_max w) (zlen (c0 :: c)) Ho OM ltac:(lia)) as (i & Ei & Ri).
    destruct (nth_error (c0 :: c) (Z.to_nat i)) as [m|] eqn:N; [|apply nth_error_None in N; unfold zlen in Ri; lia].
    exists i, m. split; [exact Ei|]. split; [exact Ri|]. split; [exact N|].
    etransitivity; [exact K|]. unfold X. cbn [map]. change (snd c0 :: map snd c) with (map snd (c0 :: c)). rewrite zlen_map.
    rewrite (bind_lift_ok _ _ _ _ Ei). assert (U : u64 i = i) by (apply u64_id; lia). rewrite U.
    match goal with |- context [if ?t then _ else _] => replace t with true by (symmetry; apply Z.ltb_lt; exact (proj2 Ri)) end.
    rewrite (map_nth_error snd _ _ N). reflexivity.
Qed.

Lemma candidates_in four n ms m : In m (candidates four n ms) -> In m ms /\ fits n (fst m).
Proof.
  intros H. unfold candidates in H. assert (F : forall f, In m (filter (keep f n) ms) -> In m ms /\ fits n (fst m)).
  { intros f Hf. apply filter_In in Hf. destruct Hf as [H1 H2]. split; [exact H1|]. unfold keep in H2. unfold fits. lia. }
  destruct (filter (keep four n) ms) eqn:Q; [exact (F false H)|]. apply (F four). rewrite Q. exact H.
Qed.

Lemma candidates_some four n ms m : In m ms -> fits n (fst m) -> candidates four n ms <> [].
Proof.
  intros Hi Hf H. unfold candidates in H. destruct (filter (keep four n) ms) eqn:Q; [|discriminate H].
  assert (In m (filter (keep false n) ms)) as X by (apply filter_In; split; [exact Hi|unfold keep, soft, fits in *; cbn; lia]).
  rewrite H in X. destruct X.
Qed.

Lemma candidates_four n ms m m' : sane_all true ms -> In m (candidates true n ms) -> In m' ms -> fits n (fst m') -> leaves_little n (fst m') ->
  leaves_little n (fst m).
Proof.
  intros Hs Hm Hi Hf Hl. unfold candidates in Hm. unfold sane_all in Hs. rewrite Forall_forall in Hs.
  assert (X : In m' (filter (keep true n) ms)).
  { apply filter_In. split; [exact Hi|]. unfold keep. apply (soft_spec n _ (Hs m' Hi)) in Hl. unfold fits in Hf. lia. }
  destruct (filter (keep true n) ms) as [|a c] eqn:Q; [destruct X|]. rewrite <- Q in Hm. apply filter_In in Hm. destruct Hm as [H1 H2].
  apply (soft_spec n _ (Hs m H1)). unfold keep in H2. lia.
Qed.

Lemma candidates_all four n ms m : sane_all four ms -> In m ms -> fits n (fst m) ->
  (four = true -> leaves_little n (fst m) \/ forall m', In m' ms -> fits n (fst m') -> ~ leaves_little n (fst m')) -> In m (candidates four n ms).
Proof.
  intros Hs Hi Hf H. unfold candidates.
  assert (X : In m (filter (keep false n) ms)) by (apply filter_In; split; [exact Hi|unfold keep, soft, fits in *; cbn; lia]).
  unfold sane_all in Hs. rewrite Forall_forall in Hs.
  destruct four; [|destruct (filter (keep false n) ms); exact X].
  destruct (H eq_refl) as [L|N].
  - assert (Y : In m (filter (keep true n) ms)).
    { apply filter_In. split; [exact Hi|]. unfold keep. apply (soft_spec n _ (Hs m Hi)) in L. unfold fits in Hf. lia. }
    destruct (filter (keep true n) ms) eqn:Q; [destruct Y|exact Y].
  - destruct (filter (keep true n) ms) as [|a c] eqn:Q; [exact X|].
    assert (In a (filter (keep true n) ms)) as A by (rewrite Q; left; reflexivity). apply filter_In in A. destruct A as [A1 A2].
    exfalso. apply (N a A1); [unfold keep, fits in *; lia|]. apply (soft_spec n _ (Hs a A1)). unfold keep in A2. lia.
Qed.

(** The oracle of a lottery on a blob. *)
Lemma oracle_blob w (b : blob) front r : In w [1; 2; 4; 8] -> holds b (front ++ r) -> zlen front = w ->
  exists o b', sized_oracle w b = (Ok o, b') /\ holds b' r /\ 0 <= o <= oracle_max w.
Proof.
  intros Hw Hb Hf. pose proof (width_cases w Hw) as Hc.
  destruct (list_sized_oracle w (front ++ r) Hc ltac:(rewrite zlen_app; pose proof (zlen_nonneg r); lia)) as (o & Eo & Ro & _).
  replace (Z.to_nat w) with (length front) in Eo by (unfold zlen in Hf; lia).
  rewrite skipn_app, skipn_all, Nat.sub_diag in Eo. cbn [skipn app] in Eo.
  destruct (run_transfer _ _ b _ _ _ (sim_sized_oracle w) Hb Eo) as (b' & E1 & E2 & E3).
  exists o, b'. split; [exact E1|]. split; [split; assumption|exact Ro].
Qed.

Lemma pool_filter_run n ms : Forall (fun s : stamp => 0 <= fst (fst s) < 2 ^ 63 /\ -1 <= snd (fst s) < 2 ^ 63) ms -> 0 <= n < 2 ^ 63 ->
  pool_filter (map as_member ms) n = Ok (map snd (filter (fun s => fst (fst s) <=? n) ms),
    map snd (filter (fun s => (fst (fst s) <=? n) && ((snd (fst s) =? -1) || (n <=? snd (fst s)))) ms)).
Proof.
  intros Hs Hn. induction Hs as [|s ms (H1 & H2) H IH]; [reflexivity|]. cbn [map pool_filter]. unfold as_member at 1. cbn [rbind].
  rewrite u64_id by lia. rewrite IH. cbn [filter]. destruct (fst (fst s) <=? n) eqn:Q; cbn [rbind andb fst snd map]; [|reflexivity].
  destruct (snd (fst s) =? -1) eqn:Q1; cbn [orb]; [reflexivity|]. rewrite u64_id by lia. destruct (n <=? snd (fst s)); reflexivity.
Qed.

(** The candidates of a pool. *)
Definition fitting (n : Z) (ms : list stamp) : list stamp := filter (fun s => fst (fst s) <=? n) ms.
Definition filling (n : Z) (ms : list stamp) : list stamp :=
  filter (fun s => (fst (fst s) <=? n) && ((snd (fst s) =? -1) || (n <=? snd (fst s)))) ms.
Definition targets (n : Z) (ms : list stamp) : list stamp := match filling n ms with [] => fitting n ms | a => a end.

Lemma pool_run ms self (b b' : blob) r o : Forall (fun s : stamp => pool_sane (fst s)) ms -> zlen ms < 2 ^ 63 ->
  GetOracle b = (Ok o, b') -> holds b' r -> 0 <= o <= 65535 ->
  match targets (zlen r) ms with
  | [] => pool_extract (map as_member ms) self b = (mn <- lift self ;; if zlen r <? u64 mn then lift OutOfData else lift Abort) b'
  | c => exists i m, OracleProportion o 0 (zlen c - 1) = Ok i /\ 0 <= i < zlen c /\ nth_error c (Z.to_nat i) = Some m
         /\ pool_extract (map as_member ms) self b = snd m b'
  end.
Proof.
  intros Hs Hn Eo Hb Ho. unfold pool_extract. rewrite (bind_ok _ _ _ _ _ Eo), bind_gets. cbn [Size BlobBlobOps].
  rewrite (holds_size b' r Hb). pose proof (zlen_nonneg r). pose proof (holds_small b' r Hb).
  assert (Hs' : Forall (fun s : stamp => 0 <= fst (fst s) < 2 ^ 63 /\ -1 <= snd (fst s) < 2 ^ 63) ms).
  { eapply Forall_impl; [|exact Hs]. unfold pool_sane. cbv beta. intros; lia. }
  rewrite (bind_lift_ok _ _ _ _ (pool_filter_run (zlen r) ms Hs' ltac:(lia))). cbn [fst snd].
  fold (fitting (zlen r) ms). fold (filling (zlen r) ms).
  assert (T : match map snd (filling (zlen r) ms) with [] => map snd (fitting (zlen r) ms) | _ :: _ => map snd (filling (zlen r) ms) end
    = map snd (targets (zlen r) ms)) by (unfold targets; destruct (filling (zlen r) ms); reflexivity).
  rewrite T. assert (LT : zlen (targets (zlen r) ms) <= zlen ms).
  { unfold targets. destruct (filling (zlen r) ms) eqn:Q; [apply filter_len|rewrite <- Q; apply filter_len]. }
  destruct (targets (zlen r) ms) as [|c0 c]; [reflexivity|].
  assert (Z1 : 1 <= zlen (c0 :: c)) by (rewrite zlen_cons; pose proof (zlen_nonneg c); lia).
  destruct (C09_in_range o 0 (zlen (c0 :: c) - 1) Ho ltac:(lia) ltac:(lia) ltac:(lia)) as (i & Ei & Ri).
  destruct (nth_error (c0 :: c) (Z.to_nat i)) as [m|] eqn:N; [|apply nth_error_None in N; unfold zlen in Ri; lia].
  exists i, m. split; [exact Ei|]. split; [lia|]. split; [exact N|].
  cbn [map]. change (snd c0 :: map snd c) with (map snd (c0 :: c)). rewrite zlen_map.
  assert (E2 : OracleProportion o 0 (u64 (zlen (c0 :: c) - 1)) = Ok i) by (rewrite u64_id by lia; exact Ei).
  rewrite (bind_lift_ok _ _ _ _ E2). match goal with |- context [if ?t then _ else _] => replace t with true by (symmetry; apply Z.ltb_lt; assert (RI : i < zlen (c0 :: c)) by lia; exact RI) end.
  rewrite (map_nth_error snd _ _ N). reflexivity.
Qed.

Lemma oracle2_blob (b : blob) front r : holds b (front ++ r) -> zlen front = 2 ->
  exists o b', GetOracle b = (Ok o, b') /\ holds b' r /\ 0 <= o <= 65535.
Proof.
  intros Hb Hf. destruct (list_GetOracle (front ++ r) ltac:(rewrite zlen_app; pose proof (zlen_nonneg r); lia)) as (o & Ro & Eo).
  change 2%nat with (Z.to_nat 2) in Eo. replace (Z.to_nat 2) with (length front) in Eo by (unfold zlen in Hf; lia).
  rewrite skipn_app, skipn_all, Nat.sub_diag in Eo. cbn [skipn app] in Eo.
  destruct (run_transfer _ _ b _ _ _ sim_GetOracle Hb Eo) as (b' & E1 & E2 & E3).
  exists o, b'. split; [exact E1|]. split; [split; assumption|exact Ro].
Qed.

Lemma in_fitting n ms m : In m (fitting n ms) <-> In m ms /\ fits n (fst m).
Proof. unfold fitting, fits. rewrite filter_In. split; intros [H1 H2]; split; trivial; lia. Qed.

Lemma in_filling n ms m : In m (filling n ms) <-> In m ms /\ fits n (fst m) /\ uses_all n (fst m).
Proof. unfold filling, fits, uses_all. rewrite filter_In. split; intros [H1 H2]; split; trivial; lia. Qed.

Lemma targets_in n ms m : In m (targets n ms) -> In m ms /\ fits n (fst m).
Proof.
  unfold targets. destruct (filling n ms) as [|a c] eqn:Q; [apply in_fitting|]. rewrite <- Q, in_filling. tauto.
Qed.

Lemma targets_fill n ms m m' : In m (targets n ms) -> In m' ms -> fits n (fst m') -> uses_all n (fst m') -> uses_all n (fst m).
Proof.
  unfold targets. intros H Hi Hf Hu. assert (X : In m' (filling n ms)) by (apply in_filling; tauto).
  destruct (filling n ms) as [|a c] eqn:Q; [destruct X|]. rewrite <- Q, in_filling in H. tauto.
Qed.

Lemma targets_some n ms m : In m ms -> fits n (fst m) -> targets n ms <> [].
Proof.
  unfold targets. intros Hi Hf H. destruct (filling n ms); [|discriminate H].
  assert (X : In m (fitting n ms)) by (apply in_fitting; tauto). rewrite H in X. destruct X.
Qed.

Lemma targets_all n ms m : In m ms -> fits n (fst m) ->
  (uses_all n (fst m) \/ forall m', In m' ms -> fits n (fst m') -> ~ uses_all n (fst m')) -> In m (targets n ms).
Proof.
  unfold targets. intros Hi Hf [U|N].
  - assert (X : In m (filling n ms)) by (apply in_filling; tauto). destruct (filling n ms) eqn:Q; [destruct X|exact X].
  - destruct (filling n ms) as [|a c] eqn:Q; [apply in_fitting; tauto|].
    assert (A : In a (filling n ms)) by (rewrite Q; left; reflexivity). apply in_filling in A. destruct A as (A1 & A2 & A3).
    exfalso. exact (N a A1 A2 A3).
Qed.

(** ** On a graph *)
Lemma stamps_of f (h : heap blob) ys cur : Forall2 (report h) ys cur ->
  exists ms, map as_member ms = map (fun y => (minSize h y, maxSize h y, extract f h y)) ys /\ map fst ms = cur
    /\ Forall2 (fun y m => report h y (fst m) /\ snd m = extract f h y) ys ms.
Proof.
  induction 1 as [|y s ys cur (H1 & H2) H (ms & I1 & I2 & I3)]; [exists []; repeat split; constructor|].
  exists ((s, extract f h y) :: ms). cbn [map as_member fst snd]. unfold as_member at 1. cbn [fst snd].
  rewrite H1, H2, I1, I2. split; [reflexivity|]. split; [reflexivity|]. constructor; [|exact I3]. repeat split; assumption.
Qed.

Lemma stamps_in f (h : heap blob) ys ms m : Forall2 (fun y m => report h y (fst m) /\ snd m = extract f h y) ys ms -> In m ms ->
  exists y, In y ys /\ report h y (fst m) /\ snd m = extract f h y.
Proof.
  induction 1 as [|y s ys ms Hh H IH]; intros Hi; [destruct Hi|]. destruct Hi as [<-|Hi]; [exists y; split; [left; reflexivity|exact Hh]|].
  destruct (IH Hi) as (y' & I1 & I2). exists y'. split; [right; exact I1|exact I2].
Qed.

Lemma stamps_in' f (h : heap blob) ys ms y : Forall2 (fun y m => report h y (fst m) /\ snd m = extract f h y) ys ms -> In y ys ->
  exists m, In m ms /\ report h y (fst m) /\ snd m = extract f h y.
Proof.
  induction 1 as [|y' s ys ms Hh H IH]; intros Hi; [destruct Hi|]. destruct Hi as [<-|Hi]; [exists s; split; [left; reflexivity|exact Hh]|].
  destruct (IH Hi) as (m & I1 & I2). exists m. split; [right; exact I1|exact I2].
Qed.

Lemma built_width L rec : built L rec -> oracle_size (lot_nums L) = init_oracle_size (zlen rec) /\ In (oracle_size (lot_nums L)) [1; 2; 4; 8].
Proof.
  intros (init & apps & L0 & -> & HS & HG & _). rewrite HG, (grow_osize _ _ _ (start_osize _ _ HS)), <- zlen_app.
  split; [reflexivity|]. apply (width_ok (zlen (init ++ apps))). apply zlen_nonneg.
Qed.

Lemma report_fun h x s1 s2 : report h x s1 -> report h x s2 -> s1 = s2.
Proof. destruct s1, s2. intros (A1 & A2) (B1 & B2). cbn [fst snd] in *. congruence. Qed.
