(** Blobs as views: positions, writes, disjointness. *)
From Verif Require Import Base BaseFacts Blob BlobSpec BlobFacts FrontSpec FrontFacts LocalSpec RunSpec RunFacts Galley Views ViewsSpec.

(** ** Lists *)
Lemma set_nth_len {A} (l : list A) n v : length (set_nth l n v) = length l.
Proof. revert n. induction l as [|x l IH]; intros [|n]; cbn; auto. Qed.

Lemma set_nth_same {A} (l : list A) n v w : nth_error l n = Some w -> nth_error (set_nth l n v) n = Some v.
Proof. revert n. induction l as [|x l IH]; intros [|n] E; try discriminate; cbn in *; auto. Qed.

Lemma set_nth_other {A} (l : list A) n m v : n <> m -> nth_error (set_nth l n v) m = nth_error l m.
Proof. revert n m. induction l as [|x l IH]; intros [|n] [|m] H; cbn; auto; congruence. Qed.

Lemma set_nth_cases {A} (l : list A) n m v w : nth_error (set_nth l n v) m = Some w ->
  (m = n /\ w = v) \/ (m <> n /\ nth_error l m = Some w).
Proof.
  intros E. destruct (Nat.eq_dec n m) as [->|H].
  - left. split; [reflexivity|]. destruct (nth_error l m) as [x|] eqn:E1.
    + rewrite (set_nth_same l m v x E1) in E. congruence.
    + apply nth_error_None in E1. rewrite <- (set_nth_len l m v) in E1. apply nth_error_None in E1. congruence.
  - right. rewrite set_nth_other in E by exact H. split; [auto|exact E].
Qed.

Lemma nth_app_cases {A} (l : list A) x n w : nth_error (l ++ [x]) n = Some w ->
  (n = length l /\ w = x) \/ nth_error l n = Some w.
Proof.
  intros E. destruct (Nat.lt_ge_cases n (length l)) as [H|H].
  - right. rewrite nth_error_app1 in E by exact H. exact E.
  - left. rewrite nth_error_app2 in E by exact H. destruct (n - length l)%nat as [|k] eqn:K.
    + cbn in E. injection E as ->. split; [lia|reflexivity].
    + destruct k; discriminate E.
Qed.

Lemma nth_set_nth (l : bytes) i c k : (i < length l)%nat ->
  nth_error (set_nth l i c) k = if Nat.eqb k i then Some c else nth_error l k.
Proof.
  intros H. destruct (Nat.eqb_spec k i) as [->|N].
  - destruct (nth_error l i) as [x|] eqn:E; [exact (set_nth_same l i c x E)|]. apply nth_error_None in E. lia.
  - apply set_nth_other. auto.
Qed.

(** ** What a cut does to the positions *)
Lemma view_see A v : view_of (v_arr v) (see A v) = v.
Proof. destruct v; reflexivity. Qed.
Lemma see_view A a b : mem b = a_bytes A -> see A (view_of a b) = b.
Proof. intros E. destruct b; cbn in *. subst. reflexivity. Qed.

Lemma wf_span A v : wf (see A v) -> exists a, v_data v = Some a /\ 0 <= a /\ 0 <= v_begin v /\ v_pos v = a + v_begin v
  /\ 0 <= v_size v /\ v_pos v + v_size v <= zlen (a_bytes A) < 2 ^ 63 /\ v_size v = blobSize (see A v)
  /\ exists n, v_begin v <= n /\ v_size v = n - v_begin v /\ v_end v = u64 (n - 1) /\ a + n <= zlen (a_bytes A).
Proof.
  intros W. pose proof W as (a & n & E & Ha & Hb & Hn & He). cbn [see data bbegin bend mem] in *.
  exists a. assert (Ez : v_size v = n - v_begin v).
  { unfold v_size. rewrite He. unfold u64. replace ((n - 1) mod 2 ^ 64 - v_begin v + 1) with ((n - 1) mod 2 ^ 64 + (1 - v_begin v)) by lia.
    rewrite Zplus_mod_idemp_l. rewrite Z.mod_small; lia. }
  unfold v_pos. rewrite E. repeat split; try lia. exists n. lia.
Qed.

Lemma chop_shape A v n : wf (see A v) -> 0 <= n ->
  (v_size v < n /\ blobChop n (see A v) = (OutOfData, see A v))
  \/ (n <= v_size v /\ blobChop n (see A v)
        = (Ok (newBlob (a_bytes A) (Some (v_pos v)) n), see A (mkView (v_arr v) (v_data v) (v_begin v + n) (v_end v)))).
Proof.
  intros W Hn. destruct (wf_span A v W) as (a & E & Ha & Hb & Ep & Hs & Hl & Es & m & Hm & Em & Ee & Hl2).
  unfold blobChop. rewrite <- Es. destruct (Z.ltb_spec (v_size v) n) as [L|L]; [left; split; [exact L|reflexivity]|right].
  split; [exact L|]. cbn [see mem data bbegin bend]. rewrite E. unfold ptr_add.
  replace ((0 <=? a + v_begin v) && (a + v_begin v <=? zlen (a_bytes A))) with true by (symmetry; apply andb_true_intro; lia).
  rewrite Ep. unfold see. cbn [v_data v_begin v_end]. unfold u64 at 1. rewrite Z.mod_small by lia. reflexivity.
Qed.

(** The number of bytes a cut takes from a blob that long, if any. *)
Definition cut_size (c : cut) (size : Z) : option Z :=
  match c with
  | CChop n => if size <? n then None else Some n
  | CChop2 mn mx => if size <? mn then None else Some (Z.min mx size)
  | CLoad mn mx => if size <? u64 mn then None
                   else Some (if mx =? -1 then size else if size <? u64 mx then size else u64 mx)
  end.

Definition sane_cut (c : cut) : Prop := match c with CChop n => 0 <= n | CChop2 _ mx => 0 <= mx | CLoad _ _ => True end.

Lemma cut_shape A v c : wf (see A v) -> sane_cut c ->
  match cut_size c (v_size v) with
  | None => run_cut c (see A v) = (OutOfData, see A v)
  | Some k => 0 <= k <= v_size v
      /\ run_cut c (see A v) = (Ok (newBlob (a_bytes A) (Some (v_pos v)) k),
                                see A (mkView (v_arr v) (v_data v) (v_begin v + k) (v_end v)))
  end.
Proof.
  intros W Hc. destruct (wf_span A v W) as (a & E & Ha & Hb & Ep & Hs & Hl & Es & _).
  destruct c as [n|mn mx|mn mx]; cbn [cut_size run_cut sane_cut] in *.
  - cbn [Chop BlobBlobOps]. destruct (chop_shape A v n W Hc) as [[L ->]|[L ->]].
    + replace (v_size v <? n) with true by lia. reflexivity.
    + replace (v_size v <? n) with false by lia. split; [lia|reflexivity].
  - unfold Chop2. cbn [Chop Size BlobBlobOps]. rewrite <- Es. destruct (v_size v <? mn); [reflexivity|].
    destruct (Z.leb_spec mx (v_size v)) as [L|L].
    + rewrite Z.min_l by lia. destruct (chop_shape A v mx W Hc) as [[L' ->]|[L' ->]]; [lia|]. split; [lia|reflexivity].
    + rewrite Z.min_r by lia. destruct (chop_shape A v (v_size v) W Hs) as [[L' ->]|[L' ->]]; [lia|]. split; [lia|reflexivity].
  - unfold Load. cbn [Chop Size BlobBlobOps]. rewrite <- Es. destruct (v_size v <? u64 mn); [reflexivity|]. cbv zeta.
    unfold isUnbounded.
    assert (G : forall k, 0 <= k <= v_size v -> 0 <= k <= v_size v /\ blobChop k (see A v) = (Ok (newBlob (a_bytes A) (Some (v_pos v)) k),
                                see A (mkView (v_arr v) (v_data v) (v_begin v + k) (v_end v)))).
    { intros k Hk. split; [exact Hk|]. destruct (chop_shape A v k W ltac:(lia)) as [[L ->]|[L ->]]; [lia|reflexivity]. }
    destruct (mx =? -1); [apply G; lia|]. destruct (Z.ltb_spec (v_size v) (u64 mx)); apply G; [lia|].
    split; [unfold u64; apply Z.mod_pos_bound; lia|lia].
Qed.

Lemma span_cut A v k : wf (see A v) -> 0 <= k <= v_size v ->
  let w := mkView (v_arr v) (v_data v) (v_begin v + k) (v_end v) in
  let w1 := view_of (v_arr v) (newBlob (a_bytes A) (Some (v_pos v)) k) in
  wf (see A w) /\ wf (see A w1) /\ v_pos w = v_pos v + k /\ v_size w = v_size v - k /\ v_pos w1 = v_pos v /\ v_size w1 = k.
Proof.
  intros W Hk. destruct (wf_span A v W) as (a & E & Ha & Hb & Ep & Hs & Hl & Es & m & Hm & Em & Ee & Hl2). cbv zeta.
  assert (W1 : wf (see A (mkView (v_arr v) (v_data v) (v_begin v + k) (v_end v)))).
  { exists a, m. cbn. repeat split; try assumption; lia. }
  assert (W2 : wf (see A (view_of (v_arr v) (newBlob (a_bytes A) (Some (v_pos v)) k)))).
  { exists (v_pos v), k. cbn. repeat split; try lia. }
  split; [exact W1|]. split; [exact W2|].
  destruct (wf_span A _ W1) as (a1 & E1 & _ & _ & Ep1 & _ & _ & _ & m1 & Hm1 & Em1 & Ee1 & Hl1).
  cbn [v_data v_begin v_end] in *. 
  assert (m1 = m).
  { rewrite E in E1. injection E1 as <-. rewrite Ee in Ee1. unfold u64 in Ee1.
    destruct (Z.eq_dec m 0), (Z.eq_dec m1 0); try lia.
    - subst m. rewrite (Z.mod_small (m1 - 1)) in Ee1 by lia. change ((0 - 1) mod 2 ^ 64) with (2 ^ 64 - 1) in Ee1. lia.
    - subst m1. rewrite (Z.mod_small (m - 1)) in Ee1 by lia. change ((0 - 1) mod 2 ^ 64) with (2 ^ 64 - 1) in Ee1. lia.
    - rewrite !Z.mod_small in Ee1 by lia. lia. }
  subst m1. split; [unfold v_pos in *; cbn [v_data v_begin] in *; rewrite E in *; lia|]. split; [lia|].
  split; [unfold view_of, newBlob, v_pos at 1; cbn; lia|].
  unfold view_of, newBlob, v_size. cbn. unfold u64. replace ((k - 1) mod 2 ^ 64 - 0 + 1) with ((k - 1) mod 2 ^ 64 + 1) by lia.
  rewrite Zplus_mod_idemp_l. rewrite Z.mod_small; lia.
Qed.

(** ** The states a careful program comes to *)
Definition fine (s : vstate) : Prop :=
  Forall (fun A => zlen (a_bytes A) < 2 ^ 63) (arrays s)
  /\ forall o v, nth_error (views s) o = Some v -> exists A, nth_error (arrays s) (v_arr v) = Some A /\ wf (see A v).

(** [w] is what is left of [v] or was cut out of it. *)
Definition inside (w v : view) : Prop :=
  v_arr w = v_arr v /\ v_pos v <= v_pos w /\ v_pos w + v_size w <= v_pos v + v_size v.

(** What a step does to the blobs: nothing, a new one by hand, one shortened, one divided in two. *)
Inductive moves (s : vstate) (op : vop) (s' : vstate) : Prop :=
| mv_same : views s' = views s -> (match op with VArray _ | VWrite _ _ _ | VFree _ => True | _ => False end) -> moves s op s'
| mv_new a off n A : op = VBlob a off n -> nth_error (arrays s) a = Some A ->
    views s' = views s ++ [view_of a (newBlob (a_bytes A) (Some off) n)] -> moves s op s'
| mv_less o v w : (match op with VCut o' _ | VRun o' _ => o' = o | _ => False end) -> arrays s' = arrays s ->
    nth_error (views s) o = Some v -> inside w v -> views s' = set_nth (views s) o w -> moves s op s'
| mv_cut o v w w1 : (match op with VCut o' _ => o' = o | _ => False end) -> arrays s' = arrays s ->
    nth_error (views s) o = Some v -> inside w v -> inside w1 v -> v_pos w1 + v_size w1 <= v_pos w ->
    views s' = set_nth (views s) o w ++ [w1] -> moves s op s'.

Lemma wf_same_len A A' v : zlen (a_bytes A) = zlen (a_bytes A') -> wf (see A v) -> wf (see A' v).
Proof. intros E (a & n & H). exists a, n. cbn in *. rewrite <- E. exact H. Qed.

Lemma further_inside A v b : wf (see A v) -> wf b -> further (see A v) b -> inside (view_of (v_arr v) b) v.
Proof.
  intros W Wb (Hm & Hd & He & Hb). 
  assert (Eb : see A (view_of (v_arr v) b) = b) by (apply see_view; exact Hm).
  rewrite <- Eb in Wb. cbn [see mem data bbegin bend] in *.
  destruct (wf_span A v W) as (a & E & Ha & Hb0 & Ep & Hs & Hl & Es & m & Hm0 & Em & Ee & Hl2).
  destruct (wf_span A _ Wb) as (a1 & E1 & Ha1 & Hb1 & Ep1 & Hs1 & Hl1 & Es1 & m1 & Hm1 & Em1 & Ee1 & Hl21).
  cbn [view_of v_data v_begin v_end] in *. rewrite Hd, E in E1. injection E1 as <-.
  assert (m1 = m).
  { rewrite He, Ee in Ee1. unfold u64 in Ee1.
    destruct (Z.eq_dec m 0), (Z.eq_dec m1 0); try lia.
    - subst m. rewrite (Z.mod_small (m1 - 1)) in Ee1 by lia. change ((0 - 1) mod 2 ^ 64) with (2 ^ 64 - 1) in Ee1. lia.
    - subst m1. rewrite (Z.mod_small (m - 1)) in Ee1 by lia. change ((0 - 1) mod 2 ^ 64) with (2 ^ 64 - 1) in Ee1. lia.
    - rewrite !Z.mod_small in Ee1 by lia. lia. }
  subst m1. split; [reflexivity|]. lia.
Qed.

Lemma step_fine s op s' out : fine s -> careful s op -> vstep s op = (Ok s', out) -> fine s' /\ moves s op s'.
Proof.
  intros [F V] C E. destruct op as [bs|a i c|a|a off n|o c|o ex]; cbn [vstep careful] in *.
  - injection E as <- _. split; [split; cbn [arrays views]|apply mv_same; [reflexivity|exact I]].
    + apply Forall_app. split; [exact F|]. constructor; [exact C|constructor].
    + intros o v Hv. destruct (V o v Hv) as (A & EA & W). exists A. split; [|exact W].
      rewrite nth_error_app1; [exact EA|]. apply nth_error_Some. congruence.
  - destruct (nth_error (arrays s) a) as [A|] eqn:EA; [|discriminate E].
    destruct (a_alive A && (0 <=? i) && (i <? zlen (a_bytes A))); [|discriminate E]. injection E as <- _.
    set (A' := mkArray (set_nth (a_bytes A) (Z.to_nat i) c) true).
    assert (L : zlen (a_bytes A) = zlen (a_bytes A')) by (unfold zlen; cbn; rewrite set_nth_len; reflexivity).
    split; [split; cbn [arrays views]|apply mv_same; [reflexivity|exact I]].
    + rewrite Forall_forall in *. intros X HX. apply In_nth_error in HX as [k Hk].
      destruct (set_nth_cases _ _ _ _ _ Hk) as [[_ ->]|[_ Hk']]; [|apply F; eapply nth_error_In; exact Hk'].
      rewrite <- L. apply F. eapply nth_error_In. exact EA.
    + intros o v Hv. destruct (V o v Hv) as (X & EX & W). destruct (Nat.eq_dec a (v_arr v)) as [->|N].
      * exists A'. split; [exact (set_nth_same _ _ _ _ EA)|]. rewrite EA in EX. injection EX as <-. exact (wf_same_len _ _ _ L W).
      * exists X. split; [rewrite set_nth_other by exact N; exact EX|exact W].
  - destruct (nth_error (arrays s) a) as [A|] eqn:EA; [|discriminate E].
    destruct (a_alive A); [|discriminate E]. injection E as <- _.
    split; [split; cbn [arrays views]|apply mv_same; [reflexivity|exact I]].
    + rewrite Forall_forall in *. intros X HX. apply In_nth_error in HX as [k Hk].
      destruct (set_nth_cases _ _ _ _ _ Hk) as [[_ ->]|[_ Hk']]; [|apply F; eapply nth_error_In; exact Hk'].
      cbn. apply F. eapply nth_error_In. exact EA.
    + intros o v Hv. destruct (V o v Hv) as (X & EX & W). destruct (Nat.eq_dec a (v_arr v)) as [->|N].
      * eexists. split; [exact (set_nth_same _ _ _ _ EA)|]. rewrite EA in EX. injection EX as <-. exact W.
      * exists X. split; [rewrite set_nth_other by exact N; exact EX|exact W].
  - destruct (nth_error (arrays s) a) as [A|] eqn:EA; [|discriminate E].
    destruct (a_alive A && (0 <=? off) && (off <=? zlen (a_bytes A))); [|discriminate E]. injection E as <- _.
    specialize (C A eq_refl). split; [split; cbn [arrays views]; [exact F|]|eapply mv_new; [reflexivity|exact EA|reflexivity]].
    intros o v Hv. destruct (nth_app_cases _ _ _ _ Hv) as [[_ ->]|Hv']; [|exact (V o v Hv')].
    exists A. split; [exact EA|]. rewrite see_view by reflexivity. apply newBlob_wf; try lia.
    rewrite Forall_forall in F. specialize (F A (nth_error_In _ _ EA)). lia.
  - destruct (nth_error (views s) o) as [v|] eqn:Ev; [|discriminate E].
    destruct (V o v Ev) as (A & EA & W). rewrite EA in E. destruct (a_alive A); [|discriminate E].
    assert (Sc : sane_cut c) by (destruct c; exact C || exact I).
    pose proof (cut_shape A v c W Sc) as Hc. destruct (cut_size c (v_size v)) as [k|].
    + destruct Hc as [Hk Hc]. rewrite Hc in E. injection E as <- _.
      destruct (span_cut A v k W Hk) as (W1 & W2 & P1 & S1 & P2 & S2).
      set (w := mkView (v_arr v) (v_data v) (v_begin v + k) (v_end v)) in *.
      set (w1 := view_of (v_arr v) (newBlob (a_bytes A) (Some (v_pos v)) k)) in *.
      change (view_of (v_arr v) (see A w)) with w. split.
      * split; cbn [arrays views]; [exact F|]. intros o' v' Hv'.
        destruct (nth_app_cases _ _ _ _ Hv') as [[_ ->]|Hv'']; [exists A; split; [exact EA|exact W2]|].
        destruct (set_nth_cases _ _ _ _ _ Hv'') as [[_ ->]|[_ H]]; [exists A; split; [exact EA|exact W1]|exact (V o' v' H)].
      * eapply mv_cut; [reflexivity|reflexivity|exact Ev| | | |reflexivity].
        -- split; [reflexivity|]. rewrite P1, S1. lia.
        -- split; [reflexivity|]. rewrite P2, S2. lia.
        -- rewrite P1, P2, S2. lia.
    + rewrite Hc in E. injection E as <- _. rewrite view_see. split.
      * split; cbn [arrays views]; [exact F|]. intros o' v' Hv'.
        destruct (set_nth_cases _ _ _ _ _ Hv') as [[_ ->]|[_ H]]; [exists A; split; [exact EA|exact W]|exact (V o' v' H)].
      * eapply mv_less; [reflexivity|reflexivity|exact Ev| |reflexivity]. split; [reflexivity|lia].
  - destruct (nth_error (views s) o) as [v|] eqn:Ev; [|discriminate E].
    destruct (V o v Ev) as (A & EA & W). rewrite EA in E. destruct (a_alive A); [|discriminate E].
    destruct C as [_ T]. destruct (T _ W) as [Wb Fb].
    assert (G : (exists r, s' = mkV (arrays s) (set_nth (views s) o (view_of (v_arr v) (snd (ex (see A v))))) /\ r = out)).
    { destruct (ex (see A v)) as [[r| | | |] b']; try discriminate E; injection E as <- <-; eexists; split; reflexivity. }
    destruct G as (r & -> & _). set (b' := snd (ex (see A v))) in *.
    pose proof (further_inside A v b' W Wb Fb) as In'.
    assert (Wv : wf (see A (view_of (v_arr v) b'))) by (rewrite see_view; [exact Wb|exact (proj1 Fb)]).
    split.
    + split; cbn [arrays views]; [exact F|]. intros o' v' Hv'.
      destruct (set_nth_cases _ _ _ _ _ Hv') as [[_ ->]|[_ H]]; [exists A; split; [exact EA|exact Wv]|exact (V o' v' H)].
    + eapply mv_less; [reflexivity|reflexivity|exact Ev|exact In'|reflexivity].
Qed.

Lemma came_fine p s out : came p s out -> fine s.
Proof.
  induction 1 as [|p s out op s' out' _ IH C E].
  - split; [constructor|]. intros [|o] v; discriminate.
  - exact (proj1 (step_fine s op s' out' IH C E)).
Qed.

Lemma held_content s o v A : fine s -> nth_error (views s) o = Some v -> nth_error (arrays s) (v_arr v) = Some A ->
  held s v = content (see A v).
Proof.
  intros [_ V] Hv HA. destruct (V o v Hv) as (A' & EA & W). rewrite HA in EA. injection EA as <-.
  destruct (wf_span A v W) as (a & E & _ & _ & Ep & _ & _ & Es & _).
  unfold held. rewrite HA, Ep, Es. unfold content. cbn [see data mem bbegin]. rewrite E. reflexivity.
Qed.

(** ** Writes *)
Lemma nth_firstn {A} (l : list A) n k : (k < n)%nat -> nth_error (firstn n l) k = nth_error l k.
Proof. revert n k. induction l as [|x l IH]; intros [|n] [|k] H; cbn; auto; try lia. apply IH. lia. Qed.

Lemma nth_skipn {A} (l : list A) n k : nth_error (skipn n l) k = nth_error l (n + k).
Proof. revert n. induction l as [|x l IH]; intros [|n]; cbn; auto. destruct k; reflexivity. Qed.

Lemma nth_slice m a n k : Z.of_nat k < n -> nth_error (slice m a n) k = nth_error m (Z.to_nat a + k).
Proof. intros Hk. unfold slice. rewrite nth_firstn by lia. apply nth_skipn. Qed.

Lemma held_nth s o v k : fine s -> nth_error (views s) o = Some v -> Z.of_nat k < v_size v ->
  exists A, nth_error (arrays s) (v_arr v) = Some A /\ nth_error (held s v) k = nth_error (a_bytes A) (Z.to_nat (v_pos v) + k)
    /\ 0 <= v_pos v /\ v_pos v + v_size v <= zlen (a_bytes A).
Proof.
  intros [_ V] Hv Hk. destruct (V o v Hv) as (A & EA & W). exists A. split; [exact EA|].
  destruct (wf_span A v W) as (a & E & Ha & Hb & Ep & Hs & Hl & Es & _).
  split; [|lia]. unfold held. rewrite EA. apply nth_slice. exact Hk.
Qed.

Lemma held_len s o v : fine s -> nth_error (views s) o = Some v -> zlen (held s v) = v_size v /\ 0 <= v_size v < 2 ^ 63.
Proof.
  intros Fs Hv. pose proof Fs as [_ V]. destruct (V o v Hv) as (A & EA & W).
  rewrite (held_content s o v A Fs Hv EA). rewrite <- (content_len _ W).
  destruct (wf_span A v W) as (a & E & Ha & Hb & Ep & Hs & Hl & Es & _). lia.
Qed.

Lemma write_step s a i c s' out : vstep s (VWrite a i c) = (Ok s', out) ->
  exists A, nth_error (arrays s) a = Some A /\ 0 <= i < zlen (a_bytes A) /\ a_alive A = true /\ out = []
    /\ s' = mkV (set_nth (arrays s) a (mkArray (set_nth (a_bytes A) (Z.to_nat i) c) true)) (views s).
Proof.
  cbn [vstep]. destruct (nth_error (arrays s) a) as [A|]; [|discriminate].
  destruct (a_alive A) eqn:L, (Z.leb_spec 0 i), (Z.ltb_spec i (zlen (a_bytes A))); cbn; try discriminate.
  intros E. injection E as <- <-. exists A. repeat split; assumption || lia.
Qed.

Lemma write_held s a i c s' out o v k : fine s -> vstep s (VWrite a i c) = (Ok s', out) ->
  nth_error (views s) o = Some v -> Z.of_nat k < v_size v ->
  nth_error (held s' v) k
  = (if Nat.eqb (v_arr v) a && (v_pos v + Z.of_nat k =? i) then Some c else nth_error (held s v) k).
Proof.
  intros Fs E Hv Hk. destruct (write_step _ _ _ _ _ _ E) as (A & EA & Hi & HL & _ & ->).
  destruct (held_nth s o v k Fs Hv Hk) as (X & EX & EK & Hp & Hz).
  unfold held at 1. cbn [arrays]. destruct (Nat.eqb_spec (v_arr v) a) as [<-|N]; cbn [andb].
  - rewrite (set_nth_same _ _ _ _ EA). cbn [a_bytes]. rewrite EX in EA. injection EA as ->.
    rewrite nth_slice by exact Hk. rewrite EK. rewrite nth_set_nth by (unfold zlen in Hi; lia).
    destruct (Nat.eqb_spec (Z.to_nat (v_pos v) + k) (Z.to_nat i)), (Z.eqb_spec (v_pos v + Z.of_nat k) i); try lia; reflexivity.
  - rewrite set_nth_other by auto. unfold held. rewrite EX. reflexivity.
Qed.

(** ** What an extractor answers *)
Lemma run_present s o ex v A : fine s -> local ex -> takes_front ex ->
  nth_error (views s) o = Some v -> nth_error (arrays s) (v_arr v) = Some A -> a_alive A = true ->
  let '(r, b) := ex (blob_of (held s v)) in
  snd (vstep s (VRun o ex)) = answer r
  /\ forall s' out, vstep s (VRun o ex) = (Ok s', out) ->
       out = [r] /\ exists v', nth_error (views s') o = Some v' /\ held s' v' = content b.
Proof.
  intros Fs L T Hv HA HL. pose proof Fs as [FF V]. destruct (V o v Hv) as (A' & EA' & W). rewrite HA in EA'. injection EA' as <-.
  destruct (held_len s o v Fs Hv) as [Hlen Hsz].
  pose proof (holds_blob_of (held s v) ltac:(lia)) as [Wb Cb].
  assert (Ec : content (see A v) = content (blob_of (held s v))) by (rewrite Cb; symmetry; eapply held_content; eassumption).
  destruct (L _ _ W Wb Ec) as [E1 E2]. destruct (T _ W) as [W' F'].
  destruct (ex (blob_of (held s v))) as [r b] eqn:Eb. cbn [fst snd] in *. cbn [vstep]. rewrite Hv, HA, HL.
  destruct (ex (see A v)) as [r0 b0] eqn:E0. cbn [fst snd] in *. subst r0.
  assert (G : held (mkV (arrays s) (set_nth (views s) o (view_of (v_arr v) b0))) (view_of (v_arr v) b0) = content b).
  { rewrite <- E2. rewrite (held_content _ o _ A).
    - rewrite see_view; [reflexivity|exact (proj1 F')].
    - split; [exact FF|]. cbn [views arrays]. intros o' v' Hv'.
      destruct (set_nth_cases _ _ _ _ _ Hv') as [[_ ->]|[_ H]]; [exists A; split; [exact HA|rewrite see_view; [exact W'|exact (proj1 F')]]|exact (V o' v' H)].
    - cbn [views]. exact (set_nth_same _ _ _ _ Hv).
    - exact HA. }
  destruct r; cbn [answer snd]; (split; [reflexivity|]); intros s' out' E; try discriminate E;
    injection E as <- <-; (split; [reflexivity|]); eexists; (split; [exact (set_nth_same _ _ _ _ Hv)|exact G]).
Qed.

(** ** Positions do not depend on the bytes *)
Definition same_lens (s s' : vstate) : Prop :=
  views s = views s' /\ Forall2 (fun A A' => length (a_bytes A) = length (a_bytes A') /\ a_alive A = a_alive A') (arrays s) (arrays s').

Lemma Forall2_nth {A B} (R : A -> B -> Prop) l l' n : Forall2 R l l' ->
  match nth_error l n, nth_error l' n with Some x, Some y => R x y | None, None => True | _, _ => False end.
Proof. intros H. revert n. induction H; intros [|n]; cbn; auto. apply IHForall2. Qed.

Lemma Forall2_set_nth {A B} (R : A -> B -> Prop) l l' n x y : Forall2 R l l' -> R x y -> Forall2 R (set_nth l n x) (set_nth l' n y).
Proof. intros H Hx. revert n. induction H; intros [|n]; cbn; constructor; auto. Qed.

Lemma step_same s s' t op op' out : fine s -> fine s' -> same_lens s s' -> careful s op -> careful s' op' ->
  same_but_bytes op op' -> vstep s op = (Ok t, out) ->
  exists t', vstep s' op' = (Ok t', out) /\ same_lens t t'.
Proof.
  intros Fs Fs' [EV EA] C C' S E.
  destruct op as [bs|a i c|a|a off n|o c|o ex], op' as [bs'|a' i' c'|a'|a' off' n'|o' c'|o' ex']; cbn [same_but_bytes] in S; try contradiction.
  - cbn [vstep] in *. injection E as <- <-. eexists. split; [reflexivity|]. split; [exact EV|].
    cbn [arrays]. apply Forall2_app; [exact EA|]. constructor; [split; [exact S|reflexivity]|constructor].
  - destruct S as [<- <-]. destruct (write_step _ _ _ _ _ _ E) as (A & HA & Hi & HL & -> & ->).
    pose proof (Forall2_nth _ _ _ a EA) as N. rewrite HA in N. destruct (nth_error (arrays s') a) as [A'|] eqn:HA'; [|contradiction].
    destruct N as [N1 N2]. cbn [vstep]. rewrite HA', <- N2, HL. unfold zlen in *. rewrite <- N1.
    replace (0 <=? i) with true by lia. replace (i <? Z.of_nat (length (a_bytes A))) with true by lia. cbn [andb].
    eexists. split; [reflexivity|]. split; [exact EV|]. cbn [arrays]. apply Forall2_set_nth; [exact EA|].
    cbn. rewrite !set_nth_len. auto.
  - subst a'. cbn [vstep] in *. pose proof (Forall2_nth _ _ _ a EA) as N.
    destruct (nth_error (arrays s) a) as [A|]; [|discriminate]. destruct (nth_error (arrays s') a) as [A'|]; [|contradiction].
    destruct N as [N1 N2]. rewrite <- N2. destruct (a_alive A); [|discriminate]. injection E as <- <-.
    eexists. split; [reflexivity|]. split; [exact EV|]. cbn [arrays]. apply Forall2_set_nth; [exact EA|]. auto.
  - destruct S as (<- & <- & <-). cbn [vstep] in *. pose proof (Forall2_nth _ _ _ a EA) as N.
    destruct (nth_error (arrays s) a) as [A|]; [|discriminate]. destruct (nth_error (arrays s') a) as [A'|]; [|contradiction].
    destruct N as [N1 N2]. rewrite <- N2. unfold zlen in *. rewrite <- N1.
    destruct (a_alive A && (0 <=? off) && (off <=? Z.of_nat (length (a_bytes A)))); [|discriminate]. injection E as <- <-.
    eexists. split; [reflexivity|]. split; [cbn [views]; rewrite EV; reflexivity|exact EA].
  - destruct S as [<- <-]. assert (Sc : sane_cut c) by (destruct c; exact C || exact I).
    cbn [vstep] in *. destruct (nth_error (views s) o) as [v|] eqn:Ev; [|discriminate]. rewrite EV in Ev. rewrite Ev.
    destruct (proj2 Fs o v ltac:(rewrite EV; exact Ev)) as (A & HA & W). destruct (proj2 Fs' o v Ev) as (A' & HA' & W').
    pose proof (Forall2_nth _ _ _ (v_arr v) EA) as N. rewrite HA, HA' in N. rewrite HA in E. rewrite HA'. destruct N as [N1 N2].
    rewrite <- N2. destruct (a_alive A); [|discriminate].
    pose proof (cut_shape A v c W Sc) as K. pose proof (cut_shape A' v c W' Sc) as K'.
    destruct (cut_size c (v_size v)) as [k|].
    + destruct K as [_ K], K' as [_ K']. rewrite K in E. rewrite K'. injection E as <- <-.
      eexists. split; [reflexivity|]. split; [cbn [views]; rewrite EV; reflexivity|exact EA].
    + rewrite K in E. rewrite K'. injection E as <- <-.
      eexists. split; [reflexivity|]. split; [cbn [views]; rewrite EV; reflexivity|exact EA].
Qed.

Lemma Forall2_snoc_l {A B} (R : A -> B -> Prop) l x l' : Forall2 R (l ++ [x]) l' ->
  exists l0 y, l' = l0 ++ [y] /\ Forall2 R l l0 /\ R x y.
Proof.
  intros H. apply Forall2_app_inv_l in H as (l1 & l2 & H1 & H2 & ->). inversion H2 as [|? y ? l3 Hy H3]; subst.
  inversion H3; subst. exists l1, y. auto.
Qed.

Lemma came_snoc p op s out : came (p ++ [op]) s out ->
  exists s0 out0 out1, came p s0 out0 /\ careful s0 op /\ vstep s0 op = (Ok s, out1) /\ out = out0 ++ out1.
Proof.
  intros H. inversion H as [E|p0 s0 out0 op0 s1 out1 H0 C E Ep].
  - destruct p; discriminate.
  - apply app_inj_tail in Ep as [-> ->]. exists s0, out0, out1. auto.
Qed.

Lemma came_same p s out : came p s out -> forall p' s' out', Forall2 same_but_bytes p p' -> came p' s' out' ->
  same_lens s s' /\ out = out'.
Proof.
  induction 1 as [|p s out op t o1 Hp IH C E]; intros p' s' out' HF H'.
  - inversion HF; subst. inversion H' as [|p0 ? ? ? ? ? ? ? ? Ep]; subst; [|destruct p0; discriminate].
    split; [split; constructor|reflexivity].
  - apply Forall2_snoc_l in HF as (l0 & op' & -> & HF & Hop).
    destruct (came_snoc _ _ _ _ H') as (s0 & out0 & o1' & H0 & C0 & E0 & ->).
    destruct (IH l0 s0 out0 HF H0) as [SL ->].
    destruct (step_same s s0 t op op' o1 (came_fine _ _ _ Hp) (came_fine _ _ _ H0) SL C C0 Hop E) as (t' & E' & SL').
    rewrite E0 in E'. injection E' as -> ->. split; [exact SL'|reflexivity].
Qed.

(** ** No byte belongs to two blobs *)
Definition apart (s : vstate) (a : nat) : Prop :=
  forall o o' v v' i, o <> o' -> nth_error (views s) o = Some v -> nth_error (views s) o' = Some v' ->
    covers v a i -> covers v' a i -> False.

Lemma inside_covers w v a i : inside w v -> covers w a i -> covers v a i.
Proof. intros (E & H1 & H2) [E' H]. split; [congruence|lia]. Qed.

Lemma less_apart s o v w a : apart s a -> nth_error (views s) o = Some v -> inside w v ->
  forall s1, views s1 = set_nth (views s) o w -> apart s1 a.
Proof.
  intros P Hv I s1 E o1 o2 v1 v2 i N H1 H2 C1 C2. rewrite E in H1, H2.
  destruct (set_nth_cases _ _ _ _ _ H1) as [[-> ->]|[N1 G1]], (set_nth_cases _ _ _ _ _ H2) as [[-> ->]|[N2 G2]].
  - congruence.
  - eapply (P o o2 v v2 i); eauto using inside_covers.
  - eapply (P o1 o v1 v i); eauto using inside_covers.
  - eapply (P o1 o2 v1 v2 i); eauto.
Qed.

Lemma blobs_on_app a p q : blobs_on a (p ++ q) = (blobs_on a p + blobs_on a q)%nat.
Proof. induction p as [|x p IH]; [reflexivity|]. destruct x; cbn [app blobs_on]; rewrite IH; lia. Qed.

Lemma came_none p s out a : came p s out -> blobs_on a p = 0%nat ->
  forall o v, nth_error (views s) o = Some v -> v_arr v <> a.
Proof.
  induction 1 as [|p s out op s' o1 Hp IH C E]; intros Z0 o v Hv; [destruct o; discriminate|].
  rewrite blobs_on_app in Z0. specialize (IH ltac:(lia)).
  destruct (step_fine s op s' o1 (came_fine _ _ _ Hp) C E) as [_ M].
  destruct M as [EV _|b off n A -> EA EV|o1' v1 w Hop EA Hv1 I EV|o1' v1 w w1 Hop EA Hv1 I I1 D EV]; rewrite EV in Hv.
  - eapply IH; eauto.
  - destruct (nth_app_cases _ _ _ _ Hv) as [[_ ->]|Hv']; [|eapply IH; eauto].
    cbn [view_of v_arr]. cbn [blobs_on] in Z0. destruct (Nat.eqb_spec b a); [lia|assumption].
  - destruct (set_nth_cases _ _ _ _ _ Hv) as [[_ ->]|[_ G]]; [|eapply IH; eauto].
    destruct I as [-> _]. eapply IH; eauto.
  - destruct (nth_app_cases _ _ _ _ Hv) as [[_ ->]|Hv']; [destruct I1 as [-> _]; eapply IH; eauto|].
    destruct (set_nth_cases _ _ _ _ _ Hv') as [[_ ->]|[_ G]]; [|eapply IH; eauto].
    destruct I as [-> _]. eapply IH; eauto.
Qed.

Lemma came_apart p s out a : came p s out -> (blobs_on a p <= 1)%nat -> apart s a.
Proof.
  induction 1 as [|p s out op s' o1 Hp IH C E]; intros Z1; [intros o ? ? ? ? _ H; destruct o; discriminate|].
  rewrite blobs_on_app in Z1. specialize (IH ltac:(lia)).
  destruct (step_fine s op s' o1 (came_fine _ _ _ Hp) C E) as [_ M].
  destruct M as [EV _|b off n A -> EA EV|o0 v1 w Hop EA Hv1 I EV|o0 v1 w w1 Hop EA Hv1 I I1 D EV].
  - intros x y v v' i N Hx Hy. rewrite EV in Hx, Hy. eapply IH; eauto.
  - intros x y v v' i N Hx Hy [Ca Cx] [Ca' Cy]. rewrite EV in Hx, Hy. cbn [blobs_on] in Z1.
    assert (Q : b = a -> forall o v, nth_error (views s) o = Some v -> v_arr v <> a).
    { intros ->. eapply came_none; [exact Hp|]. rewrite Nat.eqb_refl in Z1. lia. }
    destruct (nth_app_cases _ _ _ _ Hx) as [[-> ->]|Hx'], (nth_app_cases _ _ _ _ Hy) as [[-> ->]|Hy'].
    + congruence.
    + cbn [view_of v_arr] in Ca. exact (Q Ca _ _ Hy' Ca').
    + cbn [view_of v_arr] in Ca'. exact (Q Ca' _ _ Hx' Ca).
    + eapply (IH x y v v' i); eauto; split; auto.
  - eapply less_apart; eauto.
  - set (s1 := mkV (arrays s) (set_nth (views s) o0 w)).
    pose proof (less_apart s o0 v1 w a IH Hv1 I s1 eq_refl) as P1.
    assert (P2 : forall x v i, nth_error (views s1) x = Some v -> covers v a i -> covers w1 a i -> False).
    { intros x v i Hx Cx C1. destruct (set_nth_cases _ _ _ _ _ Hx) as [[-> ->]|[N G]].
      - destruct Cx as [_ Cx], C1 as [_ C1]. lia.
      - eapply (IH x o0 v v1 i); eauto using inside_covers. }
    intros x y v v' i N Hx Hy Cx Cy. rewrite EV in Hx, Hy.
    destruct (nth_app_cases _ _ _ _ Hx) as [[-> ->]|Hx'], (nth_app_cases _ _ _ _ Hy) as [[-> ->]|Hy'].
    + congruence.
    + eapply (P2 y v' i); eauto.
    + eapply (P2 x v i); eauto.
    + eapply (P1 x y v v' i); eauto.
Qed.

(** ** Arrays that are gone *)
Definition gone (s : vstate) (a : nat) : Prop := exists A, nth_error (arrays s) a = Some A /\ a_alive A = false.

Lemma gone_step s op s' out a : gone s a -> vstep s op = (Ok s', out) -> gone s' a.
Proof.
  intros (A & EA & HL) E. destruct op as [bs|b i c|b|b off n|o c|o ex]; cbn [vstep] in E.
  - injection E as <- _. exists A. cbn. rewrite nth_error_app1 by (apply nth_error_Some; congruence). auto.
  - destruct (nth_error (arrays s) b) as [X|] eqn:EX; [|discriminate].
    destruct (a_alive X) eqn:LX; [|discriminate]. destruct ((0 <=? i) && (i <? zlen (a_bytes X))) eqn:Q; cbn [andb] in E;
      rewrite <- ?andb_assoc, Q in E; [|discriminate]. injection E as <- _.
    exists A. cbn. rewrite set_nth_other by congruence. auto.
  - destruct (nth_error (arrays s) b) as [X|] eqn:EX; [|discriminate].
    destruct (a_alive X) eqn:LX; [|discriminate]. injection E as <- _.
    exists A. cbn. rewrite set_nth_other by congruence. auto.
  - destruct (nth_error (arrays s) b) as [X|]; [|discriminate].
    destruct (a_alive X && (0 <=? off) && (off <=? zlen (a_bytes X))); [|discriminate]. injection E as <- _. exists A. auto.
  - destruct (nth_error (views s) o) as [v|]; [|discriminate]. destruct (nth_error (arrays s) (v_arr v)) as [X|]; [|discriminate].
    destruct (a_alive X); [|discriminate]. destruct (run_cut c (see X v)) as [[| | | |] b']; try discriminate; injection E as <- _; exists A; auto.
  - destruct (nth_error (views s) o) as [v|]; [|discriminate]. destruct (nth_error (arrays s) (v_arr v)) as [X|]; [|discriminate].
    destruct (a_alive X); [|discriminate]. destruct (ex (see X v)) as [[| | | |] b']; try discriminate; injection E as <- _; exists A; auto.
Qed.

Lemma free_step s a s' out : vstep s (VFree a) = (Ok s', out) ->
  gone s' a /\ views s' = views s /\ out = [] /\ forall v, held s' v = held s v.
Proof.
  cbn [vstep]. destruct (nth_error (arrays s) a) as [A|] eqn:EA; [|discriminate]. destruct (a_alive A); [|discriminate].
  intros E. injection E as <- <-. repeat split.
  - eexists. cbn. split; [exact (set_nth_same _ _ _ _ EA)|reflexivity].
  - intros v. unfold held. cbn [arrays]. destruct (Nat.eq_dec a (v_arr v)) as [->|N].
    + rewrite (set_nth_same _ _ _ _ EA), EA. reflexivity.
    + rewrite set_nth_other by exact N. reflexivity.
Qed.

Lemma gone_came p q a : forall s out, came (p ++ VFree a :: q) s out -> gone s a.
Proof.
  induction q as [|op q IH] using rev_ind; intros s out H.
  - destruct (came_snoc _ _ _ _ H) as (s0 & o0 & o1 & _ & _ & E & _). exact (proj1 (free_step _ _ _ _ E)).
  - change (VFree a :: q ++ [op]) with ((VFree a :: q) ++ [op]) in H. rewrite app_assoc in H.
    destruct (came_snoc _ _ _ _ H) as (s0 & o0 & o1 & H0 & _ & E & _). eapply gone_step; [exact (IH _ _ H0)|exact E].
Qed.

Lemma came_run_from p : forall p0 s0 out0 s out, came p0 s0 out0 -> careful_run p s0 -> vrun p s0 = (Ok s, out) ->
  came (p0 ++ p) s (out0 ++ out).
Proof.
  induction p as [|op p IH]; intros p0 s0 out0 s out H C E; cbn [vrun careful_run] in *.
  - injection E as <- <-. rewrite !app_nil_r. exact H.
  - destruct C as [C1 C2]. destruct (vstep s0 op) as [[s1| | | |] o1] eqn:E1; cbn [fst] in C2; try contradiction.
    destruct (vrun p s1) as [s2 o2] eqn:E2. injection E as -> <-.
    change (op :: p) with ([op] ++ p). rewrite !app_assoc.
    apply (IH (p0 ++ [op]) s1 (out0 ++ o1) s o2); [eapply came_step; eassumption|exact C2|exact E2].
Qed.

Lemma came_run p s out : careful_run p vinit -> vrun p vinit = (Ok s, out) -> came p s out.
Proof. exact (came_run_from p [] vinit [] s out came_nil). Qed.
