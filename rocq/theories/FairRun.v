(** Even shares: the bytes of the data and the members that are drawn. *)
From Verif Require Import Base BaseFacts Blob BlobSpec BlobFacts RunSpec RunFacts Sim Oracle Arithm ArithSpec ArithFacts StampDict PickFacts DictFacts
  VectorSpec VectorFacts Stamps LotSpec LotFacts FairSpec.
Local Open Scope Z_scope.

Lemma number_decode l : number l = le_decode l.
Proof. induction l as [|c l IH]; [reflexivity|]. cbn [number fold_right le_decode]. unfold number in IH. rewrite IH. reflexivity. Qed.

Lemma number_oracle n (front r : bytes) : n = 1 \/ n = 2 \/ n = 4 \/ n = 8 -> zlen front = n ->
  sized_oracle n (front ++ r) = (Ok (number front), r) /\ 0 <= number front <= 2 ^ (8 * n) - 1.
Proof.
  intros Hn Hf. destruct (list_sized_oracle n (front ++ r) Hn ltac:(rewrite zlen_app; pose proof (zlen_nonneg r); lia)) as (o & Eo & Ro & Do).
  replace (Z.to_nat n) with (length front) in Eo, Do by (unfold zlen in Hf; lia).
  rewrite skipn_app, skipn_all, Nat.sub_diag in Eo. cbn [skipn app] in Eo.
  rewrite firstn_app, firstn_all, Nat.sub_diag in Do. cbn [firstn] in Do. rewrite app_nil_r in Do.
  assert (X : o = number front).
  { rewrite number_decode, Do. destruct Hn as [->|[->|[->| ->]]]; reflexivity. }
  rewrite <- X. split; assumption.
Qed.

Lemma number_GetOracle (front r : bytes) : zlen front = 2 -> GetOracle (front ++ r) = (Ok (number front), r) /\ 0 <= number front <= 65535.
Proof.
  intros Hf. exact (number_oracle 2 front r ltac:(auto) Hf).
Qed.

(** Filters on two lists side by side. *)
Lemma kept_filter {A C} (R : A -> C -> Prop) (P : A -> Prop) (p : C -> bool) ys ms :
  Forall2 R ys ms -> (forall y m, In m ms -> R y m -> (P y <-> p m = true)) ->
  exists zs, kept P ys zs /\ Forall2 R zs (filter p ms).
Proof.
  induction 1 as [|y m ys ms H1 H2 IH]; intros HP; [exists []; split; constructor|].
  destruct IH as (zs & K1 & K2). { intros y' m' Hi. apply HP. right. exact Hi. }
  cbn [filter]. pose proof (HP y m (or_introl eq_refl) H1) as E. destruct (p m).
  - exists (y :: zs). split; constructor; try assumption. apply E. reflexivity.
  - exists zs. split; [|exact K2]. apply kept_out; [|exact K1]. intros X. apply E in X. discriminate X.
Qed.

Lemma kept_In {A} (P : A -> Prop) ys zs z : kept P ys zs -> In z zs -> In z ys.
Proof. induction 1 as [|x l m H1 H2 IH|x l m H1 H2 IH]; intros Hi; [exact Hi| |right; exact (IH Hi)]. destruct Hi as [<-|Hi]; [left; reflexivity|right; exact (IH Hi)]. Qed.

Lemma kept_P {A} (P : A -> Prop) ys zs z : kept P ys zs -> In z zs -> P z.
Proof. induction 1 as [|x l m H1 H2 IH|x l m H1 H2 IH]; intros Hi; [destruct Hi| |exact (IH Hi)]. destruct Hi as [<-|Hi]; [exact H1|exact (IH Hi)]. Qed.

Lemma Forall2_zlen {A C} (R : A -> C -> Prop) l m : Forall2 R l m -> zlen l = zlen m.
Proof. induction 1 as [|x y l m H1 H2 IH]; [reflexivity|]. rewrite !zlen_cons. lia. Qed.

Lemma Forall2_nth {A C} (R : A -> C -> Prop) l m : Forall2 R l m -> forall i x y, nth_error l i = Some x -> nth_error m i = Some y -> R x y.
Proof.
  induction 1 as [|a c l m H1 H2 IH]; intros i x y E1 E2; destruct i; try discriminate E1; cbn in E1, E2.
  - injection E1 as <-. injection E2 as <-. exact H1.
  - exact (IH i x y E1 E2).
Qed.

Lemma targets_kept f (h : heap blob) n ys ms :
  Forall2 (fun y m => report h y (fst m) /\ snd m = extract f h y) ys ms ->
  exists zs, kept (fun y => exists s, report h y s /\ fits n s /\ (uses_all n s \/ Forall (fun s => fits n s -> ~ uses_all n s) (map fst ms))) ys zs
    /\ Forall2 (fun y m => report h y (fst m) /\ snd m = extract f h y) zs (targets n ms).
Proof.
  intros H. unfold targets. destruct (filling n ms) as [|c0 c] eqn:Q.
  - apply (kept_filter _ _ (fun s : stamp => fst (fst s) <=? n) _ _ H). intros y m Hi (Ry & _). split.
    + intros (s & Rs & Fs & _). rewrite (report_fun h y _ _ Rs Ry) in Fs. unfold fits in Fs. lia.
    + intros X. exists (fst m). split; [exact Ry|]. split; [unfold fits; lia|]. right. apply Forall_forall. intros s Hs.
      apply in_map_iff in Hs. destruct Hs as (m' & <- & Hm'). intros F U.
      assert (X' : In m' (filling n ms)) by (apply in_filling; tauto). rewrite Q in X'. destruct X'.
  - rewrite <- Q. apply (kept_filter _ _ (fun s : stamp => (fst (fst s) <=? n) && ((snd (fst s) =? -1) || (n <=? snd (fst s)))) _ _ H). intros y m Hi (Ry & _). split.
    + intros (s & Rs & Fs & Us). rewrite (report_fun h y _ _ Rs Ry) in Fs, Us. destruct Us as [Us|Us]; [unfold fits, uses_all in *; lia|].
      assert (X : In c0 (filling n ms)) by (rewrite Q; left; reflexivity). apply in_filling in X. destruct X as (X1 & X2 & X3).
      rewrite Forall_forall in Us. exfalso. exact (Us _ (in_map fst _ _ X1) X2 X3).
    + intros X. exists (fst m). split; [exact Ry|]. unfold fits, uses_all. split; [lia|]. left. lia.
Qed.

Lemma candidates_kept f (h : heap blob) four n ys ms : sane_all four ms ->
  Forall2 (fun y m => report h y (fst m) /\ snd m = extract f h y) ys ms ->
  exists zs, kept (fun y => exists s, report h y s /\ fits n s
      /\ (four = true -> leaves_little n s \/ Forall (fun s => fits n s -> ~ leaves_little n s) (map fst ms))) ys zs
    /\ Forall2 (fun y m => report h y (fst m) /\ snd m = extract f h y) zs (candidates four n ms).
Proof.
  intros Hs H. unfold candidates. pose proof Hs as HS. unfold sane_all in HS. rewrite Forall_forall in HS.
  destruct (filter (keep four n) ms) as [|c0 c] eqn:Q.
  - apply (kept_filter _ _ _ _ _ H). intros y m Hi (Ry & _). unfold keep at 1, soft. cbn [negb orb]. rewrite Bool.andb_true_r. split.
    + intros (s & Rs & Fs & _). rewrite (report_fun h y _ _ Rs Ry) in Fs. unfold fits in Fs. lia.
    + intros X. exists (fst m). split; [exact Ry|]. split; [unfold fits; lia|]. intros ->. right. apply Forall_forall. intros s Hs'.
      apply in_map_iff in Hs'. destruct Hs' as (m' & <- & Hm'). intros F U.
      assert (X' : In m' (filter (keep true n) ms)).
      { apply filter_In. split; [exact Hm'|]. unfold keep. apply (soft_spec n _ (HS m' Hm')) in U. unfold fits in F. lia. }
      rewrite Q in X'. destruct X'.
  - rewrite <- Q. apply (kept_filter _ _ _ _ _ H). intros y m Hi (Ry & _). split.
    + intros (s & Rs & Fs & Us). rewrite (report_fun h y _ _ Rs Ry) in Fs, Us. unfold keep. apply andb_true_intro. split; [unfold fits in Fs; lia|].
      destruct four; [|reflexivity]. apply (soft_spec n _ (HS m Hi)). destruct (Us eq_refl) as [U|U]; [exact U|].
      assert (X : In c0 (filter (keep true n) ms)) by (rewrite Q; left; reflexivity). apply filter_In in X. destruct X as (X1 & X2).
      unfold keep in X2. apply andb_prop in X2. destruct X2 as [X2 X3]. apply (soft_spec n _ (HS c0 X1)) in X3.
      rewrite Forall_forall in U. exfalso. apply (U _ (in_map fst _ _ X1)); [unfold fits; lia|exact X3].
    + intros X. unfold keep in X. apply andb_prop in X. destruct X as [X2 X3]. exists (fst m). split; [exact Ry|]. split; [unfold fits; lia|].
      intros ->. left. apply (soft_spec n _ (HS m Hi)). exact X3.
Qed.

(** Every member of a dictionary or lottery has its share. *)
Lemma pick_reach_all mx n i : mx = 255 \/ mx = 65535 -> 1 <= n <= mx + 1 -> 0 <= i < n ->
  exists o, 0 <= o <= mx /\ pick_index o mx n = Ok i.
Proof.
  intros Hm Hn Hi. destruct (Z.eq_dec n (mx + 1)) as [A|A]; [|destruct (Z.eq_dec n mx) as [A'|A']].
  - subst n. destruct Hm as [->| ->]; [apply (pick_reach_succ 8)|apply (pick_reach_succ 16)]; lia.
  - subst n. destruct Hm as [->| ->]; [apply (pick_reach_eq 8)|apply (pick_reach_eq 16)]; auto; lia.
  - apply pick_reach_lt; lia.
Qed.
