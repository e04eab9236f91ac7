(** Extraction terminates. *)
From Verif Require Import Base BaseFacts FloatModel Oracle Fmt Arithm StampDict DictWords StampText Galley Stamps
  StampsEq Json Sim SimGraph LeafSpec QuerySpec QueryFacts RecursionFacts ShrinkFacts DepthFacts.

Definition nd {A} (r : res A) : Prop := r <> Diverge.

Lemma nd_rbind {A C} (r : res A) (k : A -> res C) : nd r -> (forall a, r = Ok a -> nd (k a)) -> nd (rbind r k).
Proof. intros H1 H2. destruct r; cbn; auto; try discriminate; exfalso; apply H1; reflexivity. Qed.

Lemma nd_ok {A} (a : A) : nd (Ok a). Proof. discriminate. Qed.
Lemma nd_int_op z : nd (int_op z). Proof. unfold int_op. destruct (in_i32 z); discriminate. Qed.
Lemma nd_to_int z : nd (to_int z). Proof. destruct z; [apply nd_int_op|discriminate]. Qed.
Lemma nd_to_size z : nd (to_size z).
Proof. unfold to_size. destruct z; [|discriminate]. destruct (_ && _); discriminate. Qed.
Lemma nd_to_llong z : nd (to_llong z).
Proof. unfold to_llong. destruct z; [|discriminate]. repeat match goal with |- context [if ?c then _ else _] => destruct c end; discriminate. Qed.
Lemma nd_proportion o a b : nd (OracleProportion o a b).
Proof. apply nd_rbind; [apply nd_to_size|intros; apply nd_ok]. Qed.
Lemma nd_pick o a b : nd (pick_index o a b).
Proof. apply nd_rbind; [apply nd_to_llong|intros; apply nd_ok]. Qed.

Section Term.
  Context {B : Type} {O : BlobOps B} {L : @BlobLaws B O}.

  Definition halts {A} (n : Z) (f : M B A) : Prop := forall b, small n b -> nd (fst (f b)).

  Lemma halts_ret {A} n (a : A) : halts n (ret a). Proof. intros b _. discriminate. Qed.
  Lemma halts_lift {A} n (r : res A) : nd r -> halts n (lift r). Proof. intros H b _. exact H. Qed.
  Lemma halts_gets {A} n (f : B -> A) : halts n (gets f). Proof. intros b _. discriminate. Qed.

  Lemma halts_bind {A C} n (P : A -> Prop) (f : M B A) (g : A -> M B C) :
    halts n f -> shr n P f -> (forall a, P a -> halts n (g a)) -> halts n (bind f g).
  Proof.
    intros Hf Sf Hg b Hb. specialize (Hf b Hb). destruct (Sf b Hb) as [S1 S2]. unfold bind.
    destruct (f b) as [[a| | | |] b']; cbn [fst] in *; try discriminate; [|exfalso; apply Hf; reflexivity].
    apply (Hg a); [apply S2; reflexivity|exact S1].
  Qed.

  Lemma halts_chop n k : 0 <= k -> halts n (Chop k).
  Proof.
    intros Hk b Hb. destruct (chop_small n k b Hk Hb) as [(c & b' & E & _)|E]; rewrite E; discriminate.
  Qed.

  Lemma halts_value n t : halts n (ExtractValue t).
  Proof.
    intros b [Hb _]. pose proof (ArithFacts.sizeof_range t) as Ht. unfold ExtractValue, bind.
    destruct (Z.le_gt_cases (sizeof t) (zlen (cont b))) as [H|H].
    - destruct (law_chop_ok b (sizeof t) Hb ltac:(lia)) as (c & b' & -> & Hc & _ & Ec & _).
      rewrite (law_bytes c Hc); [cbn; discriminate|]. rewrite Ec. intros E. apply (f_equal (@length _)) in E.
      rewrite firstn_length in E. unfold zlen in H. cbn in E. lia.
    - rewrite (law_chop_ood b _ Hb) by lia. discriminate.
  Qed.

  Lemma halts_oracle n : halts n GetOracle. Proof. apply halts_value. Qed.

  Lemma halts_sized n k : halts n (sized_oracle k).
  Proof.
    unfold sized_oracle. repeat (match goal with |- context [if ?c then _ else _] => destruct c end); try apply halts_value.
    apply halts_lift. discriminate.
  Qed.

  Lemma halts_fixed size : u64 size <> 0 -> forall f n, n < Z.of_nat f -> halts n (fixed_loop f size).
  Proof.
    intros Hs. pose proof (u64_range size). induction f as [|f IH]; intros n Hf b Hb.
    { exfalso. destruct Hb as [Ob Sb]. rewrite law_size in Sb by exact Ob. pose proof (zlen_nonneg (cont b)). lia. }
    cbn [fixed_loop]. destruct (u64 size <=? Size b) eqn:E; [|discriminate]. unfold bind at 1.
    destruct (chop_small n (u64 size) b ltac:(lia) Hb) as [(c & b' & -> & _ & _ & H2 & H3)| ->]; [|discriminate].
    assert (Hb' : small (n - 1) b') by (destruct H2 as [H2 _], Hb as [_ Hb]; split; [exact H2|lia]).
    eapply (halts_bind (n - 1)); [apply IH; lia|apply shr_fixed| |exact Hb'].
    intros; apply halts_ret.
  Qed.

  Lemma halts_variated mn mx : forall f n, n < Z.of_nat f -> halts n (variated_loop f mn mx).
  Proof.
    induction f as [|f IH]; intros n Hf b Hb.
    { exfalso. destruct Hb as [Ob Sb]. rewrite law_size in Sb by exact Ob. pose proof (zlen_nonneg (cont b)). lia. }
    cbn [variated_loop]. destruct (int_op (mn + ORACLE_SIZE)) as [need| | | |]; try discriminate.
    destruct (Size b <? u64 need); [discriminate|].
    destruct (oracle_step n b Hb) as [(o & b' & E & Hb')|(r & E & N)].
    - rewrite (bind_ok _ _ _ _ _ E).
      eapply (halts_bind (n - 2)); [apply halts_lift, nd_proportion|apply shr_lift_any| |exact Hb'].
      intros p _. eapply halts_bind; [apply halts_gets|apply shr_gets|]. intros sz _. cbv zeta.
      eapply halts_bind; [apply halts_chop, u64_nonneg|apply shr_chop, u64_nonneg|]. intros c _.
      eapply halts_bind; [apply IH; lia|apply shr_variated|]. intros; apply halts_ret.
    - unfold bind at 1. rewrite E. pose proof (halts_oracle n b Hb) as D. rewrite E in D. cbn [fst] in D.
      destruct r; auto; try discriminate; exfalso; [exact (N _ eq_refl)|apply D; reflexivity].
  Qed.

  Lemma halts_read_oracles n k : forall t, halts n (read_oracles k t).
  Proof.
    induction k as [|k IH]; intros t; cbn [read_oracles]; [apply halts_ret|].
    eapply halts_bind; [apply halts_oracle|apply shr_oracle|]. intros o _.
    eapply halts_bind; [apply halts_lift, nd_int_op|apply shr_lift_any|]. intros t' _.
    eapply halts_bind; [apply IH|apply shr_read_oracles|]. intros; apply halts_ret.
  Qed.

  Lemma halts_unbounded_loop n mn total var os : forall rem, halts n (unbounded_loop mn total var os rem).
  Proof.
    induction os as [|o os IH]; intros rem; cbn [unbounded_loop]; [apply halts_ret|]. cbv zeta.
    eapply halts_bind; [apply halts_lift, nd_to_int|apply shr_lift_any|]. intros el _.
    eapply halts_bind; [apply halts_chop, u64_nonneg|apply shr_chop, u64_nonneg|]. intros c _.
    eapply halts_bind; [apply IH|apply shr_unbounded_loop|]. intros; apply halts_ret.
  Qed.

  Lemma halts_vector_unbounded n mn : halts n (vector_unbounded mn).
  Proof.
    unfold vector_unbounded. eapply halts_bind; [apply halts_gets|apply shr_gets|]. intros sz _.
    destruct (u64 (mn + ORACLE_SIZE) =? 0); [apply halts_lift; discriminate|].
    eapply halts_bind; [apply halts_oracle|apply shr_oracle|]. intros o _. cbv zeta.
    eapply halts_bind; [apply halts_read_oracles|apply shr_read_oracles|]. intros ot _.
    eapply halts_bind; [apply halts_gets|apply shr_gets|]. intros sz2 _.
    eapply halts_bind; [apply halts_lift, nd_int_op|apply shr_lift_any|]. intros fx _.
    eapply halts_bind; [apply halts_lift, nd_int_op|apply shr_lift_any|]. intros vr _.
    apply halts_unbounded_loop.
  Qed.

  Lemma halts_vector n mn mx : ~ (mn = mx /\ u64 mn = 0) -> halts n (vector_extract mn mx).
  Proof.
    intros Hz b Hb. unfold vector_extract. destruct (Size b <? u64 mn); [discriminate|].
    assert (Hs : small (Size b) b) by (destruct Hb; split; [assumption|lia]).
    destruct (isFixedSize mn mx) eqn:Ef.
    - unfold isFixedSize in Ef. apply (halts_fixed mn ltac:(intros E; apply Hz; split; lia) _ (Size b)); [lia|exact Hs].
    - destruct (isUnbounded mn mx); [apply (halts_vector_unbounded n); exact Hb|].
      unfold vector_variated. eapply (halts_bind (Size b)); [apply halts_lift, nd_int_op|apply shr_lift_any| |exact Hs].
      intros _ _. apply halts_variated. lia.
  Qed.

  Lemma halts_read_modifiers n uc l : forall p t, halts n (read_modifiers uc l p t).
  Proof.
    induction l as [|[mn mx] l IH]; intros p t; cbn [read_modifiers]; [apply halts_ret|].
    destruct (isFixedSize mn mx).
    - eapply halts_bind; [apply IH|apply shr_read_modifiers|]. intros; apply halts_ret.
    - eapply halts_bind with (P := any).
      + destruct (isUnbounded mn mx && (uc <=? 1)); [apply halts_ret|].
        eapply halts_bind; [apply halts_oracle|apply shr_oracle|]. intros; apply halts_ret.
      + destruct (isUnbounded mn mx && (uc <=? 1)); [apply shr_ret; exact I|].
        eapply shr_bind; [apply shr_oracle|]. intros; apply shr_ret; exact I.
      + intros md _. eapply halts_bind with (P := any); [| |intros; apply halts_ret].
        * destruct (isUnbounded mn mx); [apply IH|].
          eapply halts_bind; [apply halts_lift, nd_int_op|apply shr_lift_any|]. intros; apply IH.
        * destruct (isUnbounded mn mx); [apply shr_read_modifiers|].
          eapply shr_bind; [apply shr_lift_any|]. intros ? _. apply shr_read_modifiers.
  Qed.

  Lemma nd_el_round mn len : nd (el_round mn len).
  Proof.
    apply nd_rbind; [apply nd_to_int|]. intros. apply nd_rbind; [apply nd_int_op|]. intros; apply nd_ok.
  Qed.

  Lemma halts_set_chunks n l : forall mods kv ku vr ur, halts n (set_chunks l mods kv ku vr ur).
  Proof.
    induction l as [|[mn mx] l IH]; intros [|md mods] kv ku vr ur; cbn [set_chunks]; try apply halts_ret.
    eapply halts_bind; [|apply shr_lift_any|].
    - apply halts_lift. destruct (isVariated mn mx).
      + apply nd_rbind; [apply nd_int_op|]. intros. apply nd_rbind; [apply nd_el_round|]. intros; apply nd_ok.
      + destruct (isUnbounded mn mx); [|apply nd_ok]. apply nd_rbind; [apply nd_el_round|]. intros; apply nd_ok.
    - intros s1 _. eapply halts_bind; [apply halts_chop, u64_nonneg|apply shr_chop, u64_nonneg|]. intros c _.
      eapply halts_bind; [apply IH|apply shr_set_chunks|]. intros; apply halts_ret.
  Qed.

  Lemma nd_set_totals l : forall t, nd (set_totals l t).
  Proof.
    induction l as [|[mn mx] l IH]; intros t; cbn [set_totals]; [apply nd_ok|].
    apply nd_rbind; [apply nd_int_op|]. intros f _. apply nd_rbind.
    - destruct (isVariated mn mx); [|apply nd_ok]. apply nd_rbind; [apply nd_int_op|]. intros; apply nd_int_op.
    - intros. apply IH.
  Qed.

  Lemma halts_set n l : halts n (set_extract l).
  Proof.
    unfold set_extract. eapply halts_bind; [apply halts_lift, nd_set_totals|apply shr_lift_any|]. intros t _. cbv zeta.
    eapply halts_bind; [apply halts_gets|apply shr_gets|]. intros sz _.
    destruct (sz <? u64 (set_fixed_total t)); [apply halts_lift; discriminate|].
    eapply halts_bind with (P := any).
    - destruct (_ && _); [|apply halts_ret].
      eapply halts_bind; [apply halts_oracle|apply shr_oracle|]. intros o _.
      eapply halts_bind; [apply halts_lift, nd_to_int|apply shr_lift_any|]. intros; apply halts_ret.
    - destruct (_ && _); [|apply shr_ret; exact I].
      eapply shr_bind; [apply shr_oracle|]. intros o _.
      eapply shr_bind; [apply shr_lift_any|]. intros; apply shr_ret; exact I.
    - intros lim _. eapply halts_bind; [apply halts_read_modifiers|apply shr_read_modifiers|]. intros x _.
      eapply halts_bind; [|apply shr_lift_any|].
      + apply halts_lift. destruct (f64_lt _ _); [apply nd_to_int|apply nd_ok].
      + intros fv _. eapply halts_bind; [apply halts_lift, nd_int_op|apply shr_lift_any|]. intros fu _.
        apply halts_set_chunks.
  Qed.

  Lemma nd_stamp_each {A} n (ex : M B A) cs : halts n ex -> Forall (small n) cs -> nd (stamp_each ex cs).
  Proof.
    intros E H. induction H as [|c cs Hc _ IH]; cbn [stamp_each]; [apply nd_ok|].
    apply nd_rbind; [apply E, Hc|]. intros. apply nd_rbind; [exact IH|]. intros; apply nd_ok.
  Qed.

  Lemma nd_stamp_zip {A} n (es : list (M B A)) cs : Forall (halts n) es -> Forall (small n) cs -> nd (stamp_zip es cs).
  Proof.
    intros E H. revert es E. induction H as [|c cs Hc _ IH]; intros es E; destruct E as [|e es He E]; cbn [stamp_zip]; try apply nd_ok.
    apply nd_rbind; [apply He, Hc|]. intros. apply nd_rbind; [apply IH, E|]. intros; apply nd_ok.
  Qed.

  (** ** Members *)
  Definition haltm (n : Z) (m : member B) : Prop := nd (fst (fst m)) /\ nd (snd (fst m)) /\ halts n (snd m).

  Lemma nd_soft fr a c sz : nd a -> nd c -> nd (soft_filter fr a c sz).
  Proof.
    intros Ha Hc. unfold soft_filter. destruct fr; [|apply nd_ok]. apply nd_rbind; [exact Hc|]. intros mx _.
    destruct (mx =? -1); [apply nd_ok|]. destruct (sz <? mx); [apply nd_ok|].
    apply nd_rbind; [exact Ha|]. intros. apply nd_rbind; [apply nd_int_op|]. intros; apply nd_ok.
  Qed.

  Lemma lot_filter_halts n fr ms sz : Forall (haltm n) ms ->
    nd (lot_filter fr ms sz) /\ forall a, lot_filter fr ms sz = Ok a -> Forall (halts n) a.
  Proof.
    intros H. induction H as [|[[a c] e] ms (Ha & Hc & He) _ [IH1 IH2]]; cbn [lot_filter].
    - split; [apply nd_ok|]. intros x [= <-]. constructor.
    - cbn [fst snd] in *. destruct a as [mn| | | |]; cbn [rbind]; try (split; [first [discriminate|exfalso; apply Ha; reflexivity]|discriminate]).
      destruct (sz <? u64 mn); [split; assumption|].
      pose proof (nd_soft fr (Ok mn) c (i32 sz) Ha Hc) as Hs.
      destruct (soft_filter fr (Ok mn) c (i32 sz)) as [k| | | |]; cbn [rbind]; try (split; [first [discriminate|exfalso; apply Hs; reflexivity]|discriminate]).
      destruct (lot_filter fr ms sz) as [r| | | |]; cbn [rbind]; try (split; [first [discriminate|exfalso; apply IH1; reflexivity]|discriminate]).
      split; [apply nd_ok|]. intros x [= <-]. specialize (IH2 r eq_refl). destruct k; [constructor|]; assumption.
  Qed.

  Lemma pool_filter_halts n ms sz : Forall (haltm n) ms ->
    nd (pool_filter ms sz) /\ forall a, pool_filter ms sz = Ok a -> Forall (halts n) (fst a) /\ Forall (halts n) (snd a).
  Proof.
    intros H. induction H as [|[[a c] e] ms (Ha & Hc & He) _ [IH1 IH2]]; cbn [pool_filter].
    - split; [apply nd_ok|]. intros x [= <-]. split; constructor.
    - cbn [fst snd] in *. destruct a as [mn| | | |]; cbn [rbind]; try (split; [first [discriminate|exfalso; apply Ha; reflexivity]|discriminate]).
      destruct (u64 mn <=? sz); [|split; assumption].
      destruct c as [k| | | |]; cbn [rbind]; try (split; [first [discriminate|exfalso; apply Hc; reflexivity]|discriminate]).
      destruct (pool_filter ms sz) as [r| | | |]; cbn [rbind]; try (split; [first [discriminate|exfalso; apply IH1; reflexivity]|discriminate]).
      split; [apply nd_ok|]. intros x [= <-]. destruct (IH2 r eq_refl) as [J1 J2]. cbn.
      split; [constructor; assumption|]. destruct (_ || _); [constructor|]; assumption.
  Qed.

  Lemma halts_nth n (a : list (M B bytes)) i : Forall (halts n) a ->
    halts n (match nth_error a i with Some ex => ex | None => lift UB end).
  Proof.
    intros H. destruct (nth_error a i) as [e|] eqn:E; [|apply halts_lift; discriminate].
    rewrite Forall_forall in H. apply H. exact (nth_error_In _ _ E).
  Qed.

  Lemma halts_lot n fr os ms : Forall (haltm (n - 1)) ms -> halts n (lot_extract fr os ms).
  Proof.
    intros H b Hb. unfold lot_extract. destruct (sized_oracle_step n os b Hb) as [(o & b' & E & Hb')|(r & E & N)].
    - rewrite (bind_ok _ _ _ _ _ E). revert b' Hb' E. intros b' Hb' _.
      match goal with |- nd (fst (?f b')) => enough (K : halts (n - 1) f) by exact (K b' Hb') end.
      eapply halts_bind; [apply halts_gets|apply shr_gets|]. intros sz _.
      destruct (lot_filter_halts (n - 1) fr ms sz H) as [F1 F2].
      destruct (lot_filter_halts (n - 1) false ms sz H) as [G1 G2].
      eapply halts_bind with (P := Forall (halts (n - 1))); [apply halts_lift, F1|apply shr_lift; exact F2|].
      intros a0 H0. eapply halts_bind with (P := Forall (halts (n - 1))).
      + destruct a0; [apply halts_lift, G1|apply halts_ret].
      + destruct a0; [apply shr_lift; exact G2|apply shr_ret; exact H0].
      + intros a Ha. destruct a as [|x a]; [apply halts_lift; discriminate|].
        eapply halts_bind; [apply halts_lift, nd_pick|apply shr_lift_any|]. intros i _.
        destruct (u64 i <? _); [apply halts_nth; exact Ha|apply halts_lift; discriminate].
    - unfold bind at 1. rewrite E. pose proof (halts_sized n os b Hb) as D. rewrite E in D. cbn [fst] in D.
      destruct r; auto; try discriminate; exfalso; [exact (N _ eq_refl)|apply D; reflexivity].
  Qed.

  Lemma halts_pool n ms sm : nd sm -> Forall (haltm (n - 1)) ms -> halts n (pool_extract ms sm).
  Proof.
    intros Hsm H b Hb. unfold pool_extract. destruct (oracle_step n b Hb) as [(o & b' & E & Hb')|(r & E & N)].
    - rewrite (bind_ok _ _ _ _ _ E). apply (small_mono _ (n - 1)) in Hb'; [|lia].
      match goal with |- nd (fst (?f b')) => enough (K : halts (n - 1) f) by exact (K b' Hb') end.
      eapply halts_bind; [apply halts_gets|apply shr_gets|]. intros sz _.
      destruct (pool_filter_halts (n - 1) ms sz H) as [F1 F2].
      eapply halts_bind with (P := fun a => Forall (halts (n - 1)) (fst a) /\ Forall (halts (n - 1)) (snd a));
        [apply halts_lift, F1|apply shr_lift; exact F2|]. intros [t u] [Ht Hu]. cbn [fst snd] in *. cbv zeta.
      assert (Hm : Forall (halts (n - 1)) (match u with [] => t | _ => u end)) by (destruct u; assumption).
      set (m := match u with [] => t | _ => u end) in *. clearbody m. destruct m as [|x m].
      + eapply halts_bind; [apply halts_lift, Hsm|apply shr_lift_any|]. intros mn _.
        destruct (sz <? u64 mn); apply halts_lift; discriminate.
      + eapply halts_bind; [apply halts_lift, nd_proportion|apply shr_lift_any|]. intros i _.
        destruct (i <? _); [apply halts_nth; exact Hm|apply halts_lift; discriminate].
    - unfold bind at 1. rewrite E. pose proof (halts_oracle n b Hb) as D. rewrite E in D. cbn [fst] in D.
      destruct r; auto; try discriminate; exfalso; [exact (N _ eq_refl)|apply D; reflexivity].
  Qed.

  (** ** Graphs *)
  Lemma nd_min h (x : sx B) : nd (minSize h x).
  Proof.
    unfold minSize. destruct (query_res (qfuel h) true x h) as [[a ->]| ->]; try discriminate.
    pose proof (free_fuel h). lia.
  Qed.
  Lemma nd_max h (x : sx B) : nd (maxSize h x).
  Proof.
    unfold maxSize. destruct (query_res (qfuel h) false x h) as [[a ->]| ->]; try discriminate.
    pose proof (free_fuel h). lia.
  Qed.
  Lemma nd_sizes h (xs : list (sx B)) : nd (sizes_of h xs).
  Proof.
    induction xs as [|x xs IH]; cbn [sizes_of]; [apply nd_ok|].
    apply nd_rbind; [apply nd_min|]. intros. apply nd_rbind; [apply nd_max|]. intros.
    apply nd_rbind; [exact IH|]. intros; apply nd_ok.
  Qed.

  Notation cleaf := (fun (_ _ : Z) ex => forall n, shr n any ex /\ halts n ex).

  Lemma leaves_mono {B0} (P Q : Z -> Z -> M B0 bytes -> Prop) :
    (forall mn mx ex, P mn mx ex -> Q mn mx ex) -> forall x, leaves P x -> leaves Q x.
  Proof.
    intros HPQ x. induction x as [mn mx ex|j x IH|o x IH|o x y IHx IHy|j xs IH|nm v IHn IHv|p|l] using sx_ind';
      intros Hx; inversion Hx; subst; constructor; auto.
    rewrite Forall_forall in *. auto.
  Qed.

  Lemma heap_leaves_mono {B0} (P Q : Z -> Z -> M B0 bytes -> Prop) :
    (forall mn mx ex, P mn mx ex -> Q mn mx ex) -> forall h, heap_leaves P h -> heap_leaves Q h.
  Proof. intros HPQ h [H1 H2]. split; intros; eapply leaves_mono; eauto. Qed.

  Lemma halts_extract h : heap_leaves (B := B) cleaf h -> heap_no_zero_vec h ->
    forall f n x, n < Z.of_nat f -> leaves cleaf x -> no_zero_vec h x -> halts n (extract f h x).
  Proof.
    intros Hh Hz.
    assert (Hs : heap_leaves (B := B) (fun _ _ ex => forall n, shr n any ex) h)
      by (eapply heap_leaves_mono; [|exact Hh]; cbn; intros ? ? ? K m; apply (K m)).
    pose proof Hh as [Hp Hl]. pose proof Hz as [Zp Zl].
    assert (SE : forall n f x, leaves cleaf x -> shr n any (extract f h x)).
    { intros n f x Hx. apply shr_extract; [exact Hs|]. eapply leaves_mono; [|exact Hx]. cbn; intros ? ? ? K m; apply (K m). }
    induction f as [|f IHf]; intros n x Hf Hx Hv.
    { intros b Hb. exfalso. destruct Hb as [Ob Sb]. rewrite law_size in Sb by exact Ob.
      pose proof (zlen_nonneg (cont b)). lia. }
    induction x as [mn mx ex|j x IH|o x IH|o x y IHx IHy|j xs IH|nm v IHn IHv|p|l] using sx_ind';
      inversion Hx; subst; inversion Hv; subst; unf_extract.
    - match goal with H : forall n, _ /\ _ |- _ => apply (H n) end.
    - eapply halts_bind with (P := fun mn => minSize h x = Ok mn); [apply halts_lift, nd_min|apply shr_lift; auto|]. intros mn Emn.
      eapply halts_bind with (P := fun mx => maxSize h x = Ok mx); [apply halts_lift, nd_max|apply shr_lift; auto|]. intros mx Emx.
      eapply halts_bind with (P := any).
      + eapply halts_bind; [apply halts_vector|apply shr_vector|].
        * intros [-> Z]. match goal with H : ~ zero_sized _ _ |- _ => apply H end. exists mx. auto.
        * intros cs Hcs. apply halts_lift. eapply nd_stamp_each; [apply IH; assumption|exact Hcs].
      + eapply shr_bind; [apply shr_vector|]. intros ? _. apply shr_lift_any.
      + intros; apply halts_ret.
    - eapply halts_bind; [apply IH; assumption|apply SE; assumption|]. intros; apply halts_ret.
    - eapply halts_bind; [apply halts_lift, nd_sizes|apply shr_lift_any|]. intros l _.
      eapply halts_bind; [apply halts_set|apply shr_set|]. intros cs Hcs.
      destruct cs as [|c1 [|c2 [|c3 cs]]]; try (apply halts_lift; discriminate).
      inversion Hcs as [|? ? Hc1 Hcs']; subst. inversion Hcs' as [|? ? Hc2 _]; subst.
      eapply halts_bind; [apply halts_lift, IHx; assumption|apply shr_lift_any|]. intros s1 _.
      eapply halts_bind; [apply halts_lift, IHy; assumption|apply shr_lift_any|]. intros; apply halts_ret.
    - eapply halts_bind; [apply halts_lift, nd_sizes|apply shr_lift_any|]. intros l _.
      eapply halts_bind; [apply halts_set|apply shr_set|]. intros cs Hcs.
      eapply halts_bind; [|apply shr_lift_any|intros; apply halts_ret].
      apply halts_lift. eapply nd_stamp_zip; [|exact Hcs].
      rewrite Forall_map. rewrite Forall_forall in *. intros y Iy. apply IH; auto.
    - eapply halts_bind; [apply IHn; assumption|apply SE; assumption|]. intros a _.
      eapply halts_bind; [apply IHv; assumption|apply SE; assumption|]. intros; apply halts_ret.
    - destruct (nth_error (pools h) p) as [P|] eqn:E; [|apply halts_lift; discriminate]. apply halts_pool; [apply nd_min|].
      rewrite Forall_map, Forall_forall. intros [y|] Iy; (split; [|split]; cbn [fst snd]);
        [apply nd_min|apply nd_max| |discriminate|discriminate|apply halts_lift; discriminate].
      apply IHf; [lia| |].
      + exact (Hp P y (nth_error_In _ _ E) Iy).
      + exact (Zp P y (nth_error_In _ _ E) Iy).
    - destruct (nth_error (lots h) l) as [Lo|] eqn:E; [|apply halts_lift; discriminate]. apply halts_lot.
      rewrite Forall_map, Forall_forall. intros y Iy. (split; [|split]; cbn [fst snd]);
        [apply nd_min|apply nd_max|]. apply IHf; [lia| |].
      + exact (Hl Lo y (nth_error_In _ _ E) Iy).
      + exact (Zl Lo y (nth_error_In _ _ E) Iy).
  Qed.
End Term.

(** ** Library leaves *)
Section Leaf.
  Context {B : Type} {O : BlobOps B} {L : @BlobLaws B O}.

  Lemma dict_tame d n : shr n any (DictExtractStr (B := B) d) /\ halts n (DictExtractStr (B := B) d).
  Proof.
    unfold DictExtractStr. destruct (ChooseStampSize d) as [s m]. split.
    - eapply shr_bind; [apply shr_sized_oracle|]. intros. eapply shr_bind; [apply shr_lift_any|]. intros. apply shr_lift_any.
    - eapply halts_bind; [apply halts_sized|apply shr_sized_oracle|]. intros o _.
      eapply halts_bind; [apply halts_lift, nd_pick|apply shr_lift_any|]. intros i _. apply halts_lift.
      unfold dict_get. repeat match goal with |- context [match ?c with _ => _ end] => destruct c end; discriminate.
  Qed.

  Lemma string_tame n : shr n any (JSONStringExtractStr (B := B)) /\ halts n (JSONStringExtractStr (B := B)).
  Proof.
    unfold JSONStringExtractStr. split.
    - eapply shr_bind; [apply dict_tame|]. intros. apply shr_ret. exact I.
    - eapply halts_bind; [apply dict_tame|apply dict_tame|]. intros. apply halts_ret.
  Qed.

  Lemma arith_tame t n : shr n any (ArithExtractStr (B := B) t) /\ halts n (ArithExtractStr (B := B) t).
  Proof.
    unfold ArithExtractStr. split.
    - eapply shr_bind; [apply shr_value|]. intros. apply shr_lift_any.
    - eapply halts_bind; [apply halts_value|apply shr_value|]. intros v _. apply halts_lift.
      destruct t; unfold to_string_precise, to_xstring;
        repeat match goal with |- context [match ?c with _ => _ end] => destruct c end; discriminate.
  Qed.

  Lemma text_tame k : 0 < k -> forall (g : bytes -> bytes) n,
    let f := (c <- Chop2 1 k ;; v <- lift (AsByteVector c) ;; ret (g v)) : M B bytes in
    shr n any f /\ halts n f.
  Proof.
    intros Hk g n f. split.
    - eapply shr_bind; [apply shr_chop2; lia|]. intros. eapply shr_bind; [apply shr_lift_any|]. intros. apply shr_ret. exact I.
    - intros b [Hb _]. unfold f, bind, Chop2. destruct (Size b <? 1) eqn:E1; [discriminate|].
      rewrite (law_size b Hb) in *.
      assert (K : forall m, 0 < m <= zlen (cont b) ->
        nd (fst (let (r, b') := Chop m b in
                 match r with
                 | Ok a => let (r0, b'0) := lift (AsByteVector a) b' in
                     match r0 with
                     | Ok a0 => ret (g a0) b'0 | OutOfData => (OutOfData, b'0) | UB => (UB, b'0)
                     | Abort => (Abort, b'0) | Diverge => (Diverge, b'0)
                     end
                 | OutOfData => (OutOfData, b') | UB => (UB, b') | Abort => (Abort, b') | Diverge => (Diverge, b')
                 end))).
      { intros m Hm. destruct (law_chop_ok b m Hb ltac:(lia)) as (c & b' & -> & Hc & _ & Ec & _).
        rewrite (law_bytes c Hc); [discriminate|]. rewrite Ec. intros E. apply (f_equal (@length _)) in E.
        rewrite firstn_length in E. unfold zlen in *. change (length (@nil byte)) with 0%nat in E. lia. }
      destruct (k <=? zlen (cont b)) eqn:E2; apply K; lia.
  Qed.
End Leaf.
