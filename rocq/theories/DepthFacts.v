(** The recursion depth given to [extract] is enough; extraction terminates. *)
From Verif Require Import Base BaseFacts FloatModel Oracle Arithm StampDict DictWords StampText Galley Stamps
  StampsEq Json Sim SimGraph LeafSpec QuerySpec QueryFacts RecursionFacts ShrinkFacts.

Section Depth.
  Context {B : Type} {O : BlobOps B} {L : @BlobLaws B O}.
  Notation shrl := (fun (_ _ : Z) ex => forall n, shr n any ex).
  Notation sleaves := (leaves (B := B) shrl).
  Notation hleaves := (heap_leaves (B := B) shrl).

  Lemma shr_stamp_fst {A} n (ex : M B A) : shr n any ex -> shr n any ex. Proof. auto. Qed.

  Lemma shr_extract h : hleaves h -> forall n f x, sleaves x -> shr n any (extract f h x).
  Proof.
    intros [Hp Hl] n. induction f as [|f IHf].
    - intros x Hx. induction x as [mn mx ex|j x IH|o x IH|o x y IHx IHy|j xs IH|nm v IHn IHv|p|l] using sx_ind';
        inversion Hx; subst; unf_extract.
      + auto.
      + eapply shr_bind; [apply shr_lift_any|]. intros ? _. eapply shr_bind; [apply shr_lift_any|]. intros ? _.
        eapply shr_bind with (P := any); [|intros; apply shr_ret; exact I].
        eapply shr_bind; [apply shr_vector|]. intros ? _. apply shr_lift_any.
      + eapply shr_bind; [apply IH; assumption|]. intros ? _. apply shr_ret; exact I.
      + eapply shr_bind; [apply shr_lift_any|]. intros ? _. eapply shr_bind; [apply shr_set|]. intros cs _.
        destruct cs as [|c1 [|c2 [|c3 cs]]]; try apply shr_lift_any.
        do 2 (eapply shr_bind; [apply shr_lift_any|]; intros ? _). apply shr_ret; exact I.
      + eapply shr_bind; [apply shr_lift_any|]. intros ? _. eapply shr_bind; [apply shr_set|]. intros cs _.
        eapply shr_bind; [apply shr_lift_any|]. intros ? _. apply shr_ret; exact I.
      + eapply shr_bind; [apply IHn; assumption|]. intros ? _.
        eapply shr_bind; [apply IHv; assumption|]. intros ? _. apply shr_ret; exact I.
      + apply shr_lift_any.
      + apply shr_lift_any.
    - intros x Hx. induction x as [mn mx ex|j x IH|o x IH|o x y IHx IHy|j xs IH|nm v IHn IHv|p|l] using sx_ind';
        inversion Hx; subst; unf_extract.
      + auto.
      + eapply shr_bind; [apply shr_lift_any|]. intros ? _. eapply shr_bind; [apply shr_lift_any|]. intros ? _.
        eapply shr_bind with (P := any); [|intros; apply shr_ret; exact I].
        eapply shr_bind; [apply shr_vector|]. intros ? _. apply shr_lift_any.
      + eapply shr_bind; [apply IH; assumption|]. intros ? _. apply shr_ret; exact I.
      + eapply shr_bind; [apply shr_lift_any|]. intros ? _. eapply shr_bind; [apply shr_set|]. intros cs _.
        destruct cs as [|c1 [|c2 [|c3 cs]]]; try apply shr_lift_any.
        do 2 (eapply shr_bind; [apply shr_lift_any|]; intros ? _). apply shr_ret; exact I.
      + eapply shr_bind; [apply shr_lift_any|]. intros ? _. eapply shr_bind; [apply shr_set|]. intros cs _.
        eapply shr_bind; [apply shr_lift_any|]. intros ? _. apply shr_ret; exact I.
      + eapply shr_bind; [apply IHn; assumption|]. intros ? _.
        eapply shr_bind; [apply IHv; assumption|]. intros ? _. apply shr_ret; exact I.
      + destruct (nth_error (pools h) p) as [P|] eqn:E; [|apply shr_lift_any]. apply shr_pool.
        rewrite Forall_map, Forall_forall. intros [y|] Iy; unfold shrm; cbn [snd]; [|apply shr_lift_any].
        apply IHf. exact (Hp P y (nth_error_In _ _ E) Iy).
      + destruct (nth_error (lots h) l) as [Lo|] eqn:E; [|apply shr_lift_any]. apply shr_lot.
        rewrite Forall_map, Forall_forall. intros y Iy. unfold shrm; cbn [snd].
        apply IHf. exact (Hl Lo y (nth_error_In _ _ E) Iy).
  Qed.

  (** ** Agreement on small blobs *)
  Definition agr {A} (n : Z) (f g : M B A) : Prop := forall b, small n b -> f b = g b.

  Lemma agr_refl {A} n (f : M B A) : agr n f f. Proof. intros b _. reflexivity. Qed.

  Lemma agr_bind {A C} n (P : A -> Prop) (f1 f2 : M B A) (g1 g2 : A -> M B C) :
    agr n f1 f2 -> shr n P f1 -> (forall a, P a -> agr n (g1 a) (g2 a)) -> agr n (bind f1 g1) (bind f2 g2).
  Proof.
    intros E S K b Hb. unfold bind. rewrite <- (E b Hb). destruct (S b Hb) as [S1 S2].
    destruct (f1 b) as [[a| | | |] b']; try reflexivity. apply K; [apply S2; reflexivity|exact S1].
  Qed.

  Lemma agr_stamp_each {A} n (e1 e2 : M B A) cs : agr n e1 e2 -> Forall (small n) cs -> stamp_each e1 cs = stamp_each e2 cs.
  Proof.
    intros E H. induction H as [|c cs Hc _ IH]; cbn [stamp_each]; [reflexivity|]. rewrite (E c Hc), IH. reflexivity.
  Qed.

  Lemma agr_stamp_zip {A} n (e1 e2 : list (M B A)) cs : Forall2 (agr n) e1 e2 -> Forall (small n) cs ->
    stamp_zip e1 cs = stamp_zip e2 cs.
  Proof.
    intros E H. revert e1 e2 E. induction H as [|c cs Hc _ IH]; intros e1 e2 E; destruct E as [|a1 a2 e1 e2 Ea E];
      cbn [stamp_zip]; try reflexivity. rewrite (Ea c Hc), (IH _ _ E). reflexivity.
  Qed.

  Lemma bind_lift_ext {A C} (r : res A) (k1 k2 : A -> M B C) b :
    (forall a, r = Ok a -> k1 a b = k2 a b) -> bind (lift r) k1 b = bind (lift r) k2 b.
  Proof. intros H. unfold bind, lift. destruct r; auto. Qed.

  Lemma bind_fail_ext {A C} (f : M B A) (k1 k2 : A -> M B C) b b' (r : res A) :
    f b = (r, b') -> (forall o, r <> Ok o) -> bind f k1 b = bind f k2 b.
  Proof. intros E N. unfold bind. rewrite E. destruct r; try reflexivity. exfalso. exact (N _ eq_refl). Qed.

  Definition agrm (n : Z) (m1 m2 : member B) : Prop := fst m1 = fst m2 /\ agr n (snd m1) (snd m2).

  Definition agrr {A1} (R : A1 -> A1 -> Prop) (r1 r2 : res A1) : Prop := res_rel R r1 r2.

  Lemma agr_lot_filter n fr ms1 ms2 sz : Forall2 (agrm n) ms1 ms2 ->
    res_rel (Forall2 (agr n)) (lot_filter fr ms1 sz) (lot_filter fr ms2 sz).
  Proof.
    intros H. induction H as [|[[a1 c1] e1] [[a2 c2] e2] ms1 ms2 [Hf He] H IH]; cbn [lot_filter].
    - constructor.
    - cbn [fst snd] in Hf, He. injection Hf as <- <-. destruct a1 as [mn| | | |]; cbn [rbind]; try exact I.
      destruct (sz <? u64 mn); [exact IH|].
      eapply rbind_rel; [apply res_rel_eq; reflexivity|]. intros k ? <-.
      eapply rbind_rel; [exact IH|]. intros r1 r2 Hr. destruct k; [constructor; assumption|exact Hr].
  Qed.

  Lemma agr_pool_filter n ms1 ms2 sz : Forall2 (agrm n) ms1 ms2 ->
    res_rel (fun p1 p2 => Forall2 (agr n) (fst p1) (fst p2) /\ Forall2 (agr n) (snd p1) (snd p2))
      (pool_filter ms1 sz) (pool_filter ms2 sz).
  Proof.
    intros H. induction H as [|[[a1 c1] e1] [[a2 c2] e2] ms1 ms2 [Hf He] H IH]; cbn [pool_filter].
    - split; constructor.
    - cbn [fst snd] in Hf, He. injection Hf as <- <-. destruct a1 as [mn| | | |]; cbn [rbind]; try exact I.
      destruct (u64 mn <=? sz); [|exact IH].
      eapply rbind_rel; [apply res_rel_eq; reflexivity|]. intros k ? <-.
      eapply rbind_rel; [exact IH|]. intros r1 r2 [Hr1 Hr2]. cbn. split; [constructor; assumption|].
      destruct ((k =? -1) || (sz <=? u64 k)); [constructor|]; assumption.
  Qed.

  Lemma agr_nth n (a1 a2 : list (M B bytes)) i : Forall2 (agr n) a1 a2 ->
    agr n (match nth_error a1 i with Some ex => ex | None => lift UB end)
          (match nth_error a2 i with Some ex => ex | None => lift UB end).
  Proof.
    intros H. pose proof (Forall2_nth _ _ _ i H) as Hn.
    destruct (nth_error a1 i), (nth_error a2 i); try contradiction; [exact Hn|apply agr_refl].
  Qed.

  Lemma sized_oracle_step n k b : small n b ->
    (exists o b', sized_oracle k b = (Ok o, b') /\ small (n - 1) b')
    \/ exists r, sized_oracle k b = (r, snd (sized_oracle k b)) /\ forall o, r <> Ok o.
  Proof.
    intros Hb.
    assert (V : forall t, (exists o b', ExtractValue t b = (Ok o, b') /\ small (n - 1) b')
              \/ exists r, ExtractValue t b = (r, snd (ExtractValue t b)) /\ forall o, r <> Ok o).
    { intros t. unfold ExtractValue, bind. pose proof (ArithFacts.sizeof_range t).
      destruct (chop_small n (sizeof t) b ltac:(lia) Hb) as [(c & b' & E & _ & _ & H2 & H3)|E]; rewrite E.
      - cbn [lift]. destruct (AsByteVector c) as [v| | | |]; cbn [ret snd]; try (right; eexists; split; [reflexivity|discriminate]).
        left. eexists _, _. split; [reflexivity|]. destruct H2 as [H2 _], Hb as [_ Hb]. split; [exact H2|lia].
      - right. eexists. split; [reflexivity|discriminate]. }
    unfold sized_oracle. repeat (match goal with |- context [if ?c then _ else _] => destruct c end); try apply V.
    all: right; eexists; split; [reflexivity|discriminate].
  Qed.

  Lemma agr_pool n ms1 ms2 sm : Forall2 (agrm (n - 1)) ms1 ms2 -> agr n (pool_extract ms1 sm) (pool_extract ms2 sm).
  Proof.
    intros H b Hb. unfold pool_extract.
    destruct (oracle_step n b Hb) as [(o & b' & E & Hb')|(r & E & N)].
    - assert (Hb1 : small (n - 1) b') by (destruct Hb'; split; [assumption|lia]).
      rewrite !(bind_ok _ _ _ _ _ E), !bind_gets.
      pose proof (agr_pool_filter (n - 1) ms1 ms2 (Size b') H) as F.
      destruct (pool_filter ms1 (Size b')) as [[t1 u1]| | | |], (pool_filter ms2 (Size b')) as [[t2 u2]| | | |]; try contradiction;
        try reflexivity.
      destruct F as [Ft Fu]. cbn [fst snd] in *. rewrite !(bind_lift_ok (Ok _) _ _ _ eq_refl). cbn [fst snd]. cbv zeta.
      assert (Fm : Forall2 (agr (n - 1)) (match u1 with [] => t1 | _ => u1 end) (match u2 with [] => t2 | _ => u2 end))
        by (destruct Fu; [exact Ft|constructor; assumption]).
      set (m1 := match u1 with [] => t1 | _ => u1 end) in *. set (m2 := match u2 with [] => t2 | _ => u2 end) in *.
      clearbody m1 m2. rewrite (Forall2_zlen _ _ _ Fm). pose proof Fm as Fm'. destruct Fm as [|x1 x2 m1 m2 Hx Fm]; [reflexivity|].
      set (l1 := x1 :: m1) in *. set (l2 := x2 :: m2) in *.
      unfold l1 at 1, l2 at 1. apply bind_lift_ext. intros i _.
      destruct (i <? zlen l2); [|reflexivity]. apply (agr_nth (n - 1) l1 l2 (Z.to_nat i) Fm'). exact Hb1.
    - exact (bind_fail_ext _ _ _ _ _ _ E N).
  Qed.

  Lemma agr_lot n fr os ms1 ms2 : Forall2 (agrm (n - 1)) ms1 ms2 -> agr n (lot_extract fr os ms1) (lot_extract fr os ms2).
  Proof.
    intros H b Hb. unfold lot_extract.
    destruct (sized_oracle_step n os b Hb) as [(o & b' & E & Hb1)|(r & E & N)].
    - rewrite !(bind_ok _ _ _ _ _ E), !bind_gets.
      pose proof (agr_lot_filter (n - 1) fr ms1 ms2 (Size b') H) as F.
      destruct (lot_filter fr ms1 (Size b')) as [a1| | | |], (lot_filter fr ms2 (Size b')) as [a2| | | |]; try contradiction;
        try reflexivity. cbn in F.
      rewrite !(bind_lift_ok (Ok _) _ _ _ eq_refl).
      assert (K : forall c1 c2 : list (M B bytes), Forall2 (agr (n - 1)) c1 c2 ->
        match c1 with [] => lift OutOfData | _ =>
          index <- lift (pick_index o (oracle_max os) (zlen c1)) ;;
          if u64 index <? zlen c1
          then match nth_error c1 (Z.to_nat (u64 index)) with Some ex => ex | None => lift UB end
          else lift UB end b' =
        match c2 with [] => lift OutOfData | _ =>
          index <- lift (pick_index o (oracle_max os) (zlen c2)) ;;
          if u64 index <? zlen c2
          then match nth_error c2 (Z.to_nat (u64 index)) with Some ex => ex | None => lift UB end
          else lift UB end b').
      { intros c1 c2 Hc. rewrite (Forall2_zlen _ _ _ Hc). pose proof Hc as Hc'. destruct Hc as [|x1 x2 c1 c2 Hx Hc]; [reflexivity|].
        set (l1 := x1 :: c1) in *. set (l2 := x2 :: c2) in *.
        unfold l1 at 1, l2 at 1. apply bind_lift_ext. intros i _.
        destruct (u64 i <? zlen l2); [|reflexivity]. apply (agr_nth (n - 1) l1 l2 (Z.to_nat (u64 i)) Hc'). exact Hb1. }
      destruct F as [|x1 x2 a1 a2 Hx F].
      + pose proof (agr_lot_filter (n - 1) false ms1 ms2 (Size b') H) as F.
        destruct (lot_filter false ms1 (Size b')) as [a1| | | |], (lot_filter false ms2 (Size b')) as [a2| | | |]; try contradiction;
          try reflexivity. cbn in F. rewrite !(bind_lift_ok (Ok _) _ _ _ eq_refl). apply K. exact F.
      + rewrite !bind_ret. apply (K (x1 :: a1) (x2 :: a2)). constructor; assumption.
    - exact (bind_fail_ext _ _ _ _ _ _ E N).
  Qed.

  Lemma small_mono n m (b : B) : n <= m -> small n b -> small m b.
  Proof. intros Hn [H1 H2]. split; [exact H1|lia]. Qed.

  Lemma agr_extract h : hleaves h -> forall f1 f2 n x, n < Z.of_nat f1 -> n < Z.of_nat f2 -> sleaves x ->
    agr n (extract f1 h x) (extract f2 h x).
  Proof.
    intros Hh. pose proof Hh as [Hp Hl]. induction f1 as [|f1 IHf]; intros f2 n x H1 H2 Hx.
    { intros b Hb. exfalso. destruct Hb as [Ob Sb]. rewrite law_size in Sb by exact Ob.
      pose proof (zlen_nonneg (cont b)). lia. }
    destruct f2 as [|f2].
    { intros b Hb. exfalso. destruct Hb as [Ob Sb]. rewrite law_size in Sb by exact Ob.
      pose proof (zlen_nonneg (cont b)). lia. }
    induction x as [mn mx ex|j x IH|o x IH|o x y IHx IHy|j xs IH|nm v IHn IHv|p|l] using sx_ind';
      inversion Hx; subst; unf_extract.
    - apply agr_refl.
    - eapply agr_bind; [apply agr_refl|apply shr_lift_any|]. intros mn _.
      eapply agr_bind; [apply agr_refl|apply shr_lift_any|]. intros mx _.
      eapply agr_bind with (P := any); [| |intros; apply agr_refl].
      + eapply agr_bind; [apply agr_refl|apply shr_vector|]. intros cs Hcs b Hb. unfold lift.
        rewrite (agr_stamp_each n _ _ cs (IH ltac:(assumption)) Hcs). reflexivity.
      + eapply shr_bind; [apply shr_vector|]. intros ? _. apply shr_lift_any.
    - eapply agr_bind; [apply IH; assumption|apply shr_extract; assumption|]. intros; apply agr_refl.
    - eapply agr_bind; [apply agr_refl|apply shr_lift_any|]. intros l _.
      eapply agr_bind; [apply agr_refl|apply shr_set|]. intros cs Hcs.
      destruct cs as [|c1 [|c2 [|c3 cs]]]; try apply agr_refl.
      inversion Hcs as [|? ? Hc1 Hcs']; subst. inversion Hcs' as [|? ? Hc2 _]; subst.
      rewrite (IHx ltac:(assumption) c1 Hc1), (IHy ltac:(assumption) c2 Hc2). apply agr_refl.
    - eapply agr_bind; [apply agr_refl|apply shr_lift_any|]. intros l _.
      eapply agr_bind; [apply agr_refl|apply shr_set|]. intros cs Hcs.
      rewrite (agr_stamp_zip n (map (extract (S f1) h) xs) (map (extract (S f2) h) xs) cs); [apply agr_refl| |exact Hcs].
      apply Forall2_map2. intros y Iy. match goal with H : Forall _ xs |- _ => idtac end.
      rewrite Forall_forall in IH. apply IH; [exact Iy|].
      match goal with H : Forall (leaves _) xs |- _ => rewrite Forall_forall in H; apply H; exact Iy end.
    - eapply agr_bind; [apply IHn; assumption|apply shr_extract; assumption|]. intros a _.
      eapply agr_bind; [apply IHv; assumption|apply shr_extract; assumption|]. intros; apply agr_refl.
    - destruct (nth_error (pools h) p) as [P|] eqn:E; [|apply agr_refl]. apply agr_pool.
      apply Forall2_map2. intros [y|] Iy; (split; [reflexivity|cbn [snd]]); [|apply agr_refl].
      apply IHf; [lia|lia|]. exact (Hp P y (nth_error_In _ _ E) Iy).
    - destruct (nth_error (lots h) l) as [Lo|] eqn:E; [|apply agr_refl]. apply agr_lot.
      apply Forall2_map2. intros y Iy. split; [reflexivity|cbn [snd]].
      apply IHf; [lia|lia|]. exact (Hl Lo y (nth_error_In _ _ E) Iy).
  Qed.

  (** The depth chosen by [ExtractStr] is enough. *)
  Lemma depth_enough h x f b : hleaves h -> sleaves x -> okb b -> Size b < Z.of_nat f ->
    extract f h x b = ExtractStr h x b.
  Proof.
    intros Hh Hx Hb Hf. unfold ExtractStr. apply (agr_extract h Hh f (S (Z.to_nat (Size b))) (Size b) x); try lia; auto.
    split; [exact Hb|lia].
  Qed.
End Depth.
