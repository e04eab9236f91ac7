(** Results of stamps built from other stamps in terms of the results of their parts. *)
From Verif Require Import Base BaseFacts Blob BlobSpec Sim Oracle Arithm StampDict StampText Galley Stamps StampsEq
  Fmt ArithFacts TextSpec TextFacts LeafSpec TermSpec ShrinkFacts DepthFacts TermFacts NestSpec.

Lemma bind_ok_inv {B A C} (f : M B A) (g : A -> M B C) b v b' :
  bind f g b = (Ok v, b') -> exists a b1, f b = (Ok a, b1) /\ g a b1 = (Ok v, b').
Proof. unfold bind. destruct (f b) as [[a| | | |] b1]; try discriminate. intros E. eauto. Qed.

Lemma lift_ok_inv {B A} (r : res A) (b : B) v b' : lift r b = (Ok v, b') -> r = Ok v /\ b' = b.
Proof. intros [= -> ->]. auto. Qed.

Lemma ret_inv {B A} (a : A) (b : B) v b' : ret a b = (Ok v, b') -> v = a /\ b' = b.
Proof. intros [= -> ->]. auto. Qed.

Lemma rbind_ok_inv {A C} (r : res A) (g : A -> res C) v : rbind r g = Ok v -> exists a, r = Ok a /\ g a = Ok v.
Proof. destruct r; try discriminate. eauto. Qed.

Lemma stamp_each_iff {B A} (ex : M B A) cs vs :
  stamp_each ex cs = Ok vs <-> Forall2 (fun c v => fst (ex c) = Ok v) cs vs.
Proof.
  revert vs. induction cs as [|c cs IH]; intros vs; cbn [stamp_each].
  - split; [intros [= <-]; constructor|]. intros H. inversion H. reflexivity.
  - split.
    + intros E. apply rbind_ok_inv in E as (v & E1 & E). apply rbind_ok_inv in E as (r & E2 & E). injection E as <-.
      constructor; [exact E1|]. apply IH. exact E2.
    + intros H. inversion H as [|? v ? r E1 E2]; subst. rewrite E1. cbn [rbind]. apply IH in E2. rewrite E2. reflexivity.
Qed.

Lemma stamp_zip_iff {B A} (es : list (M B A)) cs vs : length es = length cs ->
  (stamp_zip es cs = Ok vs <-> Forall2 (fun p v => fst (fst p (snd p)) = Ok v) (combine es cs) vs).
Proof.
  revert cs vs. induction es as [|e es IH]; intros [|c cs] vs L; try discriminate L; cbn [stamp_zip combine].
  - split; [intros [= <-]; constructor|]. intros H. inversion H. reflexivity.
  - injection L as L. split.
    + intros E. apply rbind_ok_inv in E as (v & E1 & E). apply rbind_ok_inv in E as (r & E2 & E). injection E as <-.
      constructor; [exact E1|]. apply IH; assumption.
    + intros H. inversion H as [|? v ? r E1 E2]; subst. cbn [fst snd] in E1. rewrite E1. cbn [rbind].
      apply IH in E2; [|exact L]. rewrite E2. reflexivity.
Qed.

Lemma tame_shr ex : tame ex -> forall n, shr n any ex.
Proof.
  intros H n b [Hb Sb]. destruct (H b Hb) as (H1 & H2 & H3).
  split; [|intros; exact I]. split; [exact H2|]. change (Size (snd (ex b))) with (blobSize (snd (ex b))).
  change (Size b) with (blobSize b) in Sb. lia.
Qed.

Lemma tame_depth h x f b : tame_graph h x -> wf b -> blobSize b < Z.of_nat f -> extract f h x b = ExtractStr h x b.
Proof.
  intros [Hh Hx] Hb Hf. apply depth_enough; auto.
  - eapply heap_leaves_mono; [|exact Hh]. cbn. intros ? ? ?. apply tame_shr.
  - eapply leaves_mono; [|exact Hx]. cbn. intros ? ? ?. apply tame_shr.
Qed.

Lemma tame_agree h x (b c : blob) : tame_graph h x -> small (Size b) c ->
  extract (S (Z.to_nat (Size b))) h x c = ExtractStr h x c.
Proof.
  intros T [Hc Sc]. apply tame_depth; [exact T|exact Hc|]. change (Size c) with (blobSize c) in Sc. lia.
Qed.

Lemma tame_result h x b : tame_graph h x -> wf b -> small (Size b) (snd (ExtractStr h x b)).
Proof.
  intros [Hh Hx] Hb. apply (shr_extract h) with (n := Size b).
  - eapply heap_leaves_mono; [|exact Hh]. cbn. intros ? ? ?. apply tame_shr.
  - eapply leaves_mono; [|exact Hx]. cbn. intros ? ? ?. apply tame_shr.
  - split; [exact Hb|lia].
Qed.

Lemma Forall2_impl_l {A C} (P : A -> Prop) (R R' : A -> C -> Prop) l m :
  Forall P l -> (forall a c, P a -> R a c -> R' a c) -> Forall2 R l m -> Forall2 R' l m.
Proof.
  intros HP HR H. induction H as [|a c l m Hac H IH]; constructor; inversion HP; subst; auto.
Qed.

Lemma vec_iff h y join b s b' : tame_graph h y -> wf b ->
  (ExtractStr h (XVec join y) b = (Ok s, b') <->
   exists mn mx cs strs, minSize h y = Ok mn /\ maxSize h y = Ok mx
     /\ vector_extract mn mx b = (Ok cs, b')
     /\ Forall2 (fun c t => fst (ExtractStr h y c) = Ok t) cs strs /\ s = join strs).
Proof.
  intros T Hb. unfold ExtractStr at 1. rewrite extract_vec. assert (Sb : small (Size b) b) by (split; [exact Hb|lia]).
  split.
  - intros E. apply bind_ok_inv in E as (mn & b1 & E1 & E). apply lift_ok_inv in E1 as [E1 ->].
    apply bind_ok_inv in E as (mx & b1 & E2 & E). apply lift_ok_inv in E2 as [E2 ->].
    apply bind_ok_inv in E as (strs & b1 & E3 & E). apply ret_inv in E as [-> ->].
    unfold ExtractVector in E3. apply bind_ok_inv in E3 as (cs & b2 & E3 & E4). apply lift_ok_inv in E4 as [E4 ->].
    exists mn, mx, cs, strs. repeat (split; [assumption|]). split; [|reflexivity].
    apply stamp_each_iff in E4. pose proof (proj2 (shr_vector (Size b) mn mx b Sb) cs) as Sc. rewrite E3 in Sc.
    eapply Forall2_impl_l; [exact (Sc eq_refl)| |exact E4]. cbv beta. intros c t Hc Hct.
    rewrite <- (tame_agree h y b c T Hc). exact Hct.
  - intros (mn & mx & cs & strs & E1 & E2 & E3 & E4 & ->).
    rewrite (bind_lift_ok _ _ _ _ E1), (bind_lift_ok _ _ _ _ E2).
    pose proof (proj2 (shr_vector (Size b) mn mx b Sb) cs) as Sc. rewrite E3 in Sc. specialize (Sc eq_refl).
    rewrite (bind_ok _ _ b strs b'); [reflexivity|]. unfold ExtractVector. rewrite (bind_ok _ _ _ _ _ E3).
    unfold lift. f_equal. apply stamp_each_iff.
    eapply Forall2_impl_l; [exact Sc| |exact E4]. cbv beta. intros c t Hc Hct.
    rewrite (tame_agree h y b c T Hc). exact Hct.
Qed.

Lemma unary_iff (h : heap blob) op y b s b' : ExtractStr h (XUnary op y) b = (Ok s, b') <->
  exists t, ExtractStr h y b = (Ok t, b') /\ s = op ++ lit "(" ++ t ++ lit ")".
Proof.
  unfold ExtractStr. rewrite extract_unary. split.
  - intros E. apply bind_ok_inv in E as (t & b1 & E1 & E). apply ret_inv in E as [-> ->]. eauto.
  - intros (t & E & ->). rewrite (bind_ok _ _ _ _ _ E). reflexivity.
Qed.

Lemma binary_iff h op x y b s b' : tame_graph h x -> tame_graph h y -> wf b ->
  (ExtractStr h (XBinary op x y) b = (Ok s, b') <->
   exists mn1 mx1 mn2 mx2 c1 c2 t1 t2,
     minSize h x = Ok mn1 /\ maxSize h x = Ok mx1 /\ minSize h y = Ok mn2 /\ maxSize h y = Ok mx2
     /\ set_extract [(mn1, mx1); (mn2, mx2)] b = (Ok [c1; c2], b')
     /\ fst (ExtractStr h x c1) = Ok t1 /\ fst (ExtractStr h y c2) = Ok t2
     /\ s = lit "(" ++ t1 ++ lit " " ++ op ++ lit " " ++ t2 ++ lit ")").
Proof.
  intros Tx Ty Hb. unfold ExtractStr at 1. rewrite extract_binary.
  assert (Sb : small (Size b) b) by (split; [exact Hb|lia]). cbn [sizes_of]. split.
  - intros E. apply bind_ok_inv in E as (l & b1 & E1 & E). apply lift_ok_inv in E1 as [E1 ->].
    apply rbind_ok_inv in E1 as (mn1 & Q1 & E1). apply rbind_ok_inv in E1 as (mx1 & Q2 & E1).
    apply rbind_ok_inv in E1 as (r & Q & E1). injection E1 as <-.
    apply rbind_ok_inv in Q as (mn2 & Q3 & Q). apply rbind_ok_inv in Q as (mx2 & Q4 & Q).
    cbn [rbind] in Q. injection Q as <-.
    apply bind_ok_inv in E as (cs & b1 & E2 & E).
    pose proof (proj2 (shr_set (Size b) [(mn1, mx1); (mn2, mx2)] b Sb) cs) as Sc. rewrite E2 in Sc. specialize (Sc eq_refl).
    destruct cs as [|c1 [|c2 [|c3 cs]]]; try discriminate E.
    inversion Sc as [|? ? Hc1 Sc']; subst. inversion Sc' as [|? ? Hc2 _]; subst.
    apply bind_ok_inv in E as (t1 & b2 & E3 & E). apply lift_ok_inv in E3 as [E3 ->].
    apply bind_ok_inv in E as (t2 & b2 & E4 & E). apply lift_ok_inv in E4 as [E4 ->]. apply ret_inv in E as [-> ->].
    rewrite (tame_agree h x b c1 Tx Hc1) in E3. rewrite (tame_agree h y b c2 Ty Hc2) in E4.
    exists mn1, mx1, mn2, mx2, c1, c2, t1, t2. repeat (split; [assumption|]). reflexivity.
  - intros (mn1 & mx1 & mn2 & mx2 & c1 & c2 & t1 & t2 & Q1 & Q2 & Q3 & Q4 & E2 & E3 & E4 & ->).
    rewrite Q1, Q2, Q3, Q4. cbn [rbind]. rewrite (bind_lift_ok (Ok _) _ _ _ eq_refl).
    pose proof (proj2 (shr_set (Size b) [(mn1, mx1); (mn2, mx2)] b Sb) [c1; c2]) as Sc. rewrite E2 in Sc. specialize (Sc eq_refl).
    inversion Sc as [|? ? Hc1 Sc']; subst. inversion Sc' as [|? ? Hc2 _]; subst.
    rewrite (bind_ok _ _ _ _ _ E2).
    rewrite (bind_lift_ok (B := blob) (fst (extract _ h x c1)) _ b' t1)
      by (rewrite (tame_agree h x b c1 Tx Hc1); exact E3).
    rewrite (bind_lift_ok (B := blob) (fst (extract _ h y c2)) _ b' t2)
      by (rewrite (tame_agree h y b c2 Ty Hc2); exact E4).
    reflexivity.
Qed.

(** ** Parentheses *)
Lemma balanced_app s t : balanced s -> balanced t -> balanced (s ++ t).
Proof.
  intros Hs Ht. induction Hs as [|c s H1 H2 Hs IH|s u Hs IHs Hu IHu]; [exact Ht|constructor; assumption|].
  rewrite <- app_assoc. cbn [app]. apply (bal_paren s (u ++ t)); assumption.
Qed.

Lemma balanced_in s : balanced s -> balanced (lit "(" ++ s ++ lit ")").
Proof. intros H. exact (bal_paren s [] H bal_nil). Qed.

Lemma balanced_sp : balanced (lit " ").
Proof. constructor; [discriminate|discriminate|constructor]. Qed.

Lemma unary_balanced op t : balanced op -> balanced t -> balanced (op ++ lit "(" ++ t ++ lit ")").
Proof. intros Ho Ht. apply balanced_app; [exact Ho|]. apply balanced_in. exact Ht. Qed.

Lemma binary_balanced op t1 t2 : balanced op -> balanced t1 -> balanced t2 ->
  balanced (lit "(" ++ t1 ++ lit " " ++ op ++ lit " " ++ t2 ++ lit ")").
Proof.
  intros Ho H1 H2.
  replace (t1 ++ lit " " ++ op ++ lit " " ++ t2 ++ lit ")")
    with ((t1 ++ lit " " ++ op ++ lit " " ++ t2) ++ lit ")") by (rewrite <- !app_assoc; reflexivity).
  apply balanced_in. apply balanced_app; [exact H1|]. apply balanced_app; [exact balanced_sp|].
  apply balanced_app; [exact Ho|]. apply balanced_app; [exact balanced_sp|exact H2].
Qed.

Lemma formula_balanced {B} `{BlobOps B} (h : heap B) x : formula x -> forall f b s,
  fst (extract f h x b) = Ok s -> balanced s.
Proof.
  intros Hx. induction Hx as [mn mx ex He|o x Ho Hx IH|o x y Ho Hx IHx Hy IHy]; intros f b s.
  - rewrite extract_leaf. apply He.
  - rewrite extract_unary. intros E. destruct (bind _ _ b) as [r b'] eqn:E'. cbn [fst] in E. subst r.
    apply bind_ok_inv in E' as (t & b1 & E1 & E'). apply ret_inv in E' as [-> _].
    apply unary_balanced; [exact Ho|]. apply (IH f b t). rewrite E1. reflexivity.
  - rewrite extract_binary. intros E. destruct (bind _ _ b) as [r b'] eqn:E'. cbn [fst] in E. subst r.
    apply bind_ok_inv in E' as (l & b1 & _ & E'). apply bind_ok_inv in E' as (cs & b2 & _ & E').
    destruct cs as [|c1 [|c2 [|c3 cs]]]; try discriminate E'.
    apply bind_ok_inv in E' as (t1 & b3 & E1 & E'). apply lift_ok_inv in E1 as [E1 ->].
    apply bind_ok_inv in E' as (t2 & b3 & E2 & E'). apply lift_ok_inv in E2 as [E2 ->]. apply ret_inv in E' as [-> _].
    apply binary_balanced; eauto.
Qed.

Lemma plain_balanced s : Forall (fun c => c <> open_paren /\ c <> close_paren) s -> balanced s.
Proof. intros H. induction H as [|c s [H1 H2] H IH]; constructor; assumption. Qed.

Lemma digit_plain d : isd d -> digit d <> open_paren /\ digit d <> close_paren.
Proof.
  intros H. unfold isd in H. split; intros E; apply (f_equal bval) in E; unfold digit in E;
    rewrite bval_byte_of_Z, Z.mod_small in E by lia; [change (bval open_paren) with 40 in E|change (bval close_paren) with 41 in E]; lia.
Qed.

Lemma fmt_int_balanced z : balanced (fmt_int z).
Proof.
  assert (D : forall z, 0 <= z -> balanced (map digit (digits z))).
  { intros n Hn. apply plain_balanced. rewrite Forall_map. eapply Forall_impl; [|apply (digits_canon n Hn)].
    exact digit_plain. }
  unfold fmt_int. destruct (z <? 0) eqn:E; [|apply D; lia].
  constructor; [discriminate|discriminate|]. apply D. lia.
Qed.

Lemma tame_arith t : tame (ArithExtractStr t).
Proof.
  intros b Hb. assert (Sb : small (Size b) b) by (split; [exact Hb|lia]).
  destruct (arith_tame (B := blob) t (Size b)) as [H1 H2]. split; [exact (H2 b Sb)|]. exact (proj1 (H1 b Sb)).
Qed.
