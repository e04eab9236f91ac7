(** The counts of shared_ptrs along every program. *)
From Verif Require Import Base BaseFacts Stamps Owner OwnerSpec OwnerAgree.
Local Open Scope nat_scope.

Section Facts.
  Context {B : Type} `{BlobOps B}.
  Implicit Types (s : store B) (o : object B) (k : kind B) (past : list (own_op B)).
  Notation occ := (count_occ Nat.eq_dec).

  Lemma strong_owns k x : In x (strong k) <-> owns k x.
  Proof.
    split.
    - destruct k; cbn [strong]; intros Hx; repeat (destruct Hx as [<-|Hx]; [constructor|]); try (destruct Hx); try (constructor; assumption).
    - intros Hx. destruct Hx; cbn [strong In]; auto.
  Qed.

  Lemma mentions_owns k x : In x (mentions k) <-> owns k x \/ exists four ms, k = KLot four ms /\ In x ms.
  Proof.
    destruct k as [mn mx ex|j y|j y|op y|op y z|j ys|n v|ms|four ms]; cbn [mentions]; rewrite ?strong_owns;
      (split; [intros Hx|intros [Hx|(four' & ms' & E & Hx)]]; try discriminate E; auto).
    - right. eauto.
    - inversion Hx.
    - injection E as -> ->. exact Hx.
  Qed.

  Lemma pointers_occ k i : pointers k i = occ (strong k) i.
  Proof. destruct k; cbn [pointers strong count_occ]; try reflexivity; repeat destruct (Nat.eq_dec _ _); lia. Qed.

  (** Pointers to [i] from an object that exists. *)
  Definition gives o i : nat := if Nat.eqb (uses o) 0 then 0 else occ (strong (what o)) i.
  Fixpoint weight s i : nat := match s with [] => 0 | o :: r => gives o i + weight r i end.
  Definition live_len o : nat := if Nat.eqb (uses o) 0 then 0 else length (strong (what o)).
  Fixpoint live_ptrs s : nat := match s with [] => 0 | o :: r => live_len o + live_ptrs r end.

  Lemma weight_upd s j o o' i : nth_error s j = Some o -> weight (upd s j o') i + gives o i = weight s i + gives o' i.
  Proof.
    revert j. induction s as [|a s IH]; intros [|j] E; try discriminate E; cbn [upd weight].
    - injection E as ->. lia.
    - pose proof (IH j E). lia.
  Qed.
  Lemma live_upd s j o o' : nth_error s j = Some o -> live_ptrs (upd s j o') + live_len o = live_ptrs s + live_len o'.
  Proof.
    revert j. induction s as [|a s IH]; intros [|j] E; try discriminate E; cbn [upd live_ptrs].
    - injection E as ->. lia.
    - pose proof (IH j E). lia.
  Qed.
  Lemma weight_app s t i : weight (s ++ t) i = weight s i + weight t i.
  Proof. induction s as [|a s IH]; cbn [app weight]; [reflexivity|]. rewrite IH. lia. Qed.
  Lemma weight_ge s j o i : nth_error s j = Some o -> gives o i <= weight s i.
  Proof.
    revert j. induction s as [|a s IH]; intros [|j] E; try discriminate E; cbn [weight].
    - injection E as ->. lia.
    - pose proof (IH j E). lia.
  Qed.
  Lemma weight_some s i : 0 < weight s i -> exists j o, nth_error s j = Some o /\ 0 < gives o i.
  Proof.
    induction s as [|a s IH]; cbn [weight]; [lia|]. intros Hw. destruct (Nat.eq_dec (gives a i) 0) as [E|E].
    - destruct IH as (j & o & E1 & E2); [lia|]. exists (S j), o. auto.
    - exists 0, a. split; [reflexivity|lia].
  Qed.
  Lemma live_le s : live_ptrs s <= pointers_in s.
  Proof. induction s as [|a s IH]; cbn; [lia|]. unfold live_len. unfold pointers_in in IH. destruct (Nat.eqb (uses a) 0); lia. Qed.

  (** Same objects but for the counts. *)
  Definition alike s s' : Prop := length s = length s' /\ forall i o o', nth_error s i = Some o -> nth_error s' i = Some o' ->
    what o' = what o /\ added o' = added o /\ mine o' = mine o.
  Lemma alike_refl s : alike s s.
  Proof. split; [reflexivity|]. intros i o o' E E'. assert (o' = o) as -> by congruence. auto. Qed.
  Lemma alike_trans s t u : alike s t -> alike t u -> alike s u.
  Proof.
    intros [L1 A1] [L2 A2]. split; [congruence|]. intros i o o' E E'.
    destruct (nth_error t i) as [p|] eqn:Ep.
    - destruct (A1 i o p E Ep) as (-> & -> & ->) || destruct (A1 i o p E Ep) as (? & ? & ?). destruct (A2 i p o' Ep E') as (? & ? & ?). repeat split; congruence.
    - apply nth_error_None in Ep. assert (i < length s) by (apply nth_error_Some; congruence). lia.
  Qed.
  Lemma alike_upd s i o n : nth_error s i = Some o -> alike s (upd s i (mkObject (what o) (added o) n (mine o))).
  Proof.
    intros E. split; [symmetry; apply upd_len|]. intros j p p' Ep Ep'. destruct (Nat.eq_dec i j) as [<-|N].
    - rewrite (nth_upd_here _ _ _ _ E) in Ep'. injection Ep' as <-. assert (p = o) as -> by congruence. auto.
    - rewrite nth_upd_other in Ep' by exact N. assert (p' = p) as -> by congruence. auto.
  Qed.

  Definition below s : Prop := forall i o x, nth_error s i = Some o -> In x (strong (what o)) -> x < i.
  Definition bal s pend : Prop := forall i o, nth_error s i = Some o -> uses o = mine o + occ pend i + weight s i.

  Lemma below_alike s s' : alike s s' -> below s -> below s'.
  Proof.
    intros [L A] Hb i o' x E' Hx. destruct (nth_error s i) as [o|] eqn:E.
    - destruct (A i o o' E E') as (W & _). rewrite W in Hx. exact (Hb i o x E Hx).
    - apply nth_error_None in E. assert (i < length s') by (apply nth_error_Some; congruence). lia.
  Qed.

  Lemma drain_ok fuel : forall pend s, bal s pend -> (forall x, In x pend -> x < length s) -> below s -> length pend + live_ptrs s <= fuel ->
    exists s', drain fuel pend s = Ok s' /\ bal s' [] /\ alike s s'.
  Proof.
    induction fuel as [|f IH]; intros pend s Hbal Hlt Hbel Hf.
    - destruct pend as [|i r]; [|cbn in Hf; lia]. exists s. split; [reflexivity|]. split; [exact Hbal|apply alike_refl].
    - destruct pend as [|i r]; [exists s; split; [reflexivity|]; split; [exact Hbal|apply alike_refl]|].
      cbn [drain]. destruct (nth_error s i) as [o|] eqn:E; [|apply nth_error_None in E; pose proof (Hlt i (or_introl eq_refl)); lia].
      pose proof (Hbal i o E) as Hi. cbn [count_occ] in Hi. destruct (Nat.eq_dec i i) as [_|]; [|congruence].
      destruct (uses o) as [|n] eqn:Eu; [lia|].
      assert (Hgen : forall m pend', 
        (forall x, occ pend' x = occ r x + (if Nat.eqb m 0 then occ (strong (what o)) x else 0)) ->
        m = n -> length pend' + live_ptrs (upd s i (mkObject (what o) (added o) m (mine o))) <= f -> (forall x, In x pend' -> x < length s) ->
        exists s', drain f pend' (upd s i (mkObject (what o) (added o) m (mine o))) = Ok s' /\ bal s' [] /\ alike s s').
      { intros m pend' Hocc Hm Hlen Hlt'. destruct (IH pend' (upd s i (mkObject (what o) (added o) m (mine o)))) as (s' & E' & B' & A').
        - intros j p Ep. pose proof (weight_upd s i o (mkObject (what o) (added o) m (mine o)) j E) as HW. unfold gives in HW. cbn [uses what] in HW. rewrite Eu in HW. cbn [Nat.eqb] in HW.
          rewrite Hocc. destruct (Nat.eq_dec i j) as [<-|N].
          + rewrite (nth_upd_here _ _ _ _ E) in Ep. injection Ep as <-. cbn [uses mine].
            assert (O0 : occ (strong (what o)) i = 0).
            { apply count_occ_not_In. intros Hin. pose proof (Hbel i o i E Hin). lia. }
            rewrite O0 in *. destruct (Nat.eqb m 0); lia.
          + rewrite nth_upd_other in Ep by exact N. pose proof (Hbal j p Ep) as Hj. cbn [count_occ] in Hj. destruct (Nat.eq_dec i j) as [|_]; [congruence|].
            destruct (Nat.eqb m 0); lia.
        - rewrite upd_len. exact Hlt'.
        - eapply below_alike; [apply alike_upd; exact E|exact Hbel].
        - exact Hlen.
        - exists s'. split; [exact E'|]. split; [exact B'|]. eapply alike_trans; [apply alike_upd; exact E|exact A']. }
      pose proof (live_upd s i o (mkObject (what o) (added o) n (mine o)) E) as HL. unfold live_len in HL. cbn [uses what] in HL. rewrite Eu in HL. cbn [Nat.eqb] in HL.
      cbn [length] in Hf. destruct n as [|n].
      + cbn [Nat.eqb] in HL. apply (Hgen 0 (strong (what o) ++ r)); [|reflexivity| |].
        * intros x. rewrite count_occ_app. cbn [Nat.eqb]. lia.
        * rewrite app_length. lia.
        * intros x Hx. apply in_app_iff in Hx as [Hx|Hx]; [|apply Hlt; right; exact Hx].
          pose proof (Hbel i o x E Hx). pose proof (Hlt i (or_introl eq_refl)). lia.
      + cbn [Nat.eqb] in HL. apply (Hgen (S n) r); [|reflexivity| |].
        * intros x. cbn [Nat.eqb]. lia.
        * lia.
        * intros x Hx. apply Hlt. right. exact Hx.
  Qed.

  (** What the history says of the store. *)
  Definition inv past s : Prop :=
    length s = length (makes past)
    /\ (forall i o, nth_error s i = Some o -> nth_error (makes past) i = Some (what o) /\ added o = later past i /\ mine o = held past i)
    /\ (forall i, length s <= i -> held past i = 0 /\ later past i = [])
    /\ below s /\ bal s [].

  Lemma alive_nth s i : alive s i = true <-> exists o, nth_error s i = Some o /\ 0 < uses o.
  Proof.
    unfold alive. destruct (nth_error s i) as [o|].
    - rewrite negb_true_iff, Nat.eqb_neq. split; [intros Hu; exists o; split; [reflexivity|lia]|intros (p & [= <-] & Hu); lia].
    - split; [discriminate|intros (p & E & _); discriminate E].
  Qed.

  Lemma owned_alive s i j o : below s -> bal s [] -> nth_error s j = Some o -> 0 < uses o -> In i (strong (what o)) -> alive s i = true.
  Proof.
    intros Hb Hl E Hu Hi. pose proof (Hb j o i E Hi) as Hlt. assert (j < length s) by (apply nth_error_Some; congruence).
    destruct (nth_error s i) as [p|] eqn:Ei; [|apply nth_error_None in Ei; lia]. apply alive_nth. exists p. split; [exact Ei|].
    pose proof (Hl i p Ei) as U. pose proof (weight_ge s j o i E) as W. unfold gives in W. replace (Nat.eqb (uses o) 0) with false in W by (symmetry; apply Nat.eqb_neq; lia).
    pose proof (proj1 (count_occ_In Nat.eq_dec _ _) Hi). lia.
  Qed.

  Lemma inv_alive past s i : inv past s -> alive s i = true <-> kept past i.
  Proof.
    intros (L & HO & HN & Hb & Hl). split.
    - assert (G : forall n i, length s - i <= n -> alive s i = true -> kept past i).
      { clear i. induction n as [|n IH]; intros i Hn Ha; apply alive_nth in Ha as (o & E & Hu); assert (i < length s) by (apply nth_error_Some; congruence); [lia|].
        pose proof (Hl i o E) as U. cbn [count_occ] in U. destruct (HO i o E) as (_ & _ & M). destruct (Nat.eq_dec (mine o) 0) as [M0|M0]; [|apply kept_held; lia].
        destruct (weight_some s i ltac:(lia)) as (j & p & Ej & G). unfold gives in G. destruct (Nat.eqb (uses p) 0) eqn:Eu; [lia|]. apply Nat.eqb_neq in Eu.
        assert (In i (strong (what p))) as Hin by (apply (count_occ_In Nat.eq_dec); lia). pose proof (Hb j p i Ej Hin).
        apply (kept_owned past i j (what p)); [|apply (HO j p Ej)|apply strong_owns; exact Hin].
        apply IH; [lia|]. apply alive_nth. exists p. split; [exact Ej|lia]. }
      apply (G (length s)). lia.
    - intros K. induction K as [i Hi|i j k K IH Ek Hi].
      + destruct (nth_error s i) as [o|] eqn:E.
        * apply alive_nth. exists o. split; [exact E|]. pose proof (Hl i o E). destruct (HO i o E) as (_ & _ & M). lia.
        * apply nth_error_None in E. destruct (HN i E). lia.
      + apply alive_nth in IH as (p & Ej & Hu). destruct (HO j p Ej) as (Ew & _). assert (k = what p) as -> by congruence.
        apply (owned_alive s i j p Hb Hl Ej Hu). apply strong_owns. exact Hi.
  Qed.

  (** ** Steps *)
  Lemma take_all_ok l : forall s, (forall x, In x l -> alive s x = true) -> exists s', take_all s l = Ok s' /\ length s' = length s
    /\ forall i o, nth_error s i = Some o -> nth_error s' i = Some (mkObject (what o) (added o) (uses o + occ l i) (mine o)).
  Proof.
    induction l as [|x l IH]; intros s Ha.
    - exists s. split; [reflexivity|split; [reflexivity|]]. intros i o E. cbn [count_occ]. rewrite Nat.add_0_r. destruct o; exact E.
    - cbn [take_all]. destruct (proj1 (alive_nth s x) (Ha x (or_introl eq_refl))) as (o & E & Hu). unfold take. rewrite E.
      replace (Nat.eqb (uses o) 0) with false by (symmetry; apply Nat.eqb_neq; lia). cbn [rbind].
      set (s1 := upd s x _). destruct (IH s1) as (s' & E' & L' & H').
      + intros y Hy. apply alive_nth. destruct (proj1 (alive_nth s y) (Ha y (or_intror Hy))) as (p & Ep & Hp). unfold s1.
        destruct (Nat.eq_dec x y) as [<-|N]; [rewrite (nth_upd_here _ _ _ _ E); eexists; split; [reflexivity|cbn; lia]|].
        rewrite nth_upd_other by exact N. exists p. auto.
      + exists s'. split; [exact E'|]. split; [rewrite L'; apply upd_len|]. intros i p Ep. cbn [count_occ]. destruct (Nat.eq_dec x i) as [<-|N].
        * assert (p = o) as -> by congruence. rewrite (H' x _ (nth_upd_here _ _ _ _ E)). cbn [what added uses mine]. do 2 f_equal. lia.
        * apply H'. unfold s1. rewrite nth_upd_other by exact N. exact Ep.
  Qed.

  Lemma weight_ext s : forall s' i, length s' = length s ->
    (forall j o, nth_error s j = Some o -> exists o', nth_error s' j = Some o' /\ gives o' i = gives o i) -> weight s' i = weight s i.
  Proof.
    induction s as [|a s IH]; intros [|a' s'] i L Hg; try discriminate L; [reflexivity|]. cbn [weight].
    destruct (Hg 0 a eq_refl) as (o' & [= <-] & ->). f_equal. apply IH; [injection L as L; exact L|]. intros j o E. exact (Hg (S j) o E).
  Qed.

  Lemma step_make past s k : inv past s -> allowed past (Make k) -> exists s', own_step s (Make k) = Ok s' /\ inv (Make k :: past) s'.
  Proof.
    intros Hi Ha. assert (A : forall x, In x (mentions k) -> alive s x = true).
    { intros x Hx. apply (inv_alive past s x Hi). apply Ha. apply mentions_owns. exact Hx. }
    assert (AS : forall x, In x (strong k) -> alive s x = true) by (intros x Hx; apply A, mentions_owns; left; apply strong_owns; exact Hx).
    cbn [own_step]. replace (forallb (alive s) (mentions k)) with true by (symmetry; apply forallb_forall; exact A).
    destruct (take_all_ok (strong k) s AS) as (s' & E & L & Hs). rewrite E. cbn [rbind]. exists (s' ++ [mkObject k [] 1 1]). split; [reflexivity|].
    destruct Hi as (L0 & HO & HN & Hb & Hl).
    assert (Hback : forall i o', nth_error s' i = Some o' -> exists o, nth_error s i = Some o /\ o' = mkObject (what o) (added o) (uses o + occ (strong k) i) (mine o)).
    { intros i o' E'. destruct (nth_error s i) as [o|] eqn:Eo; [exists o; split; [reflexivity|]; rewrite (Hs i o Eo) in E'; congruence|].
      apply nth_error_None in Eo. assert (i < length s') by (apply nth_error_Some; congruence). lia. }
    assert (Hlast : forall i o', nth_error (s' ++ [mkObject k [] 1 1]) i = Some o' -> (i < length s /\ nth_error s' i = Some o') \/ (i = length s /\ o' = mkObject k [] 1 1)).
    { intros i o' E'. destruct (Nat.lt_ge_cases i (length s')) as [Hlt|Hge]; [left; rewrite nth_error_app1 in E' by exact Hlt; split; [lia|exact E']|].
      rewrite nth_error_app2 in E' by exact Hge. destruct (i - length s') as [|m] eqn:Em; [|destruct m; discriminate E']. cbn in E'. right. split; [lia|congruence]. }
    split; [|split; [|split; [|split]]].
    - cbn [makes]. rewrite !app_length. cbn. lia.
    - intros i o' E'. cbn [makes held later]. destruct (Hlast i o' E') as [[Hlt E1]|[-> ->]].
      + destruct (Hback i o' E1) as (o & Eo & ->). destruct (HO i o Eo) as (W & Ad & M). cbn [what added mine].
        rewrite nth_error_app1 by lia. replace (Nat.eqb i (length (makes past))) with false by (symmetry; apply Nat.eqb_neq; lia). auto.
      + cbn [what added mine]. rewrite L0, nth_error_app2 by lia. rewrite Nat.sub_diag, Nat.eqb_refl. cbn. destruct (HN (length s) ltac:(lia)) as (_ & X). rewrite <- L0. auto.
    - intros i. rewrite app_length. cbn [length]. intros Hge. cbn [held later]. destruct (HN i ltac:(lia)) as (X1 & X2). rewrite X1, X2.
      replace (Nat.eqb i (length (makes past))) with false by (symmetry; apply Nat.eqb_neq; lia). auto.
    - intros i o' x E' Hx. destruct (Hlast i o' E') as [[Hlt E1]|[-> ->]].
      + destruct (Hback i o' E1) as (o & Eo & ->). exact (Hb i o x Eo Hx).
      + cbn [what] in Hx. apply AS in Hx. apply alive_nth in Hx as (p & Ep & _). apply nth_error_Some. congruence.
    - assert (W1 : forall i, weight s' i = weight s i).
      { intros i. apply weight_ext; [exact L|]. intros j o Ej. eexists. split; [apply Hs; exact Ej|]. unfold gives. cbn [uses what].
        destruct (Nat.eqb (uses o) 0) eqn:Eu; [|replace (Nat.eqb (uses o + occ (strong k) j) 0) with false; [reflexivity|symmetry; apply Nat.eqb_neq; apply Nat.eqb_neq in Eu; lia]].
        apply Nat.eqb_eq in Eu. replace (occ (strong k) j) with 0; [rewrite Eu; reflexivity|].
        symmetry. apply count_occ_not_In. intros Hj. apply AS, alive_nth in Hj as (p & Ep & Hp). assert (p = o) as -> by congruence. lia. }
      intros i o' E'. rewrite weight_app, W1. cbn [weight]. unfold gives at 1. cbn [uses what Nat.eqb count_occ].
      destruct (Hlast i o' E') as [[Hlt E1]|[-> ->]].
      + destruct (Hback i o' E1) as (o & Eo & ->). cbn [uses mine]. pose proof (Hl i o Eo) as U. cbn [count_occ] in U. lia.
      + cbn [uses mine]. replace (occ (strong k) (length s)) with 0.
        2:{ symmetry. apply count_occ_not_In. intros Hj. apply AS, alive_nth in Hj as (p & Ep & Hp).
            assert (length s < length s) by (apply nth_error_Some; congruence). lia. }
        destruct (Nat.eq_dec (weight s (length s)) 0) as [->|Hne]; [lia|]. destruct (weight_some s (length s) ltac:(lia)) as (j & p & Ej & G). exfalso.
        unfold gives in G. destruct (Nat.eqb (uses p) 0); [lia|]. assert (In (length s) (strong (what p))) as Hin by (apply (count_occ_In Nat.eq_dec); lia).
        pose proof (Hb j p _ Ej Hin). assert (j < length s) by (apply nth_error_Some; congruence). lia.
  Qed.

  (** An update that leaves the kind alone and keeps the object in existence. *)
  Lemma gives_upd s j o u a m i : nth_error s j = Some o -> (u = 0 <-> uses o = 0) -> weight (upd s j (mkObject (what o) a u m)) i = weight s i.
  Proof.
    intros E Hu. pose proof (weight_upd s j o (mkObject (what o) a u m) i E) as W. unfold gives in W. cbn [uses what] in W.
    destruct (Nat.eqb_spec (uses o) 0), (Nat.eqb_spec u 0); lia.
  Qed.

  Lemma step_share past s i : inv past s -> (0 < held past i) -> exists s', own_step s (Share i) = Ok s' /\ inv (Share i :: past) s'.
  Proof.
    intros (L & HO & HN & Hb & Hl) Hh. cbn [own_step]. destruct (nth_error s i) as [o|] eqn:E; [|apply nth_error_None in E; destruct (HN i E); lia].
    destruct (HO i o E) as (W & Ad & M). replace (Nat.eqb (mine o) 0) with false by (symmetry; apply Nat.eqb_neq; lia).
    pose proof (Hl i o E) as U. eexists. split; [reflexivity|]. split; [|split; [|split; [|split]]].
    - rewrite upd_len. exact L.
    - intros j p Ep. cbn [makes held later]. destruct (Nat.eq_dec i j) as [<-|N].
      + rewrite (nth_upd_here _ _ _ _ E) in Ep. injection Ep as <-. cbn [what added mine]. rewrite Nat.eqb_refl. repeat split; [exact W|exact Ad|lia].
      + rewrite nth_upd_other in Ep by exact N. replace (Nat.eqb j i) with false by (symmetry; apply Nat.eqb_neq; congruence). exact (HO j p Ep).
    - intros j. rewrite upd_len. intros Hj. cbn [held later]. assert (i < length s) by (apply nth_error_Some; congruence).
      replace (Nat.eqb j i) with false by (symmetry; apply Nat.eqb_neq; lia). exact (HN j Hj).
    - intros j p x Ep Hx. destruct (Nat.eq_dec i j) as [<-|N].
      + rewrite (nth_upd_here _ _ _ _ E) in Ep. injection Ep as <-. exact (Hb i o x E Hx).
      + rewrite nth_upd_other in Ep by exact N. exact (Hb j p x Ep Hx).
    - intros j p Ep. rewrite (gives_upd s i o _ _ _ j E) by lia. destruct (Nat.eq_dec i j) as [<-|N].
      + rewrite (nth_upd_here _ _ _ _ E) in Ep. injection Ep as <-. cbn [uses mine]. lia.
      + rewrite nth_upd_other in Ep by exact N. exact (Hl j p Ep).
  Qed.

  Lemma step_release past s i : inv past s -> (0 < held past i) -> exists s', own_step s (Release i) = Ok s' /\ inv (Release i :: past) s'.
  Proof.
    intros (L & HO & HN & Hb & Hl) Hh. cbn [own_step]. destruct (nth_error s i) as [o|] eqn:E; [|apply nth_error_None in E; destruct (HN i E); lia].
    destruct (HO i o E) as (W & Ad & M). replace (Nat.eqb (mine o) 0) with false by (symmetry; apply Nat.eqb_neq; lia).
    pose proof (Hl i o E) as U. cbn [count_occ] in U. assert (Hi : i < length s) by (apply nth_error_Some; congruence).
    set (s1 := upd s i (mkObject (what o) (added o) (uses o) (pred (mine o)))).
    assert (E1 : nth_error s1 i = Some (mkObject (what o) (added o) (uses o) (pred (mine o)))) by (apply (nth_upd_here _ _ _ _ E)).
    assert (EO : forall j, i <> j -> nth_error s1 j = nth_error s j) by (intros j N; apply nth_upd_other; exact N).
    destruct (drain_ok (S (pointers_in s)) [i] s1) as (s' & E' & B' & A').
    - intros j p Ep. unfold s1. rewrite (gives_upd s i o _ _ _ j E) by lia. cbn [count_occ]. destruct (Nat.eq_dec i j) as [<-|N].
      + rewrite E1 in Ep. injection Ep as <-. cbn [uses mine]. lia.
      + rewrite EO in Ep by exact N. exact (Hl j p Ep).
    - intros x [<-|[]]. unfold s1. rewrite upd_len. exact Hi.
    - intros j p x Ep Hx. destruct (Nat.eq_dec i j) as [<-|N].
      + rewrite E1 in Ep. injection Ep as <-. exact (Hb i o x E Hx).
      + rewrite EO in Ep by exact N. exact (Hb j p x Ep Hx).
    - pose proof (live_upd s i o (mkObject (what o) (added o) (uses o) (pred (mine o))) E) as HL. unfold live_len in HL. cbn [uses what] in HL. fold s1 in HL.
      pose proof (live_le s). cbn [length]. lia.
    - exists s'. split; [exact E'|].
      assert (LS : length s1 = length s) by apply upd_len. destruct A' as [LA A'].
      assert (Hback : forall j p', nth_error s' j = Some p' -> exists p, nth_error s1 j = Some p /\ what p' = what p /\ added p' = added p /\ mine p' = mine p).
      { intros j p' Ep'. destruct (nth_error s1 j) as [p|] eqn:Ep; [exists p; split; [reflexivity|exact (A' j p p' Ep Ep')]|].
        apply nth_error_None in Ep. assert (j < length s') by (apply nth_error_Some; congruence). lia. }
      split; [|split; [|split; [|split]]].
      + cbn [makes]. lia.
      + intros j p' Ep'. destruct (Hback j p' Ep') as (p & Ep & -> & -> & ->). cbn [makes held later]. destruct (Nat.eq_dec i j) as [<-|N].
        * rewrite E1 in Ep. injection Ep as <-. cbn [what added mine]. rewrite Nat.eqb_refl. repeat split; [exact W|exact Ad|lia].
        * rewrite EO in Ep by exact N. replace (Nat.eqb j i) with false by (symmetry; apply Nat.eqb_neq; congruence). exact (HO j p Ep).
      + intros j Hj. cbn [held later]. replace (Nat.eqb j i) with false by (symmetry; apply Nat.eqb_neq; lia). apply HN. lia.
      + intros j p' x Ep' Hx. destruct (Hback j p' Ep') as (p & Ep & Ew & _). rewrite Ew in Hx. destruct (Nat.eq_dec i j) as [<-|N].
        * rewrite E1 in Ep. injection Ep as <-. exact (Hb i o x E Hx).
        * rewrite EO in Ep by exact N. exact (Hb j p x Ep Hx).
      + exact B'.
  Qed.

  (** add_weak and Append alike. *)
  Lemma step_add past s p x o (q : own_op B) : inv past s -> nth_error s p = Some o -> makes (q :: past) = makes past -> (forall i, held (q :: past) i = held past i) ->
    (forall i, later (q :: past) i = if Nat.eqb i p then later past i ++ [x] else later past i) ->
    inv (q :: past) (upd s p (mkObject (what o) (added o ++ [x]) (uses o) (mine o))).
  Proof.
    intros (L & HO & HN & Hb & Hl) E Hm Hh Ht. destruct (HO p o E) as (W & Ad & M). assert (p < length s) by (apply nth_error_Some; congruence).
    split; [|split; [|split; [|split]]].
    - rewrite upd_len, Hm. exact L.
    - intros j p' Ep. rewrite Hm, Hh, Ht. destruct (Nat.eq_dec p j) as [<-|N].
      + rewrite (nth_upd_here _ _ _ _ E) in Ep. injection Ep as <-. cbn [what added mine]. rewrite Nat.eqb_refl, Ad. auto.
      + rewrite nth_upd_other in Ep by exact N. replace (Nat.eqb j p) with false by (symmetry; apply Nat.eqb_neq; congruence). exact (HO j p' Ep).
    - intros j. rewrite upd_len, Hh, Ht. intros Hj. replace (Nat.eqb j p) with false by (symmetry; apply Nat.eqb_neq; lia). exact (HN j Hj).
    - intros j p' y Ep Hy. destruct (Nat.eq_dec p j) as [<-|N].
      + rewrite (nth_upd_here _ _ _ _ E) in Ep. injection Ep as <-. exact (Hb p o y E Hy).
      + rewrite nth_upd_other in Ep by exact N. exact (Hb j p' y Ep Hy).
    - intros j p' Ep. rewrite (gives_upd s p o _ _ _ j E) by lia. destruct (Nat.eq_dec p j) as [<-|N].
      + rewrite (nth_upd_here _ _ _ _ E) in Ep. injection Ep as <-. exact (Hl p o E).
      + rewrite nth_upd_other in Ep by exact N. exact (Hl j p' Ep).
  Qed.

  Lemma own_step_ok past s q : inv past s -> allowed past q -> exists s', own_step s q = Ok s' /\ inv (q :: past) s'.
  Proof.
    intros Hi Ha. destruct q as [k|i|i|p x|l x]; [apply step_make; assumption|apply step_share; assumption|apply step_release; assumption| |].
    - destruct Ha as (Kp & Kx & ms & Em). pose proof (inv_alive past s p Hi) as [_ Ap]. pose proof (inv_alive past s x Hi) as [_ Ax].
      specialize (Ap Kp). specialize (Ax Kx). cbn [own_step]. rewrite Ap, Ax. apply alive_nth in Ap as (o & E & _). rewrite E.
      destruct (proj1 (proj2 Hi) p o E) as (W & _). rewrite W in Em. injection Em as Ew. destruct o as [w a u m]. cbn [what] in Ew. subst w. cbn [what andb].
      eexists. split; [reflexivity|]. apply (step_add _ _ _ _ _ _ Hi E); reflexivity.
    - destruct Ha as (Kp & Kx & four & ms & Em). pose proof (inv_alive past s l Hi) as [_ Ap]. pose proof (inv_alive past s x Hi) as [_ Ax].
      specialize (Ap Kp). specialize (Ax Kx). cbn [own_step]. rewrite Ap, Ax. apply alive_nth in Ap as (o & E & _). rewrite E.
      destruct (proj1 (proj2 Hi) l o E) as (W & _). rewrite W in Em. injection Em as Ew. destruct o as [w a u m]. cbn [what] in Ew. subst w. cbn [what andb].
      eexists. split; [reflexivity|]. apply (step_add _ _ _ _ _ _ Hi E); reflexivity.
  Qed.

  Lemma own_step_allowed past s q s' : inv past s -> own_step s q = Ok s' -> allowed past q.
  Proof.
    intros Hi E. destruct q as [k|i|i|p x|l x]; cbn [own_step allowed] in *.
    - intros x Hx. apply mentions_owns in Hx. destruct (forallb (alive s) (mentions k)) eqn:Ef; [|discriminate E].
      apply (inv_alive past s x Hi). rewrite forallb_forall in Ef. exact (Ef x Hx).
    - destruct (nth_error s i) as [o|] eqn:Eo; [|discriminate E]. destruct (proj1 (proj2 Hi) i o Eo) as (_ & _ & <-).
      destruct (Nat.eqb_spec (mine o) 0); [discriminate E|lia].
    - destruct (nth_error s i) as [o|] eqn:Eo; [|discriminate E]. destruct (proj1 (proj2 Hi) i o Eo) as (_ & _ & <-).
      destruct (Nat.eqb_spec (mine o) 0); [discriminate E|lia].
    - destruct (nth_error s p) as [o|] eqn:Eo; [|discriminate E]. destruct (proj1 (proj2 Hi) p o Eo) as (-> & _).
      destruct (what o) as [| | | | | | |ms|] eqn:Ew; try discriminate E. destruct (alive s p && alive s x)%bool eqn:Ea; [|discriminate E].
      apply andb_prop in Ea as [A1 A2]. apply (inv_alive past s _ Hi) in A1, A2. eauto.
    - destruct (nth_error s l) as [o|] eqn:Eo; [|discriminate E]. destruct (proj1 (proj2 Hi) l o Eo) as (-> & _).
      destruct (what o) as [| | | | | | | |four ms] eqn:Ew; try discriminate E. destruct (alive s l && alive s x)%bool eqn:Ea; [|discriminate E].
      apply andb_prop in Ea as [A1 A2]. apply (inv_alive past s _ Hi) in A1, A2. eauto.
  Qed.

  Lemma inv_nil : inv [] [].
  Proof.
    split; [reflexivity|]. split; [intros [|i] o E; discriminate E|]. split; [intros; split; reflexivity|].
    split; [intros [|i] o x E; discriminate E|intros [|i] o E; discriminate E].
  Qed.

  Lemma run_app ops1 : forall s ops2, own_run s (ops1 ++ ops2) = rbind (own_run s ops1) (fun s' => own_run s' ops2).
  Proof. induction ops1 as [|q ops1 IH]; intros s ops2; [reflexivity|]. cbn [app own_run]. destruct (own_step s q); cbn [rbind]; auto. Qed.

  Lemma run_inv past : lawful past -> exists s, own_run [] (rev past) = Ok s /\ inv past s.
  Proof.
    induction past as [|q past IH]; intros Hl; [exists []; split; [reflexivity|exact inv_nil]|]. destruct Hl as [Hl Ha]. destruct (IH Hl) as (s & E & Hi).
    destruct (own_step_ok past s q Hi Ha) as (s' & E' & Hi'). exists s'. split; [|exact Hi']. cbn [rev]. rewrite run_app, E. cbn [rbind own_run]. rewrite E'. reflexivity.
  Qed.

  Lemma run_lawful past s : own_run [] (rev past) = Ok s -> lawful past.
  Proof.
    revert s. induction past as [|q past IH]; intros s E; [exact I|]. cbn [rev] in E. rewrite run_app in E. destruct (own_run [] (rev past)) as [s1| | | |] eqn:E1; try discriminate E.
    specialize (IH s1 eq_refl). split; [exact IH|]. destruct (run_inv past IH) as (s2 & E2 & Hi). rewrite E1 in E2. injection E2 as <-.
    cbn [rbind own_run] in E. destruct (own_step s1 q) as [s3| | | |] eqn:E3; try discriminate E. exact (own_step_allowed past s1 q s3 Hi E3).
  Qed.

  Lemma run_state ops s : own_run [] ops = Ok s -> inv (rev ops) s.
  Proof.
    intros E. rewrite <- (rev_involutive ops) in E. pose proof (run_lawful _ _ E) as Hl. destruct (run_inv _ Hl) as (s' & E' & Hi). congruence.
  Qed.
End Facts.
