(** Which values StampJSON writes. *)
From Verif Require Import TextSpec TextFacts Base BaseFacts Blob BlobSpec BlobFacts RunSpec RunFacts Sim Oracle ArithSpec Arithm ArithFacts StampDict DictWords DictSpec DictFacts StampText
  Galley Stamps StampsEq Json LeafSpec TermSpec ShrinkFacts Prop_Arithm Prop_FloatText Prop_Dict Prop_Termination NestSpec NestFacts Prop_Enum
  VectorSpec VectorFacts VectorUnbounded JsonSpec JsonFacts Prop_Json DecodeSpec DecodeFacts Prop_Decode ReachFacts ShapeSpec.
Local Open Scope Z_scope.

(** ** What is read is regular *)
Lemma represents_range t z r : represents t z r -> lowest t <= z <= highest t.
Proof.
  intros R. pose proof (proj1 R) as L. rewrite width_sizeof in L. destruct (decode_bits t r L) as [R' B]. rewrite (represents_inj _ _ _ _ R R'). exact B.
Qed.

Lemma decodes_deep : forall n d t rest, zlen d < Z.of_nat n -> zlen d < 2 ^ 31 -> decodes word d t rest -> (17 <= zlen d -> compound t) /\ deep t.
Proof.
  induction n as [|n IH]; intros d t rest Hn Hd D; [pose proof (zlen_nonneg d); lia|].
  destruct D as [front r rest z H1 R H2|front r rest z H1 R H2|front c rest H1 H2|front r cs rest ts H1 H2 P F|front r cs rest ms H1 H2 P F]; rewrite ?zlen_app in *.
  - split; [lia|constructor].
  - split; [lia|constructor].
  - split; [lia|constructor].
  - split; [intros _; exact I|]. constructor. pose proof (parted_small _ _ _ _ P) as PS. clear P. revert PS. induction F as [|c t cs ts (e & D) F IHF]; intros PS; constructor.
    + pose proof (Forall_inv PS). cbv beta in *. exact (proj2 (IH c t e ltac:(lia) ltac:(lia) D)).
    + exact (IHF (Forall_inv_tail PS)).
  - split; [intros _; exact I|]. constructor. pose proof (parted_small _ _ _ _ P) as PS. destruct P as (_ & _ & _ & _ & LOW & _). specialize (LOW ltac:(lia)). revert PS LOW.
    induction F as [|c m cs ms (k & v & e & -> & Ek & D) F IHF]; intros PS LOW; constructor.
    + pose proof (Forall_inv PS). pose proof (Forall_inv LOW). cbv beta in *. rewrite zlen_cons in *. destruct (IH v (snd m) e ltac:(lia) ltac:(lia) D) as [I1 I2]. split; [apply I1; lia|exact I2].
    + exact (IHF (Forall_inv_tail PS) (Forall_inv_tail LOW)).
Qed.

Lemma decodes_regular : forall n d t rest, zlen d < Z.of_nat n -> zlen d < 786424 -> decodes word d t rest -> (17 <= zlen d -> compound t) /\ regular t.
Proof.
  induction n as [|n IH]; intros d t rest Hn Hd D; [pose proof (zlen_nonneg d); lia|].
  destruct D as [front r rest z H1 R H2|front r rest z H1 R H2|front c rest H1 H2|front r cs rest ts H1 H2 P F|front r cs rest ms H1 H2 P F]; rewrite ?zlen_app in *.
  - split; [lia|]. constructor. pose proof (represents_range _ _ _ R) as B. change (lowest Long) with (- 2 ^ 63) in B. change (highest Long) with (2 ^ 63 - 1) in B. lia.
  - split; [lia|]. constructor. pose proof (represents_range _ _ _ R) as B. change (lowest ULong) with 0 in B. change (highest ULong) with (2 ^ 64 - 1) in B. lia.
  - split; [lia|]. constructor. apply word_run.
  - split; [intros _; exact I|]. pose proof (parted_small _ _ _ _ P) as PS. destruct P as (_ & _ & _ & _ & _ & SOME & _).
    constructor.
    { intros ->. inversion F. subst cs. apply SOME; [|reflexivity]. unfold parts. apply Z.lt_succ_r, Z.div_lt_upper_bound; lia. }
    clear SOME. revert PS. induction F as [|c t cs ts (e & D) F IHF]; intros PS; constructor.
    + pose proof (Forall_inv PS). cbv beta in *. exact (proj2 (IH c t e ltac:(lia) ltac:(lia) D)).
    + exact (IHF (Forall_inv_tail PS)).
  - split; [intros _; exact I|]. pose proof (parted_small _ _ _ _ P) as PS. destruct P as (_ & _ & _ & _ & LOW & SOME & _). specialize (LOW ltac:(lia)).
    constructor.
    { intros ->. inversion F. subst cs. apply SOME; [|reflexivity]. unfold parts. apply Z.lt_succ_r, Z.div_lt_upper_bound; lia. }
    clear SOME. revert PS LOW.
    induction F as [|c m cs ms (k & v & e & -> & Ek & D) F IHF]; intros PS LOW; constructor.
    + pose proof (Forall_inv PS). pose proof (Forall_inv LOW). cbv beta in *. rewrite zlen_cons in *. destruct (IH v (snd m) e ltac:(lia) ltac:(lia) D) as [I1 I2].
      split; [rewrite Ek; apply word_run|]. split; [apply I1; lia|exact I2].
    + exact (IHF (Forall_inv_tail PS) (Forall_inv_tail LOW)).
Qed.

Lemma app_inj_len {A} (a b c d : list A) : a ++ b = c ++ d -> length a = length c -> a = c /\ b = d.
Proof.
  revert c. induction a as [|x a IH]; intros [|y c] E L; try discriminate L; [split; [reflexivity|exact E]|].
  cbn [app] in E. injection E as -> E. destruct (IH c E ltac:(cbn in L; lia)) as [-> ->]. split; reflexivity.
Qed.

(** ** Laying out elements of given sizes *)
Lemma some_bytes n : 0 <= n -> exists l : bytes, zlen l = n.
Proof. intros H. exists (repeat x00 (Z.to_nat n)). unfold zlen. rewrite repeat_length. lia. Qed.

Lemma place mn {A} (xs : list A) (Q : A -> bytes -> Prop) (nd : A -> Z) e : 10 <= mn < 100 -> xs <> [] -> 0 <= e <= 1 -> sum (map nd xs) + spare xs + e <= 32767 ->
  Forall (fun x => mn <= nd x /\ forall e, 0 <= e <= 1 -> exists c, zlen c = nd x + e /\ Q x c) xs ->
  exists l cs rest, zlen l = 2 + 2 * zlen xs + sum (map nd xs) + spare xs + e /\ Forall2 Q xs cs /\ vector_extract mn (-1) l = (Ok cs, rest).
Proof.
  intros Hm Hx He Hs H. destruct (exists_last Hx) as (ys & z & ->). apply Forall_app in H as [Hy Hz]. apply Forall_inv in Hz as [Hz1 Hz2].
  rewrite map_app, sum_app in Hs |- *. rewrite zlen_app. change (zlen [z]) with 1. change (sum (map nd [z])) with (nd z + 0) in Hs |- *. rewrite Z.add_0_r in Hs |- *.
  destruct ys as [|y ys].
  - cbn [app spare map] in Hs |- *. change (sum []) with 0 in Hs |- *. change (@zlen A []) with 0.
    destruct (vector_reach mn [] (nd z + e) Hm ltac:(constructor) ltac:(lia) ltac:(congruence) ltac:(change (sum []) with 0; lia)) as (head & k' & H1 & H2 & H3).
    assert (k' = nd z + e) as -> by (destruct H2 as [->|[_ C]]; [reflexivity|congruence]).
    destruct (Hz2 e He) as (c & Lc & Qc). exists (head ++ concat [] ++ c ++ []), [c], []. split; [|split; [repeat constructor; exact Qc|]].
    + change (@zlen Z []) with 0 in H1. cbn [concat]. rewrite !zlen_app. change (@zlen byte []) with 0. lia.
    + apply (H3 [] c []); [reflexivity|exact Lc|rewrite app_nil_r; exact Lc].
  - cbn [map]. change (spare ((y :: ys) ++ [z])) with (spare (y :: ys ++ [z])) in Hs |- *.
    assert (SP : spare (y :: ys ++ [z]) = 1) by (destruct ys; reflexivity). rewrite SP in Hs |- *. clear SP.
    cbn [map sum fold_right] in Hs |- *. fold (sum (map nd ys)) in Hs |- *. rewrite zlen_cons.
    pose proof (Forall_inv Hy) as [Hy1 Hy2]. apply Forall_inv_tail in Hy.
    destruct (vector_reach mn ((nd y + e) :: map nd ys) (nd z + 1) Hm) as (head & k' & H1 & H2 & H3).
    + constructor; [lia|]. apply Forall_map. eapply Forall_impl; [|exact Hy]. cbv beta. intros a [Ha _]. exact Ha.
    + lia.
    + lia.
    + cbn [sum fold_right]. fold (sum (map nd ys)). lia.
    + destruct (Hy2 e He) as (cy & Ly & Qy).
      assert (M : exists cs, Forall2 Q ys cs /\ map zlen cs = map nd ys).
      { clear - Hy. induction Hy as [|x ys [_ Hx] Hy (cs & I1 & I2)]; [exists []; split; constructor|]. destruct (Hx 0 ltac:(lia)) as (c & Lc & Qc).
        exists (c :: cs). split; [constructor; assumption|]. cbn [map]. f_equal; [lia|exact I2]. }
      destruct M as (cs & M1 & M2).
      assert (K : 0 <= k' - nd z <= 1) by lia. destruct (Hz2 (k' - nd z) K) as (cz & Lz & Qz).
      destruct (some_bytes (nd z + 1 - k') ltac:(lia)) as (rest & Lr).
      exists (head ++ concat (cy :: cs) ++ cz ++ rest), ((cy :: cs) ++ [cz]), rest. split; [|split].
      * rewrite zlen_cons, zlen_map in H1. rewrite !zlen_app, (concat_sum (cy :: cs)). cbn [map sum fold_right]. fold (sum (map zlen cs)). rewrite M2. lia.
      * apply Forall2_app; [constructor; assumption|repeat constructor; exact Qz].
      * apply H3; [cbn [map]; f_equal; [lia|exact M2]|lia|rewrite zlen_app; lia].
Qed.

(** ** Every regular tree *)
(** Data read as the tree. *)
Definition gives (t : jtree) (d : bytes) : Prop := forall b, holds b d -> exists s, fst (ExtractStr json_heap StampJSON b) = Ok s /\ text t s.

Lemma kind_gives t r y : In y (eligible (zlen r)) -> (forall b, holds b r -> exists s, fst (ExtractStr json_heap y b) = Ok s /\ text t s) -> exists front, zlen front = 2 /\ gives t (front ++ r).
Proof.
  intros Hy H. destruct (C49_reach r y Hy) as (front & Lf & Hf). exists front. split; [exact Lf|]. intros b Hb.
  destruct (Hf b Hb) as (b' & Hb' & E). unfold JSONExtractStr in E. rewrite E. exact (H b' Hb').
Qed.

Lemma scalar_eligible (r : bytes) y : 8 <= zlen r < 14 -> In y [StampJSONInt; StampJSONFloat; StampJSONString] -> In y (eligible (zlen r)).
Proof. intros H Hy. unfold eligible. destruct (zlen r <? 8) eqn:A; [lia|]. destruct (zlen r <? 14) eqn:B; [exact Hy|lia]. Qed.

Lemma word_onto w : In w DictLCAlphaSmall -> exists c, word c = w.
Proof.
  intros Hw. apply In_nth_error in Hw as (i & Hi).
  destruct (C13_reachable DictLCAlphaSmall i w ltac:(change (zlen DictLCAlphaSmall) with 254; lia) Hi) as (front & Lf & R).
  change (DictMinSize DictLCAlphaSmall) with 1 in Lf. destruct front as [|c [|c2 front]].
  { change (@zlen byte []) with 0 in Lf. lia. }
  2:{ rewrite !zlen_cons in Lf. pose proof (zlen_nonneg front). lia. }
  exists c. pose proof (holds_blob_of [c] ltac:(change (zlen [c]) with 1; lia)) as Hb.
  destruct (R _ [] Hb) as (b1 & E1 & _). destruct (proj2 (word_run c) _ [] Hb) as (b2 & E2 & _).
  unfold JSONStringExtractStr in E2. rewrite (bind_ok _ _ _ _ _ E1) in E2.
  pose proof (f_equal fst E2) as X0. cbn [fst ret] in X0. assert (X : [quote] ++ w ++ [quote] = [quote] ++ word c ++ [quote]) by exact (f_equal (fun r => match r with Ok x => x | _ => [] end) X0).
  apply app_inv_head, app_inv_tail in X. symmetry. exact X.
Qed.

Lemma hashel_make h n v b a b1 c b2 : tame_graph h n -> tame_graph h v -> wf b -> ExtractStr h n b = (Ok a, b1) -> ExtractStr h v b1 = (Ok c, b2) ->
  ExtractStr h (XHashEl n v) b = (Ok (a ++ lit ": " ++ c), b2).
Proof.
  intros Tn Tv Hb E1 E2. unfold ExtractStr at 1. rewrite extract_hashel.
  pose proof (tame_result h n b Tn Hb) as S1. rewrite E1 in S1. cbn [snd] in S1.
  unfold ExtractStr in E1. rewrite (bind_ok _ _ _ _ _ E1). rewrite <- (tame_agree h v b b1 Tv S1) in E2. rewrite (bind_ok _ _ _ _ _ E2). reflexivity.
Qed.

Lemma member_run b d k v t : holds b d -> d = k :: v -> gives t v ->
  exists s, fst (ExtractStr json_heap (StampJSONHashEl 0) b) = Ok s /\ pair_text (word k, t) s.
Proof.
  destruct C46_leaves as (_ & _ & _ & _ & MJ).
  assert (TP : tame_graph json_heap StampJSON) by (split; [exact json_leaves|constructor]).
  assert (TS : tame_graph json_heap StampJSONString) by (split; [exact json_leaves|constructor; exact MJ]).
  intros Hb -> G. destruct (proj2 (word_run k) b v Hb) as (b1 & E1 & Hb1). destruct (G b1 Hb1) as (s & Es & Ts).
  exists (([quote] ++ word k ++ [quote]) ++ lit ": " ++ s). split.
  - destruct (ExtractStr json_heap StampJSON b1) as [rs b2] eqn:Q. cbn [fst] in Es. subst rs.
    exact (f_equal fst (hashel_make json_heap StampJSONString StampJSON b _ b1 s b2 TS TP (proj1 Hb) E1 Q)).
  - exists s. split; [exact Ts|]. cbn [fst]. rewrite <- !app_assoc. reflexivity.
Qed.

Lemma array_run l cs rest ts : vector_extract 10 (-1) l = (Ok cs, rest) -> Forall2 gives ts cs ->
  forall b, holds b l -> exists s, fst (ExtractStr json_heap (StampJSONArray 0) b) = Ok s /\ text (JArr ts) s.
Proof.
  assert (TP : tame_graph json_heap StampJSON) by (split; [exact json_leaves|constructor]).
  intros V F b Hb. destruct (cuts_transfer _ _ b l cs rest (sim_vector_extract 10 (-1)) Hb V) as (bs & b' & E & Wb & C & _).
  assert (X : exists ss, Forall2 (fun c t => fst (ExtractStr json_heap (XPool 0) c) = Ok t) bs ss /\ Forall2 text ts ss).
  { clear - F Wb C. subst cs. remember (map content bs) as cs eqn:Ecs. revert bs Wb Ecs.
    induction F as [|t c ts cs G F IH]; intros bs Wb Ecs; [destruct bs; [|discriminate Ecs]; exists []; split; constructor|].
    destruct bs as [|b bs]; [discriminate Ecs|]. cbn [map] in Ecs. injection Ecs as Ec Ecs. destruct (IH bs (Forall_inv_tail Wb) Ecs) as (ss & I1 & I2).
    destruct (G b (conj (Forall_inv Wb) (eq_sym Ec))) as (s & E & T). exists (s :: ss). split; constructor; assumption. }
  destruct X as (ss & X1 & X2). exists (lit "[" ++ separated (lit ", ") ss ++ lit "]"). split; [|apply t_arr, texts_of; exact X2].
  assert (R : ExtractStr json_heap (StampJSONArray 0) b = (Ok (lit "[" ++ separated (lit ", ") (drop_empty ss) ++ lit "]"), b')).
  { apply (C28_enumerator json_heap (XPool 0) (lit ", ") (lit "[") (lit "]") b _ b' TP (proj1 Hb)). exists 10, (-1), bs, ss. repeat split; assumption. }
  rewrite R. cbn [fst]. rewrite drop_empty_id by (clear - X2; induction X2; constructor; [eapply text_nonempty; eassumption|assumption]). reflexivity.
Qed.

Definition gives_member (m : bytes * jtree) (c : bytes) : Prop := exists k v, c = k :: v /\ word k = fst m /\ gives (snd m) v.

Lemma object_run l cs rest ms : vector_extract 18 (-1) l = (Ok cs, rest) -> Forall2 gives_member ms cs ->
  forall b, holds b l -> exists s, fst (ExtractStr json_heap (StampJSONHash 0) b) = Ok s /\ text (JObj ms) s.
Proof.
  destruct C46_leaves as (_ & _ & _ & _ & MJ).
  assert (TE : tame_graph json_heap (StampJSONHashEl 0)) by (split; [exact json_leaves|constructor; constructor; exact MJ]).
  intros V F b Hb. destruct (cuts_transfer _ _ b l cs rest (sim_vector_extract 18 (-1)) Hb V) as (bs & b' & E & Wb & C & _).
  assert (X : exists ss, Forall2 (fun c t => fst (ExtractStr json_heap (StampJSONHashEl 0) c) = Ok t) bs ss /\ Forall2 pair_text ms ss).
  { clear - F Wb C. subst cs. remember (map content bs) as cs eqn:Ecs. revert bs Wb Ecs.
    induction F as [|m c ms cs (k & v & -> & Ek & G) F IH]; intros bs Wb Ecs; [destruct bs; [|discriminate Ecs]; exists []; split; constructor|].
    destruct bs as [|b bs]; [discriminate Ecs|]. cbn [map] in Ecs. injection Ecs as Ec Ecs. destruct (IH bs (Forall_inv_tail Wb) Ecs) as (ss & I1 & I2).
    destruct (member_run b (content b) k v (snd m) (conj (Forall_inv Wb) eq_refl) (eq_sym Ec) G) as (s & E & T). rewrite Ek in T. exists (s :: ss). split; constructor; assumption. }
  destruct X as (ss & X1 & X2). exists (lit "{" ++ separated (lit ", ") ss ++ lit "}"). split; [|apply t_obj, pairs_of; exact X2].
  assert (R : ExtractStr json_heap (StampJSONHash 0) b = (Ok (lit "{" ++ separated (lit ", ") (drop_empty ss) ++ lit "}"), b')).
  { apply (C28_enumerator json_heap (StampJSONHashEl 0) (lit ", ") (lit "{") (lit "}") b _ b' TE (proj1 Hb)). exists 18, (-1), bs, ss. repeat split; assumption. }
  rewrite R. cbn [fst]. rewrite drop_empty_id by (clear - X2; induction X2 as [|m s ms ss (v & _ & ->) T IHT]; constructor; [discriminate|assumption]). reflexivity.
Qed.

Lemma sum_add {A} (f : A -> Z) k l : sum (map (fun x => k + f x) l) = k * zlen l + sum (map f l).
Proof.
  induction l as [|x l IH]; [change (@zlen A []) with 0; cbn [map sum fold_right]; lia|]. cbn [map sum fold_right]. fold (sum (map (fun x => k + f x) l)). fold (sum (map f l)).
  rewrite IH, zlen_cons. lia.
Qed.

Lemma sum_member {A} (f : A -> Z) l : Forall (fun x => 0 <= f x) l -> Forall (fun x => f x <= sum (map f l)) l /\ 0 <= sum (map f l).
Proof.
  induction 1 as [|x l H F [I1 I2]]; [split; [constructor|cbn; lia]|]. cbn [map sum fold_right]. fold (sum (map f l)). split; [|lia].
  constructor; [lia|]. eapply Forall_impl; [|exact I1]. cbv beta. intros; lia.
Qed.

Lemma spare_range {A} (l : list A) : 0 <= spare l <= 1.
Proof. destruct l as [|x [|y l]]; cbn; lia. Qed.

Fixpoint size (t : jtree) : nat :=
  match t with
  | JArr ts => S (list_sum (map size ts))
  | JObj ms => S (list_sum (map (fun m => size (snd m)) ms))
  | _ => 1%nat
  end.

Lemma list_sum_in {A} (f : A -> nat) l x : In x l -> (f x <= list_sum (map f l))%nat.
Proof. induction l as [|y l IH]; [intros []|]. cbn [map list_sum fold_right]. fold (list_sum (map f l)). intros [->|H]; [lia|]. specialize (IH H). lia. Qed.

Lemma need_low : forall n t, (size t < n)%nat -> regular t -> 11 <= need t /\ (compound t -> 17 <= need t).
Proof.
  induction n as [|n IH]; intros t Hn R; [lia|]. destruct R as [z Hz|bits Hb|w Hw|ts Ht F|ms Hm F]; try (cbn; split; [lia|intros []]); cbn [size] in Hn.
  - assert (X : Forall (fun t => 11 <= need t) ts).
    { apply Forall_forall. intros t Hi. pose proof (list_sum_in size ts t Hi). rewrite Forall_forall in F. exact (proj1 (IH t ltac:(lia) (F t Hi))). }
    assert (Y : 17 <= need (JArr ts)); [|split; [lia|intros _; exact Y]]. cbn [need]. rewrite sum_add. pose proof (spare_range ts). destruct ts as [|t ts]; [congruence|].
    destruct (sum_member need ts) as [_ S]; [apply Forall_inv_tail in X; eapply Forall_impl; [|exact X]; cbv beta; intros; lia|].
    pose proof (Forall_inv X). cbv beta in *. cbn [map sum fold_right]. fold (sum (map need ts)). rewrite zlen_cons. pose proof (zlen_nonneg ts). lia.
  - set (f := fun m : bytes * jtree => need (snd m)).
    assert (X : Forall (fun m => 11 <= f m) ms).
    { apply Forall_forall. intros m Hi. pose proof (list_sum_in (fun m => size (snd m)) ms m Hi). rewrite Forall_forall in F. exact (proj1 (IH (snd m) ltac:(cbv beta in *; lia) (proj2 (proj2 (F m Hi))))). }
    assert (Y : 17 <= need (JObj ms)); [|split; [lia|intros _; exact Y]]. cbn [need]. fold f. change (fun m : bytes * jtree => 3 + need (snd m)) with (fun m => 3 + f m). rewrite sum_add. pose proof (spare_range ms). destruct ms as [|m ms]; [congruence|].
    destruct (sum_member f ms) as [_ S]; [apply Forall_inv_tail in X; eapply Forall_impl; [|exact X]; cbv beta; intros; lia|].
    pose proof (Forall_inv X). cbv beta in *. cbn [map sum fold_right]. fold (sum (map f ms)). rewrite zlen_cons. pose proof (zlen_nonneg ms). lia.
Qed.

Lemma every_tree : forall n t, (size t < n)%nat -> regular t -> need t <= 32767 -> forall e, 0 <= e <= 1 -> exists d, zlen d = need t + e /\ gives t d.
Proof.
  induction n as [|n IH]; intros t Hn R Hs e He; [lia|].
  assert (LOW : forall t, regular t -> 11 <= need t /\ (compound t -> 17 <= need t)) by (intros t' R'; exact (need_low (S (size t')) t' ltac:(lia) R')).
  destruct R as [z Hz|bits Hb|w Hw|ts Ht F|ms Hm F].
  - destruct (C06_every_value Long z ltac:(repeat split; discriminate)) as (r & R).
    { change (lowest Long) with (- 2 ^ 63). change (highest Long) with (2 ^ 63 - 1). lia. }
    pose proof (proj1 R) as Lr. change (width Long) with 8 in Lr. destruct (some_bytes (1 + e) ltac:(lia)) as (x & Lx).
    destruct (kind_gives (JInt z) (r ++ x) StampJSONInt) as (front & Lf & G).
    + apply scalar_eligible; [rewrite zlen_app; lia|cbn; tauto].
    + intros b Hb. destruct (C07_decimal Long b r x z ltac:(repeat split; discriminate) ltac:(discriminate) ltac:(discriminate) R Hb) as (s & (b' & E & _) & Rs).
      exists s. split; [|constructor; exact Rs]. change (ExtractStr json_heap StampJSONInt b) with (ArithExtractStr Long b). rewrite E. reflexivity.
    + exists (front ++ r ++ x). split; [rewrite !zlen_app; cbn [need]; lia|exact G].
  - destruct (C06_every_value ULong bits ltac:(repeat split; discriminate)) as (r & R).
    { change (lowest ULong) with 0. change (highest ULong) with (2 ^ 64 - 1). lia. }
    pose proof (proj1 R) as Lr. change (width ULong) with 8 in Lr. destruct (some_bytes (1 + e) ltac:(lia)) as (x & Lx).
    destruct (kind_gives (JDouble bits) (r ++ x) StampJSONFloat) as (front & Lf & G).
    + apply scalar_eligible; [rewrite zlen_app; lia|cbn; tauto].
    + intros b Hb'. assert (X : exists s b', ArithExtractStr Double b = (Ok s, b')).
      { destruct (C08_double b r x bits R Hb') as (D1 & D2 & D3). destruct (Binary.is_finite 53 1024 (Bits.b64_of_bits bits)) eqn:Fi; [destruct (D1 eq_refl) as (s & (b' & E & _) & _); exists s, b'; exact E|].
        destruct (Binary.is_nan 53 1024 (Bits.b64_of_bits bits)) eqn:N; [destruct (D2 eq_refl) as (b' & E & _)|destruct (D3 eq_refl eq_refl) as (b' & E & _)]; eexists _, b'; exact E. }
      destruct X as (s & b' & E). destruct (leaf_double_run b (r ++ x) s b' Hb' ltac:(rewrite zlen_app; lia) E) as (v & r' & x' & Er & R' & T & _).
      assert (r = r' /\ x = x') as [<- <-].
      { pose proof (proj1 R') as Lr'. change (width ULong) with 8 in Lr'. apply app_inj_len; [exact Er|unfold zlen in *; lia]. }
      rewrite (represents_inj _ _ _ _ R R'). exists s. split; [|exact T]. change (ExtractStr json_heap StampJSONFloat b) with (ArithExtractStr Double b). rewrite E. reflexivity.
    + exists (front ++ r ++ x). split; [rewrite !zlen_app; cbn [need]; lia|exact G].
  - destruct (word_onto w Hw) as (c & Ec). destruct (some_bytes (8 + e) ltac:(lia)) as (x & Lx).
    destruct (kind_gives (JStr w) (c :: x) StampJSONString) as (front & Lf & G).
    + apply scalar_eligible; [rewrite zlen_cons; lia|cbn; tauto].
    + intros b Hb. destruct (proj2 (word_run c) b x Hb) as (b' & E & _). exists ([quote] ++ w ++ [quote]). split; [|constructor].
      change (ExtractStr json_heap StampJSONString b) with (JSONStringExtractStr b). rewrite E, Ec. reflexivity.
    + exists (front ++ c :: x). split; [rewrite zlen_app, zlen_cons; cbn [need]; lia|exact G].
  - cbn [size] in Hn. cbn [need] in Hs |- *. rewrite sum_add in Hs |- *. pose proof (spare_range ts) as SP. pose proof (zlen_nonneg ts).
    assert (1 <= zlen ts) by (destruct ts; [congruence|rewrite zlen_cons; pose proof (zlen_nonneg ts); lia]).
    assert (F' : Forall (fun t => 0 <= need t) ts) by (eapply Forall_impl; [|exact F]; cbv beta; intros a Ha; pose proof (LOW a Ha); lia).
    destruct (sum_member need ts F') as [S1 _]. rewrite Forall_forall in S1, F.
    destruct (place 10 ts gives need e ltac:(lia) Ht He ltac:(lia)) as (l & cs & rest & Ll & G & V).
    { apply Forall_forall. intros t Hi. pose proof (LOW t (F t Hi)). split; [lia|]. pose proof (list_sum_in size ts t Hi). specialize (S1 t Hi). cbv beta in S1. apply IH; [lia|exact (F t Hi)|lia]. }
    destruct (kind_gives (JArr ts) l (StampJSONArray 0)) as (front & Lf & GG).
    + assert (Z14 : 14 <= zlen l).
      { destruct ts as [|t ts]; [congruence|]. assert (LT : 11 <= need t) by (apply LOW, F; left; reflexivity). specialize (S1 t ltac:(left; reflexivity)). cbv beta in S1. lia. }
      unfold eligible. destruct (zlen l <? 8) eqn:A1; [lia|]. destruct (zlen l <? 14) eqn:A2; [lia|]. destruct (zlen l <? 22); cbn; tauto.
    + exact (array_run l cs rest ts V G).
    + exists (front ++ l). split; [rewrite zlen_app; lia|exact GG].
  - cbn [size] in Hn. cbn [need] in Hs |- *. set (f := fun m : bytes * jtree => 1 + need (snd m)).
    assert (ES : sum (map (fun m : bytes * jtree => 3 + need (snd m)) ms) = 2 * zlen ms + sum (map f ms)) by (rewrite <- sum_add; f_equal; apply map_ext; intros m; unfold f; lia).
    rewrite ES in Hs |- *. pose proof (spare_range ms) as SP. pose proof (zlen_nonneg ms).
    assert (1 <= zlen ms) by (destruct ms; [congruence|rewrite zlen_cons; pose proof (zlen_nonneg ms); lia]).
    assert (F' : Forall (fun m => 0 <= f m) ms) by (eapply Forall_impl; [|exact F]; cbv beta; intros a (_ & _ & Ha); unfold f; pose proof (LOW _ Ha); lia).
    destruct (sum_member f ms F') as [S1 _]. rewrite Forall_forall in S1, F.
    destruct (place 18 ms gives_member f e ltac:(lia) Hm He ltac:(lia)) as (l & cs & rest & Ll & G & V).
    { apply Forall_forall. intros m Hi. destruct (F m Hi) as (F1 & F2 & F3). pose proof (proj2 (LOW _ F3) F2). split; [unfold f; lia|].
      pose proof (list_sum_in (fun m => size (snd m)) ms m Hi). specialize (S1 m Hi). cbv beta in *. unfold f in S1 at 1. intros e' He'.
      destruct (IH (snd m) ltac:(lia) F3 ltac:(lia) e' He') as (v & Lv & Gv). destruct (word_onto _ F1) as (k & Ek).
      exists (k :: v). split; [rewrite zlen_cons; unfold f; lia|]. exists k, v. split; [reflexivity|split; assumption]. }
    destruct (kind_gives (JObj ms) l (StampJSONHash 0)) as (front & Lf & GG).
    + assert (Z22 : 22 <= zlen l).
      { destruct ms as [|m ms]; [congruence|]. destruct (F m ltac:(left; reflexivity)) as (F1 & F2 & F3). pose proof (proj2 (LOW _ F3) F2). specialize (S1 m ltac:(left; reflexivity)). cbv beta in S1. unfold f in S1 at 1. lia. }
      unfold eligible. destruct (zlen l <? 8) eqn:A1; [lia|]. destruct (zlen l <? 14) eqn:A2; [lia|]. destruct (zlen l <? 22) eqn:A3; [lia|]. cbn; tauto.
    + exact (object_run l cs rest ms V G).
    + exists (front ++ l). split; [rewrite zlen_app; lia|exact GG].
Qed.
