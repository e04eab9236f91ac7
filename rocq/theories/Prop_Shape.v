(** C51 and C52: which values StampJSON writes. *)
From Verif Require Import Base BaseFacts Blob BlobSpec RunSpec RunFacts Sim Oracle Arithm DictWords Galley Stamps Json VectorSpec VectorFacts JsonSpec NestFacts JsonFacts
  DecodeSpec DecodeFacts Prop_Decode ShapeSpec ShapeFacts.
Local Open Scope Z_scope.

(** C51.  Below 786424 bytes of data: arrays and objects are never empty, and the members of objects are arrays or
    objects, never numbers or strings. *)
Theorem C51_shape : forall b d s rest, holds b d -> zlen d < 786424 -> runs JSONExtractStr b (Ok s) rest -> exists t, regular t /\ text t s.
Proof.
  intros b d s rest Hb Hd (b' & E & _). destruct (json_decode (S (Z.to_nat (zlen d))) b d s b' Hb ltac:(lia) E) as (t & rest' & D & T & _).
  exists t. split; [|exact T]. exact (proj2 (decodes_regular (S (Z.to_nat (zlen d))) d t rest' ltac:(lia) Hd D)).
Qed.
Print Assumptions C51_shape.

(** The latter for all data that an int can count. *)
Theorem C51_members : forall b d s rest, holds b d -> zlen d < 2 ^ 31 -> runs JSONExtractStr b (Ok s) rest -> exists t, deep t /\ text t s.
Proof.
  intros b d s rest Hb Hd (b' & E & _). destruct (json_decode (S (Z.to_nat (zlen d))) b d s b' Hb ltac:(lia) E) as (t & rest' & D & T & _).
  exists t. split; [|exact T]. exact (proj2 (decodes_deep (S (Z.to_nat (zlen d))) d t rest' ltac:(lia) Hd D)).
Qed.
Print Assumptions C51_members.

(** The bound of the former is exact: the number of elements, 65536, is kept in 16 bits. *)
Theorem C51_limit : exists d, zlen d = 786424 /\ forall b, holds b d -> exists rest, runs JSONExtractStr b (Ok (lit "[]")) rest.
Proof.
  destruct (some_bytes 786420 ltac:(lia)) as (x & Lx).
  assert (Lr : zlen (le16 65535 ++ x) = 786422) by (rewrite zlen_app, le16_len; lia).
  assert (V : vector_extract 10 (-1) (le16 65535 ++ x) = (Ok [], x)).
  { unfold vector_extract. cbn [Size ListOps]. rewrite Lr. change (786422 <? u64 10) with false. change (isFixedSize 10 (-1)) with false. change (isUnbounded 10 (-1)) with true. cbv iota.
    unfold vector_unbounded. rewrite bind_gets. cbn [Size ListOps]. rewrite Lr. change (u64 (10 + ORACLE_SIZE) =? 0) with false. cbv iota.
    assert (EO : GetOracle (le16 65535 ++ x) = (Ok 65535, x)) by (apply list_oracle; unfold oracle16; lia).
    rewrite (bind_ok _ _ _ _ _ EO). change (count_target 10 786422 65535) with 0. cbv zeta. change (Z.to_nat 0) with 0%nat.
    rewrite (bind_ok _ _ x ([], 0) x) by reflexivity. rewrite bind_gets. cbn [Size ListOps fst snd]. rewrite Lx. reflexivity. }
  destruct (kind_gives (JArr []) (le16 65535 ++ x) (StampJSONArray 0)) as (front & Lf & G).
  { rewrite Lr. cbn. tauto. }
  { exact (array_run _ _ _ [] V ltac:(constructor)). }
  exists (front ++ le16 65535 ++ x). split; [rewrite zlen_app; lia|]. intros b Hb. destruct (G b Hb) as (s & E & T).
  assert (s = lit "[]") as -> by (inversion T as [| | |ts s' Ts|]; inversion Ts; reflexivity).
  exists (content (snd (JSONExtractStr b))), (snd (JSONExtractStr b)). split; [rewrite (surjective_pairing (JSONExtractStr b)) at 1; f_equal; exact E|].
  split; [|reflexivity]. apply tame_result; [split; [exact json_leaves|constructor]|exact (proj1 Hb)].
Qed.
Print Assumptions C51_limit.

Example C51_case : holds (blob_of keyed) keyed /\ zlen keyed < 786424
  /\ regular (JObj [(lit "a", JArr [JStr (lit "zanier")])])
  /\ text (JObj [(lit "a", JArr [JStr (lit "zanier")])]) (lit "{" ++ [quote] ++ lit "a" ++ [quote] ++ lit ": [" ++ [quote] ++ lit "zanier" ++ [quote] ++ lit "]}")
  /\ ~ regular (JObj [(lit "a", JInt 1)]) /\ ~ regular (JArr []).
Proof.
  split; [apply holds_blob_of; vm_compute; reflexivity|]. split; [vm_compute; reflexivity|]. split.
  { apply rg_obj; [discriminate|]. constructor; [|constructor]. cbn [fst snd]. split; [left; reflexivity|]. split; [exact I|].
    apply rg_arr; [discriminate|]. constructor; [|constructor]. constructor. apply (nth_error_In _ 253). reflexivity. }
  split.
  { change (text (JObj [(lit "a", JArr [JStr (lit "zanier")])]) (lit "{" ++ ([quote] ++ lit "a" ++ [quote] ++ lit ": " ++ (lit "[" ++ ([quote] ++ lit "zanier" ++ [quote]) ++ lit "]")) ++ lit "}")).
    apply t_obj, ps_one, t_arr, ts_one, t_str. }
  split; intros R; inversion R as [| | |ts N|ms N F]; subst; [|congruence]. apply Forall_inv in F. destruct F as (_ & [] & _).
Qed.

(** C52.  And every such value is written for some data; [need] bytes are enough, up to 32767. *)
Theorem C52_every : forall t, regular t -> need t <= 32767 ->
  exists d, zlen d = need t /\ forall b, holds b d -> exists s rest, runs JSONExtractStr b (Ok s) rest /\ text t s.
Proof.
  intros t R H. destruct (every_tree (S (size t)) t ltac:(lia) R H 0 ltac:(lia)) as (d & Ld & G). exists d. split; [lia|]. intros b Hb.
  destruct (G b Hb) as (s & E & T). exists s, (content (snd (JSONExtractStr b))). split; [|exact T].
  exists (snd (JSONExtractStr b)). split; [rewrite (surjective_pairing (JSONExtractStr b)) at 1; f_equal; exact E|].
  split; [|reflexivity]. apply tame_result; [split; [exact json_leaves|constructor]|exact (proj1 Hb)].
Qed.
Print Assumptions C52_every.

Example C52_case : let t := JArr [JInt (-7); JObj [(lit "a", JArr [JStr (lit "zanier")])]; JArr [JDouble 0; JDouble (2 ^ 64 - 1)]] in
  regular t /\ need t = 77.
Proof.
  split; [|reflexivity]. assert (Z : In (lit "zanier") DictLCAlphaSmall) by (apply (nth_error_In _ 253); reflexivity).
  apply rg_arr; [discriminate|]. constructor; [constructor; lia|]. constructor.
  { apply rg_obj; [discriminate|]. constructor; [|constructor]. cbn [fst snd]. split; [left; reflexivity|]. split; [exact I|].
    apply rg_arr; [discriminate|]. constructor; [|constructor]. constructor. exact Z. }
  constructor; [|constructor]. apply rg_arr; [discriminate|]. constructor; [constructor; lia|]. constructor; [constructor; lia|constructor].
Qed.
