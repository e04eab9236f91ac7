(** C49 and C50: how StampJSON reads its data, and how deep the result can be. *)
From Verif Require Import Base BaseFacts Blob BlobSpec RunSpec RunFacts ArithSpec Arithm DictWords Galley Stamps Json VectorSpec LotSpec Prop_Pool JsonSpec NestFacts LeafSpec TermSpec JsonFacts
  DecodeSpec DecodeFacts.
Local Open Scope Z_scope.

(** C49.  Whatever is written is the text of the tree that the data are read as; what is not read stays in the blob. *)
Theorem C49_decodes : exists word : byte -> bytes, (forall c, In (word c) DictLCAlphaSmall)
  /\ forall b d s rest, holds b d -> runs JSONExtractStr b (Ok s) rest -> exists t, decodes word d t rest /\ text t s.
Proof.
  exists word. split; [intros c; apply word_run|]. intros b d s rest Hb (b' & E & _ & <-).
  destruct (json_decode (S (Z.to_nat (zlen d))) b d s b' Hb ltac:(lia) E) as (t & rest & D & T & (_ & <-)). exists t. split; assumption.
Qed.
Print Assumptions C49_decodes.

(** The kinds of values: one of those there is enough data for (and if there are such, of those which can use all of it) ... *)
Theorem C49_kinds : forall b front r, holds b (front ++ r) -> zlen front = 2 -> 8 <= zlen r ->
  exists y b', In y (eligible (zlen r)) /\ holds b' r /\ JSONExtractStr b = ExtractStr json_heap y b'.
Proof. exact json_kind. Qed.
Print Assumptions C49_kinds.

(** ... and each of them for some value of the first two bytes. *)
Theorem C49_reach : forall r y, In y (eligible (zlen r)) ->
  exists front, zlen front = 2 /\ forall b, holds b (front ++ r) -> exists b', holds b' r /\ JSONExtractStr b = ExtractStr json_heap y b'.
Proof.
  intros r y Hy.
  assert (K : exists s, In y json_members /\ report json_heap y s /\ fits (zlen r) s
    /\ (uses_all (zlen r) s \/ Forall (fun s => fits (zlen r) s -> ~ uses_all (zlen r) s) json_sizes \/ (zlen r = 8 /\ s = (8, 8)))).
  { unfold eligible in Hy. destruct (zlen r <? 8) eqn:C8; [destruct Hy|]. unfold fits, uses_all. destruct (zlen r <? 14) eqn:C14.
    - destruct (Z.eq_dec (zlen r) 8) as [Q|Q].
      + exists (8, 8). destruct Hy as [<-|[<-|[<-|[]]]]; (split; [cbn; tauto|split; [split; reflexivity|cbn; lia]]).
      + exists (8, 8). assert (N : Forall (fun s => fst s <= zlen r -> ~ (snd s = -1 \/ zlen r <= snd s)) json_sizes) by (repeat constructor; cbn; lia).
        destruct Hy as [<-|[<-|[<-|[]]]]; (split; [cbn; tauto|split; [split; reflexivity|split; [cbn; lia|right; left; exact N]]]).
    - destruct (zlen r <? 22) eqn:C22; [destruct Hy as [<-|[]]|destruct Hy as [<-|[<-|[]]]]; [exists (14, -1)|exists (14, -1)|exists (22, -1)]; (split; [cbn; tauto|split; [split; reflexivity|cbn; lia]]). }
  destruct K as (s & H1 & H2 & H3 & H4).
  refine (C32_reach json_heap 0 json_members json_sizes y s r json_leaves json_pool_of json_reports json_sane _ H1 H2 H3 _); [cbn; lia|].
  destruct H4 as [H4|[H4|[H4 ->]]]; [left; exact H4|right; exact H4|left; right; cbn; lia].
Qed.
Print Assumptions C49_reach.

(** C50.  Every level of nesting takes 6 bytes of the data or more, every value 10. *)
Theorem C50_depth : forall b d s rest, holds b d -> runs JSONExtractStr b (Ok s) rest ->
  exists t, text t s /\ 10 + 6 * depth t <= zlen d /\ 10 * scalars t <= zlen d.
Proof.
  intros b d s rest Hb (b' & E & _ & <-). destruct (json_decode (S (Z.to_nat (zlen d))) b d s b' Hb ltac:(lia) E) as (t & rest & D & T & _).
  exists t. split; [exact T|]. destruct (decodes_bounds (S (Z.to_nat (zlen d))) d t rest ltac:(lia) D) as (B1 & B2 & _). split; assumption.
Qed.
Print Assumptions C50_depth.

(** The least data for two levels: 22 bytes. *)
Definition nested : bytes := [x00; x00; x00; x00; x00; x00; x00; x00; x00; x00; x00; x00; x00; x00; x2a; x00; x00; x00; x00; x00; x00; x00].

Example C50_case : runs JSONExtractStr (blob_of nested) (Ok (lit "[[42]]")) [] /\ text (JArr [JArr [JInt 42]]) (lit "[[42]]")
  /\ 10 + 6 * depth (JArr [JArr [JInt 42]]) = zlen nested.
Proof.
  split; [|split; [|reflexivity]].
  - set (b := blob_of nested). exists (snd (JSONExtractStr b)). split; [rewrite (surjective_pairing (JSONExtractStr b)) at 1; f_equal; vm_compute; reflexivity|].
    split; [|vm_compute; reflexivity]. apply tame_result; [split; [exact json_leaves|constructor]|apply holds_blob_of; vm_compute; reflexivity].
  - change (lit "[[42]]") with (lit "[" ++ (lit "[" ++ lit "42" ++ lit "]") ++ lit "]"). apply t_arr, ts_one, t_arr, ts_one, t_int. reflexivity.
Qed.

(** An object: 26 bytes, first two 0xffff. *)
Definition keyed : bytes := [xff; xff; x00; x00; x00; x00; x01; x00; x00; xff; xff; xff; xff; xff; xff; xff; xff; x00; x00; x00; x00; x00; x00; x00; x00; x00].

Example C49_case : holds (blob_of keyed) keyed
  /\ fst (JSONExtractStr (blob_of keyed)) = Ok (lit "{" ++ [quote] ++ lit "a" ++ [quote] ++ lit ": [" ++ [quote] ++ lit "zanier" ++ [quote] ++ lit "]}")
  /\ In (StampJSONHash 0) (eligible (zlen (skipn 2 keyed))).
Proof. split; [apply holds_blob_of; vm_compute; reflexivity|]. split; [vm_compute; reflexivity|cbn; tauto]. Qed.
