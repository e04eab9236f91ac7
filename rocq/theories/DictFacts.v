(** Facts about dictionary stamps. *)
From Verif Require Import Base BaseFacts FloatModel Arithm Sim ArithSpec ArithFacts StampDict DictWords PickFacts.

(** The widths that occur and the type of the oracle. *)
Definition oracle_type (size : Z) : arith :=
  if size =? 1 then UChar else if size =? 2 then UShort else if size =? 4 then UInt else ULLong.

Lemma choose_cases d :
  ChooseStampSize d = if zlen d <=? 256 then (1, 255) else if zlen d <=? 65536 then (2, 65535) else (8, 2 ^ 64 - 1).
Proof.
  unfold ChooseStampSize, dict_size. change (255 + 1) with 256. change (65535 + 1) with 65536.
  change ((4294967295 + 1) mod 2 ^ 32) with 0.
  destruct (Z.leb_spec (zlen d) 256); [reflexivity|]. destruct (Z.leb_spec (zlen d) 65536); [reflexivity|].
  destruct (Z.leb_spec (zlen d) 0); [lia|reflexivity].
Qed.

Lemma sized_oracle_eq {B} `{BlobOps B} n : n = 1 \/ n = 2 \/ n = 4 \/ n = 8 ->
  sized_oracle (B := B) n = ExtractValue (oracle_type n) /\ sizeof (oracle_type n) = n
  /\ lowest (oracle_type n) = 0 /\ highest (oracle_type n) = 2 ^ (8 * n) - 1.
Proof. intros [->|[->|[->| ->]]]; repeat split; reflexivity. Qed.

Lemma list_sized_oracle n (l : bytes) : n = 1 \/ n = 2 \/ n = 4 \/ n = 8 -> n <= zlen l ->
  exists o, sized_oracle n l = (Ok o, skipn (Z.to_nat n) l) /\ 0 <= o <= 2 ^ (8 * n) - 1
    /\ o = decode (oracle_type n) (firstn (Z.to_nat n) l).
Proof.
  intros Hn Hl. destruct (sized_oracle_eq (B := bytes) n Hn) as (E & S & L & U).
  rewrite E. exists (decode (oracle_type n) (firstn (Z.to_nat n) l)).
  rewrite list_ExtractValue by lia. rewrite S. split; [reflexivity|].
  assert (D : zlen (firstn (Z.to_nat n) l) = sizeof (oracle_type n)) by (rewrite zlen_firstn; lia).
  destruct (decode_bits (oracle_type n) _ D) as [_ R]. rewrite L, U in R. split; [exact R|reflexivity].
Qed.

Lemma list_sized_oracle_ood n (l : bytes) : n = 1 \/ n = 2 \/ n = 4 \/ n = 8 -> zlen l < n ->
  sized_oracle n l = (OutOfData, l).
Proof.
  intros Hn Hl. destruct (sized_oracle_eq (B := bytes) n Hn) as (E & S & _).
  rewrite E. apply list_ExtractValue_ood. lia.
Qed.

(** Every oracle value has bytes. *)
Lemma sized_oracle_bytes n o : n = 1 \/ n = 2 \/ n = 4 \/ n = 8 -> 0 <= o <= 2 ^ (8 * n) - 1 ->
  exists front : bytes, zlen front = n /\ forall rest : bytes, sized_oracle (B := bytes) n (front ++ rest) = (Ok o, rest).
Proof.
  intros Hn Ho. destruct (sized_oracle_eq (B := bytes) n Hn) as (E & S & L & U).
  assert (R : represents (oracle_type n) o (encode (oracle_type n) o)) by (apply encode_represents; lia).
  exists (encode (oracle_type n) o). destruct R as [R1 R2]. rewrite width_sizeof, S in R1. split; [exact R1|].
  intros rest. rewrite E. rewrite list_ExtractValue by (rewrite S, zlen_app; pose proof (zlen_nonneg rest); lia).
  assert (Hnn : Z.to_nat (sizeof (oracle_type n)) = length (encode (oracle_type n) o)) by (unfold zlen in R1; lia).
  rewrite Hnn, firstn_app, skipn_app, Nat.sub_diag, firstn_all, skipn_all, app_nil_r.
  rewrite (represents_decode (oracle_type n) o) by (apply encode_represents; lia). reflexivity.
Qed.

Lemma dict_width d : let n := DictMinSize d in (n = 1 \/ n = 2 \/ n = 4 \/ n = 8)
  /\ ChooseStampSize d = (n, 2 ^ (8 * n) - 1).
Proof.
  cbv zeta. unfold DictMinSize. rewrite choose_cases.
  destruct (zlen d <=? 256); [split; [auto|reflexivity]|].
  destruct (zlen d <=? 65536); split; auto; reflexivity.
Qed.

Lemma dict_get_ok d i : 0 <= i < zlen d -> exists w, dict_get d i = Ok w /\ nth_error d (Z.to_nat i) = Some w.
Proof.
  intros Hi. unfold dict_get, dict_size. replace (i <? zlen d) with true by lia.
  destruct (nth_error d (Z.to_nat i)) as [w|] eqn:E; [exists w; split; reflexivity|].
  apply nth_error_None in E. unfold zlen in Hi. lia.
Qed.

Lemma list_dict d (l : bytes) : d <> [] -> zlen d <= 2 ^ 53 -> DictMinSize d <= zlen l ->
  exists w, In w d /\ DictExtractStr d l = (Ok w, skipn (Z.to_nat (DictMinSize d)) l).
Proof.
  intros Hd Hs Hl. destruct (dict_width d) as [Hn E]. unfold DictExtractStr. rewrite E.
  destruct (list_sized_oracle _ l Hn Hl) as (o & Eo & Ro & _).
  assert (L : 1 <= zlen d) by (destruct d; [congruence|rewrite zlen_cons; pose proof (zlen_nonneg d); lia]).
  assert (M : 1 <= 2 ^ (8 * DictMinSize d) - 1 < 2 ^ 64).
  { destruct Hn as [->|[->|[->| ->]]]; vm_compute; split; (discriminate || reflexivity). }
  destruct (pick_range o (2 ^ (8 * DictMinSize d) - 1) (zlen d) Ro M) as (i & Ei & Ri); [lia|].
  destruct (dict_get_ok d i Ri) as (w & Ew & Nw).
  exists w. split; [eapply nth_error_In; exact Nw|].
  rewrite (bind_ok _ _ _ _ _ Eo). rewrite (bind_lift_ok _ _ _ i) by exact Ei.
  rewrite u64_id by lia. unfold lift. rewrite Ew. reflexivity.
Qed.

Lemma list_dict_short d (l : bytes) : zlen l < DictMinSize d -> DictExtractStr d l = (OutOfData, l).
Proof.
  intros Hl. destruct (dict_width d) as [Hn E]. unfold DictExtractStr. rewrite E.
  apply bind_ood. apply list_sized_oracle_ood; assumption.
Qed.

Lemma list_dict_empty (l : bytes) : 1 <= zlen l -> fst (DictExtractStr [] l) = UB.
Proof.
  intros Hl. destruct (dict_width []) as [Hn E]. unfold DictExtractStr. rewrite E.
  change (DictMinSize []) with 1 in *.
  destruct (list_sized_oracle _ l Hn Hl) as (o & Eo & Ro & _).
  rewrite (bind_ok _ _ _ _ _ Eo). change (2 ^ (8 * 1) - 1) with 255 in *.
  rewrite (bind_lift_ok _ _ _ (-1)) by (apply pick_none; lia). reflexivity.
Qed.

Lemma dict_reach d i w : zlen d <= 2 ^ 52 -> nth_error d i = Some w ->
  exists front : bytes, zlen front = DictMinSize d
    /\ forall rest : bytes, DictExtractStr (B := bytes) d (front ++ rest) = (Ok w, rest).
Proof.
  intros Hd Hw.
  assert (Hi : (i < length d)%nat) by (apply nth_error_Some; congruence).
  assert (R : 0 <= Z.of_nat i < zlen d) by (unfold zlen; lia).
  destruct (dict_width d) as [Hn E].
  assert (P : exists o, 0 <= o <= 2 ^ (8 * DictMinSize d) - 1 /\
              pick_index o (2 ^ (8 * DictMinSize d) - 1) (zlen d) = Ok (Z.of_nat i)).
  { unfold DictMinSize. rewrite choose_cases.
    destruct (Z.leb_spec (zlen d) 256); [|destruct (Z.leb_spec (zlen d) 65536)]; cbn [fst].
    - change (2 ^ (8 * 1) - 1) with 255.
      destruct (Z.eq_dec (zlen d) 256) as [A|A]; [|destruct (Z.eq_dec (zlen d) 255) as [A'|A']].
      + rewrite A in *. apply (pick_reach_succ 8); lia.
      + rewrite A' in *. apply (pick_reach_eq 8); [auto|lia].
      + apply pick_reach_lt; lia.
    - change (2 ^ (8 * 2) - 1) with 65535.
      destruct (Z.eq_dec (zlen d) 65536) as [A|A]; [|destruct (Z.eq_dec (zlen d) 65535) as [A'|A']].
      + rewrite A in *. apply (pick_reach_succ 16); lia.
      + rewrite A' in *. apply (pick_reach_eq 16); [auto|lia].
      + apply pick_reach_lt; lia.
    - change (2 ^ (8 * 8) - 1) with (2 ^ 64 - 1). apply pick_reach_8; lia. }
  destruct P as (o & Ro & Po).
  destruct (sized_oracle_bytes _ o Hn Ro) as (front & Lf & Ef).
  exists front. split; [exact Lf|]. intros rest. unfold DictExtractStr. rewrite E.
  rewrite (bind_ok _ _ _ _ _ (Ef rest)). rewrite (bind_lift_ok _ _ _ (Z.of_nat i)) by exact Po.
  rewrite u64_id by lia. destruct (dict_get_ok d (Z.of_nat i) R) as (w' & Ew & Nw).
  rewrite Nat2Z.id in Nw. unfold lift. rewrite Ew. congruence.
Qed.

(** ** The built-in words *)
From Coq Require Import Sorted.
From Verif Require Import DictSpec.

Fixpoint beforeb (u v : bytes) : bool :=
  match u, v with
  | [], _ :: _ => true
  | a :: u', b :: v' => (bval a <? bval b) || ((bval a =? bval b) && beforeb u' v')
  | _, _ => false
  end.

Lemma beforeb_spec u v : beforeb u v = true -> before u v.
Proof.
  revert v. induction u as [|a u IH]; intros [|b v] H; try discriminate; [constructor|].
  cbn in H. apply orb_prop in H as [H|H]; [constructor; lia|].
  apply andb_prop in H as [H1 H2]. apply Z.eqb_eq, bval_inj in H1. subst b.
  apply before_next. apply IH. exact H2.
Qed.

Lemma before_irrefl u : ~ before u u.
Proof.
  induction u as [|a u IH]; intros H; inversion H; subst; [lia|]. exact (IH H1).
Qed.

Fixpoint sortedb (l : list bytes) : bool :=
  match l with
  | [] => true
  | w :: r => forallb (beforeb w) r && sortedb r
  end.

Lemma sortedb_spec l : sortedb l = true -> StronglySorted before l.
Proof.
  induction l as [|w l IH]; intros H; [constructor|]. cbn in H. apply andb_prop in H as [H1 H2].
  constructor; [apply IH; exact H2|]. rewrite Forall_forall. rewrite forallb_forall in H1.
  intros v Hv. apply beforeb_spec. apply H1. exact Hv.
Qed.

Lemma sorted_nodup l : StronglySorted before l -> NoDup l.
Proof.
  induction 1 as [|w l _ IH H]; constructor; [|exact IH].
  intros Hin. rewrite Forall_forall in H. exact (before_irrefl w (H w Hin)).
Qed.

Definition plainb (w : bytes) : bool :=
  negb (match w with [] => true | _ => false end)
  && forallb (fun c => (97 <=? bval c) && (bval c <=? 122)) w.

Lemma plainb_spec w : plainb w = true -> plain_word w.
Proof.
  unfold plainb, plain_word. intros H. apply andb_prop in H as [H1 H2]. split.
  - intros ->. discriminate.
  - rewrite forallb_forall in H2. rewrite Forall_forall. intros c Hc. specialize (H2 c Hc).
    unfold lower_case. lia.
Qed.

Lemma words_plain : Forall plain_word DictLCAlphaSmall.
Proof.
  rewrite Forall_forall. intros w Hw. apply plainb_spec.
  assert (C : forallb plainb DictLCAlphaSmall = true) by (vm_compute; reflexivity).
  rewrite forallb_forall in C. apply C. exact Hw.
Qed.

Lemma words_sorted : StronglySorted before DictLCAlphaSmall.
Proof. apply sortedb_spec. vm_compute. reflexivity. Qed.

Lemma words_count : zlen DictLCAlphaSmall = 254.
Proof. vm_compute. reflexivity. Qed.

Lemma some_dict n : 0 <= n -> exists d : list bytes, zlen d = n.
Proof. intros H. exists (repeat (lit "x") (Z.to_nat n)). rewrite zlen_repeat. lia. Qed.
