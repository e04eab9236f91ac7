(** C57: points, lines and the programs examples/example01.cpp to example08.cpp. *)
From Verif Require Import Base BaseFacts Blob BlobSpec BlobFacts RunSpec RunFacts ArithSpec Fmt Arithm ArithFacts LocalSpec LocalFacts Prop_Locality TextSpec
  Galley LoadSpec LoadFacts VectorFacts Stamps Prop_Load Prop_Vector Points PointsSpec PointsFacts.
Local Open Scope Z_scope.

(** Every way of extracting a point takes the same six bytes for the same point. *)
Theorem C57_point : forall b p d rest, point_data p d -> holds b (d ++ rest) ->
  runs PointExtractValue b (Ok p) rest
  /\ (exists s, runs PointExtractStr b (Ok s) rest /\ point_text p s)
  /\ runs PointExtractBin b (Ok d) rest
  /\ runs PointExtractPValue b (Ok (d, 6)) rest
  /\ PointMinSize = 6 /\ PointMaxSize = 6.
Proof.
  intros b p d rest P Hb. split; [exact (point_value b p d rest P Hb)|]. split; [exists (point_str p); split; [exact (point_string b p d rest P Hb)|apply point_str_text]|].
  split; [|split; [|split; reflexivity]]; unfold PointExtractBin, PointExtractPValue; (eapply runs_bind; [exact (point_value b p d rest P Hb)|]);
    intros b' Hb'; rewrite (point_bytes_data p d P); apply runs_ret; exact Hb'.
Qed.
Print Assumptions C57_point.

(** Any six bytes are a point, and no two points have the same bytes; any three short ints are one. *)
Theorem C57_bytes : (forall d, zlen d = 6 -> exists p, point_data p d /\ short_point p /\ forall q, point_data q d -> q = p)
  /\ (forall p, short_point p -> exists d, zlen d = 6 /\ point_data p d).
Proof.
  split.
  - intros d H. destruct (point_ex d H) as (p & P & S). exists p. split; [exact P|]. split; [exact S|]. intros q Q. exact (point_inj q p d Q P).
  - intros [x y z] (Hx & Hy & Hz). cbn [pX pY pZ] in *.
    assert (P : point_data (mkPoint x y z) (encode Short x ++ encode Short y ++ encode Short z)).
    { exists (encode Short x), (encode Short y), (encode Short z). split; [reflexivity|]. cbn [pX pY pZ]. split; [|split]; apply encode_represents; cbn; lia. }
    eexists. split; [exact (point_data_len _ _ P)|exact P].
Qed.
Print Assumptions C57_bytes.

(** Fewer bytes: OutOfData, but the coordinates that are there are gone. *)
Theorem C57_short : forall b l, holds b l -> zlen l < 6 ->
  let rest := skipn (Z.to_nat (2 * (zlen l / 2))) l in
  runs PointExtractValue b OutOfData rest /\ runs PointExtractStr b OutOfData rest
  /\ runs PointExtractBin b OutOfData rest /\ runs PointExtractPValue b OutOfData rest.
Proof.
  intros b l Hb H. cbv zeta. destruct (point_short b l Hb H) as [H1 H2]. cbv zeta in H1, H2. repeat split; try assumption; unfold PointExtractBin, PointExtractPValue; apply runs_bind_ood; exact H1.
Qed.
Print Assumptions C57_short.

(** Galleys and lines: one point after the other, as long as there are six bytes; the rest stays. *)
Theorem C57_line : forall b ps ds rest, Forall2 point_data ps ds -> ps <> [] -> zlen rest < 6 -> holds b (concat ds ++ rest) ->
  runs PointValuesVector b (Ok ps) rest
  /\ (exists texts, runs PointStrVector b (Ok texts) rest /\ Forall2 point_text ps texts)
  /\ (exists s, runs PolyLineExtractStr b (Ok s) rest /\ line_text (lit ", ") ps s)
  /\ (exists s, runs PolyLineEnumExtractStr b (Ok s) rest /\ line_text (lit ",") ps s).
Proof.
  intros b ps ds rest F N L Hb. assert (Nd : ds <> []) by (intros ->; inversion F; congruence). pose proof (strs_run b ps ds rest F Nd L Hb) as R.
  split; [exact (values_run b ps ds rest F Nd L Hb)|]. split; [|split].
  - exists (map point_str ps). split; [exact R|apply texts_str; reflexivity].
  - eexists. split; [unfold PolyLineExtractStr; eapply runs_bind; [exact R|]; intros b' Hb'; apply runs_ret; exact Hb'|].
    apply line_text_str. rewrite poly_loop_join. change (fold_left (StampText.join_step (lit ", ")) (map point_str ps) []) with (StampText.join_loop (lit ", ") (map point_str ps)).
    rewrite join_points. reflexivity.
  - eexists. split; [unfold runs; rewrite enum_is; apply (runs_bind _ _ b (map point_str ps) rest _ rest R); intros b' Hb'; apply runs_ret; exact Hb'|].
    apply line_text_str. unfold StampText.enum_text. rewrite join_points. reflexivity.
Qed.
Print Assumptions C57_line.

(** All data are of that form, in one way; so there are Size()/6 points. *)
Theorem C57_number : forall l, exists ps ds rest, l = concat ds ++ rest /\ Forall2 point_data ps ds /\ zlen rest < 6 /\ zlen ps = zlen l / 6.
Proof.
  intros l. destruct (Z_lt_le_dec (zlen l) 6) as [C|C].
  - exists [], [], l. pose proof (zlen_nonneg l). rewrite Z.div_small by lia. repeat split; [constructor|exact C].
  - assert (K : forall n (l : bytes), zlen l < Z.of_nat n -> exists ds rest, l = concat ds ++ rest /\ Forall (fun d => zlen d = 6) ds /\ zlen rest < 6).
    { induction n as [|n IH]; intros m H; [pose proof (zlen_nonneg m); lia|]. destruct (Z_lt_le_dec (zlen m) 6) as [D|D]; [exists [], m; repeat split; [constructor|exact D]|].
      destruct (list_split m 6 ltac:(lia)) as (d & t & -> & Ld). rewrite zlen_app in H. destruct (IH t ltac:(lia)) as (ds & rest & -> & F & Lr).
      exists (d :: ds), rest. cbn [concat]. rewrite <- app_assoc. repeat split; [constructor; assumption|exact Lr]. }
    destruct (K (S (Z.to_nat (zlen l))) l ltac:(lia)) as (ds & rest & -> & F & Lr). destruct (points_ex ds F) as (ps & P & _).
    exists ps, ds, rest. repeat split; try assumption. rewrite zlen_app, (concat_len 6 ds F), Z.mul_comm, Z.div_add_l by lia.
    rewrite (Z.div_small (zlen rest)) by (pose proof (zlen_nonneg rest); lia).
    clear - P. assert (Q : zlen ps = zlen ds) by (induction P; [reflexivity|unfold zlen in *; cbn [length]; lia]). rewrite Z.add_0_r. exact Q.
Qed.
Print Assumptions C57_number.

(** Fewer than six bytes: nothing is taken. *)
Theorem C57_line_short : forall b l, holds b l -> zlen l < 6 ->
  runs PointValuesVector b OutOfData l /\ runs PointStrVector b OutOfData l
  /\ runs PolyLineExtractStr b OutOfData l /\ runs PolyLineEnumExtractStr b OutOfData l.
Proof.
  intros b l Hb H. split; [apply line_short; assumption|]. split; [apply line_short; assumption|]. split; [apply runs_bind_ood; apply line_short; assumption|].
  unfold runs. rewrite enum_is. apply (runs_bind_ood PointStrVector). apply line_short; assumption.
Qed.
Print Assumptions C57_line_short.

(** The text tells the points. *)
Theorem C57_readable : forall sep ps qs s, (sep = lit ", " \/ sep = lit ",") -> line_text sep ps s -> line_text sep qs s -> ps = qs.
Proof.
  intros sep ps qs s Hs H1 H2. apply line_text_str in H1. apply line_text_str in H2. rewrite H1 in H2. apply app_inv_head in H2.
  apply (read_line sep); [|exact H2]. destruct Hs as [-> | ->]; eexists; eexists; (split; [reflexivity|discriminate]).
Qed.
Print Assumptions C57_readable.

(** ** The programs, with any string in their array [data] *)

(** example01 and example01a print the same: sizes, first number, rest of the string. *)
Theorem C57_example01 : forall v r rest post, represents Short v r -> Forall (fun c => bval c <> 0) (r ++ rest) -> zlen ((r ++ rest) ++ x00 :: post) < 2 ^ 63 ->
  exists s, read_int s = Some v /\ example01 ((r ++ rest) ++ x00 :: post) = Ok (2, 2, s, rest) /\ example01a ((r ++ rest) ++ x00 :: post) = Ok (2, 2, s, rest).
Proof.
  intros v r rest post R F H. destruct (data_blob_ok _ post F H) as (b & E & Hb). exists (fmt_int v). split; [apply read_int_fmt|].
  unfold example01, example01a. rewrite E. cbn [rbind]. split.
  - destruct (short_str b v r rest R Hb) as (b' & E' & W & L). rewrite E'. cbn [fst snd rbind]. rewrite (asString_ok b' W), L. reflexivity.
  - destruct (load_short_stamp 0 (fun _ => None) b r rest (short_len _ _ R) Hb) as (c & (b' & E' & W & L) & Hc). change (sizeof Short) with 2. rewrite E'. cbn [fst snd rbind].
    unfold Unload, loads_set. cbn [Nat.eqb]. cbv zeta. cbn [fst].
    rewrite (runs_fst _ _ _ [] (short_str c v r [] R ltac:(rewrite app_nil_r; exact Hc))). cbn [rbind]. rewrite (asString_ok b' W), L. reflexivity.
Qed.
Print Assumptions C57_example01.

(** example02 and example02a print the same: four numbers in four forms. *)
Theorem C57_example02 : forall v1 v2 v3 v4 r1 c d r3 r4 rest post, represents Short v1 r1 -> represents Short v2 [c; d] -> represents Short v3 r3 -> represents Short v4 r4 ->
  let l := r1 ++ [c; d] ++ r3 ++ r4 ++ rest in Forall (fun c => bval c <> 0) l -> zlen (l ++ x00 :: post) < 2 ^ 63 ->
  exists s, read_int s = Some v1 /\ example02 (l ++ x00 :: post) = Ok (s, c, d, v3, v4) /\ example02a (l ++ x00 :: post) = Ok (s, c, d, v3, v4).
Proof.
  intros v1 v2 v3 v4 r1 c d r3 r4 rest post R1 R2 R3 R4 l F H. destruct (data_blob_ok l post F H) as (b & E & Hb). exists (fmt_int v1). split; [apply read_int_fmt|].
  unfold example02, example02a. rewrite E. cbn [rbind]. unfold l in Hb. pose proof (represents_decode _ _ _ R4) as D4. split.
  - apply (runs_fst _ _ _ rest). eapply runs_bind; [exact (short_str _ _ _ _ R1 Hb)|]. intros b1 H1.
    eapply runs_bind; [exact (proj1 (short_bin _ _ _ _ R2 H1))|]. intros b2 H2. eapply runs_bind; [exact (short_val _ _ _ _ R3 H2)|]. intros b3 H3.
    eapply runs_bind; [exact (proj2 (short_bin _ _ _ _ R4 H3))|]. intros b4 H4. cbn [vec_at nth_error fst]. rewrite D4.
    exists b4. split; [reflexivity|exact H4].
  - change (sizeof Short) with 2.
    assert (Q : exists k1 k2 k3 k4, fst ((st1 <- LoadInto 0 2 2 (fun _ => None) ;; st2 <- LoadInto 1 2 2 st1 ;; st3 <- LoadInto 2 2 2 st2 ;; LoadInto 3 2 2 st3) b)
      = Ok (loads_set (loads_set (loads_set (loads_set (fun _ => None) 0 (Some k1)) 1 (Some k2)) 2 (Some k3)) 3 (Some k4))
      /\ holds k1 r1 /\ holds k2 [c; d] /\ holds k3 r3 /\ holds k4 r4).
    { destruct (load_short_stamp 0 (fun _ => None) b r1 _ (short_len _ _ R1) Hb) as (k1 & (b1 & E1 & H1) & K1).
      destruct (load_short_stamp 1 (loads_set (fun _ => None) 0 (Some k1)) b1 [c; d] _ eq_refl H1) as (k2 & (b2 & E2 & H2) & K2).
      destruct (load_short_stamp 2 (loads_set (loads_set (fun _ => None) 0 (Some k1)) 1 (Some k2)) b2 r3 _ (short_len _ _ R3) H2) as (k3 & (b3 & E3 & H3) & K3).
      destruct (load_short_stamp 3 (loads_set (loads_set (loads_set (fun _ => None) 0 (Some k1)) 1 (Some k2)) 2 (Some k3)) b3 r4 _ (short_len _ _ R4) H3) as (k4 & (b4 & E4 & H4) & K4).
      exists k1, k2, k3, k4. split; [|repeat split; apply K1 || apply K2 || apply K3 || apply K4].
      rewrite (bind_ok _ _ _ _ _ E1), (bind_ok _ _ _ _ _ E2), (bind_ok _ _ _ _ _ E3), E4. reflexivity. }
    destruct Q as (k1 & k2 & k3 & k4 & Q & K1 & K2 & K3 & K4). rewrite Q. cbn [rbind].
    assert (U1 := runs_fst _ _ _ [] (short_str k1 v1 r1 [] R1 ltac:(rewrite app_nil_r; exact K1))).
    assert (U2 := runs_fst _ _ _ [] (proj1 (short_bin k2 v2 [c; d] [] R2 ltac:(rewrite app_nil_r; exact K2)))).
    assert (U3 := runs_fst _ _ _ [] (short_val k3 v3 r3 [] R3 ltac:(rewrite app_nil_r; exact K3))).
    assert (U4 := runs_fst _ _ _ [] (proj2 (short_bin k4 v4 r4 [] R4 ltac:(rewrite app_nil_r; exact K4)))).
    unfold Unload, loads_set. cbn [Nat.eqb fst snd]. rewrite U1. cbn [rbind]. rewrite U2. cbn [rbind]. rewrite U3. cbn [rbind]. rewrite U4. cbn [rbind].
    cbn [vec_at nth_error rbind fst]. rewrite D4. reflexivity.
Qed.
Print Assumptions C57_example02.

(** The others: two points; all the points. *)
Theorem C57_example04 : forall p q d1 d2 rest post, point_data p d1 -> point_data q d2 ->
  let l := d1 ++ d2 ++ rest in Forall (fun c => bval c <> 0) l -> zlen (l ++ x00 :: post) < 2 ^ 63 ->
  exists s, point_text p s /\ example03 (l ++ x00 :: post) = Ok s /\ example04 (l ++ x00 :: post) = Ok (s, q).
Proof.
  intros p q d1 d2 rest post P Q l F H. destruct (data_blob_ok l post F H) as (b & E & Hb). exists (point_str p). split; [apply point_str_text|].
  unfold example03, example04. rewrite E. cbn [rbind]. unfold l in Hb. split; [exact (runs_fst _ _ _ _ (point_string b p d1 _ P Hb))|].
  apply (runs_fst _ _ _ rest). eapply runs_bind; [exact (point_string b p d1 _ P Hb)|]. intros b1 H1.
  eapply runs_bind; [exact (point_value b1 q d2 _ Q H1)|]. intros b2 H2. apply runs_ret. exact H2.
Qed.
Print Assumptions C57_example04.

Theorem C57_example08 : forall ps ds rest post, Forall2 point_data ps ds -> ps <> [] -> zlen ps < 2 ^ 31 -> zlen rest < 6 ->
  let l := concat ds ++ rest in Forall (fun c => bval c <> 0) l -> zlen (l ++ x00 :: post) < 2 ^ 63 ->
  (exists texts, example05 (l ++ x00 :: post) = Ok texts /\ Forall2 point_text ps texts)
  /\ example06 (l ++ x00 :: post) = Ok ps
  /\ (exists s, example07 (l ++ x00 :: post) = Ok s /\ line_text (lit ", ") ps s)
  /\ (exists s, example08 (l ++ x00 :: post) = Ok s /\ line_text (lit ",") ps s).
Proof.
  intros ps ds rest post P N Np L l F H. destruct (data_blob_ok l post F H) as (b & E & Hb).
  destruct (C57_line b ps ds rest P N L Hb) as (H6 & (texts & H5 & T5) & (s7 & H7 & T7) & (s8 & H8 & T8)).
  unfold example05, example06, example07, example08. rewrite E. cbn [rbind].
  rewrite (runs_fst _ _ _ _ H5), (runs_fst _ _ _ _ H6), (runs_fst _ _ _ _ H7), (runs_fst _ _ _ _ H8). cbn [rbind].
  split; [exists texts; split; [reflexivity|exact T5]|]. split; [|split; [exists s7; split; [reflexivity|exact T7]|exists s8; split; [reflexivity|exact T8]]].
  destruct ps as [|p ps]; [congruence|]. f_equal. rewrite i32_id by (pose proof (zlen_nonneg (p :: ps)); lia). unfold zlen. rewrite Nat2Z.id. apply firstn_all.
Qed.
Print Assumptions C57_example08.

(** A string that is too short ends them with the exception. *)
Theorem C57_example_short : forall pre post, Forall (fun c => bval c <> 0) pre -> zlen (pre ++ x00 :: post) < 2 ^ 63 ->
  let data := pre ++ x00 :: post in
  (zlen pre < 2 -> example01 data = OutOfData /\ example01a data = OutOfData)
  /\ (zlen pre < 8 -> example02 data = OutOfData /\ example02a data = OutOfData)
  /\ (zlen pre < 6 -> example03 data = OutOfData /\ example05 data = OutOfData /\ example06 data = OutOfData /\ example07 data = OutOfData /\ example08 data = OutOfData)
  /\ (zlen pre < 12 -> example04 data = OutOfData).
Proof.
  intros pre post F H data. destruct (data_blob_ok pre post F H) as (b & E & Hb).
  unfold example01, example01a, example02, example02a, example03, example04, example05, example06, example07, example08. unfold data. rewrite E. cbn [rbind].
  split; [|split; [|split]]; intros L.
  - destruct (short_fail b pre Hb L) as (_ & S & _). change (sizeof Short) with 2. rewrite (runs_fst _ _ _ _ S), (runs_fst _ _ _ _ (load_fail 0 (fun _ => None) b pre Hb L)). split; reflexivity.
  - split.
    + assert (K : exists rest, runs (s <- ArithExtractStr Short;; vec <- ArithExtractBin Short;; i <- ExtractValue Short;; spi <- ArithExtractPValue Short;;
        v0 <- lift (vec_at vec 0);; v1 <- lift (vec_at vec 1);; ret (s, v0, v1, i, decode Short (fst spi))) b OutOfData rest); [|destruct K as (rest & K); exact (runs_fst _ _ _ _ K)].
      destruct (Z_lt_le_dec (zlen pre) 2) as [C|C]; [exists pre; apply runs_bind_ood; apply short_fail; assumption|].
      destruct (short_split b pre Hb C) as (v1 & r1 & l1 & -> & L1 & R1). rewrite zlen_app in L.
      destruct (short_str b v1 r1 l1 R1 Hb) as (b1 & E1 & H1).
      destruct (Z_lt_le_dec (zlen l1) 2) as [C1|C1]; [exists l1; eapply runs_bind; [exists b1; split; [exact E1|exact H1]|]; intros b' Hb'; apply runs_bind_ood; apply short_fail; assumption|].
      destruct (short_split b1 l1 H1 C1) as (v2 & r2 & l2 & -> & L2 & R2). rewrite zlen_app in L.
      destruct (Z_lt_le_dec (zlen l2) 2) as [C2|C2].
      { exists l2. eapply runs_bind; [exists b1; split; [exact E1|exact H1]|]. intros b' Hb'. eapply runs_bind; [exact (proj1 (short_bin b' v2 r2 l2 R2 Hb'))|].
        intros b2 H2. apply runs_bind_ood. apply short_fail; assumption. }
      destruct (list_split l2 2 ltac:(lia)) as (r3 & l3 & -> & L3). rewrite zlen_app in L. destruct (short_ex r3 L3) as (v3 & R3 & _).
      exists l3. eapply runs_bind; [exists b1; split; [exact E1|exact H1]|]. intros b' Hb'. eapply runs_bind; [exact (proj1 (short_bin b' v2 r2 _ R2 Hb'))|].
      intros b2 H2. eapply runs_bind; [exact (short_val b2 v3 r3 l3 R3 H2)|]. intros b3 H3. apply runs_bind_ood. apply short_fail; [exact H3|lia].
    + change (sizeof Short) with 2.
      assert (K : exists rest, runs (st1 <- LoadInto 0 2 2 (fun _ => None);; st2 <- LoadInto 1 2 2 st1;; st3 <- LoadInto 2 2 2 st2;; LoadInto 3 2 2 st3) b OutOfData rest); [|destruct K as (rest & K); rewrite (runs_fst _ _ _ _ K); reflexivity].
      destruct (Z_lt_le_dec (zlen pre) 2) as [C|C]; [exists pre; apply runs_bind_ood; apply load_fail; assumption|].
      destruct (list_split pre 2 ltac:(lia)) as (r1 & l1 & -> & L1). rewrite zlen_app in L. destruct (load_short_stamp 0 (fun _ => None) b r1 l1 L1 Hb) as (k1 & M1 & _).
      destruct (Z_lt_le_dec (zlen l1) 2) as [C1|C1]; [exists l1; eapply runs_bind; [exact M1|]; intros b' Hb'; apply runs_bind_ood; apply load_fail; assumption|].
      destruct (list_split l1 2 ltac:(lia)) as (r2 & l2 & -> & L2). rewrite zlen_app in L.
      destruct (Z_lt_le_dec (zlen l2) 2) as [C2|C2].
      { exists l2. eapply runs_bind; [exact M1|]. intros b1 H1. destruct (load_short_stamp 1 (loads_set (fun _ => None) 0 (Some k1)) b1 r2 l2 L2 H1) as (k2 & M2 & _).
        eapply runs_bind; [exact M2|]. intros b2 H2. apply runs_bind_ood. apply load_fail; assumption. }
      destruct (list_split l2 2 ltac:(lia)) as (r3 & l3 & -> & L3). rewrite zlen_app in L. exists l3. eapply runs_bind; [exact M1|]. intros b1 H1.
      destruct (load_short_stamp 1 (loads_set (fun _ => None) 0 (Some k1)) b1 r2 _ L2 H1) as (k2 & M2 & _). eapply runs_bind; [exact M2|]. intros b2 H2.
      destruct (load_short_stamp 2 (loads_set (loads_set (fun _ => None) 0 (Some k1)) 1 (Some k2)) b2 r3 _ L3 H2) as (k3 & M3 & _). eapply runs_bind; [exact M3|]. intros b3 H3.
      apply load_fail; [exact H3|lia].
  - destruct (point_short b pre Hb L) as [_ S]. destruct (C57_line_short b pre Hb L) as (S6 & S5 & S7 & S8).
    rewrite (runs_fst _ _ _ _ S), (runs_fst _ _ _ _ S5), (runs_fst _ _ _ _ S6), (runs_fst _ _ _ _ S7), (runs_fst _ _ _ _ S8). repeat split.
  - destruct (Z_lt_le_dec (zlen pre) 6) as [C|C].
    + destruct (point_short b pre Hb C) as [_ S]. exact (runs_fst _ _ _ _ (runs_bind_ood _ _ _ _ S)).
    + destruct (list_split pre 6 ltac:(lia)) as (d & t & -> & Ld). rewrite zlen_app in L. destruct (point_ex d Ld) as (p & P & _).
      eapply runs_fst. eapply runs_bind; [exact (point_string b p d t P Hb)|]. intros b1 H1. destruct (point_short b1 t H1 ltac:(lia)) as [S _]. exact (runs_bind_ood _ _ _ _ S).
Qed.
Print Assumptions C57_example_short.

(** What the examples print. *)
Example C57_case : example07 (lit "abcdefabcdefABCDEF012345" ++ [x00])
    = Ok (lit "((25185, 25699, 26213), (25185, 25699, 26213), (16961, 17475, 17989), (12592, 13106, 13620))")
  /\ example02 (lit "abcdefjhi" ++ [x00]) = Ok (lit "25185", x63, x64, 26213, 26730)
  /\ point_data (mkPoint 25185 25699 26213) (lit "abcdef")
  /\ point_text (mkPoint 25185 25699 26213) (lit "(25185, 25699, 26213)")
  /\ fst (PointExtractValue (blob_of (lit "abcde"))) = OutOfData /\ content (snd (PointExtractValue (blob_of (lit "abcde")))) = lit "e".
Proof.
  split; [vm_compute; reflexivity|]. split; [vm_compute; reflexivity|]. split; [|split; [|vm_compute; split; reflexivity]].
  - exists (lit "ab"), (lit "cd"), (lit "ef"). split; [reflexivity|].
    split; [apply (encode_represents Short 25185)|split; [apply (encode_represents Short 25699)|apply (encode_represents Short 26213)]]; vm_compute; split; discriminate.
  - exists (lit "25185"), (lit "25699"), (lit "26213"). repeat split; vm_compute; reflexivity.
Qed.
