(** C68: the parts a galley hands out can be changed one by one. *)
From Verif Require Import Base BaseFacts Blob BlobSpec BlobFacts RunSpec RunFacts Oracle Arithm Galley StampText Sim SimGraph Stamps StampsEq LocalSpec LocalFacts LeafSpec
  TermSpec TermFacts NestFacts WeaveSpec WeaveFacts.

(** Both galleys read the division off the oracles and the amounts alone. *)
Theorem C68_galleys : (forall mn mx, divides_by_gaps (vector_extract mn mx)) /\ (forall L, divides_by_gaps (set_extract L)).
Proof. split; intros; apply fr_dbg; [apply fr_vector|apply fr_set]. Qed.
Print Assumptions C68_galleys.

(** So the values of the parts depend each on its own part. *)
Theorem C68_values :
  (forall A mn mx (ex : M blob A), local ex -> made_of_parts (Forall2 (makes ex)) (fun vals => vals) (ExtractVector mn mx ex))
  /\ (forall A (l : list (Z * Z * M blob A)), Forall (fun s => local (snd s)) l ->
        made_of_parts (each_makes (map snd l)) (fun vals => vals) (ExtractSet l)).
Proof. split; intros; [apply vector_parts|apply set_parts]; assumption. Qed.
Print Assumptions C68_values.

(** One element of a vector: its bytes can be replaced by as many others, which changes that value and no other. *)
Theorem C68_element : forall A mn mx (ex : M blob A) vals1 v vals2 b d rest, local ex -> holds b d ->
  runs (ExtractVector mn mx ex) b (Ok (vals1 ++ v :: vals2)) rest ->
  exists pre p post, d = pre ++ p ++ post ++ rest /\ makes ex p v /\
    forall p' v' rest' b', zlen p' = zlen p -> makes ex p' v' -> zlen rest' = zlen rest -> holds b' (pre ++ p' ++ post ++ rest') ->
      runs (ExtractVector mn mx ex) b' (Ok (vals1 ++ v' :: vals2)) rest'.
Proof.
  intros A mn mx ex vals1 v vals2 b d rest H Hb R.
  apply (one_part (Forall2 (makes ex)) (fun vals => vals) (ExtractVector mn mx ex) ex vals1 v vals2 b d rest); try assumption.
  - apply vector_parts. exact H.
  - auto.
  - apply Forall2_one.
Qed.
Print Assumptions C68_element.

(** Enumerators, texts, binary operators and sets in any graph: every operand or element is written from its own part. *)
Theorem C68_stamps : forall (h : heap blob), good_heap h ->
  (forall j y, tame_graph h y -> good_sx y -> made_of_parts (Forall2 (makes (ExtractStr h y))) j (ExtractStr h (XVec j y)))
  /\ (forall op x y, tame_graph h x -> tame_graph h y -> good_sx x -> good_sx y ->
        made_of_parts (each_makes [ExtractStr h x; ExtractStr h y]) (binary_text op) (ExtractStr h (XBinary op x y)))
  /\ (forall j xs, Forall (tame_graph h) xs -> Forall good_sx xs ->
        made_of_parts (each_makes (map (ExtractStr h) xs)) j (ExtractStr h (XSet j xs))).
Proof.
  intros h Hh. split; [|split].
  - intros j y T G b d r rest Hb R. pose proof R as (b' & E & _). apply (vec_iff h y j b r b' T (proj1 Hb)) in E as (mn & mx & _ & _ & E1 & E2 & _).
    exact (vec_parts h j y mn mx T Hh G E1 E2 b d r rest Hb R).
  - intros op x y Tx Ty Gx Gy. destruct (sizes_of h [x; y]) as [L| | | |] eqn:EL; [apply (binary_parts h op x y L); assumption| | | |];
      intros b d r rest Hb (b' & E & _); unfold ExtractStr in E; rewrite extract_binary, EL in E; discriminate E.
  - intros j xs T G. destruct (sizes_of h xs) as [L| | | |] eqn:EL; [apply (setx_parts h j xs L); assumption| | | |];
      intros b d r rest Hb (b' & E & _); unfold ExtractStr in E; rewrite extract_set, EL in E; discriminate E.
Qed.
Print Assumptions C68_stamps.

(** Two texts and two bytes left over; the second text is changed, then the rest too. *)
Example C68_case :
  let f s := ExtractVector 1 8 (Latin1ExtractStr (B := blob)) (blob_of (lit s)) in
  local (Latin1ExtractStr (B := blob)) /\ wf (blob_of (lit "0zabcd0zefghij"))
  /\ fst (f "0zabcd0zefghij"%string) = Ok [lit "abcd"; lit "efgh"] /\ content (snd (f "0zabcd0zefghij"%string)) = lit "ij"
  /\ makes Latin1ExtractStr (lit "WXYZ") (lit "WXYZ")
  /\ fst (f "0zabcd0zWXYZij"%string) = Ok [lit "abcd"; lit "WXYZ"] /\ content (snd (f "0zabcd0zWXYZ##"%string)) = lit "##".
Proof.
  cbn zeta. assert (L : local (Latin1ExtractStr (B := blob))) by (apply sim_local, sim_Latin1). split; [exact L|].
  split; [apply (holds_blob_of (lit "0zabcd0zefghij")); reflexivity|]. split; [vm_compute; reflexivity|]. split; [vm_compute; reflexivity|].
  split; [|split; vm_compute; reflexivity]. 
  apply (local_makes _ (blob_of (lit "WXYZ")) _ L); [apply (holds_blob_of (lit "WXYZ")); reflexivity|vm_compute; reflexivity].
Qed.
