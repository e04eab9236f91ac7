(** C58: console_demo/pulp2json. *)
From Verif Require Import Base BaseFacts Blob BlobSpec BlobFacts RunSpec RunFacts LocalSpec Prop_Locality Json JsonSpec JsonGrammar JsonFacts Prop_Json Pulp PulpSpec PulpFacts.
Local Open Scope Z_scope.

(** A file of 10 to 393231 bytes: one line, the text of a tree drawn from the file, in printable
    characters; it is JSON unless the tree has a double that is not finite. *)
Theorem C58_json : forall fs prog name args d, opens fs name = Some d -> stats fs name = Some (zlen d) -> 10 <= zlen d <= 393231 ->
  exists s t, pulp2json fs (prog :: name :: args) = Ok (Exits 0 (s ++ [nl]) [])
    /\ (forall b, holds b d -> exists rest, runs JSONExtractStr b (Ok s) rest)
    /\ Forall printable s /\ text t s /\ drawn d t
    /\ (json_text (s ++ [nl]) <-> Forall finite (doubles t)).
Proof.
  intros fs prog name args d Ho Hs Hd. unfold pulp2json, GetFileSize. rewrite Ho, Hs. destruct (read_padded d (zlen d) ltac:(lia)) as (l & E & P).
  apply padded_same in P. subst l. destruct (make_buffer (zlen d)) as [z| | | |]; try discriminate E. cbn [rbind] in *. rewrite E. cbn [rbind].
  assert (Hb : holds (newBlob d (Some 0) (zlen d)) d) by (apply (holds_blob_of d); lia).
  destruct (C37_total _ d Hb Hd) as (s & rest & b' & R & W & L). destruct (C38_json _ d s b' Hb R) as (t & T & D & _).
  assert (PW := drawn_words d t D). assert (PS := proj1 print_text t s T PW).
  exists s, t. rewrite R. cbn [fst rbind]. rewrite (c_str_all s PS). split; [reflexivity|]. split; [|split; [exact PS|split; [exact T|split; [exact D|exact (line_iff t s T PW)]]]].
  intros b B. destruct (C37_total b d B Hd) as (s2 & rest2 & R2). exists rest2.
  destruct (C42_json (newBlob d (Some 0) (zlen d)) b) as [Q _]; [apply Hb|apply B|rewrite (proj2 Hb), (proj2 B); reflexivity|].
  destruct R2 as (b2 & R2 & H2). rewrite R, R2 in Q. cbn [fst] in Q. injection Q as <-. exists b2. split; assumption.
Qed.
Print Assumptions C58_json.

(** A file whose size changed between stat() and the reading counts as cut, or continued with zeros. *)
Theorem C58_changed : forall fs prog name args d n, opens fs name = Some d -> stats fs name = Some n -> 0 < n < 2 ^ 63 ->
  exists l, padded d n l /\ forall fs', opens fs' name = Some l -> stats fs' name = Some (zlen l) -> pulp2json fs (prog :: name :: args) = pulp2json fs' (prog :: name :: args).
Proof.
  intros fs prog name args d n Ho Hs Hn. destruct (read_padded d n Hn) as (l & E & P). exists l. split; [exact P|]. intros fs' Ho' Hs'.
  destruct (read_padded l (zlen l)) as (l' & E' & P'); [rewrite (proj1 P); exact Hn|]. apply padded_same in P'. subst l'.
  unfold pulp2json, GetFileSize. rewrite Ho, Hs, Ho', Hs'.
  destruct (make_buffer n) as [z| | | |]; try discriminate E. destruct (make_buffer (zlen l)) as [z'| | | |]; try discriminate E'. cbn [rbind] in *. rewrite E, E'. reflexivity.
Qed.
Print Assumptions C58_changed.

(** All the other cases: how it ends without a line. *)
Theorem C58_refuses : forall fs argv, zlen argv < 2 ->
  exists message, pulp2json fs argv = Ok (Exits 1 [] message) /\ message <> [].
Proof.
  intros fs argv H. destruct argv as [|a [|c argv]]; [| |rewrite !zlen_cons in H; pose proof (zlen_nonneg argv); lia]; (eexists; split; [reflexivity|discriminate]).
Qed.
Print Assumptions C58_refuses.

Theorem C58_unopened : forall fs prog name args, opens fs name = None ->
  pulp2json fs (prog :: name :: args) = Ok (Exits 1 [] (lit "Unable to open file '" ++ name ++ lit "'" ++ [nl])).
Proof. intros fs prog name args H. unfold pulp2json. rewrite H. reflexivity. Qed.
Print Assumptions C58_unopened.

(** stat() fails: length_error.  An empty file: undefined.  Too small a file: OutOfData, which nobody catches. *)
Theorem C58_fails : forall fs prog name args d, opens fs name = Some d ->
  (stats fs name = None -> pulp2json fs (prog :: name :: args) = Abort)
  /\ (stats fs name = Some 0 -> pulp2json fs (prog :: name :: args) = UB)
  /\ (forall n, stats fs name = Some n -> 0 < n < 10 -> pulp2json fs (prog :: name :: args) = OutOfData).
Proof.
  intros fs prog name args d Ho. unfold pulp2json, GetFileSize. rewrite Ho. split; [intros ->; reflexivity|]. split; [intros ->; reflexivity|].
  intros n -> Hn. destruct (read_padded d n ltac:(lia)) as (l & E & P & _). destruct (make_buffer n) as [z| | | |]; try discriminate E. cbn [rbind] in *. rewrite E. cbn [rbind].
  assert (Hb : holds (newBlob l (Some 0) (zlen l)) l) by (apply (holds_blob_of l); lia). destruct (C37_short _ l Hb ltac:(lia)) as (rest & b' & R & _). rewrite R. reflexivity.
Qed.
Print Assumptions C58_fails.

(** One byte more than in the first theorem, and on to 24 GiB: some files of every size make the behaviour undefined. *)
Theorem C58_limit : forall n, 393232 <= n <= 25768624155 -> exists d, zlen d = n /\ forall fs prog name args, opens fs name = Some d -> stats fs name = Some n ->
  pulp2json fs (prog :: name :: args) = UB.
Proof.
  intros n Hn. destruct (C37_limit n Hn) as (d & Ld & U). exists d. split; [exact Ld|]. intros fs prog name args Ho Hs. unfold pulp2json, GetFileSize. rewrite Ho, Hs.
  rewrite <- Ld in *. destruct (read_padded d (zlen d) ltac:(lia)) as (l & E & P). apply padded_same in P. subst l. destruct (make_buffer (zlen d)) as [z| | | |]; try discriminate E.
  cbn [rbind] in *. rewrite E. cbn [rbind]. change (newBlob d (Some 0) (zlen d)) with (blob_of d). rewrite (U _ (holds_blob_of d ltac:(lia))). reflexivity.
Qed.
Print Assumptions C58_limit.

Example C58_case : let fs := mkFiles (fun _ => Some array_data) (fun _ => Some 20) in
  pulp2json fs [lit "pulp2json"; lit "buf"] = Ok (Exits 0 (lit "[-1]" ++ [nl]) [])
  /\ pulp2json fs [lit "pulp2json"] = Ok (Exits 1 [] (lit "Please specify input file name as first argument" ++ [nl]))
  /\ pulp2json (mkFiles (fun _ => Some nan_data) (fun _ => Some 10)) [lit "pulp2json"; lit "buf"] = Ok (Exits 0 (lit "nan" ++ [nl]) [])
  /\ pulp2json (mkFiles (fun _ => Some array_data) (fun _ => Some 9)) [lit "pulp2json"; lit "buf"] = OutOfData
  /\ padded (lit "ab") 4 (lit "ab" ++ [x00; x00]).
Proof.
  cbv zeta. split; [vm_compute; reflexivity|]. split; [reflexivity|]. split; [vm_compute; reflexivity|]. split; [vm_compute; reflexivity|].
  split; [reflexivity|]. intros i Hi. assert (C : i = 0 \/ i = 1 \/ i = 2 \/ i = 3) by lia. destruct C as [-> |[-> |[-> | ->]]]; reflexivity.
Qed.
