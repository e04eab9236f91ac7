(** C45: hexdump prints every byte once, in lines of 16, inside its line buffer. *)
From Verif Require Import Base Blob BlobSpec RunSpec Hexdump HexdumpSpec HexdumpFacts RunFacts.

(** For fewer than 2^31 bytes [l], whatever lies behind them in memory ([more]) and whatever the
    uninitialised line buffer holds ([junk]), no write leaves the buffer, no read leaves [l], the loop
    ends and the lines are those of [dump_lines]; the lines determine the bytes. *)
Theorem C45_hexdump : forall junk l more, zlen l < 2 ^ 31 ->
  exists lines, hexdump junk (l ++ more) (zlen l) = Ok lines /\ dump_lines 0 l lines
    /\ zlen lines = (zlen l + 15) / 16
    /\ forall l', dump_lines 0 l' lines -> l' = l.
Proof.
  intros junk l more Hl. destruct (hexdump_spec junk l more Hl) as (ls & E & H).
  exists ls. split; [exact E|]. split; [exact H|]. split; [apply (dump_lines_count _ _ _ H)|].
  intros l' H'. apply (dump_lines_inj _ _ _ _ H' H).
Qed.
Print Assumptions C45_hexdump.

(** Blob::Dump prints the remaining bytes of the blob. *)
Theorem C45_dump : forall junk b l, holds b l -> zlen l < 2 ^ 31 ->
  exists lines, Dump junk b = Ok lines /\ dump_lines 0 l lines.
Proof. exact dump_run. Qed.
Print Assumptions C45_dump.

(** From 2^31 bytes on it never finishes: however many lines it is given, it is either still
    printing or has left its buffers. *)
Theorem C45_too_big : forall fuel junk data n lines, 2 ^ 31 <= n < 2 ^ 64 ->
  hexdump_loop fuel (szBuf junk) 0 n data <> Ok lines.
Proof. intros fuel junk data n lines. apply hexdump_big, szBuf_len. Qed.
Print Assumptions C45_too_big.

(** Between 2^31 and 2^32 bytes the first line already writes outside its buffer (or reads outside the
    data). *)
Theorem C45_overflow : forall junk data n, 2 ^ 31 <= n < 2 ^ 32 ->
  hexdump junk data n = UB.
Proof.
  intros junk data n Hn. unfold hexdump, u64. rewrite (Z.mod_small n) by lia.
  apply hexdump_neg; [apply szBuf_len|]. rewrite Z.mod_small; lia.
Qed.
Print Assumptions C45_overflow.

(** A negative size counts as one of 2^63 bytes or more: from -2^31 on the first line is already wrong. *)
Theorem C45_negative : forall junk data n, - 2 ^ 63 <= n < 0 ->
  (forall lines, hexdump junk data n <> Ok lines) /\ (- 2 ^ 31 <= n -> hexdump junk data n = UB).
Proof.
  intros junk data n Hn. unfold hexdump.
  assert (E : u64 n = n + 2 ^ 64) by (unfold u64; symmetry; apply (Z.mod_unique n (2 ^ 64) (-1)); lia).
  rewrite E. split.
  - intros lines. apply hexdump_big; [apply szBuf_len|]. lia.
  - intros H. apply hexdump_neg; [apply szBuf_len|].
    rewrite <- (Z.mod_unique (n + 2 ^ 64) (2 ^ 32) (2 ^ 32 - 1) (n + 2 ^ 32)) by lia. lia.
Qed.
Print Assumptions C45_negative.

Example dump17 : hexdump (fun _ => xff) (lit "Hello, world! abc" ++ [x00; x01]) 17
  = Ok [lit " >48656C6C 6F2C2077 6F726C64 21206162" ++ [x09; x09] ++ lit "Hello, world! ab 00000000" ++ [x0a];
        lit " >63" ++ [x09; x09] ++ lit "                                 c                00000010" ++ [x0a]].
Proof. vm_compute. reflexivity. Qed.

Example dump_blob : holds (blob_of (lit "abc")) (lit "abc") /\ zlen (lit "abc") < 2 ^ 31.
Proof. split; [apply holds_blob_of; reflexivity|reflexivity]. Qed.
