(** C61: objects in the zlib format. *)
From Verif Require Import Base GoStr Cid Types Nodes Reader Bufio Person Assemble Decode Encode Spec
  ReaderSpec StreamFacts PersonFacts DecodeFacts RoundTrip CommitFacts NumFacts Sim BufioFacts SafeOps SafeBufio NoEof
  Transfer Checks Props_reader Props_roundtrip Inflate InflateSpec InflateFacts InflateSound InflateTotal Zlib ZlibSpec ZlibFacts.
From Coq Require Import PeanoNat Lia ZArith.

(** ** The format *)
Theorem zlib_streams_are_read : forall z e data,
  zlib_run (mk z e) = Ok (data, EEOF) <-> exists z' more, z = z' ++ more /\ zlib_of data z'.
Proof. exact zlib_run_iff. Qed.
Print Assumptions zlib_streams_are_read.

(** A stream stands for one text, and no stream is the beginning of another one. *)
Theorem zlib_streams_are_unambiguous : forall data data' z more,
  zlib_of data z -> zlib_of data' (z ++ more) -> data' = data /\ more = [].
Proof.
  intros data data' z more (h & d & c & -> & Hh & D & L & C) (h' & d' & c' & E & Hh' & D' & L' & C').
  rewrite <- !app_assoc in E.
  pose proof (zlib_new_ok h (d ++ c ++ more) EEOF Hh) as N. rewrite E in N.
  rewrite zlib_new_ok in N by exact Hh'. injection N as N.
  pose proof (inflate_ok data d (c ++ more) EEOF D) as I. rewrite <- N in I. rewrite (inflate_ok data' d' c' EEOF D') in I. injection I as -> ->.
  split; [reflexivity|]. rewrite app_length in L'. destruct more; [reflexivity|]. cbn in L'. lia.
Qed.
Print Assumptions zlib_streams_are_unambiguous.
(** [sample_zlib] below is such a stream. *)

(** Every text has a compressed form: without compression, for example. *)
Lemma bytes_of_bits : forall k bits, length bits = 8 * k -> exists d, all_bits d = bits.
Proof.
  induction k as [|k IH]; intros bits H.
  - exists []. destruct bits; [reflexivity|discriminate].
  - destruct bits as [|b0 [|b1 [|b2 [|b3 [|b4 [|b5 [|b6 [|b7 bits]]]]]]]]; try (cbn in H; lia).
    destruct (IH bits) as [d <-]; [cbn in H; lia|].
    exists (Byte.of_bits (b0, (b1, (b2, (b3, (b4, (b5, (b6, b7))))))) :: d). rewrite all_bits_cons. unfold bits_of. rewrite Byte.to_bits_of_bits. reflexivity.
Qed.
Lemma stored_blocks : forall n data pos before, length data <= n -> pos mod 8 = 0 ->
  exists bits, deflated pos before bits (before ++ data) /\ length bits mod 8 = 0.
Proof.
  induction n as [n IH] using lt_wf_ind. intros data pos before L P.
  set (c := firstn 1000 data).
  assert (length c < 2 ^ 16) as LC. { unfold c. rewrite firstn_length. change (2 ^ 16) with (64 * 1024). lia. }
  pose proof (Stored (S pos) before (repeat false 5) c) as B.
  assert ((S pos + 2 + length (repeat false 5)) mod 8 = 0) as A.
  { rewrite repeat_length. replace (S pos + 2 + 5) with (pos + 1 * 8) by lia. now rewrite Nat.mod_add by lia. }
  specialize (B A ltac:(cbn; lia) LC).
  set (b := [false; false] ++ repeat false 5 ++ low_first 16 (length c) ++ map negb (low_first 16 (length c)) ++ all_bits c) in *.
  assert (length b = 39 + 8 * length c) as LB by (unfold b; rewrite !app_length, map_length, low_first_len, all_bits_len; cbn [repeat length]; lia).
  destruct (skipn 1000 data) as [|x rest] eqn:E.
  - assert (c = data) as Ec by (rewrite <- (firstn_skipn 1000 data), E, app_nil_r; reflexivity). rewrite Ec in B.
    exists (true :: b). split; [now constructor|]. cbn [length]. rewrite LB. replace (S (39 + 8 * length c)) with ((5 + length c) * 8) by lia. apply Nat.mod_mul. lia.
  - assert (length data = 1000 + length (x :: rest)) as LD. { rewrite <- E, skipn_length. assert (length (skipn 1000 data) <> 0) by (rewrite E; discriminate). rewrite skipn_length in *. lia. }
    destruct (IH (length (x :: rest)) ltac:(lia) (x :: rest) (S pos + length b) (before ++ c) (le_n _)) as (bits & D & M).
    { rewrite LB. replace (S pos + (39 + 8 * length c)) with (pos + (5 + length c) * 8) by lia. now rewrite Nat.mod_add by lia. }
    exists (false :: b ++ bits). split.
    + apply MoreBlocks with (mid := before ++ c); [exact B|]. replace (before ++ data) with ((before ++ c) ++ x :: rest); [exact D|].
      rewrite <- app_assoc, <- E. unfold c. now rewrite firstn_skipn.
    + cbn [length]. rewrite app_length, LB. replace (S (39 + 8 * length c + length bits)) with (length bits + (5 + length c) * 8) by lia. now rewrite Nat.mod_add by lia.
Qed.
Lemma byte_for : forall v, (0 <= v < 256)%Z -> exists b, val b = v.
Proof.
  intros v H. destruct (Byte.of_N (Z.to_N v)) as [b|] eqn:E.
  - exists b. unfold val. apply Byte.to_of_N_iff in E. rewrite E. lia.
  - apply Byte.of_N_None_iff in E. lia.
Qed.
Lemma check_for : forall v, (0 <= v < 2 ^ 32)%Z -> exists c, length c = 4 /\ big_endian c = v.
Proof.
  intros v H. change (2 ^ 32)%Z with 4294967296%Z in H.
  destruct (byte_for (v / 16777216)%Z) as [a A]. { split; [apply Z.div_pos|apply Z.div_lt_upper_bound]; lia. }
  destruct (byte_for (v / 65536 mod 256)%Z (Z.mod_pos_bound _ 256 eq_refl)) as [b B].
  destruct (byte_for (v / 256 mod 256)%Z (Z.mod_pos_bound _ 256 eq_refl)) as [c C].
  destruct (byte_for (v mod 256)%Z (Z.mod_pos_bound _ 256 eq_refl)) as [d D].
  exists [a; b; c; d]. split; [reflexivity|]. unfold big_endian. cbn [fold_left]. rewrite A, B, C, D.
  pose proof (Z.div_mod v 256 ltac:(lia)). pose proof (Z.div_mod (v / 256) 256 ltac:(lia)). pose proof (Z.div_mod (v / 256 / 256) 256 ltac:(lia)).
  rewrite !Z.div_div in * by lia. change (256 * 256)%Z with 65536%Z in *. change (256 * (256 * 256))%Z with 16777216%Z in *. change (65536 * 256)%Z with 16777216%Z in *. lia.
Qed.
Theorem every_text_has_a_compressed_form : forall data, exists z, zlib_of data z.
Proof.
  intros data. destruct (stored_blocks (length data) data 0 [] (le_n _) eq_refl) as (bits & D & M).
  destruct (bytes_of_bits (length bits / 8) bits) as [d E]. { pose proof (Nat.div_mod (length bits) 8). lia. }
  assert (0 <= adler data < 2 ^ 32)%Z as R.
  { unfold adler, adler_a, adler_b. change (2 ^ 32)%Z with 4294967296%Z.
    match goal with |- (0 <= ?x mod _ * _ + ?y mod _ < _)%Z => pose proof (Z.mod_pos_bound x 65521); pose proof (Z.mod_pos_bound y 65521) end. lia. }
  destruct (check_for _ R) as (c & L & C).
  exists ([x78; x01] ++ d ++ c), [x78; x01], d, c. split; [reflexivity|]. split; [|split; [|now split]].
  - change (zlib_head ([x78; x01] ++ [])). now constructor.
  - exists bits, []. rewrite app_nil_r. split; [exact E|]. split; [cbn; lia|exact D].
Qed.
Print Assumptions every_text_has_a_compressed_form.

(** The checksum does not depend on the pieces the text comes in. *)
Theorem checksums_in_pieces : forall a b, adler_update (adler_update 1 a) b = adler32 (a ++ b) /\ Z.of_N (adler32 (a ++ b)) = adler (a ++ b).
Proof. intros a b. split; [apply adler_pieces|apply adler32_spec]. Qed.
Print Assumptions checksums_in_pieces.

(** A commit and a blob as compressed by another program, with dynamic and with fixed codes. *)
Definition sample_obj : bytes := git_object (bs "commit") (
  bs "tree 4b825dc642cb6eb9a060e54bf8d69288fbee4904" ++ [NL] ++
  bs "author A U Thor <a@b.c> 1112911993 -0700" ++ [NL] ++
  bs "committer A U Thor <a@b.c> 1112911993 -0700" ++ [NL] ++ [NL] ++
  bs "hello hello hello hello" ++ [NL]).
Definition sample_z : bytes :=
  [x78; xda; x8d; x8d; x41; x0a; xc2; x30; x10; x00; x3d; xe7; x15; xfb; x01; x65; x37; xdd; xac; x59;
   x10; xb1; x7f; xd0; x07; x64; xd3; x2d; x15; x5a; x02; x25; xfe; x5f; xf4; xea; xc5; xcb; x30; x87;
   x81; xa9; x6d; xdb; x9e; x1d; x28; xc9; xa1; xef; xee; xc0; x96; x63; x9a; xaa; x70; xac; x26; x6e;
   x5a; x50; xd0; x13; xdb; x9c; x27; xd1; x98; xf3; x6c; xee; xac; xc8; xa1; xbc; xfa; xd2; x76; x18;
   xe1; x01; xf7; x8f; x5c; xca; xcd; x4e; xf5; x0a; x44; x14; x95; x48; x75; x80; x23; x9e; x11; x43;
   xfd; x1e; xba; xff; xd3; x86; xc5; xd7; xb5; xc1; x0f; xc3; x1b; x9f; xce; x2f; x83].
Definition small_content : bytes := bs "hello world hello world" ++ [NL].
Definition small_z : bytes :=
  [x78; xda; x4b; xca; xc9; x4f; x52; x30; x32; x61; xc8; x48; xcd; xc9; xc9; x57; x28; xcf; x2f; xca;
   x49; x51; x40; x62; x73; x01; x00; xb2; x50; x0b; x08].
Lemma by_parts : forall data z, (let d := skipn 2 z in let n := length d - 4 in
    inflate (mk d EEOF) = (data, Ok (skipn n d)) /\ big_endian (skipn n d) = adler data /\ length (skipn n d) = 4) ->
  zlib_head (firstn 2 z) -> zlib_of data z.
Proof.
  intros data z (I & C & L) H. apply inflate_inv in I as (d & E & D). exists (firstn 2 z), d, (skipn (length (skipn 2 z) - 4) (skipn 2 z)).
  rewrite <- E, firstn_skipn. auto.
Qed.
Example sample_zlib : zlib_of sample_obj sample_z.
Proof. apply by_parts; [vm_compute; auto|]. change (zlib_head ([x78; xda] ++ [])). now constructor. Qed.
Example small_zlib : zlib_of (git_object (bs "blob") small_content) small_z.
Proof. apply by_parts; [vm_compute; auto|]. change (zlib_head ([x78; xda] ++ [])). now constructor. Qed.

(** ** Readers *)
Definition faithful (deliver : bytes -> err -> source) : Prop := forall out e, reads_out (deliver out e) out e.

(** Three such readers: the error with the last byte, the error on its own, one byte at a time. *)
Definition with_the_last_byte (out : bytes) (e : err) : source := {| so_evs := [(out, Some e)]; so_term := e |}.
Definition after_the_last_byte (out : bytes) (e : err) : source := {| so_evs := match out with [] => [] | _ => [(out, None)] end; so_term := e |}.
Lemma with_faithful : faithful with_the_last_byte.
Proof.
  intros out e. split; cbn.
  - apply app_nil_r.
  - reflexivity.
  - intros [|p pre] c x post Q; [injection Q as _ <- <-; auto|]. destruct pre; discriminate.
  - intros [Q|[]]. discriminate.
Qed.
Lemma after_faithful : faithful after_the_last_byte.
Proof.
  intros out e. destruct out as [|y out]; split; cbn.
  - reflexivity.
  - reflexivity.
  - intros [|p pre] c x post Q; discriminate.
  - auto.
  - now rewrite app_nil_r.
  - reflexivity.
  - intros [|p pre] c x post Q; [discriminate|]. destruct pre; discriminate.
  - intros [Q|[]]. discriminate.
Qed.
Definition byte_by_byte (out : bytes) (e : err) : source := {| so_evs := map (fun x => ([x], None)) out; so_term := e |}.
Lemma byte_faithful : faithful byte_by_byte.
Proof.
  intros out e. split; cbn.
  - rewrite map_map. cbn. induction out; cbn; congruence.
  - reflexivity.
  - intros pre c x post Q. assert (In (c, Some x) (map (fun x : byte => ([x], @None err)) out)) as I by (rewrite Q; apply in_app_iff; right; now left).
    apply in_map_iff in I as (y & Y & _). discriminate.
  - intros I. apply in_map_iff in I as (y & Y & _). discriminate.
Qed.

Lemma reads_out_good : forall ln src out e, reads_out src out e -> e <> EBufferFull -> (ln = true -> ~ ends_with CR out \/ error_apart src) -> good_source_for ln src.
Proof.
  intros ln src out e [D T E S] F C. split.
  - intros pre c x post Q. rewrite T. now apply (E pre c x post).
  - intros pre n post Q. destruct n as [|n]; [unfold max_empty_reads; lia|]. exfalso. apply S. rewrite Q. apply in_app_iff. right. cbn. now left.
  - intros pre c x Q [Hl [r Hr]]. destruct (C Hl) as [N|A].
    + apply N. exists (concat (map fst pre) ++ r). rewrite <- D, Q, map_app, concat_app. cbn. rewrite app_nil_r, Hr. now rewrite app_assoc.
    + assert (c = []) as -> by (apply (A c x); rewrite Q; apply in_app_iff; right; now left). destruct r; discriminate.
  - congruence.
Qed.
Lemma reads_out_joint : forall src out, reads_out src out EEOF -> joint_eof src.
Proof. intros src out [_ _ E _] pre c x Q _. now apply (E pre c x []). Qed.
Lemma reads_out_delivers : forall ln B (J : bool) src out e, reads_out src out e -> e <> EBufferFull -> (ln = true -> ~ ends_with CR out \/ error_apart src) ->
  (J = true -> e = EEOF) -> delivers_for ln B J (new_reader B src) (mk out e).
Proof.
  intros ln B J src out e H F C HJ. pose proof (new_reader_delivers_for ln B J src (reads_out_good ln src out e H F C)) as D.
  rewrite (ro_term _ _ _ H) in D. unfold src_data in D. rewrite (ro_data _ _ _ H) in D. apply D. intros Q. specialize (HJ Q). subst e. eapply reads_out_joint, H.
Qed.

(** Trees and blobs are read without ReadLine. *)
Lemma tree_no_line : forall S V (o : rdops S V) k s, decode_tree (no_line o) k s = decode_tree o k s.
Proof. reflexivity. Qed.
Lemma blob_no_line : forall S V (o : rdops S V) k s, decode_blob (no_line o) k s = decode_blob o k s.
Proof. reflexivity. Qed.
Lemma type_no_line : forall S V (o : rdops S V) s, read_type (no_line o) s = read_type o s.
Proof. reflexivity. Qed.
Lemma parse_no_line : forall B pa pc b data e, 2 <= B -> delivers_for false B true b (mk data e) ->
  begins_with (bs "tree ") data \/ begins_with (bs "blob ") data ->
  parse_object (bufio_ops pa pc) b = parse_object (stream_ops B) (mk data e).
Proof.
  intros B pa pc b data e HB D H.
  pose proof (sim_bufio_no_line B HB (ln := false) true pa pc) as C.
  pose proof (sim_read_type _ _ _ C b (mk data e) D) as T. rewrite !type_no_line in T. unfold parse_object.
  assert (exists w rest, (w = bs "tree" \/ w = bs "blob") /\ data = w ++ [SP] ++ rest) as (w & rest & W & Ed).
  { destruct H as [[r ->]|[r ->]]; [exists (bs "tree"), r|exists (bs "blob"), r]; auto. }
  assert (read_type (stream_ops B) (mk data e) = Ok (w, mk rest e)) as RT.
  { rewrite Ed. apply read_type_app. destruct W as [->| ->]; cbn; intuition discriminate. }
  rewrite RT in *. destruct (read_type (bufio_ops pa pc) b) as [[w' b1]| | |]; cbn in T; try contradiction. destruct T as [T R1]. cbn in T, R1. subst w'. cbn [bind].
  destruct W as [->| ->].
  - pose proof (sim_decode_tree _ _ _ C BTree b1 (mk rest e) R1) as X. rewrite !tree_no_line in X. exact X.
  - change (beqb (bs "blob") (bs "tree")) with false. change (beqb (bs "blob") (bs "commit")) with false. change (beqb (bs "blob") (bs "blob")) with true. cbn iota.
    pose proof (sim_decode_blob _ _ _ C BBlob b1 (mk rest e)) as X. rewrite !blob_no_line in X.
    specialize (X (sim_bufio_copy_for B HB (ln := false) true pa pc eq_refl) R1).
    destruct (decode_blob (bufio_ops pa pc) BBlob b1) as [[n s1]| | |], (decode_blob (stream_ops B) BBlob (mk rest e)) as [[n' s2]| | |]; cbn in X; try contradiction; cbn; try congruence.
    destruct X as [X _]. cbn in X. now subst.
Qed.

(** ** Compressed objects parse like the plain ones *)
Theorem compressed_objects_parse_alike : forall B pa pc deliver data z more e,
  2 <= B -> faithful deliver -> zlib_of data z ->
  begins_with (bs "tree ") data \/ begins_with (bs "blob ") data \/ ~ ends_with CR data \/ error_apart (deliver data EEOF) ->
  parse_compressed B pa pc deliver (mk (z ++ more) e) = parse_object_from_buffer B data.
Proof.
  intros B pa pc deliver data z more e HB F Z H. unfold parse_compressed, parse_object_from_buffer.
  rewrite (proj2 (zlib_run_iff (z ++ more) e data) (ex_intro _ z (ex_intro _ more (conj eq_refl Z)))). cbn [bind].
  assert (~ ends_with CR data \/ error_apart (deliver data EEOF) -> parse_object (bufio_ops pa pc) (new_reader B (deliver data EEOF)) = parse_object (stream_ops B) (mk data EEOF)) as A.
  { intros Q. apply (parse_transfer B HB). apply reads_out_delivers; [apply F|discriminate|auto|auto]. }
  assert (begins_with (bs "tree ") data \/ begins_with (bs "blob ") data -> parse_object (bufio_ops pa pc) (new_reader B (deliver data EEOF)) = parse_object (stream_ops B) (mk data EEOF)) as C.
  { intros Q. apply parse_no_line; [exact HB| |exact Q]. apply reads_out_delivers; [apply F|discriminate|discriminate|auto]. }
  destruct H as [H|[H|H]]; [apply C; auto|apply C; auto|apply A; auto].
Qed.
Print Assumptions compressed_objects_parse_alike.
Example compressed_parse_example :
  faithful with_the_last_byte /\ zlib_of sample_obj sample_z /\ ~ ends_with CR sample_obj /\
  exists c, parse_compressed default_B (fun _ _ => 0) (fun _ _ => 0) with_the_last_byte (mk sample_z EEOF) = Ok (NCommit c).
Proof.
  split; [apply with_faithful|]. split; [apply sample_zlib|]. split.
  - intros [r E]. apply (f_equal (fun l => last l NUL)) in E. rewrite last_last in E. vm_compute in E. discriminate.
  - eexists. vm_compute. reflexivity.
Qed.

(** What is written, compressed and read comes back. *)
Theorem compressed_nodes_survive : forall B pa pc deliver n text z more e,
  64 <= B -> faithful deliver -> stands_for B n text -> zlib_of text z ->
  begins_with (bs "tree ") text \/ begins_with (bs "blob ") text \/ ~ ends_with CR text \/ error_apart (deliver text EEOF) ->
  encode_bytes n = Ok text /\ parse_compressed B pa pc deliver (mk (z ++ more) e) = Ok n.
Proof.
  intros B pa pc deliver n text z more e HB F SF Z H. rewrite (compressed_objects_parse_alike B pa pc deliver text z more e ltac:(lia) F Z H).
  assert (text <> []) as NE. { inversion SF; subst; cbn; discriminate. }
  unfold parse_object_from_buffer. rewrite <- (parse_transfer B ltac:(lia) (fun _ _ => 0) (fun _ _ => 0) (new_reader B (chunks [text] EEOF)) (mk text EEOF)).
  - eapply nodes_survive; [exact HB|exact SF|]. apply one_chunk_delivers; [exact NE|discriminate].
  - apply one_chunk_delivers; [exact NE|discriminate].
Qed.
Print Assumptions compressed_nodes_survive.
Example compressed_survive_example : stands_for default_B (NBlob (git_object (bs "blob") small_content)) (git_object (bs "blob") small_content) /\
  zlib_of (git_object (bs "blob") small_content) small_z.
Proof. split; [|apply small_zlib]. constructor. reflexivity. Qed.

(** The decompressor gives the last bytes together with EOF.  A commit whose last line has exactly
    the size of the buffer and ends in a carriage return is then read differently. *)
Theorem compressed_objects_parse_alike_refuted : exists data z pol,
  zlib_of data z /\
  parse_compressed default_B pol pol with_the_last_byte (mk z EEOF) <> parse_object_from_buffer default_B data.
Proof.
  set (data := bs "commit 0" ++ [NUL] ++ cr_line). set (pol := fun _ _ : nat => N.to_nat 511).
  destruct (every_text_has_a_compressed_form data) as [z Z]. exists data, z, pol. split; [exact Z|].
  intros E. unfold parse_compressed in E. rewrite (proj2 (zlib_run_iff z EEOF data)) in E.
  2:{ exists z, []. split; [symmetry; apply app_nil_r|exact Z]. }
  cbn [bind] in E. apply eof_with_data_matters. fold data. fold pol. symmetry.
  etransitivity; [exact E|]. unfold parse_object_from_buffer. symmetry. apply parse_transfer; [unfold default_B; lia|].
  apply (one_chunk_delivers default_B data EEOF); discriminate.
Qed.
Print Assumptions compressed_objects_parse_alike_refuted.

(** ** What is accepted *)
Lemma run_ends : forall z e, (exists x, zlib_run (mk z e) = Err x /\ (x = EZlibHeader \/ x = EZlibDictionary \/ x = no_eof e)) \/
  exists out x, zlib_run (mk z e) = Ok (out, x) /\ (x = EEOF \/ x = EZlibChecksum \/ x = ECorrupt \/ x = no_eof e).
Proof.
  intros z e. unfold zlib_run. pose proof (zlib_new_ends z e) as N. destruct (zlib_new (mk z e)) as [r|x| |] eqn:E; try contradiction; cbn [bind]; [right|left; eauto].
  destruct (zlib_new_inv _ _ _ E) as (h & rest & _ & _ & ->). apply zlib_read_ends.
Qed.
Lemma not_full : forall e x, e <> EBufferFull -> x = EEOF \/ x = EZlibChecksum \/ x = ECorrupt \/ x = no_eof e -> x <> EBufferFull.
Proof. intros e x H [->|[->|[->| ->]]]; try discriminate. unfold no_eof. destruct (is_eof e); [discriminate|exact H]. Qed.
Lemma reads_out_wf : forall B src out x, 2 <= B -> reads_out src out x -> x <> EBufferFull -> wf_reader (new_reader B src).
Proof.
  intros B src out x HB [D T E S] F. apply wf_new; [exact HB|]. split; [congruence|].
  intros c I. apply in_split in I as (pre & post & Q). destruct (E _ _ _ _ Q) as [_ Q2]. congruence.
Qed.

(** Parsing returns a node or an error. *)
Theorem compressed_parsing_never_panics : forall B pa pc deliver z e,
  2 <= B -> faithful deliver -> e <> EBufferFull ->
  (exists n, parse_compressed B pa pc deliver (mk z e) = Ok n) \/ (exists x, parse_compressed B pa pc deliver (mk z e) = Err x).
Proof.
  intros B pa pc deliver z e HB F HE. unfold parse_compressed. destruct (run_ends z e) as [(x & -> & _)|(out & x & -> & X)]; cbn [bind]; [right; eauto|].
  apply decoding_never_panics. eapply reads_out_wf; [exact HB|apply F|]. eapply not_full; eassumption.
Qed.
Print Assumptions compressed_parsing_never_panics.
Example compressed_never_panics_example : faithful byte_by_byte /\
  parse_compressed 64 (fun _ _ => 0) (fun _ _ => 0) byte_by_byte (mk (firstn 40 sample_z) EEOF) = Err EUnexpectedEOF.
Proof. split; [apply byte_faithful|vm_compute; reflexivity]. Qed.

(** An input that does not begin with the head of a zlib stream is refused. *)
Theorem other_heads_are_refused : forall B pa pc deliver z e,
  (forall h rest, z = h ++ rest -> ~ zlib_head h) ->
  exists x, parse_compressed B pa pc deliver (mk z e) = Err x /\ (x = EZlibHeader \/ x = EZlibDictionary \/ x = no_eof e).
Proof.
  intros B pa pc deliver z e H. unfold parse_compressed, zlib_run. pose proof (zlib_new_ends z e) as N. destruct (zlib_new (mk z e)) as [r|x| |] eqn:E; try contradiction.
  - destruct (zlib_new_inv _ _ _ E) as (h & rest & Q & Hh & _). exfalso. exact (H h rest Q Hh).
  - exists x. split; [reflexivity|exact N].
Qed.
Print Assumptions other_heads_are_refused.
Example other_heads_example :
  parse_compressed 64 (fun _ _ => 0) (fun _ _ => 0) byte_by_byte (mk (git_object (bs "blob") small_content) EEOF) = Err EZlibHeader /\
  parse_compressed 64 (fun _ _ => 0) (fun _ _ => 0) byte_by_byte (mk [x78] EEOF) = Err EUnexpectedEOF.
Proof. split; vm_compute; reflexivity. Qed.
Example no_head_example : forall h rest, git_object (bs "blob") small_content = h ++ rest -> ~ zlib_head h.
Proof. intros h rest E H. destruct H as [cmf flg dict M W S D]. cbn [app] in E. injection E as <- <- _. vm_compute in M. discriminate. Qed.

(** Trees, commits and tags come from whole streams with the right checksum only. *)
Theorem accepted_streams_are_whole_but_for_blobs : forall B pa pc deliver z e n,
  2 <= B -> faithful deliver -> e <> EBufferFull ->
  parse_compressed B pa pc deliver (mk z e) = Ok n ->
  (exists z' more data, z = z' ++ more /\ zlib_of data z') \/ (exists content, n = NBlob (git_object (bs "blob") content)).
Proof.
  intros B pa pc deliver z e n HB F HE H. unfold parse_compressed in H. destruct (run_ends z e) as [(x & E & _)|(out & x & E & X)]; rewrite E in H; cbn [bind] in H; [discriminate|].
  destruct (err_eq_dec x EEOF) as [->|NE].
  - left. apply zlib_run_iff in E as (z' & more & A). exists z', more, out. exact A.
  - right. destruct (failures_are_reported pa pc _ n (reads_out_wf B _ out x HB (F out x) (not_full e x HE X))) with (2 := H) as (size & content & rest & _ & _ & Q); [|eauto].
    destruct (F out x) as [D T Er S]. split; [discriminate|]. split; [cbn; congruence|].
    intros c I. apply in_split in I as (pre & post & Q). destruct (Er _ _ _ _ Q) as [_ Q2]. congruence.
Qed.
Print Assumptions accepted_streams_are_whole_but_for_blobs.

(** A wrong checksum is noticed unless the object is a blob. *)
Theorem wrong_checksums_are_noticed : forall B pa pc deliver data h d check more e,
  2 <= B -> faithful deliver ->
  zlib_head h -> deflate_of data d -> length check = 4 -> big_endian check <> adler data ->
  ~ begins_with (bs "blob ") data ->
  exists x, parse_compressed B pa pc deliver (mk (h ++ d ++ check ++ more) e) = Err x.
Proof.
  intros B pa pc deliver data h d check more e HB F Hh D L C NB. unfold parse_compressed, zlib_run. rewrite zlib_new_ok by exact Hh. cbn [bind].
  rewrite (zlib_read_whole data d check more e D L). replace (big_endian check =? adler data)%Z with false by (symmetry; now apply Z.eqb_neq). cbn [bind].
  assert (wf_reader (new_reader B (deliver data EZlibChecksum))) as W by (eapply reads_out_wf; [exact HB|apply F|discriminate]).
  destruct (decoding_never_panics pa pc _ W) as [[n E]|[x E]]; [|eauto]. exfalso.
  destruct (F data EZlibChecksum) as [Dd T Er S].
  destruct (failures_are_reported pa pc _ n W) with (2 := E) as (size & content & rest & P & _).
  - split; [discriminate|]. split; [cbn; rewrite T; discriminate|]. intros c I. apply in_split in I as (pre & post & Q). destruct (Er _ _ _ _ Q) as [_ Q2]. discriminate.
  - apply NB. exists (size ++ [NUL] ++ content ++ rest). rewrite <- P. unfold delivered. cbn. now rewrite Dd.
Qed.
Print Assumptions wrong_checksums_are_noticed.
Example wrong_checksum_example : zlib_head [x78; xda] /\ (exists d, deflate_of sample_obj d) /\ big_endian [x00; x00; x00; x00] <> adler sample_obj /\
  ~ begins_with (bs "blob ") sample_obj.
Proof.
  split; [change (zlib_head ([x78; xda] ++ [])); now constructor|]. split; [destruct sample_zlib as (_ & d & _ & _ & _ & D & _); now exists d|].
  split; [vm_compute; discriminate|]. intros [r E]. discriminate.
Qed.

(** Streams that break off are refused likewise. *)
Theorem cut_streams_are_refused_but_for_blobs : forall B pa pc deliver data z tail e n,
  2 <= B -> faithful deliver -> e <> EBufferFull -> zlib_of data (z ++ tail) -> tail <> [] ->
  parse_compressed B pa pc deliver (mk z e) = Ok n -> exists content, n = NBlob (git_object (bs "blob") content).
Proof.
  intros B pa pc deliver data z tail e n HB F HE Z NT H.
  destruct (accepted_streams_are_whole_but_for_blobs B pa pc deliver z e n HB F HE H) as [(z' & more & data' & -> & Z')|Q]; [|exact Q]. exfalso.
  rewrite <- app_assoc in Z. destruct (zlib_streams_are_unambiguous _ _ _ _ Z' Z) as [_ Q]. apply app_eq_nil in Q as [_ Q]. exact (NT Q).
Qed.
Print Assumptions cut_streams_are_refused_but_for_blobs.
Example cut_stream_example : exists z tail, zlib_of (git_object (bs "blob") small_content) (z ++ tail) /\ tail <> [] /\
  parse_compressed 64 (fun _ _ => 0) (fun _ _ => 0) byte_by_byte (mk z EEOF) = Ok (NBlob (git_object (bs "blob") small_content)).
Proof.
  exists (firstn 27 small_z), (skipn 27 small_z). split; [rewrite firstn_skipn; apply small_zlib|]. split; [discriminate|vm_compute; reflexivity].
Qed.

(** Blobs smaller than the buffer are taken whatever comes after them: a wrong checksum, half a
    checksum, or none. *)
Lemma any_blob : forall B pa pc deliver content rest x,
  64 <= B -> faithful deliver -> x <> EBufferFull -> fits content ->
  let r := parse_object (bufio_ops pa pc) (new_reader B (deliver (git_object (bs "blob") content ++ rest) x)) in
  r = Ok (NBlob (git_object (bs "blob") content)) \/ (r = Err x /\ x <> EEOF /\ B <= length content).
Proof.
  intros B pa pc deliver content rest x HB F X FT. cbv zeta.
  pose proof (reads_out_delivers false B false _ _ _ (F (git_object (bs "blob") content ++ rest) x) X ltac:(discriminate) ltac:(discriminate)) as D.
  set (b := new_reader B (deliver (git_object (bs "blob") content ++ rest) x)) in *.
  assert (2 <= B) as HB2 by lia. pose proof (sim_bufio_no_line B HB2 (ln := false) false pa pc) as C.
  assert (git_object (bs "blob") content ++ rest = bs "blob" ++ [SP] ++ dec (N.of_nat (length content)) ++ [NUL] ++ content ++ rest) as EG by (unfold git_object; now rewrite <- !app_assoc).
  rewrite EG in D. unfold parse_object.
  pose proof (sim_read_type _ _ _ C b _ D) as T. rewrite !type_no_line in T. rewrite (read_type_app B) in T by (cbn; intuition discriminate).
  destruct (read_type (bufio_ops pa pc) b) as [[w b1]| | |]; cbn in T; try contradiction. destruct T as [T R1]. cbn in T, R1. subst w. cbn [bind].
  change (beqb (bs "blob") (bs "tree")) with false. change (beqb (bs "blob") (bs "commit")) with false. change (beqb (bs "blob") (bs "blob")) with true. cbn iota.
  unfold decode_blob. pose proof (sim_read_number _ _ _ C b1 (mk (dec (N.of_nat (length content)) ++ [NUL] ++ content ++ rest) x) R1) as M.
  change (read_number (no_line (bufio_ops pa pc)) b1) with (read_number (bufio_ops pa pc) b1) in M.
  match type of M with context [read_number (no_line (stream_ops B)) ?q] => change (read_number (no_line (stream_ops B)) q) with (read_number (stream_ops B) q) in M end.
  rewrite (read_number_dec B) in M by (unfold fits in FT; lia).
  destruct (read_number (bufio_ops pa pc) b1) as [[z b2]| | |]; cbn in M; try contradiction. destruct M as [M R2]. cbn in M, R2. subst z. cbn [bind].
  destruct (Z.ltb_spec (Z.of_N (N.of_nat (length content))) 0); [lia|].
  cbn [rd_copy bufio_ops].
  destruct (copy_loop_facts B HB2 false pc (rounds b2) 0 (Z.of_N (N.of_nat (length content))) [] b2 (mk (content ++ rest) x) R2 (rounds_enough B HB2 false b2 _ R2)) as (e & b3 & -> & _ & He).
  cbn [mk st_data st_err] in He |- *. rewrite takeZ_all in * by lia. cbn [bind app].
  destruct He as [->|(_ & -> & NE & Big)]; [left|right; split; [reflexivity|split; [exact NE|lia]]].
  destruct (Z.ltb_spec (Z.of_nat (length content)) (Z.of_N (N.of_nat (length content)))); [lia|].
  destruct (Z.eqb_spec (Z.of_nat (length content)) (Z.of_N (N.of_nat (length content)))); [|lia]. cbn [negb build_bytes bind map_res fst].
  f_equal. f_equal. unfold git_object, dec_Z. destruct (Z.ltb_spec (Z.of_N (N.of_nat (length content))) 0); [lia|]. rewrite N2Z.id. now rewrite <- !app_assoc.
Qed.
Lemma small_blob : forall B pa pc deliver content rest x,
  64 <= B -> faithful deliver -> x <> EBufferFull -> length content < B -> fits content ->
  parse_object (bufio_ops pa pc) (new_reader B (deliver (git_object (bs "blob") content ++ rest) x)) = Ok (NBlob (git_object (bs "blob") content)).
Proof.
  intros B pa pc deliver content rest x HB F X L FT. destruct (any_blob B pa pc deliver content rest x HB F X FT) as [E|(_ & _ & Q)]; [exact E|lia].
Qed.
Theorem every_checksum_is_checked_refuted : forall B pa pc deliver content h d anything e,
  64 <= B -> faithful deliver -> e <> EBufferFull -> length content < B -> fits content ->
  zlib_head h -> deflate_of (git_object (bs "blob") content) d ->
  parse_compressed B pa pc deliver (mk (h ++ d ++ anything) e) = Ok (NBlob (git_object (bs "blob") content)).
Proof.
  intros B pa pc deliver content h d anything e HB F HE L FT Hh D. unfold parse_compressed.
  assert (exists x, zlib_run (mk (h ++ d ++ anything) e) = Ok (git_object (bs "blob") content, x) /\ x <> EBufferFull) as (x & -> & X).
  { unfold zlib_run. rewrite zlib_new_ok by exact Hh. cbn [bind]. destruct (Nat.lt_ge_cases (length anything) 4) as [Q|Q].
    - rewrite (zlib_read_cut _ _ _ _ D Q). eexists. split; [reflexivity|]. apply (not_full e); auto.
    - rewrite <- (firstn_skipn 4 anything). rewrite (zlib_read_whole _ d (firstn 4 anything) (skipn 4 anything) e D) by (apply firstn_length_le; lia).
      eexists. split; [reflexivity|]. destruct (_ =? _)%Z; discriminate. }
  cbn [bind]. rewrite <- (app_nil_r (git_object (bs "blob") content)) at 1. now apply small_blob.
Qed.
Print Assumptions every_checksum_is_checked_refuted.
Example unchecked_example : exists d, deflate_of (git_object (bs "blob") small_content) d /\ length small_content < 64 /\ fits small_content.
Proof. destruct small_zlib as (_ & d & _ & _ & _ & D & _). exists d. split; [exact D|]. split; [cbn; lia|reflexivity]. Qed.

(** Larger blobs too are given out whole or not at all; an error can be the decompressor's only. *)
Theorem blobs_come_whole_or_not_at_all : forall B pa pc deliver content rest x z e,
  64 <= B -> faithful deliver -> e <> EBufferFull -> fits content ->
  zlib_run (mk z e) = Ok (git_object (bs "blob") content ++ rest, x) ->
  let r := parse_compressed B pa pc deliver (mk z e) in
  r = Ok (NBlob (git_object (bs "blob") content)) \/ (r = Err x /\ x <> EEOF /\ B <= length content).
Proof.
  intros B pa pc deliver content rest x z e HB F HE FT R. cbv zeta. unfold parse_compressed. rewrite R. cbn [bind].
  apply any_blob; auto. destruct (run_ends z e) as [(y & E & _)|(out & y & E & Y)]; rewrite R in E; [discriminate|]. injection E as _ <-. eapply not_full; eassumption.
Qed.
Print Assumptions blobs_come_whole_or_not_at_all.

(** Both happen: the caller reads a large blob straight into its own slice, and gets the error with
    the last bytes, or piece by piece. *)
Definition large_content : bytes := repeat x61 200.
Example large_blobs_example : exists z, 
  zlib_run (mk z EEOF) = Ok (git_object (bs "blob") large_content, EZlibChecksum) /\
  parse_compressed 64 (fun _ _ => 0) (fun _ _ => 0) with_the_last_byte (mk z EEOF) = Ok (NBlob (git_object (bs "blob") large_content)) /\
  parse_compressed 64 (fun _ _ => 500) (fun _ _ => 500) with_the_last_byte (mk z EEOF) = Err EZlibChecksum.
Proof.
  exists ([x78; x01; x01; xd1; x00; x2e; xff] ++ git_object (bs "blob") large_content ++ [x00; x00; x00; x00]). vm_compute. auto.
Qed.
