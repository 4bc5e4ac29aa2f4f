(** C33 - C35, and the rest of C10: the entry points, and decoding into a builder. *)
From Verif Require Import Base GoStr Cid CidSpec CidFacts Types Nodes Reader Bufio Person Assemble Decode Encode Spec
  ReaderSpec StreamFacts PersonFacts DecodeFacts RoundTrip CommitFacts NumFacts Sim BufioFacts SafeOps SafeBufio
  Transfer Checks Invariants StructSpec StructFacts Props_reader Props_decode Props_struct.

(** ** C33: DecodeBlock *)
Theorem block_cid_must_be_git_sha1 : forall B codec code digest h c raw,
  cid_v1 codec h c -> multihash code digest h ->
  (codec = 120%N /\ code = 17%N /\ length digest = 20 -> decode_block B c raw = parse_object_from_buffer B raw) /\
  (~ (codec = 120%N /\ code = 17%N /\ length digest = 20) -> decode_block B c raw = Err EInvalidCidPrefix).
Proof.
  intros B codec code digest h c raw (w & Vw & Lw & ->) (hw & v & Vh & Lh & Vv & Lv & ->).
  unfold decode_block. rewrite (cid_prefix_v1 codec code w v digest _ Vw Lw hw _ Vh Lh Vv Lv eq_refl). cbn [bind px_codec px_mhtype px_mhlen].
  unfold GitRaw, SHA1, SHA1_len. split.
  - intros (-> & -> & ->). reflexivity.
  - intros N. destruct (N.eqb_spec codec 120); [|reflexivity]. destruct (N.eqb_spec code 17); [|reflexivity].
    destruct (N.eqb_spec (N.of_nat (length digest)) 20); [|reflexivity]. exfalso. apply N. split; [assumption|]. split; [assumption|lia].
Qed.
Print Assumptions block_cid_must_be_git_sha1.

Theorem block_cid_v0_is_rejected : forall B h c raw, cid_v0 h c -> decode_block B c raw = Err EInvalidCidPrefix.
Proof. intros B h c raw H. unfold decode_block. rewrite (cid_prefix_v0 _ _ H). reflexivity. Qed.
Print Assumptions block_cid_v0_is_rejected.

Example block_cid_applies :
  (exists h, cid_v1 120 h (git_cid (repeat x07 20)) /\ multihash 17 (repeat x07 20) h) /\
  (exists h, cid_v1 85 h (x01 :: x55 :: x12 :: x20 :: repeat x07 32) /\ multihash 18 (repeat x07 32) h) /\
  cid_v0 (x12 :: x20 :: repeat x07 32) (x12 :: x20 :: repeat x07 32).
Proof.
  split; [|split].
  - exists (x11 :: x14 :: repeat x07 20). split; [exists [x78]|exists [x11], [x14]].
    + split; [apply vi_last; reflexivity|]. split; [cbn; lia|reflexivity].
    + split; [apply vi_last; reflexivity|]. split; [cbn; lia|]. split; [apply vi_last; reflexivity|]. split; [cbn; lia|reflexivity].
  - exists (x12 :: x20 :: repeat x07 32). split; [exists [x55]|exists [x12], [x20]].
    + split; [apply vi_last; reflexivity|]. split; [cbn; lia|reflexivity].
    + split; [apply vi_last; reflexivity|]. split; [cbn; lia|]. split; [apply vi_last; reflexivity|]. split; [cbn; lia|reflexivity].
  - exists (repeat x07 32). auto.
Qed.

(** The hash itself is not looked at: a block is accepted under the CID of any other. *)
Theorem block_hash_is_checked_refuted : forall B sha sha' raw, is_sha sha -> is_sha sha' ->
  decode_block B (git_cid sha) raw = decode_block B (git_cid sha') raw.
Proof.
  assert (forall B sha raw, is_sha sha -> decode_block B (git_cid sha) raw = parse_object_from_buffer B raw) as H.
  { intros B sha raw H. apply (block_cid_must_be_git_sha1 B 120 17 sha (x11 :: x14 :: sha)); [| |auto].
    - exists [x78]. split; [apply vi_last; reflexivity|]. split; [cbn; lia|reflexivity].
    - exists [x11], [x14]. split; [apply vi_last; reflexivity|]. split; [cbn; lia|]. unfold is_sha in H. rewrite H.
      split; [apply vi_last; reflexivity|]. split; [cbn; lia|reflexivity]. }
  intros B sha sha' raw S1 S2. now rewrite !H.
Qed.
Print Assumptions block_hash_is_checked_refuted.

(** ** C35: decoding into a builder of any kind, in terms of ParseObject *)
(** What a fresh builder makes of a decoded node. *)
Definition given (k : bkind) (n : node) : res node :=
  match k, n with
  | BAny, NBlob b => Ok (NGenBytes b)            (* the bytes are assigned, not the node *)
  | BAny, _ => Ok n
  | BBlob, NBlob _ | BCommit, NCommit _ | BTag, NTag _ | BTree, NTree _ => Ok n
  | BTree, NCommit _ | BTree, NTag _ => Panic
  | _, _ => build_node k n
  end.

Lemma tree_into_struct {W} fields required (set : nat -> node -> W -> res W) (w : W) ts :
  required <> [] -> (forall i e w', i < length fields -> exists x, set i (NEntry e) w' = Err x) ->
  exists x, struct_assign fields required set (map (fun ke : bytes * entry => (NString (fst ke), NEntry (snd ke))) ts) w = Err x.
Proof.
  intros R H. unfold struct_assign. destruct ts as [|[k e] ts].
  - cbn [map struct_loop bind]. unfold missing_fields. destruct required as [|r rs]; [congruence|]. cbn. eauto.
  - cbn [map struct_loop as_string bind fst snd]. destruct (field_index k fields 0) as [i|] eqn:Fi; [|cbn; eauto].
    cbn [existsb]. destruct (H i e w) as [x ->]; [|cbn; eauto]. apply field_index_iff in Fi as [_ Fi]. rewrite Nat.sub_0_r in Fi. eapply nth_bound; eauto.
Qed.

(** The type of object a decoded node is. *)
Definition object_kind (n : node) (k : bkind) : Prop :=
  match n with
  | NBlob _ => k = BBlob
  | NTree _ => k = BTree
  | NCommit _ => k = BCommit
  | NTag _ => k = BTag
  | _ => False
  end.

Lemma given_same k n : object_kind n k -> given k n = Ok n.
Proof. destruct n; cbn; try contradiction; intros ->; reflexivity. Qed.
Lemma given_other k k' n : object_kind n k' -> k <> k' -> k <> BAny -> ~ (k = BTree /\ (k' = BCommit \/ k' = BTag)) -> exists e, given k n = Err e.
Proof.
  destruct n; cbn; try contradiction; intros ->; destruct k; try congruence; intros _ _ H; cbn [given]; try (eexists; reflexivity); try (exfalso; apply H; auto; fail).
  - cbn [build_node assign_tag map_entries].
    destruct (tree_into_struct Nodes.commit_fields [0; 1; 2; 7; 8] set_commit zero_commit (tr_t t)) as [x X]; [discriminate| |cbn [build_node assign_commit map_entries]; rewrite X; cbn; eauto].
    intros i e w Hi. destruct i as [|[|[|[|[|[|[|[|[|i]]]]]]]]]; try (exfalso; cbn in Hi; lia); cbn; eauto.
  - cbn [build_node assign_tag map_entries].
    destruct (tree_into_struct tag_fields [0; 1; 2; 3; 4] set_tag zero_tag (tr_t t)) as [x ->]; [discriminate| |cbn; eauto].
    intros i e w Hi. destruct i as [|[|[|[|[|i]]]]]; try (exfalso; cbn in Hi; lia); cbn; eauto.
Qed.
Lemma given_crash n : object_kind n BCommit \/ object_kind n BTag -> given BTree n = Panic.
Proof. destruct n; cbn; intros [H|H]; try contradiction; try discriminate; reflexivity. Qed.
Lemma parsed_kind {S V} (ops : rdops S V) s n : parse_object ops s = Ok n -> exists k, object_kind n k /\ k <> BAny.
Proof. intros E. destruct (parse_decoded _ _ _ E); eexists; (split; [reflexivity|discriminate]). Qed.

(** Over any reader: decoding into a builder does what ParseObject does, then gives the result
    to the builder. *)
Theorem decoding_into_a_builder : forall S V (ops : rdops S V) k s,
  decode_into ops k s = bind (parse_object ops s) (given k).
Proof.
  intros S V ops k s. unfold decode_into, parse_object. destruct (read_type ops s) as [[typ s1]| | |]; try reflexivity. cbn [bind].
  destruct (beqb typ (bs "tree")); [|destruct (beqb typ (bs "commit")); [|destruct (beqb typ (bs "blob")); [|destruct (beqb typ (bs "tag")); [|reflexivity]]]].
  - unfold decode_tree. destruct (read_number ops s1) as [[z s2]| | |]; try reflexivity. cbn [bind].
    destruct (tree_loop ops (rd_fuel ops s2) zero_tree s2) as [t| | |]; try reflexivity. cbn [bind build_node assign_tree map_res]. unfold map_res. cbn [bind given]. now destruct k.
  - unfold decode_commit. destruct (read_number ops s1) as [[z s2]| | |]; try reflexivity. cbn [bind].
    destruct (commit_loop ops (rd_fuel ops s2) zero_commit s2) as [t| | |]; try reflexivity. cbn [bind build_node assign_commit map_res]. unfold map_res. cbn [bind given]. now destruct k.
  - unfold decode_blob. destruct (read_number ops s1) as [[z s2]| | |]; try reflexivity. cbn [bind]. destruct (z <? 0)%Z; [reflexivity|].
    cbv zeta. destruct (rd_copy ops z s2) as [[[body e] s3]| | |]; try reflexivity. cbn [bind]. destruct e; [reflexivity|].
    destruct (negb (Z.of_nat (length body) =? z)%Z); [destruct (length body =? 0); reflexivity|]. now destruct k.
  - unfold decode_tag, decode_tag_printing. destruct (rd_string ops NUL s1) as [[[x e] s2]| | |]; try reflexivity. cbn [bind]. unfold map_res. destruct e; [reflexivity|].
    destruct (tag_loop ops (rd_fuel ops s2) zero_tag [] s2) as [[t pr]| | |]; try reflexivity. cbn [bind build_node assign_tag map_res]. unfold map_res. cbn [bind given fst]. now destruct k.
Qed.
Print Assumptions decoding_into_a_builder.

(** So: what fails to parse fails alike for every builder; what parses goes into the matching
    builder, is an error for every other, but panics in a tree builder for commits and tags. *)
Theorem decoding_into_the_matching_builder : forall S V (ops : rdops S V) k s,
  (forall n, parse_object ops s = Ok n -> object_kind n k -> decode_into ops k s = Ok n) /\
  (forall e, parse_object ops s = Err e -> decode_into ops k s = Err e).
Proof.
  intros S V ops k s. rewrite decoding_into_a_builder. split; [intros n -> H|intros e ->; reflexivity]. cbn [bind]. now apply given_same.
Qed.
Print Assumptions decoding_into_the_matching_builder.

Theorem decoding_into_another_builder : forall S V (ops : rdops S V) s n k k',
  parse_object ops s = Ok n -> object_kind n k' -> k <> k' -> k <> BAny ->
  ~ (k = BTree /\ (k' = BCommit \/ k' = BTag)) ->
  exists e, decode_into ops k s = Err e.
Proof. intros S V ops s n k k' E H N A X. rewrite decoding_into_a_builder, E. cbn [bind]. now apply (given_other k k'). Qed.
Print Assumptions decoding_into_another_builder.

Theorem decoding_into_a_tree_builder_refuted : forall S V (ops : rdops S V) s n,
  parse_object ops s = Ok n -> object_kind n BCommit \/ object_kind n BTag ->
  decode_into ops BTree s = Panic.
Proof. intros S V ops s n E H. rewrite decoding_into_a_builder, E. cbn [bind]. now apply given_crash. Qed.
Print Assumptions decoding_into_a_tree_builder_refuted.

Example decoding_into_applies :
  (exists n, parse_object (stream_ops 64) (mk (bs "tag 0" ++ [NUL]) EEOF) = Ok n /\ object_kind n BTag) /\
  (exists n, parse_object (stream_ops 64) (mk (bs "commit 0" ++ [NUL]) EEOF) = Ok n /\ object_kind n BCommit) /\
  (exists n, parse_object (stream_ops 64) (mk (bs "tree 0" ++ [NUL]) EEOF) = Ok n /\ object_kind n BTree) /\
  BTag <> BTree /\ ~ (BTag = BTree /\ (BTree = BCommit \/ BTree = BTag)).
Proof.
  split; [|split; [|split; [|split]]]; try discriminate; try (intros [? _]; discriminate); eexists; (split; [vm_compute; reflexivity|reflexivity]).
Qed.

(** ** The rest of C10 *)
Theorem decoding_into_the_matching_builder_never_panics : forall pa pc b k,
  wf_reader b ->
  (forall n, parse_object (bufio_ops pa pc) b = Ok n -> object_kind n k) ->
  (exists n, decode_into (bufio_ops pa pc) k b = Ok n) \/ (exists e, decode_into (bufio_ops pa pc) k b = Err e).
Proof.
  intros pa pc b k H M. destruct (decoding_into_the_matching_builder _ _ (bufio_ops pa pc) k b) as [A C].
  destruct (decoding_never_panics pa pc b H) as [[n E]|[e E]]; [left; exists n; auto|right; eauto].
Qed.
Print Assumptions decoding_into_the_matching_builder_never_panics.
Example decoding_into_the_matching_builder_applies :
  forall n, parse_object (bufio_ops (fun _ _ => 1) (fun _ _ => 1)) (new_reader 64 (chunks [bs "tree 0" ++ [NUL]] EEOF)) = Ok n -> object_kind n BTree.
Proof. intros n E. vm_compute in E. injection E as <-. reflexivity. Qed.

(** ** C34: the entry points agree *)
Theorem entry_points_agree : forall B pa pc b data sha,
  2 <= B -> delivers B true b (mk data EEOF) -> is_sha sha ->
  let r := parse_object (bufio_ops pa pc) b in
  parse_object_from_buffer B data = r /\
  decode_block B (git_cid sha) data = r /\
  (forall zlib_open z, zlib_open z = Ok (mk data EEOF) -> parse_compressed_object B zlib_open z = r) /\
  (forall k, (exists n, r = Ok n /\ object_kind n k) \/ (exists e, r = Err e) -> decode_into (bufio_ops pa pc) k b = r).
Proof.
  intros B pa pc b data sha HB D Hs r. assert (parse_object_from_buffer B data = r) as E.
  { unfold r. rewrite (parse_transfer B HB pa pc _ _ D). reflexivity. }
  split; [exact E|]. split; [|split].
  - rewrite <- E. apply (block_cid_must_be_git_sha1 B 120 17 sha (x11 :: x14 :: sha)); [| |auto].
    + exists [x78]. split; [apply vi_last; reflexivity|]. split; [cbn; lia|reflexivity].
    + exists [x11], [x14]. split; [apply vi_last; reflexivity|]. split; [cbn; lia|]. unfold is_sha in Hs. rewrite Hs.
      split; [apply vi_last; reflexivity|]. split; [cbn; lia|reflexivity].
  - intros zo z Z. unfold parse_compressed_object. rewrite Z. exact E.
  - intros k. destruct (decoding_into_the_matching_builder _ _ (bufio_ops pa pc) k b) as [A C]. intros [(n & En & Hk)|(e & Ee)].
    + rewrite (A n En Hk). now symmetry.
    + rewrite (C e Ee). now symmetry.
Qed.
Print Assumptions entry_points_agree.
Example entry_points_agree_applies : delivers 64 true (new_reader 64 (chunks [sample_blob] EEOF)) (mk sample_blob EEOF) /\ is_sha (repeat x07 20).
Proof. split; [apply one_chunk_delivers; discriminate|reflexivity]. Qed.
