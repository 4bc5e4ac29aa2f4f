(** C51: storing and loading through a link system. *)
From Verif Require Import Base GoStr Cid CidSpec CidFacts Types Nodes Reader Bufio Person Assemble Decode DecodeEnd Encode Spec
  ReaderSpec StreamFacts PersonFacts DecodeFacts RoundTrip CommitFacts NumFacts Sim BufioFacts SafeOps SafeBufio
  Transfer Checks Invariants DecodeEndFacts Sha1 LinkSystem Props_reader Props_roundtrip Props_entry.

(** ** Specification *)

(** [handed wr w text w']: the bytes [text] were given to the writer, in pieces it took whole. *)
Inductive handed {W} (wr : writer W) : W -> bytes -> W -> Prop :=
| handed_none w : handed wr w [] w
| handed_piece w p w1 q w' : wr p w = (length p, None, w1) -> handed wr w1 q w' -> handed wr w (p ++ q) w'.

(** A source that will hand out [data] and then EOF, whatever the pieces. *)
Record hands_out (src : source) (data : bytes) : Prop := {
  ho_data : concat (map fst (so_evs src)) = data;
  ho_end : so_term src = EEOF;
  ho_good : good_source src;
  ho_joint : joint_eof src
}.

(** The link of a git object: version 1, codec 0x78, SHA-1. *)
Definition hash_link (sha1 : bytes -> bytes) (text : bytes) : link := LCid (git_cid (sha1 text)).

Definition is_sha1 (sha1 : bytes -> bytes) : Prop := forall x, is_sha (sha1 x).

(** SHA-1 is one such function, and blocks handed out whole or in pieces are such sources. *)
Lemma sha1_is_sha1 : is_sha1 sha1.
Proof. intros x. apply sha1_length. Qed.

Lemma chunks_hand_out cs : Forall (fun c => c <> []) cs -> hands_out (chunks cs EEOF) (concat cs).
Proof.
  intros F. split; [unfold chunks; cbn; now rewrite map_map, map_id|reflexivity| |apply chunks_joint].
  apply chunks_good; [|discriminate]. intros I. now apply (proj1 (Forall_forall _ _) F) in I.
Qed.

(** For the examples. *)
Definition small_blob : bytes := git_object (bs "blob") (bs "hello").
Definition trailing : bytes := bs "more".
Definition commit_object : bytes := git_object (bs "commit") (commit_text sample_commit).

Lemma pieces_hand_out : hands_out (chunks [firstn 50 commit_object; skipn 50 commit_object] EEOF) commit_object.
Proof. apply (chunks_hand_out [firstn 50 commit_object; skipn 50 commit_object]). repeat constructor; discriminate. Qed.

(** ** Facts *)
Lemma build_git_link sum : is_sha sum -> build_link git_prefix sum = Some (git_cid sum).
Proof.
  intros H. unfold build_link, lenN, git_cid. cbn [px_version px_mhlen git_prefix N.eqb Pos.eqb negb]. rewrite H.
  change (N.of_nat 20 <? SHA1_len)%N with false. cbn iota. change (N.to_nat SHA1_len) with 20. rewrite <- H, firstn_all. reflexivity.
Qed.

Lemma hands_out_delivers B src data : hands_out src data -> delivers B true (new_reader B src) (mk data EEOF).
Proof.
  intros [H1 H2 H3 H4]. pose proof (new_reader_delivers B true src H3 (fun _ => H4)) as D.
  unfold src_data in D. now rewrite H1, H2 in D.
Qed.

Lemma hands_out_wf B src data : 2 <= B -> hands_out src data -> wf_reader (new_reader B src).
Proof.
  intros HB [_ H2 H3 _]. apply wf_new; [exact HB|]. split; [rewrite H2; discriminate|].
  intros c I. apply in_split in I as (pre & post & E). destruct (gs_err _ _ H3 _ _ _ _ E) as [_ Q]. congruence.
Qed.

(** ** Storing *)
Theorem stored_links_are_hashes : forall sha1 W (wr : writer W) w n l w',
  is_sha1 sha1 ->
  store sha1 wr w n = Stored l w' ->
  exists text, encode_bytes n = Ok text /\ l = hash_link sha1 text /\ handed wr w text w'.
Proof.
  intros sha1 W wr w n l w' HS. unfold store, encode_bytes, encode.
  destruct (encode_node n) as [x| | |]; try discriminate. destruct x as [b|typ body]; cbn [write_encoded multi_writer].
  - destruct (wr b w) as [[m e] w1] eqn:E. destruct e as [e|]; [discriminate|]. destruct (Nat.eqb_spec m (length b)); [|discriminate]. subst m.
    cbn [app]. rewrite (build_git_link _ (HS b)). intros [= <- <-]. exists b. split; [reflexivity|]. split; [reflexivity|].
    rewrite <- (app_nil_r b). eapply handed_piece; [exact E|constructor].
  - destruct (wr (header typ body) w) as [[m e] w1] eqn:E. destruct e as [e|]; [discriminate|].
    destruct (Nat.eqb_spec m (length (header typ body))); [|discriminate]. subst m. cbn [app].
    unfold buffer_write_to. destruct body as [|c body].
    + rewrite (build_git_link _ (HS _)). intros [= <- <-]. exists (header typ []). split; [reflexivity|]. split; [reflexivity|].
      rewrite <- (app_nil_r (header typ [])). eapply handed_piece; [exact E|constructor].
    + set (bd := c :: body) in *. cbn [multi_writer]. destruct (wr bd w1) as [[m e] w2] eqn:E2. destruct e as [e|].
      { destruct (length bd <? m); discriminate. }
      destruct (Nat.eqb_spec m (length bd)) as [->|].
      2:{ destruct (length bd <? m); discriminate. }
      rewrite Nat.ltb_irrefl, Nat.eqb_refl. rewrite (build_git_link _ (HS _)). intros [= <- <-].
      exists (header typ bd ++ bd). split; [cbn [buffer_writer]; unfold buffer_writer; rewrite Nat.ltb_irrefl, Nat.eqb_refl; reflexivity|].
      split; [reflexivity|]. eapply handed_piece; [exact E|]. rewrite <- (app_nil_r bd). eapply handed_piece; [exact E2|constructor].
Qed.
Print Assumptions stored_links_are_hashes.

Example stored_links_are_hashes_applies :
  exists l, store sha1 buffer_writer [] (NBlob (git_object (bs "blob") (bs "hello"))) = Stored l (git_object (bs "blob") (bs "hello")) /\
            l = git_link (hex_bytes (bs "b6fc4c620b67d95f953a5c1c1230aaab5db5a1b0")).
Proof. eexists. split; [vm_compute; reflexivity|vm_compute; reflexivity]. Qed.

(** What Encode refuses is not stored; a writer that takes everything stores the rest. *)
Theorem storing_follows_encoding : forall sha1 n,
  is_sha1 sha1 ->
  (forall text, encode_bytes n = Ok text -> store sha1 buffer_writer [] n = Stored (hash_link sha1 text) text) /\
  (forall e, encode_bytes n = Err e -> store sha1 buffer_writer [] n = StoreFailed e) /\
  (encode_bytes n = Panic -> store sha1 buffer_writer [] n = StorePanics).
Proof.
  intros sha1 n HS. unfold store, encode_bytes, encode.
  destruct (encode_node n) as [x|e| |]; [|split; [discriminate|]; split; [|discriminate]; intros e' [= <-]; reflexivity
    |split; [discriminate|]; split; [discriminate|]; reflexivity|split; [discriminate|]; split; [discriminate|]; reflexivity].
  destruct x as [b|typ body]; cbn [write_encoded multi_writer]; unfold buffer_writer.
  - rewrite Nat.eqb_refl. cbn [app]. rewrite (build_git_link _ (HS _)).
    split; [intros t [= <-]; reflexivity|split; discriminate].
  - rewrite Nat.eqb_refl. cbn [app]. unfold buffer_write_to. destruct body as [|c body].
    + rewrite (build_git_link _ (HS _)). split; [intros t [= <-]; reflexivity|split; discriminate].
    + cbn [multi_writer]. repeat (rewrite ?Nat.ltb_irrefl, ?Nat.eqb_refl; cbn iota). rewrite (build_git_link _ (HS _)).
      split; [intros t [= <-]; reflexivity|split; discriminate].
Qed.
Print Assumptions storing_follows_encoding.

Example storing_follows_encoding_applies :
  encode_bytes (NTree {| tr_t := []; tr_m := [] |}) = Ok (git_object (bs "tree") []) /\ encode_bytes (NString (bs "x")) = Err EUnrecognizedNode /\
  encode_bytes (NCommit zero_commit) = Panic.
Proof. vm_compute. auto. Qed.

Theorem computed_links_are_stored_links : forall sha1 n,
  is_sha1 sha1 -> compute_link sha1 n = map_res (hash_link sha1) (encode_bytes n).
Proof.
  intros sha1 n HS. unfold compute_link, encode_bytes. destruct (encode buffer_writer n []) as [[]]; try reflexivity.
  now rewrite (build_git_link _ (HS _)).
Qed.
Print Assumptions computed_links_are_stored_links.

(** C07: well formed objects with the same link are equal, unless the hash function collides
    on their texts. *)
Theorem different_objects_have_different_links : forall sha1 B n1 n2 t1 t2 l,
  is_sha1 sha1 -> 64 <= B -> stands_for B n1 t1 -> stands_for B n2 t2 ->
  (sha1 t1 = sha1 t2 -> t1 = t2) ->
  compute_link sha1 n1 = Ok l -> compute_link sha1 n2 = Ok l -> n1 = n2.
Proof.
  intros sha1 B n1 n2 t1 t2 l HS HB S1 S2 NC L1 L2. rewrite (computed_links_are_stored_links sha1 _ HS) in L1. rewrite (computed_links_are_stored_links sha1 _ HS) in L2.
  assert (encode_bytes n1 = Ok t1) as E1.
  { apply (nodes_survive B (fun _ _ => 0) (fun _ _ => 0) (new_reader B (chunks [t1] EEOF)) n1 t1 HB S1). apply one_chunk_delivers; [|discriminate]. intros ->. inversion S1. }
  assert (encode_bytes n2 = Ok t2) as E2.
  { apply (nodes_survive B (fun _ _ => 0) (fun _ _ => 0) (new_reader B (chunks [t2] EEOF)) n2 t2 HB S2). apply one_chunk_delivers; [|discriminate]. intros ->. inversion S2. }
  rewrite E1 in L1. rewrite E2 in L2. cbn [map_res bind] in L1, L2.
  assert (t1 = t2) as <- by (apply NC; unfold hash_link, git_cid in L1, L2; congruence).
  eapply encode_injective; eauto.
Qed.
Print Assumptions different_objects_have_different_links.
(** Two blobs, and the links SHA-1 gives them. *)
Example different_objects_have_different_links_applies :
  let t1 := git_object (bs "blob") (bs "a") in let t2 := git_object (bs "blob") (bs "b") in
  is_sha1 sha1 /\ stands_for 64 (NBlob t1) t1 /\ stands_for 64 (NBlob t2) t2 /\ sha1 t1 <> sha1 t2 /\
  compute_link sha1 (NBlob t1) <> compute_link sha1 (NBlob t2).
Proof.
  intros t1 t2. split; [exact sha1_is_sha1|]. split; [constructor; unfold fits; apply Z.ltb_lt; reflexivity|].
  split; [constructor; unfold fits; apply Z.ltb_lt; reflexivity|]. split; vm_compute; discriminate.
Qed.

(** The name git gives the empty tree. *)
Example computed_links_are_stored_links_applies :
  compute_link sha1 (NTree {| tr_t := []; tr_m := [] |}) = Ok (git_link (hex_bytes (bs "4b825dc642cb6eb9a060e54bf8d69288fbee4904"))).
Proof. vm_compute. reflexivity. Qed.

(** ** Loading *)
Lemma load_git trusted sha1 B pa pc k h src data : 2 <= B -> is_sha h -> hands_out src data ->
  load sha1 trusted B pa pc k (LCid (git_cid h)) src =
  match decode_into_end (bufio_ops pa pc) k (new_reader B src) with
  | Ok (n, b) => if trusted then Loaded n else check_link sha1 git_prefix (git_cid h) (pulled src (b_src b)) (Loaded n)
  | Err e => if trusted then LoadFailed e else check_link sha1 git_prefix (git_cid h) data (LoadFailed e)
  | Panic => LoadPanics
  | OutOfFuel => NotModelled
  end.
Proof.
  intros HB Hh HO. unfold load. unfold git_cid. rewrite (cid_prefix_git h Hh). cbn [px_codec px_mhtype]. rewrite !N.eqb_refl. cbn [negb].
  destruct (decode_into_end _ _ _) as [[? ?]| | |]; try reflexivity. rewrite (ho_end _ _ HO). cbn [is_eof]. unfold src_data. rewrite (ho_data _ _ HO). reflexivity.
Qed.

Lemma check_git sha1 h x r : is_sha1 sha1 ->
  check_link sha1 git_prefix (git_cid h) x r = (if beqb (sha1 x) h then r else HashMismatch).
Proof. intros HS. unfold check_link. rewrite (build_git_link _ (HS x)). reflexivity. Qed.

(** A blob is read from the bytes it is made of, whatever follows them. *)
Lemma blob_local B k data e s1 n s' :
  read_type (stream_ops B) (mk data e) = Ok (bs "blob", s1) -> decode_blob (stream_ops B) k s1 = Ok (n, s') ->
  exists size content,
    data = bs "blob " ++ size ++ [NUL] ++ content ++ st_data s' /\ ~ In NUL size /\
    numeral size (Z.of_nat (length content)) /\
    build_bytes k (git_object (bs "blob") content) = Ok n /\
    forall rest e', decode_into (stream_ops B) k (mk (bs "blob " ++ size ++ [NUL] ++ content ++ rest) e') = Ok n.
Proof.
  intros T D. unfold read_type in T. cbn [rd_string stream_ops] in T. unfold stream_string, mk in T. cbn [st_data st_err] in T.
  destruct (cut SP data) as [[l r]|] eqn:C; cbn [bind] in T.
  2:{ destruct (is_eof e); discriminate. }
  apply cut_some in C as (l' & -> & -> & Nl). rewrite go_drop_last_snoc in T. cbn [bind] in T. injection T as -> <-.
  unfold decode_blob, read_number in D. cbn [rd_string rd_copy stream_ops] in D. unfold stream_string at 1, mk in D. cbn [st_data st_err] in D.
  destruct (cut NUL r) as [[l r2]|] eqn:C; cbn [bind] in D; [|discriminate].
  apply cut_some in C as (size & -> & -> & Ns). rewrite go_drop_last_snoc in D. cbn [bind] in D.
  destruct (atoi size) as [z| | |] eqn:A; try discriminate. cbn [bind] in D.
  destruct (Z.ltb_spec z 0) as [|Hz]; [discriminate|]. unfold stream_copy, mk in D. cbn [bind st_data st_err] in D.
  set (body := takeZ z r2) in D.
  assert (r2 = body ++ dropZ z r2) as Er.
  { unfold body. rewrite takeZ_firstn, dropZ_skipn by exact Hz. symmetry. apply firstn_skipn. }
  clearbody body.
  destruct (if (Z.of_nat (length body) <? z)%Z then eof_ok e else None) as [x|]; [discriminate|].
  destruct (Z.eqb_spec (Z.of_nat (length body)) z) as [Ez|]; cbn [negb] in D; [|destruct (length body =? 0); discriminate].
  apply bind_ok in D as (n' & BB & D). assert (n' = n) as -> by congruence. assert (s' = mk (dropZ z r2) e) as -> by (unfold mk; congruence). clear D. cbn [st_data mk].
  assert (bs "blob " ++ dec_Z z ++ [NUL] ++ body = git_object (bs "blob") body) as G.
  { unfold git_object, dec_Z. destruct (Z.ltb_spec z 0); [lia|]. rewrite <- Ez, <- nat_N_Z, N2Z.id. lnorm. reflexivity. }
  exists size, body. split; [|split; [exact Ns|split; [|split]]].
  - rewrite Er at 1. lnorm. reflexivity.
  - rewrite Ez. now apply atoi_iff in A as [A _].
  - rewrite <- BB. f_equal. rewrite <- G. lnorm. reflexivity.
  - intros rest e'. unfold decode_into, read_type. cbn [rd_string stream_ops].
    change (bs "blob " ++ size ++ [NUL] ++ body ++ rest) with (bs "blob" ++ SP :: (size ++ NUL :: (body ++ rest))).
    rewrite stream_string_app by (vm_compute; intuition discriminate). cbn [bind]. rewrite go_drop_last_snoc. cbn [bind].
    change (beqb (bs "blob") (bs "tree")) with false. change (beqb (bs "blob") (bs "commit")) with false. change (beqb (bs "blob") (bs "blob")) with true. cbn iota.
    unfold decode_blob, read_number. cbn [rd_string rd_copy stream_ops]. rewrite stream_string_app by exact Ns. cbn [bind]. rewrite go_drop_last_snoc. cbn [bind].
    rewrite A. cbn [bind]. destruct (Z.ltb_spec z 0); [lia|]. unfold stream_copy. cbn [st_data st_err mk bind].
    rewrite takeZ_all, dropZ_all by lia. rewrite Ez, Z.ltb_irrefl, Z.eqb_refl. cbn [negb]. rewrite BB. reflexivity.
Qed.

(** After a successful decode: what the hasher was given, and what it was not. *)
Lemma pulled_facts B pa pc k src data n b : 2 <= B -> hands_out src data ->
  decode_into_end (bufio_ops pa pc) k (new_reader B src) = Ok (n, b) ->
  exists unread, data = pulled src (b_src b) ++ unread /\
    decode_into (stream_ops B) k (mk (pulled src (b_src b)) EEOF) = Ok n /\
    (unread = [] \/ exists size content extra,
       pulled src (b_src b) = bs "blob " ++ size ++ [NUL] ++ content ++ extra /\ ~ In NUL size /\
       numeral size (Z.of_nat (length content)) /\ build_bytes k (git_object (bs "blob") content) = Ok n).
Proof.
  intros HB HO E. pose proof (hands_out_delivers B _ _ HO) as D.
  assert (decode_into (stream_ops B) k (mk data EEOF) = Ok n) as P.
  { rewrite <- (decode_into_transfer B HB pa pc k _ _ D), <- (decode_into_end_is_decode_into _ _ _ _ (hands_out_wf B _ _ HB HO)), E. reflexivity. }
  pose proof (sim_decode_into_end _ _ _ (sim_bufio B HB true pa pc) k _ _ (sim_bufio_copy B HB true pa pc eq_refl) D) as X.
  rewrite E in X. destruct (decode_into_end (stream_ops B) k (mk data EEOF)) as [[n' s']| | |] eqn:ES; cbn [rel_res] in X; try contradiction.
  destruct X as [En X]. cbn [fst snd] in En, X. subst n'. pose proof (d_data _ _ _ _ _ X) as DD.
  set (left := src_data (so_evs (b_src b))) in *.
  assert (forall used, data = used ++ left -> pulled src (b_src b) = used) as PU.
  { intros used Q. unfold pulled. fold left. unfold src_data. rewrite (ho_data _ _ HO), Q, app_length.
    replace (length used + length left - length left) with (length used) by lia. now rewrite firstn_app, Nat.sub_diag, firstn_all, app_nil_r. }
  exists left. apply decode_into_end_eof in ES as [ES|(s1 & ET & EB)].
  - rewrite ES in DD. symmetry in DD. apply app_eq_nil in DD as [_ DD]. rewrite DD in *.
    rewrite (PU data) by (now rewrite app_nil_r). split; [now rewrite app_nil_r|]. split; [exact P|now left].
  - destruct (blob_local B k data EEOF s1 n s' ET EB) as (size & content & Ed & Ns & Nu & BB & Lo). rewrite DD in Ed.
    rewrite (PU (bs "blob " ++ size ++ [NUL] ++ content ++ window b)) by (rewrite Ed; lnorm; reflexivity).
    split; [rewrite Ed; lnorm; reflexivity|]. split.
    + apply Lo.
    + right. exists size, content, (window b). auto.
Qed.

Lemma load_ok_inv sha1 B pa pc k h src data n : 2 <= B -> is_sha1 sha1 -> is_sha h -> hands_out src data ->
  load sha1 false B pa pc k (LCid (git_cid h)) src = Loaded n ->
  exists b, decode_into_end (bufio_ops pa pc) k (new_reader B src) = Ok (n, b) /\ sha1 (pulled src (b_src b)) = h.
Proof.
  intros HB HS Hh HO. rewrite (load_git false sha1 B pa pc k h src data HB Hh HO).
  destruct (decode_into_end _ _ _) as [[n' b]|e| |]; try discriminate; rewrite check_git by exact HS.
  - destruct (beqb_spec (sha1 (pulled src (b_src b))) h) as [E|]; [|discriminate]. intros [= <-]. eauto.
  - destruct (beqb _ _); discriminate.
Qed.

(** What is loaded was decoded from bytes whose hash is in the link: all bytes of the block, or,
    for blobs only, a beginning of the block that holds the blob. *)
Theorem loaded_nodes_are_checked : forall sha1 B pa pc k h src data n,
  2 <= B -> is_sha1 sha1 -> is_sha h -> hands_out src data ->
  load sha1 false B pa pc k (LCid (git_cid h)) src = Loaded n ->
  exists hashed unread,
    data = hashed ++ unread /\ sha1 hashed = h /\
    decode_into (stream_ops B) k (mk hashed EEOF) = Ok n /\
    (unread = [] \/ exists size content extra,
       hashed = bs "blob " ++ size ++ [NUL] ++ content ++ extra /\ numeral size (Z.of_nat (length content)) /\
       build_bytes k (git_object (bs "blob") content) = Ok n).
Proof.
  intros sha1 B pa pc k h src data n HB HS Hh HO E.
  destruct (load_ok_inv _ _ _ _ _ _ _ _ _ HB HS Hh HO E) as (b & ED & EH).
  destruct (pulled_facts B pa pc k src data n b HB HO ED) as (unread & Q1 & Q2 & Q3).
  exists (pulled src (b_src b)), unread. split; [exact Q1|]. split; [exact EH|]. split; [exact Q2|].
  destruct Q3 as [Q3|(size & content & extra & ? & _ & ? & ?)]; [now left|right; eauto 8].
Qed.
Print Assumptions loaded_nodes_are_checked.

(** Both cases of the conclusion occur: a commit read whole, and a blob followed by data nobody hashes. *)
Example loaded_nodes_are_checked_applies :
  load sha1 false 80 (fun _ _ => 511) (fun _ _ => 511) BCommit (LCid (git_cid (sha1 commit_object)))
    (chunks [firstn 50 commit_object; skipn 50 commit_object] EEOF) = Loaded (NCommit (commit_value sample_commit)) /\
  load sha1 false 80 (fun _ _ => 511) (fun _ _ => 511) BBlob (LCid (git_cid (sha1 small_blob)))
    (chunks [small_blob; trailing] EEOF) = Loaded (NBlob small_blob).
Proof. split; vm_compute; reflexivity. Qed.

Lemma not_blob B pa pc k src data n b : 2 <= B -> hands_out src data -> ~ begins_with (bs "blob ") data ->
  decode_into_end (bufio_ops pa pc) k (new_reader B src) = Ok (n, b) -> pulled src (b_src b) = data.
Proof.
  intros HB HO NB E. destruct (pulled_facts B pa pc k src data n b HB HO E) as (unread & Q1 & _ & [->|(size & content & extra & Q & _)]).
  - now rewrite app_nil_r in Q1.
  - exfalso. apply NB. exists (size ++ [NUL] ++ content ++ extra ++ unread). rewrite Q1, Q. lnorm. reflexivity.
Qed.

(** Every outcome, for blocks that are not blobs: it depends on the bytes of the block only.  A panic
    of the builder comes before the check of the hash. *)
Theorem trees_commits_and_tags_load_exactly : forall sha1 B pa pc k h src data,
  2 <= B -> is_sha1 sha1 -> is_sha h -> hands_out src data -> ~ begins_with (bs "blob ") data ->
  let r := decode_into (stream_ops B) k (mk data EEOF) in
  let answer := load sha1 false B pa pc k (LCid (git_cid h)) src in
  (sha1 data = h -> (forall n, r = Ok n -> answer = Loaded n) /\ (forall e, r = Err e -> answer = LoadFailed e)) /\
  (sha1 data <> h -> r <> Panic -> answer = HashMismatch) /\
  (r = Panic -> answer = LoadPanics).
Proof.
  intros sha1 B pa pc k h src data HB HS Hh HO NB r answer.
  pose proof (hands_out_delivers B _ _ HO) as D.
  assert (map_res fst (decode_into_end (bufio_ops pa pc) k (new_reader B src)) = r) as P.
  { unfold r. rewrite <- (decode_into_transfer B HB pa pc k _ _ D). apply decode_into_end_is_decode_into. eapply hands_out_wf; eassumption. }
  assert (r <> OutOfFuel) as NF.
  { unfold r. rewrite decoding_into_a_builder. destruct (decoding_never_panics pa pc _ (hands_out_wf B _ _ HB HO)) as [[n X]|[e X]];
      rewrite (parse_transfer B HB pa pc _ _ D) in X; rewrite X; cbn [bind]; [|discriminate].
    destruct (parsed_kind _ _ _ X) as (k' & K & _).
    assert (forall a c : bkind, {a = c} + {a <> c}) as dec by decide equality.
    destruct (dec k k') as [->|Nk]; [rewrite (given_same _ _ K); discriminate|].
    destruct (dec k BAny) as [->|Na]; [destruct n; discriminate|].
    destruct (dec k BTree) as [->|Nt].
    - destruct (dec k' BCommit) as [->|]; [rewrite given_crash by auto; discriminate|].
      destruct (dec k' BTag) as [->|]; [rewrite given_crash by auto; discriminate|].
      destruct (given_other BTree k' n K Nk Na) as [e ->]; [intros [_ [?|?]]; contradiction|discriminate].
    - destruct (given_other k k' n K Nk Na) as [e ->]; [intros [? _]; contradiction|discriminate]. }
  unfold answer. rewrite (load_git false sha1 B pa pc k h src data HB Hh HO).
  destruct (decode_into_end _ _ _) as [[n b]|e| |] eqn:E; cbn in P; try rewrite <- P; [| | |congruence].
  - rewrite check_git by exact HS. rewrite (not_blob B pa pc k src data n b HB HO NB E).
    destruct (beqb_spec (sha1 data) h); split; try split; intros; try split; intros; try congruence.
  - rewrite check_git by exact HS. destruct (beqb_spec (sha1 data) h); split; try split; intros; try split; intros; try congruence.
  - split; [split; discriminate|]. split; [congruence|reflexivity].
Qed.
Print Assumptions trees_commits_and_tags_load_exactly.

(** A commit loads under its own hash and under no other; into a tree builder it panics. *)
Example trees_commits_and_tags_load_exactly_applies :
  ~ begins_with (bs "blob ") commit_object /\
  decode_into (stream_ops 80) BCommit (mk commit_object EEOF) = Ok (NCommit (commit_value sample_commit)) /\
  decode_into (stream_ops 80) BTree (mk commit_object EEOF) = Panic /\
  load sha1 false 80 (fun _ _ => 511) (fun _ _ => 511) BCommit (LCid (git_cid (sha1 small_blob)))
    (chunks [firstn 50 commit_object; skipn 50 commit_object] EEOF) = HashMismatch.
Proof.
  split; [intros [rest E]; vm_compute in E; discriminate|]. split; [vm_compute; reflexivity|]. split; vm_compute; reflexivity.
Qed.

Lemma first_nul (a b x y : bytes) : ~ In NUL a -> ~ In NUL b ->
  bs "blob " ++ a ++ [NUL] ++ x = bs "blob " ++ b ++ [NUL] ++ y -> a = b /\ x = y.
Proof.
  intros Ha Hb E. apply app_inv_head in E. cbn [app] in E. apply (f_equal (cut NUL)) in E. rewrite !cut_app in E by assumption.
  injection E as E1 E2. split; [|exact E2]. now apply app_inj_tail in E1 as [E1 _].
Qed.

Lemma blob_object c : git_object (bs "blob") c = bs "blob " ++ dec (N.of_nat (length c)) ++ [NUL] ++ c.
Proof. reflexivity. Qed.

(** A well formed object is pulled whole. *)
Lemma whole_object B B' pa pc k src n text b : 2 <= B -> stands_for B' n text -> hands_out src text -> object_kind n k ->
  decode_into_end (bufio_ops pa pc) k (new_reader B src) = Ok (n, b) -> pulled src (b_src b) = text.
Proof.
  intros HB SF HO K E. destruct (pulled_facts B pa pc k src text n b HB HO E) as (unread & Q1 & _ & [->|(size & content & extra & Q & Ns & _ & BB)]).
  { now rewrite app_nil_r in Q1. }
  destruct SF as [content' F|es F O|g F O|g F O]; cbn in K; subst k; cbn [build_bytes] in BB; try discriminate.
  assert (git_object (bs "blob") content = git_object (bs "blob") content') as G by congruence.
  rewrite !blob_object in G. apply first_nul in G as [_ ->]; [|apply dec_no_nul|apply dec_no_nul].
  rewrite Q in Q1. rewrite blob_object in Q1.
  replace ((bs "blob " ++ size ++ [NUL] ++ content' ++ extra) ++ unread) with (bs "blob " ++ size ++ [NUL] ++ content' ++ extra ++ unread) in Q1 by (lnorm; reflexivity).
  apply first_nul in Q1 as [Q1 Q2]; [|apply dec_no_nul|exact Ns].
  rewrite <- (app_nil_r content') in Q2 at 1. apply app_inv_head in Q2. symmetry in Q2. apply app_eq_nil in Q2 as [-> ->].
  rewrite Q, app_nil_r, <- Q1. reflexivity.
Qed.

Lemma whole_load B pa pc k src n text : 64 <= B -> stands_for B n text -> object_kind n k -> hands_out src text ->
  exists b, decode_into_end (bufio_ops pa pc) k (new_reader B src) = Ok (n, b) /\ pulled src (b_src b) = text.
Proof.
  intros HB SF K HO.
  destruct (nodes_survive B pa pc _ n text HB SF (hands_out_delivers B _ _ HO)) as [_ P].
  destruct (decoding_into_the_matching_builder _ _ (bufio_ops pa pc) k (new_reader B src)) as [M _]. specialize (M n P K).
  rewrite <- (decode_into_end_is_decode_into _ _ _ _ (hands_out_wf B _ _ ltac:(lia) HO)) in M.
  destruct (decode_into_end _ _ _) as [[n' b]| | |] eqn:E; try discriminate. injection M as ->. exists b. split; [reflexivity|].
  eapply whole_object; try eassumption. lia.
Qed.

(** Well formed nodes are stored under the hash of their git object and loaded again from any source
    of its bytes. *)
Theorem stored_nodes_load : forall sha1 trusted B pa pc k n text src,
  is_sha1 sha1 -> 64 <= B -> stands_for B n text -> object_kind n k -> hands_out src text ->
  store sha1 buffer_writer [] n = Stored (hash_link sha1 text) text /\
  load sha1 trusted B pa pc k (hash_link sha1 text) src = Loaded n.
Proof.
  intros sha1 trusted B pa pc k n text src HS HB SF K HO. split.
  - apply (storing_follows_encoding sha1 n HS). apply (nodes_survive B pa pc _ n text HB SF (hands_out_delivers B _ _ HO)).
  - unfold hash_link. rewrite (load_git trusted sha1 B pa pc k _ src text ltac:(lia) (HS _) HO).
    destruct (whole_load B pa pc k src n text HB SF K HO) as (b & -> & ->). rewrite check_git, beqb_refl by exact HS. now destruct trusted.
Qed.
Print Assumptions stored_nodes_load.

Example stored_nodes_load_applies :
  stands_for 80 (NCommit (commit_value sample_commit)) commit_object /\ object_kind (NCommit (commit_value sample_commit)) BCommit /\
  hands_out (chunks [firstn 50 commit_object; skipn 50 commit_object] EEOF) commit_object.
Proof. split; [apply nodes_survive_applies|]. split; [reflexivity|apply pieces_hand_out]. Qed.

(** Links with another codec, whatever is stored under them: no decoder is found. *)
Theorem other_codecs_do_not_load : forall sha1 trusted B pa pc k codec code digest h c src,
  (cid_v1 codec h c /\ codec <> 120%N /\ multihash code digest h) \/ cid_v0 h c ->
  load sha1 trusted B pa pc k (LCid c) src = NoCodec.
Proof.
  intros sha1 trusted B pa pc k codec code digest h c src [((w & V & L & ->) & N & (hw & v & V1 & L1 & V2 & L2 & ->))|V].
  - unfold load. rewrite (cid_prefix_v1 codec code w v digest _ V L hw _ V1 L1 V2 L2 eq_refl). cbn [px_codec].
    unfold GitRaw. destruct (N.eqb_spec codec 120); [contradiction|reflexivity].
  - unfold load. rewrite (cid_prefix_v0 _ _ V). reflexivity.
Qed.
Print Assumptions other_codecs_do_not_load.

(** A CBOR link (codec 0x71) with the SHA-1 of a commit. *)
Example other_codecs_do_not_load_applies :
  let h := x11 :: x14 :: sha1 commit_object in
  cid_v1 113 h (x01 :: x71 :: h) /\ multihash 17 (sha1 commit_object) h.
Proof.
  split.
  - exists [x71]. split; [apply vi_last; [reflexivity|lia]|]. split; [cbn; lia|reflexivity].
  - exists [x11], [x14]. split; [apply vi_last; [reflexivity|lia]|]. split; [cbn; lia|].
    split; [apply vi_last; [vm_compute; reflexivity|vm_compute; reflexivity]|]. split; [cbn; lia|reflexivity].
Qed.

(** With TrustedStorage nothing is hashed: the outcome is that of decoding, whatever the hash in the link. *)
Theorem trusted_storage_is_not_checked : forall sha1 B pa pc k h src data,
  2 <= B -> is_sha h -> hands_out src data ->
  let r := decode_into (stream_ops B) k (mk data EEOF) in
  let answer := load sha1 true B pa pc k (LCid (git_cid h)) src in
  (forall n, r = Ok n -> answer = Loaded n) /\ (forall e, r = Err e -> answer = LoadFailed e) /\ (r = Panic -> answer = LoadPanics).
Proof.
  intros sha1 B pa pc k h src data HB Hh HO r answer.
  assert (map_res fst (decode_into_end (bufio_ops pa pc) k (new_reader B src)) = r) as P.
  { unfold r. rewrite <- (decode_into_transfer B HB pa pc k _ _ (hands_out_delivers B _ _ HO)). apply decode_into_end_is_decode_into. eapply hands_out_wf; eassumption. }
  unfold answer. rewrite (load_git true sha1 B pa pc k h src data HB Hh HO).
  destruct (decode_into_end _ _ _) as [[n b]|e| |]; cbn in P; rewrite <- P; (split; [|split]); congruence.
Qed.
Print Assumptions trusted_storage_is_not_checked.

Example trusted_storage_is_not_checked_applies :
  load sha1 true 80 (fun _ _ => 511) (fun _ _ => 511) BCommit (LCid (git_cid (repeat x00 20)))
    (chunks [firstn 50 commit_object; skipn 50 commit_object] EEOF) = Loaded (NCommit (commit_value sample_commit)).
Proof. vm_compute. reflexivity. Qed.

(** When the storage fails before its end, no tree, commit or tag is loaded: the failure is the answer. *)
Theorem failing_storage_does_not_load : forall sha1 B pa pc k h src,
  2 <= B -> is_sha h -> good_source src -> so_term src <> EEOF -> ~ begins_with (bs "blob ") (concat (map fst (so_evs src))) ->
  load sha1 false B pa pc k (LCid (git_cid h)) src = LoadFailed (so_term src) /\
  exists e, load sha1 true B pa pc k (LCid (git_cid h)) src = LoadFailed e.
Proof.
  intros sha1 B pa pc k h src HB Hh G T NB.
  assert (wf_reader (new_reader B src)) as W.
  { apply wf_new; [exact HB|]. split; [apply (gs_full _ _ G)|].
    intros c I. apply in_split in I as (pre & post & E). destruct (gs_err _ _ G _ _ _ _ E) as [_ Q]. now apply (gs_full _ _ G). }
  assert (never_says_eof (new_reader B src)) as NE.
  { split; [discriminate|]. split; [exact T|]. intros c I. apply in_split in I as (pre & post & E). destruct (gs_err _ _ G _ _ _ _ E) as [_ Q]. now apply T. }
  assert (exists e, decode_into (bufio_ops pa pc) k (new_reader B src) = Err e) as [e E].
  { rewrite decoding_into_a_builder. destruct (decoding_never_panics pa pc _ W) as [[n X]|[e X]]; rewrite X; cbn [bind]; [|eauto].
    destruct (failures_are_reported pa pc _ n W NE X) as (size & content & rest & D & _). exfalso. apply NB.
    exists (size ++ [NUL] ++ content ++ rest). exact D. }
  rewrite <- (decode_into_end_is_decode_into pa pc k _ W) in E.
  unfold load, git_cid. rewrite (cid_prefix_git h Hh). cbn [px_codec px_mhtype]. rewrite !N.eqb_refl. cbn [negb].
  destruct (decode_into_end _ _ _) as [[n b]|e'| |]; try discriminate. injection E as ->. split; [|eauto].
  destruct (so_term src); try reflexivity. now elim T.
Qed.
Print Assumptions failing_storage_does_not_load.

Example failing_storage_does_not_load_applies :
  let src := chunks [firstn 50 commit_object] (EOther 5) in
  good_source src /\ so_term src <> EEOF /\ ~ begins_with (bs "blob ") (concat (map fst (so_evs src))).
Proof.
  split; [|split; [discriminate|intros [rest E]; vm_compute in E; discriminate]].
  apply chunks_good; [vm_compute; intuition discriminate|discriminate].
Qed.

(** ** Links with a shortened hash

    The length in the link says how much of the hash is compared: DecodeBlock refuses such links, loading
    does not, and a link with an empty hash loads any block. *)
Definition short_cid (m : nat) (sum : bytes) : bytes := x01 :: x78 :: x11 :: byte_of_N (N.of_nat m) :: firstn m sum.

Lemma short_prefix m sum : m <= 20 ->
  cid_prefix (short_cid m sum) = Ok {| px_version := 1; px_codec := GitRaw; px_mhtype := SHA1; px_mhlen := N.of_nat m |}.
Proof.
  intros H. unfold cid_prefix, short_cid. assert (forall l, cid_is_v0 (x01 :: x78 :: l) = false) as ->.
  { intros l. unfold cid_is_v0. now rewrite !andb_false_r. }
  do 21 (destruct m as [|m]; [reflexivity|]). lia.
Qed.

Theorem short_hashes_are_enough_refuted : forall sha1 B pa pc k n text src m sum,
  is_sha1 sha1 -> 64 <= B -> stands_for B n text -> object_kind n k -> hands_out src text -> m < 20 -> is_sha sum ->
  firstn m sum = firstn m (sha1 text) ->
  load sha1 false B pa pc k (LCid (short_cid m sum)) src = Loaded n /\
  decode_block B (short_cid m sum) text = Err EInvalidCidPrefix.
Proof.
  intros sha1 B pa pc k n text src m sum HS HB SF K HO Hm Hs Es. split.
  - unfold load. rewrite short_prefix by lia. cbn [px_codec px_mhtype]. rewrite !N.eqb_refl. cbn [negb].
    destruct (whole_load B pa pc k src n text HB SF K HO) as (b & -> & ->). unfold check_link, build_link. cbn [px_version px_mhlen].
    rewrite N.eqb_refl. cbn [negb]. unfold lenN. rewrite (HS text). destruct (N.ltb_spec (N.of_nat 20) (N.of_nat m)); [lia|].
    rewrite Nat2N.id, <- Es. fold (short_cid m sum). now rewrite beqb_refl.
  - unfold decode_block. rewrite short_prefix by lia. cbn [bind px_codec px_mhtype px_mhlen]. rewrite !N.eqb_refl. cbn [negb orb].
    unfold SHA1_len. destruct (N.eqb_spec (N.of_nat m) 20); [lia|reflexivity].
Qed.
Print Assumptions short_hashes_are_enough_refuted.

(** One byte of the hash is enough, and none at all. *)
Example short_hashes_are_enough_applies :
  let sum := firstn 1 (sha1 commit_object) ++ repeat x00 19 in
  is_sha sum /\ firstn 1 sum = firstn 1 (sha1 commit_object) /\ sum <> sha1 commit_object /\
  short_cid 0 sum = [x01; x78; x11; x00].
Proof. split; [vm_compute; reflexivity|]. split; [vm_compute; reflexivity|]. split; [vm_compute; discriminate|reflexivity]. Qed.

(** ** Data after a blob

    The same block, under the hash of all its bytes: it loads or fails depending on how the storage hands
    it out; and a block can load under a hash that is not its own. *)
Definition in_one : source := chunks [small_blob ++ trailing] EEOF.
Definition in_two : source := chunks [small_blob; trailing] EEOF.

Lemma in_one_hands : hands_out in_one (small_blob ++ trailing).
Proof. split; [reflexivity|reflexivity|apply chunks_good; [vm_compute; intuition discriminate|discriminate]|apply chunks_joint]. Qed.
Lemma in_two_hands : hands_out in_two (small_blob ++ trailing).
Proof. split; [reflexivity|reflexivity|apply chunks_good; [vm_compute; intuition discriminate|discriminate]|apply chunks_joint]. Qed.

Theorem loading_blobs_is_exact_refuted : forall sha1,
  is_sha1 sha1 -> sha1 small_blob <> sha1 (small_blob ++ trailing) ->
  let go := load sha1 false default_B (fun _ _ => 511) (fun _ _ => 511) BBlob in
  go (hash_link sha1 (small_blob ++ trailing)) in_one = Loaded (NBlob small_blob) /\
  go (hash_link sha1 (small_blob ++ trailing)) in_two = HashMismatch /\
  go (hash_link sha1 small_blob) in_one = HashMismatch /\
  go (hash_link sha1 small_blob) in_two = Loaded (NBlob small_blob).
Proof.
  intros sha1 HS N go. unfold go, hash_link.
  assert (2 <= default_B) as HB by (vm_compute; lia).
  rewrite !(load_git false sha1 default_B _ _ BBlob _ in_one _ HB (HS _) in_one_hands), !(load_git false sha1 default_B _ _ BBlob _ in_two _ HB (HS _) in_two_hands).
  set (run := fun src => decode_into_end (bufio_ops (fun _ _ => 511) (fun _ _ => 511)) BBlob (new_reader default_B src)).
  assert (map_res (fun nb => (fst nb, pulled in_one (b_src (snd nb)))) (run in_one) = Ok (NBlob small_blob, small_blob ++ trailing)) as R1 by (vm_compute; reflexivity).
  assert (map_res (fun nb => (fst nb, pulled in_two (b_src (snd nb)))) (run in_two) = Ok (NBlob small_blob, small_blob)) as R2 by (vm_compute; reflexivity).
  fold (run in_one). fold (run in_two).
  destruct (run in_one) as [[n1 b1]| | |]; try discriminate R1. destruct (run in_two) as [[n2 b2]| | |]; try discriminate R2.
  cbn [map_res bind fst snd] in R1, R2. injection R1 as -> P1. injection R2 as -> P2.
  change (pulled in_one (b_src b1) = small_blob ++ trailing) in P1.
  cbn iota. rewrite P1, P2, !check_git by exact HS. rewrite !beqb_refl, (beqb_neq _ _ N), (beqb_neq (sha1 (small_blob ++ trailing)) (sha1 small_blob)) by (intros Q; now apply N). auto.
Qed.
Print Assumptions loading_blobs_is_exact_refuted.

Example loading_blobs_is_exact_applies : is_sha1 sha1 /\ sha1 small_blob <> sha1 (small_blob ++ trailing).
Proof. split; [apply sha1_is_sha1|vm_compute; discriminate]. Qed.
