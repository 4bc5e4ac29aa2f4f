(** C01 - C07: round trips. *)
From Verif Require Import Base GoStr Cid Types Nodes Reader Bufio Person Assemble Decode Encode Spec
  ReaderSpec StreamFacts PersonFacts DecodeFacts RoundTrip CommitFacts Sim BufioFacts Transfer Checks.

(** In every statement below [b] is a buffered reader (bufio.NewReader wraps the given
    reader in one, or reuses it), [B] the size of its buffer (4096 by default),
    and [pa], [pc] the sizes of the reads of io.ReadAll and io.Copy. *)

(** C01 *)
Theorem blob_bytes_survive : forall B pa pc b content,
  64 <= B -> fits content ->
  delivers B true b (mk (git_object (bs "blob") content) EEOF) ->
  exists n,
    parse_object (bufio_ops pa pc) b = Ok n /\
    as_bytes n = Ok (git_object (bs "blob") content) /\
    encode_bytes n = Ok (git_object (bs "blob") content).
Proof.
  intros B pa pc b content HB F D. exists (NBlob (git_object (bs "blob") content)).
  rewrite (parse_transfer B ltac:(lia) pa pc _ _ D).
  split; [|split; reflexivity].
  pose proof (parse_blob B HB content [] EEOF F) as P. now rewrite app_nil_r in P.
Qed.
Print Assumptions blob_bytes_survive.

Example blob_bytes_survive_applies :
  let content := [x00; xff; x0a] in
  fits content /\
  delivers 64 true (new_reader 64 (chunks [bs "bl"; bs "ob 3"; [x00; x00]; [xff; x0a]] EEOF))
    (mk (git_object (bs "blob") content) EEOF).
Proof.
  split; [unfold fits; cbn; lia|]. apply (chunks_delivers 64 [bs "bl"; bs "ob 3"; [x00; x00]; [xff; x0a]] EEOF).
  - cbn. intuition discriminate.
  - discriminate.
Qed.

(** C02 *)
Theorem tree_bytes_survive : forall B pa pc b es,
  64 <= B -> fits (tree_text es) -> tree_ok es ->
  delivers B true b (mk (git_object (bs "tree") (tree_text es)) EEOF) ->
  exists n,
    parse_object (bufio_ops pa pc) b = Ok n /\
    n = NTree (tree_value es) /\
    encode_bytes n = Ok (git_object (bs "tree") (tree_text es)).
Proof.
  intros B pa pc b es HB F H D. exists (NTree (tree_value es)).
  rewrite (parse_transfer B ltac:(lia) pa pc _ _ D). split; [|split; [reflexivity|]].
  - now rewrite parse_tree.
  - apply encode_tree_value. apply H.
Qed.
Print Assumptions tree_bytes_survive.

Example tree_bytes_survive_applies :
  let es := [(bs "100644", bs "a b", repeat xff 20); (bs "40000", bs "", repeat x00 20); ([], bs "c", repeat x20 20)] in
  tree_ok es /\ fits (tree_text es) /\
  delivers 64 true (new_reader 64 (chunks [git_object (bs "tree") (tree_text es)] EEOF))
    (mk (git_object (bs "tree") (tree_text es)) EEOF).
Proof.
  intros es. split; [apply tree_okb_ok; vm_compute; reflexivity|split].
  - unfold fits. cbn. lia.
  - apply one_chunk_delivers; discriminate.
Qed.

(** C03 *)
Theorem commit_bytes_survive : forall B pa pc b g,
  64 <= B -> fits (commit_text g) -> commit_ok B g ->
  delivers B true b (mk (git_object (bs "commit") (commit_text g)) EEOF) ->
  exists n,
    parse_object (bufio_ops pa pc) b = Ok n /\
    n = NCommit (commit_value g) /\
    encode_bytes n = Ok (git_object (bs "commit") (commit_text g)).
Proof.
  intros B pa pc b g HB F H D. exists (NCommit (commit_value g)).
  rewrite (parse_transfer B ltac:(lia) pa pc _ _ D). split; [|split; [reflexivity|]].
  - now apply parse_commit.
  - destruct H as (Ht & Hp & _ & _ & Hm & _). apply encode_commit_value; auto. intros m I. apply (Hm m I).
Qed.
Print Assumptions commit_bytes_survive.

(** A commit with two parents, an encoding, two merge tags, a signature and two extra
    headers. *)
Definition sample_person : person :=
  {| p_name := bs "A U Thor"; p_email := bs "a@b"; p_date := bs "1"; p_timezone := bs "+0200" |}.
Definition sample_mergetag : gmergetag :=
  {| gm_object := repeat x12 20; gm_type := bs "commit"; gm_tag := bs "v1"; gm_tagger := sample_person;
     gm_message := [bs " hello"; bs " "; bs "  world"] |}.
Definition sample_commit : gcommit :=
  {| gc_tree := repeat xab 20; gc_parents := [repeat x01 20; repeat x02 20];
     gc_author := sample_person; gc_committer := sample_person;
     gc_encoding := Some (bs "ISO-8859-1");
     gc_mergetags := [sample_mergetag; sample_mergetag];
     gc_signature := Some (bs " Version: GnuPG v2", [bs " "; bs " iQEz"; bs " =abc"]);
     gc_other := [bs "HG:extra x"; bs " continued"];
     gc_message := bs "message" ++ [NL] ++ bs "tree 00" ++ [NUL] |}.

Example commit_bytes_survive_applies :
  commit_ok 80 sample_commit /\ fits (commit_text sample_commit) /\
  delivers 80 true (new_reader 80 (chunks [git_object (bs "commit") (commit_text sample_commit)] EEOF))
    (mk (git_object (bs "commit") (commit_text sample_commit)) EEOF).
Proof.
  split; [apply commit_okb_ok; vm_compute; reflexivity|]. split.
  - unfold fits. apply Z.ltb_lt. vm_compute. reflexivity.
  - apply one_chunk_delivers; discriminate.
Qed.

(** C04 *)
Theorem tag_bytes_survive : forall B pa pc b g,
  64 <= B -> tag_ok B g ->
  delivers B true b (mk (git_object (bs "tag") (tag_text g)) EEOF) ->
  exists n,
    parse_object (bufio_ops pa pc) b = Ok n /\
    n = NTag (tag_value g) /\
    encode_bytes n = Ok (git_object (bs "tag") (tag_text g)).
Proof.
  intros B pa pc b g HB H D. exists (NTag (tag_value g)).
  rewrite (parse_transfer B ltac:(lia) pa pc _ _ D). split; [|split; [reflexivity|]].
  - now apply parse_tag.
  - apply encode_tag_value; apply H.
Qed.
Print Assumptions tag_bytes_survive.

Definition sample_tag : gtag :=
  {| gt_object := repeat xab 20; gt_type := bs "commit"; gt_tag := bs "v1.0"; gt_tagger := sample_person;
     gt_message := bs "hello" ++ [NL; NL] ++ bs "tagger x" |}.
Example tag_bytes_survive_applies :
  tag_ok 64 sample_tag /\
  delivers 64 true (new_reader 64 (chunks [git_object (bs "tag") (tag_text sample_tag)] EEOF))
    (mk (git_object (bs "tag") (tag_text sample_tag)) EEOF).
Proof.
  split; [apply tag_okb_ok; vm_compute; reflexivity|]. apply one_chunk_delivers; discriminate.
Qed.

(** C05.  [stands_for] (Spec.v) lists the well formed nodes. *)
Theorem nodes_survive : forall B pa pc b n text,
  64 <= B -> stands_for B n text ->
  delivers B true b (mk text EEOF) ->
  encode_bytes n = Ok text /\ parse_object (bufio_ops pa pc) b = Ok n.
Proof.
  intros B pa pc b n text HB H D. rewrite (parse_transfer B ltac:(lia) pa pc _ _ D). clear D. destruct H.
  - split; [reflexivity|]. pose proof (parse_blob B HB content [] EEOF H) as P. now rewrite app_nil_r in P.
  - split; [apply encode_tree_value, H0|]. now rewrite parse_tree.
  - split; [|now apply parse_commit]. destruct H0 as (Ht & Hp & _ & _ & Hm & _).
    apply encode_commit_value; auto. intros m I. apply (Hm m I).
  - split; [|now apply parse_tag]. apply encode_tag_value; apply H0.
Qed.
Print Assumptions nodes_survive.

Example nodes_survive_applies :
  stands_for 80 (NCommit (commit_value sample_commit)) (git_object (bs "commit") (commit_text sample_commit)) /\
  stands_for 80 (NTag (tag_value sample_tag)) (git_object (bs "tag") (tag_text sample_tag)).
Proof.
  split; constructor; try (unfold fits; apply Z.ltb_lt; vm_compute; reflexivity).
  - apply commit_okb_ok. vm_compute. reflexivity.
  - apply tag_okb_ok. vm_compute. reflexivity.
Qed.

(** C06.  The type word, by node: *)
Inductive type_word : node -> bytes -> Prop :=
| tw_tree t : type_word (NTree t) (bs "tree")
| tw_tree_r t : type_word (NTreeR t) (bs "tree")
| tw_commit c : type_word (NCommit c) (bs "commit")
| tw_commit_r c : type_word (NCommitR c) (bs "commit")
| tw_tag t : type_word (NTag t) (bs "tag")
| tw_tag_r t : type_word (NTagR t) (bs "tag")
| tw_map_commit kvs : type_word (NGenMap kvs) (bs "commit")
| tw_map_tag kvs : type_word (NGenMap kvs) (bs "tag").

Lemma encode_commit_framed n e : encode_commit n = Ok e -> exists body, e = Framed (bs "commit") body.
Proof.
  unfold encode_commit. destruct (assign_commit n) as [c| | |]; try discriminate. cbn [bind].
  destruct (commit_body c); cbn [bind]; try discriminate. intros H; injection H as <-. eauto.
Qed.
Lemma encode_tree_framed n e : encode_tree n = Ok e -> exists body, e = Framed (bs "tree") body.
Proof. unfold encode_tree. destruct (tree_body n); cbn [bind]; try discriminate. intros H; injection H as <-. eauto. Qed.
Lemma encode_tag_framed n e : encode_tag n = Ok e -> exists body, e = Framed (bs "tag") body.
Proof. unfold encode_tag. destruct (tag_body n); cbn [bind]; try discriminate. intros H; injection H as <-. eauto. Qed.

Lemma encode_list_panics n : node_kind n = KList -> encode_tree n = Panic.
Proof. unfold encode_tree, tree_body. destruct n; try discriminate; reflexivity. Qed.

Theorem encode_writes_header : forall n out,
  encode_bytes n = Ok out -> node_kind n <> KBytes ->
  exists typ body, type_word n typ /\ out = typ ++ [SP] ++ dec (N.of_nat (length body)) ++ [NUL] ++ body.
Proof.
  intros n out H K. apply encode_bytes_inv in H. 
  assert (forall x, encode_node n = Ok x -> exists typ body, type_word n typ /\ x = Framed typ body) as T.
  { clear H. intros x H. destruct n; cbn [encode_node node_kind] in *; try discriminate; try congruence;
      try (cbn in H; discriminate H);
      try (change (encode_tree ?m) with (encode_tree m) in H; rewrite encode_list_panics in H by reflexivity; discriminate);
      try (apply encode_commit_framed in H as [body ->]; do 2 eexists; split; [constructor|reflexivity]);
      try (apply encode_tree_framed in H as [body ->]; do 2 eexists; split; [constructor|reflexivity]);
      try (apply encode_tag_framed in H as [body ->]; do 2 eexists; split; [constructor|reflexivity]).
    cbn [map_entries] in H. destruct kvs as [|[k v] kvs]; [discriminate|]. destruct (as_string k); try discriminate.
    cbn [bind] in H. destruct (existsb (beqb a) _).
    - apply encode_tag_framed in H as [body ->]. exists (bs "tag"), body. split; [constructor|reflexivity].
    - apply encode_commit_framed in H as [body ->]. exists (bs "commit"), body. split; [constructor|reflexivity]. }
  destruct H as [H|(typ & body & H & ->)].
  - apply T in H as (? & ? & _ & ?). discriminate.
  - destruct (T _ H) as (typ' & body' & TW & E). injection E as <- <-. exists typ, body. split; auto.
Qed.
Print Assumptions encode_writes_header.

(** Nodes that are not well formed are framed correctly as well: *)
Example encode_writes_header_applies :
  let n := NTree {| tr_t := [(bs "a", {| e_mode := bs "1 0"; e_hash := git_link (repeat x00 20) |});
                             (bs "a", {| e_mode := []; e_hash := git_link (repeat x00 20) |})]; tr_m := [] |} in
  let m := NGenMap [(NGenString (bs "tag"), NGenString (bs "t")); (NGenString (bs "object"), NGenLink LNil);
                    (NGenString (bs "type"), NGenString []); (NGenString (bs "message"), NGenString [])] in
  (exists out, encode_bytes n = Ok out) /\ node_kind n <> KBytes /\
  (exists out, encode_bytes m = Ok out) /\ node_kind m <> KBytes.
Proof. repeat split; try (eexists; vm_compute; reflexivity); discriminate. Qed.

(** C07 *)
Theorem encode_injective : forall B n1 n2 t1 t2 out,
  64 <= B -> stands_for B n1 t1 -> stands_for B n2 t2 ->
  encode_bytes n1 = Ok out -> encode_bytes n2 = Ok out -> n1 = n2.
Proof.
  intros B n1 n2 t1 t2 out HB H1 H2 E1 E2.
  set (p := fun _ _ : nat => 0).
  assert (forall n t, stands_for B n t -> t <> []) as NE by (intros n t []; discriminate).
  destruct (nodes_survive B p p _ n1 t1 HB H1 (one_chunk_delivers B t1 EEOF (NE _ _ H1) ltac:(discriminate))) as [X1 P1].
  destruct (nodes_survive B p p _ n2 t2 HB H2 (one_chunk_delivers B t2 EEOF (NE _ _ H2) ltac:(discriminate))) as [X2 P2].
  assert (t1 = t2) as -> by congruence. congruence.
Qed.
Print Assumptions encode_injective.

Example encode_injective_applies :
  exists out, stands_for 80 (NTag (tag_value sample_tag)) (git_object (bs "tag") (tag_text sample_tag)) /\
  encode_bytes (NTag (tag_value sample_tag)) = Ok out.
Proof. eexists. split; [apply nodes_survive_applies|]. vm_compute. reflexivity. Qed.

(** Without well-formedness it fails: two commits that differ in where a line
    belongs. *)
Theorem encode_not_injective_in_general :
  let c o m := NCommit {| c_tree := git_link (repeat x00 20); c_parents := []; c_message := m;
     c_author := Some sample_person; c_committer := Some sample_person; c_encoding := None;
     c_signature := None; c_mergetag := []; c_other := o |} in
  c [bs "x"] (bs "m") <> c [] (bs "m") /\
  c [bs "x"; []; bs "m"] (bs "m") <> c [bs "x"] (bs "m" ++ [NL; NL] ++ bs "m") /\
  encode_bytes (c [bs "x"; []; bs "m"] (bs "m")) = encode_bytes (c [bs "x"] (bs "m" ++ [NL; NL] ++ bs "m")).
Proof. cbv zeta. split; [discriminate|]. split; [discriminate|]. vm_compute. reflexivity. Qed.
Print Assumptions encode_not_injective_in_general.
