(** C18, C24 to C29 and C42: what the headers of commits and tags are read as and written as. *)
From Verif Require Import Base GoStr Cid Types Nodes Reader Bufio Person Assemble Decode Encode Spec HeaderSpec NormalSpec
  ReaderSpec StreamFacts PersonFacts DecodeFacts RoundTrip CommitFacts GrammarFacts NormalFacts PrefixFacts CanonFacts
  Sim BufioFacts NumFacts Transfer Checks Props_decode Props_grammar.

(** The bytes of a commit and of a tag, with the size field as it stands in the input. *)
Notation commit_bytes size d := (bs "commit " ++ size ++ [NUL] ++ d).
Notation tag_bytes size d := (bs "tag " ++ size ++ [NUL] ++ d).

Lemma parse_commit_stream B size d : ~ In NUL size ->
  parse_object (stream_ops B) (mk (commit_bytes size d) EEOF) =
  let* _ := atoi size in map_res NCommit (commit_run B zero_commit (mk d EEOF)).
Proof.
  intros N. change (commit_bytes size d) with (bs "commit" ++ [SP] ++ size ++ [NUL] ++ d).
  rewrite sized_tree_commit by auto. change (beqb (bs "commit") (bs "tree")) with false. reflexivity.
Qed.

Lemma commit_accepted B pa pc b size d c : 64 <= B -> ~ In NUL size ->
  delivers B true b (mk (commit_bytes size d) EEOF) ->
  parse_object (bufio_ops pa pc) b = Ok (NCommit c) <-> (exists z, numeral size z /\ int_range z) /\ commit_means B d c.
Proof.
  intros HB N D. rewrite (parse_transfer B ltac:(lia) pa pc _ _ D), parse_commit_stream by exact N. split.
  - intros E. apply bind_ok in E as (z & A & E). apply atoi_iff in A. split; [eauto|].
    unfold map_res in E. apply bind_ok in E as (c' & E & Q). apply (commit_run_iff B HB). congruence.
  - intros ((z & A) & M). apply atoi_iff in A. rewrite A. cbn [bind]. apply (commit_run_iff B HB) in M. rewrite M. reflexivity.
Qed.

Lemma tag_accepted B pa pc b size d t : 64 <= B -> ~ In NUL size ->
  delivers B true b (mk (tag_bytes size d) EEOF) ->
  parse_object (bufio_ops pa pc) b = Ok (NTag t) <-> exists pr, tag_means B d t pr.
Proof.
  intros HB N D. rewrite (parse_transfer B ltac:(lia) pa pc _ _ D), parse_tag_any by exact N. split.
  - intros E. apply bind_ok in E as ([t' pr] & E & Q). exists pr. apply (tag_run_iff B HB). congruence.
  - intros (pr & M). apply (tag_run_iff B HB) in M. rewrite M. reflexivity.
Qed.

(** ** C18, C24, C25: every field of a decoded commit or tag

    An accepted commit is a sequence of blocks [ks] and an ending.  The tree, author,
    committer, encoding and signature are the last ones given, and absent if there is none;
    the parents, merge tags and other lines are all of them, in order; the message is what
    follows the blank line, unchanged, and empty without a blank line. *)
Theorem commit_fields_come_from_its_lines : forall B pa pc b size d c,
  64 <= B -> ~ In NUL size ->
  delivers B true b (mk (commit_bytes size d) EEOF) ->
  parse_object (bufio_ops pa pc) b = Ok (NCommit c) ->
  exists ks en,
    reads B d (header_lines ks ++ ending_lines en) (message en) /\ (forall k, In k ks -> block_ok k) /\
    c_tree c = match last_of (trees ks) with Some sha => git_link sha | None => LNil end /\
    (c_tree c = LNil <-> forall h sha, ~ In (KTree h sha) ks) /\
    c_parents c = map git_link (parents ks) /\
    c_author c = last_of (authors ks) /\
    c_committer c = last_of (committers ks) /\
    c_encoding c = last_of (encodings ks) /\
    c_signature c = option_map (fun sg => unlines (fst sg :: snd sg)) (last_of (signatures ks)) /\
    c_mergetag c = map mergetag_value (mergetags ks en) /\
    c_other c = others ks /\
    c_message c = message en.
Proof.
  intros B pa pc b size d c HB N D E. apply (commit_accepted B pa pc b size d c HB N D) in E as [_ (ks & en & R & Hk & He & Hm & ->)].
  exists ks, en. rewrite commit_fields. cbn [c_tree c_parents c_message c_author c_committer c_encoding c_signature c_mergetag c_other].
  split; [destruct en; exact R|]. split; [exact Hk|]. split; [reflexivity|]. split; [|repeat (split; [reflexivity|]); reflexivity].
  destruct (last_of (trees ks)) as [s|] eqn:Et; cbn [link_of].
  - split; [discriminate|]. intros H. exfalso. apply last_of_some in Et as [p Et].
    assert (In s (trees ks)) as I by (rewrite Et, in_app_iff; right; now left). apply in_trees in I as [h I]. now apply (H h s).
  - split; [|reflexivity]. intros _ h sha I. apply last_of_none in Et.
    assert (In sha (trees ks)) as J by (apply in_trees; eauto). rewrite Et in J. destruct J.
Qed.
Print Assumptions commit_fields_come_from_its_lines.

Theorem tag_fields_come_from_its_lines : forall B pa pc b size d t,
  64 <= B -> ~ In NUL size ->
  delivers B true b (mk (tag_bytes size d) EEOF) ->
  parse_object (bufio_ops pa pc) b = Ok (NTag t) ->
  exists ts (msg : option bytes),
    reads B d (map tline_text ts ++ match msg with Some _ => [[]] | None => [] end) (or_else msg []) /\
    (forall x, In x ts -> tline_ok x) /\
    t_object t = match last_of (tobjects ts) with Some sha => git_link sha | None => LNil end /\
    (t_object t = LNil <-> forall h sha, ~ In (TObject h sha) ts) /\
    t_type t = or_else (last_of (ttypes ts)) [] /\
    t_tag t = or_else (last_of (ttags ts)) [] /\
    t_tagger t = or_else (last_of (ttaggers ts)) zero_person /\
    t_message t = or_else msg [].
Proof.
  intros B pa pc b size d t HB N D E. apply (tag_accepted B pa pc b size d t HB N D) in E as (pr & ts & msg & R & Ht & -> & _).
  exists ts, msg. rewrite tag_fields. cbn [t_object t_type t_tag t_tagger t_message].
  split; [destruct msg; exact R|]. split; [exact Ht|]. split; [reflexivity|].
  split; [|split; [reflexivity|split; [reflexivity|split; [reflexivity|destruct msg; reflexivity]]]].
  destruct (last_of (tobjects ts)) as [s|] eqn:Et; cbn [link_of].
  - split; [discriminate|]. intros H. exfalso. apply last_of_some in Et as [p Et].
    assert (In s (tobjects ts)) as I by (rewrite Et, in_app_iff; right; now left). apply in_tobjects in I as [h I]. now apply (H h s).
  - split; [|reflexivity]. intros _ h sha I. apply last_of_none in Et.
    assert (In sha (tobjects ts)) as J by (apply in_tobjects; eauto). rewrite Et in J. destruct J.
Qed.
Print Assumptions tag_fields_come_from_its_lines.

Definition some_sha : bytes := repeat xaa 20.
Definition some_hex : bytes := hex_encode some_sha.
Definition some_person : person := {| p_date := bs "1"; p_timezone := bs "+0"; p_email := bs "a"; p_name := bs "A" |}.
Definition one_byte : nat -> nat -> nat := fun _ _ => 1.

Lemma some_hex_ok : hex_text some_hex some_sha /\ is_sha some_sha.
Proof. split; vm_compute; reflexivity. Qed.
Lemma some_line_ok w : w = bs "author " \/ w = bs "committer " \/ w = bs "tagger " -> person_line (w ++ bs "A <a> 1 +0") some_person.
Proof. intros [-> |[-> | ->]]; apply person_line_iff; reflexivity. Qed.

(** A commit with two trees, two parents, no author and a message with carriage returns and
    a NUL in it. *)
Example commit_fields_come_from_its_lines_applies :
  let d := bs "parent " ++ some_hex ++ [NL] ++ bs "tree " ++ repeat x30 40 ++ [NL] ++ bs "parent " ++ repeat x30 40 ++ [NL]
           ++ bs "tree " ++ some_hex ++ [NL; NL] ++ bs "m" ++ [CR; NL; NUL; NL] in
  let b := new_reader default_B (chunks [commit_bytes (bs "0") d] EEOF) in
  ~ In NUL (bs "0") /\ delivers default_B true b (mk (commit_bytes (bs "0") d) EEOF) /\
  exists c, parse_object (bufio_ops one_byte one_byte) b = Ok (NCommit c) /\
    c_tree c = git_link some_sha /\ c_parents c = [git_link some_sha; git_link (repeat x00 20)] /\ c_author c = None /\
    c_message c = bs "m" ++ [CR; NL; NUL; NL].
Proof.
  intros d b. split; [cbn; intuition discriminate|]. split; [apply one_chunk_delivers; discriminate|].
  eexists. split; [vm_compute; reflexivity|]. repeat split.
Qed.

Example tag_fields_come_from_its_lines_applies :
  let d := bs "tag t" ++ [NL] ++ bs "nonsense" ++ [NL; NL] ++ bs "m" in
  let b := new_reader default_B (chunks [tag_bytes (bs "?") d] EEOF) in
  ~ In NUL (bs "?") /\ delivers default_B true b (mk (tag_bytes (bs "?") d) EEOF) /\
  exists t, parse_object (bufio_ops one_byte one_byte) b = Ok (NTag t) /\ t_object t = LNil /\ t_tag t = bs "t" /\ t_message t = bs "m".
Proof.
  intros d b. split; [cbn; intuition discriminate|]. split; [apply one_chunk_delivers; discriminate|].
  eexists. split; [vm_compute; reflexivity|]. repeat split.
Qed.

(** ** C24: the message, whatever it contains, is read unchanged after any header *)
Theorem commit_message_is_read_verbatim : forall B pa pc b size z ks msg,
  64 <= B -> numeral size z -> int_range z ->
  (forall k, In k ks -> block_ok k) -> mergetags_end ks (EndMessage msg) ->
  (forall l, In l (header_lines ks) -> line_ok B l) ->
  delivers B true b (mk (commit_bytes size (unlines (header_lines ks) ++ [NL] ++ msg)) EEOF) ->
  parse_object (bufio_ops pa pc) b = Ok (NCommit (with_message (header_value ks) msg)).
Proof.
  intros B pa pc b size z ks msg HB A1 A2 Hk Hm Hl D. apply (commit_accepted B pa pc _ _ _ _ HB (numeral_no_nul _ _ A1) D).
  split; [eauto|]. exists ks, (EndMessage msg). split; [|split; [exact Hk|split; [exact Logic.I|split; [exact Hm|reflexivity]]]].
  apply reads_app. exists ([NL] ++ msg). split; [now apply reads_unlines|]. econstructor; [|constructor].
  apply (takes_nl B [] msg); cbn; [auto|intros [[|] R]; discriminate R|lia].
Qed.
Print Assumptions commit_message_is_read_verbatim.

Theorem tag_message_is_read_verbatim : forall B pa pc b size ts msg,
  64 <= B -> ~ In NUL size ->
  (forall t, In t ts -> tline_ok t) -> (forall t, In t ts -> line_ok B (tline_text t)) ->
  delivers B true b (mk (tag_bytes size (unlines (map tline_text ts) ++ [NL] ++ msg)) EEOF) ->
  parse_object (bufio_ops pa pc) b = Ok (NTag (tag_of ts msg)).
Proof.
  intros B pa pc b size ts msg HB N Ht Hl D. apply (tag_accepted B pa pc _ _ _ _ HB N D).
  exists (ignored ts), ts, (Some msg). split; [|auto].
  apply reads_app. exists ([NL] ++ msg). split.
  - apply reads_unlines. intros l I. apply in_map_iff in I as (t & <- & I). auto.
  - econstructor; [|constructor]. apply (takes_nl B [] msg); cbn; [auto|intros [[|] R]; discriminate R|lia].
Qed.
Print Assumptions tag_message_is_read_verbatim.

Example commit_message_is_read_verbatim_applies :
  let ks := [KOther (bs "x y"); KMergetag some_hex some_sha [MTag (bs "v")] [bs " m"]; KTree some_hex some_sha] in
  (forall k, In k ks -> block_ok k) /\ mergetags_end ks (EndMessage [NL; CR; NUL]) /\
  (forall l, In l (header_lines ks) -> line_ok 64 l).
Proof.
  intros ks. split; [|split].
  - intros k [<-|[<-|[<-|[]]]].
    + split; [discriminate|]. intros (w & I & r & E). cbn in I. decompose [or] I; try contradiction; subst w; discriminate E.
    + split; [apply some_hex_ok|]. split; [apply some_hex_ok|]. split; [intros m [<-|[]]; exact Logic.I|]. intros l [<-|[]]. eexists; reflexivity.
    + apply some_hex_ok.
  - cbn. auto.
  - assert (forall l, length l < 64 -> forallb (fun c => negb (byte_eqb c NL || byte_eqb c CR)) l = true -> line_ok 64 l) as L.
    { intros l Hl H. rewrite forallb_forall in H. split; [intros I; now apply H in I|]. split; [|exact Hl].
      intros [r ->]. assert (In CR (r ++ [CR])) as I by (rewrite in_app_iff; right; now left). now apply H in I. }
    intros l I. cbn in I. decompose [or] I; try contradiction; subst l; apply L; (vm_compute; lia) || (vm_compute; reflexivity).
Qed.

Example tag_message_is_read_verbatim_applies :
  tline_ok (TType (bs "commit")) /\ line_ok 64 (tline_text (TType (bs "commit"))) /\ t_message (tag_of [TType (bs "commit")] [NL; CR]) = [NL; CR].
Proof.
  split; [exact Logic.I|]. split; [|reflexivity]. split; [cbn; intuition discriminate|]. split; [|cbn; lia].
  intros [r E]. apply (f_equal (@rev _)) in E. rewrite rev_unit in E. discriminate E.
Qed.

(** ** C20, C26: a decoded commit is written back in git's order, or not at all *)
Theorem commits_are_written_in_order : forall B pa pc b size d c,
  64 <= B -> ~ In NUL size ->
  delivers B true b (mk (commit_bytes size d) EEOF) ->
  parse_object (bufio_ops pa pc) b = Ok (NCommit c) ->
  exists ks en,
    reads B d (header_lines ks ++ ending_lines en) (message en) /\ (forall k, In k ks -> block_ok k) /\
    match last_of (authors ks), last_of (committers ks) with
    | Some author, Some committer =>
        encode_bytes (NCommit c) = Ok (git_object (bs "commit") (commit_text (normal ks en author committer)))
    | _, _ => encode_bytes (NCommit c) = Panic
    end.
Proof.
  intros B pa pc b size d c HB N D E. apply (commit_accepted B pa pc b size d c HB N D) in E as [_ (ks & en & R & Hk & He & Hm & ->)].
  exists ks, en. split; [destruct en; exact R|]. split; [exact Hk|].
  destruct (last_of (authors ks)) as [a|] eqn:Ea; [|apply encode_commit_nil; auto].
  destruct (last_of (committers ks)) as [cm|] eqn:Ec; [|apply encode_commit_nil; auto].
  now apply encode_commit_normal.
Qed.
Print Assumptions commits_are_written_in_order.

(** ** C26, C46: a commit survives only if it is in git's order

    Take any commit whose header lines end with a newline and fit the buffer.  If decoding and
    encoding it yields its text again, the text is canonical: one tree, the parents, one
    author, one committer, possibly an encoding, the merge tags, possibly a signature, and
    then the other lines; and its names and emails are the ones that survive. *)
Theorem surviving_commits_are_canonical : forall B pa pc b size ks msg c,
  64 <= B -> ~ In NUL size ->
  (forall k, In k ks -> block_ok k) -> mergetags_end ks (EndMessage msg) ->
  (forall l, In l (header_lines ks) -> line_ok B l) ->
  delivers B true b (mk (commit_bytes size (unlines (header_lines ks) ++ [NL] ++ msg)) EEOF) ->
  parse_object (bufio_ops pa pc) b = Ok (NCommit c) ->
  encode_bytes (NCommit c) = Ok (git_object (bs "commit") (unlines (header_lines ks) ++ [NL] ++ msg)) ->
  exists g, commit_ok B g /\ unlines (header_lines ks) ++ [NL] ++ msg = commit_text g /\ c = commit_value g /\
    map kind ks = [0] ++ repeat 1 (length (gc_parents g)) ++ [2; 3] ++ opt_list (fun _ => [4]) (gc_encoding g)
                  ++ repeat 5 (length (gc_mergetags g)) ++ opt_list (fun _ => [6]) (gc_signature g)
                  ++ repeat 7 (length (gc_other g)).
Proof.
  intros B pa pc b size ks msg c HB N Hk Hm Hl D E O.
  assert (mergetags_end ks (EndMessage [])) as Hm0.
  { clear - Hm. induction ks as [|k ks IH]; [exact Logic.I|]. destruct k; cbn [mergetags_end] in *; try (now apply IH).
    destruct Hm as [H1 H2]. split; [|now apply IH]. destruct ks as [|[] ks]; auto. discriminate. }
  pose proof E as E0. apply (commit_accepted B pa pc _ _ _ _ HB N D) in E as [(z & A1 & A2) _].
  pose proof (commit_message_is_read_verbatim B pa pc b size z ks msg HB A1 A2 Hk Hm Hl D) as E1.
  assert (c = with_message (header_value ks) msg) as -> by congruence. change (with_message (header_value ks) msg) with (apply_ending (header_value ks) (EndMessage msg)) in *.
  destruct (last_of (authors ks)) as [a|] eqn:Ea; [|rewrite encode_commit_nil in O by (auto; exact Logic.I); discriminate].
  destruct (last_of (committers ks)) as [cm|] eqn:Ec; [|rewrite encode_commit_nil in O by (auto; exact Logic.I); discriminate].
  rewrite (encode_commit_normal ks (EndMessage msg) a cm) in O by (auto; exact Logic.I).
  assert (unlines (header_lines ks) ++ [NL] ++ msg = commit_text (normal ks (EndMessage msg) a cm)) as Q.
  { assert (git_object (bs "commit") (commit_text (normal ks (EndMessage msg) a cm)) = git_object (bs "commit") (unlines (header_lines ks) ++ [NL] ++ msg)) as O' by congruence.
    unfold git_object in O'. apply app_inv_head in O'. apply app_inv_head in O'.
    apply app_split_first in O' as [_ O']; [now symmetry| |]; apply dec_no_nul. }
  destruct (survivor B ks msg a cm Hk Hm0 Hl Ea Ec Q) as [G K]. exists (normal ks (EndMessage msg) a cm).
  split; [exact G|]. split; [exact Q|]. rewrite cblocks_kinds in K. split; [|exact K].
  destruct (last_of (trees ks)) as [s|] eqn:Et; [now apply (normal_value ks (EndMessage msg) a cm s)|].
  exfalso. destruct G as [G _]. unfold normal, is_sha in G. cbn [gc_tree] in G. rewrite Et in G. discriminate G.
Qed.
Print Assumptions surviving_commits_are_canonical.

(** ** C45: exactly which person lines are accepted, and what they stand for *)
Theorem person_lines_accepted : forall line p, parse_person line = Ok p <-> person_line line p.
Proof. exact person_line_iff. Qed.
Print Assumptions person_lines_accepted.

(** Blanks after the label, a '<' in front of each word of the email, and more words than needed. *)
Example person_lines_accepted_applies :
  person_line (bs "author   A <a <b> 1 2 3") {| p_name := bs "A"; p_email := bs "a b"; p_date := bs "1"; p_timezone := bs "2" |}
  /\ forall p, ~ person_line (bs "author A a@b 1 +0") p.
Proof.
  split; [apply person_line_iff; vm_compute; reflexivity|]. intros p H. apply person_line_iff in H. vm_compute in H. discriminate H.
Qed.
