(** C67: what becomes of commits and tags that break off (CutSpec.v). *)
From Verif Require Import Base GoStr Cid Types Nodes Reader Bufio Person Assemble Decode Encode Spec HeaderSpec ErrorSpec NormalSpec CutSpec
  ReaderSpec StreamFacts PersonFacts DecodeFacts RoundTrip CommitFacts GrammarFacts NormalFacts PrefixFacts CanonFacts Checks
  Sim BufioFacts NumFacts SafeOps SafeBufio Transfer Props_decode ErrorFacts Props_grammar Props_error Props_roundtrip CutFacts.

Lemma begins_git_object typ text cut rest : git_object typ text = cut ++ rest ->
  begins_with cut typ \/
  (exists x, cut = typ ++ [SP] ++ x /\ begins_with x (dec (N.of_nat (length text)))) \/
  (exists x, cut = typ ++ [SP] ++ dec (N.of_nat (length text)) ++ [NUL] ++ x /\ text = x ++ rest).
Proof.
  intros E. unfold git_object in E. assert (begins_with cut (typ ++ [SP] ++ dec (N.of_nat (length text)) ++ [NUL] ++ text)) as H by (now exists rest).
  apply begins_app in H as [H|(y & -> & H & Ny)]; [now left|]. right.
  destruct y as [|c y]; [congruence|]. destruct H as [u H]. cbn [app] in H. injection H as <- H.
  assert (begins_with y (dec (N.of_nat (length text)) ++ [NUL] ++ text)) as H' by (now exists u). clear H.
  apply begins_app in H' as [H|(z & -> & H & Nz)]; [left; exists y; auto|]. right.
  destruct z as [|c z]; [congruence|]. destruct H as [v H]. cbn [app] in H. injection H as <- H.
  exists z. split; [reflexivity|]. rewrite <- !app_assoc in E. apply app_inv_head in E. cbn [app] in E. rewrite <- !app_assoc in E. injection E as E. apply app_inv_head in E. cbn [app] in E. congruence.
Qed.

Lemma map_res_inj {A C} (f : A -> C) (r r' : res A) : (forall x y, f x = f y -> x = y) -> map_res f r = map_res f r' -> r = r'.
Proof. intros H. destruct r, r'; cbn; intros E; try discriminate; auto; [f_equal; apply H; congruence|congruence]. Qed.

Section Stream.
Variable B : nat.
Hypothesis HB : 64 <= B.

Lemma read_cut_header A (K : A -> node) typ text (table : bytes -> res A -> Prop) cut r : In typ (bs "tag" :: sized_types) ->
  (forall cut r, table cut r -> parse_object (stream_ops B) (mk (typ ++ [SP] ++ dec (N.of_nat (length text)) ++ [NUL] ++ cut) EEOF) = map_res K r) ->
  cut_object typ text table cut r -> parse_object (stream_ops B) (mk cut EEOF) = map_res K r.
Proof.
  intros I Ht H. destruct H as [cut H|cut H|cut r H].
  - apply parse_err; [exact HB|]. apply or_no_type. intros J. apply (sized_no_sp typ I). now apply (begins_in _ cut).
  - apply parse_err; [exact HB|]. apply or_no_size; [exact I|]. intros J. apply (dec_no_nul (N.of_nat (length text))). now apply (begins_in _ cut).
  - now apply Ht.
Qed.

Lemma parse_cut_commit g cut r : commit_ok B g -> fits (commit_text g) ->
  cut_object (bs "commit") (commit_text g) (cut_commit g) cut r -> parse_object (stream_ops B) (mk cut EEOF) = map_res NCommit r.
Proof.
  intros HG F. apply read_cut_header; [cbn; auto|]. clear cut r. intros cut r H. apply (cut_commit_sound B HB g HG) in H.
  assert (atoi (dec (N.of_nat (length (commit_text g)))) = Ok (Z.of_nat (length (commit_text g)))) as A.
  { rewrite atoi_dec; [now rewrite nat_N_Z|]. unfold fits in F. lia. }
  rewrite sized_tree_commit by (auto using dec_no_nul). rewrite A. cbn [bind]. change (beqb (bs "commit") (bs "tree")) with false. cbn iota.
  destruct r as [c|e| |]; cbn [outcome] in H; try contradiction.
  - apply (commit_run_iff B HB) in H. unfold commit_run in H. cbn [mk st_data] in H. unfold mk in *. now rewrite H.
  - apply (commit_run_err B HB) in H. unfold commit_run in H. cbn [mk st_data] in H. unfold mk in *. now rewrite H.
Qed.
Lemma parse_cut_tag g cut r : tag_ok B g ->
  cut_object (bs "tag") (tag_text g) (cut_tag g) cut r -> parse_object (stream_ops B) (mk cut EEOF) = map_res NTag r.
Proof.
  intros HG. apply read_cut_header; [cbn; auto|]. clear cut r. intros cut r H. apply (cut_tag_sound B HB g HG) in H.
  change (bs "tag" ++ [SP] ++ dec (N.of_nat (length (tag_text g))) ++ [NUL] ++ cut) with (bs "tag " ++ dec (N.of_nat (length (tag_text g))) ++ [NUL] ++ cut).
  rewrite parse_tag_any by apply dec_no_nul.
  destruct r as [t|e| |]; cbn [tag_outcome] in H; try contradiction.
  - destruct H as [pr H]. apply (tag_run_iff B HB) in H. now rewrite H.
  - apply (tag_run_err B HB) in H. now rewrite H.
Qed.
End Stream.

(** C67: every proper beginning of a commit is in the table, in one way, and decoding it gives
    what the table says. *)
Theorem truncated_commits : forall B pa pc b g cut rest,
  64 <= B -> commit_ok B g -> fits (commit_text g) ->
  git_object (bs "commit") (commit_text g) = cut ++ rest -> rest <> [] ->
  delivers B true b (mk cut EEOF) ->
  exists r,
    cut_object (bs "commit") (commit_text g) (cut_commit g) cut r /\
    (forall r', cut_object (bs "commit") (commit_text g) (cut_commit g) cut r' -> r' = r) /\
    parse_object (bufio_ops pa pc) b = map_res NCommit r.
Proof.
  intros B pa pc b g cut rest HB HG F E Nr D.
  assert (exists r, cut_object (bs "commit") (commit_text g) (cut_commit g) cut r) as [r R].
  { destruct (begins_git_object _ _ _ _ E) as [H|[(x & -> & H)|(x & -> & H)]].
    - eexists. now apply cut_object_type.
    - eexists. now apply cut_object_size.
    - destruct (cut_commit_total B g HG x rest H Nr) as [r R]. exists r. now apply cut_object_text. }
  exists r. split; [exact R|]. split.
  - intros r' R'. apply (map_res_inj NCommit); [congruence|]. rewrite <- (parse_cut_commit B HB g cut r' HG F R'). now apply (parse_cut_commit B HB g).
  - rewrite (parse_transfer B ltac:(lia) pa pc _ _ D). now apply (parse_cut_commit B HB g).
Qed.
Print Assumptions truncated_commits.

Theorem truncated_tags : forall B pa pc b g cut rest,
  64 <= B -> tag_ok B g ->
  git_object (bs "tag") (tag_text g) = cut ++ rest -> rest <> [] ->
  delivers B true b (mk cut EEOF) ->
  exists r,
    cut_object (bs "tag") (tag_text g) (cut_tag g) cut r /\
    (forall r', cut_object (bs "tag") (tag_text g) (cut_tag g) cut r' -> r' = r) /\
    parse_object (bufio_ops pa pc) b = map_res NTag r.
Proof.
  intros B pa pc b g cut rest HB HG E Nr D.
  assert (exists r, cut_object (bs "tag") (tag_text g) (cut_tag g) cut r) as [r R].
  { destruct (begins_git_object _ _ _ _ E) as [H|[(x & -> & H)|(x & -> & H)]].
    - eexists. now apply cut_object_type.
    - eexists. now apply cut_object_size.
    - destruct (cut_tag_total B g HG x rest H Nr) as [r R]. exists r. now apply cut_object_text. }
  exists r. split; [exact R|]. split.
  - intros r' R'. apply (map_res_inj NTag); [congruence|]. rewrite <- (parse_cut_tag B HB g cut r' HG R'). now apply (parse_cut_tag B HB g).
  - rewrite (parse_transfer B ltac:(lia) pa pc _ _ D). now apply (parse_cut_tag B HB g).
Qed.
Print Assumptions truncated_tags.

(** ** What is lost is missed *)
Lemma header_message ks : c_message (header_value ks) = [].
Proof. now rewrite header_value_fields. Qed.
Lemma cut_block_message c k ls q c' : cut_block c k ls q (Ok c') -> c_message c' = c_message c.
Proof.
  intros H. remember (Ok c') as r eqn:Er.
  destruct H as [? ? ? ? ? ? ? ? ? ?|? ? ? r ?|? ? ? r ?|? ? ? r ?|? ? ? r ?|? ? ?|? ? ? ?|? ? ? ? ? r ?|? ? ? ? ? ? ? ? r ? ?|? ? ? ?|? ? ? ?|? ? ? ? ? ? ? ? ?|? ? ? ? ?|? ? ?|? ? ? ? ? ? ?|? ? ? ? ? ?|? ? ? ? ? ? ? ? ? ?|? ? ? ? ? ? ? ?];
    try discriminate Er; try (injection Er as <-; reflexivity); destruct r; try discriminate Er; injection Er as <-; reflexivity.
Qed.

Lemma cut_object_ok {A} typ text (table : bytes -> res A -> Prop) cut c : cut_object typ text table cut (Ok c) ->
  exists x, cut = typ ++ [SP] ++ dec (N.of_nat (length text)) ++ [NUL] ++ x /\ table x (Ok c).
Proof. intros H. remember (Ok c) as r eqn:Er. destruct H; try discriminate Er. eauto. Qed.
Lemma cut_commit_message g x c : cut_commit g x (Ok c) ->
  c_message c = [] \/ x = unlines (commit_lines g) ++ [NL] ++ c_message c.
Proof.
  intros H. remember (Ok c) as r eqn:Er. destruct H as [m H|before after E N|before after E M|before k after ls l more q r E El Hq H].
  - injection Er as <-. now right.
  - injection Er as <-. left. apply header_message.
  - discriminate Er.
  - subst r. left. apply cut_block_message in H. now rewrite header_message in H.
Qed.
Lemma tag_of_message ts : forall m, t_message (tag_of ts m) = m.
Proof.
  intros m. unfold tag_of. set (t := {| t_object := LNil; t_type := []; t_tag := []; t_tagger := zero_person; t_message := m |}). transitivity (t_message t); [|reflexivity]. generalize t. clear.
  induction ts as [|x ts IH]; intros t; [reflexivity|]. cbn [fold_left]. rewrite IH. now destruct x.
Qed.
Lemma cut_tag_message g x t : cut_tag g x (Ok t) ->
  t_message t = [] \/ x = unlines (tag_lines g) ++ [NL] ++ t_message t.
Proof.
  intros H. remember (Ok t) as r eqn:Er. destruct H as [m H| |before l after q r E Hq H].
  - injection Er as <-. right. now rewrite tag_of_message.
  - injection Er as <-. left. apply tag_of_message.
  - subst r. left. assert (t_message t = t_message (tag_of before [])) as K; [|now rewrite tag_of_message in K].
    remember (Ok t) as r eqn:Er. destruct H as [?|? ? ? ? ?|? ? ? r ?|? ? ?|? ? ?|? ? ? r ?]; try (injection Er as <-; reflexivity);
      destruct r; try discriminate Er; injection Er as <-; reflexivity.
Qed.
Lemma git_object_inj typ text text' rest : git_object typ text = (typ ++ [SP] ++ dec (N.of_nat (length text)) ++ [NUL] ++ text') ++ rest -> text = text' ++ rest.
Proof. unfold git_object. intros E. rewrite <- !app_assoc in E. now do 4 apply app_inv_head in E. Qed.
Lemma app_self {A} (a rest : list A) : a = a ++ rest -> rest = [].
Proof. intros E. rewrite <- (app_nil_r a) in E at 1. now apply app_inv_head in E. Qed.

(** A commit with a message, or a tag, is not what any of its proper beginnings stands for. *)
Theorem no_cut_gives_the_commit : forall B pa pc b g cut rest,
  64 <= B -> commit_ok B g -> fits (commit_text g) -> gc_message g <> [] ->
  git_object (bs "commit") (commit_text g) = cut ++ rest -> rest <> [] ->
  delivers B true b (mk cut EEOF) ->
  parse_object (bufio_ops pa pc) b <> Ok (NCommit (commit_value g)).
Proof.
  intros B pa pc b g cut rest HB HG F Nm E Nr D X.
  destruct (truncated_commits B pa pc b g cut rest HB HG F E Nr D) as (r & R & _ & P). rewrite P in X. clear P D.
  destruct r as [c|? | |]; try discriminate X. injection X as ->. apply cut_object_ok in R as (x & -> & R). apply git_object_inj in E.
  destruct (cut_commit_message _ _ _ R) as [M|M]; cbn [commit_value c_message] in M; [congruence|].
  apply Nr, (app_self x). rewrite <- E at 1. now rewrite M.
Qed.
Print Assumptions no_cut_gives_the_commit.
Theorem no_cut_gives_the_tag : forall B pa pc b g cut rest,
  64 <= B -> tag_ok B g ->
  git_object (bs "tag") (tag_text g) = cut ++ rest -> rest <> [] ->
  delivers B true b (mk cut EEOF) ->
  parse_object (bufio_ops pa pc) b <> Ok (NTag (tag_value g)).
Proof.
  intros B pa pc b g cut rest HB HG E Nr D X. pose proof HG as (_ & _ & Nm & _).
  destruct (truncated_tags B pa pc b g cut rest HB HG E Nr D) as (r & R & _ & P). rewrite P in X. clear P D.
  destruct r as [t|? | |]; try discriminate X. injection X as ->. apply cut_object_ok in R as (x & -> & R). apply git_object_inj in E.
  destruct (cut_tag_message _ _ _ R) as [M|M]; cbn [tag_value t_message] in M; [congruence|].
  apply Nr, (app_self x). rewrite <- E at 1. now rewrite M.
Qed.
Print Assumptions no_cut_gives_the_tag.

(** A commit without a message loses its blank line unnoticed. *)
Theorem blank_line_can_be_missing : forall B pa pc b g,
  64 <= B -> commit_ok B g -> fits (commit_text g) -> gc_message g = [] -> ~ ends_in_mergetag (commit_blocks g) ->
  delivers B true b (mk (bs "commit " ++ dec (N.of_nat (length (commit_text g))) ++ [NUL] ++ unlines (commit_lines g)) EEOF) ->
  parse_object (bufio_ops pa pc) b = Ok (NCommit (commit_value g)).
Proof.
  intros B pa pc b g HB HG F Em Ne D. rewrite (parse_transfer B ltac:(lia) pa pc _ _ D).
  rewrite (parse_cut_commit B HB g _ (Ok (header_value (commit_blocks g))) HG F).
  - rewrite <- blocks_value, Em. cbn [map_res bind]. do 2 f_equal. pose proof (header_message (commit_blocks g)) as M.
    destruct (header_value (commit_blocks g)). cbn in M. unfold with_message. cbn. now subst.
  - change (bs "commit " ++ dec (N.of_nat (length (commit_text g))) ++ [NUL] ++ unlines (commit_lines g)) with (bs "commit" ++ [SP] ++ dec (N.of_nat (length (commit_text g))) ++ [NUL] ++ unlines (commit_lines g)).
    apply cut_object_text. rewrite <- blocks_lines. apply (cut_between g _ []); [now rewrite app_nil_r|exact Ne].
Qed.
Print Assumptions blank_line_can_be_missing.

(** The commit of C03 with its two merge tags and its signature, cut at every byte: which cuts
    are noticed. *)
Definition sample_object : bytes := git_object (bs "commit") (commit_text sample_commit).
Definition noticed (n : nat) : bool :=
  match parse_object_from_buffer 80 (firstn n sample_object) with Ok _ => false | _ => true end.
Example truncated_commits_applies :
  commit_ok 80 sample_commit /\ fits (commit_text sample_commit) /\ gc_message sample_commit <> [] /\
  forall n, n < length sample_object ->
    sample_object = firstn n sample_object ++ skipn n sample_object /\ skipn n sample_object <> [] /\
    exists b, delivers 80 true b (mk (firstn n sample_object) EEOF).
Proof.
  split; [apply commit_okb_ok; vm_compute; reflexivity|]. split; [unfold fits; apply Z.ltb_lt; vm_compute; reflexivity|]. split; [discriminate|].
  intros n L. split; [symmetry; apply firstn_skipn|]. split.
  - intros E. pose proof (firstn_skipn n sample_object) as X. rewrite E, app_nil_r in X. apply (f_equal (@length byte)) in X. rewrite firstn_length in X. lia.
  - destruct (firstn n sample_object) as [|c x].
    + exists (new_reader 80 (chunks [] EEOF)). apply (chunks_delivers 80 []); [intros []|discriminate].
    + exists (new_reader 80 (chunks [c :: x] EEOF)). apply one_chunk_delivers; discriminate.
Qed.
(** The cuts that are noticed: in the type and size, in a hash, in a person before the '>', at
    the space that begins a line of a merge tag, in the message of a merge tag, in the signature.
    The others are not: in a word, behind the '>', in the encoding, between lines, in the message. *)
Example noticed_cuts :
  map noticed [5; 10; 11; 15; 16; 55; 56; 63; 160; 173; 174; 251; 252; 291; 292; 294; 295; 322; 335; 336] =
  [true; true; false; false; true; true; false; false; true; true; false; false; true; true; false; true; false; true; true; false] /\
  map noticed [345; 346; 364; 365; 499; 589; 590; 629] = [false; true; true; false; true; true; false; false].
Proof. split; vm_compute; reflexivity. Qed.

Example truncated_tags_applies :
  let text := git_object (bs "tag") (tag_text sample_tag) in
  tag_ok 64 sample_tag /\ text = firstn 75 text ++ skipn 75 text /\ skipn 75 text <> [] /\
  delivers 64 true (new_reader 64 (chunks [firstn 75 text] EEOF)) (mk (firstn 75 text) EEOF) /\
  cut_object (bs "tag") (tag_text sample_tag) (cut_tag sample_tag) (firstn 75 text)
    (Ok (with_name (with_type (with_object (tag_of [] []) (git_link (repeat xab 20))) (bs "commit")) (bs "v1."))).
Proof.
  cbv zeta. split; [apply tag_okb_ok; vm_compute; reflexivity|]. split; [symmetry; apply firstn_skipn|]. split; [discriminate|].
  split; [apply one_chunk_delivers; discriminate|].
  pose proof (cut_object_text (bs "tag") (tag_text sample_tag) (cut_tag sample_tag)
    (unlines (map tline_text (firstn 2 (tag_tlines sample_tag))) ++ bs "tag v1.")) as Q.
  apply Q. apply (cut_tag_line sample_tag (firstn 2 (tag_tlines sample_tag)) (TTag (bs "v1.0")) (skipn 3 (tag_tlines sample_tag))).
  - reflexivity.
  - now exists (bs "0").
  - apply (cut_tline_tag (tag_of (firstn 2 (tag_tlines sample_tag)) []) (bs "v1.0") (bs "v1.")). now exists (bs "0").
Qed.

Example blank_line_can_be_missing_applies :
  let g := {| gc_tree := repeat xab 20; gc_parents := []; gc_author := sample_person; gc_committer := sample_person; gc_encoding := None;
              gc_mergetags := [sample_mergetag]; gc_signature := None; gc_other := [bs "x y"]; gc_message := [] |} in
  commit_ok 80 g /\ fits (commit_text g) /\ gc_message g = [] /\ ~ ends_in_mergetag (commit_blocks g).
Proof.
  cbv zeta. split; [apply commit_okb_ok; vm_compute; reflexivity|]. split; [unfold fits; apply Z.ltb_lt; vm_compute; reflexivity|]. split; [reflexivity|].
  intros (ks & h & sha & ms & msg & E). apply (f_equal (@rev block)) in E. rewrite rev_app_distr in E. discriminate E.
Qed.
