(** The fields of decoded commits and tags, and their encoding. *)
From Verif Require Import Base GoStr Cid Types Nodes Reader Person Assemble Decode Encode Spec HeaderSpec NormalSpec
  StreamFacts PersonFacts DecodeFacts RoundTrip CommitFacts GrammarFacts.

Lemma last_of_snoc {A} (l : list A) x : last_of (l ++ [x]) = Some x.
Proof. unfold last_of. now rewrite rev_unit. Qed.
Lemma last_of_none {A} (l : list A) : last_of l = None <-> l = [].
Proof.
  unfold last_of. destruct (rev l) eqn:E; split; try discriminate; intros H.
  - rewrite <- (rev_involutive l), E. reflexivity.
  - reflexivity.
  - subst l. discriminate E.
Qed.
Lemma last_of_some {A} (l : list A) x : last_of l = Some x -> exists p, l = p ++ [x].
Proof.
  unfold last_of. destruct (rev l) eqn:E; [discriminate|]. intros H. injection H as ->.
  exists (rev l0). rewrite <- (rev_involutive l), E. reflexivity.
Qed.

Lemma flat_map_snoc {A C} (f : A -> list C) l x : flat_map f (l ++ [x]) = flat_map f l ++ f x.
Proof. rewrite flat_map_app. cbn. now rewrite app_nil_r. Qed.

Lemma fold_snoc {A C} (f : C -> A -> C) l x c : fold_left f (l ++ [x]) c = f (fold_left f l c) x.
Proof. now rewrite fold_left_app. Qed.

(** ** Commits *)
Definition link_of (o : option bytes) : link := match o with Some s => git_link s | None => LNil end.

Lemma normal_mtag sha ms : forall msg,
  mtag_value sha ms (unlines msg) = mergetag_value (normal_mergetag sha ms msg).
Proof.
  intros msg. unfold mtag_value, mergetag_value, normal_mergetag. cbn [gm_object gm_type gm_tag gm_tagger gm_message].
  induction ms as [|m ms IH] using rev_ind; [reflexivity|].
  rewrite fold_snoc, IH. unfold mtypes, mtags, mtaggers. rewrite !flat_map_snoc.
  destruct m; cbn [mline_apply t_object t_type t_tag t_tagger t_message]; rewrite ?app_nil_r, ?last_of_snoc; reflexivity.
Qed.

Lemma header_value_fields ks : header_value ks =
  {| c_tree := link_of (last_of (trees ks)); c_parents := map git_link (parents ks); c_message := [];
     c_author := last_of (authors ks); c_committer := last_of (committers ks); c_encoding := last_of (encodings ks);
     c_signature := option_map (fun sg => unlines (fst sg :: snd sg)) (last_of (signatures ks));
     c_mergetag := map mergetag_value (mergetags ks EndNone); c_other := others ks |}.
Proof.
  unfold header_value. induction ks as [|k ks IH] using rev_ind; [reflexivity|].
  rewrite fold_snoc, IH. clear IH. unfold trees, parents, authors, committers, encodings, signatures, others, mergetags.
  rewrite !flat_map_snoc, !app_nil_r.
  destruct k; cbn [apply_block with_tree with_parents with_author with_committer with_encoding with_signature with_mergetags with_other
    c_tree c_parents c_message c_author c_committer c_encoding c_signature c_mergetag c_other];
    unfold with_tree, with_parents, with_author, with_committer, with_encoding, with_signature, with_mergetags, with_other;
    cbn [c_tree c_parents c_message c_author c_committer c_encoding c_signature c_mergetag c_other];
    rewrite ?app_nil_r, ?last_of_snoc, ?map_app; cbn [map option_map link_of fst snd]; try rewrite normal_mtag; reflexivity.
Qed.

Lemma commit_fields ks en : apply_ending (header_value ks) en =
  {| c_tree := link_of (last_of (trees ks)); c_parents := map git_link (parents ks); c_message := message en;
     c_author := last_of (authors ks); c_committer := last_of (committers ks); c_encoding := last_of (encodings ks);
     c_signature := option_map (fun sg => unlines (fst sg :: snd sg)) (last_of (signatures ks));
     c_mergetag := map mergetag_value (mergetags ks en); c_other := others ks |}.
Proof.
  rewrite header_value_fields. unfold mergetags. rewrite !map_app. destruct en as [|msg|h sha ms]; cbn [apply_ending message].
  - reflexivity.
  - unfold with_message. cbn [c_tree c_parents c_message c_author c_committer c_encoding c_signature c_mergetag c_other]. reflexivity.
  - unfold with_mergetags. cbn [c_tree c_parents c_message c_author c_committer c_encoding c_signature c_mergetag c_other].
    rewrite app_nil_r. cbn [map]. rewrite <- normal_mtag. reflexivity.
Qed.

Lemma in_trees ks s : In s (trees ks) <-> exists h, In (KTree h s) ks.
Proof.
  unfold trees. rewrite in_flat_map. split.
  - intros (k & I & J). destruct k; cbn in J; try contradiction; destruct J as [->|[]]. eauto.
  - intros [h I]. eexists. split; [exact I|]. now left.
Qed.
Lemma in_parents ks s : In s (parents ks) <-> exists h, In (KParent h s) ks.
Proof.
  unfold parents. rewrite in_flat_map. split.
  - intros (k & I & J). destruct k; cbn in J; try contradiction; destruct J as [->|[]]. eauto.
  - intros [h I]. eexists. split; [exact I|]. now left.
Qed.

Section Ok.
Context (ks : list block) (Hk : forall k, In k ks -> block_ok k).
Lemma trees_sha s : In s (trees ks) -> is_sha s.
Proof. rewrite in_trees. intros [h I]. apply (Hk _ I). Qed.
Lemma parents_sha s : In s (parents ks) -> is_sha s.
Proof. rewrite in_parents. intros [h I]. apply (Hk _ I). Qed.
Lemma mergetags_sha en m : ending_ok en -> In m (mergetags ks en) -> is_sha (gm_object m).
Proof.
  intros He. unfold mergetags. rewrite in_app_iff, in_flat_map. intros [(k & I & J)|J].
  - destruct k; cbn in J; try contradiction; destruct J as [<-|[]]. cbn. apply (Hk _ I).
  - destruct en; cbn in J; try contradiction; destruct J as [<-|[]]. cbn. apply He.
Qed.
Lemma last_tree_sha s : last_of (trees ks) = Some s -> is_sha s.
Proof. intros E. apply last_of_some in E as [p E]. apply trees_sha. rewrite E, in_app_iff. right; now left. Qed.
End Ok.

Lemma encode_commit_normal ks en a c :
  (forall k, In k ks -> block_ok k) -> ending_ok en ->
  last_of (authors ks) = Some a -> last_of (committers ks) = Some c ->
  encode_bytes (NCommit (apply_ending (header_value ks) en)) =
  Ok (git_object (bs "commit") (commit_text (normal ks en a c))).
Proof.
  intros Hk He Ha Hc. rewrite commit_fields, Ha, Hc.
  apply encode_bytes_framed. cbn [encode_node]. unfold encode_commit. cbn [assign_commit].
  unfold commit_body. cbn [c_tree c_parents c_author c_committer c_mergetag c_signature c_other c_encoding c_message].
  assert (link_sha (link_of (last_of (trees ks))) = Ok (or_else (last_of (trees ks)) [])) as ->.
  { destruct (last_of (trees ks)) eqn:E; [|reflexivity]. apply link_sha_git. eapply last_tree_sha; eauto. }
  cbn [bind].
  rewrite (concat_res_map parent_body git_link (fun p => [bs "parent " ++ hex_encode p])).
  2:{ intros p I. unfold parent_body. rewrite link_sha_git by (eapply parents_sha; eauto). cbn [bind]. rewrite unlines_cons, unlines_nil. lnorm. reflexivity. }
  cbn [bind git_string_ptr].
  rewrite (concat_res_map mergetag_body mergetag_value mergetag_lines).
  2:{ intros m I. apply mergetag_body_value. eapply mergetags_sha; eauto. }
  cbn [bind]. rewrite concat_map_single, !git_string_text. do 2 f_equal.
  unfold commit_text, commit_lines, normal. cbn [gc_tree gc_parents gc_author gc_committer gc_encoding gc_mergetags gc_signature gc_other gc_message].
  rewrite !unlines_app, !unlines_cons, unlines_nil.
  fold (unlines (others ks)).
  destruct (last_of (encodings ks)) as [e|]; destruct (last_of (signatures ks)) as [[s0 ss]|]; cbn [opt_list option_map fst snd];
    rewrite ?unlines_nil, ?unlines_cons, ?unlines_nil; unfold signature_lines; cbn [fst snd];
    rewrite ?unlines_app, ?unlines_cons, ?unlines_nil; lnorm; reflexivity.
Qed.

Lemma concat_res_ok {A} (f : A -> res bytes) l : (forall x, In x l -> exists b, f x = Ok b) -> exists b, concat_res f l = Ok b.
Proof.
  induction l as [|x l IH]; intros H; [cbn; eauto|]. cbn [concat_res].
  destruct (H x) as [a Ea]; [now left|]. destruct IH as [b Eb]; [intros; apply H; now right|]. rewrite Ea, Eb. cbn. eauto.
Qed.

Lemma encode_commit_nil ks en :
  (forall k, In k ks -> block_ok k) -> ending_ok en ->
  last_of (authors ks) = None \/ last_of (committers ks) = None ->
  encode_bytes (NCommit (apply_ending (header_value ks) en)) = Panic.
Proof.
  intros Hk He Hn. rewrite commit_fields. unfold encode_bytes, encode. cbn [encode_node]. unfold encode_commit. cbn [assign_commit].
  unfold commit_body. cbn [c_tree c_parents c_author c_committer c_mergetag c_signature c_other c_encoding c_message].
  assert (link_sha (link_of (last_of (trees ks))) = Ok (or_else (last_of (trees ks)) [])) as ->.
  { destruct (last_of (trees ks)) eqn:E; [|reflexivity]. apply link_sha_git. eapply last_tree_sha; eauto. }
  cbn [bind].
  rewrite (concat_res_map parent_body git_link (fun p => [bs "parent " ++ hex_encode p])).
  2:{ intros p I. unfold parent_body. rewrite link_sha_git by (eapply parents_sha; eauto). cbn [bind]. rewrite unlines_cons, unlines_nil. lnorm. reflexivity. }
  cbn [bind git_string_ptr]. destruct Hn as [->| ->]; [reflexivity|].
  destruct (last_of (authors ks)); reflexivity.
Qed.

Lemma normal_value ks en a c s :
  last_of (authors ks) = Some a -> last_of (committers ks) = Some c -> last_of (trees ks) = Some s ->
  apply_ending (header_value ks) en = commit_value (normal ks en a c).
Proof. intros Ha Hc Ht. rewrite commit_fields, Ha, Hc, Ht. unfold commit_value, normal. cbn. now rewrite Ht. Qed.

(** ** Tags *)
Lemma tag_fields ts msg : tag_of ts msg =
  {| t_object := link_of (last_of (tobjects ts)); t_type := or_else (last_of (ttypes ts)) [];
     t_tag := or_else (last_of (ttags ts)) []; t_tagger := or_else (last_of (ttaggers ts)) zero_person; t_message := msg |}.
Proof.
  unfold tag_of. induction ts as [|t ts IH] using rev_ind; [reflexivity|].
  rewrite fold_snoc, IH. unfold tobjects, ttypes, ttags, ttaggers. rewrite !flat_map_snoc.
  destruct t; cbn [tline_apply t_object t_type t_tag t_tagger t_message]; rewrite ?app_nil_r, ?last_of_snoc; reflexivity.
Qed.

Lemma in_tobjects ts s : In s (tobjects ts) <-> exists h, In (TObject h s) ts.
Proof.
  unfold tobjects. rewrite in_flat_map. split.
  - intros (k & I & J). destruct k; cbn in J; try contradiction; destruct J as [->|[]]. eauto.
  - intros [h I]. eexists. split; [exact I|]. now left.
Qed.
Lemma tobjects_sha ts s : (forall t, In t ts -> tline_ok t) -> last_of (tobjects ts) = Some s -> is_sha s.
Proof.
  intros H E. apply last_of_some in E as [p E]. assert (In s (tobjects ts)) as I by (rewrite E, in_app_iff; right; now left).
  apply in_tobjects in I as [h I]. apply (H _ I).
Qed.

Lemma encode_tag_normal ts msg : (forall t, In t ts -> tline_ok t) ->
  encode_bytes (NTag (tag_of ts msg)) = Ok (git_object (bs "tag") (tag_text_short (normal_tag ts msg))).
Proof.
  intros Ht. rewrite tag_fields. apply encode_bytes_framed. cbn [encode_node]. unfold encode_tag, tag_body.
  change (lookup_by_string (NTag ?t) (bs "object")) with (Ok (NLink (t_object t))).
  change (lookup_by_string (NTag ?t) (bs "type")) with (Ok (NString (t_type t))).
  change (lookup_by_string (NTag ?t) (bs "tag")) with (Ok (NString (t_tag t))).
  change (lookup_by_string (NTag ?t) (bs "message")) with (Ok (NString (t_message t))).
  change (lookup_by_string (NTag ?t) (bs "tagger")) with (Ok (NPerson (t_tagger t))).
  cbn [bind as_link as_string t_object t_type t_tag t_message t_tagger is_null assign_person].
  assert (link_sha (link_of (last_of (tobjects ts))) = Ok (or_else (last_of (tobjects ts)) [])) as ->.
  { destruct (last_of (tobjects ts)) eqn:E; [|reflexivity]. apply link_sha_git. eapply tobjects_sha; eauto. }
  cbn [bind]. do 2 f_equal.
  unfold tag_text_short, tag_lines, normal_tag. cbn [gt_object gt_type gt_tag gt_tagger gt_message].
  rewrite !unlines_cons, unlines_nil, git_string_text.
  destruct msg as [|m msg]; [change (beqb [] []) with true|rewrite beqb_neq by discriminate]; rewrite ?app_nil_r; lnorm; reflexivity.
Qed.
