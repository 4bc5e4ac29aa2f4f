(** C44: exactly which bytes are accepted, and what they stand for. *)
From Verif Require Import Base GoStr Cid Types Nodes Reader Bufio Person Assemble Decode Encode Spec HeaderSpec
  ReaderSpec StreamFacts PersonFacts DecodeFacts RoundTrip CommitFacts GrammarFacts Sim BufioFacts NumFacts Transfer
  Checks Props_decode.

Lemma stream_string_inv c d e l s : stream_string c (mk d e) = Ok (l, None, s) ->
  exists p r, d = p ++ [c] ++ r /\ ~ In c p /\ l = p ++ [c] /\ s = mk r e.
Proof.
  unfold stream_string. cbn [mk st_data st_err]. destruct (cut c d) as [[l' r]|] eqn:E; [|discriminate].
  intros Q. injection Q as <- <-. apply cut_some in E as (p & -> & -> & N). exists p, r. rewrite <- app_assoc. auto.
Qed.

(** The shape of whatever is accepted. *)
Lemma parse_shape B d n : parse_object (stream_ops B) (mk d EEOF) = Ok n ->
  exists typ size body, d = typ ++ [SP] ++ size ++ [NUL] ++ body /\ ~ In NUL size /\
    (typ = bs "tree" \/ typ = bs "commit" \/ typ = bs "blob" \/ typ = bs "tag").
Proof.
  unfold parse_object, read_type. change (rd_string (stream_ops B)) with stream_string. intros E.
  apply bind_ok in E as ([typ0 s1] & E1 & E). apply bind_ok in E1 as ([[l e] s2] & Es & E1).
  destruct e as [e|]; [destruct (is_eof e); discriminate|].
  apply stream_string_inv in Es as (typ & r & -> & _ & -> & ->). rewrite go_drop_last_snoc in E1. cbn [bind] in E1.
  injection E1 as <- <-.
  assert (forall e' l' s', stream_string NUL (mk r EEOF) = Ok (l', e', s') ->
            e' <> None \/ exists size body, r = size ++ [NUL] ++ body /\ ~ In NUL size) as K.
  { intros [e'|] l' s' Q; [left; discriminate|right]. apply stream_string_inv in Q as (size & body & -> & N & _). eauto. }
  destruct (beqb_spec typ (bs "tree")) as [->|_].
  { unfold decode_tree, read_number in E. change (rd_string (stream_ops B)) with stream_string in E.
    apply bind_ok in E as ([z s3] & E1 & _). apply bind_ok in E1 as ([[l e] s4] & Es & E1).
    destruct (K _ _ _ Es) as [X|(size & body & -> & N)]; [destruct e; [discriminate|congruence]|]. exists (bs "tree"), size, body. auto 10. }
  destruct (beqb_spec typ (bs "commit")) as [->|_].
  { unfold decode_commit, read_number in E. change (rd_string (stream_ops B)) with stream_string in E.
    apply bind_ok in E as ([z s3] & E1 & _). apply bind_ok in E1 as ([[l e] s4] & Es & E1).
    destruct (K _ _ _ Es) as [X|(size & body & -> & N)]; [destruct e; [discriminate|congruence]|]. exists (bs "commit"), size, body. auto 10. }
  destruct (beqb_spec typ (bs "blob")) as [->|_].
  { unfold map_res in E. apply bind_ok in E as ([n' s5] & E & _). unfold decode_blob, read_number in E.
    change (rd_string (stream_ops B)) with stream_string in E.
    apply bind_ok in E as ([z s3] & E1 & _). apply bind_ok in E1 as ([[l e] s4] & Es & E1).
    destruct (K _ _ _ Es) as [X|(size & body & -> & N)]; [destruct e; [discriminate|congruence]|]. exists (bs "blob"), size, body. auto 10. }
  destruct (beqb_spec typ (bs "tag")) as [->|_]; [|discriminate].
  unfold decode_tag, map_res in E. apply bind_ok in E as ([n' s5] & E & _). unfold decode_tag_printing in E.
  change (rd_string (stream_ops B)) with stream_string in E. apply bind_ok in E as ([[l e] s4] & Es & E1).
  destruct (K _ _ _ Es) as [X|(size & body & -> & N)]; [destruct e; [discriminate|congruence]|]. exists (bs "tag"), size, body. auto 10.
Qed.

Lemma parse_tag_any B size body e : ~ In NUL size ->
  parse_object (stream_ops B) (mk (bs "tag " ++ size ++ [NUL] ++ body) e) =
  let* (t, _) := tag_run B zero_tag [] (mk body e) in Ok (NTag t).
Proof.
  intros N. unfold parse_object. change (bs "tag " ++ size ++ [NUL] ++ body) with (bs "tag" ++ [SP] ++ size ++ [NUL] ++ body).
  rewrite read_type_app by (cbn; intuition discriminate). cbn [bind].
  change (beqb (bs "tag") (bs "tree")) with false. change (beqb (bs "tag") (bs "commit")) with false.
  change (beqb (bs "tag") (bs "blob")) with false. change (beqb (bs "tag") (bs "tag")) with true. cbn iota.
  rewrite parse_tag_header_any by exact N. reflexivity.
Qed.

(** C44 *)
Theorem accepted_objects : forall B pa pc b d n,
  64 <= B ->
  delivers B true b (mk d EEOF) ->
  (parse_object (bufio_ops pa pc) b = Ok n <-> object_means B d n).
Proof.
  intros B pa pc b d n HB D. assert (2 <= B) as HB2 by lia.
  pose proof (parse_transfer B HB2 pa pc _ _ D) as PT. split.
  - intros E. rewrite PT in E. pose proof (parse_shape B d n E) as (typ & size & body & -> & N & T).
    destruct T as [-> | [-> | [-> | ->]]].
    + rewrite sized_tree_commit in E by auto. apply bind_ok in E as (z & A & E). rewrite beqb_refl in E.
      unfold map_res in E. apply bind_ok in E as (t & Et & E). injection E as <-. apply atoi_iff in A as [A1 A2].
      apply (om_tree B size z body t A1 A2). apply (tree_run_iff B HB). exact Et.
    + rewrite sized_tree_commit in E by auto. apply bind_ok in E as (z & A & E).
      change (beqb (bs "commit") (bs "tree")) with false in E. cbn iota in E.
      unfold map_res in E. apply bind_ok in E as (t & Et & E). injection E as <-. apply atoi_iff in A as [A1 A2].
      apply (om_commit B size z body t A1 A2). apply (commit_run_iff B HB). exact Et.
    + rewrite <- PT in E.
      destruct (blob_size_handling B pa pc b size body EEOF HB2 N D) as (H1 & H2 & H3 & H4).
      destruct (atoi size) as [z| | |] eqn:A.
      * apply atoi_iff in A as [A1 A2].
        destruct (Z.ltb_spec z 0) as [L|L]; [rewrite (H2 z) in E by auto; discriminate|].
        destruct (Z.ltb_spec (Z.of_nat (length body)) z) as [L2|L2]; [rewrite (H3 z) in E by auto; discriminate|].
        rewrite (H4 z) in E by auto. assert (n = NBlob (git_object (bs "blob") (firstn (Z.to_nat z) body))) as -> by congruence.
        assert (Z.of_nat (length (firstn (Z.to_nat z) body)) = z) as Lz by (rewrite firstn_length; lia).
        change (bs "blob" ++ [SP] ++ size ++ [NUL] ++ body) with (bs "blob " ++ size ++ [NUL] ++ body).
        rewrite <- (firstn_skipn (Z.to_nat z) body) at 1. apply om_blob; [now rewrite Lz|].
        unfold fits. rewrite Lz. apply A2.
      * exfalso. destruct H1 as [H1|H1]; [|congruence..]. intros z A1 A2. assert (atoi size = Ok z) by (now apply atoi_iff). congruence.
      * exfalso. destruct H1 as [H1|H1]; [|congruence..]. intros z A1 A2. assert (atoi size = Ok z) by (now apply atoi_iff). congruence.
      * exfalso. destruct H1 as [H1|H1]; [|congruence..]. intros z A1 A2. assert (atoi size = Ok z) by (now apply atoi_iff). congruence.
    + change (bs "tag" ++ [SP] ++ size ++ [NUL] ++ body) with (bs "tag " ++ size ++ [NUL] ++ body) in *.
      rewrite parse_tag_any in E by exact N. apply bind_ok in E as ([t pr] & Et & E). injection E as <-.
      apply (om_tag B size body t pr N). apply (tag_run_iff B HB). exact Et.
  - intros M. destruct M as [size content more A F|size z body t A1 A2 M|size z body c A1 A2 M|size body t pr N M].
    + assert (~ In NUL size) as N by eauto using numeral_no_nul.
      destruct (blob_size_handling B pa pc b size (content ++ more) EEOF HB2 N D) as (_ & _ & _ & H4).
      rewrite (H4 _ A).
      * now rewrite Nat2Z.id, firstn_app_exact by reflexivity.
      * unfold fits in F. unfold int_range. lia.
      * rewrite app_length. lia.
    + rewrite PT. change (bs "tree " ++ size ++ [NUL] ++ body) with (bs "tree" ++ [SP] ++ size ++ [NUL] ++ body).
      rewrite sized_tree_commit by eauto using numeral_no_nul. assert (atoi size = Ok z) as -> by (now apply atoi_iff). cbn [bind].
      rewrite beqb_refl. apply (tree_run_iff B HB) in M. unfold tree_run in M. cbn [mk st_data] in M.
      unfold mk in *. now rewrite M.
    + rewrite PT. change (bs "commit " ++ size ++ [NUL] ++ body) with (bs "commit" ++ [SP] ++ size ++ [NUL] ++ body).
      rewrite sized_tree_commit by eauto using numeral_no_nul. assert (atoi size = Ok z) as -> by (now apply atoi_iff). cbn [bind].
      change (beqb (bs "commit") (bs "tree")) with false. cbn iota. apply (commit_run_iff B HB) in M. unfold commit_run in M. cbn [mk st_data] in M.
      unfold mk in *. now rewrite M.
    + rewrite PT, parse_tag_any by exact N. apply (tag_run_iff B HB) in M. rewrite M. reflexivity.
Qed.
Print Assumptions accepted_objects.

(** The same bytes never stand for two objects: the specification is a function. *)
Theorem meaning_is_unique : forall B d n n',
  64 <= B -> object_means B d n -> object_means B d n' -> n = n'.
Proof.
  intros B d n n' HB M M'.
  destruct d as [|x d]; [exfalso; inversion M as [? ? ? ? ? E|? ? ? ? ? ? ? E|? ? ? ? ? ? ? E|? ? ? ? ? ? E]; discriminate E|].
  pose (pa := fun _ _ : nat => 1).
  assert (delivers B true (new_reader B (chunks [x :: d] EEOF)) (mk (x :: d) EEOF)) as D by (apply one_chunk_delivers; discriminate).
  apply (accepted_objects B pa pa _ _ _ HB D) in M. apply (accepted_objects B pa pa _ _ _ HB D) in M'. congruence.
Qed.
Print Assumptions meaning_is_unique.

(** A commit in an unusual order, with carriage returns, an upper case hash, a merge tag with
    a line the decoder does not know, and no newline at its end. *)
Example accepted_objects_applies :
  let h := repeat x41 40 in let sha := repeat xaa 20 in
  let p := {| p_date := bs "1"; p_timezone := bs "+0"; p_email := bs "a"; p_name := bs "A" |} in
  let d := bs "mergetag object " ++ h ++ [NL] ++ bs " type commit" ++ [NL] ++ bs "?" ++ [NL] ++ bs " " ++ [NL] ++ bs " m" ++ [NL]
           ++ bs "author A <a> 1 +0" ++ [CR; NL] ++ bs "tree " ++ h ++ [NL] ++ bs "hello" in
  let c := header_value [KMergetag h sha [MType (bs "commit"); MIgnored (bs "?")] [bs " m"];
                         KAuthor (bs "A <a> 1 +0") p; KTree h sha; KOther (bs "hello")] in
  object_means 64 (bs "commit " ++ bs "9" ++ [NUL] ++ d) (NCommit c) /\
  c_tree c = git_link sha /\ c_other c = [bs "hello"] /\ c_author c = Some p /\ c_committer c = None /\
  c_mergetag c = [{| t_object := git_link sha; t_type := bs "commit"; t_tag := []; t_tagger := zero_person; t_message := bs " m" ++ [NL] |}].
Proof.
  intros h sha p d c. split; [|repeat split].
  apply (om_commit 64 (bs "9") 9%Z).
  - apply (num_plain (bs "9") 9%N); [discriminate|reflexivity].
  - unfold int_range; lia.
  - apply commit_run_iff; [lia|]. vm_compute. reflexivity.
Qed.
