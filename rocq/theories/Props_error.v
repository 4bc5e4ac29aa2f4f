(** C64: which texts are refused, and with which error.  The counterpart of C44
    (Props_grammar.v): ErrorSpec.v describes what is wrong with a text, and the decoders give
    exactly the error it names. *)
From Verif Require Import Base GoStr Cid Types Nodes Reader Bufio Person Assemble Decode Encode Spec HeaderSpec ErrorSpec
  ReaderSpec StreamFacts PersonFacts DecodeFacts RoundTrip CommitFacts GrammarFacts Sim BufioFacts NumFacts SafeOps SafeBufio Transfer
  Checks Props_reader Props_decode ErrorFacts Props_grammar.

Lemma read_type_none B d : ~ In SP d -> read_type (stream_ops B) (mk d EEOF) = Err EUnexpectedEOF.
Proof. intros N. unfold read_type. change (rd_string (stream_ops B)) with stream_string. now rewrite stream_string_none. Qed.
Lemma read_number_none B d : ~ In NUL d -> read_number (stream_ops B) (mk d EEOF) = Err EEOF.
Proof. intros N. unfold read_number. change (rd_string (stream_ops B)) with stream_string. now rewrite stream_string_none. Qed.
Lemma sized_no_sp typ : In typ (bs "tag" :: sized_types) -> ~ In SP typ.
Proof. intros I. unfold sized_types in I. cbn [In] in I. decompose [or] I; subst; try contradiction; cbn; intuition discriminate. Qed.
Lemma parse_no_size B typ r : In typ (bs "tag" :: sized_types) -> ~ In NUL r ->
  parse_object (stream_ops B) (mk (typ ++ [SP] ++ r) EEOF) = Err EEOF.
Proof.
  intros I N. unfold parse_object. rewrite read_type_app by (now apply sized_no_sp). cbn [bind]. unfold sized_types in I. cbn [In] in I.
  destruct I as [<-|[<-|[<-|[<-|[]]]]].
  - change (decode_tag (stream_ops B) BTag (mk r EEOF) = Err EEOF). unfold decode_tag, decode_tag_printing.
    change (rd_string (stream_ops B)) with stream_string. now rewrite stream_string_none.
  - change (map_res fst (decode_blob (stream_ops B) BBlob (mk r EEOF)) = Err EEOF). unfold decode_blob. now rewrite read_number_none.
  - change (decode_tree (stream_ops B) BTree (mk r EEOF) = Err EEOF). unfold decode_tree. now rewrite read_number_none.
  - change (decode_commit (stream_ops B) BCommit (mk r EEOF) = Err EEOF). unfold decode_commit. now rewrite read_number_none.
Qed.
Lemma parse_unknown B typ r : ~ In SP typ -> ~ In typ (bs "tag" :: sized_types) ->
  parse_object (stream_ops B) (mk (typ ++ [SP] ++ r) EEOF) = Err (EUnknownType typ).
Proof.
  intros N K. unfold parse_object. rewrite read_type_app by exact N. cbn [bind]. unfold sized_types in K. cbn [In] in K.
  destruct (beqb_spec typ (bs "tree")) as [->|_]; [tauto|]. destruct (beqb_spec typ (bs "commit")) as [->|_]; [tauto|].
  destruct (beqb_spec typ (bs "blob")) as [->|_]; [tauto|]. destruct (beqb_spec typ (bs "tag")) as [->|_]; [tauto|]. reflexivity.
Qed.
Lemma parse_blob_any B size body : ~ In NUL size ->
  parse_object (stream_ops B) (mk (bs "blob " ++ size ++ [NUL] ++ body) EEOF) =
  let* z := atoi size in
  if (z <? 0)%Z then Err (ENegativeSize z)
  else if (Z.of_nat (length body) <? z)%Z then Err (match body with [] => EEOF | _ => EUnexpectedEOF end)
  else Ok (NBlob (git_object (bs "blob") (firstn (Z.to_nat z) body))).
Proof.
  intros N. unfold parse_object. change (bs "blob " ++ size ++ [NUL] ++ body) with (bs "blob" ++ [SP] ++ size ++ [NUL] ++ body).
  rewrite read_type_app by (cbn; intuition discriminate). cbn [bind].
  change (beqb (bs "blob") (bs "tree")) with false. change (beqb (bs "blob") (bs "commit")) with false.
  change (beqb (bs "blob") (bs "blob")) with true. cbn iota.
  unfold decode_blob, read_number. change (rd_string (stream_ops B)) with stream_string. cbn [app].
  rewrite stream_string_app by assumption. cbn [bind]. rewrite go_drop_last_snoc. cbn [bind].
  destruct (atoi size) as [z| | |]; cbn [bind]; try reflexivity. destruct (Z.ltb_spec z 0) as [L|L]; [reflexivity|].
  change (rd_copy (stream_ops B)) with stream_copy. unfold stream_copy. cbn [mk st_data st_err]. rewrite takeZ_firstn by lia.
  destruct (Z.ltb_spec (Z.of_nat (length body)) z) as [L2|L2].
  - rewrite firstn_all2 by lia. cbn [bind]. destruct (Z.ltb_spec (Z.of_nat (length body)) z); [|lia]. cbn [andb is_eof eof_ok].
    destruct (Z.eqb_spec (Z.of_nat (length body)) z); [lia|]. cbn [negb]. now destruct body.
  - assert (Z.of_nat (length (firstn (Z.to_nat z) body)) = z) as E by (rewrite firstn_length; lia).
    cbn [bind]. rewrite E. rewrite Z.ltb_irrefl, Z.eqb_refl. cbn [negb]. unfold map_res. cbn [bind fst build_bytes]. do 2 f_equal.
    unfold git_object, dec_Z. destruct (Z.ltb_spec z 0); [lia|].
    replace (Z.to_N z) with (N.of_nat (length (firstn (Z.to_nat z) body))) by lia. lnorm. reflexivity.
Qed.

Lemma parse_err B d e : 64 <= B -> (parse_object (stream_ops B) (mk d EEOF) = Err e <-> object_refused B d e).
Proof.
  intros HB. split.
  - intros E. destruct (split_at SP d) as [N|(typ & r & -> & Nt)].
    { unfold parse_object in E. rewrite read_type_none in E by exact N. injection E as <-. now constructor. }
    destruct (in_dec (list_eq_dec Byte.byte_eq_dec) typ (bs "tag" :: sized_types)) as [I|Nk].
    2:{ rewrite parse_unknown in E by assumption. injection E as <-. now constructor. }
    destruct (split_at NUL r) as [N|(size & body & -> & Ns)].
    { rewrite parse_no_size in E by assumption. injection E as <-. now constructor. }
    pose proof (number_err size) as NE. unfold sized_types in I. cbn [In] in I. destruct I as [<-|[<-|[<-|[<-|[]]]]].
    + change (bs "tag" ++ [SP] ++ size ++ [NUL] ++ body) with (bs "tag " ++ size ++ [NUL] ++ body) in *.
      rewrite parse_tag_any in E by exact Ns. apply or_tag; [exact Ns|]. apply (tag_run_err B HB). apply bind_err in E as [E|([t pr] & _ & E)]; [exact E|discriminate].
    + change (bs "blob" ++ [SP] ++ size ++ [NUL] ++ body) with (bs "blob " ++ size ++ [NUL] ++ body) in *.
      rewrite parse_blob_any in E by exact Ns. apply bind_err in E as [E|(z & A & E)].
      * apply NE in E as (r & -> & E). apply (or_size B (bs "blob")); [cbn; auto|exact Ns|exact E].
      * apply atoi_iff in A as [A1 A2]. destruct (Z.ltb_spec z 0) as [L|L]; [injection E as <-; now apply or_negative|].
        destruct (Z.ltb_spec (Z.of_nat (length body)) z) as [L2|L2]; [|discriminate]. injection E as <-. destruct body as [|x body].
        -- rewrite app_nil_r. apply (or_no_content B size z); auto.
        -- apply (or_content B size z); auto. discriminate.
    + rewrite sized_tree_commit in E by auto. apply bind_err in E as [E|(z & A & E)].
      * apply NE in E as (r & -> & E). apply (or_size B (bs "tree")); [cbn; auto|exact Ns|exact E].
      * apply atoi_iff in A as [A1 A2]. rewrite beqb_refl in E. unfold map_res in E. apply bind_err in E as [E|(t & _ & E)]; [|discriminate].
        apply (or_tree B size z); auto. now apply (tree_run_err B HB).
    + rewrite sized_tree_commit in E by auto. apply bind_err in E as [E|(z & A & E)].
      * apply NE in E as (r & -> & E). apply (or_size B (bs "commit")); [cbn; auto|exact Ns|exact E].
      * apply atoi_iff in A as [A1 A2]. change (beqb (bs "commit") (bs "tree")) with false in E. cbn iota in E.
        unfold map_res in E. apply bind_err in E as [E|(t & _ & E)]; [|discriminate].
        apply (or_commit B size z); auto. now apply (commit_run_err B HB).
  - intros H. destruct H as [d N|typ r N K|typ r I N|typ size r e I N Hb|size z r A1 A2 L|size z A1 A2 L|size z content A1 A2 Nc L|size z d e A1 A2 H|size z d e A1 A2 H|size d e N H].
    + unfold parse_object. now rewrite read_type_none.
    + now apply parse_unknown.
    + now apply parse_no_size.
    + assert (atoi size = Err (ENumber size e)) as Hb' by (apply number_err; eauto). clear Hb. rename Hb' into Hb. unfold sized_types in I. cbn [In] in I. destruct I as [<-|[<-|[<-|[]]]].
      * change (bs "blob" ++ [SP] ++ size ++ [NUL] ++ r) with (bs "blob " ++ size ++ [NUL] ++ r). rewrite parse_blob_any by exact N. now rewrite Hb.
      * rewrite sized_tree_commit by auto. now rewrite Hb.
      * rewrite sized_tree_commit by auto. now rewrite Hb.
    + rewrite parse_blob_any by eauto using numeral_no_nul. assert (atoi size = Ok z) as -> by (now apply atoi_iff). cbn [bind].
      destruct (Z.ltb_spec z 0); [reflexivity|lia].
    + rewrite <- (app_nil_r [NUL]), parse_blob_any by eauto using numeral_no_nul. assert (atoi size = Ok z) as -> by (now apply atoi_iff). cbn [bind length].
      destruct (Z.ltb_spec z 0); [lia|]. destruct (Z.ltb_spec (Z.of_nat 0) z); [reflexivity|lia].
    + rewrite parse_blob_any by eauto using numeral_no_nul. assert (atoi size = Ok z) as -> by (now apply atoi_iff). cbn [bind].
      destruct (Z.ltb_spec z 0); [lia|]. destruct (Z.ltb_spec (Z.of_nat (length content)) z); [|lia]. destruct content; [now destruct Nc|reflexivity].
    + change (bs "tree " ++ size ++ [NUL] ++ d) with (bs "tree" ++ [SP] ++ size ++ [NUL] ++ d).
      rewrite sized_tree_commit by eauto using numeral_no_nul. assert (atoi size = Ok z) as -> by (now apply atoi_iff). cbn [bind].
      rewrite beqb_refl. apply (tree_run_err B HB) in H. unfold tree_run in H. cbn [mk st_data] in H. unfold mk in *. now rewrite H.
    + change (bs "commit " ++ size ++ [NUL] ++ d) with (bs "commit" ++ [SP] ++ size ++ [NUL] ++ d).
      rewrite sized_tree_commit by eauto using numeral_no_nul. assert (atoi size = Ok z) as -> by (now apply atoi_iff). cbn [bind].
      change (beqb (bs "commit") (bs "tree")) with false. cbn iota. apply (commit_run_err B HB) in H. unfold commit_run in H. cbn [mk st_data] in H.
      unfold mk in *. now rewrite H.
    + rewrite parse_tag_any by exact N. apply (tag_run_err B HB) in H. now rewrite H.
Qed.

(** C64: through any buffered reader that delivers the text *)
Theorem refused_objects : forall B pa pc b d e,
  64 <= B ->
  delivers B true b (mk d EEOF) ->
  (parse_object (bufio_ops pa pc) b = Err e <-> object_refused B d e).
Proof.
  intros B pa pc b d e HB D. assert (2 <= B) as HB2 by lia. rewrite (parse_transfer B HB2 pa pc _ _ D). now apply parse_err.
Qed.
Print Assumptions refused_objects.
(** … and from a buffer *)
Theorem refused_buffers : forall B d e,
  64 <= B -> (parse_object_from_buffer B d = Err e <-> object_refused B d e).
Proof. intros B d e HB. now apply parse_err. Qed.
Print Assumptions refused_buffers.

(** A text that lacks its last 20 - 3 bytes, a name that comes twice, a bad hash, a signature
    that does not end, a person without an email, a size that is no number. *)
Example refused_objects_applies :
  let h := repeat x41 40 in
  let es := [(bs "40000", bs "a", repeat x00 20)] in
  object_refused 64 (bs "tree 0" ++ [NUL] ++ tree_text es ++ bs "1" ++ [SP] ++ bs "b" ++ [NUL] ++ bs "xyz") EUnexpectedEOF /\
  object_refused 64 (bs "tree 0" ++ [NUL] ++ tree_text (es ++ es)) (ERepeatedKey (bs "a")) /\
  object_refused 64 (bs "commit 0" ++ [NUL] ++ bs "tree " ++ h ++ [NL] ++ bs "parent 12x4" ++ [NL]) (EHexByte (hd NUL (bs "x"))) /\
  object_refused 64 (bs "commit 0" ++ [NUL] ++ bs "tree " ++ h ++ [NL] ++ bs "parent 123" ++ [NL]) EHexLength /\
  object_refused 64 (bs "commit 0" ++ [NUL] ++ bs "tree 1234" ++ [NL]) (EShaLength 2) /\
  object_refused 64 (bs "commit 0" ++ [NUL] ++ bs "gpgsig x" ++ [NL] ++ bs " " ++ [NL] ++ bs " abc" ++ [NL]) EEOF /\
  object_refused 64 (bs "tag x" ++ [NUL] ++ bs "tag v1" ++ [NL] ++ bs "tagger A a 1 +0" ++ [NL]) (EPersonInvalid (bs "tagger A a 1 +0")) /\
  object_refused 64 (bs "blob 1x" ++ [NUL] ++ bs "abc") (ENumber (bs "1x") ESyntax) /\
  object_refused 64 (bs "blob 99999999999999999999" ++ [NUL] ++ bs "abc") (ENumber (bs "99999999999999999999") ERange) /\
  object_refused 64 (bs "branch 3" ++ [NUL]) (EUnknownType (bs "branch")).
Proof. cbv zeta. repeat (split; [apply refused_buffers; [lia|vm_compute; reflexivity]|]). apply refused_buffers; [lia|vm_compute; reflexivity]. Qed.

(** ** Every text is accepted or refused, not both, and for one reason *)
Theorem every_text_is_one_or_the_other : forall B d, 64 <= B ->
  (exists n, object_means B d n /\ forall e, ~ object_refused B d e) \/
  (exists e, object_refused B d e /\ (forall e', object_refused B d e' -> e' = e) /\ forall n, ~ object_means B d n).
Proof.
  intros B d HB. pose (pa := fun _ _ : nat => 1).
  assert (exists b, delivers B true b (mk d EEOF) /\ wf_reader b) as (b & D & W).
  { exists (new_reader B (chunks (match d with [] => [] | _ => [d] end) EEOF)). split.
    - destruct d as [|x d]; [apply (chunks_delivers B []); [intros []|discriminate]|apply one_chunk_delivers; discriminate].
    - apply wf_new; [lia|]. split; [discriminate|]. destruct d as [|x d]; [intros c []|intros c [H|[]]; discriminate H]. }
  destruct (decoding_never_panics pa pa b W) as [[n E]|[e E]].
  - left. exists n. split; [now apply (accepted_objects B pa pa b)|]. intros e R. apply (refused_objects B pa pa b) in R; auto. congruence.
  - right. exists e. split; [now apply (refused_objects B pa pa b)|]. split.
    + intros e' R. apply (refused_objects B pa pa b) in R; auto. congruence.
    + intros n M. apply (accepted_objects B pa pa b) in M; auto. congruence.
Qed.
Print Assumptions every_text_is_one_or_the_other.

Example every_text_applies :
  (exists n, object_means 64 (bs "tree 7" ++ [NUL]) n) /\ object_refused 64 [] EUnexpectedEOF.
Proof.
  split; [|now constructor].
  exists (NTree (tree_value [])). apply (om_tree 64 (bs "7") 7%Z []); [apply (num_plain (bs "7") 7%N); [discriminate|reflexivity]|unfold int_range; lia|].
  exists [], []. split; [reflexivity|]. split; [split; [intros ? []|constructor]|]. split; [left; intros []|reflexivity].
Qed.

(** ** Errors that more input does not mend

    Only the end of the input can be mended.  The last line of a commit or a tag has to be
    complete before its error counts. *)
Lemma takes_more B d l r x : 0 < B -> ends_with NL d -> takes B d l r -> takes B (d ++ x) l (r ++ x) /\ (r = [] \/ ends_with NL r).
Proof.
  intros HB [q E] T.
  assert (forall (p r q : bytes), p ++ r = q ++ [NL] -> r <> [] -> ends_with NL r) as U.
  { intros p r' q' H N. destruct (exists_last N) as (r0 & c & ->). rewrite app_assoc in H. apply app_inj_tail in H as [_ ->]. now exists r0. }
  assert (forall p r q : bytes, p ++ r = q ++ [NL] -> r = [] \/ ends_with NL r) as V.
  { intros p r' q' H. destruct r' as [|c r']; [now left|]. right. apply (U p _ q' H). discriminate. }
  assert (forall (p q : bytes) k, p ++ k = q ++ [NL] -> ~ In NL p -> k <> []) as W.
  { intros p q' k H N ->. rewrite app_nil_r in H. apply N. rewrite H, in_app_iff. right; now left. }
  destruct T as [l r H1 H2 H3|l r H1 H2|l H1 H2 H3|l r H1 H2 H3|l r H1 H2].
  - split; [rewrite <- app_assoc; cbn [app]; now constructor|]. rewrite app_assoc in E. eapply V; exact E.
  - split; [rewrite <- app_assoc; cbn [app]; now constructor|]. rewrite app_assoc in E. eapply V; exact E.
  - exfalso. apply H2. rewrite E, in_app_iff. right; now left.
  - split; [rewrite <- app_assoc; now constructor|]. eapply V; exact E.
  - split; [rewrite <- app_assoc; cbn [app]; now constructor|]. eapply V. exact E.
Qed.
Lemma takes_something B l r : 0 < B -> ~ takes B [] l r.
Proof.
  intros HB T. remember [] as d eqn:E. destruct T as [l r H1 H2 H3|l r H1 H2|l H1 H2 H3|l r H1 H2 H3|l r H1 H2].
  - now destruct l.
  - now destruct l.
  - congruence.
  - apply app_eq_nil in E as [-> _]. cbn in H3. lia.
  - now destruct l.
Qed.
Lemma reads_more B ls x : 0 < B -> forall d r, d = [] \/ ends_with NL d -> reads B d ls r -> reads B (d ++ x) ls (r ++ x).
Proof.
  intros HB. induction ls as [|l ls IH]; intros d r H R; inversion R as [|d0 l0 d1 ls0 r0 T R1]; subst; [constructor|].
  destruct H as [->|H]; [exfalso; eapply takes_something; eassumption|].
  apply (takes_more B _ _ _ x HB H) in T as [T N]. econstructor; [exact T|]. now apply IH.
Qed.
Lemma bad_block_more ls r e x : bad_block ls r e -> e <> EEOF -> bad_block ls (r ++ x) e.
Proof. intros H N. destruct H; try (exfalso; now apply N); [apply bb_tree|apply bb_parent|apply bb_author|apply bb_committer|apply bb_mergetag|eapply bb_tagger|apply bb_first]; eauto. Qed.
Lemma ends_after p d q c : p ++ [c] ++ d = q ++ [NL] -> d = [] \/ ends_with NL d.
Proof.
  intros H. destruct d as [|a d]; [now left|right]. destruct (@exists_last _ (a :: d)) as (r & z & E); [discriminate|]. rewrite E in *.
  rewrite !app_assoc in H. apply app_inj_tail in H as [_ ->]. now exists r.
Qed.

Theorem errors_are_final : forall B d e x, 64 <= B ->
  object_refused B d e -> e <> EEOF -> e <> EUnexpectedEOF ->
  (begins_with (bs "commit ") d \/ begins_with (bs "tag ") d -> ends_with NL d) ->
  object_refused B (d ++ x) e.
Proof.
  intros B d e x HB H N1 N2 L.
  assert (forall p size d, p = bs "commit " \/ p = bs "tag " ->
    (begins_with (bs "commit ") (p ++ size ++ [NUL] ++ d) \/ begins_with (bs "tag ") (p ++ size ++ [NUL] ++ d) -> ends_with NL (p ++ size ++ [NUL] ++ d)) ->
    d = [] \/ ends_with NL d) as U.
  { intros p size d' Hp K. destruct K as [q K]; [destruct Hp as [->| ->]; [left|right]; now eexists|]. apply (ends_after (p ++ size) d' q NUL). now rewrite <- app_assoc. }
  destruct H as [d N|typ r N K|typ r I N|typ size r e I N Hb|size z r A1 A2 Lz|size z A1 A2 Lz|size z content A1 A2 Nc Lz|size z d e A1 A2 H|size z d e A1 A2 H|size d e N H];
    try congruence; rewrite <- !app_assoc.
  - now constructor.
  - now constructor.
  - now constructor.
  - apply (or_tree B size z); auto. destruct H as [|es y r [He ND] Hy I]; [congruence|]. rewrite <- !app_assoc. apply tree_twice; auto. split; auto.
  - apply U in L; [|now left]. apply (or_commit B size z); auto. destruct H as (ks & ls & r & R & Hk & Hm & Hb).
    exists ks, ls, (r ++ x). split; [apply reads_more; auto; lia|]. split; [exact Hk|]. split; [exact Hm|]. now apply bad_block_more.
  - apply U in L; [|now right]. apply or_tag; auto. destruct H as (ts & l & r & R & Ht & Hb).
    exists ts, l, (r ++ x). split; [apply reads_more; auto; lia|]. auto.
Qed.
Print Assumptions errors_are_final.
Example errors_are_final_applies :
  let d := bs "commit 0" ++ [NUL] ++ bs "author nobody" ++ [NL] in
  object_refused 64 d (EPersonFormat (bs "author nobody")) /\ ends_with NL d.
Proof. cbv zeta. split; [apply refused_buffers; [lia|vm_compute; reflexivity]|]. now exists (bs "commit 0" ++ [NUL] ++ bs "author nobody"). Qed.

(** Without the end of the line the error can still go away. *)
Theorem unfinished_line_refuted : ~ forall B d e x, 64 <= B ->
  object_refused B d e -> e <> EEOF -> e <> EUnexpectedEOF -> object_refused B (d ++ x) e.
Proof.
  intros H. specialize (H 64 (bs "commit 0" ++ [NUL] ++ bs "tree 1") EHexLength (repeat x32 39 ++ [NL]) (le_n _)).
  assert (object_refused 64 (bs "commit 0" ++ [NUL] ++ bs "tree 1") EHexLength) as R by (apply refused_buffers; [lia|vm_compute; reflexivity]).
  specialize (H R ltac:(discriminate) ltac:(discriminate)). apply refused_buffers in H; [|lia]. vm_compute in H. discriminate H.
Qed.
Print Assumptions unfinished_line_refuted.
