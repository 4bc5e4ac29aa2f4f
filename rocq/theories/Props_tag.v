(** C29: how tags are written back, and which tags survive. *)
From Verif Require Import Base GoStr Cid Types Nodes Reader Bufio Person Assemble Decode Encode Spec HeaderSpec NormalSpec
  ReaderSpec StreamFacts PersonFacts DecodeFacts RoundTrip CommitFacts GrammarFacts NormalFacts PrefixFacts CanonFacts
  Sim BufioFacts NumFacts Transfer Checks Props_decode Props_grammar Props_header.

(** Every decoded tag is written as its object, type, tag and tagger lines, then a blank line
    and the message unless the message is empty.  What was missing is written empty. *)
Theorem tags_are_written_in_order : forall B pa pc b size d t,
  64 <= B -> ~ In NUL size ->
  delivers B true b (mk (tag_bytes size d) EEOF) ->
  parse_object (bufio_ops pa pc) b = Ok (NTag t) ->
  exists ts (msg : option bytes),
    reads B d (map tline_text ts ++ match msg with Some _ => [[]] | None => [] end) (or_else msg []) /\
    (forall x, In x ts -> tline_ok x) /\
    encode_bytes (NTag t) = Ok (git_object (bs "tag") (tag_text_short (normal_tag ts (or_else msg [])))).
Proof.
  intros B pa pc b size d t HB N D E. apply (tag_accepted B pa pc b size d t HB N D) in E as (pr & ts & msg & R & Ht & -> & _).
  exists ts, msg. split; [destruct msg; exact R|]. split; [exact Ht|]. destruct msg; now apply encode_tag_normal.
Qed.
Print Assumptions tags_are_written_in_order.

Definition some_tag_lines : list tline :=
  [TObject some_hex some_sha; TType (bs "commit"); TIgnored (bs "x y"); TTag (bs "v1"); TTagger (bs "A <a> 1 +0") some_person].

Lemma some_tag_lines_ok :
  (forall x, In x some_tag_lines -> tline_ok x) /\ (forall x, In x some_tag_lines -> line_ok 64 (tline_text x)).
Proof.
  split.
  - intros x [<-|[<-|[<-|[<-|[<-|[]]]]]].
    + apply some_hex_ok.
    + exact Logic.I.
    + split; [discriminate|]. intros w I [r E]. cbn in I. decompose [or] I; try contradiction; subst w; discriminate E.
    + exact Logic.I.
    + apply some_line_ok. auto.
  - intros x I. apply line_okb_ok. revert x I. apply forallb_forall. vm_compute. reflexivity.
Qed.

Example tags_are_written_in_order_applies :
  match parse_object (bufio_ops one_byte one_byte) (new_reader 64 (chunks [tag_bytes (bs "9") (unlines (map tline_text some_tag_lines) ++ [NL] ++ bs "m")] EEOF)) with
  | Ok (NTag t) => encode_bytes (NTag t) =
      Ok (git_object (bs "tag") (unlines [bs "object " ++ hex_encode some_sha; bs "type commit"; bs "tag v1"; bs "tagger A <a> 1 +0"] ++ [NL] ++ bs "m"))
  | _ => False
  end.
Proof. vm_compute. reflexivity. Qed.

(** The text of a tag: its lines, and possibly a blank line and a message. *)
Definition tag_input (ts : list tline) (msg : option bytes) : bytes :=
  unlines (map tline_text ts) ++ match msg with Some m => [NL] ++ m | None => [] end.

Lemma tag_input_read B pa pc b size ts msg : 64 <= B -> ~ In NUL size ->
  (forall x, In x ts -> tline_ok x) -> (forall x, In x ts -> line_ok B (tline_text x)) ->
  delivers B true b (mk (tag_bytes size (tag_input ts msg)) EEOF) ->
  parse_object (bufio_ops pa pc) b = Ok (NTag (tag_of ts (or_else msg []))).
Proof.
  intros HB N Ht Hl D. destruct msg as [m|]; [now apply (tag_message_is_read_verbatim B pa pc b size)|].
  apply (tag_accepted B pa pc _ _ _ _ HB N D). exists (ignored ts), ts, None. split; [|auto].
  rewrite app_nil_r. unfold tag_input. apply reads_unlines. intros l I. apply in_map_iff in I as (t & <- & I). auto.
Qed.

Lemma tag_lines_no_nl ts m : (forall x, In x ts -> tline_ok x) -> (forall x, In x ts -> ~ In NL (tline_text x)) ->
  forall l, In l (tag_lines (normal_tag ts m)) -> ~ In NL l.
Proof.
  intros Ht Hn l I.
  assert (forall w x, ~ In NL w -> ~ In NL x -> ~ In NL (w ++ x)) as Nap by (intros w x H1 H2 J; apply in_app_iff in J as [J|J]; auto).
  unfold tag_lines, normal_tag in I. cbn [gt_object gt_type gt_tag gt_tagger] in I. destruct I as [<-|[<-|[<-|[<-|[]]]]].
  - apply Nap; [cbn; intuition discriminate|apply hex_no_nl].
  - destruct (last_of (ttypes ts)) as [x|] eqn:E; [|cbn; intuition discriminate]. apply last_of_some in E as [q Q].
    assert (In x (ttypes ts)) as J by (rewrite Q, in_app_iff; right; now left).
    apply in_flat_map in J as (y & J & Y). destruct y; cbn in Y; try contradiction. destruct Y as [->|[]]. apply (Hn _ J).
  - destruct (last_of (ttags ts)) as [x|] eqn:E; [|cbn; intuition discriminate]. apply last_of_some in E as [q Q].
    assert (In x (ttags ts)) as J by (rewrite Q, in_app_iff; right; now left).
    apply in_flat_map in J as (y & J & Y). destruct y; cbn in Y; try contradiction. destruct Y as [->|[]]. apply (Hn _ J).
  - destruct (last_of (ttaggers ts)) as [x|] eqn:E; [|vm_compute; intuition discriminate]. apply last_of_some in E as [q Q].
    assert (In x (ttaggers ts)) as J by (rewrite Q, in_app_iff; right; now left).
    apply in_flat_map in J as (y & J & Y). destruct y as [| | |y p|]; cbn in Y; try contradiction. destruct Y as [->|[]].
    cbn [or_else]. apply Nap; [cbn; intuition discriminate|]. specialize (Hn _ J). specialize (Ht _ J). cbn [tline_ok tline_text] in *.
    eapply person_line_no_nl; eauto.
Qed.

(** Exactly these tags survive, among those whose lines end with a newline and fit the
    buffer: an object, a type, a tag and a tagger line in this order and nothing else, a tagger
    that survives, and either a message or no blank line. *)
Theorem surviving_tags_are_canonical : forall B pa pc b size ts msg,
  64 <= B -> ~ In NUL size ->
  (forall x, In x ts -> tline_ok x) -> (forall x, In x ts -> line_ok B (tline_text x)) ->
  delivers B true b (mk (tag_bytes size (tag_input ts msg)) EEOF) ->
  exists t, parse_object (bufio_ops pa pc) b = Ok (NTag t) /\
    (encode_bytes (NTag t) = Ok (git_object (bs "tag") (tag_input ts msg)) <->
     exists h o x y p, ts = [TObject h o; TType x; TTag y; TTagger (person_text p) p] /\
       h = hex_encode o /\ is_sha o /\ person_ok p /\ msg <> Some []).
Proof.
  intros B pa pc b size ts msg HB N Ht Hl D. exists (tag_of ts (or_else msg [])). split; [now apply (tag_input_read B pa pc b size ts msg)|].
  rewrite encode_tag_normal by exact Ht. set (g := normal_tag ts (or_else msg [])).
  assert (Ok (git_object (bs "tag") (tag_text_short g)) = Ok (git_object (bs "tag") (tag_input ts msg)) <-> tag_text_short g = tag_input ts msg) as ->.
  { split; [|congruence]. intros E. injection E as E. apply app_split_first in E as [_ E]; [exact E|apply dec_no_nul|apply dec_no_nul]. }
  assert (forall l, In l (tag_lines g) -> ~ In NL l) as Ng by (apply tag_lines_no_nl; [exact Ht|intros x I; apply (Hl x I)]).
  assert (forall l, In l (map tline_text ts) -> ~ In NL l) as Nt.
  { intros l I. apply in_map_iff in I as (x & <- & I). apply (Hl x I). }
  unfold tag_text_short, tag_input. change (gt_message g) with (or_else msg []). split.
  - intros E.
    assert (tag_lines g = map tline_text ts /\ msg <> Some []) as [E1 Nm].
    { destruct msg as [[|c m]|]; cbn [or_else] in E.
      - exfalso. assert (tag_lines g = map tline_text ts ++ [[]]) as X.
        { apply unlines_inj; [exact Ng| |]. { intros l I. apply in_app_iff in I as [I|[<-|[]]]; auto. }
          rewrite unlines_app. rewrite app_nil_r in E. rewrite E. reflexivity. }
        unfold tag_lines in X. apply (f_equal (@rev _)) in X. rewrite rev_unit in X. cbn in X. discriminate X.
      - split; [|discriminate]. apply app_inv_tail in E. now apply unlines_inj.
      - split; [|discriminate]. rewrite !app_nil_r in E. now apply unlines_inj. }
    unfold tag_lines in E1. destruct ts as [|t1 [|t2 [|t3 [|t4 [|t5 ts]]]]]; cbn [map] in E1; try discriminate E1.
    assert (forall (x y : bytes) s t, x :: s = y :: t -> x = y /\ s = t) as S2 by (intros x y s t Q; split; congruence).
    apply S2 in E1 as [F1 E1]. apply S2 in E1 as [F2 E1]. apply S2 in E1 as [F3 E1]. apply S2 in E1 as [F4 _].
    assert (forall x w r, tline_ok x -> In w tag_words -> w ++ r = tline_text x -> forall l, x <> TIgnored l) as NI.
    { intros x w r Hx Iw Ew l ->. destruct Hx as [_ Hx]. apply (Hx w Iw). exists r. now rewrite Ew. }
    pose proof (NI t1 (bs "object ") _ (Ht t1 (or_introl eq_refl)) (or_introl eq_refl) F1) as I1.
    pose proof (NI t2 (bs "type ") _ (Ht t2 (or_intror (or_introl eq_refl))) (or_intror (or_introl eq_refl)) F2) as I2.
    pose proof (NI t3 (bs "tag ") _ (Ht t3 (or_intror (or_intror (or_introl eq_refl)))) (or_intror (or_intror (or_introl eq_refl))) F3) as I3.
    pose proof (NI t4 (bs "tagger ") _ (Ht t4 (or_intror (or_intror (or_intror (or_introl eq_refl))))) (or_intror (or_intror (or_intror (or_introl eq_refl)))) F4) as I4.
    destruct t1 as [h o| | | |]; try discriminate F1; [|now destruct (I1 l)].
    destruct t2 as [|x| | |]; try discriminate F2; [|now destruct (I2 l)].
    destruct t3 as [| |y| |]; try discriminate F3; [|now destruct (I3 l)].
    destruct t4 as [| | |w p|]; try discriminate F4; [|now destruct (I4 l)].
    cbn [tline_text] in *. cbn [normal_tag g tobjects ttypes ttags ttaggers flat_map app last_of rev or_else gt_object gt_type gt_tag gt_tagger] in *.
    apply app_inv_head in F1, F4. subst h w.
    destruct (Ht (TObject (hex_encode o) o) (or_introl eq_refl)) as [_ So].
    pose proof (Ht (TTagger (person_text p) p) (or_intror (or_intror (or_intror (or_introl eq_refl))))) as Sp. cbn [tline_ok] in Sp.
    exists (hex_encode o), o, x, y, p. split; [reflexivity|]. split; [reflexivity|]. split; [exact So|]. split; [|exact Nm].
    apply person_line_iff in Sp. apply (person_roundtrip (bs "tagger")); [cbn; intuition discriminate|exact Sp].
  - intros (h & o & x & y & p & -> & -> & So & Sp & Nm). unfold g, tag_lines, normal_tag.
    cbn [tobjects ttypes ttags ttaggers flat_map app last_of rev or_else gt_object gt_type gt_tag gt_tagger map tline_text]. f_equal.
    destruct msg as [[|c m]|]; [now contradiction Nm|reflexivity|reflexivity].
Qed.
Print Assumptions surviving_tags_are_canonical.

Example surviving_tags_are_canonical_applies :
  let ts := [TObject (hex_encode some_sha) some_sha; TType (bs "commit"); TTag (bs "v1"); TTagger (person_text some_person) some_person] in
  (forall x, In x ts -> tline_ok x) /\ (forall x, In x ts -> line_ok 64 (tline_text x)) /\ person_ok some_person.
Proof.
  intros ts. assert (person_ok some_person) as P by (apply person_okb_ok; vm_compute; reflexivity).
  split; [|split; [|exact P]].
  - intros x [<-|[<-|[<-|[<-|[]]]]]; try exact Logic.I.
    + split; [apply hex_text_encode|reflexivity].
    + apply (person_text_line (bs "tagger")); [cbn; intuition discriminate|exact P].
  - intros x I. apply line_okb_ok. revert x I. apply forallb_forall. vm_compute. reflexivity.
Qed.

(** ** What gets lost or added *)
(** A line that is not one of the four is dropped. *)
Theorem ignored_tag_lines_are_dropped : forall B pa pc b size ts l ts' msg t,
  64 <= B -> ~ In NUL size ->
  (forall x, In x (ts ++ TIgnored l :: ts') -> tline_ok x) ->
  (forall x, In x (ts ++ TIgnored l :: ts') -> line_ok B (tline_text x)) ->
  delivers B true b (mk (tag_bytes size (tag_input (ts ++ TIgnored l :: ts') msg)) EEOF) ->
  parse_object (bufio_ops pa pc) b = Ok (NTag t) ->
  encode_bytes (NTag t) = encode_bytes (NTag (tag_of (ts ++ ts') (or_else msg []))).
Proof.
  intros B pa pc b size ts l ts' msg t HB N Ht Hl D E.
  pose proof (tag_input_read B pa pc b size _ msg HB N Ht Hl D) as E'. assert (t = tag_of (ts ++ TIgnored l :: ts') (or_else msg [])) as -> by congruence.
  unfold tag_of. rewrite !fold_left_app. reflexivity.
Qed.
Print Assumptions ignored_tag_lines_are_dropped.

Example ignored_tag_lines_are_dropped_applies :
  some_tag_lines = firstn 2 some_tag_lines ++ TIgnored (bs "x y") :: skipn 3 some_tag_lines /\
  (forall x, In x some_tag_lines -> tline_ok x) /\ (forall x, In x some_tag_lines -> line_ok 64 (tline_text x)).
Proof. split; [reflexivity|exact some_tag_lines_ok]. Qed.

(** A tag without a tagger line, as git writes for old tags, gains one. *)
Theorem missing_tagger_is_added : forall B pa pc b size o x y m,
  64 <= B -> ~ In NUL size -> is_sha o -> m <> [] ->
  line_ok B (bs "type " ++ x) -> line_ok B (bs "tag " ++ y) ->
  delivers B true b (mk (tag_bytes size
    (unlines [bs "object " ++ hex_encode o; bs "type " ++ x; bs "tag " ++ y] ++ [NL] ++ m)) EEOF) ->
  exists t, parse_object (bufio_ops pa pc) b = Ok (NTag t) /\
    encode_bytes (NTag t) = Ok (git_object (bs "tag")
      (unlines [bs "object " ++ hex_encode o; bs "type " ++ x; bs "tag " ++ y; bs "tagger  <>"] ++ [NL] ++ m)).
Proof.
  intros B pa pc b size o x y m HB N So Nm Lx Ly D.
  set (ts := [TObject (hex_encode o) o; TType x; TTag y]).
  assert (forall t, In t ts -> tline_ok t) as Ht.
  { intros t [<-|[<-|[<-|[]]]]; try exact Logic.I. split; [apply hex_text_encode|exact So]. }
  assert (forall t, In t ts -> line_ok B (tline_text t)) as Hl.
  { intros t [<-|[<-|[<-|[]]]]; try assumption. cbn [tline_text].
    split; [intros I; apply in_app_iff in I as [I|I]; [cbn in I; intuition discriminate|now apply hex_no_nl in I]|].
    split.
    - intros [r R]. pose proof (f_equal (@rev _) R) as R'. rewrite rev_unit, rev_app_distr in R'.
      destruct (rev (hex_encode o)) as [|c cs] eqn:Er; cbn [app] in R'; [discriminate R'|]. injection R' as -> _.
      assert (In CR (hex_encode o)) as I by (apply in_rev; rewrite Er; now left).
      clear - I. induction o as [|a o IH]; [destruct I|]. cbn [hex_encode] in I. destruct I as [I|[I|I]]; [| |auto]; destruct a; vm_compute in I; discriminate.
    - rewrite app_length, hex_encode_length. unfold is_sha in So. rewrite So. cbn. lia. }
  exists (tag_of ts m). split; [now apply (tag_message_is_read_verbatim B pa pc b size ts m)|].
  rewrite encode_tag_normal by exact Ht. do 2 f_equal. destruct m; [now contradiction Nm|]. reflexivity.
Qed.
Print Assumptions missing_tagger_is_added.

Example missing_tagger_is_added_applies :
  is_sha some_sha /\ line_ok 64 (bs "type " ++ bs "commit") /\ line_ok 64 (bs "tag " ++ bs "v0.99").
Proof. split; [reflexivity|]. split; apply line_okb_ok; reflexivity. Qed.
