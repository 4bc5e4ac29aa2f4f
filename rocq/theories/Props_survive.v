(** C52, C53: exactly which objects come back byte for byte, and keep their links. *)
From Verif Require Import Base GoStr Cid Types Nodes Reader Bufio Person Assemble Decode Encode Spec HeaderSpec NormalSpec SurviveSpec
  ReaderSpec StreamFacts PersonFacts DecodeFacts RoundTrip CommitFacts GrammarFacts NormalFacts PrefixFacts CanonFacts Checks
  Sim BufioFacts NumFacts Transfer LinkSystem Sha1 Props_decode Props_grammar Props_header Props_tag Props_roundtrip Props_link
  SurviveFacts SurviveCommit SurviveIff.

Lemma dec_numeral n : numeral (dec n) (Z.of_N n).
Proof. apply num_plain; [apply dec_nonempty|apply dec_value_dec]. Qed.
Lemma dec_fits b z : numeral (dec (N.of_nat (length b))) z -> int_range z -> fits b.
Proof. intros H [_ R]. rewrite (numeral_unique _ _ _ H (dec_numeral _)) in R. unfold fits. now rewrite nat_N_Z in R. Qed.
Lemma ok_eq (x y : bytes) : Ok x = Ok y -> x = y.
Proof. congruence. Qed.
Lemma object_same typ size d body : ~ In NUL size -> git_object typ body = typ ++ [SP] ++ size ++ [NUL] ++ d -> size = dec (N.of_nat (length body)) /\ d = body.
Proof.
  intros N E. unfold git_object in E. apply app_inv_head in E. apply app_inv_head in E.
  apply app_split_first in E as [E1 E2]; [auto|apply dec_no_nul|exact N].
Qed.

(** C52.  The bytes [data] are accepted and written again as they were, exactly if they are
    one of the objects of [survives], whatever buffer and delivery. *)
Theorem exactly_these_objects_survive : forall B pa pc b data n,
  64 <= B ->
  delivers B true b (mk data EEOF) ->
  ((parse_object (bufio_ops pa pc) b = Ok n /\ encode_bytes n = Ok data) <-> survives B n data).
Proof.
  intros B pa pc b data n HB D. pose proof (accepted_objects B pa pc b data n HB D) as A. split.
  - intros [E O]. apply A in E. destruct E as [size content more Hn Hf|size z d t Hz Hr M|size z d c Hz Hr M|size d t pr Hz M].
    + assert (git_object (bs "blob") content = bs "blob" ++ [SP] ++ size ++ [NUL] ++ content ++ more) as O' by (apply ok_eq; exact O).
      apply object_same in O' as [_ O']; [|eapply numeral_no_nul; eauto].
      assert (more = []) as -> by (apply (app_inv_head content); now rewrite O', app_nil_r).
      assert (encode_bytes (NBlob (git_object (bs "blob") content)) = Ok (git_object (bs "blob") content)) as O2 by reflexivity.
      rewrite O2 in O. apply ok_eq in O. rewrite <- O. now constructor.
    + destruct M as (es & cutoff & -> & He & _ & ->). rewrite encode_tree_value in O by apply He.
      assert (git_object (bs "tree") (tree_text es) = bs "tree" ++ [SP] ++ size ++ [NUL] ++ tree_text es ++ cutoff) as O' by (apply ok_eq; exact O).
      pose proof O' as O2. apply object_same in O2 as [Es O2]; [|eapply numeral_no_nul; eauto].
      assert (bs "tree " ++ size ++ [NUL] ++ tree_text es ++ cutoff = git_object (bs "tree") (tree_text es)) as -> by (now rewrite O').
      constructor; [|exact He]. rewrite Es in Hz. eapply dec_fits; eauto.
    + assert (exists body, encode_bytes (NCommit c) = Ok (git_object (bs "commit") body)) as (body & Eb).
      { destruct M as (ks & en & R & Hk & He & Hm & ->).
        destruct (last_of (authors ks)) as [a|] eqn:Ea; [|rewrite encode_commit_nil in O by auto; discriminate].
        destruct (last_of (committers ks)) as [cm|] eqn:Ec; [|rewrite encode_commit_nil in O by auto; discriminate].
        eexists. apply (encode_commit_normal ks en a cm); auto. }
      assert (git_object (bs "commit") body = bs "commit" ++ [SP] ++ size ++ [NUL] ++ d) as O' by (apply ok_eq; rewrite <- Eb; exact O).
      pose proof O' as O2. apply object_same in O2 as [Es O2]; [|eapply numeral_no_nul; eauto]. subst body.
      destruct (commit_back B HB d c M Eb) as (g & S1 & -> & ->).
      assert (commit_bytes size (commit_text g) = git_object (bs "commit") (commit_text g)) as -> by (now rewrite O').
      constructor; [|exact S1]. rewrite Es in Hz. eapply dec_fits; eauto.
    + assert (exists body, encode_bytes (NTag t) = Ok (git_object (bs "tag") body)) as (body & Eb).
      { destruct M as (ts & msg & R & Ht & -> & _). eexists. now apply encode_tag_normal. }
      assert (git_object (bs "tag") body = bs "tag" ++ [SP] ++ size ++ [NUL] ++ d) as O' by (apply ok_eq; rewrite <- Eb; exact O).
      pose proof O' as O2. apply object_same in O2 as [Es O2]; [|exact Hz]. subst body.
      destruct (tag_back B HB d t pr M Eb) as (g & S1 & -> & ->).
      assert (tag_bytes size (tag_text_short g) = git_object (bs "tag") (tag_text_short g)) as -> by (now rewrite O').
      now constructor.
  - intros V. rewrite A. destruct V as [content Hf|es Hf He|g Hf G|g G].
    + split; [|reflexivity]. pose proof (om_blob B (dec (N.of_nat (length content))) content []) as M. rewrite app_nil_r in M. apply M; [|exact Hf].
      rewrite <- nat_N_Z. apply dec_numeral.
    + split; [|apply encode_tree_value, He].
      assert (numeral (dec (N.of_nat (length (tree_text es)))) (Z.of_nat (length (tree_text es))) /\ int_range (Z.of_nat (length (tree_text es)))) as [H1 H2].
      { apply atoi_iff. rewrite <- nat_N_Z. apply atoi_dec. unfold fits in Hf. lia. }
      apply (om_tree B _ _ (tree_text es) (tree_value es) H1 H2). exists es, []. rewrite app_nil_r. split; [reflexivity|]. split; [exact He|]. split; [now left|reflexivity].
    + destruct G as [G T]. split.
      2:{ destruct G as (G1 & G2 & _ & _ & Gm & _). apply encode_commit_value; [exact G1|exact G2|]. intros m I. apply (Gm m I). }
      assert (numeral (dec (N.of_nat (length (commit_text g)))) (Z.of_nat (length (commit_text g))) /\ int_range (Z.of_nat (length (commit_text g)))) as [H1 H2].
      { apply atoi_iff. rewrite <- nat_N_Z. apply atoi_dec. unfold fits in Hf. lia. }
      apply (om_commit B _ _ (commit_text g) (commit_value g) H1 H2). apply (commit_forth B HB). split; assumption.
    + split; [|apply encode_tag_short; apply G]. apply (om_tag B _ (tag_text_short g) (tag_value g) []); [apply dec_no_nul|]. now apply (tag_forth B HB).
Qed.
Print Assumptions exactly_these_objects_survive.

(** A merge tag line of exactly 80 bytes comes back through a buffer of 80 bytes, and so does
    a tagger line of 80 bytes if the tag has no message. *)
Definition long_person : person :=
  {| p_name := repeat x61 48; p_email := bs "ada@b"; p_date := bs "1234567890"; p_timezone := bs "+0100" |}.
Definition edge_mergetag : gmergetag :=
  {| gm_object := repeat x05 20; gm_type := repeat x62 74; gm_tag := bs "v1"; gm_tagger := sample_person; gm_message := [bs " text"] |}.
Definition edge_commit : gcommit :=
  {| gc_tree := repeat xab 20; gc_parents := [repeat x01 20]; gc_author := sample_person; gc_committer := sample_person;
     gc_encoding := None; gc_mergetags := [edge_mergetag]; gc_signature := None; gc_other := [bs "HG:x"]; gc_message := bs "m" |}.
Definition edge_tag : gtag :=
  {| gt_object := repeat x05 20; gt_type := bs "commit"; gt_tag := bs "v1"; gt_tagger := long_person; gt_message := [] |}.

Lemma edge_commit_survives : survives 80 (NCommit (commit_value edge_commit)) (git_object (bs "commit") (commit_text edge_commit)).
Proof.
  constructor; [unfold fits; apply Z.ltb_lt; vm_compute; reflexivity|]. split; [apply commit_okb_ok; vm_compute; reflexivity|].
  assert (forallb (line_okb 80) (tight_lines edge_commit) = true) as H by (vm_compute; reflexivity).
  rewrite forallb_forall in H. intros l I. apply line_okb_ok. auto.
Qed.
Lemma edge_tag_survives : survives 80 (NTag (tag_value edge_tag)) (git_object (bs "tag") (tag_text_short edge_tag)).
Proof.
  constructor. split; [reflexivity|]. split; [apply person_okb_ok; vm_compute; reflexivity|].
  split; [|split]; apply line_okb_ok; vm_compute; reflexivity.
Qed.
Example exactly_these_objects_survive_applies :
  length (bs " type " ++ gm_type edge_mergetag) = 80 /\ length (bs "tagger " ++ person_text (gt_tagger edge_tag)) = 80 /\
  parse_object (bufio_ops (fun _ _ => 0) (fun _ _ => 0)) (new_reader 80 (chunks [git_object (bs "commit") (commit_text edge_commit)] EEOF)) = Ok (NCommit (commit_value edge_commit)) /\
  parse_object (bufio_ops (fun _ _ => 0) (fun _ _ => 0)) (new_reader 80 (chunks [git_object (bs "tag") (tag_text_short edge_tag)] EEOF)) = Ok (NTag (tag_value edge_tag)).
Proof.
  split; [reflexivity|]. split; [reflexivity|]. split.
  - eapply exactly_these_objects_survive; [|apply one_chunk_delivers; discriminate|apply edge_commit_survives]. lia.
  - eapply exactly_these_objects_survive; [|apply one_chunk_delivers; discriminate|apply edge_tag_survives]. lia.
Qed.

(** What survives through one buffer survives through every larger one. *)
Lemma line_ok_mono B B' l : B <= B' -> line_ok B l -> line_ok B' l.
Proof. intros H (N & C & L). split; [exact N|]. split; [exact C|lia]. Qed.
Theorem larger_buffers_keep_survivors : forall B B' n data, B <= B' -> survives B n data -> survives B' n data.
Proof.
  intros B B' n data H V. destruct V as [content Hf|es Hf He|g Hf [G T]|g (G1 & G2 & G3 & G4 & G5)]; constructor; auto.
  - split; [|intros l I; eapply line_ok_mono; eauto]. destruct G as (G1 & G2 & G3 & G4 & G5 & G6 & G7 & G8 & G9).
    unfold commit_ok. do 8 (split; [assumption|]). intros l I. eapply line_ok_mono; [|apply (G9 l I)]. lia.
  - split; [exact G1|]. split; [exact G2|]. split; [eapply line_ok_mono; eauto|]. split; [eapply line_ok_mono; eauto|].
    eapply line_ok_mono; [|exact G5]. destruct (gt_message g); lia.
Qed.
Print Assumptions larger_buffers_keep_survivors.
Example larger_buffers_keep_survivors_applies :
  survives 4096 (NCommit (commit_value edge_commit)) (git_object (bs "commit") (commit_text edge_commit)).
Proof. eapply larger_buffers_keep_survivors; [|apply edge_commit_survives]. apply Nat.leb_le. vm_compute. reflexivity. Qed.

(** C53.  The link computed for a decoded object is the hash of the bytes it was decoded
    from exactly if the object survives.  The hash function may be any function whose
    values have 20 bytes and which does not happen to collide on the two texts at hand. *)
Theorem exactly_survivors_keep_their_links : forall sha1 B pa pc b data n,
  is_sha1 sha1 ->
  64 <= B ->
  delivers B true b (mk data EEOF) ->
  parse_object (bufio_ops pa pc) b = Ok n ->
  (forall text, encode_bytes n = Ok text -> sha1 text = sha1 data -> text = data) ->
  (compute_link sha1 n = Ok (hash_link sha1 data) <-> survives B n data).
Proof.
  intros sha1 B pa pc b data n HS HB D E NC. rewrite (computed_links_are_stored_links sha1 n HS).
  pose proof (exactly_these_objects_survive B pa pc b data n HB D) as X. split.
  - intros L. apply X. split; [exact E|]. destruct (encode_bytes n) as [text| | |] eqn:O; cbn [map_res bind] in L; try discriminate L.
    rewrite (NC text eq_refl); [reflexivity|]. unfold hash_link, git_cid in L. congruence.
  - intros V. apply X in V as [_ O]. rewrite O. reflexivity.
Qed.
Print Assumptions exactly_survivors_keep_their_links.

(** The commit above keeps its link; a blob whose size is written with a plus
    sign, which git would not write, does not. *)
Definition plus_blob : bytes := bs "blob +5" ++ [NUL] ++ bs "hello".
Example exactly_survivors_keep_their_links_applies :
  compute_link sha1 (NCommit (commit_value edge_commit)) = Ok (hash_link sha1 (git_object (bs "commit") (commit_text edge_commit))) /\
  parse_object (bufio_ops (fun _ _ => 0) (fun _ _ => 0)) (new_reader 80 (chunks [plus_blob] EEOF)) = Ok (NBlob small_blob) /\
  compute_link sha1 (NBlob small_blob) <> Ok (hash_link sha1 plus_blob) /\
  ~ survives 80 (NBlob small_blob) plus_blob.
Proof.
  assert (parse_object (bufio_ops (fun _ _ => 0) (fun _ _ => 0)) (new_reader 80 (chunks [plus_blob] EEOF)) = Ok (NBlob small_blob)) as P by (vm_compute; reflexivity).
  assert (compute_link sha1 (NBlob small_blob) <> Ok (hash_link sha1 plus_blob)) as L by (vm_compute; discriminate).
  split; [|split; [exact P|split; [exact L|]]].
  - rewrite (computed_links_are_stored_links sha1 _ sha1_is_sha1).
    destruct (proj2 (exactly_these_objects_survive 80 (fun _ _ => 0) (fun _ _ => 0) (new_reader 80 (chunks [git_object (bs "commit") (commit_text edge_commit)] EEOF)) _ _ ltac:(lia) ltac:(apply one_chunk_delivers; discriminate)) edge_commit_survives) as [_ O].
    rewrite O. reflexivity.
  - intros V. assert (delivers 80 true (new_reader 80 (chunks [plus_blob] EEOF)) (mk plus_blob EEOF)) as D by (apply one_chunk_delivers; discriminate).
    pose proof (exactly_these_objects_survive 80 (fun _ _ => 0) (fun _ _ => 0) _ _ (NBlob small_blob) ltac:(lia) D) as X. apply X in V as [_ O].
    vm_compute in O. discriminate O.
Qed.
