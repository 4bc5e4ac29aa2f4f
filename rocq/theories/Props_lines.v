(** C26 to C28 and C42: misplaced, unfinished, overlong and CR-terminated header lines. *)
From Verif Require Import Base GoStr Cid Types Nodes Reader Bufio Person Assemble Decode Encode Spec HeaderSpec NormalSpec
  ReaderSpec StreamFacts PersonFacts DecodeFacts RoundTrip CommitFacts GrammarFacts NormalFacts PrefixFacts CanonFacts
  Sim BufioFacts NumFacts Transfer Checks Props_decode Props_grammar Props_header.

(** ** C26: an extra header before a known one does not survive *)
Lemma all_sevens A : forall n p t, ~ In 7 A -> A ++ repeat 7 n = p ++ 7 :: t -> forall x, In x t -> x = 7.
Proof.
  induction A as [|a A IH]; intros n p t NA E x I; cbn [app] in E.
  - assert (In x (repeat 7 n)) as J by (rewrite E, in_app_iff; right; now right). now apply repeat_spec in J.
  - destruct p as [|b p]; [exfalso; injection E as -> _; apply NA; now left|]. cbn [app] in E. injection E as _ E.
    eapply IH; [|exact E|exact I]. intros J. apply NA. now right.
Qed.

Theorem misplaced_header_does_not_survive : forall B pa pc b size z pre l mid k post msg,
  let ks := pre ++ KOther l :: mid ++ k :: post in
  64 <= B -> numeral size z -> int_range z ->
  (forall k, In k ks -> block_ok k) -> mergetags_end ks (EndMessage msg) ->
  (forall l, In l (header_lines ks) -> line_ok B l) ->
  (forall l', k <> KOther l') ->
  delivers B true b (mk (commit_bytes size (unlines (header_lines ks) ++ [NL] ++ msg)) EEOF) ->
  exists c, parse_object (bufio_ops pa pc) b = Ok (NCommit c) /\
    encode_bytes (NCommit c) <> Ok (git_object (bs "commit") (unlines (header_lines ks) ++ [NL] ++ msg)).
Proof.
  intros B pa pc b size z pre l mid k post msg ks HB A1 A2 Hk Hm Hl Nk D.
  pose proof (commit_message_is_read_verbatim B pa pc b size z ks msg HB A1 A2 Hk Hm Hl D) as E.
  eexists. split; [exact E|]. intros O.
  destruct (surviving_commits_are_canonical B pa pc b size ks msg _ HB (numeral_no_nul _ _ A1) Hk Hm Hl D E O) as (g & _ & _ & _ & K).
  unfold ks in K. rewrite !map_app in K. cbn [map] in K. rewrite map_app in K. cbn [map kind] in K. symmetry in K. rewrite !app_assoc in K.
  assert (kind k = 7) as K7.
  { eapply all_sevens; [|exact K|rewrite in_app_iff; right; now left].
    rewrite !in_app_iff. intros I. decompose [or] I; repeat match goal with X : In 7 (repeat _ _) |- _ => apply repeat_spec in X; discriminate X end;
      repeat match goal with X : In 7 (_ :: _) |- _ => cbn in X; intuition discriminate end;
      repeat match goal with X : In 7 (opt_list _ ?o) |- _ => destruct o; cbn in X; intuition discriminate end. }
  destruct k; try discriminate K7. now apply (Nk l0).
Qed.
Print Assumptions misplaced_header_does_not_survive.

(** An extra header before an encoding header. *)
Example misplaced_header_does_not_survive_applies :
  let pre := [KTree some_hex some_sha; KAuthor (bs "A <a> 1 +0") some_person; KCommitter (bs "A <a> 1 +0") some_person] in
  let ks := pre ++ KOther (bs "x y") :: [] ++ KEncoding (bs "latin1") :: [] in
  (forall k, In k ks -> block_ok k) /\ mergetags_end ks (EndMessage [NL]) /\
  (forall l, In l (header_lines ks) -> line_ok 64 l) /\ (forall l, KEncoding (bs "latin1") <> KOther l).
Proof.
  intros pre ks. split; [|split; [exact Logic.I|split; [|discriminate]]].
  - intros k [<-|[<-|[<-|[<-|[<-|[]]]]]].
    + apply some_hex_ok.
    + apply some_line_ok. auto.
    + apply some_line_ok. auto.
    + split; [discriminate|]. intros (w & I & r & E). cbn in I. decompose [or] I; try contradiction; subst w; discriminate E.
    + exact Logic.I.
  - intros l I. apply line_okb_ok. revert l I. apply forallb_forall. vm_compute. reflexivity.
Qed.

(** ** C27: broken signatures are rejected *)
Section B.
Context (B : nat) (HB : 64 <= B).
Notation ops := (stream_ops B).

Lemma gpgsig_loop_eof : forall ss f d sig, length d < f -> reads B d ss [] -> ~ In pgp_end ss ->
  gpgsig_loop ops f sig (mk d EEOF) = Err EEOF.
Proof.
  induction ss as [|l ss IH]; intros f d sig L R N.
  - apply reads_none_iff in R. subst d. destruct f; [cbn in L; lia|]. reflexivity.
  - apply reads_cons_inv in R as (d1 & T & R). destruct f as [|f]; [lia|]. cbn [gpgsig_loop].
    change (rd_line ops) with (stream_line B). rewrite (takes_line B HB _ _ _ _ T). cbn [bind].
    change (rd_deref ops ?s l) with l. cbv zeta. fold pgp_end.
    rewrite beqb_neq by (intros ->; apply N; now left). apply IH; [|exact R|intros I; apply N; now right].
    apply (takes_shorter B HB) in T. lia.
Qed.

Lemma signature_eof d ss : reads B d ss [] -> (forall first rest, ss = first :: rest -> signature_ok (first, rest)) ->
  decode_gpgsig ops (mk d EEOF) = Err EEOF.
Proof.
  intros R H. unfold decode_gpgsig. change (rd_line ops) with (stream_line B). destruct ss as [|first rest].
  - apply reads_none_iff in R. subst d. reflexivity.
  - apply reads_cons_inv in R as (d1 & T & R). rewrite (takes_line B HB _ _ _ _ T). cbn [bind].
    change (rd_deref ops ?s first) with first. cbv zeta. destruct (H _ _ eq_refl) as [Hf Hn]. cbn [fst snd] in *.
    change (rd_fuel ops (mk d1 EEOF)) with (S (length d1)).
    destruct (beqb_spec first (bs " ")) as [->|N1]; cbn [negb]; [apply (gpgsig_loop_eof rest); auto|].
    assert (has_prefix (bs " Version: ") first || has_prefix (bs " Comment: ") first = true) as ->.
    { destruct Hf as [Hf|[Hf|Hf]]; [contradiction| |]; apply prefix_begins in Hf; rewrite Hf; rewrite ?orb_true_r; reflexivity. }
    apply (gpgsig_loop_eof rest); auto.
Qed.

Lemma signature_bad_start d first r : takes B d first r -> first <> bs " " -> ~ begins_with (bs " Version: ") first ->
  ~ begins_with (bs " Comment: ") first -> decode_gpgsig ops (mk d EEOF) = Err EGpgFirstLine.
Proof.
  intros T N1 N2 N3. unfold decode_gpgsig. change (rd_line ops) with (stream_line B). rewrite (takes_line B HB _ _ _ _ T). cbn [bind].
  change (rd_deref ops ?s first) with first. cbv zeta. rewrite beqb_neq by exact N1. cbn [negb].
  destruct (has_prefix (bs " Version: ") first) eqn:H2; [now apply prefix_begins in H2|].
  destruct (has_prefix (bs " Comment: ") first) eqn:H3; [now apply prefix_begins in H3|]. reflexivity.
Qed.

Lemma run_to_signature ks c d x d1 : reads B d (header_lines ks ++ [bs "gpgsig " ++ x]) d1 ->
  (forall k, In k ks -> block_ok k) -> mergetags_end ks (EndMessage []) ->
  commit_run B c (mk d EEOF) =
  let* (sig, s) := decode_gpgsig ops (mk d1 EEOF) in commit_run B (with_signature (fold_left apply_block ks c) sig) s.
Proof.
  intros R Hk Hm. apply reads_app in R as (d0 & R0 & R). apply reads_cons_inv in R as (d2 & T & R). apply reads_none_iff in R. subst d2.
  rewrite (run_prefix B HB ks c d d0 R0 Hk Hm).
  - rewrite (run_takes B HB _ _ _ _ T). unfold run_from. rewrite step_signature.
    destruct (decode_gpgsig ops (mk d1 EEOF)) as [[sig s]| | |]; reflexivity.
  - intros _ _ _ _. exists (bs "gpgsig " ++ x), d1. split; [exact T|]. intros [q Q]. discriminate Q.
Qed.
End B.

(** A line that is none of " ", " Version: ...", " Comment: ..." after a gpgsig line. *)
Theorem signature_with_a_wrong_first_line_is_rejected : forall B pa pc b size z d ks x first r,
  64 <= B -> numeral size z -> int_range z ->
  reads B d (header_lines ks ++ [bs "gpgsig " ++ x] ++ [first]) r ->
  (forall k, In k ks -> block_ok k) -> mergetags_end ks (EndMessage []) ->
  first <> bs " " -> ~ begins_with (bs " Version: ") first -> ~ begins_with (bs " Comment: ") first ->
  delivers B true b (mk (commit_bytes size d) EEOF) ->
  parse_object (bufio_ops pa pc) b = Err EGpgFirstLine.
Proof.
  intros B pa pc b size z d ks x first r HB A1 A2 R Hk Hm N1 N2 N3 D.
  rewrite (parse_transfer B ltac:(lia) pa pc _ _ D), parse_commit_stream by (eapply numeral_no_nul; eauto).
  assert (atoi size = Ok z) as -> by (now apply atoi_iff). cbn [bind].
  rewrite app_assoc in R. apply reads_app in R as (d1 & R1 & R2). apply reads_cons_inv in R2 as (d2 & T & _).
  rewrite (run_to_signature B HB ks zero_commit d x d1 R1 Hk Hm).
  rewrite (signature_bad_start B HB d1 first d2 T N1 N2 N3). reflexivity.
Qed.
Print Assumptions signature_with_a_wrong_first_line_is_rejected.

(** Commits signed with SSH: what ssh-keygen writes begins with the bytes "SSHSIG", in base64
    "U1NIU0lH", right after its first line. *)
Theorem ssh_signed_commits_are_rejected : forall B pa pc b size z d ks y r,
  64 <= B -> numeral size z -> int_range z ->
  reads B d (header_lines ks ++ [bs "gpgsig -----BEGIN SSH SIGNATURE-----"; bs " U1NIU0lH" ++ y]) r ->
  (forall k, In k ks -> block_ok k) -> mergetags_end ks (EndMessage []) ->
  delivers B true b (mk (commit_bytes size d) EEOF) ->
  parse_object (bufio_ops pa pc) b = Err EGpgFirstLine.
Proof.
  intros B pa pc b size z d ks y r HB A1 A2 R Hk Hm D.
  apply (signature_with_a_wrong_first_line_is_rejected B pa pc b size z d ks (bs "-----BEGIN SSH SIGNATURE-----") (bs " U1NIU0lH" ++ y) r); auto;
    try discriminate; intros [q Q]; discriminate Q.
Qed.
Print Assumptions ssh_signed_commits_are_rejected.

(** A signature that the data ends before its last line. *)
Theorem unterminated_signature_is_rejected : forall B pa pc b size z d ks x ss,
  64 <= B -> numeral size z -> int_range z ->
  reads B d (header_lines ks ++ [bs "gpgsig " ++ x] ++ ss) [] ->
  (forall k, In k ks -> block_ok k) -> mergetags_end ks (EndMessage []) ->
  (forall first rest, ss = first :: rest -> signature_ok (first, rest)) ->
  delivers B true b (mk (commit_bytes size d) EEOF) ->
  parse_object (bufio_ops pa pc) b = Err EEOF.
Proof.
  intros B pa pc b size z d ks x ss HB A1 A2 R Hk Hm H D.
  rewrite (parse_transfer B ltac:(lia) pa pc _ _ D), parse_commit_stream by (eapply numeral_no_nul; eauto).
  assert (atoi size = Ok z) as -> by (now apply atoi_iff). cbn [bind].
  rewrite app_assoc in R. apply reads_app in R as (d1 & R1 & R2).
  rewrite (run_to_signature B HB ks zero_commit d x d1 R1 Hk Hm).
  rewrite (signature_eof B HB d1 ss R2 H). reflexivity.
Qed.
Print Assumptions unterminated_signature_is_rejected.

(** An SSH signature, and a PGP signature without its last line. *)
Example rejected_signatures_apply :
  let d1 := bs "gpgsig -----BEGIN SSH SIGNATURE-----" ++ [NL] ++ bs " U1NIU0lH" ++ [NL] in
  let d2 := pgp_begin ++ [NL] ++ bs " " ++ [NL] ++ bs " iQIz" ++ [NL] in
  reads 64 d1 (header_lines [] ++ [bs "gpgsig " ++ bs "-----BEGIN SSH SIGNATURE-----"] ++ [bs " U1NIU0lH"]) [] /\
  (bs " U1NIU0lH" <> bs " " /\ ~ begins_with (bs " Version: ") (bs " U1NIU0lH") /\ ~ begins_with (bs " Comment: ") (bs " U1NIU0lH")) /\
  reads 64 d2 (header_lines [] ++ [bs "gpgsig " ++ bs "-----BEGIN PGP SIGNATURE-----"] ++ [bs " "; bs " iQIz"]) [] /\
  signature_ok (bs " ", [bs " iQIz"]).
Proof.
  assert (forall l, length l < 64 -> forallb (fun c => negb (byte_eqb c NL || byte_eqb c CR)) l = true -> line_ok 64 l) as L.
  { intros l Hl H. rewrite forallb_forall in H. split; [intros I; now apply H in I|]. split; [|exact Hl].
    intros [r ->]. assert (In CR (r ++ [CR])) as I by (rewrite in_app_iff; right; now left). now apply H in I. }
  intros d1 d2. split; [|split; [|split]].
  - change d1 with (unlines [bs "gpgsig -----BEGIN SSH SIGNATURE-----"; bs " U1NIU0lH"] ++ []). apply reads_unlines.
    intros l [<-|[<-|[]]]; apply L; (vm_compute; lia) || (vm_compute; reflexivity).
  - split; [discriminate|]. split; intros [r R]; discriminate R.
  - change d2 with (unlines [pgp_begin; bs " "; bs " iQIz"] ++ []). apply reads_unlines.
    intros l [<-|[<-|[<-|[]]]]; apply L; (vm_compute; lia) || (vm_compute; reflexivity).
  - split; [now left|]. cbn [snd]. intros [E|[]]; discriminate E.
Qed.

(** ** C28: header lines that do not fit the buffer *)

(** A line longer than the buffer is cut; the rest is read as a line of its own, whatever it
    says. *)
Theorem long_header_line_is_cut : forall B pa pc b size z ks k p rest c,
  64 <= B -> numeral size z -> int_range z ->
  (forall k, In k ks -> block_ok k) -> mergetags_end (ks ++ [k]) (EndMessage []) ->
  (forall l, In l (header_lines ks) -> line_ok B l) ->
  block_ok k -> block_lines k = [p] -> ~ In NL p -> ~ ends_with CR p -> length p = B ->
  delivers B true b (mk (commit_bytes size (unlines (header_lines ks) ++ p ++ rest)) EEOF) ->
  (parse_object (bufio_ops pa pc) b = Ok (NCommit c) <->
   exists ks2 en, reads B rest (header_lines ks2 ++ ending_lines en) (ending_rest en) /\
     (forall k, In k ks2 -> block_ok k) /\ ending_ok en /\ mergetags_end ks2 en /\
     c = apply_ending (header_value (ks ++ [k] ++ ks2)) en).
Proof.
  intros B pa pc b size z ks k p rest c HB A1 A2 Hk Hm Hl Hb Ep Np Nc Lp D.
  rewrite (parse_transfer B ltac:(lia) pa pc _ _ D), parse_commit_stream by (eapply numeral_no_nul; eauto).
  assert (atoi size = Ok z) as -> by (now apply atoi_iff). cbn [bind].
  assert (mergetags_end ks (EndMessage []) /\ ~ is_mergetag k /\ (ks = [] \/ match last_of ks with Some k' => is_mergetag k' -> ~ starts_with SP p | None => True end)) as (Hm1 & Nk & Hlast).
  { split; [|split].
    - clear - Hm. induction ks as [|x ks IH]; [exact Logic.I|]. destruct x; cbn [app mergetags_end] in *; try (now apply IH).
      destruct Hm as [H1 H2]. split; [|now apply IH]. destruct ks as [|[] ks]; auto. discriminate.
    - intros I. destruct k; try contradiction. cbn [block_lines] in Ep. apply (f_equal (@length _)) in Ep. rewrite !app_length in Ep. cbn [length] in Ep. lia.
    - destruct (last_of ks) as [k'|] eqn:El; [|left; now apply last_of_none]. right. intros I. apply last_of_some in El as [q ->].
      rewrite <- app_assoc in Hm. cbn [app] in Hm. intros Sp.
      destruct (block_first k (block_ok_wf _ Hb)) as (l & ls & E1 & E2 & _). rewrite Ep in E1. injection E1 as <- <-.
      destruct (E2 Sp) as [o ->]. cbn in Ep. injection Ep as <-. clear - Hm I Sp.
      induction q as [|x q IH]; cbn [app] in Hm.
      + destruct k'; try contradiction. cbn [mergetags_end] in Hm. now apply Hm.
      + apply IH. destruct x; cbn [mergetags_end] in Hm; try exact Hm. apply Hm. }
  assert (takes B (p ++ rest) p rest) as T by (now apply takes_cut).
  assert (commit_run B zero_commit (mk (unlines (header_lines ks) ++ p ++ rest) EEOF) =
          commit_run B (header_value (ks ++ [k])) (mk rest EEOF)) as E.
  { unfold header_value. rewrite fold_left_app. cbn [fold_left].
    transitivity (commit_run B (fold_left apply_block ks zero_commit) (mk (p ++ rest) EEOF)).
    - apply (run_prefix B HB); auto; [now apply reads_unlines|]. intros q k' Eq I. exists p, rest. split; [exact T|].
      destruct Hlast as [->|Hlast]; [destruct q; discriminate Eq|]. subst ks. rewrite last_of_snoc in Hlast. now apply Hlast.
    - apply (run_block B HB); auto.
      + rewrite Ep. econstructor; [exact T|constructor].
      + intros X. contradiction. }
  rewrite E. split.
  - intros Q. unfold map_res in Q. apply bind_ok in Q as (c' & Q & Q'). assert (c' = c) as -> by congruence.
    apply (run_sound B HB (length rest) rest (le_n _)) in Q as (ks2 & en & R & H1 & H2 & H3 & ->).
    exists ks2, en. split; [exact R|]. split; [exact H1|]. split; [exact H2|]. split; [exact H3|].
    unfold header_value. rewrite app_assoc, (fold_left_app _ (ks ++ [k])). reflexivity.
  - intros (ks2 & en & R & H1 & H2 & H3 & ->). rewrite (run_complete B HB ks2 en) by assumption.
    unfold header_value. rewrite app_assoc, (fold_left_app _ (ks ++ [k])). reflexivity.
Qed.
Print Assumptions long_header_line_is_cut.

(** A header line of exactly the size of the buffer ends the header: its newline is read as
    the blank line, and all that follows becomes the message. *)
Theorem header_line_of_the_buffer_size_ends_the_header : forall B pa pc b size z ks k p rest,
  64 <= B -> numeral size z -> int_range z ->
  (forall k, In k ks -> block_ok k) -> mergetags_end (ks ++ [k]) (EndMessage []) ->
  (forall l, In l (header_lines ks) -> line_ok B l) ->
  block_ok k -> block_lines k = [p] -> ~ In NL p -> ~ ends_with CR p -> length p = B ->
  delivers B true b (mk (commit_bytes size (unlines (header_lines ks) ++ p ++ [NL] ++ rest)) EEOF) ->
  parse_object (bufio_ops pa pc) b = Ok (NCommit (with_message (header_value (ks ++ [k])) rest)).
Proof.
  intros B pa pc b size z ks k p rest HB A1 A2 Hk Hm Hl Hb Ep Np Nc Lp D.
  apply (long_header_line_is_cut B pa pc b size z ks k p ([NL] ++ rest)); auto.
  exists [], (EndMessage rest). split; [|split; [intros ? []|split; [exact Logic.I|split; [exact Logic.I|]]]].
  - cbn [header_lines map concat ending_lines ending_rest app]. econstructor; [|constructor].
    apply (takes_nl B [] rest); cbn; [auto|intros [[|] R]; discriminate R|lia].
  - rewrite app_nil_r. reflexivity.
Qed.
Print Assumptions header_line_of_the_buffer_size_ends_the_header.

Example long_header_lines_apply :
  let p := repeat x78 64 in
  block_ok (KOther p) /\ block_lines (KOther p) = [p] /\ ~ In NL p /\ ~ ends_with CR p /\ length p = 64 /\
  mergetags_end ([KTree some_hex some_sha] ++ [KOther p]) (EndMessage []).
Proof.
  intros p. split; [|split; [reflexivity|split; [|split; [|split; [reflexivity|exact Logic.I]]]]].
  - split; [discriminate|]. intros (w & I & r & E). cbn in I. decompose [or] I; try contradiction; subst w; discriminate E.
  - intros I. apply repeat_spec in I. discriminate I.
  - intros [r E]. assert (In CR p) as I by (rewrite E, in_app_iff; right; now left). apply repeat_spec in I. discriminate I.
Qed.

(** The same in tags. *)
Theorem long_tag_line_is_cut : forall B pa pc b size ts x p rest t,
  64 <= B -> ~ In NUL size ->
  (forall y, In y ts -> tline_ok y) -> (forall y, In y ts -> line_ok B (tline_text y)) ->
  tline_ok x -> tline_text x = p -> ~ In NL p -> ~ ends_with CR p -> length p = B ->
  delivers B true b (mk (tag_bytes size (unlines (map tline_text ts) ++ p ++ rest)) EEOF) ->
  (parse_object (bufio_ops pa pc) b = Ok (NTag t) <->
   exists ts2 (msg : option bytes),
     reads B rest (map tline_text ts2 ++ match msg with Some _ => [[]] | None => [] end) (or_else msg []) /\
     (forall y, In y ts2 -> tline_ok y) /\
     t = tag_of (ts ++ [x] ++ ts2) (or_else msg [])).
Proof.
  intros B pa pc b size ts x p rest t HB N Ht Hl Hx Ex Np Nc Lp D.
  assert (takes B (p ++ rest) p rest) as T by (now apply takes_cut).
  assert (forall d l out pr r, reads B d (map tline_text l) r -> (forall y, In y l -> tline_ok y) ->
            tag_run B out pr (mk d EEOF) = tag_run B (fold_left tline_apply l out) (pr ++ ignored l) (mk r EEOF)) as P.
  { intros d l. revert d. induction l as [|y l IH]; intros d out pr r R H; cbn [map] in R.
    - apply reads_none_iff in R. subst r. cbn. now rewrite app_nil_r.
    - apply reads_cons_inv in R as (d1 & T1 & R). assert (tline_ok y) as Hy by (apply H; now left).
      rewrite (tag_run_takes B HB _ _ _ _ _ T1) by (now apply tline_not_blank). rewrite tag_header_tline by exact Hy. cbn [bind].
      rewrite (IH _ _ _ _ R) by (intros; apply H; now right). unfold ignored. cbn [map concat fold_left]. now rewrite <- app_assoc. }
  rewrite (parse_transfer B ltac:(lia) pa pc _ _ D), parse_tag_any by exact N.
  rewrite (P _ (ts ++ [x]) zero_tag [] rest).
  2:{ rewrite map_app. apply reads_app. exists (p ++ rest). split.
      - apply reads_unlines. intros l I. apply in_map_iff in I as (y & <- & I). auto.
      - cbn [map]. rewrite Ex. econstructor; [exact T|constructor]. }
  2:{ intros y I. apply in_app_iff in I as [I|[<-|[]]]; auto. }
  assert (forall ts2 m, set_msg (fold_left tline_apply ts2 (fold_left tline_apply (ts ++ [x]) zero_tag)) m = tag_of (ts ++ [x] ++ ts2) (or_else m [])) as V.
  { intros ts2 m. rewrite <- fold_left_app, <- app_assoc. destruct m as [m|]; [|reflexivity]. cbn [set_msg or_else]. rewrite <- tline_fold_msg. reflexivity. }
  split.
  - intros E. apply bind_ok in E as ([t' pr] & E & Q). assert (t' = t) as -> by congruence.
    apply (tag_run_sound B HB (length rest)) in E as (ts2 & m & R & H & -> & _); [|lia].
    exists ts2, m. split; [destruct m; exact R|]. split; [exact H|]. apply V.
  - intros (ts2 & m & R & H & ->). rewrite (tag_run_complete B HB ts2 m); [cbn [bind]; now rewrite V|destruct m; exact R|exact H].
Qed.
Print Assumptions long_tag_line_is_cut.

(** A tag name of 62 bytes through a buffer of 64 bytes: the last two bytes are a line that is ignored. *)
Example long_tag_line_is_cut_applies :
  let p := bs "tag " ++ repeat x78 60 in
  tline_ok (TTag (repeat x78 60)) /\ tline_text (TTag (repeat x78 60)) = p /\ ~ In NL p /\ ~ ends_with CR p /\ length p = 64 /\
  reads 64 (bs "yz" ++ [NL]) (map tline_text [TIgnored (bs "yz")]) [] /\ tline_ok (TIgnored (bs "yz")) /\
  parse_object (bufio_ops one_byte one_byte) (new_reader 64 (chunks [tag_bytes (bs "0") (p ++ bs "yz" ++ [NL])] EEOF)) =
    Ok (NTag (tag_of ([] ++ [TTag (repeat x78 60)] ++ [TIgnored (bs "yz")]) [])).
Proof.
  intros p. assert (forallb (fun c => negb (byte_eqb c NL || byte_eqb c CR)) p = true) as H by reflexivity. rewrite forallb_forall in H.
  split; [exact Logic.I|]. split; [reflexivity|]. split; [intros I; now apply H in I|]. split.
  { intros [r E]. assert (In CR p) as I by (rewrite E, in_app_iff; right; now left). now apply H in I. }
  split; [reflexivity|]. split.
  { apply (reads_unlines 64 [bs "yz"] []). intros l [<-|[]]. apply line_okb_ok. reflexivity. }
  split; [|vm_compute; reflexivity].
  split; [discriminate|]. intros w I [r E]. cbn in I. decompose [or] I; try contradiction; subst w; discriminate E.
Qed.

(** So a commit whose last header line is too long comes back with a newline inside it. *)
Theorem long_header_line_does_not_survive : forall B pa pc b g p q msg,
  64 <= B -> commit_ok B g -> fits (unlines (commit_lines g ++ [p ++ q]) ++ [NL] ++ msg) ->
  length p = B -> ~ In NL p -> ~ ends_with CR p -> ~ is_header p -> ~ starts_with SP p ->
  q <> [] -> line_ok B q -> ~ is_header q ->
  delivers B true b (mk (git_object (bs "commit") (unlines (commit_lines g ++ [p ++ q]) ++ [NL] ++ msg)) EEOF) ->
  exists c, parse_object (bufio_ops pa pc) b = Ok (NCommit c) /\
    c_other c = gc_other g ++ [p; q] /\
    encode_bytes (NCommit c) = Ok (git_object (bs "commit") (unlines (commit_lines g ++ [p; q]) ++ [NL] ++ msg)).
Proof.
  intros B pa pc b g p q msg HB Hg F Lp Np Nc Nh Ns Nq Lq Nhq D.
  set (body := unlines (commit_lines g ++ [p ++ q]) ++ [NL] ++ msg) in *.
  pose proof Hg as (Ht & Hp & Ha & Hc & Hms & Hsg & Ho & Hsp & Hl).
  assert (block_ok (KOther p)) as Op by (split; [intros ->; cbn in Lp; lia|exact Nh]).
  pose proof (cblocks_ok B g Hg) as Hk.
  set (ks := cblocks g) in *.
  assert (mergetags_end (ks ++ [KOther p]) (EndMessage [])) as Hm.
  { assert (cblocks {| gc_tree := gc_tree g; gc_parents := gc_parents g; gc_author := gc_author g; gc_committer := gc_committer g;
      gc_encoding := gc_encoding g; gc_mergetags := gc_mergetags g; gc_signature := gc_signature g; gc_other := gc_other g ++ [p]; gc_message := msg |} = ks ++ [KOther p]) as <-.
    { unfold ks, cblocks. cbn [gc_tree gc_parents gc_author gc_committer gc_encoding gc_mergetags gc_signature gc_other]. rewrite map_app. cbn [map].
      rewrite <- !app_assoc. reflexivity. }
    apply cblocks_end. cbn [gc_mergetags gc_signature gc_other]. intros N1 N2 l ls E. destruct (gc_other g) as [|o os] eqn:Eo.
    - cbn in E. injection E as <- _. exact Ns.
    - cbn in E. injection E as <- _. eapply Hsp; eauto. }
  assert (body = unlines (header_lines ks) ++ p ++ q ++ [NL] ++ [NL] ++ msg) as Eb.
  { unfold body, ks. rewrite cblocks_lines, unlines_app, unlines_cons, unlines_nil. rewrite app_nil_r, <- !app_assoc. reflexivity. }
  set (g2 := {| gc_tree := gc_tree g; gc_parents := gc_parents g; gc_author := gc_author g; gc_committer := gc_committer g;
      gc_encoding := gc_encoding g; gc_mergetags := gc_mergetags g; gc_signature := gc_signature g; gc_other := gc_other g ++ [p; q]; gc_message := msg |}).
  exists (commit_value g2). split; [|split; [reflexivity|]].
  - assert (numeral (dec (N.of_nat (length body))) (Z.of_nat (length body)) /\ int_range (Z.of_nat (length body))) as [A1 A2].
    { apply atoi_iff. rewrite atoi_dec; [now rewrite nat_N_Z|]. unfold fits in F. lia. }
    apply (long_header_line_is_cut B pa pc b (dec (N.of_nat (length body))) (Z.of_nat (length body)) ks (KOther p) p (q ++ [NL] ++ [NL] ++ msg)); auto.
    + unfold ks. rewrite cblocks_lines. exact Hl.
    + rewrite <- Eb. exact D.
    + exists [KOther q], (EndMessage msg). split; [|split; [|split; [exact Logic.I|split; [exact Logic.I|]]]].
      * cbn [header_lines map concat block_lines ending_lines ending_rest app]. econstructor; [now apply takes_line_ok|]. econstructor; [|constructor].
        apply (takes_nl B [] msg); cbn; [auto|intros [[|] R]; discriminate R|lia].
      * intros k [<-|[]]. split; [exact Nq|exact Nhq].
      * rewrite <- cblocks_value. change (gc_message g2) with msg. f_equal. f_equal. unfold g2, ks, cblocks.
        cbn [gc_tree gc_parents gc_author gc_committer gc_encoding gc_mergetags gc_signature gc_other]. rewrite map_app. cbn [map].
        rewrite <- !app_assoc. reflexivity.
  - rewrite encode_commit_value; auto.
    + do 2 f_equal. unfold commit_text. change (gc_message g2) with msg. do 2 f_equal. unfold g2, commit_lines.
      cbn [gc_tree gc_parents gc_author gc_committer gc_encoding gc_mergetags gc_signature gc_other]. rewrite <- !app_assoc. reflexivity.
    + intros m I. apply (Hms m I).
Qed.
Print Assumptions long_header_line_does_not_survive.

Example long_header_line_does_not_survive_applies :
  let g := {| gc_tree := some_sha; gc_parents := []; gc_author := some_person; gc_committer := some_person; gc_encoding := None;
              gc_mergetags := []; gc_signature := None; gc_other := [bs "x y"]; gc_message := [] |} in
  let p := repeat x78 64 in
  commit_ok 64 g /\ length p = 64 /\ ~ is_header p /\ line_ok 64 (bs "tail") /\ ~ is_header (bs "tail") /\
  fits (unlines (commit_lines g ++ [p ++ bs "tail"]) ++ [NL] ++ bs "m").
Proof.
  intros g p. split; [apply commit_okb_ok; vm_compute; reflexivity|]. split; [reflexivity|].
  split; [|split; [apply line_okb_ok; reflexivity|split; [|unfold fits; apply Z.ltb_lt; vm_compute; reflexivity]]];
    intros (w & I & r & E); cbn in I; decompose [or] I; try contradiction; subst w; discriminate E.
Qed.

(** ** C42: carriage returns at the end of header lines

    The lines of a header, each with a carriage return before its newline or not. *)
Definition unlines_cr (ls : list (bytes * bool)) : bytes :=
  concat (map (fun x : bytes * bool => fst x ++ (if snd x then [CR; NL] else [NL])) ls).
Definition cr_fits (B : nat) (x : bytes * bool) : Prop :=
  line_ok B (fst x) /\ (snd x = true -> S (length (fst x)) < B).

Lemma reads_unlines_cr B ls r : (forall x, In x ls -> cr_fits B x) -> reads B (unlines_cr ls ++ r) (map fst ls) r.
Proof.
  induction ls as [|[l cr] ls IH]; intros H; [constructor|]. unfold unlines_cr. cbn [map concat fst snd]. rewrite <- !app_assoc.
  destruct (H (l, cr)) as [[N [C L]] L2]; [now left|]. cbn [fst snd] in *.
  apply (reads_line B _ l (unlines_cr ls ++ r)).
  - destruct cr; [apply takes_crnl; auto|apply takes_nl; auto].
  - apply IH. intros; apply H; now right.
Qed.

Lemma unlines_cr_longer ls : length (unlines (map fst ls)) <= length (unlines_cr ls) /\
  ((exists l, In (l, true) ls) -> length (unlines (map fst ls)) < length (unlines_cr ls)).
Proof.
  induction ls as [|[l cr] ls [IH1 IH2]]; [split; [apply le_n|intros [? []]]|].
  assert (length (unlines_cr ((l, cr) :: ls)) = length l + (if cr then 2 else 1) + length (unlines_cr ls)) as ->.
  { unfold unlines_cr. cbn [map concat fst snd]. rewrite !app_length. destruct cr; cbn [length]; lia. }
  cbn [map fst]. rewrite unlines_cons, !app_length. cbn [length].
  split; [destruct cr; lia|]. intros (x & [E|I]); [injection E as _ ->; lia|].
  assert (length (unlines (map fst ls)) < length (unlines_cr ls)) by (apply IH2; eauto). destruct cr; lia.
Qed.

Theorem header_carriage_returns_are_dropped : forall B pa pc b size z ks ls cr msg,
  64 <= B -> numeral size z -> int_range z ->
  (forall k, In k ks -> block_ok k) -> mergetags_end ks (EndMessage msg) ->
  header_lines ks = map fst ls -> (forall x, In x ls -> cr_fits B x) ->
  delivers B true b (mk (commit_bytes size (unlines_cr ls ++ unlines_cr [([], cr)] ++ msg)) EEOF) ->
  parse_object (bufio_ops pa pc) b = Ok (NCommit (with_message (header_value ks) msg)).
Proof.
  intros B pa pc b size z ks ls cr msg HB A1 A2 Hk Hm El Hl D. apply (commit_accepted B pa pc _ _ _ _ HB (numeral_no_nul _ _ A1) D).
  split; [eauto|]. exists ks, (EndMessage msg). split; [|split; [exact Hk|split; [exact Logic.I|split; [exact Hm|reflexivity]]]].
  rewrite El. apply reads_app. exists (unlines_cr [([], cr)] ++ msg). split; [now apply reads_unlines_cr|].
  apply (reads_unlines_cr B [([], cr)] msg). intros x [<-|[]]. split; [|cbn; intros _; lia].
  split; [cbn; auto|split; [intros [[|] R]; discriminate R|cbn; lia]].
Qed.
Print Assumptions header_carriage_returns_are_dropped.

Theorem tag_carriage_returns_are_dropped : forall B pa pc b size ts ls cr msg,
  64 <= B -> ~ In NUL size ->
  (forall t, In t ts -> tline_ok t) ->
  map tline_text ts = map fst ls -> (forall x, In x ls -> cr_fits B x) ->
  delivers B true b (mk (tag_bytes size (unlines_cr ls ++ unlines_cr [([], cr)] ++ msg)) EEOF) ->
  parse_object (bufio_ops pa pc) b = Ok (NTag (tag_of ts msg)).
Proof.
  intros B pa pc b size ts ls cr msg HB N Ht El Hl D. apply (tag_accepted B pa pc _ _ _ _ HB N D).
  exists (ignored ts), ts, (Some msg). split; [|auto].
  rewrite El. apply reads_app. exists (unlines_cr [([], cr)] ++ msg). split; [now apply reads_unlines_cr|].
  apply (reads_unlines_cr B [([], cr)] msg). intros x [<-|[]]. split; [|cbn; intros _; lia].
  split; [cbn; auto|split; [intros [[|] R]; discriminate R|cbn; lia]].
Qed.
Print Assumptions tag_carriage_returns_are_dropped.

(** So a canonical commit with a carriage return at the end of a header line loses it. *)
Theorem commit_with_carriage_returns_does_not_survive : forall B pa pc b size z g ls cr,
  64 <= B -> numeral size z -> int_range z -> commit_ok B g ->
  commit_lines g = map fst ls -> (forall x, In x ls -> cr_fits B x) ->
  (cr = true \/ exists l, In (l, true) ls) ->
  delivers B true b (mk (commit_bytes size (unlines_cr ls ++ unlines_cr [([], cr)] ++ gc_message g)) EEOF) ->
  parse_object (bufio_ops pa pc) b = Ok (NCommit (commit_value g)) /\
  encode_bytes (NCommit (commit_value g)) = Ok (git_object (bs "commit") (commit_text g)) /\
  commit_text g <> unlines_cr ls ++ unlines_cr [([], cr)] ++ gc_message g.
Proof.
  intros B pa pc b size z g ls cr HB A1 A2 Hg El Hl Hcr D.
  pose proof Hg as (Ht & Hp & Ha & Hc & Hms & Hsg & Ho & Hsp & Hli). split; [|split].
  - rewrite <- cblocks_value. apply (header_carriage_returns_are_dropped B pa pc b size z (cblocks g) ls cr); auto.
    + eapply cblocks_ok; eauto.
    + pose proof (cblocks_end g Hsp) as Hm. revert Hm. generalize (cblocks g) as ks. intros ks.
      induction ks as [|k ks IH]; [auto|]. intros Hm. destruct k; cbn [mergetags_end] in *; try (now apply IH).
      destruct Hm as [H1 H2]. split; [|now apply IH]. destruct ks as [|[] ks]; auto. discriminate.
    + now rewrite cblocks_lines.
  - apply encode_commit_value; auto. intros m I. apply (Hms m I).
  - intros E. apply (f_equal (@length _)) in E. unfold commit_text in E. rewrite El in E. rewrite !app_length in E.
    destruct (unlines_cr_longer ls) as [L1 L2].
    destruct cr; cbn [length app unlines_cr map concat fst snd] in E; [lia|]. destruct Hcr as [Hcr|Hcr]; [discriminate|]. apply L2 in Hcr. lia.
Qed.
Print Assumptions commit_with_carriage_returns_does_not_survive.

Example carriage_returns_apply :
  let g := {| gc_tree := some_sha; gc_parents := []; gc_author := some_person; gc_committer := some_person; gc_encoding := None;
              gc_mergetags := []; gc_signature := None; gc_other := []; gc_message := [CR; NL; CR; NL] |} in
  let ls := [(bs "tree " ++ some_hex, true); (bs "author A <a> 1 +0", false); (bs "committer A <a> 1 +0", true)] in
  commit_ok 64 g /\ commit_lines g = map fst ls /\ forall x, In x ls -> cr_fits 64 x.
Proof.
  assert (forall l, length l < 63 -> forallb (fun c => negb (byte_eqb c NL || byte_eqb c CR)) l = true -> forall b, cr_fits 64 (l, b)) as L.
  { intros l Hl H b. rewrite forallb_forall in H. split; [|cbn; lia]. split; [intros I; now apply H in I|]. split; [|cbn; lia].
    intros [r E]. cbn [fst] in E. subst l. assert (In CR (r ++ [CR])) as I by (rewrite in_app_iff; right; now left). now apply H in I. }
  intros g ls. split; [apply commit_okb_ok; vm_compute; reflexivity|]. split; [reflexivity|].
  intros x [<-|[<-|[<-|[]]]]; apply L; (vm_compute; lia) || (vm_compute; reflexivity).
Qed.

(** Tags lose theirs too. *)
Theorem tag_with_carriage_returns_does_not_survive : forall B pa pc b size g ls cr,
  64 <= B -> ~ In NUL size -> tag_ok B g ->
  tag_lines g = map fst ls -> (forall x, In x ls -> cr_fits B x) ->
  (cr = true \/ exists l, In (l, true) ls) ->
  delivers B true b (mk (tag_bytes size (unlines_cr ls ++ unlines_cr [([], cr)] ++ gt_message g)) EEOF) ->
  parse_object (bufio_ops pa pc) b = Ok (NTag (tag_value g)) /\
  encode_bytes (NTag (tag_value g)) = Ok (git_object (bs "tag") (tag_text g)) /\
  tag_text g <> unlines_cr ls ++ unlines_cr [([], cr)] ++ gt_message g.
Proof.
  intros B pa pc b size g ls cr HB N (Ho & Hp & Hm & Hli) El Hl Hcr D. split; [|split].
  - change (tag_value g) with (tag_of [TObject (hex_encode (gt_object g)) (gt_object g); TType (gt_type g); TTag (gt_tag g);
      TTagger (person_text (gt_tagger g)) (gt_tagger g)] (gt_message g)).
    apply (tag_carriage_returns_are_dropped B pa pc b size _ ls cr); auto.
    intros t [<-|[<-|[<-|[<-|[]]]]]; try exact Logic.I.
    + split; [apply hex_text_encode|exact Ho].
    + apply (person_text_line (bs "tagger")); [cbn; intuition discriminate|exact Hp].
  - now apply encode_tag_value.
  - intros E. apply (f_equal (@length _)) in E. unfold tag_text in E. rewrite El in E. rewrite !app_length in E.
    destruct (unlines_cr_longer ls) as [L1 L2].
    destruct cr; cbn [length app unlines_cr map concat fst snd] in E; [lia|]. destruct Hcr as [Hcr|Hcr]; [discriminate|]. apply L2 in Hcr. lia.
Qed.
Print Assumptions tag_with_carriage_returns_does_not_survive.

Example tag_carriage_returns_apply :
  let g := {| gt_object := some_sha; gt_type := bs "commit"; gt_tag := bs "v1"; gt_tagger := some_person; gt_message := [CR; NL] |} in
  let ls := [(bs "object " ++ some_hex, false); (bs "type commit", true); (bs "tag v1", false); (bs "tagger A <a> 1 +0", true)] in
  tag_ok 64 g /\ tag_lines g = map fst ls /\ forall x, In x ls -> cr_fits 64 x.
Proof.
  assert (forall l, length l < 63 -> forallb (fun c => negb (byte_eqb c NL || byte_eqb c CR)) l = true -> forall b, cr_fits 64 (l, b)) as L.
  { intros l Hl H b. rewrite forallb_forall in H. split; [|cbn; lia]. split; [intros I; now apply H in I|]. split; [|cbn; lia].
    intros [r E]. cbn [fst] in E. subst l. assert (In CR (r ++ [CR])) as I by (rewrite in_app_iff; right; now left). now apply H in I. }
  intros g ls. assert (forall x, In x ls -> cr_fits 64 x) as F by (intros x [<-|[<-|[<-|[<-|[]]]]]; apply L; (vm_compute; lia) || (vm_compute; reflexivity)).
  split; [|split; [reflexivity|exact F]]. split; [reflexivity|]. split; [apply person_okb_ok; vm_compute; reflexivity|]. split; [discriminate|].
  intros l I. change (tag_lines g) with (map fst ls) in I. apply in_map_iff in I as (x & <- & I). apply (F x I).
Qed.
