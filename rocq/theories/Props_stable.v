(** C41: when decoding, encoding and decoding again changes nothing. *)
From Verif Require Import Base GoStr Cid Types Nodes Reader Bufio Person Assemble Decode Encode Spec HeaderSpec NormalSpec
  ReaderSpec StreamFacts PersonFacts DecodeFacts RoundTrip CommitFacts GrammarFacts NormalFacts PrefixFacts CanonFacts
  Sim BufioFacts NumFacts Transfer Checks Props_roundtrip Props_decode Props_grammar Props_header Props_tag Props_generic.

(** The lines a commit is written as, and its message. *)
Definition written_commit (c : commit) (ls : list bytes) : Prop :=
  encode_bytes (NCommit c) = Ok (git_object (bs "commit") (unlines ls ++ [NL] ++ c_message c)).
(** A tag without a message is written without the blank line. *)
Definition written_tag (t : tag) (ls : list bytes) : Prop :=
  encode_bytes (NTag t) = Ok (git_object (bs "tag") (unlines ls ++ match t_message t with [] => [] | m => [NL] ++ m end)).

(** A decoded commit is well formed: it has a tree, its persons survive, no line starts
    with a space right after a merge tag, and the lines it is written as are read back
    whole by a reader with a buffer of [B] bytes. *)
Definition well_formed_commit (B : nat) (c : commit) : Prop :=
  c_tree c <> LNil /\
  (exists p, c_author c = Some p /\ person_ok p) /\
  (exists p, c_committer c = Some p /\ person_ok p) /\
  (forall t, In t (c_mergetag c) -> person_ok (t_tagger t)) /\
  (c_mergetag c <> [] -> c_signature c = None -> forall l ls, c_other c = l :: ls -> ~ starts_with SP l) /\
  exists ls, written_commit c ls /\ forall l, In l ls -> line_ok B l.
Definition well_formed_tag (B : nat) (t : tag) : Prop :=
  t_object t <> LNil /\ person_ok (t_tagger t) /\
  exists ls, written_tag t ls /\ forall l, In l ls -> line_ok B l.

Lemma takes_no_nl B d l r : takes B d l r -> ~ In NL l.
Proof. now destruct 1. Qed.
Lemma reads_no_nl B d ls r : reads B d ls r -> forall l, In l ls -> ~ In NL l.
Proof. induction 1 as [|d l d1 ls r T R IH]; intros x []; [subst; eapply takes_no_nl; eassumption|auto]. Qed.

(** ** Commits *)
Lemma well_formed_commit_ok B ks en :
  (forall k, In k ks -> block_ok k) -> ending_ok en ->
  (forall l, In l (header_lines ks ++ ending_lines en) -> ~ In NL l) ->
  well_formed_commit B (apply_ending (header_value ks) en) ->
  exists g, commit_ok B g /\ apply_ending (header_value ks) en = commit_value g /\
    encode_bytes (NCommit (commit_value g)) = Ok (git_object (bs "commit") (commit_text g)).
Proof.
  intros Hk He Hn (Wt & Wa & Wc & Wm & Ws & ls & Wl & Hl).
  destruct Wa as (a & Ea & Pa). destruct Wc as (cm & Ec & Pc).
  pose proof (commit_fields ks en) as CF. 
  assert (last_of (authors ks) = Some a) as La by (rewrite CF in Ea; exact Ea).
  assert (last_of (committers ks) = Some cm) as Lc by (rewrite CF in Ec; exact Ec).
  assert (exists s, last_of (trees ks) = Some s) as [s Lt].
  { rewrite CF in Wt. cbn [c_tree] in Wt. destruct (last_of (trees ks)); [eauto|]. contradiction Wt. reflexivity. }
  pose proof (normal_value ks en a cm s La Lc Lt) as V. pose proof (encode_commit_normal ks en a cm Hk He La Lc) as O.
  set (g := normal ks en a cm) in *. exists g.
  assert (ls = commit_lines g) as ->.
  { unfold written_commit in Wl. rewrite O in Wl.
    assert (git_object (bs "commit") (commit_text g) = git_object (bs "commit") (unlines ls ++ [NL] ++ c_message (apply_ending (header_value ks) en))) as Q by congruence.
    apply git_object_inj in Q. rewrite V in Q. unfold commit_text, commit_value in Q. cbn [c_message] in Q.
    apply app_inv_tail in Q. apply unlines_inj in Q; [now symmetry| |intros l I; apply (Hl l I)].
    apply normal_no_nl; auto; intros l I; apply Hn; apply in_app_iff; auto. }
  split; [|split; [exact V|now rewrite <- V]].
  assert (forall m, In m (gc_mergetags g) -> is_sha (gm_object m)) as Hms by (intros m I; eapply mergetags_sha; eauto).
  split; [|split; [|split; [|split; [|split; [|split; [|split; [|split]]]]]]].
  - subst g. unfold normal. cbn [gc_tree]. rewrite Lt. eapply last_tree_sha; eauto.
  - intros p I. eapply parents_sha; eauto.
  - exact Pa.
  - exact Pc.
  - intros m I. split; [auto|]. split.
    + assert (In (mergetag_value m) (c_mergetag (apply_ending (header_value ks) en))) as J.
      { rewrite V. cbn [commit_value c_mergetag]. now apply in_map. }
      apply (Wm _ J).
    + subst g. unfold normal in I. cbn [gc_mergetags] in I. unfold mergetags in I. apply in_app_iff in I as [I|I].
      * apply in_flat_map in I as (k & Ik & I). destruct k; cbn in I; try contradiction. destruct I as [<-|[]].
        cbn [normal_mergetag gm_message]. apply (Hk _ Ik).
      * destruct en; cbn in I; try contradiction. destruct I as [<-|[]]. cbn. contradiction.
  - intros sg E. subst g. unfold normal in E. cbn [gc_signature] in E. apply last_of_some in E as [p E].
    assert (In sg (signatures ks)) as I by (rewrite E, in_app_iff; right; now left).
    unfold signatures in I. apply in_flat_map in I as (k & Ik & I). destruct k; cbn in I; try contradiction. destruct I as [<-|[]]. apply (Hk _ Ik).
  - intros l I. subst g. unfold normal in I. cbn [gc_other] in I. unfold others in I.
    apply in_flat_map in I as (k & Ik & I). destruct k; cbn in I; try contradiction. destruct I as [<-|[]]. apply (Hk _ Ik).
  - intros Nm Ns. rewrite V in Ws. cbn [commit_value c_mergetag c_signature c_other] in Ws. apply Ws.
    + intros E. apply map_eq_nil in E. contradiction.
    + now rewrite Ns.
  - exact Hl.
Qed.

Theorem well_formed_commits_are_stable : forall B pa pc pa' pc' b b' size d c out,
  64 <= B -> ~ In NUL size ->
  delivers B true b (mk (commit_bytes size d) EEOF) ->
  parse_object (bufio_ops pa pc) b = Ok (NCommit c) ->
  well_formed_commit B c ->
  encode_bytes (NCommit c) = Ok out -> fits out ->
  delivers B true b' (mk out EEOF) ->
  parse_object (bufio_ops pa' pc') b' = Ok (NCommit c).
Proof.
  intros B pa pc pa' pc' b b' size d c out HB N D E W O F D'.
  apply (commit_accepted B pa pc b size d c HB N D) in E as [_ (ks & en & R & Hk & He & Hm & ->)].
  destruct (well_formed_commit_ok B ks en Hk He) as (g & G & V & O'); [|exact W|].
  { eapply reads_no_nl. exact R. }
  rewrite V in *. assert (out = git_object (bs "commit") (commit_text g)) as -> by congruence.
  apply (nodes_survive B pa' pc' b' _ (git_object (bs "commit") (commit_text g)) HB); [|exact D']. constructor; [|exact G].
  unfold fits, git_object in *. repeat rewrite app_length in F. lia.
Qed.
Print Assumptions well_formed_commits_are_stable.

(** ** Tags *)
Theorem well_formed_tags_are_stable : forall B pa pc pa' pc' b b' size d t out,
  64 <= B -> ~ In NUL size ->
  delivers B true b (mk (tag_bytes size d) EEOF) ->
  parse_object (bufio_ops pa pc) b = Ok (NTag t) ->
  well_formed_tag B t ->
  encode_bytes (NTag t) = Ok out ->
  delivers B true b' (mk out EEOF) ->
  parse_object (bufio_ops pa' pc') b' = Ok (NTag t).
Proof.
  intros B pa pc pa' pc' b b' size d t out HB N D E (Wo & Wp & ls & Wl & Hl) O D'.
  apply (tag_accepted B pa pc b size d t HB N D) in E as (pr & ts & msg & R & Ht & -> & _).
  set (m := match msg with Some m => m | None => [] end) in *.
  pose proof (encode_tag_normal ts m Ht) as O'. set (g := normal_tag ts m) in *.
  assert (forall x, In x ts -> ~ In NL (tline_text x)) as Hn.
  { intros x I. eapply reads_no_nl; [exact R|]. apply in_app_iff. left. now apply in_map. }
  assert (out = git_object (bs "tag") (tag_text_short g)) as -> by congruence. clear O.
  assert (ls = tag_lines g) as ->.
  { unfold written_tag in Wl. rewrite O' in Wl.
    assert (t_message (tag_of ts m) = m) as Em by (now rewrite tag_fields).
    rewrite Em in Wl. apply ok_inj in Wl. apply git_object_inj in Wl. unfold tag_text_short in Wl.
    change (gt_message g) with m in Wl. apply app_inv_tail in Wl. apply unlines_inj in Wl; [now symmetry| |intros l I; apply (Hl l I)].
    now apply tag_lines_no_nl. }
  assert (exists s, last_of (tobjects ts) = Some s) as [s Ls].
  { rewrite tag_fields in Wo. cbn [t_object] in Wo. destruct (last_of (tobjects ts)); [eauto|]. now contradiction Wo. }
  assert (Vt : tag_of ts m = tag_of [TObject (hex_encode s) s; TType (gt_type g); TTag (gt_tag g); TTagger (person_text (gt_tagger g)) (gt_tagger g)] m).
  { rewrite !tag_fields. unfold tobjects at 2, ttypes at 2, ttags at 2, ttaggers at 2. cbn. now rewrite Ls. }
  assert (Ho : is_sha s) by (eapply tobjects_sha; eauto).
  assert (Hlo : forall l, In l (tag_lines g) -> line_ok B l) by exact Hl.
  unfold tag_lines in Hlo.
  assert (gt_object g = s) as Eo by (subst g; cbn; now rewrite Ls). rewrite Eo in Hlo.
  rewrite Vt. replace m with (or_else (match m with [] => None | _ => Some m end) []) by (now destruct m).
  apply (tag_input_read B pa' pc' b' (dec (lenN (tag_text_short g)))); auto.
  - apply dec_no_nul.
  - intros x [<-|[<-|[<-|[<-|[]]]]]; cbn [tline_ok]; auto.
    + split; [apply hex_text_encode|exact Ho].
    + apply (person_text_line (bs "tagger")); [cbn; intuition discriminate|]. rewrite tag_fields in Wp. exact Wp.
  - intros x [<-|[<-|[<-|[<-|[]]]]]; cbn [tline_text]; apply Hlo; cbn; auto.
  - replace (tag_bytes _ _) with (git_object (bs "tag") (tag_text_short g)); [exact D'|].
    unfold tag_bytes, git_object. do 3 f_equal. unfold tag_text_short, tag_input, tag_lines. rewrite Eo. change (gt_message g) with m.
    cbn [map tline_text]. now destruct m.
Qed.
Print Assumptions well_formed_tags_are_stable.

(** ** The condition is needed *)
Lemma reads_same B d ls r : reads B d ls r -> forall ls', 64 <= B -> reads B d ls' r -> ls = ls'.
Proof.
  induction 1 as [d|d l d1 ls r T R IH]; intros ls' HB R'; inversion R' as [|? l' d1' ls2 ? T' R2]; subst.
  - reflexivity.
  - exfalso. apply reads_longer in R2; [|exact HB]. apply takes_shorter in T'; [|exact HB]. lia.
  - exfalso. apply reads_longer in R; [|exact HB]. apply takes_shorter in T; [|exact HB]. lia.
  - destruct (takes_det B HB _ _ _ _ _ T T') as [-> ->]. f_equal. now apply IH.
Qed.

Lemma normal_blocks_wf ks en a c : (forall k, In k ks -> block_ok k) -> ending_ok en ->
  forall k, In k (cblocks (normal ks en a c)) -> block_wf k.
Proof.
  intros Hk He. set (g := normal ks en a c).
  intros k I. unfold cblocks in I. rewrite !in_app_iff in I.
  destruct I as [[<-|[]]|[I|[[<-|[<-|[]]]|[I|[I|[I|I]]]]]]; try exact Logic.I.
  - apply in_map_iff in I as (p & <- & _). exact Logic.I.
  - destruct (gc_encoding g); [|contradiction]; destruct I as [<-|[]]; exact Logic.I.
  - apply in_map_iff in I as (m & <- & I). unfold g, normal, mergetags in I. cbn [gc_mergetags] in I.
    assert (forall sha ms ml, (forall l, In l ml -> starts_with SP l) -> block_wf (mblock (normal_mergetag sha ms ml))) as W.
    { intros sha ms ml Hsp. split; [|exact Hsp]. intros y [<-|[<-|[<-|[]]]]; discriminate. }
    apply in_app_iff in I as [I|I].
    + apply in_flat_map in I as (k & Ik & J). destruct k; cbn in J; try contradiction. destruct J as [<-|[]]. apply W. apply (Hk _ Ik).
    + destruct en; cbn in I; try contradiction. destruct I as [<-|[]]. apply W. intros l [].
  - destruct (gc_signature g) as [sg|] eqn:Ee; [|destruct I]. destruct I as [<-|[]].
    change (last_of (signatures ks) = Some sg) in Ee. apply last_of_some in Ee as [q Q].
    assert (In sg (signatures ks)) as J by (rewrite Q, in_app_iff; right; now left).
    apply in_flat_map in J as (k & Ik & J). destruct k as [| | | | | |x first ss|]; cbn in J; try contradiction. destruct J as [<-|[]].
    exact (block_ok_wf _ (Hk _ Ik)).
  - apply in_map_iff in I as (l & <- & I). change (gc_other g) with (others ks) in I. apply in_flat_map in I as (k & Ik & J).
    destruct k; cbn in J; try contradiction. destruct J as [<-|[]]. apply (Hk _ Ik).
Qed.

(** The lines of complete blocks and a blank line do not end inside a merge tag. *)
Lemma no_sp_after_open k ks m ms : mergetags_end (k :: ks) (EndMergetag m [] []) -> is_mergetag k -> (forall k, In k ks -> block_wf k) ->
  no_sp_head (header_lines ks ++ (bs "mergetag object " ++ m) :: ms).
Proof.
  intros Hm Im Hk. destruct ks as [|k2 ks]; [intros [q Q]; discriminate Q|].
  destruct (block_first k2) as (l & ls & El & Sp & _); [apply Hk; now left|].
  unfold header_lines. cbn [map concat]. rewrite El. cbn [app no_sp_head]. intros S1. destruct (Sp S1) as [o ->].
  destruct k; try contradiction. cbn [mergetags_end] in Hm. destruct Hm as [Hm _].
  cbn in El. injection El as <- <-. contradiction.
Qed.
Lemma no_open_mergetag m ms : (forall l, In l ms -> l <> bs " ") -> forall ks ks',
  (forall k, In k ks -> block_wf k) -> (forall k, In k ks' -> block_wf k) ->
  mergetags_end ks (EndMergetag m [] []) -> mergetags_end ks' (EndMessage []) ->
  header_lines ks ++ (bs "mergetag object " ++ m) :: ms <> header_lines ks' ++ [[]].
Proof.
  intros Hms. induction ks as [|k ks IH]; intros [|k' ks'] Hk Hk' Hm Hm' E.
  - discriminate E.
  - destruct k' as [h sha|h sha|x p|x p|x|h sha ls msg|x first ss|l]; try discriminate E.
    + apply (f_equal (@tl _)) in E. cbn [tl header_lines map concat app] in E. unfold header_lines in E. cbn [map concat block_lines app tl] in E.
      apply (Hms (bs " ")); [|reflexivity]. rewrite E. rewrite !in_app_iff. left; left; right; left. reflexivity.
    + destruct (Hk' (KOther l) (or_introl eq_refl)) as [_ N]. apply N. exists (bs "mergetag object "). split; [cbn; auto 10|].
      exists m. apply (f_equal (@hd bytes [])) in E. symmetry. exact E.
  - destruct (block_first k (Hk k (or_introl eq_refl))) as (l & ls & El & _ & Nl). unfold header_lines in E. cbn [map concat] in E.
    rewrite El in E. cbn in E. apply Nl. congruence.
  - unfold header_lines in E. cbn [map concat] in E. rewrite <- !app_assoc in E. fold (header_lines ks) in E. fold (header_lines ks') in E.
    apply block_prefix in E as (_ & _ & E).
    + apply IH in E; auto.
      * intros; apply Hk; now right.
      * intros; apply Hk'; now right.
      * destruct k; cbn [mergetags_end] in Hm; tauto.
      * destruct k'; cbn [mergetags_end] in Hm'; tauto.
    + apply Hk; now left.
    + apply Hk'; now left.
    + intros Im. eapply no_sp_after_open; eauto. intros; apply Hk; now right.
    + intros Im. eapply no_sp_after; eauto. intros; apply Hk'; now right.
Qed.
Lemma mergetags_end_open h sha ms ks : mergetags_end ks (EndMergetag h sha ms) -> mergetags_end ks (EndMergetag h [] []).
Proof.
  induction ks as [|k ks IH]; [auto|]. destruct k; cbn [mergetags_end]; try exact IH. intros [H1 H2]. split; [|auto].
  destruct ks as [|[] ks]; auto. discriminate.
Qed.
Lemma mergetags_end_message m m' ks : mergetags_end ks (EndMessage m) -> mergetags_end ks (EndMessage m').
Proof.
  induction ks as [|k ks IH]; [auto|]. destruct k; cbn [mergetags_end]; try exact IH. intros [H1 H2]. split; [|auto].
  destruct ks as [|[] ks]; auto. discriminate.
Qed.

(** If the lines of a commit are read back whole, the other conditions are exactly what it
    takes to be stable. *)
Theorem stable_commits_are_well_formed : forall B pa pc b c ls,
  64 <= B -> written_commit c ls -> (forall l, In l ls -> line_ok B l) ->
  delivers B true b (mk (git_object (bs "commit") (unlines ls ++ [NL] ++ c_message c)) EEOF) ->
  parse_object (bufio_ops pa pc) b = Ok (NCommit c) ->
  well_formed_commit B c.
Proof.
  intros B pa pc b c ls HB W Hl D E.
  change (git_object ?t ?x) with (commit_bytes (dec (lenN x)) x) in D.
  apply (commit_accepted B pa pc b _ _ c HB (dec_no_nul _) D) in E as [_ (ks & en & R & Hk & He & Hm & Ec)].
  assert (c_message c = ending_rest en) as Em by (subst c; rewrite commit_fields; now destruct en).
  rewrite Em in R.
  assert (reads B (unlines ls ++ [NL] ++ ending_rest en) (ls ++ [[]]) (ending_rest en)) as R2.
  { apply reads_app. exists ([NL] ++ ending_rest en). split; [now apply reads_unlines|].
    econstructor; [|constructor]. apply (takes_nl B [] (ending_rest en)); [auto|intros [[|] Q]; discriminate Q|cbn; lia]. }
  pose proof (reads_same B _ _ _ R _ HB R2) as EL. 
  assert (exists a, last_of (authors ks) = Some a) as [a La].
  { destruct (last_of (authors ks)) eqn:Q; [eauto|]. unfold written_commit in W. rewrite Ec, encode_commit_nil in W by auto. discriminate. }
  assert (exists a, last_of (committers ks) = Some a) as [cm Lc].
  { destruct (last_of (committers ks)) eqn:Q; [eauto|]. unfold written_commit in W. rewrite Ec, encode_commit_nil in W by auto. discriminate. }
  pose proof (encode_commit_normal ks en a cm Hk He La Lc) as O. rewrite <- Ec in O.
  unfold written_commit in W. rewrite O in W. apply ok_inj in W. apply git_object_inj in W.
  assert (forall l, In l (header_lines ks ++ ending_lines en) -> ~ In NL l) as Nl by (eapply reads_no_nl; exact R).
  assert (commit_lines (normal ks en a cm) = ls) as El.
  { unfold commit_text in W. rewrite Em in W. assert (gc_message (normal ks en a cm) = ending_rest en) as Gm by (now destruct en). rewrite Gm in W.
    apply app_inv_tail in W. apply unlines_inj in W; [exact W| |intros l I; apply (Hl l I)].
    apply normal_no_nl; auto; intros l I; apply Nl; apply in_app_iff; auto. }
  destruct en as [|msg|h sha ms].
  - exfalso. cbn [ending_lines] in EL. rewrite app_nil_r in EL. destruct ks as [|k ks _] using rev_ind; [destruct ls; discriminate EL|].
    assert (block_ok k) as Ok by (apply Hk, in_app_iff; right; now left).
    assert (exists ls l, block_lines k = ls ++ [l] /\ l <> []) as (ps & l & Eb & Ne).
    { destruct k as [h sha|h sha|x p|x p|x|h sha ms msg|x first ss|l]; cbn [block_lines]; try (exists []; eexists; split; [reflexivity|discriminate]).
      - destruct msg as [|l msg _] using rev_ind.
        + exists ([bs "mergetag object " ++ h] ++ map mline_text ms), (bs " "). split; [now rewrite app_nil_r, <- app_assoc|discriminate].
        + exists ([bs "mergetag object " ++ h] ++ map mline_text ms ++ [bs " "] ++ msg), l. split; [now rewrite <- !app_assoc|].
          destruct Ok as (_ & _ & _ & S1). destruct (S1 l) as [r Q]; [apply in_app_iff; right; now left|]. rewrite Q. discriminate.
      - exists ([bs "gpgsig " ++ x] ++ [first] ++ ss), pgp_end. split; [now rewrite <- !app_assoc|discriminate].
      - exists [], l. split; [reflexivity|]. apply Ok. }
    rewrite header_lines_app in EL. unfold header_lines at 2 in EL. cbn [map concat] in EL. rewrite Eb, app_nil_r, app_assoc in EL.
    apply app_inj_tail in EL as [_ EL]. now subst.
  - cbn [ending_lines] in EL. apply app_inv_tail in EL.
    destruct (survivor B ks msg a cm) as [G _]; auto.
    + eapply mergetags_end_message; eauto.
    + now rewrite EL.
    + now rewrite EL, W, Em.
    + set (g := normal ks (EndMessage msg) a cm) in *. pose proof G as (Gt & Gp & Ga & Gc & Gm & Gs & Go & Gsp & Gl).
      assert (c = commit_value g) as ->.
      { rewrite Ec. destruct (last_of (trees ks)) as [s|] eqn:Lt; [now apply (normal_value ks _ a cm s)|].
        exfalso. subst g. unfold normal in Gt. cbn [gc_tree] in Gt. rewrite Lt in Gt. discriminate Gt. }
      split; [discriminate|]. split; [exists (gc_author g); auto|]. split; [exists (gc_committer g); auto|]. split; [|split].
      * intros t I. cbn [commit_value c_mergetag] in I. apply in_map_iff in I as (m & <- & I). apply (Gm m I).
      * cbn [commit_value c_mergetag c_signature c_other]. intros Nm Ns. apply Gsp; [intros Q; apply Nm; now rewrite Q|].
        destruct (gc_signature g); [discriminate Ns|reflexivity].
      * exists ls. split; [|exact Hl]. unfold written_commit. rewrite O. unfold commit_text. now rewrite El.
  - exfalso. destruct (absorb _ (normal_blocks_wf ks (EndMergetag h sha ms) a cm Hk He)) as (g' & Eg & Hm' & Wg' & _).
    apply (no_open_mergetag h (map mline_text ms)) with (ks := ks) (ks' := cblocks g'); auto.
    + intros l I. apply in_map_iff in I as (m & <- & I). apply mline_not_blank. now apply He.
    + intros k I. apply block_ok_wf; auto.
    + eapply mergetags_end_open; eauto.
    + rewrite cblocks_lines, Eg, El. exact EL.
Qed.
Print Assumptions stable_commits_are_well_formed.

Theorem stable_tags_are_well_formed : forall B pa pc b t ls out,
  64 <= B -> written_tag t ls -> (forall l, In l ls -> line_ok B l) ->
  encode_bytes (NTag t) = Ok out ->
  delivers B true b (mk out EEOF) ->
  parse_object (bufio_ops pa pc) b = Ok (NTag t) ->
  well_formed_tag B t.
Proof.
  intros B pa pc b t ls out HB W Hl O D E.
  unfold written_tag in W. rewrite O in W. apply ok_inj in W. subst out.
  set (txt := unlines ls ++ match t_message t with [] => [] | m => [NL] ++ m end) in *.
  change (git_object ?t ?x) with (tag_bytes (dec (lenN x)) x) in D.
  pose proof E as E0. apply (tag_accepted B pa pc b _ _ t HB (dec_no_nul _) D) in E as (pr & ts & msg & R & Ht & Et & _).
  assert (reads B txt (ls ++ match t_message t with [] => [] | _ => [[]] end) (t_message t)) as R2.
  { apply reads_app. eexists. split; [now apply reads_unlines|]. destruct (t_message t) as [|x m]; [constructor|].
    econstructor; [|constructor]. apply (takes_nl B [] (x :: m)); [auto|intros [[|] Q]; discriminate Q|cbn; lia]. }
  assert (t_message t = or_else msg []) as Em by (rewrite Et, tag_fields; now destruct msg).
  assert (map tline_text ts = ls /\ msg <> Some []) as [El Nm].
  { destruct msg as [[|x m]|]; cbn [or_else] in Em; rewrite Em in R2.
    - exfalso. pose proof (reads_same B _ _ _ R _ HB R2) as EL. rewrite app_nil_r in EL.
      pose proof (encode_tag_normal ts [] Ht) as O'. rewrite <- Et, O in O'. apply ok_inj in O'. apply git_object_inj in O'.
      unfold txt in O'. rewrite Em in O'. unfold tag_text_short in O'. change (gt_message (normal_tag ts [])) with (@nil byte) in O'.
      rewrite !app_nil_r in O'. apply unlines_inj in O'; [|intros l I; apply (Hl l I)|].
      + rewrite O' in EL. change (tag_lines ?g) with ([bs "object " ++ hex_encode (gt_object g); bs "type " ++ gt_type g; bs "tag " ++ gt_tag g] ++ [bs "tagger " ++ person_text (gt_tagger g)]) in EL.
        apply app_inj_tail in EL as [_ EL]. discriminate EL.
      + apply tag_lines_no_nl; [exact Ht|]. intros y I. eapply reads_no_nl; [exact R|]. apply in_app_iff. left. now apply in_map.
    - pose proof (reads_same B _ _ _ R _ HB R2) as EL. apply app_inv_tail in EL. split; [exact EL|discriminate].
    - pose proof (reads_same B _ _ _ R _ HB R2) as EL. rewrite !app_nil_r in EL. split; [exact EL|discriminate]. }
  assert (txt = tag_input ts msg) as Ex.
  { unfold txt, tag_input. rewrite El, Em. destruct msg as [[|]|]; [now contradiction Nm|reflexivity|reflexivity]. }
  rewrite Ex in D.
  assert (forall x, In x ts -> line_ok B (tline_text x)) as Hlt by (intros x I; apply Hl; rewrite <- El; now apply in_map).
  destruct (surviving_tags_are_canonical B pa pc b _ ts msg HB (dec_no_nul _) Ht Hlt D) as (t' & E' & Q).
  assert (t' = t) as -> by congruence. rewrite O, Ex in Q. destruct Q as [Q _]. destruct (Q eq_refl) as (h & o & x & y & p & Ets & Eh & Ho & Hp & _).
  assert (t = tag_of ts (or_else msg [])) as Et' by (rewrite Et; now destruct msg). rewrite tag_fields in Et'.
  split; [|split].
  - rewrite Et', Ets. discriminate.
  - rewrite Et', Ets. exact Hp.
  - exists ls. split; [exact O|exact Hl].
Qed.
Print Assumptions stable_tags_are_well_formed.

(** ** Trees and blobs *)
Theorem trees_and_blobs_are_stable : forall B pa pc pa' pc' b b' d n out,
  64 <= B -> delivers B true b (mk d EEOF) -> fits d ->
  parse_object (bufio_ops pa pc) b = Ok n ->
  (exists x, n = NBlob x) \/ (exists t, n = NTree t) ->
  encode_bytes n = Ok out ->
  delivers B true b' (mk out EEOF) ->
  parse_object (bufio_ops pa' pc') b' = Ok n.
Proof.
  intros B pa pc pa' pc' b b' d n out HB D F E K O D'.
  apply (accepted_objects B pa pc b d n HB D) in E. inversion E as [size content more A1 A2|size z x t A1 A2 T|size z x c A1 A2 T|size x t pr A1 T]; subst.
  - assert (encode_bytes (NBlob (git_object (bs "blob") content)) = Ok (git_object (bs "blob") content)) as O' by reflexivity.
    assert (out = git_object (bs "blob") content) as -> by congruence.
    apply (nodes_survive B pa' pc' b' _ (git_object (bs "blob") content) HB); [|exact D']. now constructor.
  - destruct T as (es & cutoff & -> & Hes & _ & ->).
    assert (fits (tree_text es)) as Fe by (unfold fits in *; repeat rewrite app_length in F; lia).
    pose proof (sf_tree B es Fe Hes) as SF.
    assert (encode_bytes (NTree (tree_value es)) = Ok (git_object (bs "tree") (tree_text es))) as O' by (apply encode_tree_value, Hes).
    assert (out = git_object (bs "tree") (tree_text es)) as -> by congruence.
    now apply (nodes_survive B pa' pc' b' _ _ HB SF).
  - destruct K as [[? K]|[? K]]; discriminate K.
  - destruct K as [[? K]|[? K]]; discriminate K.
Qed.
Print Assumptions trees_and_blobs_are_stable.

(** ** Without the condition *)

(** An author without a date but with a timezone: the second reading takes the timezone for
    the date.  The lines all fit. *)
Theorem decoding_and_encoding_is_stable_refuted :
  exists size d b b' c c' out,
    delivers 64 true b (mk (commit_bytes size d) EEOF) /\ delivers 64 true b' (mk out EEOF) /\
    parse_object (bufio_ops one_byte one_byte) b = Ok (NCommit c) /\
    encode_bytes (NCommit c) = Ok out /\
    parse_object (bufio_ops one_byte one_byte) b' = Ok (NCommit c') /\
    c <> c' /\ c_author c = Some {| p_name := bs "A"; p_email := bs "a"; p_date := []; p_timezone := bs "+0100" |} /\
    c_author c' = Some {| p_name := bs "A"; p_email := bs "a"; p_date := bs "+0100"; p_timezone := [] |}.
Proof.
  set (d := unlines [bs "tree " ++ some_hex; bs "author A <a>  +0100"; bs "committer C <c> 1 +0"] ++ [NL] ++ bs "m").
  set (c := {| c_tree := git_link some_sha; c_parents := []; c_message := bs "m";
               c_author := Some {| p_name := bs "A"; p_email := bs "a"; p_date := []; p_timezone := bs "+0100" |};
               c_committer := Some {| p_name := bs "C"; p_email := bs "c"; p_date := bs "1"; p_timezone := bs "+0" |};
               c_encoding := None; c_signature := None; c_mergetag := []; c_other := [] |}).
  set (c' := with_author c {| p_name := bs "A"; p_email := bs "a"; p_date := bs "+0100"; p_timezone := [] |}).
  set (out := git_object (bs "commit") (unlines [bs "tree " ++ hex_encode some_sha; bs "author A <a> +0100"; bs "committer C <c> 1 +0"] ++ [NL] ++ bs "m")).
  exists (bs "1"), d, (new_reader 64 (chunks [commit_bytes (bs "1") d] EEOF)), (new_reader 64 (chunks [out] EEOF)), c, c', out.
  split; [apply one_chunk_delivers; discriminate|]. split; [apply one_chunk_delivers; discriminate|].
  split; [vm_compute; reflexivity|]. split; [vm_compute; reflexivity|]. split; [vm_compute; reflexivity|].
  split; [discriminate|]. split; reflexivity.
Qed.
Print Assumptions decoding_and_encoding_is_stable_refuted.

(** A commit without a tree is written with an empty hash, which is not read back. *)
Theorem commit_without_a_tree_is_not_read_back : forall B pa pc pa' pc' b b' size d c out,
  64 <= B -> ~ In NUL size ->
  delivers B true b (mk (commit_bytes size d) EEOF) ->
  parse_object (bufio_ops pa pc) b = Ok (NCommit c) ->
  c_tree c = LNil ->
  encode_bytes (NCommit c) = Ok out ->
  delivers B true b' (mk out EEOF) ->
  forall n, parse_object (bufio_ops pa' pc') b' <> Ok n.
Proof.
  intros B pa pc pa' pc' b b' size d c out HB N D E W O D' n E'.
  apply (commit_accepted B pa pc b size d c HB N D) in E as [_ (ks & en & R & Hk & He & Hm & ->)].
  destruct (last_of (authors ks)) as [a|] eqn:La; [|rewrite encode_commit_nil in O by auto; discriminate].
  destruct (last_of (committers ks)) as [cm|] eqn:Lc; [|rewrite encode_commit_nil in O by auto; discriminate].
  rewrite (encode_commit_normal ks en a cm Hk He La Lc) in O. apply ok_inj in O. subst out.
  set (g := normal ks en a cm) in *.
  assert (gc_tree g = []) as Gt.
  { rewrite commit_fields in W. cbn [Types.c_tree] in W. subst g. unfold normal. cbn [gc_tree]. now destruct (last_of (trees ks)). }
  assert (exists r, commit_text g = bs "tree " ++ [NL] ++ r) as [r Er].
  { unfold commit_text, commit_lines. rewrite Gt. cbn [hex_encode]. rewrite app_nil_r.
    change ([?x] ++ ?y) with (x :: y) at 1. rewrite unlines_cons. rewrite <- !app_assoc. eauto. }
  pose proof E' as E2. apply (accepted_objects B pa' pc' b' _ n HB D') in E2.
  assert (exists c', n = NCommit c') as [c' ->] by (inversion E2; subst; eauto; discriminate).
  clear E2. rewrite Er in D'. change (git_object ?t ?x) with (commit_bytes (dec (lenN x)) x) in D'.
  apply (commit_accepted B pa' pc' b' _ _ c' HB (dec_no_nul _) D') in E' as [_ (ks' & en' & R' & Hk' & He' & _ & _)].
  assert (takes B (bs "tree " ++ [NL] ++ r) (bs "tree ") r) as T.
  { apply takes_nl; [cbn; intuition discriminate|intros [q Q]; apply (f_equal (fun l => last l NL)) in Q; rewrite last_last in Q; discriminate Q|cbn; lia]. }
  destruct ks' as [|k ks'].
  - destruct en' as [|m|h sha ms]; cbn [header_lines map concat app ending_lines] in R'.
    + apply reads_none_iff in R'. cbn in R'. discriminate R'.
    + apply (reads_cons B HB _ _ _ _ _ _ T) in R' as [Q _]. discriminate Q.
    + apply (reads_cons B HB _ _ _ _ _ _ T) in R' as [Q _]. discriminate Q.
  - unfold header_lines in R'. cbn [map concat] in R'.
    pose proof (Hk' k (or_introl eq_refl)) as Ok1.
    assert (exists l ls, block_lines k = l :: ls) as (l & ls & El) by (destruct (block_first k (block_ok_wf _ Ok1)) as (l & ls & El & _); eauto).
    rewrite El in R'. cbn [app] in R'. apply (reads_cons B HB _ _ _ _ _ _ T) in R' as [Q _]. subst l.
    destruct k as [h sha|h sha|x p|x p|x|h sha ms msg|x first ss|l]; cbn [block_lines app] in El; try discriminate El.
    + destruct Ok1 as [Hh Hs]. assert (h = []) as -> by (apply (app_inv_head (bs "tree ")); rewrite app_nil_r; congruence).
      unfold hex_text in Hh. destruct sha; [discriminate Hs|discriminate Hh].
    + destruct Ok1 as [_ Nh]. apply Nh. exists (bs "tree "). split; [now left|]. exists []. rewrite app_nil_r. congruence.
Qed.
Print Assumptions commit_without_a_tree_is_not_read_back.

(** A commit that meets the hypotheses, with a merge tag, a signature and an unknown
    line, out of order, and a tag. *)
Definition wf_sample : commit :=
  {| c_tree := git_link (repeat xaa 20); c_parents := []; c_message := bs "m";
     c_author := Some {| p_name := bs "A "; p_email := bs "a"; p_date := bs "2"; p_timezone := bs "+0" |};
     c_committer := Some {| p_name := bs "C"; p_email := bs "c"; p_date := bs "1"; p_timezone := bs "+0" |};
     c_encoding := None; c_signature := Some (bs " " ++ [NL] ++ bs " iQEz" ++ [NL]);
     c_mergetag := [{| t_object := git_link some_sha; t_type := []; t_tag := bs "v1"; t_tagger := some_person; t_message := bs " text" ++ [NL] |}];
     c_other := [bs "x y"] |}.
Example well_formed_commits_apply :
  let sg := [bs "gpgsig something"; bs " "; bs " iQEz"; pgp_end] in
  let mt := [bs "mergetag object " ++ some_hex; bs " tagger A <a> 1 +0"; bs " ignored"; bs " tag v1"; bs " "; bs " text"] in
  let d := unlines ([bs "committer C <c> 1 +0"; bs "x y"] ++ mt ++ [bs "author B <b> 1"] ++ sg
                    ++ [bs "tree " ++ repeat x41 40; bs "author  A  <a> 2 +0"]) ++ [NL] ++ bs "m" in
  let b := new_reader 64 (chunks [commit_bytes (bs "1") d] EEOF) in
  delivers 64 true b (mk (commit_bytes (bs "1") d) EEOF) /\
  parse_object (bufio_ops one_byte one_byte) b = Ok (NCommit wf_sample).
Proof.
  intros sg mt d b. split; [apply one_chunk_delivers; discriminate|].
  vm_compute. reflexivity.
Qed.
Example wf_sample_is_well_formed :
  well_formed_commit 64 wf_sample /\ exists out, encode_bytes (NCommit wf_sample) = Ok out /\ fits out.
Proof.
  split; [|eexists; split; [vm_compute; reflexivity|unfold fits; apply Z.ltb_lt; vm_compute; reflexivity]].
  split; [discriminate|].
  split; [eexists; split; [reflexivity|]; apply person_okb_ok; vm_compute; reflexivity|].
  split; [eexists; split; [reflexivity|]; apply person_okb_ok; vm_compute; reflexivity|].
  split; [intros t [<-|[]]; apply person_okb_ok; vm_compute; reflexivity|].
  split; [discriminate|].
  exists [bs "tree " ++ hex_encode (repeat xaa 20); bs "author A  <a> 2 +0"; bs "committer C <c> 1 +0";
          bs "mergetag object " ++ some_hex; bs " type "; bs " tag v1"; bs " tagger A <a> 1 +0"; bs " "; bs " text";
          pgp_begin; bs " "; bs " iQEz"; pgp_end; bs "x y"].
  split; [vm_compute; reflexivity|].
  intros l I. apply line_okb_ok. revert l I. apply forallb_forall. vm_compute. reflexivity.
Qed.

Example well_formed_tags_apply :
  let d := unlines [bs "tagger A <a> 1 +0"; bs "object " ++ some_hex; bs "x"; bs "type commit"; bs "tag v1"] ++ [NL] ++ bs "m" in
  let t := {| t_object := git_link some_sha; t_type := bs "commit"; t_tag := bs "v1"; t_tagger := some_person; t_message := bs "m" |} in
  let b := new_reader 64 (chunks [tag_bytes (bs "x") d] EEOF) in
  delivers 64 true b (mk (tag_bytes (bs "x") d) EEOF) /\
  parse_object (bufio_ops one_byte one_byte) b = Ok (NTag t) /\ well_formed_tag 64 t.
Proof.
  intros d t b. split; [apply one_chunk_delivers; discriminate|]. split; [vm_compute; reflexivity|].
  split; [discriminate|]. split; [apply person_okb_ok; vm_compute; reflexivity|].
  exists [bs "object " ++ some_hex; bs "type commit"; bs "tag v1"; bs "tagger A <a> 1 +0"].
  split; [vm_compute; reflexivity|].
  intros l I. apply line_okb_ok. revert l I. apply forallb_forall. vm_compute. reflexivity.
Qed.

(** A commit without a tree. *)
Example commit_without_a_tree_applies :
  let d := unlines [bs "author A <a> 1 +0"; bs "committer A <a> 1 +0"] ++ [NL] in
  match parse_object (bufio_ops one_byte one_byte) (new_reader 64 (chunks [commit_bytes (bs "1") d] EEOF)) with
  | Ok (NCommit c) => c_tree c = LNil /\ exists out, encode_bytes (NCommit c) = Ok out
  | _ => False
  end.
Proof. vm_compute. split; [reflexivity|]. eexists; reflexivity. Qed.
