(** C57: what becomes of objects that are written and read again and again. *)
From Verif Require Import Base GoStr Cid Types Nodes Reader Bufio Person Assemble Decode Encode Spec HeaderSpec NormalSpec SurviveSpec SettleSpec
  ReaderSpec StreamFacts PersonFacts DecodeFacts RoundTrip CommitFacts GrammarFacts NormalFacts PrefixFacts CanonFacts
  Sim BufioFacts NumFacts Transfer Checks Props_roundtrip Props_decode Props_grammar Props_header Props_tag Props_generic Props_stable SurviveFacts SurviveIff SettleFacts.

(** ** Specification *)

(** [again B n n']: written and read, the node [n] becomes [n'], whatever the reader. *)
Definition again (B : nat) (n n' : node) : Prop :=
  exists text, encode_bytes n = Ok text /\
    forall pa pc b, delivers B true b (mk text EEOF) -> parse_object (bufio_ops pa pc) b = Ok n'.
Inductive rounds (B : nat) : nat -> node -> node -> Prop :=
| rounds_0 n : rounds B 0 n n
| rounds_S k n n1 n2 : rounds B k n n1 -> again B n1 n2 -> rounds B (S k) n n2.

(** The same for a person in a line that starts with [label]. *)
Definition person_again_as (label : bytes) (p p' : person) : Prop := parse_person (label ++ [SP] ++ git_string p) = Ok p'.
Inductive person_rounds_as (label : bytes) : nat -> person -> person -> Prop :=
| prounds_0 p : person_rounds_as label 0 p p
| prounds_S k p p1 p2 : person_rounds_as label k p p1 -> person_again_as label p1 p2 -> person_rounds_as label (S k) p p2.

(** ** Persons *)

(** Every person that was read settles: after [k] rounds it is [person_after k], and that
    is what it stays from round [person_rounds] on, and not before. *)
Theorem persons_settle : forall line p label,
  parse_person line = Ok p -> ~ In SP label ->
  (forall k, person_rounds_as label k p (person_after k p)) /\
  (forall k, person_again_as label (person_after k p) (person_after k p) <-> person_rounds p <= k).
Proof.
  intros line p label E N. pose proof (parse_person_facts _ _ E) as H. split.
  - induction k as [|k IH]; [rewrite person_after_0; constructor|]. econstructor; [exact IH|].
    unfold person_again_as. rewrite git_string_text. now apply person_again.
  - intros k. unfold person_again_as. rewrite git_string_text, person_roundtrip by exact N. now apply person_settled.
Qed.
Print Assumptions persons_settle.

(** "author J <j <<<k> +0" takes two rounds. *)
Example persons_settle_applies :
  let p := {| p_name := bs "J"; p_email := bs "j <<k"; p_date := bs ""; p_timezone := bs "+0" |} in
  parse_person (bs "author J <j <<<k>  +0") = Ok p /\ person_rounds p = 2 /\
  person_after 1 p = {| p_name := bs "J"; p_email := bs "j <k"; p_date := bs "+0"; p_timezone := bs "" |} /\
  person_after 2 p = {| p_name := bs "J"; p_email := bs "j k"; p_date := bs "+0"; p_timezone := bs "" |} /\
  person_after 3 p = person_after 2 p.
Proof. vm_compute. auto. Qed.

(** No number of rounds is enough for all. *)
Lemma brackets_repeat k s : brackets (repeat LT k ++ x62 :: s) = k.
Proof. induction k as [|k IH]; [reflexivity|]. cbn [repeat app]. change (brackets (LT :: ?x)) with (S (brackets x)). now rewrite IH. Qed.
Theorem persons_take_any_number_of_rounds : forall k, exists line p,
  parse_person line = Ok p /\ person_rounds p = k /\
  forall label j, ~ In SP label -> (person_again_as label (person_after j p) (person_after j p) <-> k <= j).
Proof.
  intros k. set (w := repeat LT k ++ bs "b"). set (p := {| p_name := bs "n"; p_email := bs "a" ++ [SP] ++ w; p_date := []; p_timezone := [] |}).
  assert (~ In SP w) as Nw by (unfold w; intros I; apply in_app_iff in I as [I|I]; [apply repeat_spec in I; discriminate|cbn in I; intuition discriminate]).
  assert (words (p_email p) = [bs "a"; w]) as Ew.
  { cbn [p p_email]. unfold words. cbn [app]. rewrite split_on_app, split_on_none by (cbn; intuition discriminate). rewrite split_on_none by exact Nw. reflexivity. }
  assert (person_read p) as R.
  { split; [|split; [|split; intros []]].
    - split; [intros [r E]; discriminate|]. intros x I. vm_compute in I. destruct I as [<-|[]]. intros [r E]; discriminate.
    - rewrite Ew. intros pre x post E Np. destruct pre as [|y [|z pre]]; cbn [app] in E.
      + apply cons_eq in E as [<- _]. intros [r Q]. destruct r as [|? [|]]; discriminate Q.
      + apply cons_eq in E as [_ E]. apply cons_eq in E as [_ E]. congruence.
      + apply (f_equal (@length _)) in E. cbn in E. rewrite app_length in E. cbn in E. lia. }
  assert (person_rounds p = k) as Ep.
  { unfold person_rounds. rewrite Ew. cbn [tl map most fold_right p p_date p_timezone]. unfold w. change (bs "b") with [x62]. rewrite brackets_repeat. lia. }
  set (p' := {| p_name := bs "n"; p_email := bs "a" ++ [SP] ++ LT :: w; p_date := []; p_timezone := [] |}).
  assert (person_after 1 p' = p) as Ea.
  { unfold person_after, p', p. cbn [p_name p_email p_date p_timezone]. f_equal. unfold email_after, words. cbn [app].
    rewrite split_on_app, split_on_none by (cbn; intuition discriminate). rewrite split_on_none by (intros [I|I]; [discriminate|now apply Nw]). reflexivity. }
  assert (words (p_email p') = [bs "a"; LT :: w]) as Ew'.
  { cbn [p' p_email]. unfold words. cbn [app]. rewrite split_on_app, split_on_none by (cbn; intuition discriminate).
    rewrite split_on_none by (intros [I|I]; [discriminate|now apply Nw]). reflexivity. }
  assert (person_read p') as R'.
  { destruct R as (R1 & _ & R3 & R4). split; [exact R1|]. split; [|auto].
    rewrite Ew'. intros pre x post E Np. destruct pre as [|y [|z pre]]; cbn [app] in E.
    - apply cons_eq in E as [<- _]. intros [r Q]. destruct r as [|? [|]]; discriminate Q.
    - apply cons_eq in E as [_ E]. apply cons_eq in E as [_ E]. congruence.
    - apply (f_equal (@length _)) in E. cbn in E. rewrite app_length in E. cbn in E. lia. }
  pose proof (person_again (bs "author") 0 p' ltac:(cbn; intuition discriminate) R') as E. rewrite Ea, person_after_0 in E.
  exists (bs "author" ++ [SP] ++ person_text p'), p. split; [exact E|]. split; [exact Ep|].
  intros label j N. rewrite <- Ep. now apply (persons_settle _ p label E N).
Qed.
Print Assumptions persons_take_any_number_of_rounds.

(** ** Commits *)
Lemma person_line_read line p : person_line line p -> person_read p.
Proof. intros H. apply person_line_iff in H. now apply parse_person_facts in H. Qed.
Lemma zero_person_read : person_read zero_person.
Proof.
  split; [|split; [|split; intros []]].
  - split; [intros [r E]; discriminate|]. intros x I. vm_compute in I. destruct I as [<-|[]]. intros [r E]; discriminate.
  - intros pre w post E N. change (words (p_email zero_person)) with [@nil byte] in E. destruct pre as [|x pre]; cbn [app] in E; apply cons_eq in E as [_ E]; [congruence|]. now apply app_cons_not_nil in E.
Qed.
Lemma mtagger_read ms : (forall m, In m ms -> mline_ok m) -> person_read (or_else (last_of (mtaggers ms)) zero_person).
Proof.
  intros H. destruct (last_of (mtaggers ms)) as [p|] eqn:E; [|apply zero_person_read]. cbn [or_else].
  apply last_of_some in E as [q E]. assert (In p (mtaggers ms)) as I by (rewrite E, in_app_iff; right; now left).
  apply in_flat_map in I as (y & I & J). destruct y as [| |x p'|]; cbn in J; try contradiction. destruct J as [->|[]].
  apply (person_line_read _ _ (H _ I)).
Qed.

(** What was read, in the form it is written. *)
Lemma read_commit B c ls d : commit_means B d c -> c_tree c <> LNil -> written_commit c ls -> (forall l, In l ls -> line_ok B l) ->
  exists g, c = commit_value g /\ commit_read B g /\ ls = commit_lines g.
Proof.
  intros (ks & en & R & Hk & He & Hm & ->) Wt Wl Hl. pose proof (Props_stable.reads_no_nl _ _ _ _ R) as Hn.
  pose proof (commit_fields ks en) as CF.
  destruct (last_of (authors ks)) as [a|] eqn:La; [|unfold written_commit in Wl; rewrite encode_commit_nil in Wl by auto; discriminate].
  destruct (last_of (committers ks)) as [cm|] eqn:Lc; [|unfold written_commit in Wl; rewrite encode_commit_nil in Wl by auto; discriminate].
  assert (exists s, last_of (trees ks) = Some s) as [s Lt].
  { rewrite CF in Wt. cbn [c_tree] in Wt. destruct (last_of (trees ks)); [eauto|]. contradiction Wt. reflexivity. }
  pose proof (normal_value ks en a cm s La Lc Lt) as V. pose proof (encode_commit_normal ks en a cm Hk He La Lc) as O.
  set (g := normal ks en a cm) in *. exists g. split; [exact V|].
  assert (ls = commit_lines g) as ->.
  { unfold written_commit in Wl. rewrite O in Wl.
    assert (git_object (bs "commit") (commit_text g) = git_object (bs "commit") (unlines ls ++ [NL] ++ c_message (apply_ending (header_value ks) en))) as Q by congruence.
    apply git_object_inj in Q. rewrite V in Q. unfold commit_text, commit_value in Q. cbn [c_message] in Q.
    apply app_inv_tail in Q. apply unlines_inj in Q; [now symmetry| |intros l I; apply (Hl l I)].
    apply normal_no_nl; auto; intros l I; apply Hn; apply in_app_iff; auto. }
  split; [|reflexivity]. split.
  - subst g. unfold normal. cbn [gc_tree]. rewrite Lt. eapply last_tree_sha; eauto.
  - intros p I. eapply parents_sha; eauto.
  - apply last_of_some in La as [q Q]. assert (In a (authors ks)) as I by (rewrite Q, in_app_iff; right; now left).
    apply in_flat_map in I as (k & I & J). destruct k; cbn in J; try contradiction. destruct J as [->|[]]. apply (person_line_read _ _ (Hk _ I)).
  - apply last_of_some in Lc as [q Q]. assert (In cm (committers ks)) as I by (rewrite Q, in_app_iff; right; now left).
    apply in_flat_map in I as (k & I & J). destruct k; cbn in J; try contradiction. destruct J as [->|[]]. apply (person_line_read _ _ (Hk _ I)).
  - intros m I. split; [eapply mergetags_sha; eauto|]. subst g. unfold normal in I. cbn [gc_mergetags] in I. unfold mergetags in I.
    apply in_app_iff in I as [I|I].
    + apply in_flat_map in I as (k & Ik & I). destruct k; cbn in I; try contradiction. destruct I as [<-|[]].
      cbn [normal_mergetag gm_message gm_tagger]. destruct (Hk _ Ik) as (_ & _ & H3 & H4). split; [now apply mtagger_read|exact H4].
    + destruct en; cbn in I; try contradiction. destruct I as [<-|[]]. cbn [normal_mergetag gm_message gm_tagger].
      split; [apply mtagger_read, He|intros ? []].
  - intros sg E. subst g. unfold normal in E. cbn [gc_signature] in E. apply last_of_some in E as [p E].
    assert (In sg (signatures ks)) as I by (rewrite E, in_app_iff; right; now left).
    unfold signatures in I. apply in_flat_map in I as (k & Ik & I). destruct k; cbn in I; try contradiction. destruct I as [<-|[]]. apply (Hk _ Ik).
  - intros l I. subst g. unfold normal in I. cbn [gc_other] in I. unfold others in I.
    apply in_flat_map in I as (k & Ik & I). destruct k; cbn in I; try contradiction. destruct I as [<-|[]]. apply (Hk _ Ik).
  - exact Hl.
Qed.

Lemma commit_object x : git_object (bs "commit") x = commit_bytes (dec (lenN x)) x.
Proof. reflexivity. Qed.
Lemma tag_object x : git_object (bs "tag") x = tag_bytes (dec (lenN x)) x.
Proof. reflexivity. Qed.

Lemma again_commit B g c : 64 <= B -> (forall p, In p (gc_tree g :: gc_parents g ++ map gm_object (gc_mergetags g)) -> is_sha p) -> fits (commit_text g) ->
  commit_means B (commit_text g) c -> again B (NCommit (commit_value g)) (NCommit c).
Proof.
  intros HB Hs F M. exists (git_object (bs "commit") (commit_text g)). split.
  - apply encode_commit_value; intros; apply Hs; [now left|right; apply in_app_iff; now left|right; apply in_app_iff; right; now apply in_map].
  - intros pa pc b D. rewrite commit_object in D. apply (commit_accepted B pa pc b _ _ c HB (dec_no_nul _) D). split; [|exact M].
    exists (Z.of_nat (length (commit_text g))). apply atoi_iff. unfold lenN. rewrite <- nat_N_Z. apply atoi_dec. unfold fits in F. lia.
Qed.

(** A reader of these bytes exists, so what a node becomes is one node. *)
Definition pol (a b : nat) : nat := a.
Lemma again_det B n n1 n2 : again B n n1 -> again B n n2 -> n1 = n2.
Proof.
  intros (t1 & E1 & H1) (t2 & E2 & H2). assert (t1 = t2) as <- by congruence.
  assert (delivers B true (new_reader B (chunks [t1] EEOF)) (mk t1 EEOF) \/ t1 = []) as [D| ->].
  { destruct t1; [now right|left]. apply one_chunk_delivers; discriminate. }
  - specialize (H1 pol pol _ D). specialize (H2 pol pol _ D). congruence.
  - assert (delivers B true (new_reader B (chunks [] EEOF)) (mk [] EEOF)) as D by (apply (chunks_delivers B [] EEOF); [intros []|discriminate]).
    specialize (H1 pol pol _ D). specialize (H2 pol pol _ D). congruence.
Qed.
Lemma rounds_det B k n : forall n1 n2, rounds B k n n1 -> rounds B k n n2 -> n1 = n2.
Proof.
  induction k as [|k IH]; intros n1 n2 R1 R2.
  - inversion R1; inversion R2; subst. reflexivity.
  - inversion R1 as [|? ? m1 ? P1 A1]; subst. inversion R2 as [|? ? m2 ? P2 A2]; subst. rewrite (IH m1 m2 P1 P2) in A1. eapply again_det; eauto.
Qed.

Lemma commit_read_shas B g : commit_read B g ->
  forall p, In p (gc_tree g :: gc_parents g ++ map gm_object (gc_mergetags g)) -> is_sha p.
Proof.
  intros H p [<-|I]; [apply H|]. apply in_app_iff in I as [I|I]; [now apply (cr_parents _ _ H)|].
  apply in_map_iff in I as (m & <- & I). now apply (cr_mergetags _ _ H).
Qed.

(** Every commit that was read and is written with lines that fit the buffer settles. *)
Theorem commits_settle : forall B pa pc b size d c ls,
  64 <= B -> ~ In NUL size ->
  delivers B true b (mk (commit_bytes size d) EEOF) ->
  parse_object (bufio_ops pa pc) b = Ok (NCommit c) ->
  c_tree c <> LNil -> written_commit c ls -> (forall l, In l ls -> line_ok B l) -> fits (unlines ls ++ [NL] ++ c_message c) ->
  (forall k, rounds B k (NCommit c) (NCommit (commit_after k c))) /\
  (forall k, again B (NCommit (commit_after k c)) (NCommit (commit_after k c)) <-> commit_rounds c <= k).
Proof.
  intros B pa pc b size d c ls HB N D E Wt Wl Hl F.
  apply (commit_accepted B pa pc b size d c HB N D) in E as [_ M].
  destruct (read_commit B c ls d M Wt Wl Hl) as (g & -> & R & ->).
  assert (forall k, fits (commit_text (gafter k g))) as Fk.
  { intros k. pose proof (gafter_length k g). unfold fits in *. change (unlines (commit_lines g) ++ [NL] ++ c_message (commit_value g)) with (commit_text g) in F. lia. }
  assert (forall k, again B (NCommit (commit_after k (commit_value g))) (NCommit (commit_after (S k) (commit_value g)))) as A.
  { intros k. rewrite <- !gafter_value. rewrite <- (gafter_S B k g R). pose proof (gafter_read B k g R) as Rk.
    apply again_commit; [exact HB|now apply (commit_read_shas B)|apply Fk|]. now apply commit_again. }
  split.
  - induction k as [|k IH]; [rewrite commit_after_0; constructor|]. econstructor; [exact IH|apply A].
  - intros k. rewrite (commit_settled B k g R), <- gafter_value. pose proof (gafter_read B k g R) as Rk. split.
    + intros (text & Et & Hp). rewrite encode_commit_value in Et by (intros; apply (commit_read_shas B _ Rk); cbn [In]; rewrite in_app_iff, in_map_iff; eauto).
      apply ok_inj in Et. subst text.
      pose proof (one_chunk_delivers B (git_object (bs "commit") (commit_text (gafter k g))) EEOF ltac:(discriminate) ltac:(discriminate)) as D1.
      assert (written_commit (commit_value (gafter k g)) (commit_lines (gafter k g))) as W.
      { unfold written_commit. rewrite encode_commit_value by (intros; apply (commit_read_shas B _ Rk); cbn [In]; rewrite in_app_iff, in_map_iff; eauto). reflexivity. }
      destruct (stable_commits_are_well_formed B pol pol _ _ _ HB W (cr_lines _ _ Rk) D1 (Hp pol pol _ D1)) as (_ & (a & Ea & Pa) & (cm & Ec & Pc) & Pm & Po & _).
      cbn [commit_value c_author c_committer c_mergetag c_signature c_other] in *.
      assert (gc_author (gafter k g) = a) as Qa by congruence. assert (gc_committer (gafter k g) = cm) as Qc by congruence.
      split; [apply Rk|]. split; [apply Rk|]. split; [now rewrite Qa|]. split; [now rewrite Qc|].
      split; [|split; [apply Rk|split; [apply Rk|split; [|apply Rk]]]].
      * intros m I. destruct (cr_mergetags _ _ Rk m I) as (M1 & _ & M3). split; [exact M1|]. split; [|exact M3].
        apply (Pm (mergetag_value m)). now apply in_map.
      * intros Nm Ns. apply Po; [intros Q; apply map_eq_nil in Q; contradiction|]. now rewrite Ns.
    + intros G. destruct (nodes_survive B pol pol (new_reader B (chunks [git_object (bs "commit") (commit_text (gafter k g))] EEOF)) (NCommit (commit_value (gafter k g))) (git_object (bs "commit") (commit_text (gafter k g))) HB) as [Et _].
      * now constructor.
      * apply one_chunk_delivers; discriminate.
      * exists (git_object (bs "commit") (commit_text (gafter k g))). split; [exact Et|].
        intros pa' pc' b' D'. apply (nodes_survive B pa' pc' b' _ (git_object (bs "commit") (commit_text (gafter k g))) HB); [now constructor|exact D'].
Qed.
Print Assumptions commits_settle.

(** ** Tags *)
Theorem tags_settle : forall B pa pc b size d t ls,
  64 <= B -> ~ In NUL size ->
  delivers B true b (mk (tag_bytes size d) EEOF) ->
  parse_object (bufio_ops pa pc) b = Ok (NTag t) ->
  t_object t <> LNil -> written_tag t ls -> (forall l, In l ls -> line_ok B l) ->
  (forall k, rounds B k (NTag t) (NTag (tag_after k t))) /\
  (forall k, again B (NTag (tag_after k t)) (NTag (tag_after k t)) <-> tag_rounds t <= k).
Proof.
  intros B pa pc b size d t ls HB N D E Wo Wl Hl.
  apply (tag_accepted B pa pc b size d t HB N D) in E as (pr & ts & msg & R & Ht & -> & _).
  set (m := match msg with Some m => m | None => [] end) in *.
  pose proof (encode_tag_normal ts m Ht) as O'. set (g := normal_tag ts m) in *.
  assert (forall x, In x ts -> ~ In NL (tline_text x)) as Hn.
  { intros x I. eapply Props_stable.reads_no_nl; [exact R|]. apply in_app_iff. left. now apply in_map. }
  assert (ls = tag_lines g) as ->.
  { unfold written_tag in Wl. rewrite O' in Wl.
    assert (t_message (tag_of ts m) = m) as Em by (now rewrite tag_fields).
    rewrite Em in Wl. apply ok_inj in Wl. apply git_object_inj in Wl. unfold tag_text_short in Wl.
    change (gt_message g) with m in Wl. apply app_inv_tail in Wl. apply unlines_inj in Wl; [now symmetry| |intros l I; apply (Hl l I)].
    now apply tag_lines_no_nl. }
  assert (exists s, last_of (tobjects ts) = Some s) as [s Ls].
  { rewrite tag_fields in Wo. cbn [t_object] in Wo. destruct (last_of (tobjects ts)); [eauto|]. now contradiction Wo. }
  assert (tag_of ts m = tag_value g) as V.
  { rewrite tag_fields. subst g. unfold tag_value, normal_tag. cbn [gt_object gt_type gt_tag gt_tagger gt_message]. now rewrite Ls. }
  assert (tag_read B g) as Rg.
  { split; [|split; [|exact Hl]].
    - subst g. unfold normal_tag. cbn [gt_object]. rewrite Ls. eapply tobjects_sha; eauto.
    - subst g. unfold normal_tag. cbn [gt_tagger]. destruct (last_of (ttaggers ts)) as [p|] eqn:Q; [|apply zero_person_read]. cbn [or_else].
      apply last_of_some in Q as [q Q]. assert (In p (ttaggers ts)) as I by (rewrite Q, in_app_iff; right; now left).
      apply in_flat_map in I as (y & I & J). destruct y as [| | |x p'|]; cbn in J; try contradiction. destruct J as [->|[]].
      apply (person_line_read _ _ (Ht _ I)). }
  rewrite V in *. clearbody g. clear - HB Rg.
  assert (forall k, tag_after k (tag_value g) = tag_value (gt_after k g)) as Va by reflexivity.
  assert (forall k, again B (NTag (tag_value (gt_after k g))) (NTag (tag_value (gt_after (S k) g)))) as A.
  { intros k. rewrite <- (gt_after_S B k g Rg). pose proof (gt_after_read B k g Rg) as Rk.
    exists (git_object (bs "tag") (tag_text_short (gt_after k g))). split; [apply encode_tag_value, Rk|].
    intros pa pc b D. rewrite tag_object in D. apply (tag_accepted B pa pc b _ _ _ HB (dec_no_nul _) D). exists []. now apply tag_again. }
  split.
  - induction k as [|k IH]; [rewrite Va, gt_after_0; constructor|]. econstructor; [exact IH|rewrite !Va; apply A].
  - intros k. rewrite Va. specialize (A k). rewrite <- (gt_after_S B k g Rg) in A.
    transitivity (tag_value (gt_after 1 (gt_after k g)) = tag_value (gt_after k g)).
    { split; [|intros E; now rewrite E in A]. intros A'. pose proof (again_det _ _ _ _ A A') as Q. congruence. }
    destruct Rg as (_ & Rp & _). rewrite <- (person_settled k (gt_tagger g) Rp).
    pose proof (person_after_read k _ Rp) as Rk.
    rewrite <- (person_roundtrip (bs "tagger")) by (cbn; intuition discriminate).
    pose proof (person_again (bs "tagger") 0 _ ltac:(cbn; intuition discriminate) Rk) as Pa. rewrite person_after_0 in Pa. rewrite Pa.
    split.
    + intros Q. apply (f_equal t_tagger) in Q. cbn [tag_value t_tagger gt_after gt_tagger] in Q. now rewrite Q.
    + intros Q. unfold tag_value, gt_after. cbn [gt_object gt_type gt_tag gt_tagger gt_message]. now rewrite (ok_inj _ _ Q).
Qed.
Print Assumptions tags_settle.

(** ** Not every commit settles *)

(** A commit whose last header line has exactly as many bytes as the buffer gets one more
    newline in front of its message every time, for ever. *)
Definition with_message (c : commit) (m : bytes) : commit :=
  {| c_tree := c_tree c; c_parents := c_parents c; c_message := m; c_author := c_author c; c_committer := c_committer c;
     c_encoding := c_encoding c; c_signature := c_signature c; c_mergetag := c_mergetag c; c_other := c_other c |}.
Definition gwith_message (c : gcommit) (m : bytes) : gcommit :=
  {| gc_tree := gc_tree c; gc_parents := gc_parents c; gc_author := gc_author c; gc_committer := gc_committer c;
     gc_encoding := gc_encoding c; gc_mergetags := gc_mergetags c; gc_signature := gc_signature c; gc_other := gc_other c; gc_message := m |}.

Theorem commits_that_grow_for_ever : forall B g ls x,
  64 <= B -> commit_ok (S B) g -> commit_lines g = ls ++ [x] -> (forall l, In l ls -> line_ok B l) -> length x = B ->
  forall k, fits (repeat NL k ++ commit_text g) ->
  rounds B k (NCommit (commit_value g)) (NCommit (with_message (commit_value g) (repeat NL k ++ gc_message g))) /\
  (forall n, rounds B k (NCommit (commit_value g)) n -> ~ again B n n).
Proof.
  intros B g ls x HB G El Hl Lx.
  set (gk := fun k => gwith_message g (repeat NL k ++ gc_message g)).
  assert (forall k, with_message (commit_value g) (repeat NL k ++ gc_message g) = commit_value (gk k)) as Vk by reflexivity.
  assert (forall k, fits (repeat NL k ++ commit_text g) -> again B (NCommit (commit_value (gk k))) (NCommit (commit_value (gk (S k))))) as A.
  { intros k F. destruct G as (G1 & G2 & Ga & Gc & Gm & Gs & Go & Gsp & Gl). apply again_commit; [exact HB| | |].
    - intros p [<-|I]; [exact G1|]. apply in_app_iff in I as [I|I]; [now apply G2|]. apply in_map_iff in I as (m & <- & I). now apply Gm.
    - unfold fits, commit_text in *. change (commit_lines (gk k)) with (commit_lines g). change (gc_message (gk k)) with (repeat NL k ++ gc_message g).
      rewrite !app_length in *. lia.
    - exists (cblocks (gk (S k))), (EndMessage (gc_message (gk (S k)))). split; [|split; [|split; [exact Logic.I|split]]].
      + rewrite cblocks_lines. change (commit_lines (gk (S k))) with (commit_lines g). unfold commit_text. change (commit_lines (gk k)) with (commit_lines g).
        rewrite El. apply reads_app. cbn [ending_lines ending_rest]. exists ([NL] ++ gc_message (gk (S k))). split; [|now apply reads_one, takes_nil_nl].
        apply reads_app. exists (x ++ [NL] ++ [NL] ++ gc_message (gk k)). split.
        * rewrite unlines_app, <- app_assoc. replace (unlines [x] ++ [NL] ++ gc_message (gk k)) with (x ++ [NL] ++ [NL] ++ gc_message (gk k)).
          2:{ rewrite unlines_cons. change (unlines []) with (@nil byte). now rewrite app_nil_r, <- app_assoc. }
          now apply reads_unlines.
        * apply reads_one. change ([NL] ++ gc_message (gk (S k))) with ([NL] ++ [NL] ++ gc_message (gk k)).
          assert (line_ok (S B) x) as (X1 & X2 & _) by (apply Gl; rewrite El; apply in_app_iff; right; now left). now apply takes_cut.
      + apply (cblocks_ok (S B)). repeat (split; [assumption|]). assumption.
      + apply (mergetags_end_message _ []). now apply cblocks_end.
      + symmetry. apply cblocks_value. }
  assert (forall k, fits (repeat NL k ++ commit_text g) -> rounds B k (NCommit (commit_value g)) (NCommit (commit_value (gk k)))) as R.
  { induction k as [|k IH]; intros F.
    - assert (gk 0 = g) as -> by (unfold gk, gwith_message; cbn [repeat app]; now destruct g). constructor.
    - assert (fits (repeat NL k ++ commit_text g)) as F' by (unfold fits in *; cbn [repeat app length] in F; lia).
      econstructor; [exact (IH F')|now apply A]. }
  intros k F. rewrite Vk. split; [now apply R|]. intros n Rn An. rewrite <- (rounds_det _ _ _ _ _ (R k F) Rn) in An.
  pose proof (again_det _ _ _ _ An (A k F)) as Q.
  assert (gc_message (gk k) = gc_message (gk (S k))) as Q' by (change (c_message (commit_value (gk k)) = c_message (commit_value (gk (S k)))); congruence).
  apply (f_equal (@length _)) in Q'. unfold gk, gwith_message in Q'. cbn [gc_message] in Q'. rewrite !app_length, !repeat_length in Q'. lia.
Qed.
Print Assumptions commits_that_grow_for_ever.

Definition growing (B : nat) : gcommit :=
  {| gc_tree := repeat NUL 20; gc_parents := [];
     gc_author := {| p_name := bs "J"; p_email := bs "j@k"; p_date := bs "1"; p_timezone := bs "+0000" |};
     gc_committer := {| p_name := bs "J"; p_email := bs "j@k"; p_date := bs "1"; p_timezone := bs "+0000" |};
     gc_encoding := None; gc_mergetags := []; gc_signature := None; gc_other := [repeat x78 B]; gc_message := bs "m" |}.
Definition growing_start (B : nat) : list bytes :=
  Eval vm_compute in removelast (commit_lines (growing 1)).
Lemma growing_lines B : commit_lines (growing B) = growing_start B ++ [repeat x78 B].
Proof. reflexivity. Qed.
Lemma growing_ok B : 64 <= B -> commit_ok (S B) (growing B) /\ forall l, In l (growing_start B) -> line_ok B l.
Proof.
  intros HB.
  assert (forall l, In l (growing_start B) -> line_ok B l) as Hs.
  { intros l I. assert (line_okb 64 l = true) as L.
    { assert (forallb (line_okb 64) (growing_start B) = true) as F by reflexivity. rewrite forallb_forall in F. auto. }
    apply line_okb_ok in L as (L1 & L2 & L3). split; [exact L1|]. split; [exact L2|lia]. }
  split; [|exact Hs].
  assert (person_ok (gc_author (growing B))) as P by (apply person_okb_ok; reflexivity).
  split; [reflexivity|]. split; [intros p []|]. split; [exact P|]. split; [exact P|]. split; [intros m []|].
  split; [discriminate|]. split; [|split; [now intros N; contradiction N|]].
  - intros l [<-|[]]. destruct B; [lia|]. split; [discriminate|]. intros (h & I & r & E). cbn in I.
    repeat (destruct I as [<-|I]; [discriminate E|]). destruct I.
  - intros l I. rewrite growing_lines in I. apply in_app_iff in I as [I|[<-|[]]].
    + destruct (Hs l I) as (L1 & L2 & L3). split; [exact L1|]. split; [exact L2|lia].
    + split; [|split].
      * intros I. apply repeat_spec in I. discriminate.
      * intros [r E]. assert (In CR (repeat x78 B)) as I by (rewrite E; apply in_app_iff; right; now left). apply repeat_spec in I. discriminate.
      * rewrite repeat_length. lia.
Qed.
Theorem every_commit_settles_refuted : forall B, 64 <= B -> (Z.of_nat B < 2 ^ 61)%Z -> exists size d c,
  (forall pa pc b, delivers B true b (mk (commit_bytes size d) EEOF) -> parse_object (bufio_ops pa pc) b = Ok (NCommit c)) /\
  forall k, (Z.of_nat k < 2 ^ 61)%Z ->
    (exists n, rounds B k (NCommit c) n) /\ forall n, rounds B k (NCommit c) n -> ~ again B n n.
Proof.
  intros B HB LB. destruct (growing_ok B HB) as [G Hs].
  pose proof (commits_that_grow_for_ever B (growing B) _ _ HB G (growing_lines B) Hs (repeat_length _ _)) as H.
  assert (forall k, (Z.of_nat k < 2 ^ 61 + 1)%Z -> fits (repeat NL k ++ commit_text (growing B))) as F.
  { intros k L. unfold fits. unfold commit_text. rewrite growing_lines, unlines_app. rewrite !app_length, repeat_length.
    change (length (unlines (growing_start B))) with 95. rewrite unlines_cons, !app_length, repeat_length. cbn [length]. change (length (unlines [])) with 0.
    change (length (gc_message (growing B))) with 1. lia. }
  set (c := with_message (commit_value (growing B)) (repeat NL 1 ++ gc_message (growing B))).
  destruct (H 1 ltac:(apply F; lia)) as [R1 _]. inversion R1 as [|? ? n1 ? R0 A1]; subst. inversion R0; subst. destruct A1 as (text & Et & Hp).
  rewrite encode_commit_value in Et by (intros ? [] || reflexivity). apply ok_inj in Et. subst text.
  exists (dec (lenN (commit_text (growing B)))), (commit_text (growing B)), c. split; [exact Hp|].
  assert (forall k n, rounds B k (NCommit c) n -> rounds B (S k) (NCommit (commit_value (growing B))) n) as Sh.
  { induction k as [|k IH]; intros n R.
    - inversion R; subst. econstructor; [constructor|]. eexists. split; [|exact Hp]. rewrite encode_commit_value by (intros ? [] || reflexivity). reflexivity.
    - inversion R as [|? ? n1 ? R' A]; subst. econstructor; [apply IH; exact R'|exact A]. }
  assert (forall k n, rounds B (S k) (NCommit (commit_value (growing B))) n -> rounds B k (NCommit c) n) as Sh'.
  { induction k as [|k IH]; intros n R.
    - rewrite (rounds_det _ _ _ _ _ R R1). constructor.
    - inversion R as [|? ? n1 ? R' A]; subst. econstructor; [apply IH; exact R'|exact A]. }
  intros k L. destruct (H (S k)) as [Rk Nk]; [apply F; lia|]. split.
  - eexists. apply Sh'. exact Rk.
  - intros n R. apply Nk, Sh, R.
Qed.
Print Assumptions every_commit_settles_refuted.

(** ** Examples *)
Definition settle_text : bytes := Eval vm_compute in unlines
  [ bs "tree 0102030405060708090a0b0c0d0e0f1011121314";
    bs "author J <j <<<k> 1 +0"; bs "committer J <j>  +0";
    bs " more"; bs "foo bar" ;
    bs "mergetag object 0102030405060708090a0b0c0d0e0f1011121314"; bs " type commit"; bs " tag v1"; bs " tagger T <t <<u> 2 +0"; bs " "; bs " hello" ] ++ [NL] ++ bs "msg".
Definition read_commit_as (d : bytes) : commit :=
  match parse_object (bufio_ops pol pol) (new_reader 4096 (chunks [commit_bytes (bs "9") d] EEOF)) with Ok (NCommit c) => c | _ => {| c_tree := LNil; c_parents := []; c_message := []; c_author := None; c_committer := None; c_encoding := None; c_signature := None; c_mergetag := []; c_other := [] |} end.
Definition settle_commit : commit := Eval vm_compute in read_commit_as settle_text.
Definition settle_lines : list bytes := Eval vm_compute in
  [ bs "tree 0102030405060708090a0b0c0d0e0f1011121314";
    bs "author J <j <<k> 1 +0"; bs "committer J <j> +0";
    bs "mergetag object 0102030405060708090a0b0c0d0e0f1011121314"; bs " type commit"; bs " tag v1"; bs " tagger T <t <u> 2 +0"; bs " "; bs " hello";
    bs " more"; bs "foo bar" ].
(** The commit takes two rounds; the line " more" becomes part of the merge tag's message. *)
Example commits_settle_applies :
  let b := new_reader 4096 (chunks [commit_bytes (bs "9") settle_text] EEOF) in
  parse_object (bufio_ops pol pol) b = Ok (NCommit settle_commit) /\
  delivers 4096 true b (mk (commit_bytes (bs "9") settle_text) EEOF) /\
  c_tree settle_commit <> LNil /\ written_commit settle_commit settle_lines /\
  (forall l, In l settle_lines -> line_ok 4096 l) /\ fits (unlines settle_lines ++ [NL] ++ c_message settle_commit) /\
  commit_rounds settle_commit = 2 /\
  taken settle_commit = [bs " more"] /\
  commit_after 2 settle_commit <> commit_after 1 settle_commit /\ commit_after 3 settle_commit = commit_after 2 settle_commit.
Proof.
  split; [vm_compute; reflexivity|]. split; [apply one_chunk_delivers; discriminate|]. split; [discriminate|].
  split; [vm_compute; reflexivity|]. split.
  { intros l I. apply line_okb_ok. assert (forallb (line_okb 4096) settle_lines = true) as F by (vm_compute; reflexivity). rewrite forallb_forall in F. auto. }
  split; [vm_compute; reflexivity|]. split; [vm_compute; reflexivity|]. split; [vm_compute; reflexivity|]. split; [|vm_compute; reflexivity].
  intros E. apply (f_equal c_author) in E. vm_compute in E. discriminate E.
Qed.

Definition settle_tag_text : bytes := Eval vm_compute in unlines
  [ bs "object 0102030405060708090a0b0c0d0e0f1011121314"; bs "type commit"; bs "tag v1"; bs "tagger T <t <<<u> 2 +0" ] ++ [NL] ++ bs "msg".
Definition settle_tag_lines : list bytes := Eval vm_compute in
  [ bs "object 0102030405060708090a0b0c0d0e0f1011121314"; bs "type commit"; bs "tag v1"; bs "tagger T <t <<u> 2 +0" ].
Definition settle_tag : tag :=
  {| t_object := git_link [x01; x02; x03; x04; x05; x06; x07; x08; x09; x0a; x0b; x0c; x0d; x0e; x0f; x10; x11; x12; x13; x14]; t_type := bs "commit"; t_tag := bs "v1";
     t_tagger := {| p_name := bs "T"; p_email := bs "t <<u"; p_date := bs "2"; p_timezone := bs "+0" |}; t_message := bs "msg" |}.
Example tags_settle_applies :
  let b := new_reader 4096 (chunks [tag_bytes (bs "9") settle_tag_text] EEOF) in
  parse_object (bufio_ops pol pol) b = Ok (NTag settle_tag) /\
  delivers 4096 true b (mk (tag_bytes (bs "9") settle_tag_text) EEOF) /\
  t_object settle_tag <> LNil /\ written_tag settle_tag settle_tag_lines /\
  (forall l, In l settle_tag_lines -> line_ok 4096 l) /\
  tag_rounds settle_tag = 2 /\ p_email (t_tagger (tag_after 2 settle_tag)) = bs "t u".
Proof.
  split; [vm_compute; reflexivity|]. split; [apply one_chunk_delivers; discriminate|]. split; [discriminate|].
  split; [vm_compute; reflexivity|]. split.
  { intros l I. apply line_okb_ok. assert (forallb (line_okb 4096) settle_tag_lines = true) as F by (vm_compute; reflexivity). rewrite forallb_forall in F. auto. }
  split; vm_compute; reflexivity.
Qed.

(** The hypotheses of [commits_that_grow_for_ever] for every buffer: [growing_ok], [growing_lines]. *)
Example commits_that_grow_applies :
  commit_ok 65 (growing 64) /\ commit_lines (growing 64) = growing_start 64 ++ [repeat x78 64] /\ fits (repeat NL 3 ++ commit_text (growing 64)).
Proof. split; [apply growing_ok; lia|]. split; reflexivity. Qed.
