(** Both directions: what survives, and that nothing else does. *)
From Verif Require Import Base GoStr Cid Types Nodes Reader Bufio Person Assemble Decode Encode Spec HeaderSpec NormalSpec SurviveSpec
  ReaderSpec StreamFacts PersonFacts DecodeFacts RoundTrip CommitFacts GrammarFacts NormalFacts PrefixFacts CanonFacts
  Sim BufioFacts NumFacts Transfer Props_decode Props_grammar Props_header Props_tag SurviveFacts SurviveCommit.

Section B.
Context (B : nat) (HB : 64 <= B).
Notation cutl := (cutl B).

(** ** Lengths of the lines of a normal form *)
Lemma last_in {A} (l : list A) x : last_of l = Some x -> In x l.
Proof. intros E. apply last_of_some in E as [q ->]. apply in_app_iff. right. now left. Qed.

Lemma normal_short ks en a c :
  (forall k, In k ks -> block_ok k) -> ending_ok en -> (forall l, In l (header_lines ks ++ ending_lines en) -> length l <= B) ->
  last_of (authors ks) = Some a -> last_of (committers ks) = Some c ->
  forall l, In l (commit_lines (normal ks en a c)) -> length l <= S B.
Proof.
  intros Hk He Hl Ha Hc l I.
  assert (forall k x, In k ks -> In x (block_lines k) -> length x <= B) as Lk.
  { intros k x Ik J. apply Hl, in_app_iff. left. apply in_concat. exists (block_lines k). split; [now apply in_map|exact J]. }
  assert (forall h sha ms msg m, (forall y, In y ms -> mline_ok y) -> (forall y, In y ms -> length (mline_text y) <= B) -> (forall y, In y msg -> length y <= B) ->
          is_sha sha -> m = normal_mergetag sha ms msg -> In h (mergetag_lines m) -> length h <= S B) as Lm.
  { intros h sha ms msg m Hms Lms Lmsg Hs -> J. unfold mergetag_lines, normal_mergetag in J. cbn [gm_object gm_type gm_tag gm_tagger gm_message] in J.
    apply in_app_iff in J as [J|J]; [|apply Lmsg in J; lia].
    destruct J as [<-|[<-|[<-|[<-|[<-|[]]]]]].
    - rewrite app_length, hex_encode_length. unfold is_sha in Hs. rewrite Hs. cbn. lia.
    - destruct (last_of (mtypes ms)) as [t|] eqn:Et; [|cbn; lia]. apply last_in, in_flat_map in Et as (y & Iy & J).
      destruct y; cbn in J; try contradiction. destruct J as [->|[]]. apply Lms in Iy. cbn [or_else mline_text] in *. lia.
    - destruct (last_of (mtags ms)) as [t|] eqn:Et; [|cbn; lia]. apply last_in, in_flat_map in Et as (y & Iy & J).
      destruct y; cbn in J; try contradiction. destruct J as [->|[]]. apply Lms in Iy. cbn [or_else mline_text] in *. lia.
    - destruct (last_of (mtaggers ms)) as [t|] eqn:Et; [|cbn; lia]. apply last_in, in_flat_map in Et as (y & Iy & J).
      destruct y as [| |y p|]; cbn in J; try contradiction. destruct J as [->|[]]. pose proof (Lms _ Iy) as L. specialize (Hms _ Iy).
      cbn [mline_text mline_ok or_else] in *.
      pose proof (person_line_grows (bs "tagger") y t ltac:(cbn; intuition discriminate) Hms) as G. rewrite app_length in *. lia.
    - cbn. lia. }
  unfold commit_lines in I. rewrite !in_app_iff in I. destruct I as [[<-|[]]|[I|[[<-|[<-|[]]]|[I|[I|[I|I]]]]]].
  - unfold normal. cbn [gc_tree]. destruct (last_of (trees ks)) as [s|] eqn:Et; [|cbn; lia]. cbn [or_else].
    pose proof (last_tree_sha ks Hk s Et) as Hs. rewrite app_length, hex_encode_length. unfold is_sha in Hs. rewrite Hs. cbn. lia.
  - apply in_map_iff in I as (p & <- & I). assert (is_sha p) as Hs by (eapply parents_sha; eauto).
    rewrite app_length, hex_encode_length. unfold is_sha in Hs. rewrite Hs. cbn. lia.
  - cbn [normal gc_author]. apply last_in, in_flat_map in Ha as (k & Ik & J). destruct k as [| |x p| | | | |]; cbn in J; try contradiction. destruct J as [->|[]].
    pose proof (Lk _ _ Ik (or_introl eq_refl)) as L. specialize (Hk _ Ik). cbn [block_ok] in Hk.
    pose proof (person_line_grows (bs "author") x a ltac:(cbn; intuition discriminate) Hk) as G. rewrite app_length in *. lia.
  - cbn [normal gc_committer]. apply last_in, in_flat_map in Hc as (k & Ik & J). destruct k as [| | |x p| | | |]; cbn in J; try contradiction. destruct J as [->|[]].
    pose proof (Lk _ _ Ik (or_introl eq_refl)) as L. specialize (Hk _ Ik). cbn [block_ok] in Hk.
    pose proof (person_line_grows (bs "committer") x c ltac:(cbn; intuition discriminate) Hk) as G. rewrite app_length in *. lia.
  - cbn [normal gc_encoding] in I. destruct (last_of (encodings ks)) as [e|] eqn:Ee; [|destruct I]. destruct I as [<-|[]].
    apply last_in, in_flat_map in Ee as (k & Ik & J). destruct k; cbn in J; try contradiction. destruct J as [->|[]].
    pose proof (Lk _ _ Ik (or_introl eq_refl)) as L. lia.
  - apply in_concat in I as (ls & I & J). apply in_map_iff in I as (m & <- & I). cbn [normal gc_mergetags] in I. unfold mergetags in I.
    apply in_app_iff in I as [I|I].
    + apply in_flat_map in I as (k & Ik & K). destruct k as [| | | | |h sha ms msg| |]; cbn in K; try contradiction. destruct K as [<-|[]].
      destruct (Hk _ Ik) as (_ & Hs & Hms & _). eapply Lm; [exact Hms| | |exact Hs|reflexivity|exact J].
      * intros y Iy. apply (Lk _ _ Ik). cbn [block_lines]. rewrite !in_app_iff. right; left. now apply in_map.
      * intros y Iy. apply (Lk _ _ Ik). cbn [block_lines]. rewrite !in_app_iff. auto.
    + destruct en as [| |h sha ms]; cbn in I; try contradiction. destruct I as [<-|[]]. destruct He as (_ & Hs & Hms).
      apply (Lm l sha ms [] (normal_mergetag sha ms []) Hms); [|intros y []|exact Hs|reflexivity|exact J].
      intros y Iy. apply Hl, in_app_iff. right. cbn [ending_lines]. right. now apply in_map.
  - cbn [normal gc_signature] in I. destruct (last_of (signatures ks)) as [sg|] eqn:Es; [|destruct I]. cbn [opt_list] in I.
    apply last_in, in_flat_map in Es as (k & Ik & J). destruct k as [| | | | | |x f ss|]; cbn in J; try contradiction. destruct J as [<-|[]].
    unfold signature_lines in I. cbn [fst snd] in I. apply in_app_iff in I as [[<-|[]]|I]; [vm_compute length; lia|].
    assert (length l <= B); [|lia]. apply (Lk _ _ Ik). cbn [block_lines]. apply in_app_iff. now right.
  - cbn [normal gc_other] in I. apply in_flat_map in I as (k & Ik & J). destruct k; cbn in J; try contradiction. destruct J as [<-|[]].
    pose proof (Lk _ _ Ik (or_introl eq_refl)). lia.
Qed.

(** ** Leaving out ignored lines changes nothing *)
Lemma flat_map_strip {A} (f : block -> list A) ks : (forall k, f (strip k) = f k) -> flat_map f (map strip ks) = flat_map f ks.
Proof. intros H. induction ks as [|k ks IH]; [reflexivity|]. cbn [map flat_map]. now rewrite H, IH. Qed.
Lemma strip_kept {A} (f : mline -> list A) ms : (forall l, f (MIgnored l) = []) -> flat_map f (filter kept ms) = flat_map f ms.
Proof. intros H. induction ms as [|m ms IH]; [reflexivity|]. cbn [filter flat_map]. destruct m; cbn [kept flat_map]; rewrite ?H, IH; reflexivity. Qed.
Lemma normal_mergetag_strip sha ms msg : normal_mergetag sha (filter kept ms) msg = normal_mergetag sha ms msg.
Proof. unfold normal_mergetag, mtypes, mtags, mtaggers. now rewrite !strip_kept by reflexivity. Qed.
Lemma normal_strip ks en a c : normal (map strip ks) en a c = normal ks en a c.
Proof.
  unfold normal, trees, parents, encodings, mergetags, signatures, others.
  rewrite !flat_map_strip by (intros []; cbn [strip]; rewrite ?normal_mergetag_strip; reflexivity). reflexivity.
Qed.
Lemma strip_ok k : block_ok k -> block_ok (strip k).
Proof. destruct k; cbn [strip]; auto. intros (H1 & H2 & H3 & H4). repeat split; auto. intros m I. apply filter_In in I as [I _]. auto. Qed.
Lemma strip_end ks en en' : (en' <> EndNone) -> mergetags_end ks en -> mergetags_end (map strip ks) en'.
Proof.
  intros N. induction ks as [|k ks IH]; [auto|]. cbn [map]. destruct k; cbn [strip mergetags_end]; auto.
  intros [H1 H2]. split; [|auto]. destruct ks as [|[] ks]; auto.
Qed.

(** A commit that comes back is one that survives. *)
Lemma commit_back d c : commit_means B d c -> encode_bytes (NCommit c) = Ok (git_object (bs "commit") d) ->
  exists g, commit_survives B g /\ d = commit_text g /\ c = commit_value g.
Proof.
  intros (ks & en & R & Hk & He & Hm & ->) O.
  destruct (last_of (authors ks)) as [a|] eqn:Ea; [|rewrite encode_commit_nil in O by auto; discriminate].
  destruct (last_of (committers ks)) as [cm|] eqn:Ec; [|rewrite encode_commit_nil in O by auto; discriminate].
  rewrite (encode_commit_normal ks en a cm) in O by auto.
  assert (d = commit_text (normal ks en a cm)) as Q.
  { assert (git_object (bs "commit") (commit_text (normal ks en a cm)) = git_object (bs "commit") d) as O' by congruence.
    unfold git_object in O'. apply app_inv_head in O'. apply app_inv_head in O'.
    apply app_split_first in O' as [_ O']; [now symmetry| |]; apply dec_no_nul. }
  set (g := normal ks en a cm) in *.
  assert (gc_message g = ending_rest en) as Gm by (destruct en; reflexivity).
  destruct (cuts_read B HB (commit_lines g)) as (Ls & F & RL).
  { intros q I. split.
    - revert q I. apply normal_no_nl; auto; intros l I; eapply (reads_no_nl B HB _ _ _ R); apply in_app_iff; auto.
    - revert q I. apply normal_short; auto. exact (reads_short B HB _ _ _ R). }
  assert (header_lines ks ++ ending_lines en = concat Ls ++ [[]]) as E.
  { apply (reads_det B HB d _ _ (ending_rest en) R). rewrite Q. unfold commit_text. apply reads_app. exists ([NL] ++ gc_message g).
    split; [apply RL|]. rewrite <- Gm. apply (reads_one B), takes_nil_nl, HB. }
  destruct (commit_walk B HB en ks a cm Ls Hk He (reads_short B HB _ _ _ R) Ea Ec F E) as ((m & ->) & EL & KT & KS). fold g in EL, KT, KS.
  destruct (survivor (S B) (map strip ks) m a cm) as [G _].
  - intros k I. apply in_map_iff in I as (x & <- & I). apply strip_ok. auto.
  - apply (strip_end ks (EndMessage m)); [discriminate|exact Hm].
  - intros l I. rewrite EL in I. auto.
  - unfold authors in *. rewrite flat_map_strip; [exact Ea|]. intros []; reflexivity.
  - unfold committers in *. rewrite flat_map_strip; [exact Ec|]. intros []; reflexivity.
  - rewrite normal_strip. fold g. rewrite EL. reflexivity.
  - rewrite normal_strip in G. fold g in G. exists g. split; [split; assumption|]. split; [exact Q|].
    destruct (last_of (trees ks)) as [s|] eqn:Et; [now apply (normal_value ks (EndMessage m) a cm s)|].
    exfalso. destruct G as [G _]. unfold g, normal, is_sha in G. cbn [gc_tree] in G. rewrite Et in G. discriminate G.
Qed.

(** ** Lines of exactly [B] bytes in the header of a merge tag *)
Definition mpad (m : mline) : list mline := m :: if length (mline_text m) =? B then [MIgnored []] else [].
Definition pad (k : block) : block :=
  match k with KMergetag h sha ms msg => KMergetag h sha (flat_map mpad ms) msg | k => k end.

Definition fit_lines (k : block) : Prop :=
  match k with
  | KMergetag h _ ms msg => line_ok B (bs "mergetag object " ++ h) /\ (forall m, In m ms -> line_ok (S B) (mline_text m)) /\ forall l, In l msg -> line_ok B l
  | k => forall l, In l (block_lines k) -> line_ok B l
  end.

Lemma mpad_reads ms r : (forall m, In m ms -> line_ok (S B) (mline_text m)) -> reads B (unlines (map mline_text ms) ++ r) (map mline_text (flat_map mpad ms)) r.
Proof.
  induction ms as [|m ms IH]; intros H; [constructor|]. cbn [map flat_map]. rewrite unlines_cons, map_app, <- !app_assoc.
  apply reads_app. exists (unlines (map mline_text ms) ++ r). split; [|apply IH; intros; apply H; now right].
  destruct (H m (or_introl eq_refl)) as (N & C & L). unfold mpad. destruct (Nat.eqb_spec (length (mline_text m)) B) as [EB|NB]; cbn [map mline_text].
  - eapply reads_two; [apply takes_cut; auto|apply takes_nil_nl, HB].
  - apply reads_one. apply takes_nl; auto. lia.
Qed.
Lemma pad_reads k r : fit_lines k -> reads B (unlines (block_lines k) ++ r) (block_lines (pad k)) r.
Proof.
  intros H. destruct k as [h sha|h sha|x p|x p|x|h sha ms msg|x f ss|l]; try (apply reads_unlines; exact H).
  destruct H as (H1 & H2 & H3). cbn [pad block_lines]. rewrite !unlines_app, <- !app_assoc.
  apply reads_app. eexists. split; [apply reads_unlines; intros l [<-|[]]; exact H1|].
  apply reads_app. eexists. split; [apply mpad_reads; exact H2|].
  rewrite app_assoc, <- unlines_app. apply reads_unlines. intros l I. apply in_app_iff in I as [[<-|[]]|I]; [apply sp_line, HB|auto].
Qed.
Lemma pads_read ks r : (forall k, In k ks -> fit_lines k) -> reads B (unlines (header_lines ks) ++ r) (header_lines (map pad ks)) r.
Proof.
  induction ks as [|k ks IH]; intros H; [constructor|]. unfold header_lines in *. cbn [map concat]. rewrite unlines_app, <- app_assoc.
  apply reads_app. eexists. split; [apply pad_reads, H; now left|apply IH; intros; apply H; now right].
Qed.
Lemma pad_value ks : header_value (map pad ks) = header_value ks.
Proof.
  unfold header_value. generalize zero_commit as c. induction ks as [|k ks IH]; intros c; [reflexivity|]. cbn [map fold_left].
  assert (apply_block c (pad k) = apply_block c k) as ->; [|apply IH].
  destruct k as [| | | | |h sha ms msg| |]; try reflexivity. cbn [pad apply_block]. do 2 f_equal. unfold mtag_value.
  generalize {| t_object := git_link sha; t_type := []; t_tag := []; t_tagger := zero_person; t_message := unlines msg |} as t. clear.
  induction ms as [|m ms IH]; intros t; [reflexivity|]. cbn [flat_map fold_left]. rewrite fold_left_app, <- IH. f_equal.
  unfold mpad. destruct (_ =? _); reflexivity.
Qed.
Lemma pad_ok k : block_ok k -> block_ok (pad k).
Proof.
  destruct k; cbn [pad]; auto. intros (H1 & H2 & H3 & H4). repeat split; auto. intros m I. apply in_flat_map in I as (y & I & J).
  unfold mpad in J. destruct J as [<-|J]; [auto|]. destruct (_ =? _); [|destruct J]. destruct J as [<-|[]].
  split; [discriminate|]. repeat split; intros [r R]; discriminate R.
Qed.
Lemma pad_end ks en : mergetags_end ks en -> mergetags_end (map pad ks) en.
Proof.
  induction ks as [|k ks IH]; [auto|]. cbn [map]. destruct k; cbn [pad mergetags_end]; auto.
  intros [H1 H2]. split; [|auto]. destruct ks as [|[] ks]; auto.
Qed.

Lemma mergetags_end_message ks m m' : mergetags_end ks (EndMessage m) -> mergetags_end ks (EndMessage m').
Proof.
  induction ks as [|k ks IH]; [auto|]. destruct k; cbn [mergetags_end]; auto. intros [H1 H2]. split; [|auto].
  destruct ks as [|[] ks]; auto. discriminate.
Qed.

Lemma commit_forth g : commit_survives B g -> commit_means B (commit_text g) (commit_value g).
Proof.
  intros [G T]. exists (map pad (cblocks g)), (EndMessage (gc_message g)). split; [|split; [|split; [exact Logic.I|split]]].
  - apply reads_app. exists ([NL] ++ gc_message g). split; [|apply reads_one, takes_nil_nl, HB].
    unfold commit_text. rewrite <- cblocks_lines. apply pads_read. intros k I. unfold cblocks in I. rewrite !in_app_iff in I.
    unfold tight_lines in T.
    destruct I as [[<-|[]]|[I|[[<-|[<-|[]]]|[I|[I|[I|I]]]]]].
    + intros l [<-|[]]. apply T. now left.
    + apply in_map_iff in I as (p & <- & I). intros l [<-|[]]. apply T. rewrite !in_app_iff. right; left. apply in_map_iff. eauto.
    + intros l [<-|[]]. apply T. rewrite !in_app_iff. cbn [In]. tauto.
    + intros l [<-|[]]. apply T. rewrite !in_app_iff. cbn [In]. tauto.
    + destruct (gc_encoding g) as [e|]; [|destruct I]. destruct I as [<-|[]]. intros l [<-|[]]. apply T. rewrite !in_app_iff. cbn [opt_list In]. tauto.
    + apply in_map_iff in I as (m & <- & I).
      assert (forall l, In l (mergetag_tight_lines m) -> line_ok B l) as Tm.
      { intros l J. apply T. rewrite !in_app_iff. do 4 right. left. apply in_concat. exists (mergetag_tight_lines m). split; [now apply in_map|exact J]. }
      unfold mblock, fit_lines. split; [apply Tm; now left|]. split; [|intros l J; apply Tm; apply in_app_iff; now right].
      destruct G as (_ & _ & _ & _ & _ & _ & _ & _ & Gl). intros y J. apply Gl. unfold commit_lines. rewrite !in_app_iff. do 4 right. left.
      apply in_concat. exists (mergetag_lines m). split; [now apply in_map|]. destruct J as [<-|[<-|[<-|[]]]]; unfold mergetag_lines; cbn [mline_text]; cbn [app In]; tauto.
    + destruct (gc_signature g) as [sg|]; [|destruct I]. destruct I as [<-|[]]. intros l J. apply T. rewrite !in_app_iff. do 5 right. left. exact J.
    + apply in_map_iff in I as (o & <- & I). intros l [<-|[]]. apply T. rewrite !in_app_iff. tauto.
  - intros k I. apply in_map_iff in I as (x & <- & I). apply pad_ok. eapply cblocks_ok; eauto.
  - apply pad_end. apply (mergetags_end_message _ []). apply cblocks_end. apply G.
  - rewrite pad_value. symmetry. apply cblocks_value.
Qed.

(** ** Tags *)
Lemma tag_short ts m : (forall x, In x ts -> tline_ok x) -> (forall x, In x ts -> length (tline_text x) <= B) ->
  forall l, In l (tag_lines (normal_tag ts m)) -> length l <= S B.
Proof.
  intros Ht Hl l I. unfold tag_lines, normal_tag in I. cbn [gt_object gt_type gt_tag gt_tagger] in I. destruct I as [<-|[<-|[<-|[<-|[]]]]].
  - destruct (last_of (tobjects ts)) as [x|] eqn:E; [|cbn; lia]. apply last_in, in_flat_map in E as (y & J & Y).
    destruct y; cbn in Y; try contradiction. destruct Y as [->|[]]. destruct (Ht _ J) as [_ Hs]. cbn [or_else].
    rewrite app_length, hex_encode_length. unfold is_sha in Hs. rewrite Hs. cbn. lia.
  - destruct (last_of (ttypes ts)) as [x|] eqn:E; [|cbn; lia]. apply last_in, in_flat_map in E as (y & J & Y).
    destruct y; cbn in Y; try contradiction. destruct Y as [->|[]]. apply Hl in J. cbn [or_else tline_text] in *. lia.
  - destruct (last_of (ttags ts)) as [x|] eqn:E; [|cbn; lia]. apply last_in, in_flat_map in E as (y & J & Y).
    destruct y; cbn in Y; try contradiction. destruct Y as [->|[]]. apply Hl in J. cbn [or_else tline_text] in *. lia.
  - destruct (last_of (ttaggers ts)) as [x|] eqn:E; [|cbn; lia]. apply last_in, in_flat_map in E as (y & J & Y).
    destruct y as [| | |y p|]; cbn in Y; try contradiction. destruct Y as [->|[]]. pose proof (Hl _ J) as L. specialize (Ht _ J). cbn [or_else tline_text tline_ok] in *.
    pose proof (person_line_grows (bs "tagger") y x ltac:(cbn; intuition discriminate) Ht) as G. rewrite app_length in *. lia.
Qed.

(** The next line of a tag. *)
Lemma tstep ts (e : list bytes) l R : e = [] \/ e = [[]] -> map tline_text ts ++ e = l :: R -> l <> [] ->
  exists t ts', ts = t :: ts' /\ tline_text t = l /\ map tline_text ts' ++ e = R.
Proof.
  intros He E N. destruct ts as [|t ts]; cbn [map app] in E; [|apply cons_eq in E as [E1 E]; eauto].
  destruct He as [-> | ->]; [discriminate|]. apply cons_eq in E as [E _]. congruence.
Qed.
Lemma tstep_empty ts (e : list bytes) R : (forall x, In x ts -> tline_ok x) -> e = [] \/ e = [[]] -> map tline_text ts ++ e = [] :: R -> ts = [] /\ e = [[]] /\ R = [].
Proof.
  intros Ht He E. destruct ts as [|t ts]; cbn [map app] in E.
  - destruct He as [-> | ->]; [discriminate|]. apply cons_eq in E as [_ <-]. auto.
  - exfalso. apply cons_eq in E as [E _]. specialize (Ht t (or_introl eq_refl)). destruct t; cbn [tline_text tline_ok] in *; try discriminate E. destruct Ht. congruence.
Qed.
Lemma tline_word w v t : tline_ok t -> In w tag_words -> tline_text t = w ++ v -> forall l, t <> TIgnored l.
Proof. intros H I E l ->. destruct H as [_ H]. apply (H w I). exists v. exact E. Qed.

Lemma ttail ts e tl R : (forall x, In x ts -> tline_ok x) -> e = [] \/ e = [[]] -> (tl = [] \/ exists t, tl = [t] /\ length t <= 2) ->
  map tline_text ts ++ e = tl ++ R -> R <> [] -> exists ts', ts = map TIgnored tl ++ ts' /\ map tline_text ts' ++ e = R.
Proof.
  intros Ht He [->|(t & -> & L)] E N; [exists ts; auto|]. cbn [app] in E. destruct t as [|c t].
  - destruct (tstep_empty ts e R Ht He E) as (_ & _ & X). congruence.
  - destruct (tstep ts e _ _ He E) as (x & ts' & -> & Ex & E'); [discriminate|]. exists ts'. split; [|exact E'].
    destruct x; cbn [tline_text] in Ex; [| | | |now rewrite Ex]; exfalso; rewrite <- Ex, app_length in L; cbn in L; lia.
Qed.

Lemma tag_back d t pr : tag_means B d t pr -> encode_bytes (NTag t) = Ok (git_object (bs "tag") d) ->
  exists g, tag_survives B g /\ d = tag_text_short g /\ t = tag_value g.
Proof.
  intros (ts & msg & R & Ht & -> & _) O.
  rewrite encode_tag_normal in O by exact Ht. set (m := match msg with Some m => m | None => [] end) in *.
  assert (d = tag_text_short (normal_tag ts m)) as Q.
  { assert (git_object (bs "tag") (tag_text_short (normal_tag ts m)) = git_object (bs "tag") d) as O' by congruence.
    unfold git_object in O'. apply app_inv_head in O'. apply app_inv_head in O'.
    apply app_split_first in O' as [_ O']; [now symmetry| |]; apply dec_no_nul. }
  set (g := normal_tag ts m) in *. set (e := match msg with Some _ => [[]] | None => [] end) in *.
  assert (e = [] \/ e = [[]]) as He by (unfold e; destruct msg; auto).
  assert (forall x, In x ts -> In (tline_text x) (map tline_text ts ++ e)) as Its by (intros x I; apply in_app_iff; left; now apply in_map).
  assert (forall x, In x ts -> length (tline_text x) <= B) as Hl by (intros x I; apply (reads_short B HB _ _ _ R); auto).
  assert (forall x, In x ts -> ~ In NL (tline_text x)) as Hn by (intros x I; apply (reads_no_nl B HB _ _ _ R); auto).
  destruct (cuts_read B HB (tag_lines g)) as (Ls & F & RL).
  { intros q I. split; [revert q I; now apply tag_lines_no_nl|revert q I; now apply tag_short]. }
  assert (map tline_text ts ++ e = concat Ls ++ match m with [] => [] | _ => [[]] end) as E.
  { apply (reads_det B HB d _ _ m R). rewrite Q. unfold tag_text_short. change (gt_message g) with m.
    destruct m as [|c m']; [rewrite !app_nil_r; pose proof (RL []) as X; now rewrite app_nil_r in X|].
    apply reads_app. eexists. split; [apply RL|]. apply reads_one, takes_nil_nl, HB. }
  unfold tag_lines in F. inversion F as [|? l1 ? La C1 F1]; subst. inversion F1 as [|? l2 ? Lb C2 F2]; subst. inversion F2 as [|? l3 ? Lc C3 F3]; subst.
  inversion F3 as [|? l4 ? Ld C4 F4]; subst. inversion F4; subst. clear F F1 F2 F3 F4.
  assert (is_sha (gt_object g) \/ gt_object g = []) as Gs.
  { unfold g, normal_tag. cbn [gt_object]. destruct (last_of (tobjects ts)) as [x|] eqn:Eo; [|now right]. left. cbn [or_else].
    apply last_in, in_flat_map in Eo as (y & J & Y). destruct y; cbn in Y; try contradiction. destruct Y as [->|[]]. apply (Ht _ J). }
  assert (~ ends_with CR (bs "object ")) as N1. { intros [r X]; apply (f_equal (@rev _)) in X; rewrite rev_unit in X; discriminate X. }
  assert (line_ok B (bs "object " ++ hex_encode (gt_object g))) as K1.
  { destruct Gs as [Gs|Gs]; [apply hex_line; [exact HB|cbn; intuition discriminate|exact N1|cbn; lia|exact Gs]|].
    rewrite Gs. split; [cbn; intuition discriminate|]. split; [exact N1|cbn; lia]. }
  apply (cutl_plain B HB) in C1; [|exact K1]. subst l1.
  destruct (cutl_word B HB (bs "type ") (gt_type g) l2) as (v2 & s2 & tl2 & -> & V2 & T2); [cbn; lia|cbn; intuition discriminate|exact C2|].
  destruct (cutl_word B HB (bs "tag ") (gt_tag g) l3) as (v3 & s3 & tl3 & -> & V3 & T3); [cbn; lia|cbn; intuition discriminate|exact C3|].
  destruct (cutl_word B HB (bs "tagger ") (person_text (gt_tagger g)) l4) as (v4 & s4 & tl4 & -> & V4 & T4); [cbn; lia|cbn; intuition discriminate|exact C4|].
  assert (map tline_text ts ++ e = (bs "object " ++ hex_encode (gt_object g)) :: (bs "type " ++ v2) :: tl2 ++ (bs "tag " ++ v3) :: tl3 ++ (bs "tagger " ++ v4) :: tl4 ++ match m with [] => [] | _ => [[]] end) as E0.
  { rewrite E. cbn [concat]. rewrite app_nil_r. cbn [app]. rewrite <- !app_assoc. cbn [app]. rewrite <- !app_assoc. reflexivity. }
  clear E. rename E0 into E.
  (* the object *)
  destruct (tstep ts e _ _ He E) as (t1 & ts1 & Ets & Q1 & E1); [discriminate|].
  assert (exists o, t1 = TObject (hex_encode (gt_object g)) o) as (o & ->).
  { pose proof (tline_word (bs "object ") _ t1 (Ht t1 ltac:(rewrite Ets; now left)) ltac:(cbn; tauto) Q1) as I1.
    destruct t1; cbn [tline_text] in Q1; try discriminate Q1; [apply app_inv_head in Q1; rewrite Q1; eauto|now destruct (I1 l)]. }
  assert (forall x, In x ts1 -> tline_ok x) as H1 by (intros x I; apply Ht; rewrite Ets; now right).
  (* the type *)
  destruct (tstep ts1 e _ _ He E1) as (t2 & ts2 & -> & Q2 & E2); [discriminate|].
  assert (t2 = TType v2) as ->.
  { pose proof (tline_word (bs "type ") _ t2 (H1 t2 ltac:(now left)) ltac:(cbn; tauto) Q2) as I1.
    destruct t2; cbn [tline_text] in Q2; try discriminate Q2; [apply app_inv_head in Q2; now rewrite Q2|now destruct (I1 l)]. }
  assert (forall x, In x ts2 -> tline_ok x) as H2 by (intros x I; apply H1; now right).
  destruct (ttail ts2 e tl2 _ H2 He T2 E2) as (ts3 & -> & E3); [discriminate|].
  assert (forall x, In x ts3 -> tline_ok x) as H3 by (intros x I; apply H2, in_app_iff; now right).
  (* the tag *)
  destruct (tstep ts3 e _ _ He E3) as (t3 & ts4 & -> & Q3 & E4); [discriminate|].
  assert (t3 = TTag v3) as ->.
  { pose proof (tline_word (bs "tag ") _ t3 (H3 t3 ltac:(now left)) ltac:(cbn; tauto) Q3) as I1.
    destruct t3; cbn [tline_text] in Q3; try discriminate Q3; [apply app_inv_head in Q3; now rewrite Q3|now destruct (I1 l)]. }
  assert (forall x, In x ts4 -> tline_ok x) as H4 by (intros x I; apply H3; now right).
  destruct (ttail ts4 e tl3 _ H4 He T3 E4) as (ts5 & -> & E5); [discriminate|].
  assert (forall x, In x ts5 -> tline_ok x) as H5 by (intros x I; apply H4, in_app_iff; now right).
  (* the tagger *)
  destruct (tstep ts5 e _ _ He E5) as (t5 & ts6 & -> & Q5 & E6); [discriminate|].
  assert (exists p, t5 = TTagger v4 p) as (p & ->).
  { pose proof (tline_word (bs "tagger ") _ t5 (H5 t5 ltac:(now left)) ltac:(cbn; tauto) Q5) as I1.
    destruct t5 as [| | |x p|]; cbn [tline_text] in Q5; try discriminate Q5; [apply app_inv_head in Q5; rewrite Q5; eauto|now destruct (I1 l)]. }
  assert (forall x, In x ts6 -> tline_ok x) as H6 by (intros x I; apply H5; now right).
  assert (exists ig, ts6 = map TIgnored ig /\ (tl4 = [] \/ (tl4 = [[]] -> m = [])) /\ (tl4 = [] -> m = [] -> e = [])) as (ig & -> & Hm & Hm').
  { destruct T4 as [->|(t & -> & L)]; cbn [app] in E6.
    - destruct m as [|c m'].
      + apply app_eq_nil in E6 as [X ->]. apply map_eq_nil in X as ->. exists []. auto.
      + destruct (tstep_empty ts6 e [] H6 He E6) as (-> & _ & _). exists []. split; [reflexivity|]. split; [auto|]. discriminate.
    - destruct t as [|c t].
      + destruct (tstep_empty ts6 e _ H6 He E6) as (-> & _ & X). exists []. split; [reflexivity|]. split; [|discriminate]. right. intros _. destruct m; [reflexivity|discriminate X].
      + destruct (tstep ts6 e _ _ He E6) as (x & ts7 & -> & Ex & E7); [discriminate|].
        assert (x = TIgnored (c :: t)) as ->.
        { destruct x; cbn [tline_text] in Ex; [| | | |now rewrite Ex]; exfalso; rewrite <- Ex, app_length in L; cbn in L; lia. }
        destruct m as [|c' m'].
        * apply app_eq_nil in E7 as [X _]. apply map_eq_nil in X as ->. exists [c :: t]. split; [reflexivity|]. split; [right; discriminate|discriminate].
        * destruct (tstep_empty ts7 e [] (fun x I => H6 x (or_intror I)) He E7) as (-> & _ & _). exists [c :: t]. split; [reflexivity|]. split; [right; discriminate|discriminate]. }
  assert (forall i, tobjects (map TIgnored i) = [] /\ ttypes (map TIgnored i) = [] /\ ttags (map TIgnored i) = [] /\ ttaggers (map TIgnored i) = []) as Ig.
  { intros i. induction i as [|x i (I1 & I2 & I3 & I4)]; repeat split; assumption. }
  assert (gt_object g = o /\ gt_type g = v2 /\ gt_tag g = v3 /\ gt_tagger g = p) as (G1 & G2 & G3 & G4).
  { unfold g, normal_tag. cbn [gt_object gt_type gt_tag gt_tagger]. rewrite Ets. unfold tobjects, ttypes, ttags, ttaggers.
    cbn [flat_map app]. rewrite !flat_map_app. cbn [flat_map app]. rewrite !flat_map_app. cbn [flat_map app].
    fold (tobjects (map TIgnored tl2)) (tobjects (map TIgnored tl3)) (tobjects (map TIgnored ig)).
    fold (ttypes (map TIgnored tl2)) (ttypes (map TIgnored tl3)) (ttypes (map TIgnored ig)).
    fold (ttags (map TIgnored tl2)) (ttags (map TIgnored tl3)) (ttags (map TIgnored ig)).
    fold (ttaggers (map TIgnored tl2)) (ttaggers (map TIgnored tl3)) (ttaggers (map TIgnored ig)).
    destruct (Ig tl2) as (-> & -> & -> & ->), (Ig tl3) as (-> & -> & -> & ->), (Ig ig) as (-> & -> & -> & ->). auto. }
  assert (tline_ok (TTagger v4 p)) as Kp by (apply H5; now left).
  assert (s4 = []) as ->.
  { rewrite G4 in V4. apply (person_line_prefix (bs "tagger") v4 p s4); [cbn; intuition discriminate|exact Kp|exact V4]. }
  rewrite app_nil_r in V4. rewrite <- V4 in C4. rewrite <- G2 in C2. rewrite <- G3 in C3.
  assert (forall tl x xs, (forall y, In y (map TIgnored tl ++ xs) -> tline_ok y) -> tl = [[]] -> x = true) as Nt.
  { intros tl x xs Hx ->. destruct (Hx (TIgnored []) (or_introl eq_refl)) as [X _]. now contradiction X. }
  assert (line_ok B (bs "type " ++ gt_type g)) as K2.
  { destruct (cutl_same B HB _ _ (cutl_first_short B HB _ _ _ C2) C2) as [[K _]|(_ & _ & X)]; [exact K|]. discriminate (Nt tl2 false _ H2 X). }
  assert (line_ok B (bs "tag " ++ gt_tag g)) as K3.
  { destruct (cutl_same B HB _ _ (cutl_first_short B HB _ _ _ C3) C3) as [[K _]|(_ & _ & X)]; [exact K|]. discriminate (Nt tl3 false _ H4 X). }
  assert (is_sha o) as So by (destruct (Ht (TObject (hex_encode (gt_object g)) o) ltac:(rewrite Ets; now left)); assumption).
  assert (person_ok (gt_tagger g)) as Po.
  { rewrite G4 in *. cbn [tline_ok] in Kp. rewrite <- V4 in Kp. apply person_line_iff in Kp. apply (person_roundtrip (bs "tagger")); [cbn; intuition discriminate|exact Kp]. }
  exists g. split; [|split; [reflexivity|]].
  - split; [now rewrite G1|]. split; [exact Po|]. split; [exact K2|]. split; [exact K3|]. change (gt_message g) with m.
    destruct (cutl_same B HB _ _ (cutl_first_short B HB _ _ _ C4) C4) as [[K _]|(K & _ & X)].
    + destruct m; [now apply line_ok_S|exact K].
    + destruct Hm as [Hm|Hm]; [congruence|]. rewrite (Hm X). exact K.
  - rewrite tag_fields. unfold tag_value. change (gt_message g) with m.
    assert (last_of (tobjects ts) = Some o) as ->.
    { rewrite Ets. unfold tobjects. cbn [flat_map app]. rewrite !flat_map_app. cbn [flat_map app]. rewrite !flat_map_app. cbn [flat_map app].
      fold (tobjects (map TIgnored tl2)) (tobjects (map TIgnored tl3)) (tobjects (map TIgnored ig)).
      destruct (Ig tl2) as (-> & _), (Ig tl3) as (-> & _), (Ig ig) as (-> & _). reflexivity. }
    rewrite G1. reflexivity.
Qed.

Lemma tag_forth g : tag_survives B g -> tag_means B (tag_text_short g) (tag_value g) [].
Proof.
  intros (So & Po & K2 & K3 & K4).
  assert (~ ends_with CR (bs "object ")) as N1. { intros [r X]; apply (f_equal (@rev _)) in X; rewrite rev_unit in X; discriminate X. }
  assert (line_ok B (bs "object " ++ hex_encode (gt_object g))) as K1 by (apply hex_line; [exact HB|cbn; intuition discriminate|exact N1|cbn; lia|exact So]).
  set (ts := [TObject (hex_encode (gt_object g)) (gt_object g); TType (gt_type g); TTag (gt_tag g); TTagger (person_text (gt_tagger g)) (gt_tagger g)]).
  assert (forall x, In x ts -> tline_ok x) as Ht.
  { intros x [<-|[<-|[<-|[<-|[]]]]]; try exact Logic.I; [split; [apply hex_text_encode|exact So]|].
    apply (person_text_line (bs "tagger")); [cbn; intuition discriminate|exact Po]. }
  assert (forall m, tag_of ts m = {| t_object := git_link (gt_object g); t_type := gt_type g; t_tag := gt_tag g; t_tagger := gt_tagger g; t_message := m |}) as Ev by reflexivity.
  unfold tag_text_short, tag_value.
  destruct (gt_message g) as [|c m] eqn:Em.
  - rewrite app_nil_r. change (tag_lines g) with ([bs "object " ++ hex_encode (gt_object g); bs "type " ++ gt_type g; bs "tag " ++ gt_tag g] ++ [bs "tagger " ++ person_text (gt_tagger g)]).
    destruct K4 as (N4 & C4 & L4). rewrite unlines_app.
    assert (forall r, reads B (unlines [bs "object " ++ hex_encode (gt_object g); bs "type " ++ gt_type g; bs "tag " ++ gt_tag g] ++ r)
      [bs "object " ++ hex_encode (gt_object g); bs "type " ++ gt_type g; bs "tag " ++ gt_tag g] r) as R3.
    { intros r. apply reads_unlines. intros l [<-|[<-|[<-|[]]]]; assumption. }
    destruct (Nat.eqb_spec (length (bs "tagger " ++ person_text (gt_tagger g))) B) as [EB|NB].
    + exists ts, (Some []). split; [|split; [exact Ht|split; [symmetry; apply Ev|reflexivity]]].
      change (map tline_text ts ++ [[]]) with ([bs "object " ++ hex_encode (gt_object g); bs "type " ++ gt_type g; bs "tag " ++ gt_tag g] ++ [bs "tagger " ++ person_text (gt_tagger g); []]).
      apply reads_app. eexists. split; [apply R3|]. unfold unlines. cbn [map concat]. rewrite app_nil_r.
      eapply reads_two; [apply takes_cut; auto|]. apply (takes_nil_nl B HB []).
    + exists ts, None. split; [|split; [exact Ht|split; [symmetry; apply Ev|reflexivity]]]. rewrite app_nil_r.
      change (map tline_text ts) with ([bs "object " ++ hex_encode (gt_object g); bs "type " ++ gt_type g; bs "tag " ++ gt_tag g] ++ [bs "tagger " ++ person_text (gt_tagger g)]).
      apply reads_app. eexists. split; [apply R3|]. unfold unlines. cbn [map concat]. rewrite app_nil_r.
      apply reads_one. apply (takes_nl B _ []); auto. lia.
  - exists ts, (Some (c :: m)). split; [|split; [exact Ht|split; [symmetry; apply Ev|reflexivity]]].
    apply reads_app. eexists. split; [apply reads_unlines; intros l [<-|[<-|[<-|[<-|[]]]]]; assumption|].
    apply reads_one. apply takes_nil_nl, HB.
Qed.

Lemma encode_tag_short g : is_sha (gt_object g) -> person_ok (gt_tagger g) -> encode_bytes (NTag (tag_value g)) = Ok (git_object (bs "tag") (tag_text_short g)).
Proof.
  intros So Po. set (ts := [TObject (hex_encode (gt_object g)) (gt_object g); TType (gt_type g); TTag (gt_tag g); TTagger (person_text (gt_tagger g)) (gt_tagger g)]).
  pose proof (encode_tag_normal ts (gt_message g)) as E. replace (normal_tag ts (gt_message g)) with g in E by now destruct g. apply E.
  intros x [<-|[<-|[<-|[<-|[]]]]]; try exact Logic.I; [split; [apply hex_text_encode|exact So]|].
  apply (person_text_line (bs "tagger")); [cbn; intuition discriminate|exact Po].
Qed.
End B.
