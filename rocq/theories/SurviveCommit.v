(** A commit that comes back unchanged was cut in its own lines. *)
From Verif Require Import Base GoStr Cid Types Nodes Reader Person Assemble Decode Encode Spec HeaderSpec NormalSpec SurviveSpec
  StreamFacts PersonFacts DecodeFacts RoundTrip CommitFacts GrammarFacts NormalFacts PrefixFacts CanonFacts SurviveFacts.

Section B.
Context (B : nat) (HB : 64 <= B).
Notation cutl := (cutl B).

Lemma cutl_first_short q p tl : cutl q (p :: tl) -> length p <= B.
Proof.
  intros H. remember (p :: tl) as ls eqn:El. destruct H as [q' P|p' P|q' P N C|p' P|p' s t P1 P2 P3 P4]; apply cons_eq in El as [-> _]; try lia.
  destruct P as (_ & _ & P). lia.
Qed.
Lemma cutl_single q : cutl q [q] -> line_ok B q.
Proof.
  intros H. pose proof (cutl_first_short _ _ _ H) as L. destruct (cutl_same B HB q [] L H) as [[K _]|(_ & _ & K)]; [exact K|discriminate].
Qed.
Lemma line_ok_S l : line_ok B l -> line_ok (S B) l.
Proof. intros (N & C & L). split; [exact N|]. split; [exact C|lia]. Qed.

Section Walk.
Context (en : ending).
Notation rest ks := (header_lines ks ++ ending_lines en).
Notation oks ks := (forall k, In k ks -> block_ok k).

Lemma rest_cons k ks : rest (k :: ks) = block_lines k ++ rest ks.
Proof. unfold header_lines. cbn [map concat]. now rewrite app_assoc. Qed.
Lemma rest_app a b : rest (a ++ b) = header_lines a ++ rest b.
Proof. now rewrite header_lines_app, app_assoc. Qed.

(** ** The next block *)
Lemma step_block ks l R : rest ks = l :: R -> l <> [] -> ~ begins_with (bs "mergetag object ") l ->
  exists k ks', ks = k :: ks' /\ block_lines k ++ rest ks' = l :: R.
Proof.
  intros E N M. destruct ks as [|k ks].
  - exfalso. cbn [header_lines map concat app] in E. destruct en as [|m|h sha ms]; cbn [ending_lines] in E; [discriminate| |].
    + apply cons_eq in E as [E _]. congruence.
    + apply cons_eq in E as [E _]. apply M. exists h. now symmetry.
  - exists k, ks. split; [reflexivity|]. now rewrite <- rest_cons.
Qed.

Lemma step_empty ks R : oks ks -> rest ks = [] :: R -> ks = [] /\ R = [] /\ exists m, en = EndMessage m.
Proof.
  intros H E. destruct ks as [|k ks].
  - cbn [header_lines map concat app] in E. destruct en as [|m|h sha ms]; cbn [ending_lines] in E; try discriminate.
    apply cons_eq in E as [_ <-]. eauto.
  - exfalso. rewrite rest_cons in E. destruct (block_first k) as (l & ls & E1 & _ & N); [apply block_ok_wf, H; now left|].
    rewrite E1 in E. apply cons_eq in E as [E _]. congruence.
Qed.

Lemma step_other ks l R : oks ks -> rest ks = l :: R -> l <> [] -> ~ is_header l ->
  exists ks', ks = KOther l :: ks' /\ rest ks' = R.
Proof.
  intros H E N Nh. assert (forall w, In w header_words -> forall v, l <> w ++ v) as W.
  { intros w I v ->. apply Nh. exists w. split; [exact I|]. now exists v. }
  destruct (step_block ks l R E N) as (k & ks' & -> & E').
  { intros [r ->]. apply (W (bs "mergetag object ")) with r; [cbn; auto 10|reflexivity]. }
  exists ks'. destruct k; cbn [block_lines app] in E'; apply cons_eq in E' as [E1 E2]; try (exfalso; eapply W; [|symmetry; exact E1]; cbn; tauto).
  subst. auto.
Qed.

Lemma short_not_header t : length t <= 2 -> ~ is_header t.
Proof.
  intros L (w & I & r & ->). rewrite app_length in L. cbn in I. decompose [or] I; try contradiction; subst w; cbn in L; lia.
Qed.

Ltac step :=
  match goal with E : rest ?ks = (?w ++ ?v) :: ?R |- _ =>
    destruct (step_block ks (w ++ v) R E) as (k & ks' & -> & E'); [discriminate|intros [? X]; discriminate X|]
  end.
Ltac cases :=
  match goal with H : oks (?kk :: _), E' : block_lines ?kk ++ _ = _ :: _ |- _ =>
    let K := fresh in pose proof (H kk (or_introl eq_refl)) as K;
    destruct kk; cbn [block_lines app] in E'; apply cons_eq in E' as [E1 E']; try discriminate E1;
    try (exfalso; apply (proj2 K); subst; eexists; split; [|eexists; reflexivity]; cbn; tauto)
  end.

Lemma step_tree ks v R : oks ks -> rest ks = (bs "tree " ++ v) :: R -> exists sha ks', ks = KTree v sha :: ks' /\ rest ks' = R.
Proof. intros H E. step. cases. apply app_inv_head in E1 as ->. eauto. Qed.
Lemma step_parent ks v R : oks ks -> rest ks = (bs "parent " ++ v) :: R -> exists sha ks', ks = KParent v sha :: ks' /\ rest ks' = R.
Proof. intros H E. step. cases. apply app_inv_head in E1 as ->. eauto. Qed.
Lemma step_author ks v R : oks ks -> rest ks = (bs "author " ++ v) :: R -> exists p ks', ks = KAuthor v p :: ks' /\ rest ks' = R.
Proof. intros H E. step. cases. apply app_inv_head in E1 as ->. eauto. Qed.
Lemma step_committer ks v R : oks ks -> rest ks = (bs "committer " ++ v) :: R -> exists p ks', ks = KCommitter v p :: ks' /\ rest ks' = R.
Proof. intros H E. step. cases. apply app_inv_head in E1 as ->. eauto. Qed.
Lemma step_encoding ks v R : oks ks -> rest ks = (bs "encoding " ++ v) :: R -> exists ks', ks = KEncoding v :: ks' /\ rest ks' = R.
Proof. intros H E. step. cases. apply app_inv_head in E1 as ->. eauto. Qed.
Lemma step_signature ks v R : oks ks -> rest ks = (bs "gpgsig " ++ v) :: R ->
  exists first ss ks', ks = KSignature v first ss :: ks' /\ [first] ++ ss ++ [pgp_end] ++ rest ks' = R.
Proof.
  intros H E. step. cases. apply app_inv_head in E1 as ->. do 3 eexists. split; [reflexivity|]. rewrite <- E'. cbn [app]. now rewrite <- app_assoc.
Qed.
Lemma step_mergetag ks v R : oks ks -> rest ks = (bs "mergetag object " ++ v) :: R ->
  (exists sha ms msg ks', ks = KMergetag v sha ms msg :: ks' /\ map mline_text ms ++ [bs " "] ++ msg ++ rest ks' = R) \/
  (exists sha ms, ks = [] /\ en = EndMergetag v sha ms /\ map mline_text ms = R).
Proof.
  intros H E. destruct ks as [|k ks'].
  - right. cbn [header_lines map concat app] in E. destruct en as [|m|h sha ms]; cbn [ending_lines] in E; try discriminate.
    apply cons_eq in E as [E1 E]. apply app_inv_head in E1 as ->. eauto.
  - left. rewrite rest_cons in E. rename E into E'. cases. apply app_inv_head in E1 as ->. do 4 eexists. split; [reflexivity|].
    rewrite <- E'. cbn [app]. rewrite <- !app_assoc. reflexivity.
Qed.

(** ** What is left of a line that was cut *)
Lemma tail_walk ks tl R : oks ks -> (tl = [] \/ exists t, tl = [t] /\ length t <= 2) -> rest ks = tl ++ R -> R <> [] ->
  exists ks', ks = map KOther tl ++ ks' /\ rest ks' = R.
Proof.
  intros H [->|(t & -> & L)] E N; [exists ks; auto|]. cbn [app] in E. destruct t as [|c t].
  - destruct (step_empty _ _ H E) as (_ & X & _). congruence.
  - destruct (step_other _ _ _ H E) as (ks' & -> & E'); [discriminate|now apply short_not_header|]. exists ks'. auto.
Qed.

Lemma parents_walk P : forall ks Ls R, oks ks -> (forall q, In q (map (fun p => bs "parent " ++ hex_encode p) P) -> line_ok B q) ->
  Forall2 cutl (map (fun p => bs "parent " ++ hex_encode p) P) Ls -> rest ks = concat Ls ++ R ->
  exists ks1 ks2, ks = ks1 ++ ks2 /\ (forall k, In k ks1 -> kind k = 1) /\
    header_lines ks1 = map (fun p => bs "parent " ++ hex_encode p) P /\ rest ks2 = R.
Proof.
  induction P as [|p P IH]; intros ks Ls R H Hl F E; cbn [map] in *.
  - inversion F; subst. exists [], ks. split; [reflexivity|]. split; [intros k []|]. split; [reflexivity|exact E].
  - inversion F as [|? ls ? Ls' C F']; subst. apply (cutl_plain B HB) in C; [|apply Hl; now left]. subst ls.
    cbn [concat app] in E. destruct (step_parent _ _ _ H E) as (sha & ks' & -> & E').
    destruct (IH ks' Ls' R) as (k1 & k2 & -> & K & L & E2); auto; [intros; apply H; now right|intros; apply Hl; now right|].
    exists (KParent (hex_encode p) sha :: k1), k2. split; [reflexivity|]. split; [intros k [<-|I]; auto|]. split; [|exact E2].
    unfold header_lines in *. cbn [map concat block_lines app]. now rewrite L.
Qed.

(** ** Lines that are given back one by one *)
Lemma count_exact W : forall Ls Z Y, Forall2 cutl W Ls -> (forall w, In w W -> length w <= B /\ w <> []) ->
  (forall R, Z = [] :: R -> R = []) -> Y <> [] -> W ++ Z = concat Ls ++ Y -> (forall w, In w W -> line_ok B w) /\ Z = Y.
Proof.
  induction W as [|w W IH]; intros Ls Z Y F H HZ NY E.
  - inversion F; subst. split; [intros w []|exact E].
  - inversion F as [|? ls ? Ls' C F']; subst. destruct (H w (or_introl eq_refl)) as [L N].
    destruct (cutl_short B HB _ _ L C) as (p & s & Ew & [->|[-> Lw]]); cbn [concat app] in E; apply cons_eq in E as [E1 E]; subst p.
    + destruct (IH Ls' Z Y F') as [A ->]; auto; [intros; apply H; now right|]. split; [|reflexivity].
      intros x [<-|I]; auto. now apply cutl_single.
    + exfalso. destruct W as [|w2 W].
      * inversion F'; subst. cbn [concat app] in E. apply HZ in E. congruence.
      * apply cons_eq in E as [E _]. destruct (H w2); [right; now left|]. congruence.
Qed.

(** ** Merge tags *)
Definition kept (m : mline) : bool := match m with MIgnored _ => false | _ => true end.
Definition strip (k : block) : block :=
  match k with KMergetag h sha ms msg => KMergetag h sha (filter kept ms) msg | k => k end.

Definition mheader (m : gmergetag) : list bytes :=
  [bs " type " ++ gm_type m; bs " tag " ++ gm_tag m; bs " tagger " ++ person_text (gm_tagger m)].

Lemma mstep ms l X R : (forall m, In m ms -> mline_ok m) -> map mline_text ms ++ [bs " "] ++ X = l :: R -> l <> bs " " ->
  exists m ms', ms = m :: ms' /\ mline_text m = l /\ map mline_text ms' ++ [bs " "] ++ X = R.
Proof.
  intros H E N. destruct ms as [|m ms]; cbn [map app] in E; apply cons_eq in E as [E1 E]; [congruence|]. eauto.
Qed.
Lemma mend ms X R : (forall m, In m ms -> mline_ok m) -> map mline_text ms ++ [bs " "] ++ X = bs " " :: R -> ms = [] /\ X = R.
Proof.
  intros H E. destruct ms as [|m ms]; cbn [map app] in E; apply cons_eq in E as [E1 E]; [auto|]. exfalso.
  apply (mline_not_blank m); [apply H; now left|exact E1].
Qed.
Lemma mshort ms t X R : (forall m, In m ms -> mline_ok m) -> length t <= 2 -> map mline_text ms ++ [bs " "] ++ X = t :: R ->
  t <> bs " " -> exists ms', ms = MIgnored t :: ms' /\ map mline_text ms' ++ [bs " "] ++ X = R.
Proof.
  intros H L E N. destruct (mstep _ _ _ _ H E N) as (m & ms' & -> & Em & E'). exists ms'. split; [|exact E'].
  destruct m; cbn [mline_text] in Em; [| | |now rewrite Em]; exfalso; rewrite <- Em, app_length in L; cbn in L; lia.
Qed.
Lemma mempty ms tl X R : (forall m, In m ms -> mline_ok m) -> tl = [] \/ tl = [[]] -> map mline_text ms ++ [bs " "] ++ X = tl ++ R ->
  exists ms', ms = map MIgnored tl ++ ms' /\ map mline_text ms' ++ [bs " "] ++ X = R.
Proof.
  intros H [-> | ->] E; [exists ms; auto|]. cbn [app] in E.
  destruct (mshort ms [] X R H ltac:(cbn; lia) E) as (ms' & -> & E'); [discriminate|]. exists ms'. auto.
Qed.

Lemma mheader_walk ms X l1 l2 l3 Y sha msg :
  (forall m, In m ms -> mline_ok m) -> (forall m, In m ms -> length (mline_text m) <= B) ->
  let g := normal_mergetag sha ms msg in
  cutl (bs " type " ++ gm_type g) l1 -> cutl (bs " tag " ++ gm_tag g) l2 -> cutl (bs " tagger " ++ person_text (gm_tagger g)) l3 ->
  map mline_text ms ++ [bs " "] ++ X = l1 ++ l2 ++ l3 ++ [bs " "] ++ Y ->
  map mline_text (filter kept ms) = mheader g /\ X = Y /\ forall l, In l (mheader g) -> line_ok (S B) l.
Proof.
  intros H Hl g C1 C2 C3 E.
  assert (length (bs " type " ++ gm_type g) <= B) as L1.
  { unfold g, normal_mergetag. cbn [gm_type]. destruct (last_of (mtypes ms)) as [x|] eqn:El; [|cbn; lia]. cbn [or_else].
    apply last_of_some in El as [q Q]. assert (In x (mtypes ms)) as I by (rewrite Q, in_app_iff; right; now left).
    apply in_flat_map in I as (y & I & J). destruct y; cbn in J; try contradiction. destruct J as [->|[]]. apply (Hl _ I). }
  assert (length (bs " tag " ++ gm_tag g) <= B) as L2.
  { unfold g, normal_mergetag. cbn [gm_tag]. destruct (last_of (mtags ms)) as [x|] eqn:El; [|cbn; lia]. cbn [or_else].
    apply last_of_some in El as [q Q]. assert (In x (mtags ms)) as I by (rewrite Q, in_app_iff; right; now left).
    apply in_flat_map in I as (y & I & J). destruct y; cbn in J; try contradiction. destruct J as [->|[]]. apply (Hl _ I). }
  assert (forall q ls, length q <= B -> cutl q ls -> exists p tl, ls = p :: tl /\ (tl = [] \/ tl = [[]])) as Sh.
  { intros q ls Lq C. destruct (cutl_short B HB _ _ Lq C) as (p & s & _ & [->|[-> _]]); eauto. }
  destruct (cutl_word B HB (bs " type ") (gm_type g) l1) as (v1 & s1 & tl1 & -> & V1 & _); [cbn; lia|cbn; intuition discriminate|exact C1|].
  destruct (cutl_word B HB (bs " tag ") (gm_tag g) l2) as (v2 & s2 & tl2 & -> & V2 & _); [cbn; lia|cbn; intuition discriminate|exact C2|].
  destruct (cutl_word B HB (bs " tagger ") (person_text (gm_tagger g)) l3) as (v3 & s3 & tl3 & -> & V3 & T3); [cbn; lia|cbn; intuition discriminate|exact C3|].
  assert (tl1 = [] \/ tl1 = [[]]) as T1 by (destruct (Sh _ _ L1 C1) as (p & tl & Q & T); apply cons_eq in Q as [_ ->]; exact T).
  assert (tl2 = [] \/ tl2 = [[]]) as T2 by (destruct (Sh _ _ L2 C2) as (p & tl & Q & T); apply cons_eq in Q as [_ ->]; exact T).
  assert (forall ms0 ms1, ms = ms0 ++ ms1 -> forall m, In m ms1 -> mline_ok m) as Hs.
  { intros ms0 ms1 -> m I. apply H, in_app_iff. now right. }
  assert (exists ig1 ig2 ig3 p, ms = MType v1 :: map MIgnored ig1 ++ MTag v2 :: map MIgnored ig2 ++ MTagger v3 p :: map MIgnored ig3 /\
    (tl3 = [] \/ tl3 = [[]] -> X = Y)) as (ig1 & ig2 & ig3 & p & Ems & EX).
  { cbn [app] in E.
    destruct (mstep ms _ X _ H E) as (m1 & ms1 & Em & Q1 & E1); [discriminate|].
    assert (m1 = MType v1) as ->.
    { assert (mline_ok m1) as K by (apply H; rewrite Em; now left). destruct m1; cbn [mline_text] in Q1; try discriminate Q1.
      - apply app_inv_head in Q1. now subst.
      - exfalso. destruct K as (_ & K & _). apply K. eexists. exact Q1. }
    assert (ms = [MType v1] ++ ms1) as Em1 by exact Em.
    destruct (mempty ms1 tl1 X _ (Hs _ _ Em1) T1 E1) as (ms2 & -> & E2).
    assert (ms = ([MType v1] ++ map MIgnored tl1) ++ ms2) as Em2 by (rewrite Em1, <- app_assoc; reflexivity).
    destruct (mstep ms2 _ X _ (Hs _ _ Em2) E2) as (m3 & ms3 & -> & Q3 & E3); [discriminate|].
    assert (m3 = MTag v2) as ->.
    { assert (mline_ok m3) as K by (apply (Hs _ _ Em2); now left). destruct m3; cbn [mline_text] in Q3; try discriminate Q3.
      - apply app_inv_head in Q3. now subst.
      - exfalso. destruct K as (_ & _ & K & _). apply K. eexists. exact Q3. }
    assert (ms = ([MType v1] ++ map MIgnored tl1 ++ [MTag v2]) ++ ms3) as Em3 by (rewrite Em2, <- !app_assoc; reflexivity).
    destruct (mempty ms3 tl2 X _ (Hs _ _ Em3) T2 E3) as (ms4 & -> & E4).
    assert (ms = ([MType v1] ++ map MIgnored tl1 ++ [MTag v2] ++ map MIgnored tl2) ++ ms4) as Em4 by (rewrite Em3, <- !app_assoc; reflexivity).
    destruct (mstep ms4 _ X _ (Hs _ _ Em4) E4) as (m5 & ms5 & -> & Q5 & E5); [discriminate|].
    assert (exists p, m5 = MTagger v3 p) as (p & ->).
    { assert (mline_ok m5) as K by (apply (Hs _ _ Em4); now left). destruct m5 as [x|x|x p|x]; cbn [mline_text] in Q5; try discriminate Q5.
      - apply app_inv_head in Q5. subst. eauto.
      - exfalso. destruct K as (_ & _ & _ & K). apply K. eexists. exact Q5. }
    assert (ms = ([MType v1] ++ map MIgnored tl1 ++ [MTag v2] ++ map MIgnored tl2 ++ [MTagger v3 p]) ++ ms5) as Em5 by (rewrite Em4, <- !app_assoc; reflexivity).
    assert (exists ig3, ms5 = map MIgnored ig3 /\ (tl3 = [] \/ tl3 = [[]] -> X = Y)) as (ig3 & -> & EX).
    { destruct T3 as [->|(t & -> & Lt)]; cbn [app] in E5.
      - destruct (mend ms5 X Y (Hs _ _ Em5) E5) as [-> ->]. exists []. auto.
      - destruct (list_eq_dec Byte.byte_eq_dec t (bs " ")) as [->|Nt].
        + destruct (mend ms5 X _ (Hs _ _ Em5) E5) as [-> ->]. exists []. split; [reflexivity|]. intros [Q|Q]; discriminate Q.
        + destruct (mshort ms5 t X _ (Hs _ _ Em5) Lt E5 Nt) as (ms6 & -> & E6).
          destruct (mend ms6 X Y) as [-> ->]; [|exact E6|exists [t]; auto].
          intros m I. apply (Hs _ _ Em5). now right. }
    exists tl1, tl2, ig3, p. split; [|exact EX]. rewrite Em5, <- !app_assoc. reflexivity. }
  assert (forall ig, mtypes (map MIgnored ig) = [] /\ mtags (map MIgnored ig) = [] /\ mtaggers (map MIgnored ig) = [] /\ filter kept (map MIgnored ig) = []) as Ig.
  { intros ig. induction ig as [|x ig (I1 & I2 & I3 & I4)]; repeat split; assumption. }
  assert (gm_type g = v1) as G1.
  { unfold g, normal_mergetag. cbn [gm_type]. rewrite Ems. unfold mtypes. cbn [flat_map app]. rewrite flat_map_app. cbn [flat_map app].
    rewrite flat_map_app. cbn [flat_map app]. fold (mtypes (map MIgnored ig1)) (mtypes (map MIgnored ig2)) (mtypes (map MIgnored ig3)).
    destruct (Ig ig1) as (-> & _), (Ig ig2) as (-> & _), (Ig ig3) as (-> & _). reflexivity. }
  assert (gm_tag g = v2) as G2.
  { unfold g, normal_mergetag. cbn [gm_tag]. rewrite Ems. unfold mtags. cbn [flat_map app]. rewrite flat_map_app. cbn [flat_map app].
    rewrite flat_map_app. cbn [flat_map app]. fold (mtags (map MIgnored ig1)) (mtags (map MIgnored ig2)) (mtags (map MIgnored ig3)).
    destruct (Ig ig1) as (_ & -> & _), (Ig ig2) as (_ & -> & _), (Ig ig3) as (_ & -> & _). reflexivity. }
  assert (gm_tagger g = p) as G3.
  { unfold g, normal_mergetag. cbn [gm_tagger]. rewrite Ems. unfold mtaggers. cbn [flat_map app]. rewrite flat_map_app. cbn [flat_map app].
    rewrite flat_map_app. cbn [flat_map app]. fold (mtaggers (map MIgnored ig1)) (mtaggers (map MIgnored ig2)) (mtaggers (map MIgnored ig3)).
    destruct (Ig ig1) as (_ & _ & -> & _), (Ig ig2) as (_ & _ & -> & _), (Ig ig3) as (_ & _ & -> & _). reflexivity. }
  assert (mline_ok (MTagger v3 p)) as Kp.
  { apply H. rewrite Ems. right. apply in_app_iff. right. right. apply in_app_iff. right. now left. }
  assert (s3 = []) as ->.
  { rewrite G3 in V3. apply (person_line_prefix (bs "tagger") v3 p s3); [cbn; intuition discriminate|exact Kp|exact V3]. }
  rewrite app_nil_r in V3. rewrite <- V3 in C3. pose proof (cutl_first_short _ _ _ C3) as L3.
  destruct (cutl_same B HB _ _ L3 C3) as [[K3 T3']|(K3 & _ & T3')].
  - split; [|split].
    + rewrite Ems. cbn [filter kept map mline_text]. rewrite filter_app. cbn [filter kept]. rewrite filter_app. cbn [filter kept].
      destruct (Ig ig1) as (_ & _ & _ & ->), (Ig ig2) as (_ & _ & _ & ->), (Ig ig3) as (_ & _ & _ & ->). cbn [app map mline_text].
      unfold mheader. now rewrite G1, G2, V3.
    + apply EX. auto.
    + rewrite <- G1 in C1. rewrite <- G2 in C2. intros l [<-|[<-|[<-|[]]]].
      * destruct (cutl_same B HB _ _ L1 C1) as [[K _]|[K _]]; [now apply line_ok_S|exact K].
      * destruct (cutl_same B HB _ _ L2 C2) as [[K _]|[K _]]; [now apply line_ok_S|exact K].
      * now apply line_ok_S.
  - split; [|split].
    + rewrite Ems. cbn [filter kept map mline_text]. rewrite filter_app. cbn [filter kept]. rewrite filter_app. cbn [filter kept].
      destruct (Ig ig1) as (_ & _ & _ & ->), (Ig ig2) as (_ & _ & _ & ->), (Ig ig3) as (_ & _ & _ & ->). cbn [app map mline_text].
      unfold mheader. now rewrite G1, G2, V3.
    + apply EX. auto.
    + rewrite <- G1 in C1. rewrite <- G2 in C2. intros l [<-|[<-|[<-|[]]]].
      * destruct (cutl_same B HB _ _ L1 C1) as [[K _]|[K _]]; [now apply line_ok_S|exact K].
      * destruct (cutl_same B HB _ _ L2 C2) as [[K _]|[K _]]; [now apply line_ok_S|exact K].
      * exact K3.
Qed.

Lemma flat_map_nil {A C} (f : A -> list C) l : (forall x, In x l -> f x = []) -> flat_map f l = [].
Proof. induction l as [|x l IH]; intros H; [reflexivity|]. cbn [flat_map]. rewrite H by now left. apply IH. intros; apply H; now right. Qed.

Lemma sp_line : line_ok B (bs " ").
Proof. split; [cbn; intuition discriminate|]. split; [|cbn; lia]. intros [[|c [|c2 r]] E]; discriminate E. Qed.

Lemma hex_not_cr s w : ~ ends_with CR w -> ~ ends_with CR (w ++ hex_encode s).
Proof.
  intros N [r R]. pose proof (f_equal (@rev _) R) as R'. rewrite rev_unit, rev_app_distr in R'.
  destruct (rev (hex_encode s)) as [|c cs] eqn:Er; cbn [app] in R'.
  - apply N. exists (rev (tl (rev w))). destruct (rev w) as [|c cs] eqn:Ew; [discriminate R'|]. injection R' as -> _.
    rewrite <- (rev_involutive w), Ew. reflexivity.
  - injection R' as -> _. assert (In CR (hex_encode s)) as I by (apply in_rev; rewrite Er; now left).
    clear - I. induction s as [|a s IH]; [destruct I|]. cbn [hex_encode] in I. destruct I as [I|[I|I]]; [| |auto]; destruct a; vm_compute in I; discriminate.
Qed.
Lemma hex_line w s : ~ In NL w -> ~ ends_with CR w -> length w <= 20 -> is_sha s -> line_ok B (w ++ hex_encode s).
Proof.
  intros N C L H. split; [|split].
  - intros I. apply in_app_iff in I as [I|I]; [auto|]. now apply hex_no_nl in I.
  - now apply hex_not_cr.
  - rewrite app_length, hex_encode_length. unfold is_sha in H. rewrite H. lia.
Qed.

Lemma merges_walk G : forall ks Ls R, oks ks -> ending_ok en -> (forall l, In l (rest ks) -> length l <= B) ->
  mergetags ks en = G -> Forall2 cutl (concat (map mergetag_lines G)) Ls -> rest ks = concat Ls ++ R -> R <> [] ->
  exists ks1 ks2, ks = ks1 ++ ks2 /\ (forall k, In k ks1 -> kind k = 5) /\
    header_lines (map strip ks1) = concat (map mergetag_lines G) /\ mergetags ks2 en = [] /\ rest ks2 = R /\
    (forall m, In m G -> forall l, In l (mergetag_tight_lines m) -> line_ok B l) /\
    (forall m, In m G -> forall l, In l (mergetag_lines m) -> line_ok (S B) l).
Proof.
  induction G as [|m G IH]; intros ks Ls R H He Hl EG F E NR.
  { cbn [map concat] in F. inversion F; subst. exists [], ks. split; [reflexivity|]. split; [intros k []|]. split; [reflexivity|].
    split; [exact EG|]. split; [exact E|]. split; intros m []. }
  cbn [map concat] in F. apply Forall2_app_inv_l in F as (Lm & L2 & Fm & F2 & ->). unfold mergetag_lines in Fm. cbn [app] in Fm.
  inversion Fm as [|? l0 ? Lm1 C0 Fm1]; subst. inversion Fm1 as [|? l1 ? Lm2 C1 Fm2]; subst. inversion Fm2 as [|? l2 ? Lm3 C2 Fm3]; subst.
  inversion Fm3 as [|? l3 ? Lm4 C3 Fm4]; subst. inversion Fm4 as [|? l4 ? Lm5 C4 Fm5]; subst. clear Fm Fm1 Fm2 Fm3 Fm4.
  apply (cutl_plain B HB) in C4; [|exact sp_line]. subst l4.
  assert (forall h sha ms msg, In m [normal_mergetag sha ms msg] -> hex_text h sha -> is_sha sha -> l0 = [bs "mergetag object " ++ hex_encode sha]
          /\ line_ok B (bs "mergetag object " ++ hex_encode sha)) as P0.
  { intros h sha ms msg [<-|[]] _ Hs. cbn [normal_mergetag gm_object] in C0.
    assert (line_ok B (bs "mergetag object " ++ hex_encode sha)) as K.
    { apply hex_line; [cbn; intuition discriminate| |cbn; lia|exact Hs]. intros [r Q]. apply (f_equal (@rev _)) in Q. rewrite rev_unit in Q. discriminate Q. }
    split; [|exact K]. now apply (cutl_plain B HB) in C0. }
  destruct (cutl_word B HB (bs "mergetag object ") _ l0 ltac:(cbn; lia) ltac:(cbn; intuition discriminate) C0) as (v0 & s0 & tl0 & El0 & _ & _).
  rewrite El0 in E. cbn [concat app] in E. rewrite <- !app_assoc in E.
  destruct (step_mergetag ks v0 _ H E) as [(sha & ms & msg & ks' & -> & E')|(sha & ms & -> & Een & E')].
  - unfold mergetags in EG. cbn [flat_map app] in EG. apply cons_eq in EG as [Em EG]. fold (mergetags ks' en) in EG.
    destruct (H _ (or_introl eq_refl)) as (Hh & Hs & Hms & Hsp).
    destruct (P0 v0 sha ms msg) as [Q0 K0]; [left; exact Em|exact Hh|exact Hs|]. rewrite El0 in Q0. apply cons_eq in Q0 as [Q0 ->].
    apply app_inv_head in Q0. subst v0. cbn [app] in E'. subst m.
    destruct (mheader_walk ms (msg ++ rest ks') l1 l2 l3 (concat Lm5 ++ concat L2 ++ R) sha msg) as (Eh & EX & Kh); auto.
    { intros y I. apply Hl. rewrite rest_cons, in_app_iff. left. cbn [block_lines]. rewrite !in_app_iff. right; left. now apply in_map. }
    { cbn [app]. rewrite E'. rewrite <- ?app_assoc. cbn [app]. rewrite concat_app, <- ?app_assoc. reflexivity. }
    destruct (count_exact msg Lm5 (rest ks') (concat L2 ++ R)) as [Kl EZ]; auto.
    { intros w I. split; [|destruct (Hsp w I) as [r ->]; discriminate].
      apply Hl. rewrite rest_cons, in_app_iff. left. cbn [block_lines]. rewrite !in_app_iff. auto. }
    { intros Q X. now destruct (step_empty ks' Q (fun k I => H k (or_intror I)) X) as (_ & -> & _). }
    { destruct R; [congruence|]. intros X. apply app_eq_nil in X as [_ X]. discriminate X. }
    destruct (IH ks' L2 R) as (k1 & k2 & -> & Kk & Lk & Gk & Rk & T1 & T2); auto; [intros; apply H; now right| |].
    { intros l I. apply Hl. rewrite rest_cons, in_app_iff. now right. }
    exists (KMergetag (hex_encode sha) sha ms msg :: k1), k2. split; [reflexivity|]. split; [intros k [<-|I]; auto|]. split; [|split; [|split; [|split]]]; auto.
    + unfold header_lines in *. cbn [map concat strip block_lines]. rewrite Lk. f_equal. unfold mergetag_lines. cbn [normal_mergetag gm_object gm_type gm_tag gm_tagger gm_message] in *.
      rewrite Eh. unfold mheader. reflexivity.
    + intros m [<-|I]; [|now apply T1]. unfold mergetag_tight_lines. intros l J. apply in_app_iff in J as [[<-|[<-|[]]]|J]; [exact K0|exact sp_line|now apply Kl].
    + intros m [<-|I]; [|now apply T2]. unfold mergetag_lines. intros l J. apply in_app_iff in J as [J|J]; [|apply line_ok_S; now apply Kl].
      destruct J as [<-|[<-|[<-|[<-|[<-|[]]]]]]; [now apply line_ok_S|apply Kh; cbn; auto|apply Kh; cbn; auto|apply Kh; cbn; auto|apply line_ok_S, sp_line].
  - exfalso. rewrite Een in He. destruct He as (_ & _ & Hms).
    assert (In (bs " ") (map mline_text ms)) as I.
    { rewrite E'. rewrite !in_app_iff. cbn [In]. tauto. }
    apply in_map_iff in I as (y & Q & I). now apply (mline_not_blank y (Hms _ I)).
Qed.

(** ** Signatures *)
Lemma cut_empty_lag V : forall Ls A C, Forall2 cutl (V ++ [pgp_end]) Ls -> V ++ [pgp_end] ++ A = [] :: concat Ls ++ C -> False.
Proof.
  induction V as [|v V IH]; intros Ls A C F E; cbn [app] in E; apply cons_eq in E as [E1 E]; [discriminate E1|]. subst v.
  cbn [app] in F. inversion F as [|? ls ? Ls' Cu F']; subst. apply (cutl_plain B HB) in Cu; [|split; [intros []|split; [intros [[|? ?] X]; discriminate X|cbn; lia]]].
  subst ls. cbn [concat app] in E. apply (IH Ls' A C F'). exact E.
Qed.

Lemma pgp_end_line : line_ok B pgp_end.
Proof. split; [vm_compute; intuition discriminate|]. split; [|cbn; lia]. intros [r Q]. apply (f_equal (@rev _)) in Q. rewrite rev_unit in Q. discriminate Q. Qed.
Lemma pgp_begin_line : line_ok B pgp_begin.
Proof. split; [vm_compute; intuition discriminate|]. split; [|cbn; lia]. intros [r Q]. apply (f_equal (@rev _)) in Q. rewrite rev_unit in Q. discriminate Q. Qed.

Lemma sig_exact W : forall Ls A C, Forall2 cutl (W ++ [pgp_end]) Ls -> (forall w, In w W -> length w <= B) ->
  W ++ [pgp_end] ++ A = concat Ls ++ C -> (forall w, In w W -> line_ok B w) /\ A = C.
Proof.
  induction W as [|w W IH]; intros Ls A C F H E; cbn [app] in *.
  - inversion F as [|? ls ? Ls' Cu F']; subst. inversion F'; subst. apply (cutl_plain B HB) in Cu; [|exact pgp_end_line]. subst ls.
    cbn [concat app] in E. apply cons_eq in E as [_ ->]. split; [intros w []|reflexivity].
  - inversion F as [|? ls ? Ls' Cu F']; subst.
    destruct (cutl_short B HB _ _ (H w (or_introl eq_refl)) Cu) as (p & s & Ew & [->|[-> Lw]]); cbn [concat app] in E; apply cons_eq in E as [E1 E]; subst p.
    + destruct (IH Ls' A C F') as [K ->]; [intros x I; apply H; now right|exact E|]. split; [|reflexivity]. intros x [<-|I]; [now apply cutl_single|auto].
    + exfalso. eapply cut_empty_lag; [exact F'|exact E].
Qed.

(** The pieces of some lines cannot hold all the lines after something else. *)
Lemma cut_lag V : forall U Ls R, Forall2 cutl V Ls -> (forall v, In v V -> length v <= B) -> U <> [] -> U ++ V ++ R = concat Ls -> False.
Proof.
  induction V as [|v V IH]; intros U Ls R F H N E.
  - inversion F; subst. cbn [concat] in E. apply app_eq_nil in E as [E _]. congruence.
  - inversion F as [|? ls ? Ls' Cu F']; subst. destruct U as [|u U]; [congruence|].
    destruct (cutl_short B HB _ _ (H v (or_introl eq_refl)) Cu) as (p & s & Ew & [->|[-> Lw]]); cbn [concat app] in E; apply cons_eq in E as [E1 E].
    + apply (IH (U ++ [v]) Ls' R F'); [intros; apply H; now right|destruct U; discriminate|]. rewrite <- app_assoc. exact E.
    + destruct U as [|u2 U]; cbn [app] in E; apply cons_eq in E as [E2 E].
      * rewrite E2 in Lw. cbn in Lw. lia.
      * apply (IH (U ++ [v]) Ls' R F'); [intros; apply H; now right|destruct U; discriminate|]. rewrite <- app_assoc. exact E.
Qed.

(** ** Other lines *)
Definition other_line (l : bytes) : Prop := l <> [] /\ ~ is_header l.
Lemma header_prefix p s : is_header p -> is_header (p ++ s).
Proof. intros (w & I & r & ->). exists w. split; [exact I|]. exists (r ++ s). now rewrite app_assoc. Qed.

Lemma others_pieces O : forall Os, Forall2 cutl O Os -> (forall o, In o O -> other_line o) -> forall x, In x (concat Os) -> ~ is_header x.
Proof.
  induction O as [|o O IH]; intros Os F H x I; inversion F as [|? ls ? Os' C F']; subst; [destruct I|]. cbn [concat] in I.
  apply in_app_iff in I as [I|I]; [|apply (IH Os'); auto; intros; apply H; now right].
  destruct (cutl_head B HB _ _ C) as (p & tl & s & -> & -> & Ht & _). destruct I as [<-|I].
  - intros X. destruct (H _ (or_introl eq_refl)) as [_ N]. apply N. now apply header_prefix.
  - destruct Ht as [->|(t & -> & L)]; [destruct I|]. destruct I as [<-|[]]. now apply short_not_header.
Qed.

Lemma others_walk O : forall ks Os, oks ks -> Forall2 cutl O Os -> (forall o, In o O -> other_line o /\ length o <= B) ->
  rest ks = concat Os ++ [[]] ->
  exists ps, ks = map KOther ps /\ length ps = length O /\ Os = map (fun p => [p]) ps /\ exists m, en = EndMessage m.
Proof.
  induction O as [|o O IH]; intros ks Os H F HO E.
  - inversion F; subst. destruct (step_empty ks [] H E) as (-> & _ & M). exists []. auto.
  - inversion F as [|? ls ? Os' C F']; subst. destruct (HO o (or_introl eq_refl)) as [[No Nh] Lo].
    assert (forall X, X ++ [[]] <> @nil bytes) as NN by (intros [|? ?]; discriminate).
    destruct (cutl_short B HB _ _ Lo C) as (p & s & -> & Hls).
    assert (exists R, rest ks = p :: R /\ R <> []) as (R & ER & NR).
    { destruct Hls as [->|[-> _]]; cbn [concat app] in E; eexists; (split; [exact E|]); [apply NN|discriminate]. }
    assert (p <> []) as Np. { intros ->. destruct (step_empty ks R H ER) as (_ & X & _). congruence. }
    destruct (step_other ks p R H ER Np) as (ks' & -> & E'). { intros X. apply Nh. now apply header_prefix. }
    rewrite rest_cons in E. cbn [block_lines] in E.
    destruct Hls as [->|[-> _]]; cbn [concat app] in E; apply cons_eq in E as [_ E].
    + destruct (IH ks' Os' (fun k I => H k (or_intror I)) F') as (ps & -> & Lp & -> & M); auto; [intros; apply HO; now right|].
      exists (p :: ps). cbn [map length]. auto.
    + exfalso. destruct (step_empty ks' _ (fun k I => H k (or_intror I)) E) as (_ & X & _). now apply NN in X.
Qed.


Lemma others_map l : others (map KOther l) = l.
Proof. unfold others. induction l as [|x l IH]; [reflexivity|]. cbn [map flat_map app]. now rewrite IH. Qed.
Lemma others_lines l : header_lines (map KOther l) = l.
Proof. unfold header_lines. induction l as [|x l IH]; [reflexivity|]. cbn [map concat block_lines app]. now rewrite IH. Qed.
Lemma strip_lines ks : (forall k, In k ks -> kind k <> 5) -> map strip ks = ks.
Proof.
  induction ks as [|k ks IH]; intros H; [reflexivity|]. cbn [map]. rewrite IH by (intros; apply H; now right). f_equal.
  specialize (H k (or_introl eq_refl)). destruct k; try reflexivity. now contradiction H.
Qed.
Lemma mergetags_app p ks : (forall k, In k p -> kind k <> 5) -> mergetags (p ++ ks) en = mergetags ks en.
Proof.
  intros H. unfold mergetags. rewrite flat_map_app, flat_map_nil; [reflexivity|]. intros k I. apply H in I. destruct k; try reflexivity. now contradiction I.
Qed.

(** ** All the lines of a commit *)
Lemma commit_walk ks a cm Ls : oks ks -> ending_ok en -> (forall l, In l (rest ks) -> length l <= B) ->
  last_of (authors ks) = Some a -> last_of (committers ks) = Some cm ->
  Forall2 cutl (commit_lines (normal ks en a cm)) Ls -> rest ks = concat Ls ++ [[]] ->
  (exists m, en = EndMessage m) /\ header_lines (map strip ks) = commit_lines (normal ks en a cm) /\
  (forall l, In l (tight_lines (normal ks en a cm)) -> line_ok B l) /\
  forall l, In l (commit_lines (normal ks en a cm)) -> line_ok (S B) l.
Proof.
  intros H He Hl Ha Hc. set (g := normal ks en a cm).
  assert (is_sha (gc_tree g) \/ gc_tree g = []) as Gt.
  { unfold g, normal. cbn [gc_tree]. destruct (last_of (trees ks)) as [s|] eqn:Et; [|now right]. left. cbn [or_else]. eapply last_tree_sha; eauto. }
  assert (forall p, In p (gc_parents g) -> is_sha p) as Gp by (intros p I; eapply parents_sha; eauto).
  assert (gc_author g = a /\ gc_committer g = cm) as Gac by (split; reflexivity).
  assert (gc_encoding g = last_of (encodings ks)) as Ge by reflexivity.
  assert (mergetags ks en = gc_mergetags g) as Gm by reflexivity.
  assert (gc_signature g = last_of (signatures ks)) as Gs by reflexivity.
  assert (gc_other g = others ks) as Go by reflexivity. clearbody g.
  intros F E. unfold commit_lines in F.
  apply Forall2_app_inv_l in F as (Lt & L1 & Ft & F & ->). apply Forall2_app_inv_l in F as (Lp & L2 & Fp & F & ->).
  apply Forall2_app_inv_l in F as (Lac & L3 & Fac & F & ->). apply Forall2_app_inv_l in F as (Le & L4 & Fe & F & ->).
  apply Forall2_app_inv_l in F as (Lm & L5 & Fm & F & ->). apply Forall2_app_inv_l in F as (Lsg & Lo & Fs & Fo & ->).
  inversion Ft as [|? lt ? Lt' Ct Ft']; subst. inversion Ft'; subst. clear Ft Ft'.
  inversion Fac as [|? la ? Lac' Ca Fac']; subst. inversion Fac' as [|? lc ? Lac'' Cc Fac'']; subst. inversion Fac''; subst. clear Fac Fac' Fac''.
  assert (~ ends_with CR (bs "tree ") /\ ~ ends_with CR (bs "parent ")) as [N1 N2].
  { split; intros [r Q]; apply (f_equal (@rev _)) in Q; rewrite rev_unit in Q; discriminate Q. }
  assert (line_ok B (bs "tree " ++ hex_encode (gc_tree g))) as Kt.
  { destruct Gt as [Gt|Gt]; [apply hex_line; [cbn; intuition discriminate|exact N1|cbn; lia|exact Gt]|].
    rewrite Gt. split; [cbn; intuition discriminate|]. split; [exact N1|cbn; lia]. }
  assert (forall q, In q (map (fun p => bs "parent " ++ hex_encode p) (gc_parents g)) -> line_ok B q) as Kp.
  { intros q I. apply in_map_iff in I as (p & <- & I). apply hex_line; [cbn; intuition discriminate|exact N2|cbn; lia|auto]. }
  apply (cutl_plain B HB) in Ct; [|exact Kt]. subst lt.
  rewrite !concat_app in E. cbn [concat] in E. rewrite !app_nil_r in E. rewrite <- !app_assoc in E. cbn [app] in E.
  assert (forall (x y z : list bytes), x ++ y ++ [[]] <> [] /\ y ++ [[]] <> [] /\ x ++ y ++ z ++ [[]] <> []) as NN.
  { intros x y z. split; [|split]; intros Q; apply (f_equal (@length _)) in Q; rewrite !app_length in Q; cbn in Q; lia. }
  (* the tree *)
  destruct (step_tree ks _ _ H E) as (sha & ks1 & -> & E1). assert (oks ks1) as H1 by (intros k I; apply H; now right).
  (* the parents *)
  destruct (parents_walk _ _ _ _ H1 Kp Fp E1) as (kp & ks2 & -> & Kkp & Ekp & E2).
  assert (oks ks2) as H2 by (intros k I; apply H1, in_app_iff; now right).
  (* the author *)
  destruct (cutl_word B HB (bs "author ") (person_text (gc_author g)) la) as (va & sa & tla & -> & Va & Ta); [cbn; lia|cbn; intuition discriminate|exact Ca|].
  cbn [app] in E2. destruct (step_author ks2 _ _ H2 E2) as (pa & ks3 & -> & E3).
  assert (oks ks3) as H3 by (intros k I; apply H2; now right).
  destruct (tail_walk ks3 tla _ H3 Ta E3) as (ks4 & -> & E4); [intros Q; apply (f_equal (@length _)) in Q; rewrite !app_length in Q; cbn in Q; lia|].
  assert (oks ks4) as H4 by (intros k I; apply H3, in_app_iff; now right).
  (* the committer *)
  destruct (cutl_word B HB (bs "committer ") (person_text (gc_committer g)) lc) as (vc & sc & tlc & -> & Vc & Tc); [cbn; lia|cbn; intuition discriminate|exact Cc|].
  cbn [app] in E4. destruct (step_committer ks4 _ _ H4 E4) as (pc & ks5 & -> & E5).
  assert (oks ks5) as H5 by (intros k I; apply H4; now right).
  destruct (tail_walk ks5 tlc _ H5 Tc E5) as (ks6 & -> & E6); [intros Q; apply (f_equal (@length _)) in Q; rewrite !app_length in Q; cbn in Q; lia|].
  assert (oks ks6) as H6 by (intros k I; apply H5, in_app_iff; now right).
  (* the encoding *)
  assert (exists ve tle ks7, ks6 = opt_list (fun e => [KEncoding e]) ve ++ map KOther tle ++ ks7 /\ rest ks7 = concat Lm ++ concat Lsg ++ concat Lo ++ [[]] /\
    match ve, gc_encoding g with
    | None, None => tle = []
    | Some v, Some e => cutl (bs "encoding " ++ e) ((bs "encoding " ++ v) :: tle)
    | _, _ => False
    end) as (ve & tle & ks7 & -> & E7 & Ve).
  { destruct (gc_encoding g) as [e|]; cbn [opt_list] in Fe.
    - inversion Fe as [|? le ? Le' Ce Fe']; subst. inversion Fe'; subst.
      destruct (cutl_word B HB (bs "encoding ") e le) as (v & s & tle & -> & V & T); [cbn; lia|cbn; intuition discriminate|exact Ce|].
      cbn [concat] in E6. rewrite app_nil_r in E6. cbn [app] in E6.
      destruct (step_encoding ks6 _ _ H6 E6) as (ks7 & -> & E7). assert (oks ks7) as H7 by (intros k I; apply H6; now right).
      destruct (tail_walk ks7 tle _ H7 T E7) as (ks8 & -> & E8); [intros Q; apply (f_equal (@length _)) in Q; rewrite !app_length in Q; cbn in Q; lia|].
      exists (Some v), tle, ks8. auto.
    - inversion Fe; subst. exists None, [], ks6. auto. }
  assert (oks ks7) as H7 by (intros k I; apply H6; rewrite !in_app_iff; auto).
  assert (forall k, In k (opt_list (fun e => [KEncoding e]) ve) -> kind k = 4) as Kve by (intros k I; destruct ve; cbn in I; [destruct I as [<-|[]]; reflexivity|contradiction]).
  assert (forall tl k, In k (map KOther tl) -> kind k = 7) as Kot by (intros tl k I; apply in_map_iff in I as (x & <- & _); reflexivity).
  set (pre := KTree (hex_encode (gc_tree g)) sha :: kp ++ KAuthor va pa :: map KOther tla ++ KCommitter vc pc :: map KOther tlc
              ++ opt_list (fun e => [KEncoding e]) ve ++ map KOther tle).
  assert (KTree (hex_encode (gc_tree g)) sha :: kp ++ KAuthor va pa :: map KOther tla ++ KCommitter vc pc :: map KOther tlc
          ++ opt_list (fun e => [KEncoding e]) ve ++ map KOther tle ++ ks7 = pre ++ ks7) as Epre.
  { unfold pre. cbn [app]. f_equal. rewrite <- !app_assoc. cbn [app]. rewrite <- !app_assoc. cbn [app]. rewrite <- !app_assoc. reflexivity. }
  assert (forall k, In k pre -> kind k <> 5 /\ kind k <> 6) as Kpre.
  { unfold pre. intros k I. destruct I as [<-|I]; [split; discriminate|]. rewrite in_app_iff in I. destruct I as [I|[<-|I]]; [rewrite (Kkp k I); split; discriminate|split; discriminate|].
    rewrite in_app_iff in I. destruct I as [I|[<-|I]]; [rewrite (Kot _ k I); split; discriminate|split; discriminate|].
    rewrite !in_app_iff in I. destruct I as [I|[I|I]]; [rewrite (Kot _ k I)|rewrite (Kve k I)|rewrite (Kot _ k I)]; split; discriminate. }
  rewrite Epre in *.
  (* the merge tags *)
  rewrite mergetags_app in Gm by (intros k I; now apply Kpre).
  destruct (merges_walk (gc_mergetags g) ks7 Lm (concat Lsg ++ concat Lo ++ [[]]) H7 He) as (km & ks8 & -> & Kkm & Ekm & Gm8 & E8 & Km1 & Km2);
    [intros l I; apply Hl; rewrite rest_app, in_app_iff; now right|exact Gm|exact Fm|exact E7|intros Q; apply (f_equal (@length _)) in Q; rewrite !app_length in Q; cbn in Q; lia|].
  assert (oks ks8) as H8 by (intros k I; apply H7, in_app_iff; now right).
  assert (forall l, In l (rest ks8) -> length l <= B) as Hl8.
  { intros l I. apply Hl. rewrite !rest_app, !in_app_iff. rewrite in_app_iff in I. tauto. }
  assert (forall o, In o (gc_other g) -> other_line o /\ length o <= B) as Ho.
  { intros o I. rewrite Go in I. unfold others in I. apply in_flat_map in I as (k & Ik & J). destruct k; cbn in J; try contradiction. destruct J as [<-|[]].
    split; [exact (H _ Ik)|]. apply Hl, in_app_iff. left. apply in_concat. exists [l]. split; [apply in_map_iff; exists (KOther l); auto|now left]. }
  assert (forall (f : block -> list (bytes * list bytes)), (forall k, kind k <> 6 -> f k = []) -> flat_map f (pre ++ km ++ ks8) = flat_map f ks8) as Fsg.
  { intros f Hf. rewrite !flat_map_app, (flat_map_nil f pre), (flat_map_nil f km); [reflexivity| |].
    - intros k I. apply Hf. rewrite (Kkm k I). discriminate.
    - intros k I. apply Hf, Kpre, I. }
  assert (gc_signature g = last_of (signatures ks8)) as Gs8.
  { rewrite Gs. unfold signatures. rewrite Fsg; [reflexivity|]. intros [] N; try reflexivity. now contradiction N. }
  (* the signature *)
  assert (exists vs ks9, ks8 = vs ++ ks9 /\ rest ks9 = concat Lo ++ [[]] /\ (forall k, In k vs -> kind k = 6) /\
    header_lines vs = opt_list signature_lines (gc_signature g) /\ forall l, In l (opt_list signature_lines (gc_signature g)) -> line_ok B l)
    as (vs & ks9 & -> & E9 & Kvs & Evs & Ks).
  { destruct (gc_signature g) as [[f ss]|]; cbn [opt_list] in Fs.
    2:{ inversion Fs; subst. exists [], ks8. split; [reflexivity|]. split; [exact E8|]. split; [intros k []|]. split; [reflexivity|intros l []]. }
    unfold signature_lines in Fs. cbn [fst snd app] in Fs.
    inversion Fs as [|? ls0 ? Ls' C0 Fs']; subst. apply (cutl_plain B HB) in C0; [|exact pgp_begin_line]. subst ls0. cbn [concat app] in E8.
    destruct (step_signature ks8 (bs "-----BEGIN PGP SIGNATURE-----") _ H8 E8) as (f' & ss' & ks' & -> & E').
    assert (oks ks') as H' by (intros k I; apply H8; now right).
    assert (exists i, i = length (f :: ss)) as [i Ei] by eauto.
    unfold signatures in Gs8. cbn [flat_map app] in Gs8. fold (signatures ks') in Gs8.
    assert (forall w x f0 ss0, In (KSignature x f0 ss0) w -> (forall l, In l (rest w) -> length l <= B) -> forall l, In l (f0 :: ss0) -> length l <= B) as Lw.
    { intros w x f0 ss0 I Hw l J. apply Hw, in_app_iff. left. apply in_concat. exists (block_lines (KSignature x f0 ss0)). split; [now apply in_map|].
      cbn [block_lines]. rewrite !in_app_iff. destruct J as [<-|J]; [right; left; now left|auto]. }
    destruct (signatures ks') as [|sg' sgs] eqn:Esg.
    - assert (f' = f /\ ss' = ss) as [-> ->] by (injection Gs8 as -> ->; auto).
      destruct (sig_exact (f :: ss) Ls' (rest ks') (concat Lo ++ [[]])) as [Kl EA]; [exact Fs'| |rewrite <- E'; reflexivity|].
      { intros w I. eapply Lw; [|exact Hl8|exact I]. now left. }
      exists [KSignature (bs "-----BEGIN PGP SIGNATURE-----") f ss], ks'. split; [reflexivity|]. split; [exact EA|]. split; [intros k [<-|[]]; reflexivity|].
      split; [unfold header_lines; cbn [map concat block_lines]; rewrite app_nil_r; reflexivity|]. intros l I. unfold signature_lines in I. cbn [opt_list fst snd] in I.
      rewrite !in_app_iff in I. destruct I as [[<-|[]]|[[<-|[]]|[I|[<-|[]]]]]; [exact pgp_begin_line|apply Kl; now left|apply Kl; now right|exact pgp_end_line].
    - exfalso. assert (last_of (signatures ks') = Some (f, ss)) as G2.
      { rewrite Esg. unfold last_of in *. cbn [rev] in *. destruct (rev sgs ++ [sg']) as [|y ys] eqn:Er; [destruct (rev sgs); discriminate Er|].
        cbn [app] in Gs8. congruence. }
      apply last_of_some in G2 as [q Q]. assert (In (f, ss) (signatures ks')) as I by (rewrite Q, in_app_iff; right; now left).
      apply in_flat_map in I as (k & Ik & J). destruct k as [| | | | | |x f0 ss0|]; cbn in J; try contradiction. destruct J as [J|[]]. injection J as -> ->.
      apply in_split in Ik as (k1 & k2 & ->). rewrite rest_app, rest_cons in E'. cbn [block_lines] in E'.
      destruct (H' (KSignature x f ss)) as [S1 S2]; [apply in_app_iff; right; now left|]. cbn [fst snd] in S1, S2.
      change (f :: ss ++ [pgp_end]) with ((f :: ss) ++ [pgp_end]) in Fs'.
      apply Forall2_app_inv_l in Fs' as (Lf & Lz & Ff & Fz & ->). inversion Fz as [|? lz ? Lz' Cz Fz']; subst. inversion Fz'; subst.
      apply (cutl_plain B HB) in Cz; [|exact pgp_end_line]. subst lz. rewrite concat_app in E'. cbn [concat] in E'. rewrite <- !app_assoc in E'.
      set (U1 := [f'] ++ ss' ++ [pgp_end] ++ header_lines k1) in *.
      set (G := bs "gpgsig " ++ x) in *. set (C := concat Lo ++ [[]]) in *.
      assert ((U1 ++ [G]) ++ ((f :: ss) ++ [pgp_end] ++ rest k2) = concat Lf ++ ([pgp_end] ++ C)) as E2'.
      { unfold U1. rewrite <- !app_assoc. cbn [app] in E' |- *. rewrite <- ?app_assoc in E' |- *. cbn [app] in E' |- *. rewrite <- ?app_assoc in E' |- *. exact E'. }
      assert (forall w, In w (f :: ss) -> length w <= B) as Lw'.
      { intros w I. eapply (Lw _ x f ss); [|exact Hl8|exact I]. right. apply in_app_iff. right. now left. }
      assert (~ In pgp_end (f :: ss)) as Nf.
      { intros [->|I]; [|auto]. destruct S1 as [S1|[[r S1]|[r S1]]]; discriminate S1. }
      apply app_eq_app in E2' as (l & [[X1 X2]|[X1 X2]]).
      + (* the whole signature comes before the last one *)
        destruct (rev_case l) as [->|(l' & z & ->)].
        { rewrite app_nil_r in X1. cbn [app] in X2. apply cons_eq in X2 as [X2 _]. apply Nf. left. now symmetry. }
        rewrite app_assoc in X1. apply app_inj_tail in X1 as [_ <-].
        destruct l' as [|y l']; cbn [app] in X2; apply cons_eq in X2 as [X2 X3]; [discriminate X2|].
        assert (In G C) as I by (rewrite X3, !in_app_iff; left; right; now left).
        unfold C in I. apply in_app_iff in I as [I|[I|[]]]; [|discriminate I].
        apply (others_pieces (gc_other g) Lo Fo) with (x := G) in I; [|intros o Io; now apply Ho]. apply I.
        exists (bs "gpgsig "). split; [cbn; tauto|now exists x].
      + symmetry in X2. apply app_eq_app in X2 as (l2 & [[Y1 Y2]|[Y1 Y2]]).
        * destruct l2 as [|y l2].
          { rewrite app_nil_r in Y1. subst l. apply (cut_lag (f :: ss) (U1 ++ [G]) Lf [] Ff Lw'); [destruct U1; discriminate|]. rewrite app_nil_r. now rewrite X1. }
          apply (cut_lag (f :: ss) (U1 ++ [G]) Lf (y :: l2) Ff Lw'); [destruct U1; discriminate|]. now rewrite X1, Y1.
        * destruct l2 as [|y l2].
          { rewrite app_nil_r in Y1. subst l. apply (cut_lag (f :: ss) (U1 ++ [G]) Lf [] Ff Lw'); [destruct U1; discriminate|]. rewrite app_nil_r. now rewrite X1. }
          cbn [app] in Y2. apply cons_eq in Y2 as [Y2 _]. apply Nf. rewrite Y1, in_app_iff. right. left. now symmetry. }
  assert (oks ks9) as H9 by (intros k I; apply H8, in_app_iff; now right).
  (* the other lines *)
  destruct (others_walk (gc_other g) ks9 Lo H9 Fo Ho E9) as (ps & -> & Lps & -> & M).
  assert (others (pre ++ km ++ vs ++ map KOther ps) = tla ++ tlc ++ tle ++ ps) as Eo.
  { unfold others. rewrite !flat_map_app. rewrite (flat_map_nil _ km), (flat_map_nil _ vs).
    2:{ intros k I. specialize (Kvs k I). destruct k; try reflexivity; discriminate Kvs. }
    2:{ intros k I. specialize (Kkm k I). destruct k; try reflexivity; discriminate Kkm. }
    unfold pre. cbn [flat_map app]. rewrite flat_map_app, (flat_map_nil _ kp).
    2:{ intros k I. specialize (Kkp k I). destruct k; try reflexivity; discriminate Kkp. }
    cbn [flat_map app]. rewrite flat_map_app. cbn [flat_map app]. rewrite !flat_map_app.
    rewrite (flat_map_nil _ (opt_list _ ve)).
    2:{ intros k I. specialize (Kve k I). destruct k; try reflexivity; discriminate Kve. }
    fold (others (map KOther tla)) (others (map KOther tlc)) (others (map KOther tle)) (others (map KOther ps)). rewrite !others_map. cbn [app].
    now rewrite <- !app_assoc. }
  assert (tla = [] /\ tlc = [] /\ tle = []) as (-> & -> & ->).
  { rewrite Go, Eo in Lps. rewrite !app_length in Lps.
    destruct tla, tlc, tle; cbn [length] in Lps; try lia; auto. }
  cbn [app map] in *.
  assert (ps = gc_other g) as -> by (rewrite Go, Eo; reflexivity).
  assert (forall l, In l (gc_other g) -> line_ok B l) as Ko.
  { clear - Fo HB. induction (gc_other g) as [|o O IH]; [intros l []|]. cbn [map] in Fo. inversion Fo as [|? ? ? ? C F]; subst.
    intros l [<-|I]; [now apply cutl_single|auto]. }
  assert (forall {A} (f : block -> list A), (forall k, kind k <> 2 -> f k = []) -> flat_map f (pre ++ km ++ vs ++ map KOther (gc_other g)) = f (KAuthor va pa)) as Fa.
  { intros A f Hf. rewrite !flat_map_app. rewrite (flat_map_nil _ km), (flat_map_nil _ vs), (flat_map_nil _ (map KOther _)).
    2:{ intros k I. apply Hf. rewrite (Kot _ k I). discriminate. }
    2:{ intros k I. apply Hf. rewrite (Kvs k I). discriminate. }
    2:{ intros k I. apply Hf. rewrite (Kkm k I). discriminate. }
    rewrite app_nil_r. unfold pre. cbn [flat_map]. rewrite flat_map_app. cbn [flat_map]. rewrite (flat_map_nil _ kp).
    2:{ intros k I. apply Hf. rewrite (Kkp k I). discriminate. }
    rewrite flat_map_app, (flat_map_nil _ (opt_list _ ve)).
    2:{ intros k I. apply Hf. rewrite (Kve k I). discriminate. }
    rewrite (Hf (KTree _ _)), (Hf (KCommitter _ _)) by discriminate. cbn [app flat_map]. now rewrite app_nil_r. }
  assert (forall {A} (f : block -> list A), (forall k, kind k <> 3 -> f k = []) -> flat_map f (pre ++ km ++ vs ++ map KOther (gc_other g)) = f (KCommitter vc pc)) as Fc.
  { intros A f Hf. rewrite !flat_map_app. rewrite (flat_map_nil _ km), (flat_map_nil _ vs), (flat_map_nil _ (map KOther _)).
    2:{ intros k I. apply Hf. rewrite (Kot _ k I). discriminate. }
    2:{ intros k I. apply Hf. rewrite (Kvs k I). discriminate. }
    2:{ intros k I. apply Hf. rewrite (Kkm k I). discriminate. }
    rewrite app_nil_r. unfold pre. cbn [flat_map]. rewrite flat_map_app. cbn [flat_map]. rewrite (flat_map_nil _ kp).
    2:{ intros k I. apply Hf. rewrite (Kkp k I). discriminate. }
    rewrite flat_map_app, (flat_map_nil _ (opt_list _ ve)).
    2:{ intros k I. apply Hf. rewrite (Kve k I). discriminate. }
    rewrite (Hf (KTree _ _)), (Hf (KAuthor _ _)) by discriminate. cbn [app flat_map]. now rewrite app_nil_r. }
  assert (encodings (pre ++ km ++ vs ++ map KOther (gc_other g)) = opt_list (fun e => [e]) ve) as Fen.
  { unfold encodings. rewrite !flat_map_app. rewrite (flat_map_nil _ km), (flat_map_nil _ vs), (flat_map_nil _ (map KOther _)).
    2:{ intros k I. apply in_map_iff in I as (y & <- & _). reflexivity. }
    2:{ intros k I. specialize (Kvs k I). destruct k; try reflexivity; discriminate Kvs. }
    2:{ intros k I. specialize (Kkm k I). destruct k; try reflexivity; discriminate Kkm. }
    rewrite app_nil_r. unfold pre. cbn [flat_map app]. rewrite flat_map_app. cbn [flat_map app]. rewrite (flat_map_nil _ kp).
    2:{ intros k I. specialize (Kkp k I). destruct k; try reflexivity; discriminate Kkp. }
    cbn [app]. destruct ve; reflexivity. }
  assert (pa = a) as ->.
  { unfold authors in Ha. rewrite Fa in Ha by (intros [] N; try reflexivity; now contradiction N). cbn in Ha. congruence. }
  assert (pc = cm) as ->.
  { unfold committers in Hc. rewrite Fc in Hc by (intros [] N; try reflexivity; now contradiction N). cbn in Hc. congruence. }
  destruct Gac as [Ga Gc]. rewrite Ga in *. rewrite Gc in *.
  assert (block_ok (KAuthor va a)) as Oa by (apply H2; now left). assert (block_ok (KCommitter vc cm)) as Oc by (apply H4; now left).
  assert (sa = []) as -> by (apply (person_line_prefix (bs "author") va a sa); [cbn; intuition discriminate|exact Oa|exact Va]).
  assert (sc = []) as -> by (apply (person_line_prefix (bs "committer") vc cm sc); [cbn; intuition discriminate|exact Oc|exact Vc]).
  rewrite app_nil_r in Va, Vc. subst va vc. apply cutl_single in Ca, Cc.
  assert (ve = gc_encoding g /\ forall l, In l (opt_list (fun e => [bs "encoding " ++ e]) (gc_encoding g)) -> line_ok B l) as [-> Ke].
  { rewrite Ge, Fen in *. destruct ve as [v|]; cbn in Ve |- *; [|split; [reflexivity|intros l []]]. split; [reflexivity|].
    intros l [<-|[]]. now apply cutl_single. }
  split; [exact M|].
  assert (header_lines (map strip (pre ++ km ++ vs ++ map KOther (gc_other g))) = commit_lines g) as EL.
  { rewrite !map_app, !header_lines_app, Ekm. rewrite (strip_lines pre), (strip_lines vs), (strip_lines (map KOther _)), Evs, others_lines.
    2:{ intros k I. rewrite (Kot _ k I). discriminate. }
    2:{ intros k I. rewrite (Kvs k I). discriminate. }
    2:{ intros k I. now apply Kpre. }
    unfold commit_lines. unfold pre. change (?x :: kp ++ ?y) with ([x] ++ kp ++ y). change (KAuthor ?x ?y :: KCommitter ?v ?w :: ?z) with ([KAuthor x y; KCommitter v w] ++ z).
    rewrite !header_lines_app, Ekp, app_nil_r, Ga, Gc. destruct (gc_encoding g); cbn [opt_list]; unfold header_lines; cbn [map concat block_lines app]; rewrite ?app_nil_r, <- ?app_assoc; reflexivity. }
  split; [exact EL|].
  assert (forall l, In l (tight_lines g) -> line_ok B l) as KT.
  { intros l I. unfold tight_lines in I. rewrite Ga, Gc in I. rewrite !in_app_iff in I. destruct I as [[<-|[]]|[I|[[<-|[<-|[]]]|[I|[I|[I|I]]]]]]; auto.
    apply in_concat in I as (x & I & J). apply in_map_iff in I as (m & <- & I). now apply (Km1 m). }
  split; [exact KT|].
  intros l I. unfold commit_lines in I. rewrite !in_app_iff in I. unfold tight_lines in KT.
  destruct I as [I|[I|[I|[I|[I|[I|I]]]]]]; try (apply line_ok_S, KT; rewrite !in_app_iff; tauto).
  apply in_concat in I as (x & I & J). apply in_map_iff in I as (m & <- & I). now apply (Km2 m).
Qed.

End Walk.
End B.
