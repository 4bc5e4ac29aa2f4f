(** Texts that survive decoding and encoding are in git's own order. *)
From Verif Require Import Base GoStr Cid Types Nodes Reader Person Assemble Decode Encode Spec HeaderSpec NormalSpec
  StreamFacts PersonFacts DecodeFacts RoundTrip CommitFacts GrammarFacts NormalFacts PrefixFacts.

(** ** No newlines *)
Lemma in_join c ws : In c (join SP ws) -> c = SP \/ exists w, In w ws /\ In c w.
Proof.
  induction ws as [|w ws IH]; [intros []|]. destruct ws as [|w2 ws]; [intros I; right; exists w; split; [now left|exact I]|].
  rewrite join_cons, in_app_iff. intros [I|[<-|I]]; [right; exists w; split; [now left|exact I]|auto|].
  destruct (IH I) as [->|(v & Iv & J)]; [auto|]. right. exists v. split; [now right|exact J].
Qed.
Lemma in_words c s w : In w (words s) -> In c w -> In c s.
Proof.
  intros I J. rewrite <- (words_join s). revert I. generalize (words s) as ws. intros ws.
  induction ws as [|v ws IH]; [intros []|]. intros [->|I].
  - destruct ws as [|v2 ws]; [exact J|]. rewrite join_cons, in_app_iff. now left.
  - destruct ws as [|v2 ws]; [destruct I|]. rewrite join_cons, in_app_iff. right; right. now apply IH.
Qed.
Lemma in_unlt c w : In c (unlt w) -> In c w.
Proof. destruct w as [|b w]; [auto|]. intros I. destruct b; cbn [unlt] in I; try exact I. now right. Qed.

Lemma person_line_no_nl line p : person_line line p -> ~ In NL line -> ~ In NL (person_text p).
Proof.
  intros (label & blanks & name & email & more & Ew & _ & _ & _ & _ & _ & _ & En & Ee & Ed & Et) N.
  assert (forall w, In w (blanks ++ name ++ email ++ more) -> ~ In NL w) as W.
  { intros w I J. apply N. apply (in_words NL line w); [|exact J]. rewrite Ew. now right. }
  assert (~ In NL (p_name p)) as N1.
  { rewrite En. intros I. apply in_join in I as [I|(w & Iw & I)]; [discriminate|]. apply (W w); [rewrite !in_app_iff; auto|exact I]. }
  assert (~ In NL (p_email p)) as N2.
  { intros I. assert (In NL (p_email p ++ [GT])) as J by (rewrite in_app_iff; now left). rewrite Ee in J.
    apply in_join in J as [J|(w & Iw & J)]; [discriminate|]. apply in_map_iff in Iw as (v & <- & Iv).
    apply in_unlt in J. apply (W v); [rewrite !in_app_iff; auto|exact J]. }
  assert (forall i, ~ In NL (nth i more [])) as N3.
  { intros i I. destruct (Nat.ltb_spec i (length more)) as [L|L].
    - apply (W (nth i more [])); [rewrite !in_app_iff; right; right; right; now apply nth_In|exact I].
    - rewrite nth_overflow in I by exact L. contradiction. }
  assert (~ In NL (p_date p)) as N4 by (rewrite Ed; apply N3).
  assert (~ In NL (p_timezone p)) as N5 by (rewrite Et; apply N3).
  unfold person_text. rewrite !in_app_iff. intros [I|[I|[I|[I|[I|I]]]]]; try contradiction.
  - cbn in I. intuition discriminate.
  - cbn in I. intuition discriminate.
  - destruct (p_date p); [exact I|]. apply in_app_iff in I as [[I|[]]|I]; [discriminate|contradiction].
  - destruct (p_timezone p); [exact I|]. apply in_app_iff in I as [[I|[]]|I]; [discriminate|contradiction].
Qed.

Lemma hex_no_nl s : ~ In NL (hex_encode s).
Proof.
  induction s as [|b s IH]; [intros []|]. cbn [hex_encode]. intros [I|[I|I]]; [| |contradiction];
    destruct b; vm_compute in I; discriminate.
Qed.

Lemma unlines_inj ls : forall ls', (forall l, In l ls -> ~ In NL l) -> (forall l, In l ls' -> ~ In NL l) ->
  unlines ls = unlines ls' -> ls = ls'.
Proof.
  induction ls as [|l ls IH]; intros [|l' ls'] H H' E; auto.
  - rewrite unlines_cons in E. destruct l'; discriminate.
  - rewrite unlines_cons in E. destruct l; discriminate.
  - rewrite !unlines_cons in E. cbn [app] in E. apply app_split_first in E as [-> E]; [|apply H; now left|apply H'; now left].
    f_equal. apply IH; auto; [intros; apply H; now right|intros; apply H'; now right].
Qed.

(** ** The blocks of a text in git's order *)
Definition mblock (m : gmergetag) : block :=
  KMergetag (hex_encode (gm_object m)) (gm_object m)
    [MType (gm_type m); MTag (gm_tag m); MTagger (person_text (gm_tagger m)) (gm_tagger m)] (gm_message m).
Definition sblock (sg : bytes * list bytes) : block :=
  KSignature (bs "-----BEGIN PGP SIGNATURE-----") (fst sg) (snd sg).
Definition cblocks (g : gcommit) : list block :=
  [KTree (hex_encode (gc_tree g)) (gc_tree g)]
  ++ map (fun p => KParent (hex_encode p) p) (gc_parents g)
  ++ [KAuthor (person_text (gc_author g)) (gc_author g); KCommitter (person_text (gc_committer g)) (gc_committer g)]
  ++ opt_list (fun e => [KEncoding e]) (gc_encoding g)
  ++ map mblock (gc_mergetags g)
  ++ opt_list (fun sg => [sblock sg]) (gc_signature g)
  ++ map KOther (gc_other g).

Lemma header_lines_app a b : header_lines (a ++ b) = header_lines a ++ header_lines b.
Proof. unfold header_lines. now rewrite map_app, concat_app. Qed.

Lemma cblocks_lines g : header_lines (cblocks g) = commit_lines g.
Proof.
  unfold cblocks, commit_lines. rewrite !header_lines_app.
  assert (header_lines (map (fun p => KParent (hex_encode p) p) (gc_parents g)) = map (fun p => bs "parent " ++ hex_encode p) (gc_parents g)) as ->.
  { unfold header_lines. rewrite map_map. cbn [block_lines]. apply concat_map_single. }
  assert (header_lines (map mblock (gc_mergetags g)) = concat (map mergetag_lines (gc_mergetags g))) as ->.
  { unfold header_lines. rewrite map_map. reflexivity. }
  assert (header_lines (map KOther (gc_other g)) = gc_other g) as ->.
  { unfold header_lines. rewrite map_map. cbn [block_lines]. rewrite (concat_map_single (fun l => l)). apply map_id. }
  destruct (gc_encoding g); destruct (gc_signature g); unfold header_lines; cbn [opt_list map concat]; rewrite ?app_nil_r; reflexivity.
Qed.

(** ** Lines and kinds of blocks, by kind *)
Lemma filter_same (j : nat) : forall ks ks',
  map kind ks = map kind ks' -> map block_lines ks = map block_lines ks' ->
  map block_lines (filter (fun k => kind k =? j) ks) = map block_lines (filter (fun k => kind k =? j) ks').
Proof.
  induction ks as [|k ks IH]; intros [|k' ks'] E1 E2; try discriminate; [reflexivity|].
  cbn [map] in *. injection E1 as K E1. assert (block_lines k = block_lines k' /\ map block_lines ks = map block_lines ks') as [L E3] by (split; congruence).
  cbn [filter]. rewrite K. destruct (kind k' =? j); cbn [map]; rewrite (IH _ E1 E3), ?L; reflexivity.
Qed.
Lemma filter_none {A} (f : A -> bool) l : (forall x, In x l -> f x = false) -> filter f l = [].
Proof. induction l as [|x l IH]; intros H; [reflexivity|]. cbn. rewrite H by now left. apply IH. intros; apply H; now right. Qed.
Lemma filter_all {A} (f : A -> bool) l : (forall x, In x l -> f x = true) -> filter f l = l.
Proof. induction l as [|x l IH]; intros H; [reflexivity|]. cbn. rewrite H by now left. f_equal. apply IH. intros; apply H; now right. Qed.

Lemma filter_kinds_map {A} (f : A -> block) j l : (forall x, kind (f x) = j) -> forall i,
  filter (fun k => kind k =? i) (map f l) = if i =? j then map f l else [].
Proof.
  intros H i. destruct (Nat.eqb_spec i j) as [->|N].
  - apply filter_all. intros x I. apply in_map_iff in I as (y & <- & _). rewrite H. apply Nat.eqb_refl.
  - apply filter_none. intros x I. apply in_map_iff in I as (y & <- & _). rewrite H. apply Nat.eqb_neq. congruence.
Qed.

Lemma cblocks_kind g i : filter (fun k => kind k =? i) (cblocks g) =
  match i with
  | 0 => [KTree (hex_encode (gc_tree g)) (gc_tree g)]
  | 1 => map (fun p => KParent (hex_encode p) p) (gc_parents g)
  | 2 => [KAuthor (person_text (gc_author g)) (gc_author g)]
  | 3 => [KCommitter (person_text (gc_committer g)) (gc_committer g)]
  | 4 => opt_list (fun e => [KEncoding e]) (gc_encoding g)
  | 5 => map mblock (gc_mergetags g)
  | 6 => opt_list (fun sg => [sblock sg]) (gc_signature g)
  | 7 => map KOther (gc_other g)
  | _ => []
  end.
Proof.
  unfold cblocks. rewrite !filter_app.
  rewrite (filter_kinds_map (fun p => KParent (hex_encode p) p) 1) by reflexivity.
  rewrite (filter_kinds_map mblock 5), (filter_kinds_map KOther 7) by reflexivity.
  destruct i as [|[|[|[|[|[|[|[|i]]]]]]]]; cbn [filter kind Nat.eqb app];
    destruct (gc_encoding g); destruct (gc_signature g); cbn [opt_list filter kind sblock Nat.eqb app]; rewrite ?app_nil_r; reflexivity.
Qed.

(** The values of the blocks of a kind. *)
Lemma flat_map_filter {A} (f : block -> list A) j ks : (forall k, kind k <> j -> f k = []) ->
  flat_map f ks = flat_map f (filter (fun k => kind k =? j) ks).
Proof.
  intros H. induction ks as [|k ks IH]; [reflexivity|]. cbn [flat_map filter].
  destruct (Nat.eqb_spec (kind k) j) as [E|N]; cbn [flat_map]; rewrite IH; [reflexivity|]. now rewrite H.
Qed.

Lemma map_eq_in {A C} (f g : A -> C) l : map f l = map g l -> forall x, In x l -> f x = g x.
Proof.
  induction l as [|a l IH]; [intros _ ? []|]. cbn [map]. intros E x [<-|I]; [congruence|]. apply IH; [congruence|exact I].
Qed.

(** ** Other lines that a merge tag takes *)
Lemma sp_split (ls : list bytes) : exists p q, ls = p ++ q /\ (forall l, In l p -> starts_with SP l) /\
  match q with [] => True | l :: _ => ~ starts_with SP l end.
Proof.
  induction ls as [|l ls (p & q & -> & Hp & Hq)].
  - exists [], []. split; [reflexivity|]. split; [intros ? []|exact Logic.I].
  - destruct l as [|c l]; [exists [], ([] :: p ++ q); cbn; split; [reflexivity|split; [intros ? []|intros [r R]; discriminate R]]|].
    destruct (Byte.byte_eq_dec c SP) as [->|N].
    + exists ((SP :: l) :: p), q. split; [reflexivity|]. split; [|exact Hq]. intros x [<-|I]; [now exists l|auto].
    + exists [], ((c :: l) :: p ++ q). split; [reflexivity|]. split; [intros ? []|]. intros [r R]. congruence.
Qed.

Lemma mergetags_end_app a b : (forall k, In k a -> ~ is_mergetag k) -> mergetags_end (a ++ b) (EndMessage []) <-> mergetags_end b (EndMessage []).
Proof.
  induction a as [|k a IH]; intros H; [tauto|]. cbn [app]. rewrite mergetags_end_cons; [apply IH; intros; apply H; now right|].
  intros h sha ms msg ->. apply (H (KMergetag h sha ms msg)); [now left|exact Logic.I].
Qed.

Lemma mergetags_end_none a : (forall k, In k a -> ~ is_mergetag k) -> mergetags_end a (EndMessage []).
Proof. intros H. rewrite <- (app_nil_r a). now apply mergetags_end_app. Qed.

Lemma mergetags_end_mblocks ms b : (forall k, In k b -> ~ is_mergetag k) ->
  (ms <> [] -> match b with KOther l :: _ => ~ starts_with SP l | _ => True end) ->
  mergetags_end (map mblock ms ++ b) (EndMessage []).
Proof.
  intros Hb Hf. induction ms as [|m ms IH]; [now apply mergetags_end_none|].
  cbn [map app]. unfold mblock at 1. cbn [mergetags_end]. split.
  - destruct ms as [|m2 ms]; cbn [map app]; [|exact Logic.I]. destruct b as [|k b]; [discriminate|]. apply Hf. discriminate.
  - apply IH. intros _. apply Hf. discriminate.
Qed.

Lemma cblocks_end g :
  (gc_mergetags g <> [] -> gc_signature g = None -> forall l ls, gc_other g = l :: ls -> ~ starts_with SP l) ->
  mergetags_end (cblocks g) (EndMessage []).
Proof.
  intros H. unfold cblocks.
  rewrite mergetags_end_app by (intros k [<-|[]]; auto).
  rewrite mergetags_end_app by (intros k I; apply in_map_iff in I as (x & <- & _); auto).
  rewrite mergetags_end_app by (intros k [<-|[<-|[]]]; auto).
  rewrite mergetags_end_app by (destruct (gc_encoding g); intros k I; cbn in I; try contradiction; destruct I as [<-|[]]; auto).
  apply mergetags_end_mblocks.
  - intros k I. apply in_app_iff in I as [I|I].
    + destruct (gc_signature g); cbn in I; try contradiction; destruct I as [<-|[]]; auto.
    + apply in_map_iff in I as (x & <- & _); auto.
  - intros Nm. destruct (gc_signature g); cbn; [exact Logic.I|]. destruct (gc_other g) eqn:E; [exact Logic.I|]. cbn. eapply H; eauto.
Qed.

(** Whatever the lines of [g], they are the lines of a [g'] whose merge tags have taken what
    they take. *)
Lemma absorb g : (forall k, In k (cblocks g) -> block_wf k) ->
  exists g', commit_lines g' = commit_lines g /\ mergetags_end (cblocks g') (EndMessage []) /\
    (forall k, In k (cblocks g') -> block_wf k) /\ (length (gc_other g') = length (gc_other g) -> g' = g).
Proof.
  intros Hwf. destruct (gc_signature g) as [sg|] eqn:Es.
  { exists g. split; [reflexivity|]. split; [apply cblocks_end; congruence|]. auto. }
  destruct (gc_mergetags g) as [|m0 ms0] eqn:Em.
  { exists g. split; [reflexivity|]. split; [apply cblocks_end; congruence|]. auto. }
  destruct (@exists_last _ (m0 :: ms0)) as (ms & m & Ems); [discriminate|]. rewrite Ems in Em. clear m0 ms0 Ems.
  destruct (sp_split (gc_other g)) as (p & q & Eo & Hp & Hq).
  set (m' := {| gm_object := gm_object m; gm_type := gm_type m; gm_tag := gm_tag m; gm_tagger := gm_tagger m; gm_message := gm_message m ++ p |}).
  set (g' := {| gc_tree := gc_tree g; gc_parents := gc_parents g; gc_author := gc_author g; gc_committer := gc_committer g;
                gc_encoding := gc_encoding g; gc_mergetags := ms ++ [m']; gc_signature := None; gc_other := q; gc_message := gc_message g |}).
  exists g'. split; [|split; [|split]].
  - unfold commit_lines. rewrite Es, Em, Eo. cbn [g' gc_tree gc_parents gc_author gc_committer gc_encoding gc_mergetags gc_signature gc_other opt_list].
    rewrite !map_app, !concat_app. cbn [map concat]. unfold mergetag_lines at 2 4.
    cbn [m' gm_object gm_type gm_tag gm_tagger gm_message]. lnorm. reflexivity.
  - apply cblocks_end. cbn [g' gc_other]. intros _ _ l ls ->. exact Hq.
  - intros k I. unfold cblocks in I, Hwf. cbn [g' gc_tree gc_parents gc_author gc_committer gc_encoding gc_mergetags gc_signature gc_other] in I.
    rewrite Em, Eo, Es in Hwf. rewrite !map_app in *. rewrite !in_app_iff in I.
    assert (forall k, In k (map mblock ms) \/ In k (map mblock [m]) \/ In k (map KOther p) \/ In k (map KOther q) -> block_wf k) as W.
    { intros x J. apply Hwf. rewrite !in_app_iff. tauto. }
    decompose [or] I; try (apply Hwf; rewrite !in_app_iff; tauto); try contradiction.
    match goal with X : In k (map mblock [_]) |- _ => cbn [map In] in X; destruct X as [<-|[]] end.
    assert (block_wf (mblock m)) as Wm by (apply W; right; left; now left).
    destruct Wm as [W1 W2]. split; [exact W1|]. cbn [m' gm_message]. intros l J. apply in_app_iff in J as [J|J]; auto.
  - cbn [g' gc_other]. rewrite Eo, app_length. intros L. assert (p = []) as -> by (destruct p; [reflexivity|cbn in L; lia]).
    subst g' m'. rewrite app_nil_r. destruct g; cbn in *. subst. destruct m; reflexivity.
Qed.

Lemma single_line w x k : block_lines k = [w ++ x] -> In w header_words -> kind k <> 7 -> kind k <> 5 -> kind k <> 6 ->
  match k with
  | KTree h _ => w ++ x = bs "tree " ++ h
  | KParent h _ => w ++ x = bs "parent " ++ h
  | KAuthor y _ => w ++ x = bs "author " ++ y
  | KCommitter y _ => w ++ x = bs "committer " ++ y
  | KEncoding y => w ++ x = bs "encoding " ++ y
  | _ => False
  end.
Proof. destruct k; cbn [kind block_lines]; intros E I N7 N5 N6; try congruence; auto. Qed.

(** The kinds of the blocks of a text in git's order. *)
Lemma cblocks_kinds g : map kind (cblocks g) =
  [0] ++ repeat 1 (length (gc_parents g)) ++ [2; 3] ++ opt_list (fun _ => [4]) (gc_encoding g)
  ++ repeat 5 (length (gc_mergetags g)) ++ opt_list (fun _ => [6]) (gc_signature g) ++ repeat 7 (length (gc_other g)).
Proof.
  assert (forall A (f : A -> block) n l, (forall x, kind (f x) = n) -> map kind (map f l) = repeat n (length l)) as H.
  { intros A f n l Hf. rewrite map_map. induction l as [|x l IH]; [reflexivity|]. cbn. now rewrite Hf, IH. }
  unfold cblocks. rewrite !map_app, (H _ (fun p => KParent (hex_encode p) p) 1), (H _ mblock 5), (H _ KOther 7) by reflexivity.
  destruct (gc_encoding g); destruct (gc_signature g); reflexivity.
Qed.

Lemma cblocks_value g : apply_ending (header_value (cblocks g)) (EndMessage (gc_message g)) = commit_value g.
Proof.
  rewrite commit_fields. unfold commit_value.
  assert (trees (cblocks g) = [gc_tree g]) as ->.
  { unfold trees. rewrite (flat_map_filter _ 0) by (intros [] N; try reflexivity; now contradiction N). now rewrite cblocks_kind. }
  assert (authors (cblocks g) = [gc_author g]) as ->.
  { unfold authors. rewrite (flat_map_filter _ 2) by (intros [] N; try reflexivity; now contradiction N). now rewrite cblocks_kind. }
  assert (committers (cblocks g) = [gc_committer g]) as ->.
  { unfold committers. rewrite (flat_map_filter _ 3) by (intros [] N; try reflexivity; now contradiction N). now rewrite cblocks_kind. }
  assert (parents (cblocks g) = gc_parents g) as ->.
  { unfold parents. rewrite (flat_map_filter _ 1) by (intros [] N; try reflexivity; now contradiction N). rewrite cblocks_kind.
    induction (gc_parents g) as [|x l IH]; [reflexivity|]. cbn. now rewrite IH. }
  assert (last_of (encodings (cblocks g)) = gc_encoding g) as ->.
  { unfold encodings. rewrite (flat_map_filter _ 4) by (intros [] N; try reflexivity; now contradiction N). rewrite cblocks_kind.
    destruct (gc_encoding g); reflexivity. }
  assert (last_of (signatures (cblocks g)) = gc_signature g) as ->.
  { unfold signatures. rewrite (flat_map_filter _ 6) by (intros [] N; try reflexivity; now contradiction N). rewrite cblocks_kind.
    destruct (gc_signature g) as [[]|]; reflexivity. }
  assert (others (cblocks g) = gc_other g) as ->.
  { unfold others. rewrite (flat_map_filter _ 7) by (intros [] N; try reflexivity; now contradiction N). rewrite cblocks_kind.
    induction (gc_other g) as [|x l IH]; [reflexivity|]. cbn. now rewrite IH. }
  assert (mergetags (cblocks g) (EndMessage (gc_message g)) = gc_mergetags g) as ->.
  { unfold mergetags. rewrite app_nil_r, (flat_map_filter _ 5) by (intros [] N; try reflexivity; now contradiction N). rewrite cblocks_kind.
    induction (gc_mergetags g) as [|x l IH]; [reflexivity|]. cbn [map flat_map mblock app]. rewrite IH. destruct x; reflexivity. }
  reflexivity.
Qed.

Lemma hex_text_encode s : hex_text (hex_encode s) s.
Proof. apply hex_decode_text, hex_decode_encode. Qed.

Lemma person_text_line w p : ~ In SP w -> person_ok p -> person_line (w ++ [SP] ++ person_text p) p.
Proof. intros N H. apply person_line_iff. now apply person_roundtrip. Qed.

Lemma cblocks_ok B g : commit_ok B g -> forall k, In k (cblocks g) -> block_ok k.
Proof.
  intros (Ht & Hp & Ha & Hc & Hms & Hsg & Ho & Hsp & Hl) k I. unfold cblocks in I. rewrite !in_app_iff in I.
  destruct I as [[<-|[]]|[I|[[<-|[<-|[]]]|[I|[I|[I|I]]]]]].
  - split; [apply hex_text_encode|exact Ht].
  - apply in_map_iff in I as (x & <- & I). split; [apply hex_text_encode|now apply Hp].
  - apply (person_text_line (bs "author")); [cbn; intuition discriminate|exact Ha].
  - apply (person_text_line (bs "committer")); [cbn; intuition discriminate|exact Hc].
  - destruct (gc_encoding g); [|destruct I]. destruct I as [<-|[]]. exact Logic.I.
  - apply in_map_iff in I as (m & <- & I). destruct (Hms m I) as (H1 & H2 & H3). cbn [mblock block_ok].
    split; [apply hex_text_encode|]. split; [exact H1|]. split; [|exact H3].
    intros y [<-|[<-|[<-|[]]]]; try exact Logic.I. apply (person_text_line (bs "tagger")); [cbn; intuition discriminate|exact H2].
  - destruct (gc_signature g) as [sg|] eqn:Es; [|destruct I]. destruct I as [<-|[]]. specialize (Hsg sg eq_refl). destruct sg. exact Hsg.
  - apply in_map_iff in I as (l & <- & I). exact (Ho l I).
Qed.

Section B.
Context (B : nat) (HB : 64 <= B).

(** No line of the normal form holds a newline, if none of the lines that were read does. *)
Lemma normal_no_nl ks en a c :
  (forall k, In k ks -> block_ok k) -> ending_ok en ->
  (forall l, In l (header_lines ks) -> ~ In NL l) -> (forall l, In l (ending_lines en) -> ~ In NL l) ->
  last_of (authors ks) = Some a -> last_of (committers ks) = Some c ->
  forall l, In l (commit_lines (normal ks en a c)) -> ~ In NL l.
Proof.
  intros Hk He Hl Hen Ha Hc. set (g := normal ks en a c).
  assert (forall k l, In k ks -> In l (block_lines k) -> ~ In NL l) as Nk.
  { intros k l I J. apply Hl. apply in_concat. exists (block_lines k). split; [now apply in_map|exact J]. }
  assert (forall x p, In (KAuthor x p) ks \/ In (KCommitter x p) ks -> ~ In NL (person_text p)) as Np.
  { intros x p [I|I].
    - assert (block_ok (KAuthor x p)) as K by now apply Hk. eapply person_line_no_nl; [exact K|]. apply (Nk _ _ I). now left.
    - assert (block_ok (KCommitter x p)) as K by now apply Hk. eapply person_line_no_nl; [exact K|]. apply (Nk _ _ I). now left. }
  assert (exists xa, In (KAuthor xa a) ks) as [xa Ia].
  { apply last_of_some in Ha as [q Q]. assert (In a (authors ks)) as I by (rewrite Q, in_app_iff; right; now left).
    apply in_flat_map in I as (k & I & J). destruct k; cbn in J; try contradiction. destruct J as [->|[]]. eauto. }
  assert (exists xc, In (KCommitter xc c) ks) as [xc Ic].
  { apply last_of_some in Hc as [q Q]. assert (In c (committers ks)) as I by (rewrite Q, in_app_iff; right; now left).
    apply in_flat_map in I as (k & I & J). destruct k; cbn in J; try contradiction. destruct J as [->|[]]. eauto. }
  assert (forall w x, ~ In NL w -> ~ In NL x -> ~ In NL (w ++ x)) as Nap by (intros w x H1 H2 I; apply in_app_iff in I as [I|I]; auto).
  assert (forall m, In m (gc_mergetags g) -> exists sha ms ml, m = normal_mergetag sha ms ml /\
    (forall y, In y ms -> mline_ok y) /\ (forall y, In y ms -> ~ In NL (mline_text y)) /\ forall l, In l ml -> ~ In NL l) as Im.
  { intros m I. unfold g, normal, mergetags in I. cbn [gc_mergetags] in I. apply in_app_iff in I as [I|I].
    - apply in_flat_map in I as (k & I & J). destruct k as [| | | | |h sha ms ml| |]; cbn in J; try contradiction. destruct J as [<-|[]].
      exists sha, ms, ml. split; [reflexivity|]. destruct (Hk _ I) as (_ & _ & Hms & _). split; [exact Hms|].
      split; intros y J; apply (Nk _ _ I); cbn [block_lines]; rewrite !in_app_iff; [right; left; now apply in_map|auto].
    - destruct en as [| |h sha ms]; cbn in I; try contradiction. destruct I as [<-|[]]. exists sha, ms, [].
      split; [reflexivity|]. destruct He as (_ & _ & Hms). split; [exact Hms|].
      split; [|intros l []]. intros y J. apply Hen. cbn [ending_lines]. right. now apply in_map. }
  intros l I. unfold commit_lines in I. rewrite !in_app_iff in I.
    destruct I as [[<-|[]]|[I|[[<-|[<-|[]]]|[I|[I|[I|I]]]]]].
    - apply Nap; [cbn; intuition discriminate|apply hex_no_nl].
    - apply in_map_iff in I as (p & <- & _). apply Nap; [cbn; intuition discriminate|apply hex_no_nl].
    - apply Nap; [cbn; intuition discriminate|]. eapply Np. left. exact Ia.
    - apply Nap; [cbn; intuition discriminate|]. eapply Np. right. exact Ic.
    - destruct (gc_encoding g) as [e|] eqn:Ee; [|destruct I]. destruct I as [<-|[]].
      change (last_of (encodings ks) = Some e) in Ee. apply last_of_some in Ee as [q Q].
      assert (In e (encodings ks)) as I by (rewrite Q, in_app_iff; right; now left).
      apply in_flat_map in I as (k & I & J). destruct k; cbn in J; try contradiction. destruct J as [->|[]]. apply (Nk _ _ I). now left.
    - apply in_concat in I as (ls & I & J). apply in_map_iff in I as (m & <- & I).
      destruct (Im m I) as (sha & ms & ml & -> & Hms & Nm & Nl). unfold mergetag_lines, normal_mergetag in J.
      cbn [gm_object gm_type gm_tag gm_tagger gm_message] in J. apply in_app_iff in J as [J|J].
      2:{ now apply Nl. }
      destruct J as [<-|[<-|[<-|[<-|[<-|[]]]]]].
      + apply Nap; [cbn; intuition discriminate|apply hex_no_nl].
      + destruct (last_of (mtypes ms)) as [t|] eqn:Et; [|cbn; intuition discriminate].
        apply last_of_some in Et as [q Q]. assert (In t (mtypes ms)) as J by (rewrite Q, in_app_iff; right; now left).
        apply in_flat_map in J as (y & J & Y). destruct y; cbn in Y; try contradiction. destruct Y as [->|[]]. apply (Nm _ J).
      + destruct (last_of (mtags ms)) as [t|] eqn:Et; [|cbn; intuition discriminate].
        apply last_of_some in Et as [q Q]. assert (In t (mtags ms)) as J by (rewrite Q, in_app_iff; right; now left).
        apply in_flat_map in J as (y & J & Y). destruct y; cbn in Y; try contradiction. destruct Y as [->|[]]. apply (Nm _ J).
      + destruct (last_of (mtaggers ms)) as [t|] eqn:Et; [|vm_compute; intuition discriminate].
        apply last_of_some in Et as [q Q]. assert (In t (mtaggers ms)) as J by (rewrite Q, in_app_iff; right; now left).
        apply in_flat_map in J as (y & J & Y). destruct y as [y|y|y p|y]; cbn in Y; try contradiction. destruct Y as [->|[]].
        cbn [or_else]. apply Nap; [cbn; intuition discriminate|].
        pose proof (Nm _ J) as Nt. cbn [mline_text] in Nt.
        specialize (Hms _ J). cbn [mline_ok] in Hms. eapply person_line_no_nl; [exact Hms|].
        change (bs " tagger " ++ y) with ([SP] ++ (bs "tagger " ++ y)) in Nt. intros X. apply Nt, in_app_iff. now right.
      + cbn; intuition discriminate.
    - destruct (gc_signature g) as [sg|] eqn:Ee; [|destruct I]. cbn [opt_list] in I.
      change (last_of (signatures ks) = Some sg) in Ee. apply last_of_some in Ee as [q Q].
      assert (In sg (signatures ks)) as J by (rewrite Q, in_app_iff; right; now left).
      apply in_flat_map in J as (k & Ik & J). destruct k as [| | | | | |x first ss|]; cbn in J; try contradiction. destruct J as [<-|[]].
      unfold signature_lines in I. cbn [fst snd] in I. apply in_app_iff in I as [[<-|[]]|I]; [vm_compute; intuition discriminate|].
      apply (Nk _ _ Ik). cbn [block_lines]. apply in_app_iff. now right.
    - change (gc_other g) with (others ks) in I. apply in_flat_map in I as (k & Ik & J). destruct k; cbn in J; try contradiction. destruct J as [<-|[]].
      apply (Nk _ _ Ik). now left.
Qed.

Lemma survivor ks msg a c :
  (forall k, In k ks -> block_ok k) -> mergetags_end ks (EndMessage []) ->
  (forall l, In l (header_lines ks) -> line_ok B l) ->
  last_of (authors ks) = Some a -> last_of (committers ks) = Some c ->
  unlines (header_lines ks) ++ [NL] ++ msg = commit_text (normal ks (EndMessage msg) a c) ->
  commit_ok B (normal ks (EndMessage msg) a c) /\ map kind ks = map kind (cblocks (normal ks (EndMessage msg) a c)).
Proof.
  intros Hk Hm Hl Ha Hc E. set (g := normal ks (EndMessage msg) a c) in *.
  unfold commit_text in E. change (gc_message g) with msg in E. apply app_inv_tail in E.
  assert (forall x p, In (KAuthor x p) ks \/ In (KCommitter x p) ks -> ~ In NL (person_text p)) as Np.
  { intros x p [I|I].
    - assert (block_ok (KAuthor x p)) as K by now apply Hk. eapply person_line_no_nl; [exact K|].
      apply Hl. apply in_concat. exists [bs "author " ++ x]. split; [|now left]. apply in_map_iff. exists (KAuthor x p). auto.
    - assert (block_ok (KCommitter x p)) as K by now apply Hk. eapply person_line_no_nl; [exact K|].
      apply Hl. apply in_concat. exists [bs "committer " ++ x]. split; [|now left]. apply in_map_iff. exists (KCommitter x p). auto. }
  assert (exists xa, In (KAuthor xa a) ks) as [xa Ia].
  { apply last_of_some in Ha as [q Q]. assert (In a (authors ks)) as I by (rewrite Q, in_app_iff; right; now left).
    apply in_flat_map in I as (k & I & J). destruct k; cbn in J; try contradiction. destruct J as [->|[]]. eauto. }
  assert (exists xc, In (KCommitter xc c) ks) as [xc Ic].
  { apply last_of_some in Hc as [q Q]. assert (In c (committers ks)) as I by (rewrite Q, in_app_iff; right; now left).
    apply in_flat_map in I as (k & I & J). destruct k; cbn in J; try contradiction. destruct J as [->|[]]. eauto. }
  assert (forall k l, In k ks -> In l (block_lines k) -> ~ In NL l) as Nk.
  { intros k l I J. apply Hl. apply in_concat. exists (block_lines k). split; [now apply in_map|exact J]. }
  assert (forall w x, ~ In NL w -> ~ In NL x -> ~ In NL (w ++ x)) as Nap by (intros w x H1 H2 I; apply in_app_iff in I as [I|I]; auto).
  assert (forall m, In m (gc_mergetags g) -> exists h sha ms ml, In (KMergetag h sha ms ml) ks /\ m = normal_mergetag sha ms ml) as Im.
  { intros m I. unfold g, normal, mergetags in I. cbn [gc_mergetags] in I. rewrite app_nil_r in I.
    apply in_flat_map in I as (k & I & J). destruct k; cbn in J; try contradiction. destruct J as [<-|[]]. eauto 10. }
  assert (forall m h sha ms ml, In (KMergetag h sha ms ml) ks -> In m ms -> ~ In NL (mline_text m)) as Nm.
  { intros m h sha ms ml I J. apply (Nk _ _ I). cbn [block_lines]. rewrite !in_app_iff. right; left. now apply in_map. }
  assert (forall l, In l (commit_lines g) -> ~ In NL l) as Ng.
  { apply normal_no_nl; auto; [exact Logic.I|intros l I; apply (Hl l I)|]. intros l [<-|[]]. intros []. }
  apply unlines_inj in E; [|intros l I; now apply Hl|exact Ng].
  assert (forall k, In k (cblocks g) -> block_wf k) as Wg.
  { intros k I. unfold cblocks in I. rewrite !in_app_iff in I.
    destruct I as [[<-|[]]|[I|[[<-|[<-|[]]]|[I|[I|[I|I]]]]]]; try exact Logic.I.
    - apply in_map_iff in I as (p & <- & _). exact Logic.I.
    - destruct (gc_encoding g); [|contradiction]; destruct I as [<-|[]]; exact Logic.I.
    - apply in_map_iff in I as (m & <- & I). destruct (Im m I) as (h & sha & ms & ml & Ik & ->).
      assert (block_ok (KMergetag h sha ms ml)) as (_ & _ & _ & Hsp) by now apply Hk.
      split; [|exact Hsp]. intros y [<-|[<-|[<-|[]]]]; discriminate.
    - destruct (gc_signature g) as [sg|] eqn:Ee; [|destruct I]. destruct I as [<-|[]].
      change (last_of (signatures ks) = Some sg) in Ee. apply last_of_some in Ee as [q Q].
      assert (In sg (signatures ks)) as J by (rewrite Q, in_app_iff; right; now left).
      apply in_flat_map in J as (k & Ik & J). destruct k as [| | | | | |x first ss|]; cbn in J; try contradiction. destruct J as [<-|[]].
      exact (block_ok_wf _ (Hk _ Ik)).
    - apply in_map_iff in I as (l & <- & I). change (gc_other g) with (others ks) in I. apply in_flat_map in I as (k & Ik & J).
      destruct k; cbn in J; try contradiction. destruct J as [<-|[]]. apply (Hk _ Ik). }
  destruct (absorb g Wg) as (g' & Eg & Hm' & Wg' & Hlen).
  assert (map kind ks = map kind (cblocks g') /\ map block_lines ks = map block_lines (cblocks g')) as [K1 K2].
  { apply blocks_unique; auto; [intros k I; apply block_ok_wf; auto|]. now rewrite cblocks_lines, Eg, E. }
  assert (g' = g) as ->.
  { apply Hlen. pose proof (filter_same 7 _ _ K1 K2) as F. rewrite cblocks_kind in F. apply (f_equal (@length _)) in F.
    rewrite !map_length in F. rewrite <- F. change (gc_other g) with (others ks). unfold others.
    rewrite (flat_map_filter _ 7) by (intros [] N; try reflexivity; now contradiction N).
    clear. induction ks as [|k ks IH]; [reflexivity|]. cbn [filter]. destruct k; cbn [kind Nat.eqb length flat_map app]; auto. }
  split; [|exact K1].
  pose proof (fun j => filter_same j _ _ K1 K2) as F.
  split; [|split; [|split; [|split; [|split; [|split; [|split; [|split]]]]]]].
  - (* tree *) specialize (F 0). rewrite cblocks_kind in F. unfold g, normal. cbn [gc_tree].
    destruct (last_of (trees ks)) as [s|] eqn:Et; [cbn [or_else]; eapply last_tree_sha; eauto|]. exfalso.
    apply last_of_none in Et. unfold trees in Et. rewrite (flat_map_filter _ 0) in Et by (intros [] N; try reflexivity; now contradiction N).
    destruct (filter (fun k => kind k =? 0) ks) as [|k fs] eqn:Ef; [discriminate F|].
    assert (In k (filter (fun k => kind k =? 0) ks)) as I by (rewrite Ef; now left). apply filter_In in I as [_ I].
    destruct k; try discriminate I. discriminate Et.
  - intros p I. eapply parents_sha; eauto.
  - (* author *) specialize (F 2). rewrite cblocks_kind in F. change (gc_author g) with a in *.
    unfold authors in Ha. rewrite (flat_map_filter _ 2) in Ha by (intros [] N; try reflexivity; now contradiction N).
    destruct (filter (fun k => kind k =? 2) ks) as [|k [|k2 fs]] eqn:Ef; try discriminate F.
    assert (In k (filter (fun k => kind k =? 2) ks)) as I by (rewrite Ef; now left). apply filter_In in I as [Ik I].
    destruct k as [| |x p| | | | |]; try discriminate I. assert (p = a) as -> by (cbn in Ha; congruence).
    cbn [map block_lines] in F. assert (x = person_text a) as ->.
    { assert (bs "author " ++ x = bs "author " ++ person_text a) as F' by congruence. now apply app_inv_head in F'. }
    specialize (Hk _ Ik). cbn [block_ok] in Hk. apply person_line_iff in Hk. apply (person_roundtrip (bs "author")); [cbn; intuition discriminate|exact Hk].
  - (* committer *) specialize (F 3). rewrite cblocks_kind in F. change (gc_committer g) with c in *.
    unfold committers in Hc. rewrite (flat_map_filter _ 3) in Hc by (intros [] N; try reflexivity; now contradiction N).
    destruct (filter (fun k => kind k =? 3) ks) as [|k [|k2 fs]] eqn:Ef; try discriminate F.
    assert (In k (filter (fun k => kind k =? 3) ks)) as I by (rewrite Ef; now left). apply filter_In in I as [Ik I].
    destruct k as [| | |x p| | | |]; try discriminate I. assert (p = c) as -> by (cbn in Hc; congruence).
    cbn [map block_lines] in F. assert (x = person_text c) as ->.
    { assert (bs "committer " ++ x = bs "committer " ++ person_text c) as F' by congruence. now apply app_inv_head in F'. }
    specialize (Hk _ Ik). cbn [block_ok] in Hk. apply person_line_iff in Hk. apply (person_roundtrip (bs "committer")); [cbn; intuition discriminate|exact Hk].
  - (* merge tags *) specialize (F 5). rewrite cblocks_kind in F.
    set (nm := fun k => match k with KMergetag _ sha ms ml => normal_mergetag sha ms ml | _ => normal_mergetag [] [] [] end).
    assert (gc_mergetags g = map nm (filter (fun k => kind k =? 5) ks)) as Eg'.
    { unfold g, normal, mergetags. cbn [gc_mergetags]. rewrite app_nil_r. rewrite (flat_map_filter _ 5) by (intros [] N; try reflexivity; now contradiction N).
      clear. induction ks as [|k ks IH]; [reflexivity|]. cbn [filter]. destruct k; cbn [kind Nat.eqb flat_map map app nm]; rewrite ?IH; auto. }
    rewrite Eg' in F. rewrite !map_map in F.
    intros m I. rewrite Eg' in I. apply in_map_iff in I as (k & <- & I). pose proof (map_eq_in _ _ _ F k I) as Fk. cbn beta in Fk.
    apply filter_In in I as [Ik I]. destruct k as [| | | | |h sha ms ml| |]; try discriminate I. cbn [nm] in *.
    destruct (Hk _ Ik) as (Ht & Hs & Hms & Hsp). unfold mergetag_ok. split; [exact Hs|]. split; [|exact Hsp].
    cbn [block_lines mblock] in Fk. change ([?x] ++ ?y) with (x :: y) in Fk.
    assert (forall (x y : bytes) s t, x :: s = y :: t -> x = y /\ s = t) as S2 by (intros x y s t Q; split; congruence).
    apply S2 in Fk as [_ Fk]. apply app_split_first in Fk as [Fk _].
    2:{ intros J. apply in_map_iff in J as (y & Ey & J). now apply (mline_not_blank y (Hms _ J)). }
    2:{ intros J. apply in_map_iff in J as (y & Ey & J). destruct J as [<-|[<-|[<-|[]]]]; discriminate Ey. }
    destruct ms as [|m1 [|m2 [|m3 [|m4 ms]]]]; cbn [map] in Fk; try discriminate Fk.
    apply S2 in Fk as [F1 Fk]. apply S2 in Fk as [F2 Fk]. apply S2 in Fk as [F3 _].
    pose proof (Hms m1 (or_introl eq_refl)) as O1. pose proof (Hms m2 (or_intror (or_introl eq_refl))) as O2.
    pose proof (Hms m3 (or_intror (or_intror (or_introl eq_refl)))) as O3.
    assert (exists x p, m3 = MTagger x p) as (x & p & ->).
    { destruct m3 as [x|x|x p|l]; [discriminate F3|discriminate F3|eauto|]. exfalso. destruct O3 as (_ & _ & _ & N). apply N.
      cbn [mline_text] in F3. eexists. exact F3. }
    assert (exists x, m2 = MTag x) as (x2 & ->).
    { destruct m2 as [y|y|y q|l]; [discriminate F2|eauto|discriminate F2|]. exfalso. destruct O2 as (_ & _ & N & _). apply N.
      cbn [mline_text] in F2. eexists. exact F2. }
    assert (exists x, m1 = MType x) as (x1 & ->).
    { destruct m1 as [y|y|y q|l]; [eauto|discriminate F1|discriminate F1|]. exfalso. destruct O1 as (_ & N & _ & _). apply N.
      cbn [mline_text] in F1. eexists. exact F1. }
    cbn [normal_mergetag gm_tagger mtaggers flat_map last_of rev app or_else] in *.
    cbn [mline_text] in F3. apply app_inv_head in F3. subst x. cbn [mline_ok] in O3.
    apply person_line_iff in O3. apply (person_roundtrip (bs "tagger")); [cbn; intuition discriminate|exact O3].
  - intros s Es. change (last_of (signatures ks) = Some s) in Es. apply last_of_some in Es as [q Q].
    assert (In s (signatures ks)) as J by (rewrite Q, in_app_iff; right; now left).
    apply in_flat_map in J as (k & Ik & J). destruct k as [| | | | | |x first ss|]; cbn in J; try contradiction. destruct J as [<-|[]].
    apply (Hk _ Ik).
  - intros l I. change (gc_other g) with (others ks) in I. apply in_flat_map in I as (k & Ik & J).
    destruct k; cbn in J; try contradiction. destruct J as [<-|[]]. apply (Hk _ Ik).
  - (* no line taken by a merge tag *) intros Nm' Es l ls Eo. clear - Hm' Nm' Es Eo. unfold cblocks in Hm'. rewrite Es, Eo in Hm'. cbn [opt_list app map] in Hm'.
    change (KTree (hex_encode (gc_tree g)) (gc_tree g) :: ?x) with ([KTree (hex_encode (gc_tree g)) (gc_tree g)] ++ x) in Hm'.
    rewrite mergetags_end_app in Hm' by (intros k [<-|[]]; auto).
    rewrite mergetags_end_app in Hm' by (intros k I; apply in_map_iff in I as (x & <- & _); auto).
    change (KAuthor ?x ?y :: ?z :: ?w) with ([KAuthor x y; z] ++ w) in Hm'.
    rewrite mergetags_end_app in Hm' by (intros k [<-|[<-|[]]]; auto).
    rewrite mergetags_end_app in Hm' by (destruct (gc_encoding g); intros k I; cbn in I; try contradiction; destruct I as [<-|[]]; auto).
    destruct (@exists_last _ (gc_mergetags g) Nm') as (ms & m & Em). rewrite Em, map_app, <- app_assoc in Hm'. clear - Hm'.
    induction ms as [|m2 ms IH]; cbn [map app] in Hm'.
    + unfold mblock in Hm'. cbn [mergetags_end] in Hm'. apply Hm'.
    + apply IH. unfold mblock at 1 in Hm'. cbn [mergetags_end] in Hm'. apply Hm'.
  - intros l I. rewrite <- E in I. now apply Hl.
Qed.

End B.
