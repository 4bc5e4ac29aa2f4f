(** Proofs about writing and reading again and again. *)
From Verif Require Import Base GoStr Cid Types Nodes Reader Person Assemble Decode Encode Spec HeaderSpec NormalSpec SurviveSpec SettleSpec
  StreamFacts PersonFacts DecodeFacts RoundTrip CommitFacts GrammarFacts NormalFacts PrefixFacts CanonFacts SurviveFacts.

(** ** Persons *)

(** What every person that was read satisfies ([parse_person_facts]). *)
Definition person_read (p : person) : Prop :=
  name_ok (p_name p) /\
  (forall pre w post, words (p_email p) = pre ++ w :: post -> post <> [] -> ~ ends_with GT w) /\
  ~ In SP (p_date p) /\ ~ In SP (p_timezone p).

Lemma most_le k l : most l <= k <-> forall x, In x l -> x <= k.
Proof.
  induction l as [|y l IH]; [split; [intros _ x []|cbn; lia]|]. unfold most in *. cbn [fold_right]. split.
  - intros H x [<-|I]; [lia|]. apply IH; [lia|exact I].
  - intros H. assert (y <= k) by (apply H; now left). assert (fold_right Nat.max 0 l <= k); [|lia]. apply IH. intros; apply H; now right.
Qed.

Lemma drop_0 w : drop_brackets 0 w = w.
Proof. reflexivity. Qed.
Lemma strip_drop k : forall w, strip_lt (drop_brackets k w) = drop_brackets (S k) w.
Proof.
  induction k as [|k IH]; intros w.
  - destruct w as [|c w]; [reflexivity|]. destruct c; reflexivity.
  - destruct w as [|c w]; [reflexivity|]. destruct c; try reflexivity. cbn [drop_brackets]. exact (IH w).
Qed.
Lemma drop_starts k : forall w, starts_with LT (drop_brackets k w) <-> k < brackets w.
Proof.
  induction k as [|k IH]; intros w.
  - destruct w as [|c w]; [split; [intros [r E]; discriminate|cbn; lia]|]. cbn [drop_brackets]. split.
    + intros [r E]. assert (c = LT) as -> by congruence. cbn. lia.
    + intros L. destruct c; cbn in L; try lia. now exists w.
  - destruct w as [|c w]; [split; [intros [r E]; discriminate|cbn; lia]|]. destruct (byte_eqb_spec c LT) as [->|N].
    + cbn [drop_brackets brackets]. change (match LT with x3c => S (brackets w) | _ => 0 end) with (S (brackets w)).
      change (match LT with x3c => drop_brackets k w | _ => LT :: w end) with (drop_brackets k w). rewrite IH. lia.
    + assert (drop_brackets (S k) (c :: w) = c :: w) as -> by (destruct c; try reflexivity; now contradiction N).
      split; [intros [r E]; congruence|]. intros L. destruct c; cbn in L; try lia. now contradiction N.
Qed.
Lemma drop_suffix k : forall w, exists pre, w = pre ++ drop_brackets k w.
Proof.
  induction k as [|k IH]; intros w; [now exists []|]. destruct w as [|c w]; [now exists []|].
  destruct (byte_eqb_spec c LT) as [->|N].
  - destruct (IH w) as [pre E]. exists (LT :: pre). change (drop_brackets (S k) (LT :: w)) with (drop_brackets k w). cbn. congruence.
  - exists []. destruct c; try reflexivity. now contradiction N.
Qed.
Lemma drop_in k c w : In c (drop_brackets k w) -> In c w.
Proof. destruct (drop_suffix k w) as [pre E]. intros I. rewrite E. apply in_app_iff. now right. Qed.
Lemma drop_length k w : length (drop_brackets k w) <= length w.
Proof. destruct (drop_suffix k w) as [pre E]. rewrite E at 2. rewrite app_length. lia. Qed.
Lemma drop_ends k c w : ends_with c (drop_brackets k w) -> ends_with c w.
Proof. intros [r E]. destruct (drop_suffix k w) as [pre F]. exists (pre ++ r). rewrite F, E. now rewrite app_assoc. Qed.

Lemma words_cons e : exists e0 es, words e = e0 :: es /\ forall w, In w (e0 :: es) -> ~ In SP w.
Proof.
  destruct (words e) as [|e0 es] eqn:E; [now apply split_on_nonempty in E|]. exists e0, es. split; [reflexivity|].
  rewrite <- E. apply split_on_no_sep.
Qed.
Lemma email_after_words k e e0 es : words e = e0 :: es -> words (email_after k e) = e0 :: map (drop_brackets k) es.
Proof.
  intros E. unfold email_after. rewrite E. apply split_join; [discriminate|].
  assert (forall w, In w (e0 :: es) -> ~ In SP w) as N by (rewrite <- E; apply split_on_no_sep).
  intros w [<-|I]; [apply N; now left|]. apply in_map_iff in I as (v & <- & I). intros J. apply drop_in in J. apply (N v); [now right|exact J].
Qed.
Lemma email_after_0 e : email_after 0 e = e.
Proof. destruct (words_cons e) as (e0 & es & E & _). unfold email_after. rewrite E. cbn [drop_brackets]. rewrite map_id, <- E. apply words_join. Qed.
Lemma person_after_0 p : person_after 0 p = p.
Proof. destruct p as [d z em nm]. unfold person_after. cbn [p_date p_timezone p_email p_name]. now rewrite email_after_0. Qed.

Lemma person_after_read k p : person_read p -> person_read (person_after k p).
Proof.
  intros (Hn & Hg & Hd & Hz). split; [exact Hn|]. split; [|split].
  - intros pre w post E Np. cbn [person_after p_email] in E. destruct (words_cons (p_email p)) as (e0 & es & Ew & _).
    rewrite (email_after_words k _ e0 es Ew) in E. destruct pre as [|x pre].
    + cbn [app] in E. apply cons_eq in E as [<- E]. apply (Hg [] e0 es); [exact Ew|]. intros ->. now rewrite <- E in Np.
    + cbn [app] in E. apply cons_eq in E as [<- E]. apply map_eq_app in E as (es1 & es2 & -> & <- & E2).
      destruct es2 as [|v es2]; [discriminate|]. cbn [map] in E2. apply cons_eq in E2 as [<- <-].
      intros W. apply drop_ends in W. apply (Hg (e0 :: es1) v es2); [exact Ew| |exact W]. intros ->. now apply Np.
  - cbn [person_after p_date]. destruct k, (p_date p); auto.
  - cbn [person_after p_timezone]. destruct k, (p_date p); auto.
Qed.

Lemma person_again label k p : ~ In SP label -> person_read p ->
  parse_person (label ++ [SP] ++ person_text (person_after k p)) = Ok (person_after (S k) p).
Proof.
  intros Hl Hp. destruct (words_cons (p_email p)) as (e0 & es & Ew & _).
  destruct (person_after_read k p Hp) as (Hn & Hg & Hd & Hz).
  rewrite (parse_person_text label (person_after k p) e0 (map (drop_brackets k) es)); auto.
  2:{ now apply email_after_words. }
  f_equal. rewrite map_map.
  assert (join SP (e0 :: map (fun x => strip_lt (drop_brackets k x)) es) = email_after (S k) (p_email p)) as ->.
  { unfold email_after. rewrite Ew. do 2 f_equal. apply map_ext. intros; apply strip_drop. }
  unfold tail_words, person_after. cbn [p_name p_date p_timezone].
  destruct k; destruct (p_date p) as [|d0 d]; destruct (p_timezone p); reflexivity.
Qed.

Lemma person_settled k p : person_read p -> (person_ok (person_after k p) <-> person_rounds p <= k).
Proof.
  intros Hp. destruct (words_cons (p_email p)) as (e0 & es & Ew & _). pose proof (email_after_words k _ e0 es Ew) as Ek.
  unfold person_rounds. rewrite Ew. cbn [tl]. split.
  - intros (_ & [_ Hs] & _ & _ & Hz).
    assert (most (map brackets es) <= k) as L1.
    { apply most_le. intros x I. apply in_map_iff in I as (w & <- & I). apply in_split in I as (a & b & ->).
      assert (~ starts_with LT (drop_brackets k w)) as N.
      { apply (Hs (e0 :: map (drop_brackets k) a) _ (map (drop_brackets k) b)); [|discriminate]. cbn [person_after p_email]. rewrite Ek, map_app. reflexivity. }
      rewrite drop_starts in N. lia. }
    destruct k; [|destruct (p_date p), (p_timezone p); lia].
    cbn [person_after p_date p_timezone] in Hz. destruct (p_date p); [rewrite (Hz eq_refl); lia|lia].
  - intros L. destruct (person_after_read k p Hp) as (Hn & Hg & Hd & Hz).
    split; [exact Hn|]. split; [split; [exact Hg|]|split; [exact Hd|split; [exact Hz|]]].
    + intros pre w post E Np. cbn [person_after p_email] in E. rewrite Ek in E. destruct pre as [|x pre]; [congruence|].
      cbn [app] in E. apply cons_eq in E as [_ E]. apply map_eq_app in E as (a & b & -> & _ & E).
      destruct b as [|v b]; [discriminate|]. cbn [map] in E. apply cons_eq in E as [<- _]. rewrite drop_starts.
      assert (brackets v <= k); [|lia]. apply (proj1 (most_le k (map brackets (a ++ v :: b)))); [lia|]. apply in_map, in_app_iff. right. now left.
    + cbn [person_after p_date p_timezone]. destruct k; [|destruct (p_date p); [auto|discriminate]].
      destruct (p_date p); [|discriminate]. destruct (p_timezone p); [auto|lia].
Qed.

(** The text only loses brackets. *)
Definition tail_text (p : person) : bytes :=
  bs ">" ++ match p_date p with [] => [] | d => [SP] ++ d end ++ match p_timezone p with [] => [] | z => [SP] ++ z end.
Lemma person_after_text k p : person_text (person_after k p) = p_name p ++ bs " <" ++ email_after k (p_email p) ++ tail_text p.
Proof. unfold person_text, tail_text, person_after. cbn [p_name p_email p_date p_timezone]. destruct k, (p_date p), (p_timezone p); rewrite ?app_nil_r; reflexivity. Qed.
Lemma email_after_length k e : length (email_after k e) <= length e.
Proof.
  destruct (words_cons e) as (e0 & es & E & _). unfold email_after. rewrite E. rewrite <- (words_join e) at 1. rewrite E.
  assert (S (length (join SP (e0 :: map (drop_brackets k) es))) <= S (length (join SP (e0 :: es)))); [|lia].
  rewrite !join_size by discriminate. cbn [wsize]. assert (wsize (map (drop_brackets k) es) <= wsize es); [|lia]. clear.
  induction es as [|w es IH]; [cbn; lia|]. cbn [map wsize]. pose proof (drop_length k w). lia.
Qed.
Lemma email_after_in k c e : c <> SP -> In c (email_after k e) -> In c e.
Proof.
  intros N. destruct (words_cons e) as (e0 & es & E & _). unfold email_after. rewrite E. intros I.
  apply in_join in I as [I|(w & Iw & I)]; [congruence|].
  destruct Iw as [<-|Iw]; [apply (in_words c e e0); [rewrite E; now left|exact I]|].
  apply in_map_iff in Iw as (v & <- & Iv). apply (in_words c e v); [rewrite E; now right|]. eapply drop_in; eauto.
Qed.
Lemma ends_app c a b : b <> [] -> (ends_with c (a ++ b) <-> ends_with c b).
Proof.
  intros N. split.
  - intros [r E]. destruct (rev_case b) as [->|(b' & x & ->)]; [congruence|]. rewrite app_assoc in E. apply app_inj_tail in E as [_ ->]. now exists b'.
  - intros [r ->]. exists (a ++ r). now rewrite app_assoc.
Qed.
Lemma person_after_line B k w p : line_ok B (w ++ person_text p) -> line_ok B (w ++ person_text (person_after k p)).
Proof.
  rewrite <- (person_after_0 p) at 1. rewrite !person_after_text, email_after_0. intros (N & C & L).
  assert (tail_text p <> []) as Nt by discriminate. split; [|split].
  - intros I. apply N. rewrite !in_app_iff in *. destruct I as [I|[I|[I|[I|I]]]]; auto. apply email_after_in in I; [auto|discriminate].
  - intros I. apply C. rewrite !app_assoc in *. rewrite ends_app in * by exact Nt. exact I.
  - rewrite !app_length in *. pose proof (email_after_length k (p_email p)). lia.
Qed.

(** ** Commits, as texts *)
Definition gm_after (k : nat) (m : gmergetag) : gmergetag :=
  {| gm_object := gm_object m; gm_type := gm_type m; gm_tag := gm_tag m; gm_tagger := person_after k (gm_tagger m); gm_message := gm_message m |}.
Definition gpersons (k : nat) (g : gcommit) : gcommit :=
  {| gc_tree := gc_tree g; gc_parents := gc_parents g; gc_author := person_after k (gc_author g); gc_committer := person_after k (gc_committer g);
     gc_encoding := gc_encoding g; gc_mergetags := map (gm_after k) (gc_mergetags g); gc_signature := gc_signature g;
     gc_other := gc_other g; gc_message := gc_message g |}.
Definition gtaken (g : gcommit) : list bytes :=
  match gc_mergetags g, gc_signature g with _ :: _, None => fst (indented (gc_other g)) | _, _ => [] end.
Definition gadd (m : gmergetag) (ls : list bytes) : gmergetag :=
  {| gm_object := gm_object m; gm_type := gm_type m; gm_tag := gm_tag m; gm_tagger := gm_tagger m; gm_message := gm_message m ++ ls |}.
Fixpoint gadd_to_last (ms : list gmergetag) (ls : list bytes) : list gmergetag :=
  match ms with [] => [] | [m] => [gadd m ls] | m :: ms' => m :: gadd_to_last ms' ls end.
Definition gmove (ls : list bytes) (g : gcommit) : gcommit :=
  {| gc_tree := gc_tree g; gc_parents := gc_parents g; gc_author := gc_author g; gc_committer := gc_committer g;
     gc_encoding := gc_encoding g; gc_mergetags := gadd_to_last (gc_mergetags g) ls; gc_signature := gc_signature g;
     gc_other := skipn (length ls) (gc_other g); gc_message := gc_message g |}.
Definition gafter (k : nat) (g : gcommit) : gcommit :=
  gpersons k (gmove (match k with 0 => [] | S _ => gtaken g end) g).

Lemma indented_split ls : forall a b, indented ls = (a, b) -> ls = a ++ b /\ (forall l, In l a -> starts_with SP l) /\
  match b with [] => True | l :: _ => ~ starts_with SP l end.
Proof.
  induction ls as [|l ls IH]; intros a b E; [cbn in E; injection E as <- <-; split; [reflexivity|split; [intros ? []|exact Logic.I]]|].
  cbn [indented] in E. destruct l as [|c l]; [|destruct (byte_eqb_spec c SP) as [->|N]].
  - injection E as <- <-. split; [reflexivity|]. split; [intros ? []|intros [r R]; discriminate].
  - destruct (indented ls) as [a' b'] eqn:F. assert (a = (SP :: l) :: a' /\ b = b') as [-> ->] by (injection E as <- <-; auto).
    destruct (IH a' b' eq_refl) as (-> & H1 & H2). split; [reflexivity|]. split; [|exact H2].
    intros x [<-|I]; [now exists l|auto].
  - assert (a = [] /\ b = (c :: l) :: ls) as [-> ->] by (destruct c; try (split; congruence); now contradiction N).
    split; [reflexivity|]. split; [intros ? []|]. intros [r R]. congruence.
Qed.
Lemma skipn_app_length {A} (a b : list A) : skipn (length a) (a ++ b) = b.
Proof. induction a; auto. Qed.
Lemma taken_split g : gc_other g = gtaken g ++ skipn (length (gtaken g)) (gc_other g) /\
  (forall l, In l (gtaken g) -> starts_with SP l) /\
  (gc_mergetags g <> [] -> gc_signature g = None -> forall l ls, skipn (length (gtaken g)) (gc_other g) = l :: ls -> ~ starts_with SP l).
Proof.
  unfold gtaken. destruct (indented (gc_other g)) as [a b] eqn:E. destruct (indented_split _ _ _ E) as (Eo & H1 & H2).
  destruct (gc_mergetags g) as [|m ms] eqn:Em; [split; [reflexivity|split; [intros ? []|congruence]]|].
  destruct (gc_signature g) as [sg|]; [split; [reflexivity|split; [intros ? []|congruence]]|].
  cbn [fst]. rewrite Eo, skipn_app_length. split; [reflexivity|]. split; [exact H1|]. intros _ _ l ls ->. exact H2.
Qed.
Lemma gadd_to_last_snoc ms m ls : gadd_to_last (ms ++ [m]) ls = ms ++ [gadd m ls].
Proof.
  induction ms as [|x ms IH]; [reflexivity|]. cbn [app gadd_to_last]. destruct (ms ++ [m]) eqn:E; [destruct ms; discriminate|]. now rewrite IH.
Qed.
Lemma gadd_nil m : gadd m [] = m.
Proof. destruct m. unfold gadd. cbn. now rewrite app_nil_r. Qed.
Lemma gadd_to_last_nil ms : gadd_to_last ms [] = ms.
Proof.
  induction ms as [|m ms IH]; [reflexivity|]. cbn [gadd_to_last]. destruct ms; [now rewrite gadd_nil|]. now rewrite IH.
Qed.
Lemma gmove_nil g : gmove [] g = g.
Proof. destruct g. unfold gmove. cbn. now rewrite gadd_to_last_nil. Qed.
Lemma gm_after_0 m : gm_after 0 m = m.
Proof. destruct m as [o t n p l]. unfold gm_after. cbn. now rewrite person_after_0. Qed.
Lemma gpersons_0 g : gpersons 0 g = g.
Proof.
  destruct g as [t ps a c e ms s o m]. unfold gpersons. cbn [Spec.gc_tree Spec.gc_parents Spec.gc_author Spec.gc_committer Spec.gc_encoding Spec.gc_mergetags Spec.gc_signature Spec.gc_other Spec.gc_message].
  rewrite !person_after_0, (map_ext _ (fun m => m)), map_id by apply gm_after_0. reflexivity.
Qed.
Lemma gafter_0 g : gafter 0 g = g.
Proof. unfold gafter. now rewrite gmove_nil, gpersons_0. Qed.

(** The lines that change hands stay where they are in the text. *)
Lemma gmove_lines g : commit_lines (gmove (gtaken g) g) = commit_lines g.
Proof.
  destruct (gtaken g) as [|t ts] eqn:Et; [now rewrite gmove_nil|]. rewrite <- Et.
  destruct (taken_split g) as (Eo & _). 
  assert (gc_signature g = None /\ exists ms m, gc_mergetags g = ms ++ [m]) as (Es & ms & m & Em).
  { unfold gtaken in Et. destruct (gc_mergetags g) as [|m0 ms0]; [discriminate|]. destruct (gc_signature g); [discriminate|]. split; [reflexivity|].
    destruct (@exists_last _ (m0 :: ms0)) as (ms & m & E); [discriminate|]. eauto. }
  unfold commit_lines, gmove. cbn [gc_tree gc_parents gc_author gc_committer gc_encoding gc_mergetags gc_signature gc_other].
  rewrite Es. cbn [opt_list]. rewrite Em, gadd_to_last_snoc, !map_app, !concat_app. rewrite Eo at 2. cbn [map concat].
  unfold mergetag_lines at 2 4. cbn [gadd gm_object gm_type gm_tag gm_tagger gm_message]. lnorm. reflexivity.
Qed.

(** What every commit that was read, has a tree and is written in lines that fit satisfies. *)
Record commit_read (B : nat) (g : gcommit) : Prop := {
  cr_tree : is_sha (gc_tree g);
  cr_parents : forall p, In p (gc_parents g) -> is_sha p;
  cr_author : person_read (gc_author g);
  cr_committer : person_read (gc_committer g);
  cr_mergetags : forall m, In m (gc_mergetags g) ->
    is_sha (gm_object m) /\ person_read (gm_tagger m) /\ forall l, In l (gm_message m) -> starts_with SP l;
  cr_signature : forall s, gc_signature g = Some s -> signature_ok s;
  cr_other : forall l, In l (gc_other g) -> l <> [] /\ ~ is_header l;
  cr_lines : forall l, In l (commit_lines g) -> line_ok B l
}.

Lemma encode_commit_value g : is_sha (gc_tree g) -> (forall p, In p (gc_parents g) -> is_sha p) ->
  (forall m, In m (gc_mergetags g) -> is_sha (gm_object m)) ->
  encode_bytes (NCommit (commit_value g)) = Ok (git_object (bs "commit") (commit_text g)).
Proof.
  intros Ht Hp Hm. apply encode_bytes_framed. cbn [encode_node]. unfold encode_commit. cbn [assign_commit].
  unfold commit_body, commit_value. cbn [c_tree c_parents c_author c_committer c_mergetag c_signature c_other c_encoding c_message].
  rewrite link_sha_git by exact Ht. cbn [bind].
  rewrite (concat_res_map parent_body git_link (fun p => [bs "parent " ++ hex_encode p])).
  2:{ intros p I. unfold parent_body. rewrite link_sha_git by auto. cbn [bind]. rewrite unlines_cons, unlines_nil. lnorm. reflexivity. }
  cbn [bind git_string_ptr].
  rewrite (concat_res_map mergetag_body mergetag_value mergetag_lines) by (intros m I; apply mergetag_body_value; auto).
  cbn [bind]. rewrite concat_map_single, !git_string_text. do 2 f_equal.
  unfold commit_text, commit_lines. rewrite !unlines_app, !unlines_cons, unlines_nil. fold (unlines (gc_other g)).
  destruct (gc_encoding g) as [e|]; destruct (gc_signature g) as [[s0 ss]|]; cbn [opt_list option_map fst snd];
    rewrite ?unlines_nil, ?unlines_cons, ?unlines_nil; unfold signature_lines; cbn [fst snd];
    rewrite ?unlines_app, ?unlines_cons, ?unlines_nil; lnorm; reflexivity.
Qed.

Lemma in_gadd ms ls m : In m (gadd_to_last ms ls) -> exists m0, In m0 ms /\ (m = m0 \/ m = gadd m0 ls).
Proof.
  induction ms as [|x ms IH]; [intros []|]. cbn [gadd_to_last]. destruct ms as [|y ms].
  - intros [<-|[]]. exists x. split; [now left|now right].
  - intros [<-|I]; [exists x; split; [now left|now left]|]. destruct (IH I) as (m0 & I0 & H). exists m0. split; [now right|exact H].
Qed.

Lemma gmove_read B g : commit_read B g -> commit_read B (gmove (gtaken g) g).
Proof.
  intros [H1 H2 H3 H4 H5 H6 H7 H8]. destruct (taken_split g) as (Eo & Sp & _). split; try assumption.
  - cbn [gmove gc_mergetags]. intros m I. apply in_gadd in I as (m0 & I & [->| ->]); [auto|]. destruct (H5 m0 I) as (A1 & A2 & A3).
    split; [exact A1|]. split; [exact A2|]. cbn [gadd gm_message]. intros l J. apply in_app_iff in J as [J|J]; auto.
  - cbn [gmove gc_other]. intros l I. apply H7. rewrite Eo. apply in_app_iff. now right.
  - intros l I. rewrite gmove_lines in I. auto.
Qed.

Lemma gpersons_read B k g : commit_read B g -> commit_read B (gpersons k g).
Proof.
  intros [H1 H2 H3 H4 H5 H6 H7 H8]. split; try assumption.
  - now apply person_after_read.
  - now apply person_after_read.
  - cbn [gpersons gc_mergetags]. intros m I. apply in_map_iff in I as (m0 & <- & I). destruct (H5 m0 I) as (A1 & A2 & A3).
    split; [exact A1|]. split; [now apply person_after_read|exact A3].
  - intros l I. unfold commit_lines in I, H8. cbn [gpersons gc_tree gc_parents gc_author gc_committer gc_encoding gc_mergetags gc_signature gc_other] in I.
    rewrite !in_app_iff in I. destruct I as [I|[I|[[<-|[<-|[]]]|[I|[I|I]]]]].
    + apply H8. rewrite !in_app_iff. now left.
    + apply H8. rewrite !in_app_iff. now (right; left).
    + apply person_after_line, H8. rewrite !in_app_iff. right; right; left. now left.
    + apply person_after_line, H8. rewrite !in_app_iff. right; right; left. right; now left.
    + apply H8. rewrite !in_app_iff. tauto.
    + rewrite map_map in I. apply in_concat in I as (ls & Il & I). apply in_map_iff in Il as (m & <- & Im).
      assert (forall x, In x (mergetag_lines m) -> line_ok B x) as Hm.
      { intros x J. apply H8. rewrite !in_app_iff. do 4 right. left. apply in_concat. exists (mergetag_lines m). split; [now apply in_map|exact J]. }
      unfold mergetag_lines in I, Hm. cbn [gm_after gm_object gm_type gm_tag gm_tagger gm_message] in I. cbn [app In] in I, Hm.
      destruct I as [<-|[<-|[<-|[<-|[<-|I]]]]]; try (apply Hm; tauto). apply person_after_line, Hm. tauto.
    + apply H8. rewrite !in_app_iff. tauto.
Qed.
Lemma gafter_read B k g : commit_read B g -> commit_read B (gafter k g).
Proof. intros H. unfold gafter. apply gpersons_read. destruct k; [now rewrite gmove_nil|now apply gmove_read]. Qed.

(** One more round. *)
Lemma person_after_S k p : person_read p -> person_after 1 (person_after k p) = person_after (S k) p.
Proof.
  intros H. pose proof (person_again (bs "x") k p ltac:(cbn; intuition discriminate) H) as E1.
  pose proof (person_again (bs "x") 0 (person_after k p) ltac:(cbn; intuition discriminate) (person_after_read k p H)) as E2.
  rewrite person_after_0 in E2. congruence.
Qed.
Lemma gadd_to_last_after k ms ls : map (gm_after k) (gadd_to_last ms ls) = gadd_to_last (map (gm_after k) ms) ls.
Proof.
  induction ms as [|m ms IH]; [reflexivity|]. cbn [gadd_to_last map]. destruct ms as [|y ms]; [reflexivity|]. cbn [map]. now rewrite IH.
Qed.
Lemma gadd_to_last_empty ms ls : gadd_to_last ms ls = [] <-> ms = [].
Proof. destruct ms as [|m [|y ms]]; cbn [gadd_to_last]; split; congruence. Qed.
Lemma indented_none ls : match ls with [] => True | l :: _ => ~ starts_with SP l end -> indented ls = ([], ls).
Proof.
  destruct ls as [|[|c l] ls]; try reflexivity. intros N. cbn [indented]. destruct c; try reflexivity. contradiction N. now exists l.
Qed.
Lemma gtaken_none g : gtaken (gmove (gtaken g) g) = [].
Proof.
  destruct (taken_split g) as (_ & _ & H). unfold gtaken at 1. cbn [gmove gc_mergetags gc_signature gc_other].
  destruct (gc_signature g) eqn:Es; [now destruct (gadd_to_last _ _)|].
  destruct (gadd_to_last (gc_mergetags g) (gtaken g)) eqn:Em; [reflexivity|].
  rewrite indented_none; [reflexivity|]. destruct (skipn _ _) eqn:Ek; [exact Logic.I|]. eapply H; eauto. intros X. rewrite X in Em. discriminate.
Qed.
Lemma gtaken_persons k g : gtaken (gpersons k g) = gtaken g.
Proof. unfold gtaken. cbn [gpersons gc_mergetags gc_signature gc_other]. now destruct (gc_mergetags g). Qed.
Lemma gmove_persons k ls g : gmove ls (gpersons k g) = gpersons k (gmove ls g).
Proof. unfold gmove, gpersons. cbn [gc_tree gc_parents gc_author gc_committer gc_encoding gc_mergetags gc_signature gc_other gc_message]. now rewrite gadd_to_last_after. Qed.
Lemma gpersons_S B k g : commit_read B g -> gpersons 1 (gpersons k g) = gpersons (S k) g.
Proof.
  intros H. unfold gpersons. cbn [gc_tree gc_parents gc_author gc_committer gc_encoding gc_mergetags gc_signature gc_other gc_message].
  rewrite !person_after_S by apply H. f_equal. rewrite map_map. apply map_ext_in. intros m I. unfold gm_after. cbn [gm_object gm_type gm_tag gm_tagger gm_message].
  rewrite person_after_S; [reflexivity|]. now apply (cr_mergetags B g H).
Qed.
Lemma gafter_S B k g : commit_read B g -> gafter 1 (gafter k g) = gafter (S k) g.
Proof.
  intros H. destruct k as [|k]; [now rewrite gafter_0|]. unfold gafter at 1 2. rewrite gtaken_persons, gtaken_none, gmove_nil.
  unfold gafter. apply (gpersons_S B). now apply gmove_read.
Qed.

(** Reading the text of a commit: the persons change, the rest is what it was. *)
Definition mrepl (m : mline) : mline := match m with MTagger x p => MTagger x (person_after 1 p) | m => m end.
Definition repl (k : block) : block :=
  match k with
  | KAuthor x p => KAuthor x (person_after 1 p)
  | KCommitter x p => KCommitter x (person_after 1 p)
  | KMergetag h sha ms msg => KMergetag h sha (map mrepl ms) msg
  | k => k
  end.
Lemma repl_lines ks : header_lines (map repl ks) = header_lines ks.
Proof.
  unfold header_lines. rewrite map_map. f_equal. apply map_ext. intros k. destruct k; try reflexivity.
  cbn [repl block_lines]. rewrite map_map. do 2 f_equal. apply map_ext. now intros [].
Qed.
Lemma repl_end ks en : mergetags_end ks en -> mergetags_end (map repl ks) en.
Proof.
  induction ks as [|k ks IH]; [auto|]. cbn [map]. destruct k; cbn [repl mergetags_end]; auto.
  intros [H1 H2]. split; [|auto]. destruct ks as [|[] ks]; auto.
Qed.
Lemma person_text_again w p : ~ In SP w -> person_read p -> person_line (w ++ [SP] ++ person_text p) (person_after 1 p).
Proof. intros N H. apply person_line_iff. pose proof (person_again w 0 p N H) as E. now rewrite person_after_0 in E. Qed.

Lemma repl_ok B g : commit_read B g -> forall k, In k (map repl (cblocks g)) -> block_ok k.
Proof.
  intros [Ht Hp Ha Hc Hms Hsg Ho Hl] k I. apply in_map_iff in I as (k0 & <- & I). unfold cblocks in I. rewrite !in_app_iff in I.
  destruct I as [[<-|[]]|[I|[[<-|[<-|[]]]|[I|[I|[I|I]]]]]]; cbn [repl].
  - split; [apply hex_text_encode|exact Ht].
  - apply in_map_iff in I as (x & <- & I). split; [apply hex_text_encode|now apply Hp].
  - apply (person_text_again (bs "author")); [cbn; intuition discriminate|exact Ha].
  - apply (person_text_again (bs "committer")); [cbn; intuition discriminate|exact Hc].
  - destruct (gc_encoding g); [|destruct I]. destruct I as [<-|[]]. exact Logic.I.
  - apply in_map_iff in I as (m & <- & I). destruct (Hms m I) as (H1 & H2 & H3). cbn [mblock repl block_ok].
    split; [apply hex_text_encode|]. split; [exact H1|]. split; [|exact H3].
    intros y [<-|[<-|[<-|[]]]]; try exact Logic.I. apply (person_text_again (bs "tagger")); [cbn; intuition discriminate|exact H2].
  - destruct (gc_signature g) as [sg|] eqn:Es; [|destruct I]. destruct I as [<-|[]]. specialize (Hsg sg eq_refl). destruct sg. exact Hsg.
  - apply in_map_iff in I as (l & <- & I). exact (Ho l I).
Qed.

Lemma flat_map_repl {A C} (f : block -> list A) (h : A -> C) (f' : block -> list C) ks : (forall k, f' (repl k) = map h (f k)) ->
  flat_map f' (map repl ks) = map h (flat_map f ks).
Proof. intros H. induction ks as [|k ks IH]; [reflexivity|]. cbn [map flat_map]. now rewrite H, IH, map_app. Qed.
Lemma flat_map_repl_id {A} (f : block -> list A) ks : (forall k, f (repl k) = f k) -> flat_map f (map repl ks) = flat_map f ks.
Proof. intros H. induction ks as [|k ks IH]; [reflexivity|]. cbn [map flat_map]. now rewrite H, IH. Qed.
Lemma last_of_map {A C} (f : A -> C) l : last_of (map f l) = option_map f (last_of l).
Proof. unfold last_of. rewrite <- map_rev. now destruct (rev l). Qed.

Lemma mergetags_cblocks g : mergetags (cblocks g) (EndMessage (gc_message g)) = gc_mergetags g.
Proof.
  unfold mergetags. rewrite app_nil_r, (flat_map_filter _ 5) by (intros [] N; try reflexivity; now contradiction N). rewrite cblocks_kind.
  induction (gc_mergetags g) as [|m ms IH]; [reflexivity|]. cbn [map flat_map]. unfold mblock at 1. rewrite IH. now destruct m.
Qed.
Lemma repl_normal ks en a c : last_of (authors ks) = Some a -> last_of (committers ks) = Some c ->
  (forall h sha ms, en <> EndMergetag h sha ms) -> normal (map repl ks) en (person_after 1 a) (person_after 1 c) = gpersons 1 (normal ks en a c).
Proof.
  intros Ha Hc Hen. unfold normal, gpersons. cbn [gc_tree gc_parents gc_author gc_committer gc_encoding gc_mergetags gc_signature gc_other gc_message].
  unfold trees, parents, encodings, signatures, others, mergetags.
  rewrite (flat_map_repl (fun k => match k with KMergetag _ sha ms msg => [normal_mergetag sha ms msg] | _ => [] end) (gm_after 1)).
  2:{ intros []; try reflexivity. cbn [repl map]. f_equal. unfold normal_mergetag, gm_after. cbn [gm_object gm_type gm_tag gm_tagger gm_message].
      assert (mtypes (map mrepl ms) = mtypes ms) as -> by (unfold mtypes; clear; induction ms as [|[] ms IH]; cbn; congruence).
      assert (mtags (map mrepl ms) = mtags ms) as -> by (unfold mtags; clear; induction ms as [|[] ms IH]; cbn; congruence).
      assert (mtaggers (map mrepl ms) = map (person_after 1) (mtaggers ms)) as -> by (unfold mtaggers; clear; induction ms as [|[] ms IH]; cbn [map flat_map mrepl app]; congruence).
      rewrite last_of_map. now destruct (last_of (mtaggers ms)). }
  rewrite !flat_map_repl_id by (now intros []).
  rewrite map_app. destruct en; [cbn [map]; now rewrite !app_nil_r..|]. exfalso. eapply Hen. reflexivity.
Qed.
Lemma authors_repl ks : authors (map repl ks) = map (person_after 1) (authors ks).
Proof. unfold authors. apply flat_map_repl. now intros []. Qed.
Lemma committers_repl ks : committers (map repl ks) = map (person_after 1) (committers ks).
Proof. unfold committers. apply flat_map_repl. now intros []. Qed.
Lemma trees_repl ks : trees (map repl ks) = trees ks.
Proof. apply flat_map_repl_id. now intros []. Qed.

Lemma cblocks_normal g : normal (cblocks g) (EndMessage (gc_message g)) (gc_author g) (gc_committer g) = g /\
  trees (cblocks g) = [gc_tree g] /\ authors (cblocks g) = [gc_author g] /\ committers (cblocks g) = [gc_committer g].
Proof.
  assert (trees (cblocks g) = [gc_tree g]) as Et.
  { unfold trees. rewrite (flat_map_filter _ 0) by (intros [] N; try reflexivity; now contradiction N). now rewrite cblocks_kind. }
  assert (authors (cblocks g) = [gc_author g]) as Ea.
  { unfold authors. rewrite (flat_map_filter _ 2) by (intros [] N; try reflexivity; now contradiction N). now rewrite cblocks_kind. }
  assert (committers (cblocks g) = [gc_committer g]) as Ec.
  { unfold committers. rewrite (flat_map_filter _ 3) by (intros [] N; try reflexivity; now contradiction N). now rewrite cblocks_kind. }
  split; [|auto]. unfold normal. rewrite Et, mergetags_cblocks.
  assert (parents (cblocks g) = gc_parents g) as ->.
  { unfold parents. rewrite (flat_map_filter _ 1) by (intros [] N; try reflexivity; now contradiction N). rewrite cblocks_kind.
    induction (gc_parents g) as [|p ps IH]; [reflexivity|]. cbn [map flat_map app]. now rewrite IH. }
  assert (last_of (encodings (cblocks g)) = gc_encoding g) as ->.
  { unfold encodings. rewrite (flat_map_filter _ 4) by (intros [] N; try reflexivity; now contradiction N). rewrite cblocks_kind.
    now destruct (gc_encoding g). }
  assert (last_of (signatures (cblocks g)) = gc_signature g) as ->.
  { unfold signatures. rewrite (flat_map_filter _ 6) by (intros [] N; try reflexivity; now contradiction N). rewrite cblocks_kind.
    destruct (gc_signature g) as [[]|]; reflexivity. }
  assert (others (cblocks g) = gc_other g) as ->.
  { unfold others. rewrite (flat_map_filter _ 7) by (intros [] N; try reflexivity; now contradiction N). rewrite cblocks_kind.
    induction (gc_other g) as [|p ps IH]; [reflexivity|]. cbn [map flat_map app]. now rewrite IH. }
  now destruct g.
Qed.

Lemma commit_again B g : 64 <= B -> commit_read B g -> commit_means B (commit_text g) (commit_value (gafter 1 g)).
Proof.
  intros HB H. set (g' := gmove (gtaken g) g). pose proof (gmove_read B g H) as H'. fold g' in H'.
  exists (map repl (cblocks g')), (EndMessage (gc_message g')).
  destruct (cblocks_normal g') as (En & Et & Ea & Ec).
  split; [|split; [now apply (repl_ok B)|split; [exact Logic.I|split]]].
  - rewrite repl_lines, cblocks_lines. unfold g' at 1. rewrite gmove_lines. cbn [ending_lines ending_rest].
    apply reads_app. exists ([NL] ++ gc_message g'). split; [|now apply reads_one, takes_nil_nl].
    change (gc_message g') with (gc_message g). unfold commit_text. apply reads_unlines, H.
  - apply repl_end. assert (mergetags_end (cblocks g') (EndMessage [])) as E.
    { apply cblocks_end. destruct (taken_split g) as (_ & _ & T). cbn [g' gmove gc_mergetags gc_signature gc_other]. intros N. apply T. intros X. apply N. now rewrite X. }
    revert E. generalize (cblocks g') as ks. induction ks as [|k ks IH]; [auto|]. destruct k; cbn [mergetags_end]; auto.
    intros [E1 E2]. split; [|auto]. destruct ks as [|[] ks]; auto. discriminate.
  - assert (last_of (authors (cblocks g')) = Some (gc_author g')) as La by now rewrite Ea.
    assert (last_of (committers (cblocks g')) = Some (gc_committer g')) as Lc by now rewrite Ec.
    rewrite (normal_value _ _ (person_after 1 (gc_author g')) (person_after 1 (gc_committer g')) (gc_tree g')).
    + rewrite (repl_normal _ _ (gc_author g') (gc_committer g')) by (auto; discriminate). now rewrite En.
    + now rewrite authors_repl, Ea.
    + now rewrite committers_repl, Ec.
    + now rewrite trees_repl, Et.
Qed.

(** ** Commits, as values *)
Lemma add_to_last_value ms ls : map mergetag_value (gadd_to_last ms ls) = add_to_last (map mergetag_value ms) ls.
Proof.
  induction ms as [|m ms IH]; [reflexivity|]. cbn [gadd_to_last map add_to_last]. destruct ms as [|y ms].
  - cbn [map]. do 2 f_equal. unfold mergetag_value, add_lines. cbn [gadd gm_object gm_type gm_tag gm_tagger gm_message t_object t_type t_tag t_tagger t_message]. now rewrite unlines_app.
  - cbn [map] in *. now rewrite IH.
Qed.
Lemma taken_value g : taken (commit_value g) = gtaken g.
Proof. unfold taken, gtaken. cbn [commit_value c_mergetag c_signature c_other]. destruct (gc_mergetags g), (gc_signature g); reflexivity. Qed.
Lemma gafter_value k g : commit_value (gafter k g) = commit_after k (commit_value g).
Proof.
  unfold commit_after. rewrite taken_value. unfold gafter, commit_value, gpersons, gmove.
  cbn [gc_tree gc_parents gc_author gc_committer gc_encoding gc_mergetags gc_signature gc_other gc_message
       c_tree c_parents c_author c_committer c_mergetag c_signature c_other c_encoding c_message option_map].
  f_equal. rewrite <- add_to_last_value, !map_map. apply map_ext. now intros [].
Qed.
Lemma commit_after_0 c : commit_after 0 c = c.
Proof.
  destruct c as [t ps m a cm e s ms o]. unfold commit_after. cbn [c_tree c_parents c_author c_committer c_mergetag c_signature c_other c_encoding c_message length skipn].
  f_equal.
  - destruct a; cbn; [now rewrite person_after_0|reflexivity].
  - destruct cm; cbn; [now rewrite person_after_0|reflexivity].
  - assert (add_to_last ms [] = ms) as ->.
    { induction ms as [|x ms IH]; [reflexivity|]. cbn [add_to_last]. destruct ms; [|now rewrite IH]. destruct x. unfold add_lines, unlines. cbn. now rewrite app_nil_r. }
    rewrite <- (map_id ms) at 2. apply map_ext. intros []. unfold tag_after. cbn. now rewrite person_after_0.
Qed.

Lemma gadd_tagger k ms ls : (forall m, In m (gadd_to_last ms ls) -> person_ok (person_after k (gm_tagger m))) <->
  forall m, In m ms -> person_ok (person_after k (gm_tagger m)).
Proof.
  split; intros H m I.
  - destruct ms as [|m0 ms0] eqn:E; [destruct I|]. rewrite <- E in *. destruct (@exists_last _ ms) as (xs & x & Ex); [congruence|]. rewrite Ex in *.
    rewrite gadd_to_last_snoc in H. apply in_app_iff in I as [I|[<-|[]]].
    + apply H, in_app_iff. now left.
    + apply (H (gadd x ls)), in_app_iff. right. now left.
  - apply in_gadd in I as (m0 & I & [->| ->]); [auto|]. cbn [gadd gm_tagger]. auto.
Qed.

(** When it is settled. *)
Lemma commit_settled B k g : commit_read B g -> commit_rounds (commit_value g) <= k <-> commit_ok B (gafter k g).
Proof.
  intros H. pose proof (gafter_read B k g H) as Hk.
  unfold commit_rounds. rewrite most_le, taken_value. cbn [commit_value c_author c_committer c_mergetag].
  assert ((forall m, In m (gc_mergetags (gafter k g)) -> person_ok (gm_tagger m)) <-> forall m, In m (gc_mergetags g) -> person_rounds (gm_tagger m) <= k) as Em.
  { unfold gafter. set (ls := match k with 0 => [] | S _ => gtaken g end). cbn [gpersons gmove gc_mergetags].
    transitivity (forall m, In m (gadd_to_last (gc_mergetags g) ls) -> person_ok (person_after k (gm_tagger m))).
    - split; intros A m I; [|apply in_map_iff in I as (x & <- & I); cbn [gm_after gm_tagger]; auto].
      apply (A (gm_after k m)). now apply in_map.
    - rewrite gadd_tagger. split; intros A m I; apply person_settled; auto; now apply (cr_mergetags B g H). }
  assert (match gtaken g with [] => 0 | _ :: _ => 1 end <= k <-> gtaken (gafter k g) = []) as Et.
  { unfold gafter. rewrite gtaken_persons. destruct k; [rewrite gmove_nil; destruct (gtaken g); split; congruence || lia|]. rewrite gtaken_none. destruct (gtaken g); split; auto; lia. }
  split.
  - intros A.
    assert (gtaken (gafter k g) = []) as Tn.
    { apply Et, A. cbn [In app]. tauto. }
    split; [apply Hk|]. split; [apply Hk|]. split; [|split; [|split; [|split; [apply Hk|split; [apply Hk|split; [|apply Hk]]]]]].
    + apply (person_settled k (gc_author g)); [apply H|]. apply A. cbn [In app]. tauto.
    + apply (person_settled k (gc_committer g)); [apply H|]. apply A. cbn [In app]. tauto.
    + intros m I. destruct (cr_mergetags B _ Hk m I) as (A1 & _ & A3). split; [exact A1|]. split; [|exact A3].
      revert m I A1 A3. assert (forall m, In m (gc_mergetags (gafter k g)) -> person_ok (gm_tagger m)) as P; [|auto].
      apply Em. intros m I. apply A. apply in_app_iff. right. rewrite map_map. apply in_map_iff. exists m. split; [reflexivity|exact I].
    + intros Nm Ns l ls El Sp. destruct (taken_split (gafter k g)) as (_ & _ & T). rewrite Tn in T. cbn [length skipn] in T. now apply (T Nm Ns l ls El).
  - intros (_ & _ & Pa & Pc & Pm & _ & _ & Sp & _) x I. cbn [app In] in I. destruct I as [<-|[<-|[<-|I]]].
    + apply (person_settled k (gc_author g)); [apply H|exact Pa].
    + apply (person_settled k (gc_committer g)); [apply H|exact Pc].
    + apply Et. destruct (taken_split (gafter k g)) as (Eo & T & _). destruct (gtaken (gafter k g)) as [|l ls] eqn:Etk; [reflexivity|exfalso].
      unfold gtaken in Etk. destruct (gc_mergetags (gafter k g)) eqn:E1; [discriminate|]. destruct (gc_signature (gafter k g)) eqn:E2; [discriminate|].
      cbn [app] in Eo. apply (Sp ltac:(discriminate) eq_refl _ _ Eo). apply T. now left.
    + rewrite map_map in I. apply in_map_iff in I as (m & <- & I). revert m I. apply Em. intros m I. apply (Pm m I).
Qed.

(** Texts do not grow. *)
Lemma person_text_after_length k p : length (person_text (person_after k p)) <= length (person_text p).
Proof.
  rewrite person_after_text. rewrite <- (person_after_0 p) at 4. rewrite person_after_text, email_after_0, !app_length.
  pose proof (email_after_length k (p_email p)). lia.
Qed.
Lemma unlines_length ls : length (unlines ls) = fold_right (fun l n => S (length l) + n) 0 ls.
Proof. induction ls as [|l ls IH]; [reflexivity|]. rewrite unlines_cons, !app_length, IH. cbn. lia. Qed.
Lemma gafter_length k g : length (commit_text (gafter k g)) <= length (commit_text g).
Proof.
  unfold commit_text. rewrite !app_length. change (gc_message (gafter k g)) with (gc_message g).
  assert (length (unlines (commit_lines (gafter k g))) <= length (unlines (commit_lines g))); [|lia].
  transitivity (length (unlines (commit_lines (gmove (match k with 0 => [] | S _ => gtaken g end) g)))).
  2:{ destruct k; [rewrite gmove_nil|rewrite gmove_lines]; lia. }
  unfold gafter. generalize (gmove (match k with 0 => [] | S _ => gtaken g end) g) as h. clear g. intros g.
  unfold commit_lines, gpersons. cbn [gc_tree gc_parents gc_author gc_committer gc_encoding gc_mergetags gc_signature gc_other].
  rewrite !unlines_app, !app_length.
  pose proof (person_text_after_length k (gc_author g)). pose proof (person_text_after_length k (gc_committer g)).
  assert (length (unlines (concat (map mergetag_lines (map (gm_after k) (gc_mergetags g))))) <= length (unlines (concat (map mergetag_lines (gc_mergetags g))))) as Lm.
  { induction (gc_mergetags g) as [|m ms IH]; [cbn; lia|]. cbn [map concat]. rewrite !unlines_app, !app_length.
    assert (length (unlines (mergetag_lines (gm_after k m))) <= length (unlines (mergetag_lines m))); [|lia].
    unfold mergetag_lines. rewrite !unlines_app, !app_length. cbn [gm_after gm_object gm_type gm_tag gm_tagger gm_message].
    rewrite !unlines_cons, !app_length. pose proof (person_text_after_length k (gm_tagger m)). lia. }
  rewrite !(unlines_cons (bs "author " ++ _)), !(unlines_cons (bs "committer " ++ _)), !app_length. lia.
Qed.

(** ** Tags *)
Definition gt_after (k : nat) (g : gtag) : gtag :=
  {| gt_object := gt_object g; gt_type := gt_type g; gt_tag := gt_tag g; gt_tagger := person_after k (gt_tagger g); gt_message := gt_message g |}.
Definition tag_read (B : nat) (g : gtag) : Prop :=
  is_sha (gt_object g) /\ person_read (gt_tagger g) /\ forall l, In l (tag_lines g) -> line_ok B l.
Lemma gt_after_read B k g : tag_read B g -> tag_read B (gt_after k g).
Proof.
  intros (H1 & H2 & H3). split; [exact H1|]. split; [now apply person_after_read|].
  unfold tag_lines in *. cbn [gt_after gt_object gt_type gt_tag gt_tagger In] in *. intros l [<-|[<-|[<-|[<-|[]]]]]; try (apply H3; tauto).
  apply person_after_line, H3. tauto.
Qed.
Lemma gt_after_S B k g : tag_read B g -> gt_after 1 (gt_after k g) = gt_after (S k) g.
Proof. intros (_ & H & _). unfold gt_after. cbn [gt_object gt_type gt_tag gt_tagger gt_message]. now rewrite person_after_S. Qed.
Lemma gt_after_0 g : gt_after 0 g = g.
Proof. destruct g as [o t n p m]. unfold gt_after. cbn. now rewrite person_after_0. Qed.
Lemma tag_again B g : 64 <= B -> tag_read B g -> tag_means B (tag_text_short g) (tag_value (gt_after 1 g)) [].
Proof.
  intros HB (H1 & H2 & H3).
  exists [TObject (hex_encode (gt_object g)) (gt_object g); TType (gt_type g); TTag (gt_tag g); TTagger (person_text (gt_tagger g)) (person_after 1 (gt_tagger g))],
         (match gt_message g with [] => None | m => Some m end).
  split; [|split; [|split]].
  - change (map tline_text _) with (tag_lines g). unfold tag_text_short. apply reads_app. destruct (gt_message g) as [|c m]; eexists.
    + rewrite app_nil_r. split; [|constructor]. rewrite <- (app_nil_r (unlines _)). now apply reads_unlines.
    + split; [now apply reads_unlines|]. now apply reads_one, takes_nil_nl.
  - intros x [<-|[<-|[<-|[<-|[]]]]]; try exact Logic.I.
    + split; [apply hex_text_encode|exact H1].
    + apply (person_text_again (bs "tagger")); [cbn; intuition discriminate|exact H2].
  - rewrite tag_fields. unfold tag_value, gt_after. cbn. now destruct (gt_message g).
  - reflexivity.
Qed.
Lemma encode_tag_value g : is_sha (gt_object g) -> encode_bytes (NTag (tag_value g)) = Ok (git_object (bs "tag") (tag_text_short g)).
Proof.
  intros H. apply encode_bytes_framed. cbn [encode_node]. unfold encode_tag, tag_body.
  change (lookup_by_string (NTag ?t) (bs "object")) with (Ok (NLink (t_object t))).
  change (lookup_by_string (NTag ?t) (bs "type")) with (Ok (NString (t_type t))).
  change (lookup_by_string (NTag ?t) (bs "tag")) with (Ok (NString (t_tag t))).
  change (lookup_by_string (NTag ?t) (bs "message")) with (Ok (NString (t_message t))).
  change (lookup_by_string (NTag ?t) (bs "tagger")) with (Ok (NPerson (t_tagger t))).
  cbn [bind as_link as_string tag_value t_object t_type t_tag t_message t_tagger is_null assign_person].
  rewrite link_sha_git by exact H. cbn [bind]. do 2 f_equal.
  unfold tag_text_short, tag_lines. rewrite !unlines_cons, unlines_nil, git_string_text.
  destruct (gt_message g) as [|m msg]; [change (beqb [] []) with true|rewrite beqb_neq by discriminate]; rewrite ?app_nil_r; lnorm; reflexivity.
Qed.
