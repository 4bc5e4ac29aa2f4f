(** Proofs about commits and tags that break off (CutSpec.v). *)
From Verif Require Import Base GoStr Cid Types Nodes Reader Person Assemble Decode Encode Spec HeaderSpec ErrorSpec NormalSpec CutSpec
  StreamFacts PersonFacts DecodeFacts RoundTrip CommitFacts GrammarFacts NormalFacts PrefixFacts CanonFacts ErrorFacts.

(** ** Beginnings *)
Lemma begins_app x a b : begins_with x (a ++ b) ->
  begins_with x a \/ exists y, x = a ++ y /\ begins_with y b /\ y <> [].
Proof.
  revert x. induction a as [|c a IH]; intros x [r E].
  - destruct x as [|u x]; [left; now exists []|]. right. exists (u :: x). split; [reflexivity|]. split; [now exists r|discriminate].
  - destruct x as [|u x]; [left; now exists (c :: a)|]. cbn in E. injection E as <- E.
    destruct (IH x) as [[s ->]|(y & -> & B & N)]; [now exists r| |].
    + left. now exists s.
    + right. now exists y.
Qed.
Lemma begins_refl x : begins_with x x. Proof. exists []. now rewrite app_nil_r. Qed.
Lemma begins_nil x : begins_with [] x. Proof. now exists x. Qed.
Lemma begins_cancel a x y : begins_with (a ++ x) (a ++ y) -> begins_with x y.
Proof. intros [r E]. exists r. rewrite <- app_assoc in E. now apply app_inv_head in E. Qed.
Lemma begins_more a x y : begins_with x y -> begins_with (a ++ x) (a ++ y).
Proof. intros [r ->]. exists r. now rewrite app_assoc. Qed.
Lemma begins_in c x y : begins_with x y -> In c x -> In c y.
Proof. intros [r ->] I. apply in_or_app. now left. Qed.
Lemma begins_length x y : begins_with x y -> length x <= length y.
Proof. intros [r ->]. rewrite app_length. lia. Qed.
Lemma begins_trans x y z : begins_with x y -> begins_with y z -> begins_with x z.
Proof. intros [r ->] [s ->]. exists (r ++ s). now rewrite app_assoc. Qed.
Lemma begins_firstn x y : begins_with x y -> x = firstn (length x) y.
Proof. intros [r ->]. now rewrite firstn_app, firstn_all, Nat.sub_diag, app_nil_r. Qed.
Lemma begins_same_length x y : begins_with x y -> length x = length y -> x = y.
Proof. intros [r ->] L. rewrite app_length in L. destruct r; [now rewrite app_nil_r|cbn in L; lia]. Qed.

(** ** Hashes *)
Lemma hex_encode_chars s : forall x, In x (hex_encode s) -> hex_char x.
Proof.
  induction s as [|b s IH]; [intros ? []|]. cbn [hex_encode]. intros x [<-|[<-|I]]; [| |auto]; destruct b; vm_compute; tauto.
Qed.
Lemma hex_encode_firstn n : forall s, n <= length s -> firstn (n + n) (hex_encode s) = hex_encode (firstn n s).
Proof.
  induction n as [|n IH]; intros [|b s] L; cbn in L; try lia; try reflexivity.
  rewrite Nat.add_succ_r. cbn [Nat.add hex_encode firstn]. rewrite IH by lia. reflexivity.
Qed.
Lemma hex_encode_length s : length (hex_encode s) = length s + length s.
Proof. induction s as [|b s IH]; [reflexivity|]. cbn [hex_encode length]. lia. Qed.

Lemma cut_hash_bad sha x e : is_sha sha -> cut_hash sha x (Err e) -> bad_hash x e.
Proof.
  intros HS H. unfold is_sha in HS. inversion H as [|n L E1 E2|n L E1 E2]; subst.
  - rewrite hex_encode_firstn by lia. replace (EShaLength n) with (EShaLength (length (firstn n sha))) by (f_equal; rewrite firstn_length; lia).
    apply bad_length; [apply hex_text_encode|]. unfold is_sha. rewrite firstn_length. lia.
  - apply bad_odd.
    + intros y I. apply (hex_encode_chars sha). apply (begins_in _ (firstn (S (n + n)) (hex_encode sha))); [|exact I].
      exists (skipn (S (n + n)) (hex_encode sha)). symmetry. apply firstn_skipn.
    + intros m. rewrite firstn_length, hex_encode_length. lia.
Qed.
Lemma cut_hash_ok sha x l : cut_hash sha x (Ok l) -> x = hex_encode sha /\ l = git_link sha.
Proof. intros H. inversion H; subst. auto. Qed.
Lemma cut_hash_good sha x r : cut_hash sha x r -> (exists l, r = Ok l) \/ exists e, r = Err e.
Proof. intros H. inversion H; eauto. Qed.
Lemma cut_hash_total sha x : is_sha sha -> begins_with x (hex_encode sha) -> exists r, cut_hash sha x r.
Proof.
  intros HS H. unfold is_sha in HS. pose proof (begins_length _ _ H) as L. rewrite hex_encode_length in L.
  destruct (Nat.eq_dec (length x) 40) as [E|N].
  - apply begins_same_length in H; [|rewrite hex_encode_length; lia]. subst x. eexists. apply cut_hash_whole.
  - rewrite (begins_firstn _ _ H). destruct (Nat.Even_or_Odd (length x)) as [[n E]|[n E]]; eexists.
    + replace (length x) with (n + n) by lia. apply cut_hash_even. lia.
    + replace (length x) with (S (n + n)) by lia. apply cut_hash_odd. lia.
Qed.

(** ** Words of a text that goes on *)
Lemma words_grow a b : exists ws w u us, words a = ws ++ [w] /\ words b = u :: us /\ words (a ++ b) = ws ++ (w ++ u) :: us.
Proof.
  unfold words. induction a as [|c a (ws & w & u & us & E1 & E2 & E3)]; cbn [app split_on].
  - destruct (split_on SP b) as [|u us] eqn:E; [now apply split_on_nonempty in E|]. now exists [], [], u, us.
  - rewrite E1, E3. destruct (byte_eqb c SP); [now exists ([] :: ws), w, u, us|].
    destruct ws as [|v ws]; cbn [app]; [now exists [], (c :: w), u, us|]. now exists ((c :: v) :: ws), w, u, us.
Qed.
Lemma words_more a b pre w post : words a = pre ++ w :: post ->
  exists u post', words (a ++ b) = pre ++ (w ++ u) :: post' /\ (post <> [] -> u = [] /\ post' <> []).
Proof.
  intros E. destruct (words_grow a b) as (ws & l & u & us & E1 & E2 & E3). rewrite E3. rewrite E1 in E.
  destruct (rev_case post) as [->|(post0 & l' & ->)].
  - apply app_inj_tail in E as [-> ->]. exists u, us. split; [reflexivity|congruence].
  - rewrite app_comm_cons, app_assoc in E. apply app_inj_tail in E as [-> ->].
    exists [], (post0 ++ (l' ++ u) :: us). rewrite app_nil_r, <- app_assoc. split; [reflexivity|]. intros _. split; [reflexivity|]. destruct post0; discriminate.
Qed.
Lemma words_label label x : ~ In SP label -> words (label ++ [SP] ++ x) = label :: words x.
Proof. intros N. unfold words. cbn [app]. rewrite split_on_app, split_on_none by exact N. reflexivity. Qed.

(** ** Persons *)
Lemma person_line_space line p : person_line line p -> person_line (line ++ [SP]) p.
Proof.
  intros (label & blanks & name & email & more & Ew & L & H1 & H2 & H3 & H4 & H5 & E1 & E2 & E3 & E4).
  assert (words (line ++ [SP]) = words line ++ [[]]) as W by (unfold words; now rewrite split_on_app).
  exists label, blanks, name, email, (more ++ [[]]). rewrite W, Ew. repeat split; auto.
  - cbn [app]. now rewrite <- !app_assoc.
  - rewrite <- Ew, app_length. lia.
  - rewrite E3. now destruct more.
  - rewrite E4. now destruct more as [|? [|? ?]].
Qed.
Lemma parse_space line p : parse_person line = Ok p -> parse_person (line ++ [SP]) = Ok p.
Proof. rewrite !person_line_iff. apply person_line_space. Qed.

Lemma nscan_none ws : forall acc, (forall w, In w ws -> ~ starts_with LT w) -> nscan ws acc = None.
Proof.
  induction ws as [|[|c w] ws IH]; intros acc H; cbn [nscan]; [reflexivity| |].
  - apply IH. intros; apply H; now right.
  - destruct (byte_eqb_spec c LT) as [->|N]; [exfalso; apply (H (LT :: w)); [now left|now exists w]|].
    apply IH. intros; apply H; now right.
Qed.

Section Person.
Variable p : person.
Hypothesis HP : person_ok p.
Variable label : bytes.
Hypothesis Hl : ~ In SP label.

Lemma cut_early x : begins_with x (p_name p ++ bs " <" ++ p_email p) ->
  (forall e, x <> p_name p ++ bs " <" ++ e ++ bs ">") -> 3 <= length (words (label ++ [SP] ++ x)) ->
  parse_person (label ++ [SP] ++ x) = Err (EPersonInvalid (label ++ [SP] ++ x)).
Proof.
  intros Hb Hx L. destruct HP as (Hn & [Hg Hs] & _). rewrite parse_person_scan. fold (words (label ++ [SP] ++ x)).
  rewrite words_label in L |- * by exact Hl.
  destruct (words x) as [|a [|b cs]] eqn:Ex; cbn [length] in L; try lia. rewrite <- Ex.
  change (bs " <") with ([SP] ++ [LT]) in Hb. rewrite <- app_assoc, app_assoc in Hb. apply begins_app in Hb as [Hb|(y & E & Hb & Ny)].
  - rewrite nscan_none; [reflexivity|]. intros w I [t ->]. destruct Hb as [r E]. apply in_split in I as (pre & post & I).
    destruct (words_more x r _ _ _ I) as (u & post' & E' & _). rewrite <- E in E'. unfold words in E'. rewrite split_on_app in E'. cbn [split_on] in E'.
    assert (In ((LT :: t) ++ u) (split_on SP (p_name p) ++ [[]])) as J by (rewrite E'; apply in_or_app; right; now left).
    apply in_app_iff in J as [J|[J|[]]]; [|discriminate]. destruct Hn as [_ Hn]. apply (Hn _ J). eexists. reflexivity.
  - destruct y as [|c y]; [congruence|]. destruct Hb as [r Hb]. cbn in Hb. injection Hb as <- Hb.
    assert (words x = words (p_name p) ++ words (LT :: y)) as ->.
    { rewrite E. unfold words. rewrite <- app_assoc. cbn [app]. now rewrite split_on_app. }
    destruct (words y) as [|y0 ys] eqn:Ey; [now apply split_on_nonempty in Ey|].
    assert (words (LT :: y) = (LT :: y0) :: ys) as El.
    { unfold words in *. cbn [split_on]. change (byte_eqb LT SP) with false. now rewrite Ey. }
    rewrite (nscan_name _ _ y0 ys) by assumption. rewrite El, <- (app_nil_r ((LT :: y0) :: ys)), escan_run; [reflexivity|].
    assert (forall v, In v (words y) -> ends_gt v = false) as G.
    { intros v I. destruct (ends_gt v) eqn:G; [exfalso|reflexivity]. apply ends_gt_spec in G. apply in_split in I as (pre & post & I).
      destruct (words_more y r _ _ _ I) as (u & post' & E' & F). rewrite <- Hb in E'. destruct post as [|q post].
      - destruct G as [t ->]. destruct (words_cases y) as (ws & l & E1 & E2 & _). rewrite I in E1. apply app_inj_tail in E1 as [-> <-].
        apply (Hx (spaced ws ++ t)). rewrite E, E2. change (bs " <") with [SP; LT]. change (bs ">") with [GT]. lnorm. rewrite ?app_nil_r. reflexivity.
      - destruct (F ltac:(discriminate)) as [-> N]. rewrite app_nil_r in E'. now apply (Hg _ _ _ E' N). }
    rewrite Ey in G. intros v [<-|I].
    + cbn [strip_lt]. change (byte_eqb LT LT) with true. cbn iota. apply G. now left.
    + destruct (ends_gt (strip_lt v)) eqn:K; [|reflexivity]. apply ends_gt_strip in K. rewrite G in K; [discriminate|now right].
Qed.

Lemma parse_text q : person_ok q -> parse_person (label ++ [SP] ++ person_text q) = Ok q.
Proof. intros H. now apply person_roundtrip. Qed.

Lemma email_prefix e : begins_with (e ++ bs ">") (p_email p) -> email_ok e.
Proof.
  intros [r E]. rewrite <- app_assoc in E. destruct HP as (_ & [Hg Hs] & _). split; intros pre w post W N.
  - destruct (words_more e (bs ">" ++ r) _ _ _ W) as (u & post' & E' & F). rewrite <- E in E'. destruct (F N) as [-> N']. rewrite app_nil_r in E'.
    now apply (Hg _ _ _ E').
  - destruct (words_more e (bs ">" ++ r) _ _ _ W) as (u & post' & E' & F). rewrite <- E in E'. intros [t ->]. apply (Hs _ _ _ E' N). eexists. reflexivity.
Qed.

Lemma no_sp_begins d y : begins_with d y -> ~ In SP y -> ~ In SP d.
Proof. intros H N I. apply N. now apply (begins_in _ d). Qed.

Lemma cut_person_sound x r : cut_person (label ++ [SP]) p x r -> parse_person (label ++ [SP] ++ x) = r.
Proof.
  pose proof HP as (Hn & He & Hd & Hz & Hdz).
  intros H. destruct H as [x Hb Hx L|x Hb Hx L|e Hb| |d Hb|z Hb].
  - rewrite parse_person_scan. fold (words (label ++ [SP] ++ x)). rewrite <- app_assoc in L |- *.
    destruct (words (label ++ [SP] ++ x)) as [|a [|b [|c cs]]]; try reflexivity. cbn [length] in L. lia.
  - rewrite <- app_assoc in L |- *. now apply cut_early.
  - rewrite <- (parse_text {| p_name := p_name p; p_email := e; p_date := []; p_timezone := [] |}).
    + unfold person_text. cbn [p_name p_email p_date p_timezone]. now rewrite !app_nil_r.
    + repeat split; cbn; auto; try apply Hn; now apply email_prefix.
  - rewrite <- (parse_text {| p_name := p_name p; p_email := p_email p; p_date := []; p_timezone := [] |}).
    + unfold person_text. cbn [p_name p_email p_date p_timezone]. now rewrite !app_nil_r.
    + repeat split; cbn; auto; try apply Hn; apply He.
  - set (q := {| p_name := p_name p; p_email := p_email p; p_date := d; p_timezone := [] |}).
    assert (person_ok q) as Q.
    { repeat split; cbn; auto; try apply Hn; try apply He. now apply (no_sp_begins d (p_date p)). }
    pose proof (parse_text q Q) as T. destruct d as [|c d].
    + apply parse_space in T. rewrite <- T. f_equal; unfold person_text; cbn [q p_name p_email p_date p_timezone]; change (bs "> ") with [GT; SP]; change (bs ">") with [GT]; lnorm; rewrite ?app_nil_r; reflexivity.
    + rewrite <- T. f_equal; unfold person_text; cbn [q p_name p_email p_date p_timezone]; change (bs "> ") with [GT; SP]; change (bs ">") with [GT]; lnorm; rewrite ?app_nil_r; reflexivity.
  - set (q := {| p_name := p_name p; p_email := p_email p; p_date := p_date p; p_timezone := z |}).
    assert (person_ok q) as Q.
    { split; [exact Hn|]. split; [exact He|]. split; [exact Hd|]. split; [now apply (no_sp_begins z (p_timezone p))|]. cbn. intros D. rewrite (Hdz D) in Hb. destruct Hb as [s Hb]. destruct z; [reflexivity|discriminate]. }
    pose proof (parse_text q Q) as T. destruct (p_date p) as [|c0 d0] eqn:D.
    + assert (z = []) as -> by (rewrite (Hdz eq_refl) in Hb; destruct Hb as [s Hb]; destruct z; [reflexivity|discriminate]).
      apply parse_space, parse_space in T. rewrite <- T. f_equal; unfold person_text; cbn [q p_name p_email p_date p_timezone]; change (bs "> ") with [GT; SP]; change (bs ">") with [GT]; lnorm; rewrite ?app_nil_r; reflexivity.
    + destruct z as [|c z].
      * apply parse_space in T. rewrite <- T. f_equal; unfold person_text; cbn [q p_name p_email p_date p_timezone]; change (bs "> ") with [GT; SP]; change (bs ">") with [GT]; lnorm; rewrite ?app_nil_r; reflexivity.
      * rewrite <- T. f_equal; unfold person_text; cbn [q p_name p_email p_date p_timezone]; change (bs "> ") with [GT; SP]; change (bs ">") with [GT]; lnorm; rewrite ?app_nil_r; reflexivity.
Qed.

Lemma cut_person_total w x : begins_with x (person_text p) -> exists r, cut_person w p x r.
Proof.
  intros H. pose proof HP as (_ & _ & _ & _ & Hdz).
  assert (person_text p = (p_name p ++ bs " <" ++ p_email p) ++ bs ">" ++ match p_date p with [] => [] | d => [SP] ++ d end ++ match p_timezone p with [] => [] | z => [SP] ++ z end) as E
    by (unfold person_text; lnorm; rewrite ?app_nil_r; reflexivity).
  rewrite E in H. clear E. apply begins_app in H as [H|(y & -> & H & N)].
  - assert ((exists e, x = p_name p ++ bs " <" ++ e ++ bs ">") \/ forall e, x <> p_name p ++ bs " <" ++ e ++ bs ">") as [[e ->]|Nx].
    { change (bs " <") with [SP; LT]. destruct (rev_case x) as [->|(x0 & c & ->)]; [right; intros e; destruct (p_name p); discriminate|].
      destruct (Byte.byte_eq_dec c GT) as [->|Nc].
      - destruct (has_prefix (p_name p ++ [SP; LT]) x0) eqn:Q.
        + apply prefix_begins in Q as [e ->]. left. exists e. change (bs ">") with [GT]. lnorm. rewrite ?app_nil_r. reflexivity.
        + right. intros e E. change (bs ">") with [GT] in E. rewrite !app_assoc in E. apply app_inj_tail in E as [-> _].
          assert (has_prefix (p_name p ++ [SP; LT]) ((p_name p ++ [SP; LT]) ++ e) = true) as K by (apply prefix_begins; now exists e). congruence.
      - right. intros e E. change (bs ">") with [GT] in E. rewrite !app_assoc in E. apply app_inj_tail in E as [_ E]. congruence. }
    + eexists. apply cut_person_email. do 2 apply begins_cancel in H. exact H.
    + destruct (Nat.lt_ge_cases (length (words (w ++ x))) 3); eexists; [now apply cut_person_few|now apply cut_person_early].
  - apply begins_app in H as [H|(y2 & -> & H & N2)].
    + destruct H as [s H]. destruct y as [|c y]; [congruence|]. destruct y; [|destruct y; discriminate]. injection H as <- _.
      eexists. rewrite <- !app_assoc. apply cut_person_bracket.
    + assert (begins_with y2 (match p_date p with [] => [] | _ :: _ => [SP] ++ p_date p ++ match p_timezone p with [] => [] | z => [SP] ++ z end end)) as H'.
      { destruct (p_date p); [rewrite (Hdz eq_refl) in H; exact H|]. now rewrite <- app_assoc in H. } clear H. rename H' into H.
      destruct (p_date p) as [|d0 d] eqn:D; [destruct H as [s H]; destruct y2; [congruence|discriminate]|]. rewrite <- D in *.
      destruct y2 as [|c y2]; [congruence|]. destruct H as [s H]. cbn in H. injection H as <- H.
      assert (begins_with y2 (p_date p ++ match p_timezone p with [] => [] | z => [SP] ++ z end)) as H2 by (now exists s).
      clear H. apply begins_app in H2 as [H2|(y3 & -> & H2 & N3)].
      * eexists. replace ((p_name p ++ bs " <" ++ p_email p) ++ bs ">" ++ SP :: y2) with (p_name p ++ bs " <" ++ p_email p ++ bs "> " ++ y2) by (change (bs "> ") with [GT; SP]; change (bs ">") with [GT]; lnorm; rewrite ?app_nil_r; reflexivity).
        now apply cut_person_date.
      * destruct (p_timezone p) as [|z0 z] eqn:Z; [destruct H2 as [s2 H2]; destruct y3; [congruence|discriminate]|]. rewrite <- Z in *.
        destruct y3 as [|c y3]; [congruence|]. destruct H2 as [s2 H2]. cbn in H2. injection H2 as <- H2.
        eexists. replace ((p_name p ++ bs " <" ++ p_email p) ++ bs ">" ++ SP :: p_date p ++ SP :: y3) with (p_name p ++ bs " <" ++ p_email p ++ bs "> " ++ p_date p ++ [SP] ++ y3) by (change (bs "> ") with [GT; SP]; change (bs ">") with [GT]; lnorm; rewrite ?app_nil_r; reflexivity).
        apply cut_person_zone. now exists s2.
Qed.
End Person.

(** ** Blocks *)
Lemma header_value_snoc ks k : header_value (ks ++ [k]) = apply_block (header_value ks) k.
Proof. unfold header_value. now rewrite fold_left_app. Qed.
Lemma header_lines_snoc ks k : header_lines (ks ++ [k]) = header_lines ks ++ block_lines k.
Proof. rewrite header_lines_app. unfold header_lines at 2. cbn [map concat]. now rewrite app_nil_r. Qed.

Definition no_sp_other (k : block) : Prop := match k with KOther l => ~ starts_with SP l | _ => True end.
Lemma ends_in_snoc ks k : ends_in_mergetag (ks ++ [k]) -> is_mergetag k.
Proof. intros (ks' & h & sha & ms & msg & E). apply app_inj_tail in E as [_ ->]. exact Logic.I. Qed.
Lemma ends_in_cons k k' ks : ends_in_mergetag (k' :: ks) -> ends_in_mergetag (k :: k' :: ks).
Proof. intros (ks' & h & sha & ms & msg & ->). now exists (k :: ks'), h, sha, ms, msg. Qed.
Lemma mergetags_end_snoc en ks k : mergetags_end ks (EndMessage []) -> (en = EndNone -> ~ is_mergetag k) -> (ends_in_mergetag ks -> no_sp_other k) ->
  mergetags_end (ks ++ [k]) en.
Proof.
  induction ks as [|k0 ks IH]; intros H Nk Ns.
  - cbn. destruct k; auto. split; [|exact Logic.I]. intros ->. now apply Nk.
  - assert (ks = [] \/ ks <> []) as [->|N] by (destruct ks; [now left|right; discriminate]).
    + assert (mergetags_end [k] en) as H1 by (destruct k; cbn; auto; split; [|exact Logic.I]; intros ->; now apply Nk).
      cbn [app]. destruct k0; try exact H1. split; [|exact H1].
      assert (ends_in_mergetag [KMergetag h sha ms msg]) as E by (exists []; cbn; eauto 6). specialize (Ns E). destruct k; auto.
    + assert (mergetags_end ks (EndMessage [])) as H0 by (destruct k0; cbn in H; tauto).
      assert (mergetags_end (ks ++ [k]) en) as H1.
      { apply IH; auto. intros E. apply Ns. destruct ks; [congruence|]. now apply ends_in_cons. }
      destruct ks as [|k1 ks]; [congruence|]. cbn [app] in *. destruct k0; try exact H1. cbn [mergetags_end] in H |- *. split; [|exact H1]. destruct H as [H _]. exact H.
Qed.
Lemma mergetags_end_ending en ks : en <> EndNone -> mergetags_end ks (EndMessage []) -> mergetags_end ks en.
Proof.
  intros N. induction ks as [|k ks IH]; [auto|]. cbn. destruct k; auto. intros [H1 H2]. split; [|auto]. destruct ks as [|[]]; auto.
Qed.
Lemma mergetags_end_none_iff ks : ~ ends_in_mergetag ks -> mergetags_end ks (EndMessage []) -> mergetags_end ks EndNone.
Proof.
  intros N H. destruct (rev_case ks) as [->|(ks0 & k & ->)]; [exact Logic.I|].
  assert (~ is_mergetag k) as Nk by (intros M; apply N; destruct k; try contradiction; exists ks0; eauto).
  clear N. induction ks0 as [|k0 ks0 IH]; [destruct k; cbn; auto; exfalso; apply Nk; exact Logic.I|].
  cbn [app mergetags_end] in H |- *. destruct k0; auto. destruct H as [H1 H2]. split; [|auto].
  destruct ks0; cbn [app] in *; exact H1.
Qed.
Lemma mergetags_end_front ks ks' : mergetags_end (ks ++ ks') (EndMessage []) -> mergetags_end ks (EndMessage []).
Proof.
  induction ks as [|k ks IH]; intros H; [exact Logic.I|]. cbn [app mergetags_end] in H |- *. destruct k; auto. destruct H as [H1 H2]. split; [|auto].
  destruct ks; cbn [app] in *; [discriminate|exact H1].
Qed.
Lemma mergetags_end_next ks k ks' : mergetags_end (ks ++ k :: ks') (EndMessage []) -> ends_in_mergetag ks -> no_sp_other k.
Proof.
  intros H (ks0 & h & sha & ms & msg & ->). rewrite <- app_assoc in H. induction ks0 as [|k0 ks0 IH]; cbn [app mergetags_end] in H.
  - destruct H as [H _]. destruct k; auto; exact Logic.I.
  - destruct k0; auto. now apply IH.
Qed.

(** Blocks as git writes them. *)
Definition canon_mline (m : mline) : Prop :=
  match m with MTagger y p => y = person_text p /\ person_ok p | MIgnored _ => False | _ => True end.
Definition canon (k : block) : Prop :=
  match k with
  | KTree h sha | KParent h sha => h = hex_encode sha
  | KAuthor x p | KCommitter x p => x = person_text p /\ person_ok p
  | KMergetag h sha ms msg => h = hex_encode sha /\ forall m, In m ms -> canon_mline m
  | _ => True
  end.
Lemma canon_mline_ok m : canon_mline m -> mline_ok m.
Proof. destruct m; cbn [canon_mline mline_ok]; try tauto. intros [-> H]. apply person_line_iff. change (bs "tagger ") with (bs "tagger" ++ [SP]). rewrite <- app_assoc. apply parse_text; [cbn; intuition discriminate|exact H]. Qed.

Lemma word_not_header w q : In w header_words -> q <> [] -> begins_with q w -> q <> w -> ~ is_header q /\ ~ starts_with SP q.
Proof.
  intros Hw Nq Hb Nw. split.
  - intros (w' & Iw' & Hb'). pose proof (begins_trans _ _ _ Hb' Hb) as T. unfold header_words in *. cbn [In] in *.
    assert (w' = w) as ->.
    { destruct T as [r T]. repeat (destruct Hw as [<-|Hw]; [repeat (destruct Iw' as [<-|Iw']; [first [reflexivity|discriminate T]|]); contradiction|]). contradiction. }
    apply Nw. apply begins_same_length; [exact Hb|]. apply begins_length in Hb, Hb'. lia.
  - intros [t ->]. destruct Hb as [r Hb]. unfold header_words in Hw. cbn [In] in Hw. repeat (destruct Hw as [<-|Hw]; [discriminate Hb|]). contradiction.
Qed.

Section Cut.
Variable B : nat.
Hypothesis HB : 64 <= B.

Definition outcome (d : bytes) (r : res commit) : Prop :=
  match r with Ok c => commit_means B d c | Err e => commit_refused B d e | _ => False end.

Definition part_ok (q : bytes) : Prop := ~ In NL q /\ length q < B.

Lemma reads_cut ls q : (forall l, In l ls -> line_ok B l) -> part_ok q -> q <> [] -> reads B (unlines ls ++ q) (ls ++ [q]) [].
Proof.
  intros H [N L] Nq. apply reads_app. exists q. split; [now apply reads_unlines|]. econstructor; [now apply takes_last|constructor].
Qed.
Lemma reads_whole ls : (forall l, In l ls -> line_ok B l) -> reads B (unlines ls ++ []) ls [].
Proof. intros H. now apply reads_unlines. Qed.

Section Blocks.
Variable ks : list block.
Hypothesis Hks : forall k, In k ks -> block_ok k.
Hypothesis Hend : mergetags_end ks (EndMessage []).
Hypothesis Hlines : forall l, In l (header_lines ks) -> line_ok B l.

Lemma in_both ls : (forall l, In l ls -> line_ok B l) -> forall l, In l (header_lines ks ++ ls) -> line_ok B l.
Proof. intros H l I. apply in_app_iff in I as [I|I]; auto. Qed.

Lemma means_one k ls q : (forall l, In l ls -> line_ok B l) -> part_ok q -> q <> [] ->
  block_lines k = ls ++ [q] -> block_ok k -> ~ is_mergetag k -> (ends_in_mergetag ks -> no_sp_other k) ->
  commit_means B (unlines (header_lines ks ++ ls) ++ q) (apply_block (header_value ks) k).
Proof.
  intros Hl Hq Nq El Ok1 Nm Hs. exists (ks ++ [k]), EndNone. split.
  - rewrite header_lines_snoc, El, app_nil_r, app_assoc. cbn [ending_rest]. apply reads_cut; [now apply in_both|exact Hq|exact Nq].
  - split; [intros k' I; apply in_app_iff in I as [I|[<-|[]]]; auto|]. split; [exact Logic.I|]. split; [apply mergetags_end_snoc; auto|].
    cbn [apply_ending]. now rewrite header_value_snoc.
Qed.
Lemma means_mergetag h sha ms ls q :
  (forall l, In l ls -> line_ok B l) -> part_ok q -> (bs "mergetag object " ++ h) :: map mline_text ms = ls ++ match q with [] => [] | _ => [q] end ->
  hex_text h sha -> is_sha sha -> (forall m, In m ms -> mline_ok m) ->
  commit_means B (unlines (header_lines ks ++ ls) ++ q) (with_mergetags (header_value ks) [mtag_value sha ms []]).
Proof.
  intros Hl Hq El Hh Hs Hm. exists ks, (EndMergetag h sha ms). split.
  - cbn [ending_lines ending_rest]. rewrite El. destruct q as [|c q]; [rewrite (app_nil_r ls); apply reads_whole; now apply in_both|].
    rewrite app_assoc. apply reads_cut; [now apply in_both|exact Hq|discriminate].
  - split; [exact Hks|]. split; [cbn; auto|]. split; [apply mergetags_end_ending; [discriminate|exact Hend]|]. reflexivity.
Qed.
Lemma refused_here ls q e :
  (forall l, In l ls -> line_ok B l) -> part_ok q -> bad_block (ls ++ match q with [] => [] | _ => [q] end) [] e ->
  commit_refused B (unlines (header_lines ks ++ ls) ++ q) e.
Proof.
  intros Hl Hq Hb. eexists ks, _, []. split; [|split; [exact Hks|split; [exact Hend|exact Hb]]].
  destruct q as [|c q]; [rewrite (app_nil_r ls); apply reads_whole; now apply in_both|].
  rewrite app_assoc. apply reads_cut; [now apply in_both|exact Hq|discriminate].
Qed.

Lemma person_good w q p x r : (w = bs "author" \/ w = bs "committer" \/ w = bs "tagger") -> q = w ++ [SP] -> person_ok p -> cut_person q p x r ->
  match r with Ok p' => person_line (q ++ x) p' | Err e => bad_person (q ++ x) e | _ => False end.
Proof.
  intros Hw -> HP H. assert (~ In SP w) as Nw by (destruct Hw as [->|[->| ->]]; cbn; intuition discriminate).
  pose proof (cut_person_sound p HP w Nw x r H) as E. rewrite <- app_assoc. destruct H; (apply person_line_iff || apply person_err); exact E.
Qed.

Lemma nil_cons_app (w x : bytes) : w <> [] -> w ++ x <> []. Proof. destruct w; [congruence|discriminate]. Qed.

Lemma cut_block_sound k ls q r :
  block_ok k -> canon k -> (ends_in_mergetag ks -> no_sp_other k) ->
  (forall l, In l ls -> line_ok B l) -> part_ok q ->
  cut_block (header_value ks) k ls q r -> outcome (unlines (header_lines ks ++ ls) ++ q) r.
Proof.
  intros Hok Hc Hs Hl Hq H. set (c := header_value ks) in *.
  destruct H as [k w x ls q El Iw Nq Hb Nw|h sha x r H|h sha x r H|t p x r H|t p x r H|e x H|l q Nq H|h sha ms msg x r H
    |h sha ms msg before m after q r Em H|h sha ms msg|h sha ms msg|h sha ms msg before after q Em H
    |s f ss x H|s f ss|s f ss q Nq H Ns|s f ss q H Ns|s f ss before l after q Es H Nq|s f ss before l after Es H]; cbn [block_ok canon] in Hok, Hc.
  - destruct (word_not_header w q Iw Nq Hb Nw) as [N1 N2]. apply (means_one (KOther q) [] q); auto. cbn. auto.
  - destruct Hok as [_ Hsha]. destruct (cut_hash_good _ _ _ H) as [[l ->]|[e ->]].
    + apply cut_hash_ok in H as [-> ->]. apply (means_one (KTree (hex_encode sha) sha) []); cbn; auto; [discriminate|split; [apply hex_text_encode|exact Hsha]].
    + apply refused_here; auto. apply bb_tree. now apply (cut_hash_bad sha).
  - destruct Hok as [_ Hsha]. destruct (cut_hash_good _ _ _ H) as [[l ->]|[e ->]].
    + apply cut_hash_ok in H as [-> ->]. apply (means_one (KParent (hex_encode sha) sha) []); cbn; auto; [discriminate|split; [apply hex_text_encode|exact Hsha]].
    + apply refused_here; auto. apply bb_parent. now apply (cut_hash_bad sha).
  - destruct Hc as [_ HP]. pose proof (person_good (bs "author") (bs "author ") p x r (or_introl eq_refl) eq_refl HP H) as G. destruct r; try contradiction.
    + apply (means_one (KAuthor x a) []); auto. discriminate.
    + apply refused_here; auto. now apply bb_author.
  - destruct Hc as [_ HP]. pose proof (person_good (bs "committer") (bs "committer ") p x r (or_intror (or_introl eq_refl)) eq_refl HP H) as G. destruct r; try contradiction.
    + apply (means_one (KCommitter x a) []); auto. discriminate.
    + apply refused_here; auto. now apply bb_committer.
  - apply (means_one (KEncoding x) []); cbn; auto. discriminate.
  - destruct Hok as [Nl Nh]. apply (means_one (KOther q) [] q); auto.
    + split; [exact Nq|]. intros (w & Iw & Hw). apply Nh. exists w. split; [exact Iw|]. now apply (begins_trans _ q).
    + intros E [t ->]. apply (Hs E). destruct H as [u ->]. now eexists.
  - destruct Hok as (_ & Hsha & _). destruct (cut_hash_good _ _ _ H) as [[l ->]|[e ->]].
    + apply cut_hash_ok in H as [-> ->]. apply (means_mergetag (hex_encode sha) sha [] []); auto; [apply hex_text_encode|intros ? []].
    + apply refused_here; auto. apply bb_mergetag. now apply (cut_hash_bad sha).
  - destruct Hok as (Hh & Hsha & Hm & Hmsg). destruct Hc as [Hc1 Hc2].
    assert (forall x, In x before -> mline_ok x) as Hbefore by (intros x I; apply Hm; rewrite Em; apply in_or_app; now left).
    assert (canon_mline m) as Cm by (apply Hc2; rewrite Em; apply in_or_app; right; now left).
    assert (forall x, mline_ok x -> (forall y, In y (before ++ [x]) -> mline_ok y)) as Hadd by (intros x Hx y I; apply in_app_iff in I as [I|[<-|[]]]; auto).
    assert (forall x, q <> [] -> mline_text x = q -> (bs "mergetag object " ++ h) :: map mline_text (before ++ [x]) = ((bs "mergetag object " ++ h) :: map mline_text before) ++ match q with [] => [] | _ => [q] end) as Hadd2.
    { intros x N E. rewrite map_app. cbn [map]. rewrite E. destruct q; [congruence|reflexivity]. }
    assert (forall x, mtag_value sha (before ++ [x]) [] = mline_apply (mtag_value sha before []) x) as Hadd3 by (intros x; unfold mtag_value; now rewrite fold_left_app).
    destruct H as [m|m|m q Nq Nb Hb Nw|y x H|y x H|y p x r H].
    + apply (means_mergetag h sha before); auto. now rewrite app_nil_r.
    + apply refused_here; auto. pose proof (bb_message h sha before [] Hh Hsha Hbefore ltac:(intros ? [])) as Q. cbn [app] in Q |- *. exact Q.
    + assert (mline_ok (MIgnored q)) as Oq.
      { cbn. split; [exact Nb|]. assert (forall w, In w [bs " type "; bs " tag "; bs " tagger "] -> ~ begins_with w q) as K; [|repeat split; apply K; cbn; auto].
        intros w Iw Hw. apply Nw. apply begins_same_length; [exact Hb|]. pose proof (begins_trans _ _ _ Hw Hb) as [u T]. apply begins_length in Hb, Hw.
        destruct m; cbn [mline_word canon_mline] in *; try contradiction; cbn [In] in Iw; repeat (destruct Iw as [<-|Iw]; [first [discriminate T|lia]|]); contradiction. }
      pose proof (means_mergetag h sha (before ++ [MIgnored q]) ((bs "mergetag object " ++ h) :: map mline_text before) q Hl Hq (Hadd2 (MIgnored q) Nq eq_refl) Hh Hsha (Hadd _ Oq)) as G.
      rewrite Hadd3 in G. exact G.
    + pose proof (means_mergetag h sha (before ++ [MType x]) ((bs "mergetag object " ++ h) :: map mline_text before) _ Hl Hq (Hadd2 (MType x) ltac:(discriminate) eq_refl) Hh Hsha (Hadd (MType x) Logic.I)) as G.
      rewrite Hadd3 in G. exact G.
    + pose proof (means_mergetag h sha (before ++ [MTag x]) ((bs "mergetag object " ++ h) :: map mline_text before) _ Hl Hq (Hadd2 (MTag x) ltac:(discriminate) eq_refl) Hh Hsha (Hadd (MTag x) Logic.I)) as G.
      rewrite Hadd3 in G. exact G.
    + destruct Cm as [_ HP]. pose proof (person_good (bs "tagger") (bs "tagger ") p x r (or_intror (or_intror eq_refl)) eq_refl HP H) as G. destruct r as [p'|e| |]; try contradiction.
      * pose proof (means_mergetag h sha (before ++ [MTagger x p']) ((bs "mergetag object " ++ h) :: map mline_text before) _ Hl Hq (Hadd2 (MTagger x p') ltac:(discriminate) eq_refl) Hh Hsha (Hadd (MTagger x p') G)) as G'.
        rewrite Hadd3 in G'. exact G'.
      * apply refused_here; auto. exact (bb_tagger h sha before x [] e Hh Hsha Hbefore G).
  - destruct Hok as (Hh & Hsha & Hm & Hmsg). apply (means_mergetag h sha ms); auto. now rewrite app_nil_r.
  - destruct Hok as (Hh & Hsha & Hm & Hmsg). apply refused_here; auto. pose proof (bb_message h sha ms [] Hh Hsha Hm ltac:(intros ? [])) as Q. cbn [app] in Q |- *. exact Q.
  - destruct Hok as (Hh & Hsha & Hm & Hmsg). apply refused_here; auto.
    pose proof (bb_message h sha ms (before ++ match q with [] => [] | _ => [q] end) Hh Hsha Hm) as Q. rewrite <- !app_assoc. cbn [app] in Q |- *. apply Q.
    intros l I. apply in_app_iff in I as [I|I]; [apply Hmsg; rewrite Em; apply in_or_app; now left|].
    destruct q as [|c0 q]; [destruct I|]. destruct I as [<-|[]]. destruct after as [|l after]; [destruct H as [u H]; discriminate|]. cbn [hd] in H.
    destruct (Hmsg l) as [t Ht]; [rewrite Em; apply in_or_app; right; now left|]. destruct H as [u H]. rewrite Ht in H. injection H as <- _. now eexists.
  - apply refused_here; auto. apply bb_no_signature.
  - apply refused_here; auto. apply bb_no_signature.
  - apply refused_here; auto. destruct q; [congruence|]. now apply bb_first.
  - apply refused_here; auto. destruct q as [|c0 q]; [destruct Ns as [[E|[[? E]|[? E]]] _]; discriminate E|]. now apply (bb_signature s (c0 :: q) []).
  - apply refused_here; auto. destruct Hok as [H1 H2]. cbn [fst snd] in *.
    pose proof (bb_signature s f (before ++ match q with [] => [] | _ => [q] end)) as Q. rewrite <- app_assoc. cbn [app] in Q |- *. apply Q. split; [exact H1|]. cbn [snd].
    intros I. apply in_app_iff in I as [I|I].
    + destruct (rev_case after) as [->|(after0 & z & ->)].
      * apply app_inj_tail in Es as [-> _]. auto.
      * rewrite app_comm_cons, app_assoc in Es. apply app_inj_tail in Es as [-> _]. apply H2. apply in_or_app. now left.
    + destruct q; [destruct I|]. destruct I as [I|[]]. congruence.
  - destruct Hok as [H1 H2]. cbn [fst snd] in *. apply (means_one (KSignature s f before) ([bs "gpgsig " ++ s; f] ++ before) pgp_end); auto; [discriminate|].
    split; [exact H1|]. cbn [snd]. intros I. destruct (rev_case after) as [->|(after0 & z & ->)].
    + apply app_inj_tail in Es as [-> _]. auto.
    + rewrite app_comm_cons, app_assoc in Es. apply app_inj_tail in Es as [-> _]. apply H2. apply in_or_app. now left.
Qed.
End Blocks.
End Cut.

(** ** Every place is in the tables *)
Lemma begins_single l (ls ls' : list bytes) x : [x] = ls ++ l :: ls' -> ls = [] /\ l = x /\ ls' = [].
Proof. destruct ls as [|y [|z ls]]; intros E; try discriminate. injection E as <- <-. auto. Qed.

Lemma cut_line_total c k w x ls (q : bytes) :
  block_lines k = (w ++ x) :: ls -> In w header_words ->
  (forall y, begins_with y x -> exists r, cut_block c k [] (w ++ y) r) ->
  q <> [] -> begins_with q (w ++ x) -> exists r, cut_block c k [] q r.
Proof.
  intros El Iw Hy Nq Hb. destruct (begins_app q w x Hb) as [H|(y & -> & H & Ny)]; [|now apply Hy].
  destruct (list_eq_dec Byte.byte_eq_dec q w) as [->|N].
  - rewrite <- (app_nil_r w). apply Hy. apply begins_nil.
  - eexists. now apply (cut_word c k w x ls q).
Qed.

Lemma cut_mline_total t m q : canon_mline m -> begins_with q (mline_text m) -> exists r, cut_mline t m q r.
Proof.
  intros Cm Hb. destruct q as [|c0 q0] eqn:Eq; [eexists; apply cut_mline_none|]. rewrite <- Eq in *. assert (q <> []) as Nq by (subst; discriminate). clear Eq c0 q0.
  destruct (list_eq_dec Byte.byte_eq_dec q (bs " ")) as [->|Nb]; [eexists; apply cut_mline_blank|].
  assert (exists x, mline_text m = mline_word m ++ x /\ forall y, begins_with y x -> exists r, cut_mline t m (mline_word m ++ y) r) as (x & E & Hy).
  { destruct m as [x|x|x p|l]; cbn [mline_text mline_word canon_mline] in *.
    - exists x. split; [reflexivity|]. intros y H. eexists. now apply cut_mline_type.
    - exists x. split; [reflexivity|]. intros y H. eexists. now apply cut_mline_tag.
    - exists x. split; [reflexivity|]. intros y H. destruct Cm as [-> HP]. destruct (cut_person_total p HP (bs "tagger ") y H) as [r R].
      eexists. apply cut_mline_tagger; exact R.
    - destruct Cm. }
  rewrite E in Hb. destruct (begins_app _ _ _ Hb) as [H|(y & -> & H & Ny)]; [|now apply Hy].
  destruct (list_eq_dec Byte.byte_eq_dec q (mline_word m)) as [->|N].
  - rewrite <- (app_nil_r (mline_word m)). apply Hy. apply begins_nil.
  - eexists. apply cut_mline_word; assumption.
Qed.

Lemma signature_ok_dec q : signature_ok (q, []) \/ ~ signature_ok (q, []).
Proof.
  unfold signature_ok. cbn [fst snd].
  destruct (list_eq_dec Byte.byte_eq_dec q (bs " ")); [left; tauto|].
  destruct (has_prefix (bs " Version: ") q) eqn:E1; [left; split; [right; left; now apply prefix_begins|intros []]|].
  destruct (has_prefix (bs " Comment: ") q) eqn:E2; [left; split; [right; right; now apply prefix_begins|intros []]|].
  right. intros [[H|[H|H]] _]; [congruence| |]; apply prefix_begins in H; congruence.
Qed.

Lemma cut_block_total c k ls l ls' q : block_ok k -> canon k -> block_lines k = ls ++ l :: ls' -> begins_with q l ->
  (ls = [] -> q <> []) -> exists r, cut_block c k ls q r.
Proof.
  intros Hok Hc El Hb Nq.
  destruct k as [h sha|h sha|x p|x p|x|h sha ms msg|x f ss|x]; cbn [block_lines block_ok canon] in *.
  - apply begins_single in El as (-> & -> & ->). specialize (Nq eq_refl). subst h. destruct Hok as [_ Hs].
    apply (cut_line_total c (KTree (hex_encode sha) sha) (bs "tree ") (hex_encode sha) [] q); auto; [cbn; auto 10|].
    intros y H. destruct (cut_hash_total sha y Hs H) as [r R]. eexists. apply cut_tree; exact R.
  - apply begins_single in El as (-> & -> & ->). specialize (Nq eq_refl). subst h. destruct Hok as [_ Hs].
    apply (cut_line_total c (KParent (hex_encode sha) sha) (bs "parent ") (hex_encode sha) [] q); auto; [cbn; auto 10|].
    intros y H. destruct (cut_hash_total sha y Hs H) as [r R]. eexists. apply cut_parent; exact R.
  - apply begins_single in El as (-> & -> & ->). specialize (Nq eq_refl). destruct Hc as [-> HP].
    apply (cut_line_total c (KAuthor (person_text p) p) (bs "author ") (person_text p) [] q); auto; [cbn; auto 10|].
    intros y H. destruct (cut_person_total p HP (bs "author ") y H) as [r R]. eexists. apply cut_author; exact R.
  - apply begins_single in El as (-> & -> & ->). specialize (Nq eq_refl). destruct Hc as [-> HP].
    apply (cut_line_total c (KCommitter (person_text p) p) (bs "committer ") (person_text p) [] q); auto; [cbn; auto 10|].
    intros y H. destruct (cut_person_total p HP (bs "committer ") y H) as [r R]. eexists. apply cut_committer; exact R.
  - apply begins_single in El as (-> & -> & ->). specialize (Nq eq_refl).
    apply (cut_line_total c (KEncoding x) (bs "encoding ") x [] q); auto; [cbn; auto 10|].
    intros y H. eexists. now apply cut_encoding.
  - destruct Hok as (Hh & Hs & Hm & Hmsg). destruct Hc as [Eh Hc]. destruct ls as [|l0 ls].
    + injection El as <- El. specialize (Nq eq_refl).
      apply (cut_line_total c (KMergetag h sha ms msg) (bs "mergetag object ") h (map mline_text ms ++ [bs " "] ++ msg) q); auto; [cbn; auto 10|].
      intros y H. rewrite Eh in H. destruct (cut_hash_total sha y Hs H) as [r R]. eexists. now apply (cut_mergetag c h sha ms msg y r).
    + injection El as <- El.
      assert ((exists before m after, ms = before ++ m :: after /\ ls = map mline_text before /\ l = mline_text m) \/
              (ls = map mline_text ms /\ l = bs " ") \/
              (exists before after, msg = before ++ l :: after /\ ls = map mline_text ms ++ [bs " "] ++ before)) as Cs.
      { clear - El. revert ls El. induction ms as [|m ms IH]; intros ls El; cbn [map app] in El.
        - destruct ls as [|l1 ls].
          + injection El as <- El. right. left. auto.
          + injection El as <- El. right. right. exists ls, ls'. auto.
        - destruct ls as [|l1 ls].
          + injection El as <- El. left. exists [], m, ms. auto.
          + injection El as <- El. destruct (IH ls El) as [(b & m' & a & -> & -> & ->)|[[-> ->]|(b & a & -> & ->)]].
            * left. exists (m :: b), m', a. auto.
            * right. left. auto.
            * right. right. exists b, a. auto. }
      destruct Cs as [(b & m & a & E1 & -> & ->)|[[-> ->]|(b & a & -> & ->)]].
      * destruct (cut_mline_total (mtag_value sha b []) m q) as [r R]; [apply Hc; rewrite E1; apply in_or_app; right; now left|exact Hb|].
        eexists. now apply (cut_mergetag_line c h sha ms msg b m a q r).
      * destruct q as [|c0 q]; [eexists; apply cut_mergetag_header|]. destruct Hb as [u Hb]. injection Hb as <- Hb. destruct q; [|discriminate].
        eexists. apply cut_mergetag_blank.
      * eexists. now apply (cut_mergetag_message c h sha ms (b ++ l :: a) b (l :: a) q).
  - destruct ls as [|l0 [|l1 ls]].
    + injection El as <- El. specialize (Nq eq_refl).
      apply (cut_line_total c (KSignature x f ss) (bs "gpgsig ") x (f :: ss ++ [pgp_end]) q); auto; [cbn; auto 10|].
      intros y H. eexists. now apply cut_signature.
    + injection El as <- <- El. destruct q as [|c0 q0] eqn:Eq; [eexists; apply cut_signature_none|]. rewrite <- Eq in *.
      destruct (signature_ok_dec q) as [S|S]; eexists.
      * now apply cut_signature_only.
      * apply cut_signature_first; auto. subst q. discriminate.
    + injection El as <- <- El. destruct (list_eq_dec Byte.byte_eq_dec q pgp_end) as [->|N]; eexists.
      * now apply (cut_signature_end c x f ss ls l ls').
      * now apply (cut_signature_lines c x f ss ls l ls').
  - apply begins_single in El as (-> & -> & ->). specialize (Nq eq_refl). eexists. now apply cut_other.
Qed.

Lemma begins_unlines L : forall cut, begins_with cut (unlines L) ->
  cut = unlines L \/ exists ls l ls' q, L = ls ++ l :: ls' /\ cut = unlines ls ++ q /\ begins_with q l.
Proof.
  induction L as [|l L IH]; intros cut H.
  - destruct H as [r H]. destruct cut; [now left|discriminate].
  - rewrite unlines_cons in H. rewrite app_assoc in H. apply begins_app in H as [H|(y & -> & H & _)].
    + destruct (begins_app _ _ _ H) as [H1|(y & -> & H1 & Ny)].
      * right. exists [], l, L, cut. auto.
      * destruct y as [|c y]; [congruence|]. destruct H1 as [u H1]. injection H1 as <- H1. destruct y; [|discriminate].
        destruct L as [|l2 L]; [left; unfold unlines; cbn [map concat]; now rewrite app_nil_r|]. right. exists [l], l2, L, []. split; [reflexivity|]. split; [|apply begins_nil].
        rewrite unlines_cons. cbn. now rewrite !app_nil_r.
    + destruct (IH y H) as [->|(ls & l2 & ls' & q & -> & -> & Hq)].
      * left. rewrite unlines_cons. now rewrite app_assoc.
      * right. exists (l :: ls), l2, ls', q. split; [reflexivity|]. split; [|exact Hq]. rewrite unlines_cons. now rewrite <- !app_assoc.
Qed.

Lemma header_lines_split ks : forall ls l ls', header_lines ks = ls ++ l :: ls' ->
  exists ks1 k ks2 ls1 ls2, ks = ks1 ++ k :: ks2 /\ ls = header_lines ks1 ++ ls1 /\ block_lines k = ls1 ++ l :: ls2.
Proof.
  induction ks as [|k ks IH]; intros ls l ls' E; [destruct ls; discriminate|].
  change (header_lines (k :: ks)) with (block_lines k ++ header_lines ks) in E.
  assert ((exists ls2, block_lines k = ls ++ l :: ls2) \/ exists ls1, ls = block_lines k ++ ls1 /\ header_lines ks = ls1 ++ l :: ls') as [[ls2 E2]|(ls1 & -> & E2)].
  { revert ls E. generalize (block_lines k) as bl. induction bl as [|b bl IHb]; intros ls E; [right; now exists ls|].
    destruct ls as [|l0 ls]; cbn [app] in E; injection E as -> E; [left; now exists bl|].
    destruct (IHb ls E) as [[x ->]|(x & -> & E')]; [left; now exists x|right; now exists x]. }
  - exists [], k, ks, ls, ls2. auto.
  - destruct (IH _ _ _ E2) as (ks1 & k' & ks2 & x & y & -> & -> & Ek). exists (k :: ks1), k', ks2, x, y. split; [reflexivity|]. split; [|exact Ek].
    change (header_lines (k :: ks1)) with (block_lines k ++ header_lines ks1). now rewrite app_assoc.
Qed.

(** ** Commits *)
Lemma commit_blocks_cblocks g : commit_blocks g = cblocks g.
Proof. reflexivity. Qed.
Lemma commit_blocks_canon B g : commit_ok B g -> forall k, In k (commit_blocks g) -> canon k.
Proof.
  intros (Ht & Hp & Ha & Hc & Hms & Hsg & Ho & Hsp & Hl) k I. unfold commit_blocks in I. rewrite !in_app_iff in I.
  destruct I as [[<-|[]]|[I|[[<-|[<-|[]]]|[I|[I|[I|I]]]]]].
  - reflexivity.
  - apply in_map_iff in I as (x & <- & I). reflexivity.
  - split; [reflexivity|exact Ha].
  - split; [reflexivity|exact Hc].
  - destruct (gc_encoding g); [|destruct I]. destruct I as [<-|[]]. exact Logic.I.
  - apply in_map_iff in I as (m & <- & I). destruct (Hms m I) as (H1 & H2 & H3). split; [reflexivity|].
    intros y [<-|[<-|[<-|[]]]]; try exact Logic.I. split; [reflexivity|exact H2].
  - destruct (gc_signature g) as [sg|] eqn:Es; [|destruct I]. destruct I as [<-|[]]. exact Logic.I.
  - apply in_map_iff in I as (l & <- & I). exact Logic.I.
Qed.

Lemma ends_in_mergetag_dec ks : ends_in_mergetag ks \/ ~ ends_in_mergetag ks.
Proof.
  destruct (rev_case ks) as [->|(ks0 & k & ->)]; [right; intros (a & b & c & d & e & E); destruct a; discriminate|].
  destruct k; try (right; intros E; apply ends_in_snoc in E; exact E). left. exists ks0. eauto.
Qed.
Lemma block_lines_nonempty k : block_lines k <> [].
Proof. destruct k; discriminate. Qed.

Section Texts.
Variable B : nat.
Hypothesis HB : 64 <= B.

Section Commit.
Variable g : gcommit.
Hypothesis HG : commit_ok B g.

Lemma blocks_ok k : In k (commit_blocks g) -> block_ok k.
Proof. rewrite commit_blocks_cblocks. now apply (cblocks_ok B). Qed.
Lemma blocks_end : mergetags_end (commit_blocks g) (EndMessage []).
Proof. rewrite commit_blocks_cblocks. apply cblocks_end. apply HG. Qed.
Lemma blocks_lines : header_lines (commit_blocks g) = commit_lines g.
Proof. rewrite commit_blocks_cblocks. apply cblocks_lines. Qed.
Lemma blocks_line_ok l : In l (header_lines (commit_blocks g)) -> line_ok B l.
Proof. rewrite blocks_lines. apply HG. Qed.
Lemma blocks_value : with_message (header_value (commit_blocks g)) (gc_message g) = commit_value g.
Proof. rewrite commit_blocks_cblocks. apply cblocks_value. Qed.

Lemma front_lines before after l : commit_blocks g = before ++ after -> In l (header_lines before) -> line_ok B l.
Proof. intros E I. apply blocks_line_ok. rewrite E, header_lines_app. apply in_or_app. now left. Qed.

Lemma bad_cut_after_mergetag ks : (forall k, In k ks -> block_ok k) -> mergetags_end ks (EndMessage []) -> (forall l, In l (header_lines ks) -> line_ok B l) ->
  ends_in_mergetag ks -> commit_refused B (unlines (header_lines ks)) EEOF.
Proof.
  intros Hok He Hl (ks0 & h & sha & ms & msg & ->).
  destruct (Hok (KMergetag h sha ms msg)) as (Hh & Hs & Hm & Hmsg); [apply in_or_app; right; now left|].
  exists ks0, (block_lines (KMergetag h sha ms msg)), []. split.
  - rewrite header_lines_snoc in Hl |- *. rewrite <- (app_nil_r (unlines _)). now apply reads_unlines.
  - split; [intros k I; apply Hok; apply in_or_app; now left|]. split; [now apply mergetags_end_front in He|]. now apply (bb_message h sha ms msg).
Qed.

Lemma cut_commit_sound cut r : cut_commit g cut r -> outcome B cut r.
Proof.
  intros H. destruct H as [m H|before after E Nm|before after E Hm|before k after ls l more q r E El Hq H].
  - cbn [outcome]. exists (commit_blocks g), (EndMessage m). cbn [ending_lines ending_rest apply_ending].
    split; [|split; [exact blocks_ok|split; [exact Logic.I|split; [apply mergetags_end_ending; [discriminate|exact blocks_end]|]]]].
    + apply reads_app. exists ([NL] ++ m). split; [rewrite <- blocks_lines; apply reads_unlines, blocks_line_ok|].
      econstructor; [|constructor]. apply (takes_nl B [] m); [intros []|intros [t T]; destruct t; discriminate|cbn; lia].
    + rewrite <- blocks_value. reflexivity.
  - cbn [outcome]. exists before, EndNone. cbn [ending_lines ending_rest apply_ending].
    split; [|split; [|split; [exact Logic.I|split; [|reflexivity]]]].
    + rewrite app_nil_r, <- (app_nil_r (unlines _)). apply reads_unlines. intros l I. now apply (front_lines before after).
    + intros k I. apply blocks_ok. rewrite E. apply in_or_app. now left.
    + apply mergetags_end_none_iff; [exact Nm|]. pose proof blocks_end as H. rewrite E in H. now apply mergetags_end_front in H.
  - cbn [outcome]. apply bad_cut_after_mergetag; [intros k I; apply blocks_ok; rewrite E; apply in_or_app; now left| | |exact Hm].
    + pose proof blocks_end as H. rewrite E in H. now apply mergetags_end_front in H.
    + intros l I. now apply (front_lines before after).
  - assert (forall x, In x (block_lines k) -> line_ok B x) as Hx.
    { intros x I. apply blocks_line_ok. rewrite E, header_lines_app. apply in_or_app. right. unfold header_lines. cbn [map concat]. apply in_or_app. now left. }
    pose proof blocks_end as He. rewrite E in He.
    apply (cut_block_sound B HB before) with (k := k).
    + intros x I. apply blocks_ok. rewrite E. apply in_or_app. now left.
    + now apply mergetags_end_front in He.
    + intros x I. now apply (front_lines before (k :: after)).
    + apply blocks_ok. rewrite E. apply in_or_app. right. now left.
    + apply (commit_blocks_canon B g HG). rewrite E. apply in_or_app. right. now left.
    + now apply (mergetags_end_next before k after).
    + intros x I. apply Hx. rewrite El. apply in_or_app. now left.
    + destruct (Hx l) as (N & _ & L); [rewrite El; apply in_or_app; right; now left|]. split.
      * intros I. apply N. now apply (begins_in _ q).
      * apply begins_length in Hq. lia.
    + exact H.
Qed.

Lemma cut_commit_total cut rest : commit_text g = cut ++ rest -> rest <> [] -> exists r, cut_commit g cut r.
Proof.
  intros E Nr. assert (begins_with cut (commit_text g)) as Hb by (exists rest; exact E). unfold commit_text in Hb. rewrite app_assoc in Hb.
  assert (begins_with cut (unlines (commit_lines g)) -> exists r, cut_commit g cut r) as K.
  { clear Hb E Nr. intros Hb. apply begins_unlines in Hb as [->|(ls & l & ls' & q & El & -> & Hq)].
    - destruct (ends_in_mergetag_dec (commit_blocks g)) as [M|M]; eexists; rewrite <- blocks_lines.
      + apply (cut_after_mergetag g _ []); [now rewrite app_nil_r|exact M].
      + apply (cut_between g _ []); [now rewrite app_nil_r|exact M].
    - rewrite <- blocks_lines in El. destruct (header_lines_split _ _ _ _ El) as (ks1 & k & ks2 & ls1 & ls2 & Ek & -> & Eb).
      destruct ls1 as [|l0 ls1]; [destruct q as [|c0 q]|].
      + rewrite !app_nil_r. destruct (ends_in_mergetag_dec ks1) as [M|M]; eexists; [now apply (cut_after_mergetag g ks1 (k :: ks2))|now apply (cut_between g ks1 (k :: ks2))].
      + destruct (cut_block_total (header_value ks1) k [] l ls2 (c0 :: q)) as [r R]; auto; try discriminate.
        * apply blocks_ok. rewrite Ek. apply in_or_app. right. now left.
        * apply (commit_blocks_canon B g HG). rewrite Ek. apply in_or_app. right. now left.
        * exists r. now apply (cut_in_block g ks1 k ks2 [] l ls2).
      + destruct (cut_block_total (header_value ks1) k (l0 :: ls1) l ls2 q) as [r R]; auto; try discriminate.
        * apply blocks_ok. rewrite Ek. apply in_or_app. right. now left.
        * apply (commit_blocks_canon B g HG). rewrite Ek. apply in_or_app. right. now left.
        * exists r. now apply (cut_in_block g ks1 k ks2 (l0 :: ls1) l ls2). }
  apply begins_app in Hb as [Hb|(m & -> & Hm & _)].
  - apply begins_app in Hb as [Hb|(m & -> & Hm & Nm)]; [now apply K|].
    destruct m as [|c m]; [congruence|]. destruct Hm as [u Hm]. injection Hm as <- Hm. destruct m; [|discriminate].
    eexists. apply (cut_in_message g []). apply begins_nil.
  - eexists. rewrite <- app_assoc. now apply cut_in_message.
Qed.
End Commit.

(** ** Tags *)
Definition tag_outcome (d : bytes) (r : res tag) : Prop :=
  match r with Ok t => exists pr, tag_means B d t pr | Err e => tag_refused B d e | _ => False end.

Lemma tag_of_snoc ts x m : tag_of (ts ++ [x]) m = tline_apply (tag_of ts m) x.
Proof. unfold tag_of. now rewrite fold_left_app. Qed.

Lemma tline_word_total t l q : (match l with TTagger y p => y = person_text p /\ person_ok p | TObject h sha => h = hex_encode sha /\ is_sha sha | TIgnored _ => False | _ => True end) ->
  begins_with q (tline_text l) -> exists r, cut_tline t l q r.
Proof.
  intros Cl Hb. destruct q as [|c0 q0] eqn:Eq; [eexists; apply cut_tline_none|]. rewrite <- Eq in *. assert (q <> []) as Nq by (subst; discriminate). clear Eq c0 q0.
  assert (exists x, tline_text l = tline_word l ++ x /\ forall y, begins_with y x -> exists r, cut_tline t l (tline_word l ++ y) r) as (x & E & Hy).
  { destruct l as [h sha|x|x|x p|l]; cbn [tline_text tline_word] in *.
    - exists h. split; [reflexivity|]. intros y H. destruct Cl as [-> Hs]. destruct (cut_hash_total sha y Hs H) as [r R]. eexists. apply cut_tline_object; exact R.
    - exists x. split; [reflexivity|]. intros y H. eexists. now apply cut_tline_type.
    - exists x. split; [reflexivity|]. intros y H. eexists. now apply cut_tline_tag.
    - exists x. split; [reflexivity|]. intros y H. destruct Cl as [-> HP]. destruct (cut_person_total p HP (bs "tagger ") y H) as [r R].
      eexists. apply cut_tline_tagger; exact R.
    - destruct Cl. }
  rewrite E in Hb. destruct (begins_app _ _ _ Hb) as [H|(y & -> & H & Ny)]; [|now apply Hy].
  destruct (list_eq_dec Byte.byte_eq_dec q (tline_word l)) as [->|N].
  - rewrite <- (app_nil_r (tline_word l)). apply Hy. apply begins_nil.
  - eexists. apply cut_tline_word; assumption.
Qed.

Section Tag.
Variable g : gtag.
Hypothesis HG : tag_ok B g.

Lemma tlines_text : map tline_text (tag_tlines g) = tag_lines g.
Proof. reflexivity. Qed.
Lemma tlines_ok x : In x (tag_tlines g) -> tline_ok x.
Proof.
  destruct HG as (Hs & Hp & _). intros [<-|[<-|[<-|[<-|[]]]]]; try exact Logic.I.
  - split; [apply hex_text_encode|exact Hs].
  - apply (person_text_line (bs "tagger")); [cbn; intuition discriminate|exact Hp].
Qed.
Lemma tlines_canon x : In x (tag_tlines g) ->
  match x with TTagger y p => y = person_text p /\ person_ok p | TObject h sha => h = hex_encode sha /\ is_sha sha | TIgnored _ => False | _ => True end.
Proof. destruct HG as (Hs & Hp & _). intros [<-|[<-|[<-|[<-|[]]]]]; auto. Qed.
Lemma tlines_line_ok l : In l (map tline_text (tag_tlines g)) -> line_ok B l.
Proof. rewrite tlines_text. apply HG. Qed.

Lemma tag_means_front before q more :
  (forall x, In x (before ++ more) -> tline_ok x) -> (forall l, In l (map tline_text before) -> line_ok B l) -> part_ok B q ->
  map tline_text more = match q with [] => [] | _ => [q] end ->
  tag_outcome (unlines (map tline_text before) ++ q) (Ok (tag_of (before ++ more) [])).
Proof.
  intros Hok Hl Hq Em. cbn [tag_outcome]. exists (ignored (before ++ more)), (before ++ more), None. split; [|auto].
  rewrite map_app, Em, app_nil_r. destruct q as [|c q]; [rewrite (app_nil_r (map _ _)); now apply reads_whole|]. apply reads_cut; auto. discriminate.
Qed.
Lemma tag_refused_front before q e : q <> [] ->
  (forall x, In x before -> tline_ok x) -> (forall l, In l (map tline_text before) -> line_ok B l) -> part_ok B q -> bad_tline q e ->
  tag_outcome (unlines (map tline_text before) ++ q) (Err e).
Proof. intros Nq Hok Hl Hq Hb. cbn [tag_outcome]. exists before, q, []. split; [now apply reads_cut|auto]. Qed.

Lemma cut_tag_sound cut r : cut_tag g cut r -> tag_outcome cut r.
Proof.
  intros H. destruct H as [m H| |before l after q r E Hb H].
  - cbn [tag_outcome]. exists (ignored (tag_tlines g)), (tag_tlines g), (Some m). split; [|auto using tlines_ok].
    apply reads_app. exists ([NL] ++ m). split; [rewrite <- tlines_text; apply reads_unlines, tlines_line_ok|].
    econstructor; [|constructor]. apply (takes_nl B [] m); [intros []|intros [t T]; destruct t; discriminate|cbn; lia].
  - rewrite <- (app_nil_r (unlines _)). pose proof (tag_means_front (tag_tlines g) [] []) as Q. rewrite (app_nil_r (tag_tlines g)), tlines_text in Q. apply Q; auto using tlines_ok.
    + apply HG.
    + split; [intros []|cbn; lia].
  - assert (forall x, In x before -> tline_ok x) as Hbok by (intros x I; apply tlines_ok; rewrite E; apply in_or_app; now left).
    assert (forall x, In x (map tline_text before) -> line_ok B x) as Hbl by (intros x I; apply tlines_line_ok; rewrite E, map_app; apply in_or_app; now left).
    assert (tline_ok l) as Hlok by (apply tlines_ok; rewrite E; apply in_or_app; right; now left).
    assert (match l with TTagger y p => y = person_text p /\ person_ok p | TObject h sha => h = hex_encode sha /\ is_sha sha | TIgnored _ => False | _ => True end) as Hlc
      by (apply tlines_canon; rewrite E; apply in_or_app; right; now left).
    assert (part_ok B q) as Hq.
    { destruct (tlines_line_ok (tline_text l)) as (N & _ & L); [rewrite E, map_app; apply in_or_app; right; now left|]. split.
      - intros I. apply N. now apply (begins_in _ q).
      - apply begins_length in Hb. lia. }
    assert (forall x, tline_ok x -> forall y, In y (before ++ [x]) -> tline_ok y) as Hadd by (intros x Hx y I; apply in_app_iff in I as [I|[<-|[]]]; auto).
    clear E. destruct H as [l|l q Nq Hw Nw|h sha x r H|y x H|y x H|y p x r H].
    + pose proof (tag_means_front before [] []) as Q. rewrite (app_nil_r before) in Q. apply Q; auto.
    + rewrite <- (app_nil_r before) at 1.
      assert (tline_ok (TIgnored q)) as Oq.
      { split; [exact Nq|]. intros w Iw Hw'. apply Nw. apply begins_same_length; [exact Hw|]. pose proof (begins_trans _ _ _ Hw' Hw) as [u T]. apply begins_length in Hw, Hw'.
        unfold tag_words in Iw. cbn [In] in Iw. destruct l; cbn [tline_word] in *; try contradiction; repeat (destruct Iw as [<-|Iw]; [first [discriminate T|lia]|]); contradiction. }
      pose proof (tag_means_front before q [TIgnored q] (Hadd _ Oq) Hbl Hq) as Q. rewrite tag_of_snoc in Q. rewrite app_nil_r. apply Q. cbn. destruct q; [congruence|reflexivity].
    + destruct Hlc as [_ Hs]. destruct (cut_hash_good _ _ _ H) as [[k ->]|[e ->]].
      * apply cut_hash_ok in H as [-> ->]. assert (tline_ok (TObject (hex_encode sha) sha)) as Oq by (split; [apply hex_text_encode|exact Hs]).
        pose proof (tag_means_front before _ [TObject (hex_encode sha) sha] (Hadd _ Oq) Hbl Hq eq_refl) as Q. rewrite tag_of_snoc in Q. exact Q.
      * apply tag_refused_front; auto; [discriminate|]. apply bt_object. now apply (cut_hash_bad sha).
    + pose proof (tag_means_front before _ [TType x] (Hadd (TType x) Logic.I) Hbl Hq eq_refl) as Q. rewrite tag_of_snoc in Q. exact Q.
    + pose proof (tag_means_front before _ [TTag x] (Hadd (TTag x) Logic.I) Hbl Hq eq_refl) as Q. rewrite tag_of_snoc in Q. exact Q.
    + destruct Hlc as [_ HP]. pose proof (person_good (bs "tagger") (bs "tagger ") p x r (or_intror (or_intror eq_refl)) eq_refl HP H) as G. destruct r as [p'|e| |]; try contradiction.
      * pose proof (tag_means_front before _ [TTagger x p'] (Hadd (TTagger x p') G) Hbl Hq eq_refl) as Q. rewrite tag_of_snoc in Q. exact Q.
      * apply tag_refused_front; auto; [discriminate|]. now apply bt_tagger.
Qed.

Lemma cut_tag_total cut rest : tag_text g = cut ++ rest -> rest <> [] -> exists r, cut_tag g cut r.
Proof.
  intros E Nr. assert (begins_with cut (tag_text g)) as Hb by (exists rest; exact E). unfold tag_text in Hb. rewrite app_assoc in Hb.
  apply begins_app in Hb as [Hb|(m & -> & Hm & _)].
  - apply begins_app in Hb as [Hb|(m & -> & Hm & Nm)].
    + apply begins_unlines in Hb as [->|(ls & l & ls' & q & El & -> & Hq)]; [eexists; apply cut_tag_header|].
      rewrite <- tlines_text in El. assert (exists before x after, tag_tlines g = before ++ x :: after /\ ls = map tline_text before /\ l = tline_text x) as (before & x & after & Et & -> & ->).
      { revert El. generalize (tag_tlines g) as ts. clear. intros ts. revert ls. induction ts as [|t ts IH]; intros ls El; [destruct ls; discriminate|].
        destruct ls as [|l0 ls]; cbn [map app] in El; injection El as <- El; [exists [], t, ts; auto|].
        destruct (IH ls El) as (b & x & a & -> & -> & ->). exists (t :: b), x, a. auto. }
      destruct (tline_word_total (tag_of before []) x q) as [r R]; [apply tlines_canon; rewrite Et; apply in_or_app; right; now left|exact Hq|].
      exists r. now apply (cut_tag_line g before x after).
    + destruct m as [|c m]; [congruence|]. destruct Hm as [u Hm]. injection Hm as <- Hm. destruct m; [|discriminate].
      eexists. apply (cut_tag_message g []). apply begins_nil.
  - eexists. rewrite <- app_assoc. now apply cut_tag_message.
Qed.
End Tag.
End Texts.
