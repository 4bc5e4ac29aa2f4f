(** Decoding of canonical commits. *)
From Verif Require Import Base GoStr Cid Types Nodes Reader Person Assemble Decode Encode Spec
  HeaderSpec StreamFacts PersonFacts DecodeFacts RoundTrip.

Section B.
Context (B : nat) (HB : 64 <= B).
Notation ops := (stream_ops B).
Let HB2 : 2 <= B. Proof. lia. Qed.

Lemma commit_run_line_ok c l rest e : line_ok B l ->
  commit_run B c (mk (l ++ NL :: rest) e) =
  let* (c', s2) := commit_step B c l (mk rest e) in commit_run B c' s2.
Proof.
  intros H. apply commit_run_line; auto.
  - now apply stream_line_ok.
  - cbn. rewrite app_length; cbn; lia.
Qed.

(** *** Each kind of line *)

Lemma step_tree c sha s : is_sha sha ->
  commit_step B c (bs "tree " ++ hex_encode sha) s = Ok (with_tree c (git_link sha), s).
Proof.
  intros H. unfold commit_step. cbn [commit_line]. change (rd_deref ops s ?l) with l. cbv zeta. rewrite has_prefix_app, go_from_app by reflexivity. cbn [bind].
  rewrite hex_decode_encode. cbn [bind]. rewrite sha_to_cid_ok by assumption. reflexivity.
Qed.

Lemma step_parent c sha s : is_sha sha ->
  commit_step B c (bs "parent " ++ hex_encode sha) s = Ok (with_parents c [git_link sha], s).
Proof.
  intros H. unfold commit_step. cbn [commit_line]. change (rd_deref ops s ?l) with l. cbv zeta.
  change (has_prefix (bs "tree ") (bs "parent " ++ hex_encode sha)) with false. cbn iota.
  rewrite has_prefix_app, go_from_app by reflexivity. cbn [bind].
  rewrite hex_decode_encode. cbn [bind]. rewrite sha_to_cid_ok by assumption. reflexivity.
Qed.

Lemma step_author c p s : person_ok p ->
  commit_step B c (bs "author " ++ person_text p) s = Ok (with_author c p, s).
Proof.
  intros H. unfold commit_step. 
  change (commit_line ops (S (length (st_data s))) c (bs "author " ++ person_text p) s) with
    (let* q := parse_person (bs "author" ++ [SP] ++ person_text p) in Ok (with_author c q, s)).
  apply (person_roundtrip (bs "author")) in H; [|cbn; intuition discriminate]. rewrite H. reflexivity.
Qed.

Lemma step_committer c p s : person_ok p ->
  commit_step B c (bs "committer " ++ person_text p) s = Ok (with_committer c p, s).
Proof.
  intros H. unfold commit_step. 
  change (commit_line ops (S (length (st_data s))) c (bs "committer " ++ person_text p) s) with
    (let* q := parse_person (bs "committer" ++ [SP] ++ person_text p) in Ok (with_committer c q, s)).
  apply (person_roundtrip (bs "committer")) in H; [|cbn; intuition discriminate]. rewrite H. reflexivity.
Qed.

Lemma step_encoding c x s : commit_step B c (bs "encoding " ++ x) s = Ok (with_encoding c x, s).
Proof. reflexivity. Qed.

Lemma step_blank c s :
  commit_step B c [] s =
  match eof_ok (st_err s) with
  | Some e => Err e
  | None => Ok (with_message c (st_data s), mk [] (st_err s))
  end.
Proof. reflexivity. Qed.

Lemma not_header_prefix l p : ~ is_header l -> In p header_words -> has_prefix p l = false.
Proof.
  intros H I. destruct (has_prefix p l) eqn:E; [|reflexivity]. exfalso. apply H.
  apply has_prefix_spec in E as [r ->]. exists p. split; auto. now exists r.
Qed.

Lemma step_other c l s : l <> [] -> ~ is_header l ->
  commit_step B c l s = Ok (with_other c [l], s).
Proof.
  intros N H. unfold commit_step. cbn [commit_line]. change (rd_deref ops s ?l) with l. cbv zeta.
  rewrite !(not_header_prefix l) by (auto; cbn; tauto).
  destruct l; [congruence|]. reflexivity.
Qed.

(** *** Signatures *)

Definition gpgsig_run (sig : bytes) (s : stream) := gpgsig_loop ops (S (length (st_data s))) sig s.

Lemma gpgsig_run_lines ss : forall sig rest e,
  (forall l, In l ss -> line_ok B l) -> ~ In pgp_end ss ->
  gpgsig_run sig (mk (unlines ss ++ pgp_end ++ NL :: rest) e) = Ok (sig ++ unlines ss, mk rest e).
Proof.
  induction ss as [|l ss IH]; intros sig rest e H N.
  - unfold gpgsig_run. rewrite unlines_nil. cbn [app]. cbn [gpgsig_loop]. change (rd_line ops) with (stream_line B).
    rewrite stream_line_ok.
    + cbn [bind]. change (rd_deref ops ?a ?b) with b. change (beqb pgp_end (bs " -----END PGP SIGNATURE-----")) with true.
      cbn iota. now rewrite app_nil_r.
    + split; [cbn; intuition discriminate|]. split; [|cbn; lia].
      intros [r E]. change pgp_end with (removelast pgp_end ++ [last pgp_end x00]) in E.
      apply app_inj_tail in E as [_ E]. discriminate E.
  - rewrite unlines_cons. unfold gpgsig_run. lnorm.
    cbn [gpgsig_loop]. change (rd_line ops) with (stream_line B).
    rewrite stream_line_ok by (apply H; now left). cbn [bind]. change (rd_deref ops ?a ?b) with b.
    rewrite beqb_neq by (intros ->; apply N; now left).
    specialize (IH (sig ++ l ++ [NL]) rest e).
    unfold gpgsig_run in IH. cbn [mk st_data] in *.
    destruct (gpgsig_loop_good B HB2 (S (length (unlines ss ++ pgp_end ++ NL :: rest))) (sig ++ l ++ [NL])
                (mk (unlines ss ++ pgp_end ++ NL :: rest) e)) as [_ F]; [cbn; lia|].
    rewrite F.
    2:{ cbn [mk st_data]. generalize (unlines ss ++ pgp_end ++ NL :: rest). intros t. rewrite app_length. cbn. lia. }
    rewrite IH; [do 2 f_equal; now rewrite <- !app_assoc|intros; apply H; now right|].
    intros I; apply N; now right.
Qed.

Lemma step_gpgsig c sg rest e : signature_ok sg -> (forall l, In l (fst sg :: snd sg) -> line_ok B l) ->
  commit_step B c pgp_begin (mk (unlines (fst sg :: snd sg) ++ pgp_end ++ NL :: rest) e) =
  Ok (with_signature c (unlines (fst sg :: snd sg)), mk rest e).
Proof.
  intros [H1 H2] HL. destruct sg as [s0 ss]. cbn [fst snd] in *. unfold commit_step.
  set (s := mk _ _).
  change (commit_line ops (S (length (st_data s))) c pgp_begin s) with
    (let* (sig, s1) := decode_gpgsig ops s in Ok (with_signature c sig, s1)).
  assert (decode_gpgsig ops s = Ok (unlines (s0 :: ss), mk rest e)) as ->; [|reflexivity].
  subst s. rewrite unlines_cons. lnorm. unfold decode_gpgsig. change (rd_line ops) with (stream_line B).
  rewrite stream_line_ok by (apply HL; now left). cbn [bind]. change (rd_deref ops ?a ?b) with b.
  change (rd_fuel ops ?s) with (S (length (st_data s))). fold (gpgsig_run (s0 ++ [NL]) (mk (unlines ss ++ pgp_end ++ NL :: rest) e)).
  fold (gpgsig_run (bs " " ++ [NL]) (mk (unlines ss ++ pgp_end ++ NL :: rest) e)).
  rewrite !gpgsig_run_lines by (auto; intros; apply HL; now right).
  destruct (beqb_spec s0 (bs " ")) as [->|N]; cbn [negb].
  - reflexivity.
  - assert (has_prefix (bs " Version: ") s0 || has_prefix (bs " Comment: ") s0 = true) as ->.
    { destruct H1 as [?|[[r ->]|[r ->]]]; [congruence|now rewrite has_prefix_app|].
      rewrite (has_prefix_app (bs " Comment: ")). apply orb_true_r. }
    rewrite <- app_assoc. reflexivity.
Qed.

(** *** Merge tags *)

Lemma mergetag_msg_lines ls : forall msg nx rest e f,
  (forall l, In l ls -> line_ok B l /\ starts_with SP l) ->
  line_ok B nx -> ~ starts_with SP nx ->
  length (unlines ls ++ nx ++ NL :: rest) < f ->
  mergetag_msg_loop ops f msg (mk (unlines ls ++ nx ++ NL :: rest) e) = Ok (msg ++ unlines ls, nx, mk rest e).
Proof.
  induction ls as [|l ls IH]; intros msg nx rest e f H Hnx Nnx L; (destruct f as [|f]; [cbn in L; lia|]).
  - rewrite unlines_nil in *. cbn [app] in *. cbn [mergetag_msg_loop]. change (rd_line ops) with (stream_line B).
    rewrite stream_line_ok by assumption. cbn [bind]. change (rd_deref ops ?a ?b) with b.
    assert (has_prefix (bs " ") nx = false) as ->.
    { destruct (has_prefix (bs " ") nx) eqn:E; auto. apply has_prefix_spec in E as [r ->]. exfalso. apply Nnx. now exists r. }
    cbn [negb]. now rewrite app_nil_r.
  - rewrite unlines_cons in *. lnorm. cbn [mergetag_msg_loop]. change (rd_line ops) with (stream_line B).
    destruct (H l (or_introl eq_refl)) as [Hl [r Er]].
    rewrite stream_line_ok by assumption. cbn [bind]. change (rd_deref ops ?a ?b) with b.
    assert (has_prefix (bs " ") l = true) as -> by (rewrite Er; reflexivity).
    cbn [negb]. rewrite IH; auto.
    + do 3 f_equal. now rewrite <- !app_assoc.
    + intros; apply H; now right.
    + revert L. lnorm. generalize (unlines ls ++ nx ++ NL :: rest). intros t. rewrite app_length. cbn. lia.
Qed.

Definition mergetag_rest_lines (g : gmergetag) : list bytes :=
  [bs " type " ++ gm_type g; bs " tag " ++ gm_tag g; bs " tagger " ++ person_text (gm_tagger g); bs " "] ++ gm_message g.

Lemma mergetag_lines_cons g :
  mergetag_lines g = (bs "mergetag object " ++ hex_encode (gm_object g)) :: mergetag_rest_lines g.
Proof. reflexivity. Qed.

Lemma read_merge_tag_value g nx rest e :
  mergetag_ok g -> (forall l, In l (mergetag_lines g) -> line_ok B l) ->
  line_ok B nx -> ~ starts_with SP nx ->
  read_merge_tag ops (gm_object g) (mk (unlines (mergetag_rest_lines g) ++ nx ++ NL :: rest) e) =
  Ok (mergetag_value g, Some nx, mk rest e).
Proof.
  intros (Ho & Hp & Hm) HL Hnx Nnx. unfold read_merge_tag. rewrite sha_to_cid_ok by assumption. cbn [bind].
  change (rd_fuel ops ?s) with (S (length (st_data s))). cbn [mk st_data].
  rewrite mergetag_lines_cons in HL. unfold mergetag_rest_lines in *.
  set (msgl := gm_message g) in *. cbn [app]. rewrite app_NL_shape.
  set (f := length _). assert (length (unlines msgl ++ nx ++ NL :: rest) + 3 < f) as Lf.
  { unfold f. rewrite !app_NL_shape. repeat (rewrite app_length || cbn [length]). lia. }
  clearbody f. rewrite mergetag_loop_unfold. rewrite stream_line_ok by (apply HL; cbn; auto). cbn [bind].
  rewrite beqb_neq by discriminate. cbn [mergetag_header].
  unfold mergetag_header at 1. rewrite has_prefix_app, go_from_app by reflexivity. cbn [bind].
  destruct f as [|f]; [lia|]. rewrite app_NL_shape.
  rewrite mergetag_loop_unfold. rewrite stream_line_ok by (apply HL; cbn; auto 10). cbn [bind].
  rewrite beqb_neq by discriminate.
  unfold mergetag_header at 1. change (has_prefix (bs " type ") (bs " tag " ++ gm_tag g)) with false. cbn iota.
  rewrite has_prefix_app, go_from_app by reflexivity. cbn [bind].
  destruct f as [|f]; [lia|]. rewrite app_NL_shape.
  rewrite mergetag_loop_unfold. rewrite stream_line_ok by (apply HL; cbn; auto 10). cbn [bind].
  rewrite beqb_neq by discriminate.
  unfold mergetag_header at 1.
  change (has_prefix (bs " type ") (bs " tagger " ++ ?x)) with false.
  change (has_prefix (bs " tag ") (bs " tagger " ++ ?x)) with false.
  change (has_prefix (bs " tagger ") (bs " tagger " ++ ?x)) with true. cbn iota.
  change (go_from 1 (bs " tagger " ++ ?x)) with (Ok (bs "tagger" ++ [SP] ++ x)). cbn [bind].
  assert (parse_person (bs "tagger" ++ [SP] ++ person_text (gm_tagger g)) = Ok (gm_tagger g)) as ->.
  { apply person_roundtrip; [cbn; intuition discriminate|assumption]. }
  cbn [bind].
  destruct f as [|f]; [lia|]. rewrite app_NL_shape.
  rewrite mergetag_loop_unfold. rewrite stream_line_ok by (apply HL; cbn; auto 10). cbn [bind].
  rewrite beqb_refl. cbn [mk st_data].
  rewrite mergetag_msg_lines; auto.
  intros l I. split; [apply HL; right; right; right; right; right; exact I|now apply Hm].
Qed.

Lemma commit_line_mergetag f c x s :
  commit_line ops (S f) c (bs "mergetag object " ++ x) s =
    (let* h := go_from 16 (bs "mergetag object " ++ x) in
     let* sha := hex_decode h in
     let* (mt, r, s1) := read_merge_tag ops sha s in
     match r with
     | Some v => commit_line ops f (with_mergetags c [mt]) v s1
     | None => Ok (with_mergetags c [mt], s1)
     end).
Proof. reflexivity. Qed.

Lemma step_mergetag c g nx rest e :
  mergetag_ok g -> (forall l, In l (mergetag_lines g) -> line_ok B l) ->
  line_ok B nx -> ~ starts_with SP nx ->
  commit_step B c (bs "mergetag object " ++ hex_encode (gm_object g))
    (mk (unlines (mergetag_rest_lines g) ++ nx ++ NL :: rest) e) =
  commit_step B (with_mergetags c [mergetag_value g]) nx (mk rest e).
Proof.
  intros Hg HL Hnx Nnx. unfold commit_step at 1. rewrite commit_line_mergetag.
  rewrite go_from_app by reflexivity. cbn [bind]. rewrite hex_decode_encode. cbn [bind].
  rewrite read_merge_tag_value by assumption. cbn [bind].
  apply (commit_line_good B HB2); cbn; [lia|]. rewrite !app_length. cbn. lia.
Qed.

Lemma run_mergetags ms : forall c nx rest e,
  (forall m, In m ms -> mergetag_ok m) ->
  (forall l, In l (concat (map mergetag_lines ms)) -> line_ok B l) ->
  line_ok B nx -> (ms <> [] -> ~ starts_with SP nx) ->
  commit_run B c (mk (unlines (concat (map mergetag_lines ms)) ++ nx ++ NL :: rest) e) =
  commit_run B (with_mergetags c (map mergetag_value ms)) (mk (nx ++ NL :: rest) e).
Proof.
  induction ms as [|m ms IH]; intros c nx rest e Hm HL Hnx Nnx.
  - cbn. f_equal. destruct c; unfold with_mergetags; cbn. now rewrite app_nil_r.
  - cbn [map concat] in *.
    assert (forall nx' rest', line_ok B nx' -> ~ starts_with SP nx' ->
      commit_run B c (mk (unlines (mergetag_lines m) ++ nx' ++ NL :: rest') e) =
      commit_run B (with_mergetags c [mergetag_value m]) (mk (nx' ++ NL :: rest') e)) as one.
    { intros nx' rest' H1 H2. rewrite mergetag_lines_cons, app_NL_shape.
      rewrite commit_run_line_ok by (apply HL, in_or_app; left; now left).
      rewrite step_mergetag.
      - now rewrite commit_run_line_ok.
      - apply Hm; now left.
      - intros l I. apply HL, in_or_app. now left.
      - assumption.
      - assumption. }
    rewrite unlines_app, <- app_assoc.
    assert (with_mergetags c (mergetag_value m :: map mergetag_value ms) =
            with_mergetags (with_mergetags c [mergetag_value m]) (map mergetag_value ms)) as ->.
    { unfold with_mergetags; cbn. now rewrite <- app_assoc. }
    destruct ms as [|m' ms'].
    + cbn [map concat]. rewrite unlines_nil. cbn [app]. rewrite one by (auto; apply Nnx; discriminate).
      f_equal. unfold with_mergetags; cbn. now rewrite app_nil_r.
    + rewrite <- IH; [|intros; apply Hm; now right|intros; apply HL, in_or_app; now right|assumption|intros _; apply Nnx; discriminate].
      cbn [map concat]. rewrite (mergetag_lines_cons m'). cbn [app].
      rewrite (app_NL_shape _ (mergetag_rest_lines m' ++ _)).
      apply one.
      * apply HL, in_or_app. right. cbn [map concat]. rewrite mergetag_lines_cons. now left.
      * intros [r E]. discriminate E.
Qed.

Lemma run_parents ps : forall c rest e, (forall p, In p ps -> is_sha p) ->
  (forall p, In p ps -> line_ok B (bs "parent " ++ hex_encode p)) ->
  commit_run B c (mk (unlines (map (fun p => bs "parent " ++ hex_encode p) ps) ++ rest) e) =
  commit_run B (with_parents c (map git_link ps)) (mk rest e).
Proof.
  induction ps as [|p ps IH]; intros c rest e H HL.
  - cbn. f_equal. destruct c; unfold with_parents; cbn. now rewrite app_nil_r.
  - cbn [map]. rewrite app_NL_shape, commit_run_line_ok by (apply HL; now left).
    rewrite step_parent by (apply H; now left). cbn [bind]. rewrite IH.
    + f_equal. unfold with_parents; cbn. now rewrite <- app_assoc.
    + intros; apply H; now right.
    + intros; apply HL; now right.
Qed.

Lemma run_other ls : forall c rest e, (forall l, In l ls -> l <> [] /\ ~ is_header l) ->
  (forall l, In l ls -> line_ok B l) ->
  commit_run B c (mk (unlines ls ++ rest) e) = commit_run B (with_other c ls) (mk rest e).
Proof.
  induction ls as [|l ls IH]; intros c rest e H HL.
  - cbn. f_equal. destruct c; unfold with_other; cbn. now rewrite app_nil_r.
  - rewrite app_NL_shape, commit_run_line_ok by (apply HL; now left).
    destruct (H l (or_introl eq_refl)) as [H1 H2].
    rewrite step_other by assumption. cbn [bind]. rewrite IH.
    + f_equal. unfold with_other; cbn. now rewrite <- app_assoc.
    + intros; apply H; now right.
    + intros; apply HL; now right.
Qed.

Lemma run_message c msg : commit_run B c (mk (NL :: msg) EEOF) = Ok (with_message c msg).
Proof.
  change (NL :: msg) with ([] ++ NL :: msg). rewrite commit_run_line_ok by (apply line_ok_nil; assumption).
  rewrite step_blank. reflexivity.
Qed.

Lemma commit_run_value g : commit_ok B g ->
  commit_run B zero_commit (mk (commit_text g) EEOF) = Ok (commit_value g).
Proof.
  intros (Ht & Hps & Ha & Hc & Hm & Hs & Ho & Hsp & HL). unfold commit_text.
  unfold commit_lines in *.
  rewrite !unlines_app, <- !app_assoc.
  assert (forall l, In l [bs "tree " ++ hex_encode (gc_tree g)] -> line_ok B l) as HL1.
  { intros; apply HL, in_or_app; now left. }
  assert (forall p, In p (gc_parents g) -> line_ok B (bs "parent " ++ hex_encode p)) as HL2.
  { intros p I. apply HL. rewrite !in_app_iff. right; left. apply in_map_iff. eauto. }
  assert (forall l, In l [bs "author " ++ person_text (gc_author g); bs "committer " ++ person_text (gc_committer g)] -> line_ok B l) as HL3.
  { intros; apply HL. rewrite !in_app_iff. auto. }
  assert (forall l, In l (opt_list (fun e => [bs "encoding " ++ e]) (gc_encoding g)) -> line_ok B l) as HL4.
  { intros; apply HL. rewrite !in_app_iff. auto. }
  assert (forall l, In l (concat (map mergetag_lines (gc_mergetags g))) -> line_ok B l) as HL5.
  { intros; apply HL. rewrite !in_app_iff. auto 10. }
  assert (forall l, In l (opt_list signature_lines (gc_signature g)) -> line_ok B l) as HL6.
  { intros; apply HL. rewrite !in_app_iff. auto 10. }
  assert (forall l, In l (gc_other g) -> line_ok B l) as HL7.
  { intros; apply HL. rewrite !in_app_iff. auto 10. }
  rewrite app_NL_shape, unlines_nil. cbn [app].
  rewrite commit_run_line_ok by (apply HL1; now left). rewrite step_tree by assumption. cbn [bind].
  rewrite run_parents by assumption.
  rewrite app_NL_shape, commit_run_line_ok by (apply HL3; now left). rewrite step_author by assumption. cbn [bind].
  rewrite app_NL_shape, commit_run_line_ok by (apply HL3; right; now left). rewrite step_committer by assumption. cbn [bind].
  rewrite unlines_nil. cbn [app].
  set (c0 := with_committer _ _).
  (* encoding *)
  set (c1 := match gc_encoding g with Some x => with_encoding c0 x | None => c0 end).
  assert (forall rest, commit_run B c0 (mk (unlines (opt_list (fun e => [bs "encoding " ++ e]) (gc_encoding g)) ++ rest) EEOF)
           = commit_run B c1 (mk rest EEOF)) as ->.
  { intros rest. unfold c1. destruct (gc_encoding g) as [x|]; cbn [opt_list]; [|reflexivity].
    rewrite app_NL_shape, commit_run_line_ok by (apply HL4; now left). rewrite step_encoding. reflexivity. }
  (* the part after the merge tags starts with a line that is not part of them *)
  set (c2 := with_mergetags c1 (map mergetag_value (gc_mergetags g))).
  set (tail := unlines (opt_list signature_lines (gc_signature g)) ++ unlines (gc_other g) ++ NL :: gc_message g).
  assert (exists nx rest, tail = nx ++ NL :: rest /\ line_ok B nx /\ (gc_mergetags g <> [] -> ~ starts_with SP nx)) as (nx & rest & Et & Hnx & Nnx).
  { unfold tail. destruct (gc_signature g) as [sg|] eqn:Eg; cbn [opt_list].
    - unfold signature_lines at 1. cbn [app]. exists pgp_begin. eexists. rewrite app_NL_shape. split; [reflexivity|].
      split; [apply HL6; cbn; now left|]. intros _ [r E]. discriminate E.
    - rewrite unlines_nil. cbn [app]. destruct (gc_other g) as [|l ls] eqn:Eo.
      + exists [], (gc_message g). split; [reflexivity|]. split; [apply line_ok_nil; assumption|]. intros _ [r E]; discriminate.
      + exists l. eexists. rewrite app_NL_shape. split; [reflexivity|]. split; [apply HL7; now left|].
        intros NE. eapply Hsp; eauto. }
  rewrite Et, run_mergetags by assumption. fold c2. rewrite <- Et. unfold tail.
  (* signature *)
  set (c3 := match gc_signature g with Some sg => with_signature c2 (unlines (fst sg :: snd sg)) | None => c2 end).
  assert (forall rest, commit_run B c2 (mk (unlines (opt_list signature_lines (gc_signature g)) ++ rest) EEOF)
           = commit_run B c3 (mk rest EEOF)) as ->.
  { intros r. unfold c3. destruct (gc_signature g) as [sg|]; cbn [opt_list]; [|reflexivity].
    unfold signature_lines in *. cbn [app] in *. rewrite app_NL_shape, commit_run_line_ok by (apply HL6; now left).
    replace (unlines (fst sg :: snd sg ++ [pgp_end]) ++ r) with (unlines (fst sg :: snd sg) ++ pgp_end ++ NL :: r).
    2:{ rewrite !unlines_cons, unlines_app, unlines_cons, unlines_nil. lnorm. reflexivity. }
    rewrite step_gpgsig; [reflexivity|apply Hs; reflexivity|].
    intros l I. apply HL6. cbn [opt_list]. right. destruct I as [<-|I]; [now left|right]. rewrite in_app_iff. now left. }
  rewrite run_other by assumption. rewrite run_message. f_equal.
  unfold c3, c2, c1, c0, commit_value. destruct (gc_encoding g), (gc_signature g); reflexivity.
Qed.

Lemma decode_commit_header k sz body e : (Z.of_N sz < 2 ^ 63)%Z ->
  decode_commit ops k (mk (dec sz ++ [NUL] ++ body) e) =
  let* c := commit_run B zero_commit (mk body e) in build_node k (NCommit c).
Proof.
  intros F. unfold decode_commit. rewrite read_number_dec by assumption. reflexivity.
Qed.

Lemma parse_commit_text body : fits body ->
  parse_object ops (mk (git_object (bs "commit") body) EEOF) =
  map_res NCommit (commit_run B zero_commit (mk body EEOF)).
Proof.
  intros F. unfold parse_object, git_object.
  rewrite read_type_app by (cbn; intuition discriminate). cbn [bind].
  change (beqb (bs "commit") (bs "tree")) with false. change (beqb (bs "commit") (bs "commit")) with true. cbn iota.
  rewrite decode_commit_header by (now apply (fits_N B)). reflexivity.
Qed.

Lemma parse_commit g : fits (commit_text g) -> commit_ok B g ->
  parse_object ops (mk (git_object (bs "commit") (commit_text g)) EEOF) = Ok (NCommit (commit_value g)).
Proof. intros F H. rewrite parse_commit_text by assumption. rewrite commit_run_value by assumption. reflexivity. Qed.

End B.
