(** C65: what ParseObject prints.  Nothing for blobs, trees, commits and texts that are no
    objects; for tags the lines it does not know, up to the first wrong line or the message. *)
From Verif Require Import Base GoStr Cid Types Nodes Reader Bufio Person Assemble Decode Output Spec HeaderSpec ErrorSpec
  ReaderSpec StreamFacts PersonFacts DecodeFacts RoundTrip CommitFacts GrammarFacts Sim BufioFacts NumFacts SafeOps SafeBufio Transfer
  Checks Props_reader Props_decode ErrorFacts Props_grammar Props_error.

(** ** Specification *)
(** The header of a tag ends with the data, with an empty line, or at a line that is wrong. *)
Inductive header_ends : list bytes -> bytes -> Prop :=
| ends_data : header_ends [] []
| ends_blank r : header_ends [[]] r
| ends_wrong l e r : bad_tline l e -> header_ends [l] r.
Definition is_tag_text (d size body : bytes) : Prop := ~ In NUL size /\ d = bs "tag " ++ size ++ [NUL] ++ body.
Inductive prints (B : nat) (d : bytes) : list bytes -> Prop :=
| prints_nothing : (forall size body, ~ is_tag_text d size body) -> prints B d []
| prints_ignored size body ts ls r : is_tag_text d size body -> reads B body (map tline_text ts ++ ls) r ->
    (forall x, In x ts -> tline_ok x) -> header_ends ls r -> prints B d (ignored ts).
(** What is printed for a line. *)
Definition printed (ls : list bytes) : bytes := concat (map (fun l => bs "unhandled line:  " ++ l ++ [NL]) ls).

(** ** The output does not change the result *)
Section Same.
Context {S V : Type} (ops : rdops S V).
Lemma tag_loop_out_same f : forall t out pr s, snd (tag_loop_out ops f t out s) = map_res fst (tag_loop ops f t pr s).
Proof.
  induction f as [|f IH]; intros t out pr s; [reflexivity|]. cbn [tag_loop_out tag_loop].
  destruct (rd_line ops s) as [[[v e] s1]| | |]; cbn [andthen bind]; try reflexivity.
  destruct e as [e|]; [cbn [snd]; now destruct (is_eof e)|].
  destruct (has_prefix (bs "object ") _).
  { destruct (go_from 7 _) as [h| | |]; cbn [andthen bind]; try reflexivity. destruct (hex_decode h) as [sha| | |]; cbn [andthen bind]; try reflexivity.
    destruct (sha_to_cid sha) as [c| | |]; cbn [andthen bind]; try reflexivity. apply IH. }
  destruct (has_prefix (bs "tag ") _).
  { destruct (go_from 4 _) as [h| | |]; cbn [andthen bind]; try reflexivity. apply IH. }
  destruct (has_prefix (bs "tagger ") _).
  { destruct (parse_person _) as [h| | |]; cbn [andthen bind]; try reflexivity. apply IH. }
  destruct (has_prefix (bs "type ") _).
  { destruct (go_from 5 _) as [h| | |]; cbn [andthen bind]; try reflexivity. apply IH. }
  destruct (length _ =? 0); [|apply IH].
  destruct (rd_all ops s1) as [[[rest [e|]] s2]| | |]; cbn [andthen bind]; try reflexivity. apply IH.
Qed.
Lemma parse_out_same s : snd (parse_object_out ops s) = parse_object ops s.
Proof.
  unfold parse_object_out, parse_object. destruct (read_type ops s) as [[typ s1]| | |]; cbn [andthen bind]; try reflexivity.
  destruct (beqb typ (bs "tree")); [reflexivity|]. destruct (beqb typ (bs "commit")); [reflexivity|].
  destruct (beqb typ (bs "blob")); [reflexivity|]. destruct (beqb typ (bs "tag")); [|reflexivity].
  unfold decode_tag_out, decode_tag, decode_tag_printing. destruct (rd_string ops NUL s1) as [[[l [e|]] s2]| | |]; cbn [andthen bind]; try reflexivity.
  pose proof (tag_loop_out_same (rd_fuel ops s2) zero_tag [] [] s2) as E. destruct (tag_loop_out ops _ zero_tag [] s2) as [out r]. cbn [snd] in E. subst r.
  destruct (tag_loop ops _ zero_tag [] s2) as [[t pr]| | |]; cbn [map_res bind andthen snd]; try reflexivity.
Qed.
End Same.
(** For every reader *)
Theorem printing_changes_no_result : forall pa pc b,
  snd (parse_object_out (bufio_ops pa pc) b) = parse_object (bufio_ops pa pc) b.
Proof. intros. apply parse_out_same. Qed.
Print Assumptions printing_changes_no_result.

(** ** Readers that deliver the same print the same *)
Section SimOut.
Context {S1 V1 S2 V2 : Type} (o1 : rdops S1 V1) (o2 : rdops S2 V2) (R : S1 -> S2 -> Prop) (H : sim_core o1 o2 R).
Lemma sim_tag_loop_out f : forall t out s1 s2, R s1 s2 -> tag_loop_out o1 f t out s1 = tag_loop_out o2 f t out s2.
Proof.
  induction f as [|f IH]; intros t out s1 s2 HR; [reflexivity|]. cbn [tag_loop_out].
  pose proof (sim_line _ _ _ H _ _ HR) as L. destruct (rd_line o1 s1) as [[[v1 e1] t1]|e1| |], (rd_line o2 s2) as [[[v2 e2] t2]|e2| |];
    cbn [rel_res] in L; try contradiction; cbn [andthen]; try congruence.
  destruct L as (Ee & HR' & Hd). cbn [fst snd] in *. subst e2. destruct e1 as [e|]; [reflexivity|]. rewrite (Hd eq_refl). cbv zeta.
  destruct (has_prefix (bs "object ") _).
  { match goal with |- andthen _ ?r _ = _ => destruct r as [c| | |] end; cbn [andthen]; auto. }
  destruct (has_prefix (bs "tag ") _).
  { match goal with |- andthen _ ?r _ = _ => destruct r as [c| | |] end; cbn [andthen]; auto. }
  destruct (has_prefix (bs "tagger ") _).
  { match goal with |- andthen _ ?r _ = _ => destruct r as [c| | |] end; cbn [andthen]; auto. }
  destruct (has_prefix (bs "type ") _).
  { match goal with |- andthen _ ?r _ = _ => destruct r as [c| | |] end; cbn [andthen]; auto. }
  destruct (length _ =? 0); [|auto].
  pose proof (sim_all _ _ _ H _ _ HR') as L. destruct (rd_all o1 t1) as [[[r1 e1] u1]|e1| |], (rd_all o2 t2) as [[[r2 e2] u2]|e2| |];
    cbn [rel_res] in L; try contradiction; cbn [andthen]; try congruence.
  destruct L as (Er & Ee & HR2). cbn [fst snd] in *. subst. destruct e2; [reflexivity|]. auto.
Qed.
Lemma sim_out s1 s2 : R s1 s2 -> fst (parse_object_out o1 s1) = fst (parse_object_out o2 s2).
Proof.
  intros HR. unfold parse_object_out. pose proof (sim_read_type _ _ _ H _ _ HR) as L.
  destruct (read_type o1 s1) as [[y1 t1]|e1| |], (read_type o2 s2) as [[y2 t2]|e2| |]; cbn [rel_res] in L; try contradiction; cbn [andthen fst]; try reflexivity.
  destruct L as [Ey HR1]. cbn [fst snd] in *. subst y2.
  destruct (beqb y1 (bs "tree")); [reflexivity|]. destruct (beqb y1 (bs "commit")); [reflexivity|].
  destruct (beqb y1 (bs "blob")); [reflexivity|]. destruct (beqb y1 (bs "tag")); [|reflexivity]. unfold decode_tag_out.
  pose proof (sim_string _ _ _ H NUL _ _ HR1) as L. destruct (rd_string o1 NUL t1) as [[[x1 e1] u1]|e1| |], (rd_string o2 NUL t2) as [[[x2 e2] u2]|e2| |];
    cbn [rel_res] in L; try contradiction; cbn [andthen fst]; try reflexivity.
  destruct L as (_ & Ee & HR2). cbn [fst snd] in *. subst. destruct e2; [reflexivity|].
  rewrite (sim_fuel _ _ _ H _ _ HR2), (sim_tag_loop_out _ _ _ _ _ HR2). reflexivity.
Qed.
End SimOut.

(** ** What the loop prints, over a stream *)
Lemma ignored_cons x ts : ignored (x :: ts) = printed_line x ++ ignored ts.
Proof. destruct x; reflexivity. Qed.
Lemma printed_app a b : printed (a ++ b) = printed a ++ printed b.
Proof. unfold printed. now rewrite map_app, concat_app. Qed.
Section B.
Context (B : nat) (HB : 64 <= B).
Notation ops := (stream_ops B).
Let HB2 : 2 <= B. Proof. lia. Qed.

(** One line of the loop. *)
Lemma tag_loop_out_line f t out s l s1 : stream_line B s = Ok (l, None, s1) -> l <> [] ->
  tag_loop_out ops (S f) t out s =
  andthen out (tag_header t l) (fun '(t', p) => tag_loop_out ops f t' (out ++ printed p) s1).
Proof.
  intros E N. cbn [tag_loop_out]. change (rd_line ops) with (stream_line B). rewrite E. cbn [andthen]. change (rd_deref ops s1 l) with l. cbv zeta. unfold tag_header.
  destruct (has_prefix (bs "object ") l).
  { destruct (go_from 7 l) as [h| | |]; cbn [andthen bind]; try reflexivity. destruct (hex_decode h) as [sha| | |]; cbn [andthen bind]; try reflexivity.
    destruct (sha_to_cid sha) as [c| | |]; cbn [andthen bind]; try reflexivity. cbn. now rewrite app_nil_r. }
  destruct (has_prefix (bs "tag ") l).
  { destruct (go_from 4 l) as [h| | |]; cbn [andthen bind]; try reflexivity. cbn. now rewrite app_nil_r. }
  destruct (has_prefix (bs "tagger ") l).
  { destruct (parse_person l) as [h| | |]; cbn [andthen bind]; try reflexivity. cbn. now rewrite app_nil_r. }
  destruct (has_prefix (bs "type ") l).
  { destruct (go_from 5 l) as [h| | |]; cbn [andthen bind]; try reflexivity. cbn. now rewrite app_nil_r. }
  destruct (Nat.eqb_spec (length l) 0) as [L|L]; [destruct l; [congruence|discriminate]|]. cbn [andthen].
  unfold printed. cbn [map concat]. rewrite app_nil_r. reflexivity.
Qed.

Lemma tag_loop_prints er f : forall d t out, length d < f ->
  exists ts ls r, reads B d (map tline_text ts ++ ls) r /\ (forall x, In x ts -> tline_ok x) /\ header_ends ls r /\
    fst (tag_loop_out ops f t out (mk d er)) = out ++ printed (ignored ts).
Proof.
  induction f as [|f IH]; intros d t out L; [lia|].
  destruct (next_line B HB d er) as [[-> R]|(l & r & T & Lr & R)].
  - exists [], [], []. split; [constructor|]. split; [intros ? []|]. split; [constructor|]. cbn [tag_loop_out]. change (rd_line ops) with (stream_line B). rewrite R.
    cbn [andthen fst]. cbn. now rewrite app_nil_r.
  - destruct l as [|c l].
    + exists [], [[]], r. split; [econstructor; [exact T|constructor]|]. split; [intros ? []|]. split; [constructor|].
      cbn [tag_loop_out]. change (rd_line ops) with (stream_line B). rewrite R. cbn [andthen]. change (rd_deref ops (mk r er) []) with (@nil byte).
      cbn [has_prefix length Nat.eqb].
      destruct f as [|f]; [lia|]. cbn. destruct (eof_ok er); cbn [andthen fst]; [cbn; now rewrite app_nil_r|]. cbn. now rewrite app_nil_r.
    + rewrite (tag_loop_out_line _ _ _ _ _ _ R) by discriminate. destruct (tag_header t (c :: l)) as [[t' p]|e| |] eqn:E; cbn [andthen fst].
      * apply tag_header_inv in E as (x & Hx & Ex & -> & ->); [|discriminate].
        destruct (IH r (tline_apply t x) (out ++ printed (printed_line x))) as (ts & ls & r' & Q & Ht & He & P); [lia|].
        exists (x :: ts), ls, r'. cbn [map app]. split; [rewrite Ex; econstructor; eassumption|]. split; [intros y [<-|I]; auto|]. split; [exact He|].
        rewrite P, ignored_cons, printed_app. now rewrite app_assoc.
      * apply tag_header_err in E; [|discriminate]. exists [], [c :: l], r. split; [econstructor; [exact T|constructor]|]. split; [intros ? []|].
        split; [now apply (ends_wrong _ e)|]. cbn. now rewrite app_nil_r.
      * exfalso. pose proof (tag_header_safe t (c :: l)) as X. rewrite E in X. exact X.
      * exfalso. pose proof (tag_header_safe t (c :: l)) as X. rewrite E in X. exact X.
Qed.

Lemma parse_prints d er : exists ls, prints B d ls /\ fst (parse_object_out ops (mk d er)) = printed ls.
Proof.
  destruct (split_at SP d) as [N|(typ & r & -> & Nt)].
  { exists []. split.
    - apply prints_nothing. intros size body [_ ->]. apply N. cbn. auto.
    - unfold parse_object_out, read_type. change (rd_string ops) with stream_string. rewrite stream_string_none by exact N. cbn [bind]. now destruct (is_eof er). }
  assert (forall r', typ ++ [SP] ++ r = bs "tag " ++ r' -> typ = bs "tag" /\ r' = r) as U.
  { intros r' E. clear - E Nt. do 4 (destruct typ as [|? typ]; cbn [app bs] in E; [try (injection E; discriminate); try (injection E as E; auto)|injection E as E0 E; subst]).
    all: try (cbn in E; congruence). all: try (exfalso; apply Nt; cbn; tauto). all: auto. }
  unfold parse_object_out. rewrite read_type_app by exact Nt. cbn [andthen].
  assert (typ <> bs "tag" -> prints B (typ ++ [SP] ++ r) []) as K.
  { intros X. apply prints_nothing. intros size body [_ E]. apply U in E as [E _]. congruence. }
  destruct (beqb_spec typ (bs "tree")) as [->|_]; [exists []; split; [now apply K|reflexivity]|].
  destruct (beqb_spec typ (bs "commit")) as [->|_]; [exists []; split; [now apply K|reflexivity]|].
  destruct (beqb_spec typ (bs "blob")) as [->|_]; [exists []; split; [now apply K|reflexivity]|].
  destruct (beqb_spec typ (bs "tag")) as [->|X]; [|exists []; split; [now apply K|reflexivity]].
  unfold decode_tag_out. change (rd_string ops) with stream_string.
  destruct (split_at NUL r) as [N|(size & body & -> & Ns)].
  { exists []. rewrite stream_string_none by exact N. split; [|reflexivity]. apply prints_nothing. intros size body [_ E]. apply U in E as [_ <-]. apply N. rewrite !in_app_iff. right; left; now left. }
  cbn [app]. rewrite stream_string_app by exact Ns. cbn [andthen]. change (rd_fuel ops (mk body er)) with (S (length body)).
  destruct (tag_loop_prints er (S (length body)) body zero_tag []) as (ts & ls & r & Q & Ht & He & P); [lia|].
  exists (ignored ts). split; [now apply (prints_ignored B _ size body ts ls r)|].
  destruct (tag_loop_out ops (S (length body)) zero_tag [] (mk body er)) as [out x]. cbn [fst] in P. subst out. now destruct x.
Qed.
End B.

(** The specification is a function. *)
Lemma header_ends_tline ls r x rest : header_ends ls r -> ls = tline_text x :: rest -> tline_ok x -> False.
Proof.
  intros H E Hx. destruct H as [|r|l e r H]; [discriminate|injection E as E _; now apply (tline_not_blank x)|]. injection E as -> _.
  pose proof (tag_header_tline x zero_tag Hx) as A. apply (tag_header_err zero_tag) in H; [congruence|now apply tline_not_blank].
Qed.
Lemma ignored_unique B : 64 <= B -> forall ts ls r ts' ls' r' d,
  reads B d (map tline_text ts ++ ls) r -> reads B d (map tline_text ts' ++ ls') r' ->
  (forall x, In x ts -> tline_ok x) -> (forall x, In x ts' -> tline_ok x) -> header_ends ls r -> header_ends ls' r' -> ignored ts = ignored ts'.
Proof.
  intros HB ts. induction ts as [|x ts IH]; intros ls r [|x' ts'] ls' r' d R R' Ht Ht' He He'; cbn [map app] in *.
  - reflexivity.
  - exfalso. apply reads_cons_inv in R' as (d1 & T & R'). destruct ls as [|l ls].
    + apply reads_none_iff in R. subst. inversion He; subst. now apply (takes_something B _ _ ltac:(lia)) in T.
    + apply reads_cons_inv in R as (d2 & T2 & R). destruct (takes_det B HB _ _ _ _ _ T T2) as [-> ->]. eapply header_ends_tline; [exact He|reflexivity|]. apply Ht'; now left.
  - exfalso. apply reads_cons_inv in R as (d1 & T & R). destruct ls' as [|l ls'].
    + apply reads_none_iff in R'. subst. inversion He'; subst. now apply (takes_something B _ _ ltac:(lia)) in T.
    + apply reads_cons_inv in R' as (d2 & T2 & R'). destruct (takes_det B HB _ _ _ _ _ T T2) as [-> ->]. eapply header_ends_tline; [exact He'|reflexivity|]. apply Ht; now left.
  - apply reads_cons_inv in R as (d1 & T & R). apply reads_cons_inv in R' as (d2 & T2 & R'). destruct (takes_det B HB _ _ _ _ _ T T2) as [E ->].
    assert (printed_line x = printed_line x') as EP.
    { pose proof (tag_header_tline x zero_tag (Ht _ (or_introl eq_refl))) as A. pose proof (tag_header_tline x' zero_tag (Ht' _ (or_introl eq_refl))) as A'. rewrite <- E in A. congruence. }
    rewrite !ignored_cons, EP. f_equal. eapply IH; eauto; intros; [apply Ht|apply Ht']; now right.
Qed.
Lemma prints_unique B d ls ls' : 64 <= B -> prints B d ls -> prints B d ls' -> ls = ls'.
Proof.
  intros HB [N|size body ts l r T R Ht He] [N'|size' body' ts' l' r' T' R' Ht' He']; auto; try (exfalso; now apply (N size' body')); try (exfalso; now apply (N' size body)).
  destruct T as [Ns ->], T' as [Ns' E]. apply app_inv_head in E.
  assert (body = body') as <-.
  { revert Ns Ns' E. clear. revert size'. induction size as [|a s IH]; intros [|a' s'] N N' E; cbn [app] in E.
    - congruence.
    - exfalso. injection E as <- _. apply N'. now left.
    - exfalso. injection E as -> _. apply N. now left.
    - injection E as _ E. apply (IH s'); auto; intros I; [apply N|apply N']; now right. }
  eapply ignored_unique; eauto.
Qed.

(** C65: however the text is delivered, and whatever error ends it *)
Theorem what_is_printed : forall B pa pc b d e ls,
  64 <= B -> delivers B true b (mk d e) -> prints B d ls ->
  fst (parse_object_out (bufio_ops pa pc) b) = printed ls.
Proof.
  intros B pa pc b d e ls HB D P. assert (2 <= B) as HB2 by lia.
  rewrite (sim_out _ _ _ (sim_bufio B HB2 true pa pc) _ _ D).
  destruct (parse_prints B HB d e) as (ls' & P' & ->). now rewrite (prints_unique B d ls ls').
Qed.
Print Assumptions what_is_printed.

(** Every text has its output. *)
Theorem every_text_has_its_output : forall B d, 64 <= B -> exists ls, prints B d ls /\ forall ls', prints B d ls' -> ls' = ls.
Proof. intros B d HB. destruct (parse_prints B HB d EEOF) as (ls & P & _). exists ls. split; [exact P|]. intros ls' P'. now apply (prints_unique B d). Qed.
Print Assumptions every_text_has_its_output.

(** A tag that is refused: the two lines before the bad one are printed, the one after it is not. *)
Example what_is_printed_applies :
  let d := bs "tag x" ++ [NUL] ++ bs "one" ++ [NL] ++ bs "tag v1" ++ [NL] ++ bs "two" ++ [NL] ++ bs "tagger A" ++ [NL] ++ bs "three" ++ [NL] in
  prints 64 d [bs "one"; bs "two"] /\
  printed [bs "one"; bs "two"] = bs "unhandled line:  one" ++ [NL] ++ bs "unhandled line:  two" ++ [NL] /\
  object_refused 64 d (EPersonFormat (bs "tagger A")).
Proof.
  cbv zeta. split; [|split; [reflexivity|apply refused_buffers; [lia|vm_compute; reflexivity]]].
  refine (prints_ignored 64 _ (bs "x") (bs "one" ++ [NL] ++ bs "tag v1" ++ [NL] ++ bs "two" ++ [NL] ++ bs "tagger A" ++ [NL] ++ bs "three" ++ [NL])
    [TIgnored (bs "one"); TTag (bs "v1"); TIgnored (bs "two")] [bs "tagger A"] (bs "three" ++ [NL]) _ _ _ _).
  - split; [cbn; intuition discriminate|reflexivity].
  - repeat (eapply reads_line; [apply (takes_nl 64); [cbn; intuition discriminate| |cbn; lia]|]); [..|constructor].
    all: intros [q Q]; apply (f_equal (@rev _)) in Q; rewrite rev_app_distr in Q; discriminate Q.
  - intros x [<-|[<-|[<-|[]]]]; cbn [tline_ok]; auto; (split; [discriminate|]); intros w I [q Q]; cbn [tag_words In] in I; decompose [or] I; subst; try contradiction; discriminate Q.
  - apply (ends_wrong _ (EPersonFormat (bs "tagger A"))). apply bt_tagger. apply bad_words. vm_compute. lia.
Qed.

(** Blobs, trees and commits print nothing. *)
Theorem only_tags_print : forall B pa pc b d e,
  64 <= B -> delivers B true b (mk d e) -> ~ begins_with (bs "tag ") d ->
  fst (parse_object_out (bufio_ops pa pc) b) = [].
Proof.
  intros B pa pc b d e HB D N. rewrite (what_is_printed B pa pc b d e [] HB D); [reflexivity|].
  apply prints_nothing. intros size body [_ ->]. apply N. now eexists.
Qed.
Print Assumptions only_tags_print.
Example only_tags_print_applies : ~ begins_with (bs "tag ") (bs "commit 0" ++ [NUL] ++ bs "foo").
Proof. intros [q Q]. discriminate Q. Qed.

(** The lines are printed as they come: any bytes but a newline can be written to the
    terminal of whoever decodes a tag, and the decoding succeeds. *)
Theorem any_line_can_be_printed : forall B pa pc l, 64 <= B ->
  l <> [] -> ~ In NL l -> ~ ends_with CR l -> length l < B -> (forall w, In w tag_words -> ~ begins_with w l) ->
  let b := new_reader B (chunks [bs "tag 0" ++ [NUL] ++ l ++ [NL]] EEOF) in
  fst (parse_object_out (bufio_ops pa pc) b) = bs "unhandled line:  " ++ l ++ [NL] /\
  exists n, parse_object (bufio_ops pa pc) b = Ok n.
Proof.
  intros B pa pc l HB N1 N2 N3 L W b.
  assert (delivers B true b (mk (bs "tag 0" ++ [NUL] ++ l ++ [NL]) EEOF)) as D by (apply one_chunk_delivers; discriminate).
  assert (reads B (l ++ [NL]) [l] []) as R.
  { change (l ++ [NL]) with (l ++ [NL] ++ []). econstructor; [now apply takes_nl|constructor]. }
  assert (~ In NUL (bs "0")) as N0 by (cbn; intuition discriminate). split.
  - rewrite (what_is_printed B pa pc b _ EEOF [l] HB D); [unfold printed; cbn [map concat]; now rewrite app_nil_r|].
    apply (prints_ignored B _ (bs "0") (l ++ [NL]) [TIgnored l] [] []); [now split|exact R|intros x [<-|[]]; cbn; auto|constructor].
  - exists (NTag zero_tag). apply (accepted_objects B pa pc b _ _ HB D).
    apply (om_tag B (bs "0") (l ++ [NL]) zero_tag [l] N0). exists [TIgnored l], None. split; [exact R|]. split; [intros x [<-|[]]; cbn; auto|]. now split.
Qed.
Print Assumptions any_line_can_be_printed.
(** ESC [ 2 J clears the screen of many terminals. *)
Example any_line_can_be_printed_applies :
  let l := x1b :: bs "[2J" in l <> [] /\ ~ In NL l /\ ~ ends_with CR l /\ length l < 64 /\ (forall w, In w tag_words -> ~ begins_with w l).
Proof.
  cbv zeta. split; [discriminate|]. split; [cbn; intuition discriminate|]. split.
  { intros [q Q]. apply (f_equal (@rev _)) in Q. rewrite rev_app_distr in Q. discriminate Q. }
  split; [cbn; lia|]. intros w I [q Q]. cbn [tag_words In] in I. decompose [or] I; subst; try contradiction; discriminate Q.
Qed.
