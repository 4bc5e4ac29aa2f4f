(** Which texts come back unchanged: how lines of any length are cut, and what that does to
    the lines of a normal form. *)
From Verif Require Import Base GoStr Cid Types Nodes Reader Person Assemble Decode Encode Spec HeaderSpec NormalSpec SurviveSpec
  StreamFacts PersonFacts DecodeFacts RoundTrip CommitFacts GrammarFacts NormalFacts PrefixFacts CanonFacts.

Lemma cons_eq {A} (x y : A) s t : x :: s = y :: t -> x = y /\ s = t.
Proof. intros E. split; congruence. Qed.

(** ** Persons are not longer when they are written back *)
Fixpoint wsize (ws : list bytes) : nat := match ws with [] => 0 | w :: ws => S (length w) + wsize ws end.
Lemma wsize_app a b : wsize (a ++ b) = wsize a + wsize b.
Proof. induction a as [|w a IH]; [reflexivity|]. cbn [app wsize]. rewrite IH. lia. Qed.
Lemma join_size ws : ws <> [] -> S (length (join SP ws)) = wsize ws.
Proof.
  induction ws as [|w ws IH]; [congruence|]. intros _. destruct ws as [|v ws]; [cbn; lia|].
  rewrite join_cons, app_length. cbn [length]. specialize (IH ltac:(discriminate)). cbn [wsize] in *. lia.
Qed.
Lemma wsize_unlt ws : wsize (map unlt ws) <= wsize ws.
Proof.
  induction ws as [|w ws IH]; [cbn; lia|]. cbn [map wsize]. enough (length (unlt w) <= length w) by lia.
  destruct w as [|b w]; [cbn; lia|]. destruct b; cbn [unlt length]; lia.
Qed.

Lemma person_line_size w x p : ~ In SP w -> person_line (w ++ [SP] ++ x) p ->
  length (person_text p) <= length x \/
  (length (person_text p) <= S (length x) /\ p_name p = [] /\ starts_with LT x).
Proof.
  intros Nw (label & blanks & name & email & more & Ew & _ & Hb & Hn1 & Hn2 & (e1 & es & -> & He) & _ & En & Ee & Ed & Et).
  unfold words in Ew. cbn [app] in Ew. rewrite split_on_app, (split_on_none SP w Nw) in Ew. cbn [app] in Ew. apply cons_eq in Ew as [<- Ew].
  assert (S (length x) = wsize blanks + wsize name + wsize (e1 :: es) + wsize more) as Lx.
  { rewrite <- (words_join x) at 1. rewrite join_size by apply split_on_nonempty. unfold words. rewrite Ew, !wsize_app. cbn [wsize]. rewrite !wsize_app. lia. }
  assert (length (p_name p) <= pred (wsize name)) as L1.
  { rewrite En. destruct name as [|n ns]; [cbn; lia|]. rewrite <- join_size by discriminate. lia. }
  assert (S (S (S (length (p_email p)))) <= wsize (e1 :: es)) as L2.
  { apply (f_equal (@length _)) in Ee. rewrite app_length in Ee. cbn [length] in Ee.
    assert (S (length (join SP (map unlt (e1 :: es)))) = wsize (map unlt (e1 :: es))) as J by (apply join_size; discriminate).
    destruct He as [r ->]. cbn [map wsize] in J |- *. change (unlt (LT :: r)) with r in J.
    pose proof (wsize_unlt es). cbn [length]. cbn [map] in Ee. change (unlt (LT :: r)) with r in Ee. lia. }
  assert (length (match p_date p with [] => [] | d => [SP] ++ d end ++ match p_timezone p with [] => [] | z => [SP] ++ z end) <= wsize more) as L3.
  { rewrite app_length, Ed, Et. destruct more as [|m1 [|m2 more]]; cbn [nth].
    - cbn. lia.
    - destruct m1; cbn [length app wsize]; lia.
    - destruct m1, m2; cbn [length app wsize]; lia. }
  unfold person_text. rewrite !app_length. rewrite app_length in L3. change (length (bs " <")) with 2. change (length (bs ">")) with 1.
  destruct name as [|n ns]; [destruct blanks as [|b blanks]|].
  - right. split; [cbn [wsize] in *; lia|]. split; [exact En|]. cbn [app] in Ew.
    destruct He as [r ->]. exists (r ++ match es ++ more with [] => [] | ws => SP :: join SP ws end).
    rewrite <- (words_join x). unfold words. rewrite Ew. destruct (es ++ more) eqn:Em; [cbn; now rewrite app_nil_r|]. now rewrite join_cons.
  - left. cbn [wsize] in *. lia.
  - left. cbn [wsize] in *. lia.
Qed.

Lemma person_line_grows w x p : ~ In SP w -> person_line (w ++ [SP] ++ x) p -> length (person_text p) <= S (length x).
Proof. intros N H. destruct (person_line_size w x p N H) as [L|[L _]]; lia. Qed.

(** If the text of a person starts with the text it was read from, the two are the same. *)
Lemma person_line_prefix w x p s : ~ In SP w -> person_line (w ++ [SP] ++ x) p -> person_text p = x ++ s -> s = [].
Proof.
  intros N H E. destruct (person_line_size w x p N H) as [L|(L & En & [r ->])].
  - rewrite E, app_length in L. destruct s; [reflexivity|cbn in L; lia].
  - unfold person_text in E. rewrite En in E. discriminate E.
Qed.

(** ** Lines are cut *)
Section B.
Context (B : nat) (HB : 64 <= B).

(** How ReadLine cuts a line of at most [B + 1] bytes. *)
Inductive cutl : bytes -> list bytes -> Prop :=
| cut_whole q : line_ok B q -> cutl q [q]
| cut_drop p : S (length p) < B -> cutl (p ++ [CR]) [p]
| cut_exact q : length q = B -> ~ In NL q -> ~ ends_with CR q -> cutl q [q; []]
| cut_exact_cr p : S (length p) = B -> cutl (p ++ [CR]) [p; []]
| cut_over p s t : B <= S (length p) -> length p <= B -> length (p ++ s) = S B -> length t <= 2 -> cutl (p ++ s) [p; t].

Lemma ends_or q : ends_with CR q \/ ~ ends_with CR q.
Proof.
  destruct (rev_case q) as [->|(p & c & ->)]; [right; intros [[|? ?] E]; discriminate|].
  destruct (byte_eqb_spec c CR) as [->|N]; [left; now exists p|]. right. intros [r E]. apply app_inj_tail in E as [_ E]. congruence.
Qed.
Lemma takes_nil_nl r : takes B ([NL] ++ r) [] r.
Proof. apply (takes_nl B [] r); [intros []|intros [[|? ?] E]; discriminate|cbn; lia]. Qed.
Lemma reads_one d l r : takes B d l r -> reads B d [l] r.
Proof. intros T. econstructor; [exact T|constructor]. Qed.
Lemma reads_two d l l' r r' : takes B d l r -> takes B r l' r' -> reads B d [l; l'] r'.
Proof. intros T T'. econstructor; [exact T|]. now apply reads_one. Qed.

Lemma take_short s r : ~ In NL s -> length s <= 2 -> exists t, length t <= 2 /\ takes B (s ++ [NL] ++ r) t r.
Proof.
  intros N L. destruct (ends_or s) as [[p ->]|C].
  - exists p. rewrite app_length in L. cbn in L. split; [lia|]. rewrite <- app_assoc. apply (takes_crnl B p r); [|lia].
    intros I. apply N, in_app_iff. now left.
  - exists s. split; [exact L|]. apply takes_nl; auto. lia.
Qed.

Lemma cut_reads q : ~ In NL q -> length q <= S B -> exists ls, cutl q ls /\ forall r, reads B (q ++ [NL] ++ r) ls r.
Proof.
  intros N L. destruct (Nat.ltb_spec (length q) B) as [S1|S1].
  { destruct (ends_or q) as [[p ->]|C].
    - rewrite app_length in S1. cbn in S1. exists [p]. split; [apply cut_drop; lia|]. intros r. apply reads_one.
      rewrite <- app_assoc. apply (takes_crnl B p r); [|lia]. intros I. apply N, in_app_iff. now left.
    - exists [q]. split; [apply cut_whole; split; auto|]. intros r. apply reads_one. now apply takes_nl. }
  destruct (Nat.eqb_spec (length q) B) as [S2|S2].
  { destruct (ends_or q) as [[p ->]|C].
    - assert (~ In NL p) as Np by (intros I; apply N, in_app_iff; now left).
      rewrite app_length in S2. cbn in S2. exists [p; []]. split; [apply cut_exact_cr; lia|]. intros r. rewrite <- app_assoc.
      eapply reads_two; [apply (takes_cut_cr B p ([NL] ++ r)); [exact Np|lia]|].
      apply (takes_crnl B [] r); [intros []|cbn; lia].
    - exists [q; []]. split; [apply cut_exact; auto|]. intros r. eapply reads_two; [apply takes_cut; auto|apply takes_nil_nl]. }
  assert (length q = S B) as S3 by lia.
  destruct (rev_case q) as [->|(f & c & ->)]; [cbn in S3; lia|]. rewrite app_length in S3. cbn in S3.
  assert (~ In NL f) as Nf by (intros I; apply N, in_app_iff; now left).
  assert (~ In NL [c]) as Nc by (intros I; apply N, in_app_iff; now right).
  destruct (ends_or f) as [[p ->]|C].
  - rewrite app_length in S3. cbn in S3. assert (~ In NL p) as Np by (intros I; apply Nf, in_app_iff; now left).
    assert (~ In NL [CR; c]) as N2.
    { intros [I|I]; [discriminate|now apply Nc]. }
    assert (exists t, length t <= 2 /\ forall r, takes B ([CR; c] ++ [NL] ++ r) t r) as (t & Lt & Tt).
    { destruct (byte_eqb_spec c CR) as [->|Nec].
      - exists [CR]. split; [cbn; lia|]. intros r. apply (takes_crnl B [CR] r); [|cbn; lia]. cbn. intuition discriminate.
      - exists [CR; c]. split; [cbn; lia|]. intros r. apply takes_nl; [exact N2| |cbn; lia].
        intros [w W]. change [CR; c] with ([CR] ++ [c]) in W. apply app_inj_tail in W as [_ W]. congruence. }
    exists [p; t]. rewrite <- app_assoc. split.
    + apply cut_over; try lia. rewrite app_length. cbn. lia.
    + intros r. eapply reads_two; [rewrite <- !app_assoc; apply (takes_cut_cr B p ([c] ++ [NL] ++ r)); [exact Np|lia]|apply Tt].
  - assert (exists t, length t <= 2 /\ forall r, takes B ([c] ++ [NL] ++ r) t r) as (t & Lt & Tt).
    { destruct (byte_eqb_spec c CR) as [->|Nec].
      - exists []. split; [cbn; lia|]. intros r. apply (takes_crnl B [] r); [intros []|cbn; lia].
      - exists [c]. split; [cbn; lia|]. intros r. apply takes_nl; [exact Nc| |cbn; lia].
        intros [w W]. change [c] with ([] ++ [c]) in W. apply app_inj_tail in W as [_ W]. congruence. }
    exists [f; t]. split.
    + apply cut_over; rewrite ?app_length; cbn [length]; lia.
    + intros r. eapply reads_two; [rewrite <- !app_assoc; apply (takes_cut B f ([c] ++ [NL] ++ r)); [exact Nf|exact C|lia]|apply Tt].
Qed.

Lemma cuts_read Q : (forall q, In q Q -> ~ In NL q /\ length q <= S B) ->
  exists Ls, Forall2 cutl Q Ls /\ forall r, reads B (unlines Q ++ r) (concat Ls) r.
Proof.
  induction Q as [|q Q IH]; intros H.
  - exists []. split; [constructor|]. intros r. constructor.
  - destruct IH as (Ls & F & R); [intros; apply H; now right|]. destruct (H q (or_introl eq_refl)) as [N L].
    destruct (cut_reads q N L) as (ls & C & Rq). exists (ls :: Ls). split; [now constructor|].
    intros r. rewrite unlines_cons. cbn [concat]. apply reads_app. exists (unlines Q ++ r). split; [|apply R].
    rewrite <- !app_assoc. apply Rq.
Qed.

Lemma reads_det d : forall ls ls' r, reads B d ls r -> reads B d ls' r -> ls = ls'.
Proof.
  intros ls. revert d. induction ls as [|l ls IH]; intros d ls' r R R'.
  - apply reads_none_iff in R as ->. destruct ls' as [|l' ls']; [reflexivity|]. apply (reads_longer B HB) in R'. cbn in R'. lia.
  - destruct ls' as [|l' ls']; [apply reads_none_iff in R' as ->; apply (reads_longer B HB) in R; cbn in R; lia|].
    apply reads_cons_inv in R as (d1 & T & R). apply reads_cons_inv in R' as (d2 & T' & R').
    destruct (takes_det B HB _ _ _ _ _ T T') as [-> ->]. f_equal. eapply IH; eassumption.
Qed.

Lemma reads_short d ls r : reads B d ls r -> forall l, In l ls -> length l <= B.
Proof.
  induction 1 as [|d l d1 ls r T R IH]; [intros l []|]. intros x [<-|I]; [|auto]. inversion T; subst; lia.
Qed.
Lemma reads_no_nl d ls r : reads B d ls r -> forall l, In l ls -> ~ In NL l.
Proof.
  induction 1 as [|d l d1 ls r T R IH]; [intros l []|]. intros x [<-|I]; [|auto]. inversion T; subst; assumption.
Qed.

(** ** What a cut leaves *)
Lemma cutl_plain q ls : line_ok B q -> cutl q ls -> ls = [q].
Proof.
  intros (_ & C & L) H. inversion H as [|p P|q' P|p P|p s t P1 P2 P3]; subst; [reflexivity| | | |].
  - exfalso. apply C. now exists p.
  - lia.
  - exfalso. apply C. now exists p.
  - lia.
Qed.

Lemma cutl_head q ls : cutl q ls -> exists p tl s, ls = p :: tl /\ q = p ++ s /\
  (tl = [] \/ exists t, tl = [t] /\ length t <= 2) /\ (s = [] \/ s = [CR] \/ B <= S (length p)).
Proof.
  intros H. inversion H as [|p P|q' P|p P|p s t P1 P2 P3 P4]; subst.
  - exists q, [], []. rewrite app_nil_r. auto 10.
  - exists p, [], [CR]. auto 10.
  - exists q, [[]], []. rewrite app_nil_r. split; [reflexivity|]. split; [reflexivity|]. split; [right; exists []; split; [reflexivity|cbn; lia]|auto].
  - exists p, [[]], [CR]. split; [reflexivity|]. split; [reflexivity|]. split; [right; exists []; split; [reflexivity|cbn; lia]|auto].
  - exists p, [t], s. split; [reflexivity|]. split; [reflexivity|]. split; [right; eauto|auto].
Qed.

(** The word in front of a line is kept. *)
Lemma cutl_word w v ls : length w <= 60 -> ~ In CR w -> cutl (w ++ v) ls ->
  exists v' s tl, ls = (w ++ v') :: tl /\ v = v' ++ s /\ (tl = [] \/ exists t, tl = [t] /\ length t <= 2).
Proof.
  intros L N H. destruct (cutl_head _ _ H) as (p & tl & s & -> & E & Ht & Hs).
  apply app_eq_app in E as (l & [[-> ->]|[-> ->]]).
  - exists [], v, tl. destruct l as [|c l]; [rewrite !app_nil_r; solve [auto 10]|]. exfalso.
    cbn [app] in Hs. destruct Hs as [Hs|[Hs|Hs]]; [discriminate| |rewrite app_length in L; lia].
    injection Hs as -> _. apply N, in_app_iff. right. now left.
  - exists l, s, tl. auto.
Qed.

(** A line of at most [B] bytes. *)
Lemma cutl_short q ls : length q <= B -> cutl q ls -> exists p s, q = p ++ s /\ (ls = [p] \/ ls = [p; []] /\ length q = B).
Proof.
  intros L H. inversion H as [|p P|q' P|p P|p s t P1 P2 P3 P4]; subst.
  - exists q, []. rewrite app_nil_r. auto.
  - exists p, [CR]. auto.
  - exists q, []. rewrite app_nil_r. auto.
  - exists p, [CR]. rewrite app_length. cbn. split; [reflexivity|]. right. split; [reflexivity|lia].
  - rewrite P3 in L. lia.
Qed.

(** If the first piece is the line itself. *)
Lemma cutl_same q tl : length q <= B -> cutl q (q :: tl) -> line_ok B q /\ tl = [] \/ line_ok (S B) q /\ length q = B /\ tl = [[]].
Proof.
  intros L H. remember (q :: tl) as ls eqn:El. destruct H as [q' P|p P|q' P N C|p P|p s t P1 P2 P3 P4]; apply cons_eq in El as [E <-].
  - subst. auto.
  - exfalso. apply (f_equal (@length _)) in E. rewrite app_length in E. cbn in E. lia.
  - subst. right. split; [split; [assumption|]; split; [assumption|lia]|]. auto.
  - exfalso. apply (f_equal (@length _)) in E. rewrite app_length in E. cbn in E. lia.
  - exfalso. rewrite P3 in L. lia.
Qed.
End B.
