(** C72: the texts of errors are plain, and say what was refused. *)
From Verif Require Import Base GoStr Cid Types Reader Bufio BufioFacts Transfer Sim ReaderSpec Props_reader Person Decode.
From Verif Require Import Spec ErrorSpec ErrorFacts QuoteSpec Quote QuoteFacts Props_error HeaderSpec.
From Coq Require Import Lia ZArith ZifyN ZifyNat ZifyBool.

(** What is asked of strconv.IsPrint: no control character of ASCII is printable. *)
Definition no_controls (printable : N -> bool) : Prop := forall r, printable r = true -> (32 <= r /\ r <> 127)%N.

Theorem quoted_strings_can_be_read_back : forall printable s, no_controls printable ->
  (forall rest, unquote (quote printable s ++ rest) = Some (s, rest)) /\
  plain (quote printable s) /\ valid_utf8 (quote printable s).
Proof. intros printable s P. now apply quote_facts. Qed.
Print Assumptions quoted_strings_can_be_read_back.

(** What is quoted in a message: after these words and before those, as a quoted string. *)
Definition frames : list (bytes * bytes) :=
  [ (bs "incorrectly formatted person info line: ", []); (bs "invalid personInfo: ", []);
    (bs "unrecognized object type: ", []); (bs "cannot repeat map key &{", bs "}");
    (bs "strconv.Atoi: parsing ", bs ": invalid syntax"); (bs "strconv.Atoi: parsing ", bs ": value out of range") ].
Definition quotes (m q : bytes) : Prop :=
  exists words rest, In (words, rest) frames /\ firstn (length words) m = words /\ unquote (skipn (length words) m) = Some (q, rest).

Lemma quotes_frame printable words q rest : no_controls printable -> In (words, rest) frames -> quotes (words ++ quote printable q ++ rest) q.
Proof.
  intros P I. destruct (quote_facts printable P q) as (R & _ & _). exists words, rest. split; [exact I|].
  rewrite firstn_app, firstn_all, Nat.sub_diag, skipn_app, skipn_all, Nat.sub_diag. cbn [firstn skipn app]. rewrite app_nil_r. auto.
Qed.
Lemma frames_differ : forall w r w' r' m, In (w, r) frames -> In (w', r') frames -> firstn (length w) m = w -> firstn (length w') m = w' -> w' = w.
Proof.
  intros w r w' r' m I I' E E'.
  assert (forall n k, firstn (Nat.min n k) m = firstn n (firstn k m)) as F by (intros; symmetry; apply firstn_firstn).
  pose proof (F (length w) (length w')) as F1. pose proof (F (length w') (length w)) as F2. rewrite E' in F1. rewrite E in F2. rewrite Nat.min_comm, F1 in F2. clear - I I' F2.
  unfold frames in *. cbn [In] in I, I'.
  repeat match goal with H : _ \/ _ |- _ => destruct H as [H|H] end; try contradiction; inversion I; inversion I'; subst; try reflexivity; vm_compute in F2; discriminate F2.
Qed.
(** A message quotes one string. *)
Theorem messages_quote_one_string : forall m q q', quotes m q -> quotes m q' -> q' = q.
Proof.
  intros m q q' (w & r & I & F & U) (w' & r' & I' & F' & U'). rewrite (frames_differ w r w' r' m I I' F F') in U'. congruence.
Qed.
Print Assumptions messages_quote_one_string.

(** A person line that is refused is quoted. *)
Theorem person_messages_show_the_line : forall printable line e, no_controls printable ->
  parse_person line = Err e -> bad_person line e /\ exists m, message printable e = Some m /\ quotes m line.
Proof.
  intros printable line e P E. apply person_err in E. split; [exact E|]. destruct E; eexists; (split; [reflexivity|]).
  - rewrite <- (app_nil_r (quote printable line)). apply quotes_frame; [exact P|cbn; auto 10].
  - rewrite <- (app_nil_r (quote printable line)). apply quotes_frame; [exact P|cbn; auto 10].
Qed.
Print Assumptions person_messages_show_the_line.
(** So is a number. *)
Theorem number_messages_show_the_number : forall printable s e, no_controls printable ->
  atoi s = Err e -> (exists r, bad_number s r) /\ exists m, message printable e = Some m /\ quotes m s.
Proof.
  intros printable s e P E. apply number_err in E as (r & -> & E). split; [eauto|].
  destruct E; eexists; (split; [reflexivity|]); (apply quotes_frame; [exact P|cbn; auto 10]).
Qed.
Print Assumptions number_messages_show_the_number.
(** So is the type, and different types have different messages. *)
Theorem type_messages_show_the_type : forall printable a b m, no_controls printable ->
  message printable (EUnknownType a) = Some m ->
  quotes m a /\ (message printable (EUnknownType b) = Some m -> b = a).
Proof.
  intros printable a b m P H. assert (forall x, message printable (EUnknownType x) = Some m -> quotes m x) as Q.
  { intros x E. injection E as <-. change (quotes (bs "unrecognized object type: " ++ quote printable x) x).
    rewrite <- (app_nil_r (quote printable x)). apply quotes_frame; [exact P|cbn; auto 10]. }
  split; [now apply Q|]. intros H'. apply (messages_quote_one_string m); now apply Q.
Qed.
Print Assumptions type_messages_show_the_type.

(** ** Every message *)
Lemma some_inj {A} (a b : A) : Some a = Some b -> b = a.
Proof. congruence. Qed.
Definition good (s : bytes) : Prop := plain s /\ valid_utf8 s.
Lemma good_app a b : good a -> good b -> good (a ++ b).
Proof. intros [A B] [C D]. split; [now apply plain_app|now apply valid_app]. Qed.
Lemma good_ascii s : ascii s -> good s.
Proof. intros H. split; [now apply ascii_plain|now apply ascii_valid]. Qed.
Definition asciib (s : bytes) : bool := forallb (fun c => (32 <=? Byte.to_N c)%N && (Byte.to_N c <? 127)%N) s.
Lemma good_literal s : asciib s = true -> good s.
Proof. intros H. apply good_ascii. intros c I. unfold asciib in H. rewrite forallb_forall in H. specialize (H c I). lia. Qed.
Lemma good_dec n : good (dec n).
Proof.
  apply good_ascii. unfold dec. generalize (S (N.to_nat (N.log2 n))). intros f. revert n. induction f as [|f IH]; intros n c H; [destruct H|]. cbn [dec_aux] in H.
  assert (forall d, (d < 10)%N -> (32 <= Byte.to_N (digit_char d) < 127)%N) as D by (intros d L; unfold digit_char; rewrite to_of_byte; lia).
  destruct (n <? 10)%N eqn:E.
  - destruct H as [<-|[]]. apply D. lia.
  - apply in_app_or in H as [H|[<-|[]]]; [now apply (IH (n / 10)%N)|]. apply D. apply N.mod_lt. lia.
Qed.
Lemma good_dec_Z z : good (dec_Z z).
Proof. unfold dec_Z. destruct (z <? 0)%Z; [|apply good_dec]. apply (good_app [x2d]); [now apply good_literal|apply good_dec]. Qed.

Theorem every_message_is_plain : forall printable e m, no_controls printable -> message printable e = Some m -> plain m /\ valid_utf8 m.
Proof.
  intros printable e m P H. change (good m). assert (forall s, good (quote printable s)) as Q by (intros s; apply (quote_facts printable P s)).
  destruct e; try discriminate H; try (destruct e; try discriminate H); cbn [message] in H; apply some_inj in H; subst m; try (apply good_literal; reflexivity).
  - apply good_app; [now apply good_literal|]. apply good_app; [apply Q|now apply good_literal].
  - apply good_app; [now apply good_literal|]. apply good_app; [apply Q|now apply good_literal].
  - unfold byte_message. apply good_app; [now apply good_literal|]. apply good_app.
    + apply good_ascii. intros c I. apply in_map_iff in I as (d & <- & I). apply hex_digits_in in I. unfold upper, within.
      destruct ((97 <=? Byte.to_N d)%N && (Byte.to_N d <=? 102)%N) eqn:E; [rewrite to_of_byte; lia|lia].
    + destruct (printable (Byte.to_N b)) eqn:Pb; [|split; [intros c []|constructor]].
      apply good_app; [now apply good_literal|]. apply good_app; [|now apply good_literal]. pose proof (to_N_bound b) as B.
      assert (scalar (Byte.to_N b)) as Sc by (unfold scalar; lia). specialize (P _ Pb). split.
      * intros c I. destruct (N.lt_ge_cases (Byte.to_N b) 128) as [L|L].
        -- rewrite utf8_ascii in I by exact L. destruct I as [<-|[]]. rewrite to_of_byte; lia.
        -- pose proof (utf8_high _ Sc L c I). lia.
      * rewrite <- (app_nil_r (utf8 _)). constructor; [exact Sc|constructor].
  - apply good_app; [now apply good_literal|]. apply good_app; [apply good_dec|now apply good_literal].
  - apply good_app; [now apply good_literal|apply good_dec_Z].
  - apply good_app; [now apply good_literal|apply Q].
  - apply good_app; [now apply good_literal|apply Q].
  - apply good_app; [now apply good_literal|apply Q].
  - apply good_app; [now apply good_literal|]. apply good_app; [apply Q|now apply good_literal].
Qed.
Print Assumptions every_message_is_plain.

Lemma dec_first n : exists c t, dec n = c :: t /\ c <> x2d.
Proof.
  pose proof (good_dec n) as _. destruct (dec n) as [|c t] eqn:E.
  - unfold dec in E. cbn [dec_aux] in E. destruct (n <? 10)%N; [discriminate|]. now destruct (dec_aux _ _).
  - exists c, t. split; [reflexivity|]. intros ->.
    assert (forall f n, ~ In x2d (dec_aux f n)) as X.
    { clear. induction f as [|f IH]; intros n H; [destruct H|]. cbn [dec_aux] in H.
      assert (forall d, (d < 10)%N -> digit_char d <> x2d) as D.
      { intros d L X. apply (f_equal Byte.to_N) in X. unfold digit_char in X. rewrite to_of_byte in X by lia. change (Byte.to_N x2d) with 45%N in X. lia. }
      destruct (n <? 10)%N eqn:E.
      - destruct H as [H|[]]. apply (D n); [lia|exact H].
      - apply in_app_or in H as [H|[H|[]]]; [now apply (IH (n / 10)%N)|]. eapply D; [|exact H]. apply N.mod_lt. lia. }
    unfold dec in E. eapply X. rewrite E. now left.
Qed.
Lemma dec_Z_inj a b : dec_Z a = dec_Z b -> a = b.
Proof.
  unfold dec_Z. destruct (Z.ltb_spec a 0), (Z.ltb_spec b 0); intros E.
  - injection E as E. apply dec_inj in E. lia.
  - destruct (dec_first (Z.to_N b)) as (c & t & X & N). rewrite X in E. injection E as E _. congruence.
  - destruct (dec_first (Z.to_N a)) as (c & t & X & N). rewrite X in E. injection E as E _. congruence.
  - apply dec_inj in E. lia.
Qed.
Definition of_upper (l : bytes) : bytes := map (fun c => byte_of_N (if within 65 70 (Byte.to_N c) then Byte.to_N c + 32 else Byte.to_N c)) l.
Lemma digits_back b : hex_decode (of_upper (skipn 2 (map upper (hex_digits 4 (Byte.to_N b))))) = Ok [b].
Proof. destruct b; vm_compute; reflexivity. Qed.
Lemma byte_message_inj printable a b : byte_message printable a = byte_message printable b -> a = b.
Proof.
  intros E. unfold byte_message in E. apply app_inv_head in E.
  assert (forall c, length (map upper (hex_digits 4 (Byte.to_N c))) = 4) as L4 by (intros c; rewrite map_length; destruct c; reflexivity).
  apply (f_equal (firstn 4)) in E. rewrite 2 firstn_app, 2 L4, Nat.sub_diag, 2 firstn_O, 2 app_nil_r in E.
  rewrite 2 firstn_all2 in E by (rewrite L4; apply Nat.le_refl).
  pose proof (digits_back a) as A. rewrite E, (digits_back b) in A. congruence.
Qed.

(** ** Every refusal

    It has a message; and if the message quotes something, that stands in what was decoded. *)
Definition occurs (q d : bytes) : Prop := exists pre post, d = pre ++ q ++ post.
Lemma occurs_in q a d b : occurs q d -> occurs q (a ++ d ++ b).
Proof. intros (x & y & ->). exists (a ++ x), (y ++ b). now rewrite <- !app_assoc. Qed.
Lemma occurs_self q : occurs q q.
Proof. exists [], []. now rewrite app_nil_r. Qed.
Lemma occurs_trans a b c : occurs a b -> occurs b c -> occurs a c.
Proof. intros H (x & y & ->). now apply occurs_in. Qed.
Lemma takes_occurs B d l r : takes B d l r -> occurs l d /\ occurs r d.
Proof.
  intros [l' r' _ _ _|l' r' _ _|l' _ _ _|l' r' _ _ _|l' r' _ _]; split.
  - exists [], ([NL] ++ r'). reflexivity.
  - exists (l' ++ [NL]), []. now rewrite app_nil_r, <- app_assoc.
  - exists [], ([CR; NL] ++ r'). reflexivity.
  - exists (l' ++ [CR; NL]), []. now rewrite app_nil_r, <- app_assoc.
  - apply occurs_self.
  - exists l', []. now rewrite app_nil_r.
  - exists [], r'. reflexivity.
  - exists l', []. now rewrite app_nil_r.
  - exists [], ([CR] ++ r'). reflexivity.
  - exists l', []. now rewrite app_nil_r.
Qed.
Lemma reads_occurs B d ls r l : reads B d ls r -> In l ls -> occurs l d.
Proof.
  induction 1 as [|d l' d1 ls r T R IH]; [intros []|]. apply takes_occurs in T as [T1 T2]. intros [<-|I]; [exact T1|]. eapply occurs_trans; eauto.
Qed.

(** The strings that errors hold *)
Definition held (e : err) : option bytes :=
  match e with
  | EPersonFormat q | EPersonInvalid q | ENumber q _ | EUnknownType q | ERepeatedKey q => Some q
  | _ => None
  end.
Lemma no_quotes printable e m q : held e = None -> message printable e = Some m -> ~ quotes m q.
Proof.
  intros H M (w & r & I & F & _).
  assert (firstn 9 m = firstn 9 w) as E.
  { rewrite <- F, firstn_firstn. f_equal. unfold frames in I. cbn [In] in I. repeat destruct I as [I|I]; try contradiction; injection I as <- <-; reflexivity. }
  clear F. unfold frames in I. cbn [In] in I.
  destruct e; try discriminate; apply some_inj in M; subst m; repeat destruct I as [I|I]; try contradiction; injection I as <- <-; cbn in E; discriminate E.
Qed.
(** The message tells which error it was, and everything that the error holds. *)
Theorem messages_tell_the_error : forall printable e e' m, no_controls printable ->
  message printable e = Some m -> message printable e' = Some m -> e' = e.
Proof.
  intros printable e e' m P M M'.
  assert (forall x y, held x = Some y -> message printable x = Some m -> quotes m y) as Q.
    { intros x y Hx Mx. destruct x; try discriminate; injection Hx as ->; try (destruct x; try discriminate); injection Mx as <-.
      - apply (quotes_frame printable (bs "strconv.Atoi: parsing ")); [exact P|cbn; auto 10].
      - apply (quotes_frame printable (bs "strconv.Atoi: parsing ")); [exact P|cbn; auto 10].
      - rewrite <- (app_nil_r (quote printable y)). apply (quotes_frame printable (bs "incorrectly formatted person info line: ")); [exact P|cbn; auto 10].
      - rewrite <- (app_nil_r (quote printable y)). apply (quotes_frame printable (bs "invalid personInfo: ")); [exact P|cbn; auto 10].
      - rewrite <- (app_nil_r (quote printable y)). apply (quotes_frame printable (bs "unrecognized object type: ")); [exact P|cbn; auto 10].
      - apply (quotes_frame printable (bs "cannot repeat map key &{")); [exact P|cbn; auto 10]. }
  destruct (held e) as [q|] eqn:H, (held e') as [q'|] eqn:H'.
  - assert (q' = q) as -> by (apply (messages_quote_one_string m); eapply Q; eassumption).
    destruct e; try discriminate; injection H as ->; destruct e'; try discriminate; injection H' as ->; try reflexivity;
      try (destruct e; try discriminate M); try (destruct e'; try discriminate M'); try reflexivity; apply some_inj in M; apply some_inj in M'; rewrite M in M';
      try (apply (f_equal (firstn 15)) in M'; cbn in M'; discriminate M').
    + apply app_inv_head, app_inv_head in M'. discriminate M'.
    + apply app_inv_head, app_inv_head in M'. discriminate M'.
  - exfalso. apply (no_quotes printable e' m q H' M'). eapply Q; eassumption.
  - exfalso. apply (no_quotes printable e m q' H M). eapply Q; eassumption.
  - destruct e; try discriminate H; try discriminate M; destruct e'; try discriminate H'; try discriminate M'; try reflexivity;
      apply some_inj in M; apply some_inj in M'; rewrite M in M'; try (apply (f_equal (firstn 15)) in M'; cbn in M'; discriminate M').
    + now rewrite (byte_message_inj printable _ _ M').
    + apply app_inv_head, app_inv_tail, dec_inj in M'. f_equal. lia.
    + apply app_inv_head, dec_Z_inj in M'. congruence.
Qed.
Print Assumptions messages_tell_the_error.
Definition well_said (printable : N -> bool) (d : bytes) (e : err) : Prop :=
  exists m, message printable e = Some m /\ match held e with Some q => quotes m q /\ occurs q d | None => True end.
Lemma said_in printable a d b e : well_said printable d e -> well_said printable (a ++ d ++ b) e.
Proof. intros (m & M & H). exists m. split; [exact M|]. destruct (held e) as [q|]; [|exact H]. destruct H as [H O]. split; [exact H|]. now apply occurs_in. Qed.
Lemma said_trans printable d d' e : occurs d d' -> well_said printable d e -> well_said printable d' e.
Proof. intros (x & y & ->). apply said_in. Qed.
Lemma person_says printable line e : no_controls printable -> bad_person line e -> well_said printable line e.
Proof.
  intros P H. assert (held e = Some line) as E by (destruct H; reflexivity). apply person_err in H.
  destruct (person_messages_show_the_line printable line e P H) as (_ & m & M & Q). exists m. rewrite E. auto using occurs_self.
Qed.
Lemma hash_says printable h d e : bad_hash h e -> well_said printable d e.
Proof. intros [pre c post _ _|h' _ _|h' sha _ _]; eexists; (split; [reflexivity|exact Logic.I]). Qed.
Lemma number_says printable s e : no_controls printable -> bad_number s e -> well_said printable s (ENumber s e).
Proof.
  intros P H. assert (atoi s = Err (ENumber s e)) as A by (apply number_err; eauto).
  destruct (number_messages_show_the_number printable s _ P A) as (_ & m & M & Q). exists m. cbn [held]. auto using occurs_self.
Qed.
Lemma plain_says printable d e m : held e = None -> message printable e = Some m -> well_said printable d e.
Proof. intros H M. exists m. rewrite H. auto. Qed.

Lemma commit_says printable B d e : no_controls printable -> commit_refused B d e -> well_said printable d e.
Proof.
  intros P (ks & ls & r & R & _ & _ & H).
  assert (forall l, In l ls -> occurs l d) as O by (intros l I; eapply reads_occurs; [exact R|apply in_or_app; now right]).
  destruct H as [h r e H|h r e H|x r e H|x r e H|h r e H|h sha ms x r e _ _ _ H|h sha ms msg _ _ _ _|x|x first r _|x first ss _];
    try (eapply plain_says; reflexivity); try (eapply hash_says; eassumption).
  - eapply said_trans; [apply O; now left|]. now apply person_says.
  - eapply said_trans; [apply O; now left|]. now apply person_says.
  - apply (said_trans printable (bs "tagger " ++ x)); [|now apply person_says].
    eapply occurs_trans; [|apply (O (bs " tagger " ++ x)); apply in_or_app; right; apply in_or_app; right; now left].
    exists [SP], []. now rewrite app_nil_r.
Qed.
Lemma tag_says printable B d e : no_controls printable -> tag_refused B d e -> well_said printable d e.
Proof.
  intros P (ts & l & r & R & _ & H).
  assert (occurs l d) as O by (eapply reads_occurs; [exact R|apply in_or_app; right; now left]).
  destruct H; [eapply hash_says; eassumption|]. eapply said_trans; [exact O|]. now apply person_says.
Qed.
Theorem refusals_have_plain_messages : forall printable B pa pc b d e,
  no_controls printable -> 64 <= B -> delivers B true b (mk d EEOF) -> parse_object (bufio_ops pa pc) b = Err e ->
  exists m, message printable e = Some m /\ plain m /\ valid_utf8 m /\ forall q, quotes m q -> occurs q d.
Proof.
  intros printable B pa pc b d e P HB D H. apply (refused_objects B pa pc b d e HB D) in H.
  assert (well_said printable d e) as (m & M & Q).
  { destruct H as [d N|typ r N K|typ r I N|typ size r e I N Hb|size z r A1 A2 L|size z A1 A2 L|size z content A1 A2 Nc L|size z d e A1 A2 H|size z d e A1 A2 H|size d e N H];
      try (eapply plain_says; reflexivity).
    - destruct (type_messages_show_the_type printable typ typ _ P eq_refl) as [Q _]. eexists. split; [reflexivity|]. split; [exact Q|]. exists [], ([SP] ++ r). reflexivity.
    - eapply said_trans; [|apply number_says; eassumption]. exists (typ ++ [SP]), ([NUL] ++ r). now rewrite <- app_assoc.
    - destruct H as [es mode name part _ _ _ _|es e r _ _ _]; [eapply plain_says; reflexivity|].
      eexists. split; [reflexivity|]. cbn [held]. split; [apply quotes_frame; [exact P|cbn; auto 10]|]. destruct e as [[mode name] sha]. unfold entry_text. cbn [ge_name ge_mode ge_sha fst snd].
      eexists (bs "tree " ++ size ++ [NUL] ++ tree_text es ++ mode ++ [SP]), _. cbn [app]. rewrite <- ?app_assoc. cbn [app]. rewrite <- ?app_assoc. cbn [app]. reflexivity.
    - eapply said_trans; [|eapply commit_says; eassumption]. exists (bs "commit " ++ size ++ [NUL]), []. now rewrite app_nil_r, <- !app_assoc.
    - eapply said_trans; [|eapply tag_says; eassumption]. exists (bs "tag " ++ size ++ [NUL]), []. now rewrite app_nil_r, <- !app_assoc. }
  exists m. split; [exact M|]. destruct (every_message_is_plain printable e m P M) as [A V]. split; [exact A|]. split; [exact V|]. intros q Hq.
  destruct (held e) as [q'|] eqn:E.
  - destruct Q as [Q O]. now rewrite (messages_quote_one_string m q' q Q Hq).
  - exfalso. now apply (no_quotes printable e m q).
Qed.
Print Assumptions refusals_have_plain_messages.

(** ASCII alone as printable; a person line with a newline, a quote, a byte that is no UTF-8 and an
    o with an umlaut; and with the umlauts printable. *)
Definition ascii_printable (r : N) : bool := (32 <=? r)%N && (r <? 127)%N.
Definition latin_printable (r : N) : bool := ascii_printable r || ((161 <=? r)%N && (r <=? 255)%N && negb (r =? 173)%N).
Definition bad_line : bytes := bs "J" ++ [xc3; xb6] ++ bs "rg" ++ [NL; x22; xff].
Example messages_apply :
  no_controls ascii_printable /\ no_controls latin_printable /\
  message ascii_printable (EPersonFormat bad_line) = Some (bs "incorrectly formatted person info line: ""J\u00f6rg\n\""\xff""") /\
  message latin_printable (EPersonFormat bad_line) = Some (bs "incorrectly formatted person info line: ""J" ++ [xc3; xb6] ++ bs "rg\n\""\xff""") /\
  parse_person bad_line = Err (EPersonFormat bad_line) /\
  parse_person (bs "author A B") = Err (EPersonInvalid (bs "author A B")) /\
  message ascii_printable (EPersonInvalid (bs "author A B")) = Some (bs "invalid personInfo: ""author A B""") /\
  message ascii_printable (EUnknownType (bs "blobs")) = Some (bs "unrecognized object type: ""blobs""") /\
  message ascii_printable (ENumber (bs "12x") ESyntax) = Some (bs "strconv.Atoi: parsing ""12x"": invalid syntax") /\
  byte_message latin_printable xe4 = bs "encoding/hex: invalid byte: U+00E4 '" ++ [xc3; xa4] ++ bs "'" /\
  byte_message latin_printable NL = bs "encoding/hex: invalid byte: U+000A".
Proof.
  split; [intros r; unfold ascii_printable; lia|]. split; [intros r; unfold latin_printable, ascii_printable; lia|].
  repeat split; vm_compute; reflexivity.
Qed.

(** The same number, refused for two reasons; a line that itself looks like the text of another error. *)
Example messages_tell_the_error_applies :
  let n := bs "99999999999999999999" in
  message ascii_printable (ENumber n ERange) = Some (bs "strconv.Atoi: parsing ""99999999999999999999"": value out of range") /\
  message ascii_printable (ENumber n ESyntax) = Some (bs "strconv.Atoi: parsing ""99999999999999999999"": invalid syntax") /\
  message ascii_printable (EUnknownType (bs "x"": invalid syntax")) = Some (bs "unrecognized object type: ""x\"": invalid syntax""").
Proof. vm_compute. auto. Qed.
Example refusals_apply : exists b, delivers 64 true b (mk (bs "blobs 3" ++ [NUL]) EEOF) /\
  parse_object (bufio_ops (fun _ _ => 1) (fun _ _ => 1)) b = Err (EUnknownType (bs "blobs")).
Proof.
  exists (new_reader 64 (chunks [bs "blobs 3" ++ [NUL]] EEOF)). assert (delivers 64 true (new_reader 64 (chunks [bs "blobs 3" ++ [NUL]] EEOF)) (mk (bs "blobs 3" ++ [NUL]) EEOF)) as D.
  { apply one_chunk_delivers; discriminate. }
  split; [exact D|]. vm_compute. reflexivity.
Qed.
(** A commit with an author that has no email: the line is shown. *)
Example refusals_show_the_line :
  let d := bs "commit 0" ++ [NUL] ++ bs "encoding x" ++ [NL] ++ bs "author A ""B" ++ [NL] in
  let b := new_reader 64 (chunks [d] EEOF) in
  let m := bs "invalid personInfo: ""author A \""B""" in
  delivers 64 true b (mk d EEOF) /\
  parse_object (bufio_ops (fun _ _ => 1) (fun _ _ => 1)) b = Err (EPersonInvalid (bs "author A ""B")) /\
  message ascii_printable (EPersonInvalid (bs "author A ""B")) = Some m /\
  quotes m (bs "author A ""B") /\ occurs (bs "author A ""B") d.
Proof.
  cbv zeta. split; [apply one_chunk_delivers; discriminate|]. split; [vm_compute; reflexivity|]. split; [vm_compute; reflexivity|]. split.
  - exists (bs "invalid personInfo: "), []. split; [cbn; auto|]. split; vm_compute; reflexivity.
  - exists (bs "commit 0" ++ [NUL] ++ bs "encoding x" ++ [NL]), [NL]. reflexivity.
Qed.
