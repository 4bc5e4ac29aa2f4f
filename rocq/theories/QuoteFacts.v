(** Facts about quoting: what is quoted can be read back, and is plain text in UTF-8. *)
From Verif Require Import Base GoStr Cid Types Person QuoteSpec Quote.
From Coq Require Import Lia ZArith ZifyN ZifyNat ZifyBool.
Ltac Zify.zify_post_hook ::= Z.to_euclidean_division_equations.

Lemma to_N_bound b : (Byte.to_N b < 256)%N.
Proof. pose proof (Byte.to_N_bounded b). lia. Qed.
Lemma byte_of_to b : byte_of_N (Byte.to_N b) = b.
Proof. unfold byte_of_N. now rewrite Byte.of_to_N. Qed.
Lemma to_of_byte n : (n < 256)%N -> Byte.to_N (byte_of_N n) = n.
Proof.
  intros H. unfold byte_of_N. destruct (Byte.of_N n) as [b|] eqn:E; [now apply Byte.to_of_N|].
  apply Byte.of_N_None_iff in E. lia.
Qed.
Lemma byte_eq b n : Byte.to_N b = n -> byte_of_N n = b.
Proof. intros <-. apply byte_of_to. Qed.

Lemma decode_sound s r k : decode_rune s = Some (r, k) -> scalar r /\ (s = utf8 r ++ skipn k s) /\ 0 < k.
Proof.
  unfold decode_rune, within. intros H. destruct s as [|b0 s1]; [discriminate|]. pose proof (to_N_bound b0) as B0.
  destruct (Byte.to_N b0 <? 128)%N eqn:E0.
  { injection H as <- <-. unfold scalar, utf8. rewrite E0. cbn. rewrite byte_of_to. split; [lia|]. split; [reflexivity|lia]. }
  destruct s1 as [|b1 s2]; [discriminate|]. pose proof (to_N_bound b1) as B1.
  destruct ((194 <=? Byte.to_N b0)%N && (Byte.to_N b0 <=? 223)%N) eqn:E1.
  { destruct ((128 <=? Byte.to_N b1)%N && (Byte.to_N b1 <=? 191)%N) eqn:E2; [|discriminate]. injection H as <- <-.
    set (r := ((Byte.to_N b0 - 192) * 64 + (Byte.to_N b1 - 128))%N).
    assert (128 <= r < 2048)%N as R by lia. split; [unfold scalar; lia|]. split; [|lia]. unfold utf8.
    replace (r <? 128)%N with false by lia. replace (r <? 2048)%N with true by lia. cbn [map app skipn].
    now rewrite (byte_eq b0), (byte_eq b1) by lia. }
  destruct s2 as [|b2 s3]; [discriminate|]. pose proof (to_N_bound b2) as B2.
  destruct ((224 <=? Byte.to_N b0)%N && (Byte.to_N b0 <=? 239)%N) eqn:E2.
  { match type of H with (if ?c then _ else _) = _ => destruct c eqn:E3 end; [|discriminate]. injection H as <- <-.
    set (r := (((Byte.to_N b0 - 224) * 64 + (Byte.to_N b1 - 128)) * 64 + (Byte.to_N b2 - 128))%N).
    assert ((2048 <= r < 55296 \/ 57344 <= r < 65536) /\ 128 <= Byte.to_N b1 <= 191 /\ 128 <= Byte.to_N b2 <= 191)%N as (R & C1 & C2).
    { destruct (Byte.to_N b0 =? 224)%N eqn:Ea, (Byte.to_N b0 =? 237)%N eqn:Eb; lia. }
    split; [unfold scalar; lia|]. split; [|lia]. unfold utf8.
    replace (r <? 128)%N with false by lia. replace (r <? 2048)%N with false by lia. replace (r <? 65536)%N with true by lia. cbn [map app skipn].
    now rewrite (byte_eq b0), (byte_eq b1), (byte_eq b2) by lia. }
  destruct s3 as [|b3 s4]; [discriminate|]. pose proof (to_N_bound b3) as B3.
  match type of H with (if ?c then _ else _) = _ => destruct c eqn:E3 end; [|discriminate]. injection H as <- <-.
  set (r := ((((Byte.to_N b0 - 240) * 64 + (Byte.to_N b1 - 128)) * 64 + (Byte.to_N b2 - 128)) * 64 + (Byte.to_N b3 - 128))%N).
  assert ((65536 <= r < 1114112) /\ 240 <= Byte.to_N b0 <= 244 /\ 128 <= Byte.to_N b1 <= 191 /\ 128 <= Byte.to_N b2 <= 191 /\ 128 <= Byte.to_N b3 <= 191)%N as (R & C0 & C1 & C2 & C3).
  { destruct (Byte.to_N b0 =? 240)%N eqn:Ea, (Byte.to_N b0 =? 244)%N eqn:Eb; lia. }
  split; [unfold scalar; lia|]. split; [|lia]. unfold utf8.
  replace (r <? 128)%N with false by lia. replace (r <? 2048)%N with false by lia. replace (r <? 65536)%N with false by lia. cbn [map app skipn].
  now rewrite (byte_eq b0), (byte_eq b1), (byte_eq b2), (byte_eq b3) by lia.
Qed.

(** ** Hexadecimal digits *)
Lemma hex_digit_val d : (d < 16)%N -> hex_val (hex_digit d) = Some d /\ (48 <= Byte.to_N (hex_digit d) < 128)%N /\
  Byte.to_N (hex_digit d) <> 127%N /\ Byte.to_N (hex_digit d) <> 92%N.
Proof.
  intros H. assert (exists k, d = N.of_nat k /\ k < 16) as (k & -> & L) by (exists (N.to_nat d); lia). clear H.
  do 16 (destruct k as [|k]; [now vm_compute|]). lia.
Qed.
Lemma hex_digits_number k : forall n, (n < 16 ^ N.of_nat k)%N -> hex_number (hex_digits k n) = Some n.
Proof.
  unfold hex_number. induction k as [|k IH]; intros n L; [cbn in *; f_equal; lia|]. cbn [hex_digits]. rewrite fold_left_app, IH.
  - cbn [fold_left]. assert (n mod 16 < 16)%N as M by (apply N.mod_lt; lia). destruct (hex_digit_val _ M) as [-> _]. f_equal.
    rewrite <- N.div_mod; lia.
  - replace (N.of_nat (S k)) with (N.succ (N.of_nat k)) in L by lia. rewrite N.pow_succ_r' in L. apply N.div_lt_upper_bound; lia.
Qed.
Lemma hex_digits_in k : forall n c, In c (hex_digits k n) -> (48 <= Byte.to_N c < 128)%N /\ Byte.to_N c <> 127%N /\ Byte.to_N c <> 92%N.
Proof.
  induction k as [|k IH]; intros n c H; [destruct H|]. cbn [hex_digits] in H. apply in_app_or in H as [H|[<-|[]]]; [eauto|].
  assert (n mod 16 < 16)%N as M by (apply N.mod_lt; lia). destruct (hex_digit_val _ M) as (_ & A & B & C). auto.
Qed.
Lemma hex_digits_length k : forall n, length (hex_digits k n) = k.
Proof. induction k as [|k IH]; intros n; [reflexivity|]. cbn [hex_digits]. rewrite app_length, IH. cbn. lia. Qed.

(** ** Bytes of runes *)
Lemma utf8_ascii r : (r < 128)%N -> utf8 r = [byte_of_N r].
Proof. intros H. unfold utf8. now replace (r <? 128)%N with true by lia. Qed.
Lemma utf8_high r : scalar r -> (128 <= r)%N -> forall c, In c (utf8 r) -> (128 <= Byte.to_N c)%N.
Proof.
  unfold scalar, utf8. intros S L c H. replace (r <? 128)%N with false in H by lia. apply in_map_iff in H as (n & <- & H).
  destruct (r <? 2048)%N eqn:A; [|destruct (r <? 65536)%N eqn:B]; cbn [In] in H;
    repeat (destruct H as [<-|H]; [rewrite to_of_byte; lia|]); destruct H.
Qed.

(** ** Reading back *)
Definition reads (p q : bytes) : Prop := forall x, read_quoted (p ++ x) = adds (Some q) (read_quoted x).
Lemma reads_nil : reads [] [].
Proof. intros x. cbn. now destruct (read_quoted x) as [[s rest]|]. Qed.
Lemma reads_app p q p' q' : reads p q -> reads p' q' -> reads (p ++ p') (q ++ q').
Proof.
  intros H H' x. rewrite <- app_assoc, H, H'. unfold adds. destruct (read_quoted x) as [[s rest]|]; [|reflexivity]. now rewrite app_assoc.
Qed.
Lemma eqb_N b c : Byte.to_N b <> Byte.to_N c -> Byte.eqb b c = false.
Proof. intros H. destruct (Byte.eqb b c) eqn:E; [|reflexivity]. apply Byte.byte_dec_bl in E. now subst. Qed.
Lemma reads_literal s : (forall c, In c s -> Byte.to_N c <> 34 /\ Byte.to_N c <> 92)%N -> reads s s.
Proof.
  induction s as [|c s IH]; intros H; [apply reads_nil|]. apply (reads_app [c] [c] s s); [|apply IH; intros; apply H; now right].
  destruct (H c (or_introl eq_refl)) as [A B]. intros x. cbn [app read_quoted]. now rewrite !eqb_N.
Qed.
Lemma reads_byte b : reads ([x5c; x78] ++ hex_digits 2 (Byte.to_N b)) [b].
Proof.
  pose proof (to_N_bound b) as B. pose proof (hex_digits_number 2 (Byte.to_N b) ltac:(cbn; lia)) as E.
  destruct (hex_digits 2 (Byte.to_N b)) as [|a [|c [|d l]]] eqn:D; pose proof (hex_digits_length 2 (Byte.to_N b)) as L; rewrite D in L; try discriminate L.
  intros x. cbn [app read_quoted Byte.eqb]. change (read_quoted (x5c :: x78 :: a :: c :: x)) with (adds (option_map (fun n => [byte_of_N n]) (hex_number [a; c])) (read_quoted x)).
  rewrite E. cbn [option_map]. now rewrite byte_of_to.
Qed.
Lemma reads_u r : (r < 65536)%N -> reads ([x5c; x75] ++ hex_digits 4 r) (utf8 r).
Proof.
  intros R. pose proof (hex_digits_number 4 r ltac:(cbn; lia)) as E. pose proof (hex_digits_length 4 r) as L.
  destruct (hex_digits 4 r) as [|a [|b [|c [|d [|e l]]]]]; try discriminate L.
  intros x. change (read_quoted (([x5c; x75] ++ [a; b; c; d]) ++ x)) with (adds (option_map utf8 (hex_number [a; b; c; d])) (read_quoted x)).
  now rewrite E.
Qed.
Lemma reads_U r : (r < 4294967296)%N -> reads ([x5c; x55] ++ hex_digits 8 r) (utf8 r).
Proof.
  intros R. pose proof (hex_digits_number 8 r ltac:(cbn; lia)) as E. pose proof (hex_digits_length 8 r) as L.
  destruct (hex_digits 8 r) as [|a [|b [|c [|d [|e [|f [|g [|h [|i l]]]]]]]]]; try discriminate L.
  intros x. change (read_quoted (([x5c; x55] ++ [a; b; c; d; e; f; g; h]) ++ x)) with (adds (option_map utf8 (hex_number [a; b; c; d; e; f; g; h])) (read_quoted x)).
  now rewrite E.
Qed.

(** ** Plain text in UTF-8 *)
Definition ascii (s : bytes) : Prop := forall c, In c s -> (32 <= Byte.to_N c < 127)%N.
Lemma ascii_plain s : ascii s -> plain s.
Proof. intros H c I. specialize (H c I). lia. Qed.
Lemma ascii_valid s : ascii s -> valid_utf8 s.
Proof.
  induction s as [|c s IH]; intros H; [constructor|]. assert (Byte.to_N c < 128)%N as B by (specialize (H c (or_introl eq_refl)); lia).
  replace (c :: s) with (utf8 (Byte.to_N c) ++ s) by (now rewrite utf8_ascii, byte_of_to).
  constructor; [unfold scalar; lia|]. apply IH. intros d I. apply H. now right.
Qed.
Lemma valid_app a b : valid_utf8 a -> valid_utf8 b -> valid_utf8 (a ++ b).
Proof. intros H B. induction H; [exact B|]. rewrite <- app_assoc. now constructor. Qed.
Lemma plain_app a b : plain a -> plain b -> plain (a ++ b).
Proof. intros A B c H. apply in_app_or in H as [H|H]; auto. Qed.
Lemma hex_ascii k n : ascii (hex_digits k n).
Proof. intros c H. apply hex_digits_in in H. lia. Qed.

Section Printable.
Variable printable : N -> bool.
(** Control characters are not printable. *)
Hypothesis P : forall r, printable r = true -> (32 <= r /\ r <> 127)%N.

(** What a rune is written as *)
Lemma rune_reads r : scalar r -> reads (escape_rune printable r) (utf8 r).
Proof.
  intros Sc. unfold escape_rune. destruct ((r =? 34)%N || (r =? 92)%N) eqn:E.
  { assert (r = 34 \/ r = 92)%N as [-> | ->] by lia; intros x; reflexivity. }
  destruct (printable r) eqn:Pr.
  { specialize (P r Pr). apply reads_literal. intros c I. destruct (N.lt_ge_cases r 128) as [L|L].
    - rewrite utf8_ascii in I by exact L. destruct I as [<-|[]]. rewrite to_of_byte; lia.
    - pose proof (utf8_high r Sc L c I). lia. }
  assert (reads ([x5c; x78] ++ hex_digits 2 r) (utf8 r) \/ 128 <= r)%N as Hx.
  { destruct (N.lt_ge_cases r 128) as [L|L]; [left|now right]. rewrite utf8_ascii by exact L. pose proof (reads_byte (byte_of_N r)) as B. rewrite to_of_byte in B by lia. exact B. }
  assert (reads (if (r <? 32)%N || (r =? 127)%N then [x5c; x78] ++ hex_digits 2 r
              else if (r <? 65536)%N then [x5c; x75] ++ hex_digits 4 r
              else [x5c; x55] ++ hex_digits 8 r) (utf8 r)) as G.
  { destruct ((r <? 32)%N || (r =? 127)%N) eqn:A; [destruct Hx as [Hx|Hx]; [exact Hx|lia]|]. unfold scalar in Sc.
    destruct (r <? 65536)%N eqn:B; [apply reads_u|apply reads_U]; lia. }
  assert (r < 14 \/ 14 <= r)%N as [L|L] by lia.
  - assert (exists k, r = N.of_nat k /\ k < 14) as (k & -> & L') by (exists (N.to_nat r); lia). clear - G L'.
    do 14 (destruct k as [|k]; [exact G || (intros x; reflexivity)|]). lia.
  - assert (forall A (a b c d e f g h : A), match r with 7%N => a | 8%N => b | 12%N => c | 10%N => d | 13%N => e | 9%N => f | 11%N => g | _ => h end = h) as M.
    { intros. destruct r as [|p]; [reflexivity|]. do 4 (destruct p as [p|p|]; try reflexivity; try lia). }
    rewrite M. exact G.
Qed.
Lemma rune_form r : scalar r -> plain (escape_rune printable r) /\ valid_utf8 (escape_rune printable r).
Proof.
  intros Sc. unfold escape_rune. destruct ((r =? 34)%N || (r =? 92)%N) eqn:E.
  { assert (ascii [x5c; byte_of_N r]); [|split; [now apply ascii_plain|now apply ascii_valid]].
    assert (r = 34 \/ r = 92)%N as [-> | ->] by lia; intros c [<-|[<-|[]]]; cbn; lia. }
  destruct (printable r) eqn:Pr.
  { specialize (P r Pr). split.
    - intros c I. destruct (N.lt_ge_cases r 128) as [L|L].
      + rewrite utf8_ascii in I by exact L. destruct I as [<-|[]]. rewrite to_of_byte; lia.
      + pose proof (utf8_high r Sc L c I). lia.
    - rewrite <- (app_nil_r (utf8 r)). constructor; [exact Sc|constructor]. }
  assert (forall k l, In k [x61; x62; x66; x6e; x72; x74; x76; x78; x75; x55] -> ascii l -> ascii ([x5c; k] ++ l)) as A1.
  { intros k l K L c [<-|[<-|I]]; [cbn; lia| |now apply L]. repeat (destruct K as [<-|K]; [cbn; lia|]). destruct K. }
  assert (ascii (match r with
       | 7%N => [x5c; x61] | 8%N => [x5c; x62] | 12%N => [x5c; x66] | 10%N => [x5c; x6e]
       | 13%N => [x5c; x72] | 9%N => [x5c; x74] | 11%N => [x5c; x76]
       | _ => if (r <? 32)%N || (r =? 127)%N then [x5c; x78] ++ hex_digits 2 r
              else if (r <? 65536)%N then [x5c; x75] ++ hex_digits 4 r
              else [x5c; x55] ++ hex_digits 8 r end)) as G.
  { assert (ascii (if (r <? 32)%N || (r =? 127)%N then [x5c; x78] ++ hex_digits 2 r
              else if (r <? 65536)%N then [x5c; x75] ++ hex_digits 4 r
              else [x5c; x55] ++ hex_digits 8 r)) as G.
    { destruct ((r <? 32)%N || (r =? 127)%N); [|destruct (r <? 65536)%N]; apply A1; try apply hex_ascii; cbn; auto 20. }
    assert (ascii []) as An by (intros c []).
    destruct r as [|p]; [exact G|].
    do 4 (destruct p as [p|p|]; try exact G; try (apply (A1 _ [])); try exact An; try (cbn; auto 20; fail)). }
  split; [now apply ascii_plain|now apply ascii_valid].
Qed.

Lemma loop_facts fuel : forall s, length s <= fuel ->
  reads (quote_loop printable fuel s) s /\ plain (quote_loop printable fuel s) /\ valid_utf8 (quote_loop printable fuel s).
Proof.
  induction fuel as [|fuel IH]; intros s L.
  { destruct s; [|cbn in L; lia]. split; [apply reads_nil|]. split; [intros c []|constructor]. }
  destruct s as [|b s]; [split; [apply reads_nil|]; split; [intros c []|constructor]|]. cbn [quote_loop].
  destruct (decode_rune (b :: s)) as [[r k]|] eqn:D.
  - apply decode_sound in D as (Sc & E & K). destruct (IH (skipn k (b :: s))) as (R & A & V).
    { rewrite skipn_length. cbn [length] in *. lia. }
    destruct (rune_form r Sc) as [A' V']. split; [|split; [now apply plain_app|now apply valid_app]].
    rewrite E at 2. apply reads_app; [now apply rune_reads|exact R].
  - destruct (IH s) as (R & A & V); [cbn in L; lia|].
    assert (ascii ([x5c; x78] ++ hex_digits 2 (Byte.to_N b))) as Ab.
    { intros c [<-|[<-|I]]; [cbn; lia..|]. now apply hex_ascii in I. }
    rewrite app_assoc. split; [apply (reads_app _ [b] _ s); [apply reads_byte|exact R]|].
    split; [apply plain_app; [now apply ascii_plain|exact A]|apply valid_app; [now apply ascii_valid|exact V]].
Qed.
Lemma quote_facts s : (forall rest, unquote (quote printable s ++ rest) = Some (s, rest)) /\ plain (quote printable s) /\ valid_utf8 (quote printable s).
Proof.
  destruct (loop_facts (length s) s (le_n _)) as (R & A & V). unfold quote. split; [|split].
  - intros rest. rewrite <- !app_assoc. cbn [app unquote]. change (Byte.eqb x22 x22) with true. cbn iota. rewrite R. cbn. now rewrite app_nil_r.
  - apply plain_app; [|apply plain_app; [exact A|]]; intros c [<-|[]]; cbn; lia.
  - assert (valid_utf8 [x22]) by (apply ascii_valid; intros c [<-|[]]; cbn; lia). apply valid_app; [assumption|]. now apply valid_app.
Qed.
End Printable.
