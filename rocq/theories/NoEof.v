(** Decoders over a reader that never reports EOF never return a tree, commit or tag. *)
From Verif Require Import Base GoStr Cid Types Nodes Reader Person Assemble Decode PersonFacts DecodeFacts SafeOps.

Record never_eof {S V} (ops : rdops S V) (I : S -> Prop) : Prop := {
  ne_string : forall d s, I s -> exists x e s', rd_string ops d s = Ok (x, e, s') /\ I s' /\ e <> Some EEOF;
  ne_line : forall s, I s -> exists v e s', rd_line ops s = Ok (v, e, s') /\ I s' /\ e <> Some EEOF;
  ne_all : forall s, I s -> exists x e s', rd_all ops s = Ok (x, e, s') /\ I s' /\ e <> None;
  ne_full : forall n s, I s -> exists x e s', rd_full ops n s = Ok (x, e, s') /\ I s' /\ e <> Some EEOF
}.

Section C.
Context {S V : Type} (ops : rdops S V) (I : S -> Prop) (C : never_eof ops I).

Definition keeps {A} (r : res (A * S)) : Prop := match r with Ok (_, s') => I s' | _ => True end.

Lemma ne_number s : I s -> keeps (read_number ops s).
Proof.
  intros H. unfold read_number. destruct (ne_string _ _ C NUL s H) as (x & e & s1 & -> & H1 & N). cbn [bind].
  destruct e; [exact Logic.I|]. destruct (go_drop_last x); cbn [bind]; try exact Logic.I. destruct (atoi a); cbn; auto.
Qed.

Lemma sha_to_cid_err sha e : sha_to_cid sha = Err e -> e <> EEOF.
Proof. unfold sha_to_cid. destruct (_ =? _); congruence. Qed.

Lemma ne_entry s : I s ->
  match decode_tree_entry ops s with Ok (_, s') => I s' | Err e => e <> EEOF | _ => True end.
Proof.
  intros H. unfold decode_tree_entry.
  destruct (ne_string _ _ C SP s H) as (x & e & s1 & -> & H1 & N1). cbn [bind].
  destruct e; [congruence|]. assert (forall y, go_drop_last x = Err y -> y <> EEOF) as G by (destruct x; discriminate).
  destruct (go_drop_last x); cbn [bind]; auto.
  destruct (ne_string _ _ C NUL s1 H1) as (x2 & e & s2 & -> & H2 & N2). cbn [bind].
  destruct e; [congruence|]. assert (forall y, go_drop_last x2 = Err y -> y <> EEOF) as G2 by (destruct x2; discriminate).
  destruct (go_drop_last x2); cbn [bind]; auto.
  destruct (ne_full _ _ C 20 s2 H2) as (x3 & e & s3 & -> & H3 & N3). cbn [bind].
  destruct e; [congruence|]. pose proof (sha_to_cid_err x3) as G3. destruct (sha_to_cid x3); cbn [bind]; auto.
Qed.

Lemma ne_tree_loop : forall f t s r, I s -> tree_loop ops f t s <> Ok r.
Proof.
  induction f as [|f IH]; intros t s r H; [discriminate|]. cbn [tree_loop].
  pose proof (ne_entry s H) as E. destruct (decode_tree_entry ops s) as [[[n e] s1]|e| |]; try discriminate.
  - destruct (tree_insert t n e); cbn [bind]; try discriminate. now apply IH.
  - destruct e; congruence.
Qed.

Lemma ne_gpgsig_loop : forall f sig s, I s -> keeps (gpgsig_loop ops f sig s).
Proof.
  induction f as [|f IH]; intros sig s H; [exact Logic.I|]. cbn [gpgsig_loop].
  destruct (ne_line _ _ C s H) as (v & e & s1 & -> & H1 & N). cbn [bind]. destruct e; [exact Logic.I|].
  destruct (beqb _ _); [exact H1|]. now apply IH.
Qed.

Lemma ne_decode_gpgsig s : I s -> keeps (decode_gpgsig ops s).
Proof.
  intros H. unfold decode_gpgsig. destruct (ne_line _ _ C s H) as (v & e & s1 & -> & H1 & N). cbn [bind].
  destruct e; [exact Logic.I|]. destruct (negb _); [destruct (_ || _); [|exact Logic.I]|]; now apply ne_gpgsig_loop.
Qed.

Lemma ne_mergetag_msg : forall f msg s, I s -> keeps (mergetag_msg_loop ops f msg s).
Proof.
  induction f as [|f IH]; intros msg s H; [exact Logic.I|]. cbn [mergetag_msg_loop].
  destruct (ne_line _ _ C s H) as (v & e & s1 & -> & H1 & N). cbn [bind]. destruct e; [exact Logic.I|].
  destruct (negb _); [exact H1|]. now apply IH.
Qed.

Lemma ne_mergetag_loop : forall f out s, I s -> keeps (mergetag_loop ops f out s).
Proof.
  induction f as [|f IH]; intros out s H; [exact Logic.I|]. rewrite mergetag_loop_unfold_gen.
  destruct (ne_line _ _ C s H) as (v & e & s1 & -> & H1 & N). cbn [bind]. destruct e as [e|].
  { destruct (is_eof e); [exact H1|exact Logic.I]. }
  cbv zeta. destruct (beqb _ _).
  - pose proof (ne_mergetag_msg (rd_fuel ops s1) [] s1 H1) as M.
    destruct (mergetag_msg_loop _ _ _ _) as [[[? ?] ?]| | |]; cbn [bind]; auto.
  - destruct (mergetag_header out _); cbn [bind]; try exact Logic.I. now apply IH.
Qed.

Lemma ne_commit_line : forall f c v s, I s -> keeps (commit_line ops f c v s).
Proof.
  induction f as [|f IH]; intros c v s H; [exact Logic.I|]. cbn [commit_line]. cbv zeta. set (line := rd_deref ops s v).
  destruct (has_prefix (bs "tree ") line).
  { destruct (go_from 5 line); cbn [bind]; try exact Logic.I. destruct (hex_decode a); cbn [bind]; try exact Logic.I.
    destruct (sha_to_cid a0); cbn [bind]; try exact Logic.I. exact H. }
  destruct (has_prefix (bs "parent ") line).
  { destruct (go_from 7 line); cbn [bind]; try exact Logic.I. destruct (hex_decode a); cbn [bind]; try exact Logic.I.
    destruct (sha_to_cid a0); cbn [bind]; try exact Logic.I. exact H. }
  destruct (has_prefix (bs "author ") line).
  { destruct (parse_person line); cbn [bind]; try exact Logic.I. exact H. }
  destruct (has_prefix (bs "committer ") line).
  { destruct (parse_person line); cbn [bind]; try exact Logic.I. exact H. }
  destruct (has_prefix (bs "encoding ") line).
  { destruct (go_from 9 line); cbn [bind]; try exact Logic.I. exact H. }
  destruct (has_prefix (bs "mergetag object ") line).
  { destruct (go_from 16 line); cbn [bind]; try exact Logic.I. destruct (hex_decode a); cbn [bind]; try exact Logic.I.
    unfold read_merge_tag. destruct (sha_to_cid a0) as [cd| | |]; cbn [bind]; try exact Logic.I.
    match goal with |- context [mergetag_loop ops ?f0 ?o s] => pose proof (ne_mergetag_loop f0 o s H) as M; destruct (mergetag_loop ops f0 o s) as [[[mt rest] s1]| | |] end;
      cbn [bind]; try exact Logic.I.
    destruct rest as [v'|]; [|exact M]. now apply IH. }
  destruct (has_prefix (bs "gpgsig ") line).
  { pose proof (ne_decode_gpgsig s H) as G. destruct (decode_gpgsig ops s) as [[sig s1]| | |]; auto. }
  destruct (length line =? 0); [|exact H].
  destruct (ne_all _ _ C s H) as (x & e & s1 & -> & HI & Hm). cbn [bind]. destruct e; [exact Logic.I|]. congruence.
Qed.

Lemma ne_commit_loop : forall f c s r, I s -> commit_loop ops f c s <> Ok r.
Proof.
  induction f as [|f IH]; intros c s r H; [discriminate|]. cbn [commit_loop].
  destruct (ne_line _ _ C s H) as (v & e & s1 & -> & H1 & N). cbn [bind]. destruct e as [e|].
  { destruct e; cbn; congruence. }
  pose proof (ne_commit_line (rd_fuel ops s1) c v s1 H1) as K.
  destruct (commit_line ops _ c v s1) as [[c' s2]| | |]; cbn [bind keeps] in *; try discriminate. now apply IH.
Qed.

Lemma ne_tag_loop : forall f out pr s r, I s -> tag_loop ops f out pr s <> Ok r.
Proof.
  induction f as [|f IH]; intros out pr s r H; [discriminate|]. rewrite tag_loop_unfold_gen.
  destruct (ne_line _ _ C s H) as (v & e & s1 & -> & H1 & N). cbn [bind]. destruct e as [e|].
  { destruct e; cbn; congruence. }
  destruct (rd_deref ops s1 v) as [|x line].
  - destruct (ne_all _ _ C s1 H1) as (y & e & s2 & -> & H2 & L2). cbn [bind]. destruct e; [discriminate|]. congruence.
  - destruct (tag_header out (x :: line)) as [[o p]| | |]; cbn [bind]; try discriminate. now apply IH.
Qed.

Lemma ne_decode_tree k s n : I s -> decode_tree ops k s <> Ok n.
Proof.
  intros H E. unfold decode_tree in E. apply bind_ok in E as ([z s1] & E1 & E). apply bind_ok in E as (t & E2 & _).
  pose proof (ne_number s H) as N. rewrite E1 in N. exact (ne_tree_loop _ _ _ _ N E2).
Qed.
Lemma ne_decode_commit k s n : I s -> decode_commit ops k s <> Ok n.
Proof.
  intros H E. unfold decode_commit in E. apply bind_ok in E as ([z s1] & E1 & E). apply bind_ok in E as (t & E2 & _).
  pose proof (ne_number s H) as N. rewrite E1 in N. exact (ne_commit_loop _ _ _ _ N E2).
Qed.
Lemma ne_decode_tag k s n : I s -> decode_tag ops k s <> Ok n.
Proof.
  intros H E. unfold decode_tag in E. unfold map_res in E. apply bind_ok in E as (y & E & _). unfold decode_tag_printing in E.
  destruct (ne_string _ _ C NUL s H) as (x & e & s1 & R & H1 & N). rewrite R in E. cbn [bind] in E. destruct e; [discriminate|].
  apply bind_ok in E as ([t pr] & E & _). exact (ne_tag_loop _ _ _ _ _ H1 E).
Qed.
End C.
