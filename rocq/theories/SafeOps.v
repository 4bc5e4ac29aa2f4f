(** Decoders over any reader that keeps a small contract return a value or an error,
    within the fuel of the model. *)
From Verif Require Import Base GoStr Cid Types Nodes Reader Person Assemble Decode PersonFacts DecodeFacts.

(** [m] counts the bytes still to come. *)
Record contract {S V} (ops : rdops S V) (I : S -> Prop) (m : S -> nat) : Prop := {
  ct_fuel : forall s, rd_fuel ops s = Datatypes.S (m s);
  ct_string : forall d s, I s -> exists x e s', rd_string ops d s = Ok (x, e, s') /\ I s' /\ m s' <= m s /\
    (e = None -> x <> [] /\ m s' < m s);
  ct_line : forall s, I s -> exists v e s', rd_line ops s = Ok (v, e, s') /\ I s' /\ m s' <= m s /\
    (e = None -> m s' < m s);
  ct_all : forall s, I s -> exists x e s', rd_all ops s = Ok (x, e, s') /\ I s' /\ m s' <= m s;
  ct_full : forall n s, I s -> exists x e s', rd_full ops n s = Ok (x, e, s') /\ I s' /\ m s' <= m s /\
    (e = None -> length x = n);
  ct_copy : forall n s, I s -> exists x e s', rd_copy ops n s = Ok (x, e, s') /\ I s' /\ m s' <= m s
}.

Section C.
Context {S V : Type} (ops : rdops S V) (I : S -> Prop) (m : S -> nat) (C : contract ops I m).

Definition okS {A} (s : S) (r : res (A * S)) : Prop :=
  match r with
  | Ok (_, s') => I s' /\ m s' <= m s
  | Err _ => True
  | _ => False
  end.

Lemma okS_le {A} s0 s (r : res (A * S)) : okS s r -> m s <= m s0 -> okS s0 r.
Proof. destruct r as [[? ?]| | |]; cbn; auto. intros [? ?] ?. split; auto. lia. Qed.

Lemma drop_last_ok x : x <> [] -> exists y, go_drop_last x = Ok y.
Proof. destruct x; [congruence|]. intros _. cbn [go_drop_last]. eauto. Qed.

Lemma ok_read_number s : I s -> okS s (read_number ops s).
Proof.
  intros H. unfold read_number. destruct (ct_string _ _ _ C NUL s H) as (x & e & s' & -> & HI & Hm & HN). cbn [bind].
  destruct e; [exact Logic.I|]. destruct (HN eq_refl) as [N L]. destruct (drop_last_ok x N) as [y ->]. cbn [bind].
  pose proof (atoi_safe y) as A. destruct (atoi y); cbn in *; auto.
Qed.

Lemma ok_read_type s : I s -> okS s (read_type ops s).
Proof.
  intros H. unfold read_type. destruct (ct_string _ _ _ C SP s H) as (x & e & s' & -> & HI & Hm & HN). cbn [bind].
  destruct e; [destruct (is_eof e); exact Logic.I|]. destruct (HN eq_refl) as [N L]. destruct (drop_last_ok x N) as [y ->]. cbn. auto.
Qed.

Lemma build_bytes_safe k b : safe (build_bytes k b).
Proof. destruct k; exact Logic.I. Qed.

Lemma ok_decode_blob k s : I s -> okS s (decode_blob ops k s).
Proof.
  intros H. unfold decode_blob. pose proof (ok_read_number s H) as R.
  destruct (read_number ops s) as [[z s1]| | |]; cbn [okS bind] in *; try contradiction; [|exact Logic.I].
  destruct R as [H1 L1]. destruct (z <? 0)%Z; [exact Logic.I|].
  destruct (ct_copy _ _ _ C z s1 H1) as (x & e & s2 & -> & H2 & L2). cbn [bind].
  destruct e; [exact Logic.I|]. destruct (negb _); [destruct (length x =? 0); exact Logic.I|].
  pose proof (build_bytes_safe k (bs "blob " ++ dec_Z z ++ [NUL] ++ x)) as B0.
  rewrite <- app_assoc. rewrite <- app_assoc. destruct (build_bytes k _); cbn in *; auto. split; auto. lia.
Qed.

Definition ok_entry (s : S) (r : res (bytes * entry * S)) : Prop :=
  match r with
  | Ok (_, s') => I s' /\ m s' < m s
  | Err _ => True
  | _ => False
  end.

Lemma ok_decode_tree_entry s : I s -> ok_entry s (decode_tree_entry ops s).
Proof.
  intros H. unfold decode_tree_entry.
  destruct (ct_string _ _ _ C SP s H) as (x & e & s1 & -> & H1 & L1 & N1). cbn [bind].
  destruct e; [exact Logic.I|]. destruct (N1 eq_refl) as [X1 M1]. destruct (drop_last_ok x X1) as [y ->]. cbn [bind].
  destruct (ct_string _ _ _ C NUL s1 H1) as (x2 & e & s2 & -> & H2 & L2 & N2). cbn [bind].
  destruct e; [exact Logic.I|]. destruct (N2 eq_refl) as [X2 M2]. destruct (drop_last_ok x2 X2) as [y2 ->]. cbn [bind].
  destruct (ct_full _ _ _ C 20 s2 H2) as (x3 & e & s3 & -> & H3 & L3 & N3). cbn [bind].
  destruct e; [exact Logic.I|]. rewrite sha_to_cid_ok by (now apply N3). cbn. split; auto. lia.
Qed.

Lemma ok_tree_loop : forall f t s, I s -> m s < f -> safe (tree_loop ops f t s).
Proof.
  induction f as [|f IH]; intros t s H L; [lia|]. cbn [tree_loop].
  pose proof (ok_decode_tree_entry s H) as E. destruct (decode_tree_entry ops s) as [[[n e] s1]|e| |]; cbn [ok_entry] in E; try contradiction E.
  - pose proof (tree_insert_safe t n e) as T. destruct (tree_insert t n e); cbn [bind] in *; try contradiction; try exact Logic.I.
    apply IH; [apply E|]. destruct E; lia.
  - destruct e; exact Logic.I.
Qed.

Lemma ok_gpgsig_loop : forall f sig s, I s -> m s < f -> okS s (gpgsig_loop ops f sig s).
Proof.
  induction f as [|f IH]; intros sig s H L; [lia|]. cbn [gpgsig_loop].
  destruct (ct_line _ _ _ C s H) as (v & e & s1 & -> & H1 & L1 & N1). cbn [bind]. destruct e; [exact Logic.I|].
  specialize (N1 eq_refl). destruct (beqb _ _); [cbn; auto|].
  eapply okS_le; [apply IH; auto; lia|lia].
Qed.

Lemma ok_decode_gpgsig s : I s -> okS s (decode_gpgsig ops s).
Proof.
  intros H. unfold decode_gpgsig. destruct (ct_line _ _ _ C s H) as (v & e & s1 & -> & H1 & L1 & N1). cbn [bind].
  destruct e; [exact Logic.I|]. rewrite (ct_fuel _ _ _ C).
  destruct (negb _); [destruct (_ || _); [|exact Logic.I]|]; (eapply okS_le; [apply ok_gpgsig_loop; auto|lia]).
Qed.

Lemma ok_mergetag_msg : forall f msg s, I s -> m s < f ->
  match mergetag_msg_loop ops f msg s with Ok (_, _, s') => I s' /\ m s' < m s | Err _ => True | _ => False end.
Proof.
  induction f as [|f IH]; intros msg s H L; [lia|]. cbn [mergetag_msg_loop].
  destruct (ct_line _ _ _ C s H) as (v & e & s1 & -> & H1 & L1 & N1). cbn [bind]. destruct e; [exact Logic.I|].
  specialize (N1 eq_refl). destruct (negb _); [auto|].
  specialize (IH (msg ++ rd_deref ops s1 v ++ [NL]) s1 H1 ltac:(lia)).
  destruct (mergetag_msg_loop ops f _ s1) as [[[? ?] ?]| | |]; auto. destruct IH. split; auto. lia.
Qed.

Lemma mergetag_loop_unfold_gen f out s :
  mergetag_loop ops (Datatypes.S f) out s =
  let* (v, e, s1) := rd_line ops s in
  match e with
  | Some e => if is_eof e then Ok (out, None, s1) else Err e
  | None =>
      let line := rd_deref ops s1 v in
      if beqb line (bs " ") then
        let* (msg, rest, s2) := mergetag_msg_loop ops (rd_fuel ops s1) [] s1 in
        Ok ({| t_object := t_object out; t_type := t_type out; t_tag := t_tag out;
               t_tagger := t_tagger out; t_message := msg |}, Some rest, s2)
      else
        let* out' := mergetag_header out line in mergetag_loop ops f out' s1
  end.
Proof.
  cbn [mergetag_loop].
  destruct (rd_line ops s) as [[[v e] s1]| | |]; cbn [bind]; auto.
  destruct e; [reflexivity|]. cbv zeta. generalize (rd_deref ops s1 v) as line. intros line.
  destruct (beqb_spec line (bs " ")) as [->|N].
  - reflexivity.
  - unfold mergetag_header.
    destruct (has_prefix (bs " type ") line); [destruct (go_from 6 line); reflexivity|].
    destruct (has_prefix (bs " tag ") line); [destruct (go_from 5 line); reflexivity|].
    destruct (has_prefix (bs " tagger ") line).
    + destruct (go_from 1 line) as [x| | |]; cbn [bind]; auto. destruct (parse_person x); reflexivity.
    + reflexivity.
Qed.

Lemma ok_mergetag_loop : forall f out s, I s -> m s < f ->
  match mergetag_loop ops f out s with
  | Ok (_, r, s') => I s' /\ m s' <= m s /\ (r <> None -> m s' < m s) | Err _ => True | _ => False end.
Proof.
  induction f as [|f IH]; intros out s H L; [lia|]. rewrite mergetag_loop_unfold_gen.
  destruct (ct_line _ _ _ C s H) as (v & e & s1 & -> & H1 & L1 & N1). cbn [bind]. destruct e as [e|].
  { destruct (is_eof e); [|exact Logic.I]. repeat split; auto. congruence. }
  specialize (N1 eq_refl). cbv zeta. destruct (beqb _ _).
  - rewrite (ct_fuel _ _ _ C). pose proof (ok_mergetag_msg (Datatypes.S (m s1)) [] s1 H1 ltac:(lia)) as M.
    destruct (mergetag_msg_loop _ _ _ _) as [[[? ?] ?]| | |]; cbn [bind]; auto. destruct M. repeat split; auto; lia.
  - pose proof (mergetag_header_safe out (rd_deref ops s1 v)) as MS.
    destruct (mergetag_header out (rd_deref ops s1 v)); cbn [bind safe] in *; auto; try contradiction.
    specialize (IH a s1 H1 ltac:(lia)). destruct (mergetag_loop ops f a s1) as [[[? ?] ?]| | |]; auto.
    destruct IH as (? & ? & ?). repeat split; auto; lia.
Qed.

Lemma ok_commit_line : forall f c v s, I s -> m s < f -> okS s (commit_line ops f c v s).
Proof.
  induction f as [|f IH]; intros c v s H L; [lia|]. cbn [commit_line]. cbv zeta. set (line := rd_deref ops s v).
  destruct (has_prefix (bs "tree ") line) eqn:H1.
  { destruct (go_from_prefix _ _ 5 H1 eq_refl) as (r & _ & ->). cbn [bind].
    pose proof (hex_decode_safe r). destruct (hex_decode r) as [sha| | |]; cbn [bind]; try contradiction; [|exact Logic.I].
    pose proof (sha_to_cid_safe sha). destruct (sha_to_cid sha); cbn; try contradiction; auto. }
  destruct (has_prefix (bs "parent ") line) eqn:H2.
  { destruct (go_from_prefix _ _ 7 H2 eq_refl) as (r & _ & ->). cbn [bind].
    pose proof (hex_decode_safe r). destruct (hex_decode r) as [sha| | |]; cbn [bind]; try contradiction; [|exact Logic.I].
    pose proof (sha_to_cid_safe sha). destruct (sha_to_cid sha); cbn; try contradiction; auto. }
  destruct (has_prefix (bs "author ") line) eqn:H3.
  { pose proof (parse_person_safe line). destruct (parse_person line); cbn; try contradiction; auto. }
  destruct (has_prefix (bs "committer ") line) eqn:H4.
  { pose proof (parse_person_safe line). destruct (parse_person line); cbn; try contradiction; auto. }
  destruct (has_prefix (bs "encoding ") line) eqn:H5.
  { destruct (go_from_prefix _ _ 9 H5 eq_refl) as (r & _ & ->). cbn. auto. }
  destruct (has_prefix (bs "mergetag object ") line) eqn:H6.
  { destruct (go_from_prefix _ _ 16 H6 eq_refl) as (r & _ & ->). cbn [bind].
    pose proof (hex_decode_safe r). destruct (hex_decode r) as [sha| | |]; cbn [bind]; try contradiction; [|exact Logic.I].
    unfold read_merge_tag. pose proof (sha_to_cid_safe sha). destruct (sha_to_cid sha) as [cd| | |]; cbn [bind]; try contradiction; [|exact Logic.I].
    rewrite (ct_fuel _ _ _ C).
    match goal with |- context [mergetag_loop ops ?f0 ?o s] => pose proof (ok_mergetag_loop f0 o s H ltac:(lia)) as M; destruct (mergetag_loop ops f0 o s) as [[[mt rest] s1]| | |] end;
      cbn [bind]; auto.
    destruct M as (M1 & M2 & M3). destruct rest as [v'|]; [|cbn; auto].
    assert (m s1 < m s) by (apply M3; congruence). eapply okS_le; [apply IH; auto; lia|lia]. }
  destruct (has_prefix (bs "gpgsig ") line) eqn:H7.
  { pose proof (ok_decode_gpgsig s H) as G. destruct (decode_gpgsig ops s) as [[sig s1]| | |]; cbn in *; auto. }
  destruct (length line =? 0).
  { destruct (ct_all _ _ _ C s H) as (x & e & s1 & -> & HI & Hm). cbn [bind]. destruct e; [exact Logic.I|]. cbn; auto. }
  cbn. auto.
Qed.

Lemma ok_commit_loop : forall f c s, I s -> m s < f -> safe (commit_loop ops f c s).
Proof.
  induction f as [|f IH]; intros c s H L; [lia|]. cbn [commit_loop].
  destruct (ct_line _ _ _ C s H) as (v & e & s1 & -> & H1 & L1 & N1). cbn [bind]. destruct e as [e|].
  { destruct (is_eof e); exact Logic.I. }
  specialize (N1 eq_refl). rewrite (ct_fuel _ _ _ C). pose proof (ok_commit_line (Datatypes.S (m s1)) c v s1 H1 ltac:(lia)) as K.
  destruct (commit_line ops _ c v s1) as [[c' s2]| | |]; cbn [bind okS] in *; auto.
  destruct K. apply IH; auto. lia.
Qed.

Lemma tag_loop_unfold_gen f out pr s :
  tag_loop ops (Datatypes.S f) out pr s =
  let* (v, e, s1) := rd_line ops s in
  match e with
  | Some e => if is_eof e then Ok (out, pr) else Err e
  | None =>
      match rd_deref ops s1 v with
      | [] =>
          let* (rest, e, s2) := rd_all ops s1 in
          match e with
          | Some e => Err e
          | None => tag_loop ops f {| t_object := t_object out; t_type := t_type out; t_tag := t_tag out;
                       t_tagger := t_tagger out; t_message := rest |} pr s2
          end
      | line => let* (out', p) := tag_header out line in tag_loop ops f out' (pr ++ p) s1
      end
  end.
Proof.
  cbn [tag_loop].
  destruct (rd_line ops s) as [[[v e] s1]| | |]; cbn [bind]; auto.
  destruct e; [reflexivity|]. cbv zeta. generalize (rd_deref ops s1 v) as line. intros line.
  destruct line as [|x line]; [reflexivity|]. set (ln := x :: line).
  unfold tag_header.
  destruct (has_prefix (bs "object ") ln).
  { destruct (go_from 7 ln) as [h| | |]; cbn [bind]; auto. destruct (hex_decode h) as [sha| | |]; cbn [bind]; auto.
    destruct (sha_to_cid sha) as [c| | |]; cbn [bind]; auto. now rewrite app_nil_r. }
  destruct (has_prefix (bs "tag ") ln); [destruct (go_from 4 ln); cbn [bind]; auto; now rewrite app_nil_r|].
  destruct (has_prefix (bs "tagger ") ln); [destruct (parse_person ln); cbn [bind]; auto; now rewrite app_nil_r|].
  destruct (has_prefix (bs "type ") ln); [destruct (go_from 5 ln); cbn [bind]; auto; now rewrite app_nil_r|].
  reflexivity.
Qed.

Lemma ok_tag_loop : forall f out pr s, I s -> m s < f -> safe (tag_loop ops f out pr s).
Proof.
  induction f as [|f IH]; intros out pr s H L; [lia|]. rewrite tag_loop_unfold_gen.
  destruct (ct_line _ _ _ C s H) as (v & e & s1 & -> & H1 & L1 & N1). cbn [bind]. destruct e as [e|].
  { destruct (is_eof e); exact Logic.I. }
  specialize (N1 eq_refl). destruct (rd_deref ops s1 v) as [|x line].
  - destruct (ct_all _ _ _ C s1 H1) as (r & e & s2 & -> & H2 & L2). cbn [bind]. destruct e; [exact Logic.I|]. apply IH; auto. lia.
  - pose proof (tag_header_safe out (x :: line)) as T. destruct (tag_header out (x :: line)) as [[o p]| | |]; cbn [bind safe] in *; auto.
    apply IH; auto. lia.
Qed.

(** *** The decoders on a fresh builder of the matching type *)
Lemma safe_parse_object s : I s -> safe (parse_object ops s).
Proof.
  intros H. unfold parse_object. pose proof (ok_read_type s H) as T.
  destruct (read_type ops s) as [[w s1]| | |]; cbn [bind okS] in *; auto. destruct T as [H1 _].
  assert (forall P : res (Z * S) -> Prop, True) as _ by auto.
  pose proof (ok_read_number s1 H1) as N.
  destruct (beqb w (bs "tree")).
  { unfold decode_tree. destruct (read_number ops s1) as [[z s2]| | |]; cbn [bind okS] in *; auto. destruct N as [H2 _].
    rewrite (ct_fuel _ _ _ C). pose proof (ok_tree_loop (Datatypes.S (m s2)) zero_tree s2 H2 ltac:(lia)) as K.
    destruct (tree_loop _ _ _ _); cbn in *; auto. }
  destruct (beqb w (bs "commit")).
  { unfold decode_commit. destruct (read_number ops s1) as [[z s2]| | |]; cbn [bind okS] in *; auto. destruct N as [H2 _].
    rewrite (ct_fuel _ _ _ C). pose proof (ok_commit_loop (Datatypes.S (m s2)) zero_commit s2 H2 ltac:(lia)) as K.
    destruct (commit_loop _ _ _ _); cbn in *; auto. }
  destruct (beqb w (bs "blob")).
  { pose proof (ok_decode_blob BBlob s1 H1) as K. destruct (decode_blob ops BBlob s1) as [[? ?]| | |]; cbn in *; auto. }
  destruct (beqb w (bs "tag")); [|exact Logic.I].
  unfold decode_tag, decode_tag_printing. destruct (ct_string _ _ _ C NUL s1 H1) as (x & e & s2 & -> & H2 & L2 & _). cbn [bind].
  destruct e; [exact Logic.I|]. rewrite (ct_fuel _ _ _ C).
  pose proof (ok_tag_loop (Datatypes.S (m s2)) zero_tag [] s2 H2 ltac:(lia)) as K.
  destruct (tag_loop _ _ _ _ _) as [[? ?]| | |]; cbn in *; auto.
Qed.

End C.
