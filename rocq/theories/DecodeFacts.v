(** Termination, absence of panics and fuel independence of the decoders on
    streams. *)
From Verif Require Import Base GoStr Cid Types Nodes Reader Person Assemble Decode Spec StreamFacts PersonFacts.

(** A loop result is good from [s]: it is a value or an error, and the reader only
    moved forward. *)
Definition after (s s' : stream) : Prop :=
  length (st_data s') <= length (st_data s) /\ st_err s' = st_err s.

Lemma after_refl s : after s s.
Proof. split; auto. Qed.
Lemma after_trans a b c : after a b -> after b c -> after a c.
Proof. intros [? ?] [? ?]. split; [lia|congruence]. Qed.

Definition goodS {A} (s : stream) (r : res (A * stream)) : Prop :=
  match r with
  | Ok (_, s') => after s s'
  | Err _ => True
  | Panic | OutOfFuel => False
  end.

Lemma goodS_safe {A} s (r : res (A * stream)) : goodS s r -> safe r.
Proof. destruct r as [[? ?]| | |]; cbn; auto. Qed.

Section B.
Context (B : nat) (HB : 2 <= B).
Notation ops := (stream_ops B).
Notation rem s := (length (st_data s)).

Lemma read_number_good s : goodS s (read_number ops s).
Proof.
  unfold read_number. change (rd_string ops) with stream_string.
  destruct (stream_string_cases NUL s) as [(l & r & H & E & ->)|[H ->]]; cbn [bind]; [|exact I].
  rewrite go_drop_last_snoc. cbn [bind]. pose proof (atoi_safe l) as A.
  destruct (atoi l); cbn in *; auto. split; [|reflexivity]. cbn. rewrite E, app_length. cbn. lia.
Qed.

Lemma gpgsig_loop_good : forall f sig s, rem s < f ->
  goodS s (gpgsig_loop ops f sig s) /\
  forall f', rem s < f' -> gpgsig_loop ops f' sig s = gpgsig_loop ops f sig s.
Proof.
  induction f as [|f IH]; intros sig s L; [lia|].
  assert (forall f', rem s < f' -> exists f1, f' = S f1 /\ rem s < S f1) as FF.
  { intros [|f1] ?; [lia|]. eauto. }
  cbn [gpgsig_loop]. change (rd_line ops) with (stream_line B).
  destruct (stream_line_cases B s HB) as [[E R]|(l & s1 & R & E1 & L1)].
  - rewrite R. cbn. split; auto. intros f' Lf'. destruct (FF f' Lf') as (f1 & -> & _).
    cbn [gpgsig_loop]. change (rd_line ops) with (stream_line B). now rewrite R.
  - rewrite R. cbn [bind]. change (rd_deref ops s1 l) with l.
    assert (forall f', rem s < f' -> gpgsig_loop ops f' sig s =
      if beqb l (bs " -----END PGP SIGNATURE-----") then Ok (sig, s1)
      else gpgsig_loop ops (pred f') (sig ++ l ++ [NL]) s1) as U.
    { intros f' Lf'. destruct (FF f' Lf') as (f1 & -> & _). cbn [gpgsig_loop pred].
      change (rd_line ops) with (stream_line B). now rewrite R. }
    destruct (beqb l (bs " -----END PGP SIGNATURE-----")) eqn:EQ.
    + split; [split; [lia|assumption]|]. intros f' Lf'. rewrite U by assumption. reflexivity.
    + destruct (IH (sig ++ l ++ [NL]) s1) as [G F]; [lia|]. split.
      * unfold goodS in *. destruct (gpgsig_loop ops f (sig ++ l ++ [NL]) s1) as [[? ?]| | |]; auto.
        eapply after_trans; [|exact G]. split; [lia|assumption].
      * intros f' Lf'. rewrite U by assumption. apply F. lia.
Qed.

Lemma decode_gpgsig_good s : goodS s (decode_gpgsig ops s).
Proof.
  unfold decode_gpgsig. change (rd_line ops) with (stream_line B).
  destruct (stream_line_cases B s HB) as [[E R]|(l & s1 & R & E1 & L1)]; rewrite R; cbn [bind]; [exact I|].
  change (rd_deref ops s1 l) with l. change (rd_fuel ops s1) with (S (rem s1)).
  assert (forall sig, goodS s (gpgsig_loop ops (S (rem s1)) sig s1)) as G.
  { intros sig. destruct (gpgsig_loop_good (S (rem s1)) sig s1) as [G _]; [lia|].
    unfold goodS in *. destruct (gpgsig_loop _ _ _ _) as [[? ?]| | |]; auto.
    eapply after_trans; [|exact G]. split; [lia|assumption]. }
  destruct (negb (beqb l (bs " "))); [|apply G].
  destruct (_ || _); [apply G|exact I].
Qed.

Definition good3 {A C} (s : stream) (r : res (A * C * stream)) : Prop :=
  match r with
  | Ok (_, _, s') => after s s'
  | Err _ => True
  | Panic | OutOfFuel => False
  end.

Lemma mergetag_msg_good : forall f msg s, rem s < f ->
  good3 s (mergetag_msg_loop ops f msg s) /\
  forall f', rem s < f' -> mergetag_msg_loop ops f' msg s = mergetag_msg_loop ops f msg s.
Proof.
  induction f as [|f IH]; intros msg s L; [lia|].
  cbn [mergetag_msg_loop]. change (rd_line ops) with (stream_line B).
  destruct (stream_line_cases B s HB) as [[E R]|(l & s1 & R & E1 & L1)].
  - rewrite R. cbn. split; auto. intros [|f1] Lf'; [lia|].
    cbn [mergetag_msg_loop]. change (rd_line ops) with (stream_line B). now rewrite R.
  - rewrite R. cbn [bind]. change (rd_deref ops s1 l) with l.
    assert (forall f', rem s < f' -> mergetag_msg_loop ops f' msg s =
      if negb (has_prefix (bs " ") l) then Ok (msg, l, s1)
      else mergetag_msg_loop ops (pred f') (msg ++ l ++ [NL]) s1) as U.
    { intros [|f1] Lf'; [lia|]. cbn [mergetag_msg_loop pred].
      change (rd_line ops) with (stream_line B). now rewrite R. }
    destruct (negb (has_prefix (bs " ") l)) eqn:EQ.
    + split; [split; [lia|assumption]|]. intros f' Lf'. rewrite U by assumption. reflexivity.
    + destruct (IH (msg ++ l ++ [NL]) s1) as [G F]; [lia|]. split.
      * unfold good3 in *. destruct (mergetag_msg_loop ops f (msg ++ l ++ [NL]) s1) as [[[? ?] ?]| | |]; auto.
        eapply after_trans; [|exact G]. split; [lia|assumption].
      * intros f' Lf'. rewrite U by assumption. apply F. lia.
Qed.

(** One header line of a merge tag: what it does, apart from the final one. *)
Definition mergetag_header (out : tag) (line : bytes) : res tag :=
  if has_prefix (bs " type ") line then
    let* x := go_from 6 line in
    Ok {| t_object := t_object out; t_type := x; t_tag := t_tag out;
          t_tagger := t_tagger out; t_message := t_message out |}
  else if has_prefix (bs " tag ") line then
    let* x := go_from 5 line in
    Ok {| t_object := t_object out; t_type := t_type out; t_tag := x;
          t_tagger := t_tagger out; t_message := t_message out |}
  else if has_prefix (bs " tagger ") line then
    let* x := go_from 1 line in
    let* p := parse_person x in
    Ok {| t_object := t_object out; t_type := t_type out; t_tag := t_tag out;
          t_tagger := p; t_message := t_message out |}
  else Ok out.

Lemma mergetag_header_safe out line : safe (mergetag_header out line).
Proof.
  unfold mergetag_header.
  destruct (has_prefix (bs " type ") line) eqn:H1.
  { destruct (go_from_prefix _ _ 6 H1 eq_refl) as (r & _ & ->). exact I. }
  destruct (has_prefix (bs " tag ") line) eqn:H2.
  { destruct (go_from_prefix _ _ 5 H2 eq_refl) as (r & _ & ->). exact I. }
  destruct (has_prefix (bs " tagger ") line) eqn:H3; [|exact I].
  apply has_prefix_spec in H3 as [r ->]. cbn [bs]. change (go_from 1 (bs " tagger " ++ r)) with (Ok (bs "tagger " ++ r)).
  cbn [bind]. apply safe_bind; [apply parse_person_safe|]. intros; exact I.
Qed.

Lemma mergetag_blank_line line : beqb line (bs " ") = true -> forall out, mergetag_header out line = Ok out.
Proof. destruct (beqb_spec line (bs " ")) as [->|]; [|discriminate]. reflexivity. Qed.

(** The loop, without its repetitions. *)
Lemma mergetag_loop_unfold f out s :
  mergetag_loop ops (S f) out s =
  let* (line, e, s1) := stream_line B s in
  match e with
  | Some e => if is_eof e then Ok (out, None, s1) else Err e
  | None =>
      if beqb line (bs " ") then
        let* (msg, rest, s2) := mergetag_msg_loop ops (S (rem s1)) [] s1 in
        Ok ({| t_object := t_object out; t_type := t_type out; t_tag := t_tag out;
               t_tagger := t_tagger out; t_message := msg |}, Some rest, s2)
      else
        let* out' := mergetag_header out line in mergetag_loop ops f out' s1
  end.
Proof.
  cbn [mergetag_loop]. change (rd_line ops) with (stream_line B).
  destruct (stream_line B s) as [[[line e] s1]| | |]; cbn [bind]; auto.
  destruct e; [reflexivity|]. change (rd_deref ops s1 line) with line.
  destruct (beqb_spec line (bs " ")) as [->|N].
  - reflexivity.
  - unfold mergetag_header.
    destruct (has_prefix (bs " type ") line); [destruct (go_from 6 line); reflexivity|].
    destruct (has_prefix (bs " tag ") line); [destruct (go_from 5 line); reflexivity|].
    destruct (has_prefix (bs " tagger ") line).
    + destruct (go_from 1 line) as [x| | |]; cbn [bind]; auto. destruct (parse_person x); reflexivity.
    + reflexivity.
Qed.

Lemma mergetag_loop_good : forall f out s, rem s < f ->
  good3 s (mergetag_loop ops f out s) /\
  forall f', rem s < f' -> mergetag_loop ops f' out s = mergetag_loop ops f out s.
Proof.
  induction f as [|f IH]; intros out s L; [lia|].
  rewrite mergetag_loop_unfold.
  destruct (stream_line_cases B s HB) as [[E R]|(l & s1 & R & E1 & L1)].
  - rewrite R. cbn [bind]. split; [destruct (is_eof (st_err s)); [apply after_refl|exact I]|].
    intros [|f1] Lf'; [lia|]. rewrite mergetag_loop_unfold, R. reflexivity.
  - rewrite R. cbn [bind]. destruct (beqb l (bs " ")) eqn:EQ.
    + split.
      * destruct (mergetag_msg_good (S (rem s1)) [] s1) as [G _]; [lia|].
        destruct (mergetag_msg_loop _ _ _ _) as [[[msg rest] s2]| | |]; cbn in *; auto.
        eapply after_trans; [|exact G]. split; [lia|assumption].
      * intros [|f1] Lf'; [lia|]. rewrite mergetag_loop_unfold, R. cbn [bind]. now rewrite EQ.
    + pose proof (mergetag_header_safe out l) as Sf.
      destruct (mergetag_header out l) as [out'| | |] eqn:MH; try contradiction Sf; cbn [bind].
      2:{ split; [exact I|]. intros [|f1] Lf'; [lia|]. rewrite mergetag_loop_unfold, R. cbn [bind]. now rewrite EQ, MH. }
      destruct (IH out' s1) as [G F]; [lia|]. split.
      * unfold good3 in *. destruct (mergetag_loop ops f out' s1) as [[[? ?] ?]| | |]; auto.
        eapply after_trans; [|exact G]. split; [lia|assumption].
      * intros [|f1] Lf'; [lia|]. rewrite mergetag_loop_unfold, R. cbn [bind]. rewrite EQ, MH. cbn [bind].
        apply F. lia.
Qed.

Lemma read_merge_tag_good h s : good3 s (read_merge_tag ops h s).
Proof.
  unfold read_merge_tag. pose proof (sha_to_cid_safe h).
  destruct (sha_to_cid h); cbn [bind]; try contradiction; [|exact I].
  change (rd_fuel ops s) with (S (rem s)). apply mergetag_loop_good. lia.
Qed.

Lemma commit_line_good : forall f c line s, rem s < f ->
  goodS s (commit_line ops f c line s) /\
  forall f', rem s < f' -> commit_line ops f' c line s = commit_line ops f c line s.
Proof.
  induction f as [|f IH]; intros c line s L; [lia|].
  assert (forall f', rem s < f' -> exists f1, f' = S f1 /\ rem s < S f1) as FF.
  { intros [|f1] ?; [lia|]. eauto. }
  destruct (has_prefix (bs "mergetag object ") line) eqn:HM.
  - (* the only recursive case *)
    destruct (go_from_prefix _ _ 16 HM eq_refl) as (h & -> & EG).
    assert (forall f1, commit_line ops (S f1) c (bs "mergetag object " ++ h) s =
      let* sha := hex_decode h in
      let* (mt, rest, s1) := read_merge_tag ops sha s in
        let c' := {| c_tree := c_tree c; c_parents := c_parents c; c_message := c_message c;
               c_author := c_author c; c_committer := c_committer c; c_encoding := c_encoding c;
               c_signature := c_signature c; c_mergetag := c_mergetag c ++ [mt]; c_other := c_other c |} in
        match rest with
        | Some v => commit_line ops f1 c' v s1
        | None => Ok (c', s1)
        end) as U.
    { intros f1. change (commit_line ops (S f1) c (bs "mergetag object " ++ h) s) with
        (let* h := go_from 16 (bs "mergetag object " ++ h) in
         let* sha := hex_decode h in
         let* (mt, rest, s1) := read_merge_tag ops sha s in
        let c' := {| c_tree := c_tree c; c_parents := c_parents c; c_message := c_message c;
               c_author := c_author c; c_committer := c_committer c; c_encoding := c_encoding c;
               c_signature := c_signature c; c_mergetag := c_mergetag c ++ [mt]; c_other := c_other c |} in
        match rest with
        | Some v => commit_line ops f1 c' v s1
        | None => Ok (c', s1)
        end). rewrite EG. reflexivity. }
    pose proof (hex_decode_safe h) as HS.
    destruct (hex_decode h) as [sha| | |] eqn:HD; try contradiction HS; cbn [bind] in U.
    2:{ rewrite U. split; [exact I|]. intros f' Lf'. destruct (FF f' Lf') as (f1 & -> & _). now rewrite U. }
    pose proof (read_merge_tag_good sha s) as RG.
    destruct (read_merge_tag ops sha s) as [[[mt rest] s1]| | |] eqn:RM; cbn [good3] in RG; try contradiction RG; cbn [bind] in U.
    2:{ rewrite U. split; [exact I|]. intros f' Lf'. destruct (FF f' Lf') as (f1 & -> & _). now rewrite U. }
    destruct rest as [v|].
    2:{ rewrite U. split; [exact RG|]. intros f' Lf'. destruct (FF f' Lf') as (f1 & -> & _). now rewrite U. }
    (* a rest line was read, so the stream is strictly shorter *)
    assert (rem s1 < rem s) as L1.
    { unfold read_merge_tag in RM. destruct (sha_to_cid sha); try discriminate. cbn [bind] in RM.
      change (rd_fuel ops s) with (S (rem s)) in RM.
      assert (forall f out s0 mt' v' s1', rem s0 < f -> mergetag_loop ops f out s0 = Ok (mt', Some v', s1') -> rem s1' < rem s0) as X.
      { clear - HB. induction f as [|f IH]; intros out s0 mt' v' s1' Lf; [lia|]. rewrite mergetag_loop_unfold.
        destruct (stream_line_cases B s0 HB) as [[E R]|(l & s2 & R & E1 & L1)]; rewrite R; cbn [bind].
        - destruct (is_eof (st_err s0)); discriminate.
        - destruct (beqb l (bs " ")).
          + destruct (mergetag_msg_good (S (rem s2)) [] s2) as [G _]; [lia|].
            destruct (mergetag_msg_loop _ _ _ _) as [[[msg rest] s3]| | |]; cbn in *; try discriminate.
            intros Q; injection Q as <- <- <-. destruct G; lia.
          + destruct (mergetag_header out l); cbn [bind]; try discriminate.
            intros Q. apply IH in Q; lia. }
      eapply X; [|exact RM]; lia. }
    rewrite U. match goal with |- context [commit_line ops f ?c' v s1] => destruct (IH c' v s1) as [G F]; [lia|] end. split.
    + unfold goodS in *. destruct (commit_line ops f _ v s1) as [[? ?]| | |]; auto.
      eapply after_trans; [exact RG|exact G].
    + intros f' Lf'. destruct (FF f' Lf') as (f1 & -> & Lf1). rewrite U. apply F. lia.
  - cbn [commit_line]. change (rd_deref ops s line) with line. rewrite HM.
    split; [|intros f' Lf'; destruct (FF f' Lf') as (f1 & -> & _); cbn [commit_line]; change (rd_deref ops s line) with line; rewrite HM; reflexivity].
    destruct (has_prefix (bs "tree ") line) eqn:H1.
    { destruct (go_from_prefix _ _ 5 H1 eq_refl) as (r & _ & ->). cbn [bind].
      pose proof (hex_decode_safe r). destruct (hex_decode r) as [sha| | |]; cbn [bind]; try contradiction; [|exact I].
      pose proof (sha_to_cid_safe sha). destruct (sha_to_cid sha); cbn; try contradiction; auto using after_refl. }
    destruct (has_prefix (bs "parent ") line) eqn:H2.
    { destruct (go_from_prefix _ _ 7 H2 eq_refl) as (r & _ & ->). cbn [bind].
      pose proof (hex_decode_safe r). destruct (hex_decode r) as [sha| | |]; cbn [bind]; try contradiction; [|exact I].
      pose proof (sha_to_cid_safe sha). destruct (sha_to_cid sha); cbn; try contradiction; auto using after_refl. }
    destruct (has_prefix (bs "author ") line) eqn:H3.
    { pose proof (parse_person_safe line). destruct (parse_person line); cbn; try contradiction; auto using after_refl. }
    destruct (has_prefix (bs "committer ") line) eqn:H4.
    { pose proof (parse_person_safe line). destruct (parse_person line); cbn; try contradiction; auto using after_refl. }
    destruct (has_prefix (bs "encoding ") line) eqn:H5.
    { destruct (go_from_prefix _ _ 9 H5 eq_refl) as (r & _ & ->). cbn. apply after_refl. }
    destruct (has_prefix (bs "gpgsig ") line) eqn:H6.
    { pose proof (decode_gpgsig_good s) as G. destruct (decode_gpgsig ops s) as [[sig s1]| | |]; cbn in *; auto. }
    destruct (length line =? 0).
    { cbn. destruct (eof_ok (st_err s)); cbn; auto. split; cbn; auto. lia. }
    cbn. apply after_refl.
Qed.

(** Fuel-free forms. *)
Definition commit_step (c : commit) (line : bytes) (s : stream) := commit_line ops (S (rem s)) c line s.

Lemma commit_loop_good : forall f c s, rem s < f ->
  safe (commit_loop ops f c s) /\
  forall f', rem s < f' -> commit_loop ops f' c s = commit_loop ops f c s.
Proof.
  induction f as [|f IH]; intros c s L; [lia|].
  cbn [commit_loop]. change (rd_line ops) with (stream_line B).
  destruct (stream_line_cases B s HB) as [[E R]|(l & s1 & R & E1 & L1)].
  - rewrite R. cbn [bind]. split; [destruct (is_eof (st_err s)); exact I|].
    intros [|f1] Lf'; [lia|]. cbn [commit_loop]. change (rd_line ops) with (stream_line B). now rewrite R.
  - rewrite R. cbn [bind]. change (rd_deref ops s1 l) with l. change (rd_fuel ops s1) with (S (rem s1)).
    destruct (commit_line_good (S (rem s1)) c l s1) as [G _]; [lia|].
    destruct (commit_line ops (S (rem s1)) c l s1) as [[c' s2]| | |] eqn:CL; cbn [goodS] in G; try contradiction G; cbn [bind].
    2:{ split; [exact I|]. intros [|f1] Lf'; [lia|]. cbn [commit_loop]. change (rd_line ops) with (stream_line B).
        rewrite R. cbn [bind]. change (rd_deref ops s1 l) with l. change (rd_fuel ops s1) with (S (rem s1)). now rewrite CL. }
    destruct G as [G1 G2]. destruct (IH c' s2) as [Sf F]; [lia|]. split; auto.
    intros [|f1] Lf'; [lia|]. cbn [commit_loop]. change (rd_line ops) with (stream_line B).
    rewrite R. cbn [bind]. change (rd_deref ops s1 l) with l. change (rd_fuel ops s1) with (S (rem s1)). rewrite CL. cbn [bind].
    apply F. lia.
Qed.

Definition commit_run (c : commit) (s : stream) := commit_loop ops (S (rem s)) c s.

Lemma commit_run_line c s l s1 : stream_line B s = Ok (l, None, s1) -> rem s1 < rem s ->
  commit_run c s = let* (c', s2) := commit_step c l s1 in commit_run c' s2.
Proof.
  intros R L1. unfold commit_run at 1. cbn [commit_loop]. change (rd_line ops) with (stream_line B).
  rewrite R. cbn [bind]. change (rd_deref ops s1 l) with l. change (rd_fuel ops s1) with (S (rem s1)).
  fold (commit_step c l s1).
  destruct (commit_line_good (S (rem s1)) c l s1) as [G _]; [lia|]. fold (commit_step c l s1) in G.
  destruct (commit_step c l s1) as [[c' s2]| | |]; cbn [bind]; auto.
  cbn [goodS] in G. destruct G as [G1 G2]. apply commit_loop_good; lia.
Qed.

Lemma commit_run_end c e : commit_run c (mk [] e) = if is_eof e then Ok c else Err e.
Proof. reflexivity. Qed.

(** ** Tags *)

(** What one header line of a tag does (tag.go:37-69, without the blank line). *)
Definition tag_header (out : tag) (line : bytes) : res (tag * list bytes) :=
  if has_prefix (bs "object ") line then
    let* h := go_from 7 line in
    let* sha := hex_decode h in
    let* c := sha_to_cid sha in
    Ok ({| t_object := LCid c; t_type := t_type out; t_tag := t_tag out;
          t_tagger := t_tagger out; t_message := t_message out |}, [])
  else if has_prefix (bs "tag ") line then
    let* x := go_from 4 line in
    Ok ({| t_object := t_object out; t_type := t_type out; t_tag := x;
          t_tagger := t_tagger out; t_message := t_message out |}, [])
  else if has_prefix (bs "tagger ") line then
    let* p := parse_person line in
    Ok ({| t_object := t_object out; t_type := t_type out; t_tag := t_tag out;
          t_tagger := p; t_message := t_message out |}, [])
  else if has_prefix (bs "type ") line then
    let* x := go_from 5 line in
    Ok ({| t_object := t_object out; t_type := x; t_tag := t_tag out;
          t_tagger := t_tagger out; t_message := t_message out |}, [])
  else Ok (out, [line]).

Lemma tag_header_safe out line : safe (tag_header out line).
Proof.
  unfold tag_header.
  destruct (has_prefix (bs "object ") line) eqn:H1.
  { destruct (go_from_prefix _ _ 7 H1 eq_refl) as (r & _ & ->). cbn [bind].
    apply safe_bind; [apply hex_decode_safe|]. intros sha _.
    apply safe_bind; [apply sha_to_cid_safe|]. intros; exact I. }
  destruct (has_prefix (bs "tag ") line) eqn:H2.
  { destruct (go_from_prefix _ _ 4 H2 eq_refl) as (r & _ & ->). exact I. }
  destruct (has_prefix (bs "tagger ") line) eqn:H3.
  { apply safe_bind; [apply parse_person_safe|]. intros; exact I. }
  destruct (has_prefix (bs "type ") line) eqn:H4; [|exact I].
  destruct (go_from_prefix _ _ 5 H4 eq_refl) as (r & _ & ->). exact I.
Qed.

Lemma tag_loop_unfold f out pr s :
  tag_loop ops (S f) out pr s =
  let* (line, e, s1) := stream_line B s in
  match e with
  | Some e => if is_eof e then Ok (out, pr) else Err e
  | None =>
      match line with
      | [] =>
          match eof_ok (st_err s1) with
          | Some e => Err e
          | None => tag_loop ops f {| t_object := t_object out; t_type := t_type out; t_tag := t_tag out;
                       t_tagger := t_tagger out; t_message := st_data s1 |} pr (mk [] (st_err s1))
          end
      | _ => let* (out', p) := tag_header out line in tag_loop ops f out' (pr ++ p) s1
      end
  end.
Proof.
  cbn [tag_loop]. change (rd_line ops) with (stream_line B).
  destruct (stream_line B s) as [[[line e] s1]| | |]; cbn [bind]; auto.
  destruct e; [reflexivity|]. change (rd_deref ops s1 line) with line.
  destruct line as [|x line]; [reflexivity|]. set (ln := x :: line).
  unfold tag_header.
  destruct (has_prefix (bs "object ") ln).
  { destruct (go_from 7 ln) as [h| | |]; cbn [bind]; auto. destruct (hex_decode h) as [sha| | |]; cbn [bind]; auto.
    destruct (sha_to_cid sha) as [c| | |]; cbn [bind]; auto. now rewrite app_nil_r. }
  destruct (has_prefix (bs "tag ") ln); [destruct (go_from 4 ln); cbn [bind]; auto; now rewrite app_nil_r|].
  destruct (has_prefix (bs "tagger ") ln); [destruct (parse_person ln); cbn [bind]; auto; now rewrite app_nil_r|].
  destruct (has_prefix (bs "type ") ln); [destruct (go_from 5 ln); cbn [bind]; auto; now rewrite app_nil_r|].
  reflexivity.
Qed.

Lemma tag_loop_good : forall f out pr s, rem s < f ->
  safe (tag_loop ops f out pr s) /\
  forall f', rem s < f' -> tag_loop ops f' out pr s = tag_loop ops f out pr s.
Proof.
  induction f as [|f IH]; intros out pr s L; [lia|].
  rewrite tag_loop_unfold.
  destruct (stream_line_cases B s HB) as [[E R]|(l & s1 & R & E1 & L1)].
  - rewrite R. cbn [bind]. split; [destruct (is_eof (st_err s)); exact I|].
    intros [|f1] Lf'; [lia|]. rewrite tag_loop_unfold, R. reflexivity.
  - assert (forall f', rem s < f' -> exists f1, f' = S f1 /\ rem s < S f1) as FF.
    { intros [|f1] ?; [lia|]. eauto. }
    rewrite R. cbn [bind]. destruct l as [|x l].
    + destruct (eof_ok (st_err s1)) eqn:EO.
      * split; [exact I|]. intros f' Lf'. destruct (FF f' Lf') as (f1 & -> & _).
        rewrite tag_loop_unfold, R. cbn [bind]. now rewrite EO.
      * match goal with |- safe (tag_loop ops f ?o pr ?s2) /\ _ => destruct (IH o pr s2) as [Sf F]; [cbn; lia|] end.
        split; auto. intros f' Lf'. destruct (FF f' Lf') as (f1 & -> & Lf1).
        rewrite tag_loop_unfold, R. cbn [bind]. rewrite EO. apply F. cbn; lia.
    + set (ln := x :: l) in *. pose proof (tag_header_safe out ln) as Sf.
      destruct (tag_header out ln) as [[o p]| | |] eqn:TH; try contradiction Sf; cbn [bind].
      2:{ split; [exact I|]. intros f' Lf'. destruct (FF f' Lf') as (f1 & -> & _).
          rewrite tag_loop_unfold, R. cbn [bind]. subst ln. cbn iota. now rewrite TH. }
      destruct (IH o (pr ++ p) s1) as [S2 F]; [lia|]. split; auto.
      intros f' Lf'. destruct (FF f' Lf') as (f1 & -> & Lf1).
      rewrite tag_loop_unfold, R. cbn [bind]. subst ln. cbn iota. rewrite TH. cbn [bind]. apply F; lia.
Qed.

Definition tag_run (out : tag) (pr : list bytes) (s : stream) := tag_loop ops (S (rem s)) out pr s.

Lemma tag_run_line out pr s x l s1 : stream_line B s = Ok (x :: l, None, s1) -> rem s1 < rem s ->
  tag_run out pr s = let* (out', p) := tag_header out (x :: l) in tag_run out' (pr ++ p) s1.
Proof.
  intros R L1. unfold tag_run at 1. rewrite tag_loop_unfold, R. cbn [bind].
  destruct (tag_header out (x :: l)) as [[o p]| | |]; cbn [bind]; auto. apply tag_loop_good; lia.
Qed.

Lemma tag_run_blank out pr s s1 : stream_line B s = Ok ([], None, s1) -> st_err s1 = EEOF -> rem s1 < rem s ->
  tag_run out pr s = Ok ({| t_object := t_object out; t_type := t_type out; t_tag := t_tag out;
                       t_tagger := t_tagger out; t_message := st_data s1 |}, pr).
Proof.
  intros R E L1. unfold tag_run at 1. rewrite tag_loop_unfold, R. cbn [bind]. rewrite E. cbn [eof_ok is_eof].
  destruct (rem s); [lia|]. rewrite tag_loop_unfold. reflexivity.
Qed.

Lemma tag_run_end out pr e : tag_run out pr (mk [] e) = if is_eof e then Ok (out, pr) else Err e.
Proof. reflexivity. Qed.

(** ** Trees *)

Definition good_entry (s : stream) (r : res (bytes * entry * stream)) : Prop :=
  match r with
  | Ok (_, _, s') => length (st_data s') < rem s /\ st_err s' = st_err s
  | Err _ => True
  | Panic | OutOfFuel => False
  end.

Lemma decode_tree_entry_good s : good_entry s (decode_tree_entry ops s).
Proof.
  unfold decode_tree_entry. change (rd_string ops) with stream_string. change (rd_full ops) with stream_full.
  destruct (stream_string_cases SP s) as [(l & r & H & E & ->)|[H ->]]; cbn [bind]; [|exact I].
  rewrite go_drop_last_snoc. cbn [bind].
  destruct (stream_string_cases NUL (mk r (st_err s))) as [(l2 & r2 & H2 & E2 & ->)|[H2 ->]]; cbn [bind]; [|exact I].
  rewrite go_drop_last_snoc. cbn [bind]. cbn [mk st_data st_err] in *. unfold stream_full; cbn [st_data st_err mk].
  destruct (Nat.leb_spec 20 (length r2)).
  - cbn [bind]. rewrite sha_to_cid_ok by (rewrite firstn_length; lia). cbn [bind good_entry mk st_data st_err].
    split; auto. rewrite E, E2, skipn_length, !app_length. cbn [length]. rewrite app_length. cbn [length]. lia.
  - destruct r2; exact I.
Qed.

Lemma tree_insert_safe t n e : safe (tree_insert t n e).
Proof. unfold tree_insert. destruct (assoc n (tr_m t)); exact I. Qed.

Lemma tree_loop_good : forall f t s, rem s < f ->
  safe (tree_loop ops f t s) /\
  forall f', rem s < f' -> tree_loop ops f' t s = tree_loop ops f t s.
Proof.
  induction f as [|f IH]; intros t s L; [lia|].
  cbn [tree_loop]. pose proof (decode_tree_entry_good s) as G.
  destruct (decode_tree_entry ops s) as [[[n e] s1]|e| |] eqn:DE; cbn [good_entry] in G; try contradiction G.
  - destruct G as [G1 G2]. pose proof (tree_insert_safe t n e) as TS.
    destruct (tree_insert t n e) as [t'| | |] eqn:TI; try contradiction TS; cbn [bind].
    + destruct (IH t' s1) as [Sf F]; [lia|]. split; auto. intros [|f1] Lf'; [lia|].
      cbn [tree_loop]. rewrite DE, TI. cbn [bind]. apply F; lia.
    + split; [exact I|]. intros [|f1] Lf'; [lia|]. cbn [tree_loop]. now rewrite DE, TI.
  - split; [destruct e; exact I|]. intros [|f1] Lf'; [lia|]. cbn [tree_loop]. now rewrite DE.
Qed.

Definition tree_run (t : tree) (s : stream) := tree_loop ops (S (rem s)) t s.

Lemma tree_run_entry t s n e s1 : decode_tree_entry ops s = Ok (n, e, s1) ->
  tree_run t s = let* t' := tree_insert t n e in tree_run t' s1.
Proof.
  intros DE. pose proof (decode_tree_entry_good s) as G. rewrite DE in G. destruct G as [G1 G2].
  unfold tree_run at 1. cbn [tree_loop]. rewrite DE. destruct (tree_insert t n e); cbn [bind]; auto.
  apply tree_loop_good; lia.
Qed.

End B.
