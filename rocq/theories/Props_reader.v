(** C10 - C14, C28 (first half), C40: the decoders and the reader they read from. *)
From Verif Require Import Base GoStr Cid Types Nodes Reader Bufio Person Assemble Decode Encode Spec
  ReaderSpec StreamFacts PersonFacts DecodeFacts RoundTrip CommitFacts NumFacts Sim BufioFacts SafeOps SafeBufio NoEof
  Transfer Checks.

(** [pa], [pc]: the sizes of the reads of io.ReadAll and io.Copy, left open. *)

(** ** C10: decoding returns a node or an error, over every reader *)
Theorem decoding_never_panics : forall pa pc b,
  wf_reader b ->
  (exists n, parse_object (bufio_ops pa pc) b = Ok n) \/
  (exists e, parse_object (bufio_ops pa pc) b = Err e).
Proof.
  intros pa pc b H. pose proof (safe_parse_object _ _ _ (bufio_contract pa pc) b H) as S.
  destruct (parse_object (bufio_ops pa pc) b) as [n|e| |]; cbn in S; eauto; contradiction.
Qed.
Print Assumptions decoding_never_panics.

(** A fresh reader over any script of deliveries: failures in the middle, empty reads,
    bytes together with errors. *)
Theorem decoding_never_panics_fresh : forall B pa pc src,
  16 <= B -> honest src ->
  (exists n, parse_object (bufio_ops pa pc) (new_reader B src) = Ok n) \/
  (exists e, parse_object (bufio_ops pa pc) (new_reader B src) = Err e).
Proof. intros B pa pc src H1 H2. apply decoding_never_panics, wf_new; [lia|exact H2]. Qed.
Print Assumptions decoding_never_panics_fresh.

Example decoding_never_panics_applies :
  honest {| so_evs := [(bs "commit 5", Some (EOther 3)); ([], None); (bs "x" ++ [NUL] ++ bs "tree", Some EEOF)];
            so_term := EOther 9 |}.
Proof. split; [discriminate|]. cbn. intuition discriminate. Qed.

(** The condition on the source is needed: over a reader that reports
    bufio.ErrBufferFull as its own error, the loop that collects a signature never
    ends, whatever the number of rounds. *)
Lemma full_source_line B : 2 <= B ->
  let b := new_reader B {| so_evs := []; so_term := EBufferFull |} in
  read_line b = Ok ((0, 0), None, b).
Proof.
  intros HB b. unfold read_line, read_slice, b.
  destruct B as [|[|B]]; [lia|lia|]. cbn [b_buf new_reader]. rewrite repeat_length.
  cbn. destruct B; reflexivity.
Qed.

Theorem signature_loop_never_ends : forall pa pc B sig rounds,
  2 <= B ->
  gpgsig_loop (bufio_ops pa pc) rounds sig (new_reader B {| so_evs := []; so_term := EBufferFull |}) = OutOfFuel.
Proof.
  intros pa pc B sig f HB. revert sig. induction f as [|f IH]; intros sig; [reflexivity|].
  cbn [gpgsig_loop]. change (rd_line (bufio_ops pa pc)) with read_line. rewrite full_source_line by exact HB.
  cbn [bind]. change (rd_deref (bufio_ops pa pc) (new_reader B {| so_evs := []; so_term := EBufferFull |}) (0, 0)) with (@nil byte).
  change (beqb [] (bs " -----END PGP SIGNATURE-----")) with false. cbn iota. apply IH.
Qed.
Print Assumptions signature_loop_never_ends.

(** ** C11: the result depends on the bytes and the final error only *)
Theorem delivery_does_not_matter : forall B pa pc pa' pc' b b' data e,
  2 <= B ->
  delivers B true b (mk data e) -> delivers B true b' (mk data e) ->
  parse_object (bufio_ops pa pc) b = parse_object (bufio_ops pa' pc') b' /\
  forall k, decode_into (bufio_ops pa pc) k b = decode_into (bufio_ops pa' pc') k b'.
Proof.
  intros B pa pc pa' pc' b b' data e HB H H'. split.
  - rewrite (parse_transfer B HB pa pc _ _ H). symmetry. now apply parse_transfer.
  - intros k. rewrite (decode_into_transfer B HB pa pc k _ _ H). symmetry. now apply decode_into_transfer.
Qed.
Print Assumptions delivery_does_not_matter.

(** Two quite different readers of the same object. *)
Definition sample_blob : bytes := git_object (bs "blob") (bs "hello world").
Example delivery_does_not_matter_applies :
  delivers 64 true (new_reader 64 (chunks [sample_blob] EEOF)) (mk sample_blob EEOF) /\
  delivers 64 true
    (new_reader 64 {| so_evs := [(bs "bl", None); ([], None); (bs "ob 11", None); ([], None); ([NUL], None); (bs "hello world", Some EEOF)];
                      so_term := EEOF |})
    (mk sample_blob EEOF).
Proof.
  split; [apply one_chunk_delivers; discriminate|].
  match goal with |- delivers _ _ (new_reader _ ?src) _ => destruct (good_sourceb_ok src eq_refl) as [G J];
    exact (new_reader_delivers 64 true src G (fun _ => J)) end.
Qed.

(** What [delivers] excludes does change the result.  First: a line of exactly the
    buffer size that ends in a carriage return, with the EOF delivered together with
    the last bytes or on its own. *)
Definition cr_line : bytes := repeat x61 (N.to_nat 4095) ++ [CR].
Theorem eof_with_data_matters :
  let data := bs "commit 0" ++ [NUL] ++ cr_line in
  let alone := {| so_evs := [(data, None)]; so_term := EEOF |} in
  let joint := {| so_evs := [(data, Some EEOF)]; so_term := EEOF |} in
  let pol := fun _ _ : nat => N.to_nat 511 in
  parse_object (bufio_ops pol pol) (new_reader default_B alone) <>
  parse_object (bufio_ops pol pol) (new_reader default_B joint).
Proof.
  intros data alone joint pol E.
  assert (match parse_object (bufio_ops pol pol) (new_reader default_B alone) with
          | Ok (NCommit c) => length (c_other c) | _ => 0 end = 2) as E1 by (vm_compute; reflexivity).
  rewrite E in E1. vm_compute in E1. discriminate E1.
Qed.
Print Assumptions eof_with_data_matters.

(** Second: an error other than EOF that comes together with the last bytes of a blob
    larger than the buffer. *)
Theorem error_with_data_matters :
  let content := repeat x61 (N.to_nat 5000) in
  let head := bs "blob 5000" ++ [NUL] in
  let alone := {| so_evs := [(head, None); (content, None)]; so_term := EOther 7 |} in
  let joint := {| so_evs := [(head, None); (content, Some (EOther 7))]; so_term := EOther 7 |} in
  let pol := fun _ _ : nat => N.to_nat 8191 in
  (exists n, parse_object (bufio_ops pol pol) (new_reader default_B alone) = Ok n) /\
  parse_object (bufio_ops pol pol) (new_reader default_B joint) = Err (EOther 7).
Proof.
  intros content head alone joint pol. split.
  - pose proof (chunks_delivers default_B [head; content] (EOther 7)) as D.
    assert (exists r, parse_object (bufio_ops pol pol) (new_reader default_B alone) = r) as [r E] by eauto.
    rewrite E. assert (match r with Ok _ => true | _ => false end = true) as Q by (rewrite <- E; vm_compute; reflexivity).
    clear - Q. destruct r; [eexists; reflexivity|discriminate Q|discriminate Q|discriminate Q].
  - vm_compute. reflexivity.
Qed.
Print Assumptions error_with_data_matters.

(** Third: a hundred empty reads in a row. *)
Theorem hundred_empty_reads_matter :
  let src n := {| so_evs := (bs "blo", None) :: repeat ([], None) n ++ [(bs "b 1" ++ [NUL] ++ bs "x", None)]; so_term := EEOF |} in
  let pol := fun _ _ : nat => N.to_nat 511 in
  parse_object (bufio_ops pol pol) (new_reader default_B (src 99)) = Ok (NBlob (git_object (bs "blob") (bs "x"))) /\
  parse_object (bufio_ops pol pol) (new_reader default_B (src 100)) = Err ENoProgress.
Proof. split; vm_compute; reflexivity. Qed.
Print Assumptions hundred_empty_reads_matter.

(** ** C12: no header line is used after the buffer it lies in was overwritten

    The same reader, except that ReadLine hands out a fresh copy of the line. *)
Definition copying_ops (pa pc : nat -> nat -> nat) : rdops bufrd bytes := {|
  rd_string := read_string;
  rd_line := fun b => let* (v, e, b1) := read_line b in Ok (deref b1 v, e, b1);
  rd_deref := fun _ line => line;
  rd_all := rd_all (bufio_ops pa pc);
  rd_full := rd_full (bufio_ops pa pc);
  rd_copy := rd_copy (bufio_ops pa pc);
  rd_fuel := rd_fuel (bufio_ops pa pc)
|}.

Lemma copying_sim pa pc : sim_core (bufio_ops pa pc) (copying_ops pa pc) eq /\ sim_copy (bufio_ops pa pc) (copying_ops pa pc) eq.
Proof.
  assert (forall A (r : res (A * option err * bufrd)), rel_res (rel_data eq) r r) as RR.
  { intros A [[[x e] b]| | |]; cbn; auto. repeat split. }
  split; [split|].
  - intros d b ? <-. apply RR.
  - intros b ? <-. cbn [rd_line copying_ops bufio_ops]. destruct (read_line b) as [[[v e] b1]| | |]; cbn; auto. repeat split.
  - intros b ? <-. apply RR.
  - intros n b ? <-. apply RR.
  - intros b ? <-. reflexivity.
  - intros n b ? <-. apply RR.
Qed.

Theorem lines_are_used_in_time : forall pa pc b,
  parse_object (bufio_ops pa pc) b = parse_object (copying_ops pa pc) b /\
  forall k, decode_into (bufio_ops pa pc) k b = decode_into (copying_ops pa pc) k b.
Proof.
  intros pa pc b. destruct (copying_sim pa pc) as [H1 H2]. split.
  - eapply sim_parse_object; [exact H1|exact H2|reflexivity].
  - intros k. eapply sim_decode_into; [exact H1|exact H2|reflexivity].
Qed.
Print Assumptions lines_are_used_in_time.

(** A line that was handed out does change when more is read. *)
Example lines_do_change :
  let b := new_reader 16 (chunks [bs "first line"; [NL]; bs "second line, long"; [NL]] EEOF) in
  exists v b1 v2 b2,
    read_line b = Ok (v, None, b1) /\ deref b1 v = bs "first line" /\
    read_line b1 = Ok (v2, None, b2) /\ deref b2 v = bs "second lin".
Proof.
  intros b. eexists _, _, _, _. split; [reflexivity|]. split; [reflexivity|]. split; reflexivity.
Qed.

(** ** C13: a reader that fails, or never ends with EOF, gives no tree, commit or tag *)
Definition never_says_eof (b : bufrd) : Prop :=
  b_err b <> Some EEOF /\ so_term (b_src b) <> EEOF /\ forall c, ~ In (c, Some EEOF) (so_evs (b_src b)).

Lemma never_says_eof_report b : never_says_eof b <-> ~ may_report b EEOF.
Proof.
  unfold never_says_eof, may_report, source_error. split.
  - intros (H1 & H2 & H3) [X|[[X|[c X]]|X]]; try congruence. exact (H3 c X).
  - intros H. split; [|split].
    + intros X. apply H. now left.
    + intros X. apply H. right; left; left. congruence.
    + intros c X. apply H. right; left; right. eauto.
Qed.

Lemma bufio_never_eof pa pc : never_eof (bufio_ops pa pc) (fun b => wf_reader b /\ ~ may_report b EEOF).
Proof.
  assert (forall b b' x, step b b' x -> ~ may_report b EEOF -> ~ may_report b' EEOF) as K.
  { intros b b' x S N M. apply N. now apply S. }
  split.
  - intros d b [H N]. cbn [rd_string bufio_ops]. unfold read_string.
    destruct (read_string_loop_any (S (S (remaining b))) d [] b H ltac:(lia)) as (x & e & b' & E & S & M & _).
    exists x, e, b'. split; [exact E|]. split; [split; [apply S|eapply K; eassumption]|]. intros ->. apply N, M. reflexivity.
  - intros b [H N]. destruct (read_line_any b H) as (v & e & b' & E & (x & S & _) & M).
    exists v, e, b'. split; [exact E|]. split; [split; [apply S|eapply K; eassumption]|]. intros ->. apply N, M. reflexivity.
  - intros b [H N]. cbn [rd_all bufio_ops].
    destruct (read_all_loop_any pa (rounds b) 0 [] b H (weight_rounds b)) as (x & e & b' & E & S & _ & M).
    exists x, e, b'. split; [exact E|]. split; [split; [apply S|eapply K; eassumption]|]. intros ->. apply N, M. reflexivity.
  - intros n b [H N]. cbn [rd_full bufio_ops].
    destruct (read_full_loop_any (rounds b) n [] b H (weight_rounds b)) as (x & e & b' & E & S & _ & M).
    exists x, e, b'. split; [exact E|]. split; [split; [apply S|eapply K; eassumption]|]. intros ->.
    destruct (M EEOF eq_refl) as [?|[? ?]]; [auto|discriminate].
Qed.

(** Reading a blob: success means the whole declared body was delivered. *)
Lemma blob_read_whole pa pc k b n b' : wf_reader b -> decode_blob (bufio_ops pa pc) k b = Ok (n, b') ->
  exists size content,
    pending b = size ++ [NUL] ++ content ++ pending b' /\ ~ In NUL size /\
    numeral size (Z.of_nat (length content)) /\
    build_bytes k (git_object (bs "blob") content) = Ok n.
Proof.
  intros H E. unfold decode_blob in E. apply bind_ok in E as ([z b1] & E1 & E).
  unfold read_number in E1. apply bind_ok in E1 as ([[x e] b2] & E0 & E1).
  cbn [rd_string bufio_ops] in E0. unfold read_string in E0.
  destruct (read_string_loop_any (S (S (remaining b))) NUL [] b H ltac:(lia)) as (x' & e' & b2' & R & S & M & Nn).
  rewrite R in E0. cbn [app] in E0. injection E0 as -> -> ->. destruct e as [e|]; [discriminate|].
  destruct Nn as (l & -> & Nl). rewrite go_drop_last_snoc in E1. cbn [bind] in E1.
  apply bind_ok in E1 as (z' & A & E1). injection E1 as -> ->.
  destruct (Z.ltb_spec z 0); [discriminate|]. apply bind_ok in E as ([[body e] b3] & E3 & E).
  cbn [rd_copy bufio_ops] in E3.
  destruct (copy_loop_any pc (rounds b1) 0 z [] b1 (proj1 S) (weight_rounds b1)) as (y & e3 & b3' & R3 & S3 & _).
  rewrite R3 in E3. cbn [app] in E3. injection E3 as -> -> ->. destruct e as [e|]; [discriminate|].
  destruct (Z.eqb_spec (Z.of_nat (length body)) z) as [Ez|]; cbn [negb] in E; [|destruct (length body =? 0); discriminate].
  apply bind_ok in E as (n' & EB & E). injection E as -> ->.
  exists l, body. split; [|split; [exact Nl|]].
  - destruct S as (_ & _ & -> & _). destruct S3 as (_ & _ & -> & _). rewrite <- app_assoc. reflexivity.
  - rewrite Ez. split; [now apply atoi_iff in A as [A _]|]. rewrite <- EB. f_equal. unfold git_object.
    unfold dec_Z. destruct (Z.ltb_spec z 0); [lia|]. subst z. rewrite <- nat_N_Z, N2Z.id. lnorm. reflexivity.
Qed.

(** [delivered b]: the bytes in the buffer, then those of the source. *)
Definition delivered (b : bufrd) : bytes := window b ++ concat (map fst (so_evs (b_src b))).

Theorem failures_are_reported : forall pa pc b n,
  wf_reader b -> never_says_eof b ->
  parse_object (bufio_ops pa pc) b = Ok n ->
  exists size content rest,
    delivered b = bs "blob " ++ size ++ [NUL] ++ content ++ rest /\
    numeral size (Z.of_nat (length content)) /\
    n = NBlob (git_object (bs "blob") content).
Proof.
  intros pa pc b n H NE E. change (delivered b) with (pending b). apply never_says_eof_report in NE.
  unfold parse_object in E. apply bind_ok in E as ([w b1] & E1 & E).
  unfold read_type in E1. apply bind_ok in E1 as ([[x e] b2] & E0 & E1).
  cbn [rd_string bufio_ops] in E0. unfold read_string in E0.
  destruct (read_string_loop_any (S (S (remaining b))) SP [] b H ltac:(lia)) as (x' & e' & b2' & R & S & M & Nn).
  rewrite R in E0. cbn [app] in E0. injection E0 as -> -> ->. destruct e as [e|]; [destruct (is_eof e); discriminate|].
  destruct Nn as (l & -> & Nl). rewrite go_drop_last_snoc in E1. cbn [bind] in E1. injection E1 as -> ->.
  assert (wf_reader b1 /\ ~ may_report b1 EEOF) as HI.
  { split; [apply S|]. intros Q. apply NE. now apply S. }
  pose proof (bufio_never_eof pa pc) as C.
  destruct (beqb_spec w (bs "tree")); [now apply (ne_decode_tree _ _ C) in E|].
  destruct (beqb_spec w (bs "commit")); [now apply (ne_decode_commit _ _ C) in E|].
  destruct (beqb_spec w (bs "blob")) as [->|].
  2:{ destruct (beqb_spec w (bs "tag")); [now apply (ne_decode_tag _ _ C) in E|discriminate]. }
  apply bind_ok in E as ([n' b3] & E & En). cbn in En. injection En as ->.
  destruct (blob_read_whole pa pc BBlob b1 n b3 (proj1 HI) E) as (size & content & P & _ & Q & B0).
  exists size, content, (pending b3). split; [|split; [exact Q|]].
  - destruct S as (_ & _ & -> & _). rewrite P. reflexivity.
  - unfold build_bytes in B0. now injection B0.
Qed.
Print Assumptions failures_are_reported.

Example failures_are_reported_applies :
  let b := new_reader 64 {| so_evs := [(bs "tree 0", None); ([NUL], None)]; so_term := EOther 5 |} in
  wf_reader b /\ never_says_eof b /\
  parse_object (bufio_ops (fun _ _ => 511) (fun _ _ => 511)) b = Err (EOther 5).
Proof.
  split; [apply wf_new; [lia|]; split; [discriminate|cbn; intuition discriminate]|].
  split; [split; [discriminate|]; split; [discriminate|cbn; intuition discriminate]|]. vm_compute. reflexivity.
Qed.

(** ** C14: a failure that is not repeated can be lost

    The reader fails after "other he"; the decoder takes what came before the failure
    for a line of its own and carries on. *)
Theorem temporary_failure_can_be_lost :
  let src := {| so_evs := [(bs "commit 0" ++ [NUL] ++ bs "other he", Some (EOther 5)); (bs "ader" ++ [NL], None)];
                so_term := EEOF |} in
  let b := new_reader default_B src in
  wf_reader b /\
  exists c, parse_object (bufio_ops (fun _ _ => 511) (fun _ _ => 511)) b = Ok (NCommit c) /\
            c_other c = [bs "other he"; bs "ader"].
Proof.
  intros src b. split; [apply wf_new; [unfold default_B; lia|]; split; [discriminate|cbn; intuition discriminate]|].
  eexists. split; [vm_compute; reflexivity|]. reflexivity.
Qed.
Print Assumptions temporary_failure_can_be_lost.

(** ** C28, first half: the buffer size does not matter if lines are shorter *)
Definition lines_shorter (B : nat) (data : bytes) : Prop :=
  forall pre l post, data = pre ++ l ++ post -> ~ In NL l -> length l < B.

Lemma lines_shorter_suffix B p d : lines_shorter B (p ++ d) -> lines_shorter B d.
Proof. intros H pre l post ->. apply (H (p ++ pre) l post). now rewrite <- app_assoc. Qed.

Lemma short_line B B' d e : lines_shorter B d -> lines_shorter B' d ->
  stream_line B (mk d e) = stream_line B' (mk d e) /\
  (forall v e' s, stream_line B (mk d e) = Ok (v, e', s) -> exists p, d = p ++ st_data s).
Proof.
  intros H H'. destruct d as [|x d0]; [split; [reflexivity|]|].
  { intros v e' s E. cbn in E. injection E as <- <- <-. exists []. reflexivity. }
  set (d := x :: d0) in *. destruct (cut NL d) as [[l r]|] eqn:Ec.
  - apply cut_some in Ec as (l' & -> & E & N). rewrite E in *.
    assert (length l' < B) as L by (apply (H [] l' (NL :: r)); auto).
    assert (length l' < B') as L' by (apply (H' [] l' (NL :: r)); auto).
    rewrite !stream_line_full by assumption. split; [reflexivity|]. intros v e' s X. injection X as _ _ <-.
    exists (l' ++ [NL]). cbn. now rewrite <- app_assoc.
  - apply cut_none_inv in Ec.
    assert (length d < B) as L by (apply (H [] d []); [now rewrite app_nil_r|assumption]).
    assert (length d < B') as L' by (apply (H' [] d []); [now rewrite app_nil_r|assumption]).
    rewrite !stream_line_last by (auto; discriminate). split; [reflexivity|]. intros v e' s X. injection X as _ _ <-.
    exists d. cbn [mk st_data]. now rewrite app_nil_r.
Qed.

Lemma sizes_sim B B' :
  let R s s' := s = s' /\ lines_shorter B (st_data s) /\ lines_shorter B' (st_data s) in
  sim_core (stream_ops B) (stream_ops B') R /\ sim_copy (stream_ops B) (stream_ops B') R.
Proof.
  intros R.
  assert (forall d s, exists x e p s', stream_string d s = Ok (x, e, s') /\ st_data s = p ++ st_data s') as S1.
  { intros d s. unfold stream_string. destruct (cut d (st_data s)) as [[l r]|] eqn:Ec.
    - apply cut_some in Ec as (l' & -> & E & N). do 4 eexists. split; [reflexivity|]. rewrite E. cbn. rewrite <- (app_assoc l' [d]). reflexivity.
    - do 4 eexists. split; [reflexivity|]. cbn. symmetry. apply app_nil_r. }
  split; [split|].
  - intros d s ? HR. destruct HR as [<- [H H']]. cbn [rd_string stream_ops].
    destruct (S1 d s) as (x & e & p & s' & -> & E). rewrite E in *. cbn. repeat split; eapply lines_shorter_suffix; eassumption.
  - intros s ? HR. destruct HR as [<- [H H']]. cbn [rd_line stream_ops]. destruct s as [d e].
    destruct (short_line B B' d e H H') as [E F].
    change {| st_data := d; st_err := e |} with (mk d e). rewrite <- E.
    destruct (stream_line B (mk d e)) as [[[v e'] s']| | |]; cbn; auto.
    destruct (F _ _ _ eq_refl) as [p Ep]. cbn in H, H'. rewrite Ep in *. repeat split; eapply lines_shorter_suffix; eassumption.
  - intros s ? HR. destruct HR as [<- [H H']]. cbn [rd_all stream_ops]. unfold stream_all. cbn. repeat split.
    + apply (lines_shorter_suffix B (st_data s)). now rewrite app_nil_r.
    + apply (lines_shorter_suffix B' (st_data s)). now rewrite app_nil_r.
  - intros n s ? HR. destruct HR as [<- [H H']]. cbn [rd_full stream_ops]. unfold stream_full.
    destruct (n <=? length (st_data s)).
    + cbn. repeat split; apply (lines_shorter_suffix _ (firstn n (st_data s))); now rewrite firstn_skipn.
    + assert (forall C, lines_shorter C (st_data s) -> lines_shorter C []) as Z.
      { intros C Q. apply (lines_shorter_suffix C (st_data s)). now rewrite app_nil_r. }
      pose proof (Z _ H) as HZ. pose proof (Z _ H') as HZ'.
      destruct (st_data s) eqn:Ed; cbn; repeat split; cbn; rewrite ?Ed; assumption.
  - intros s ? [<- _]. reflexivity.
  - intros n s ? HR. destruct HR as [<- [H H']]. cbn [rd_copy stream_ops]. unfold stream_copy. cbn. repeat split.
    + destruct (Z.leb_spec n 0); [rewrite (dropZ_neg 2) by lia; assumption|]. rewrite dropZ_skipn by lia.
      apply (lines_shorter_suffix _ (firstn (Z.to_nat n) (st_data s))). now rewrite firstn_skipn.
    + destruct (Z.leb_spec n 0); [rewrite (dropZ_neg 2) by lia; assumption|]. rewrite dropZ_skipn by lia.
      apply (lines_shorter_suffix _ (firstn (Z.to_nat n) (st_data s))). now rewrite firstn_skipn.
Qed.

Theorem buffer_size_does_not_matter : forall B B' pa pc pa' pc' b b' data e,
  2 <= B -> 2 <= B' ->
  lines_shorter B data -> lines_shorter B' data ->
  delivers B true b (mk data e) -> delivers B' true b' (mk data e) ->
  parse_object (bufio_ops pa pc) b = parse_object (bufio_ops pa' pc') b'.
Proof.
  intros B B' pa pc pa' pc' b b' data e HB HB' L L' H H'.
  rewrite (parse_transfer B HB pa pc _ _ H), (parse_transfer B' HB' pa' pc' _ _ H').
  destruct (sizes_sim B B') as [S1 S2]. eapply sim_parse_object; [exact S1|exact S2|]. repeat split; assumption.
Qed.
Print Assumptions buffer_size_does_not_matter.

(** A long line is handed out in pieces of the buffer size. *)
Theorem long_line_is_cut : forall B J b piece rest e,
  2 <= B ->
  length piece = B -> ~ In NL piece -> ~ ends_with CR piece ->
  delivers B J b (mk (piece ++ rest) e) ->
  exists v b', read_line b = Ok (v, None, b') /\ deref b' v = piece /\ delivers B J b' (mk rest e).
Proof.
  intros B J b piece rest e HB L N NC H.
  pose proof (sim_bufio_line B HB J b _ H) as X.
  assert (stream_line B (mk (piece ++ rest) e) = Ok (piece, None, mk rest e)) as S.
  { unfold stream_line. cbn [mk st_data st_err]. destruct (piece ++ rest) as [|x d] eqn:Ed.
    { apply app_eq_nil in Ed as [-> _]. cbn in L. lia. }
    rewrite <- Ed. rewrite firstn_app_exact, skipn_app_exact by (now symmetry). rewrite cut_none by assumption.
    rewrite app_length. destruct (Nat.leb_spec B (length piece + length rest)); [|lia].
    assert (byte_eqb (last piece x00) CR = false) as ->; [|reflexivity].
    destruct (rev_case piece) as [->|(l & y & ->)]; [cbn in L; lia|]. rewrite last_app1. apply byte_eqb_neq.
    intros ->. apply NC. now exists l. }
  rewrite S in X. destruct (read_line b) as [[[v e'] b']| | |]; cbn in X; try contradiction.
  destruct X as (-> & HR & D). exists v, b'. split; [reflexivity|]. split; [now apply D|exact HR].
Qed.
Print Assumptions long_line_is_cut.

Example long_line_is_cut_applies :
  let piece := repeat x61 16 in
  length piece = 16 /\ ~ In NL piece /\ ~ ends_with CR piece /\
  delivers 16 true (new_reader 16 (chunks [piece ++ bs "tail"] EEOF)) (mk (piece ++ bs "tail") EEOF).
Proof.
  intros piece. split; [reflexivity|]. split; [cbn; intuition discriminate|]. split.
  - intros [r E]. change piece with (repeat x61 15 ++ [x61]) in E. apply app_inj_tail in E as [_ E]. discriminate E.
  - apply one_chunk_delivers; discriminate.
Qed.

(** A line whose last byte in the buffer is a carriage return is cut before it. *)
Theorem long_line_cut_before_cr : forall B J b piece rest e,
  2 <= B ->
  S (length piece) = B -> ~ In NL piece ->
  delivers B J b (mk (piece ++ CR :: rest) e) ->
  exists v b', read_line b = Ok (v, None, b') /\ deref b' v = piece /\ delivers B J b' (mk (CR :: rest) e).
Proof.
  intros B J b piece rest e HB L N H.
  pose proof (sim_bufio_line B HB J b _ H) as X.
  assert (stream_line B (mk (piece ++ CR :: rest) e) = Ok (piece, None, mk (CR :: rest) e)) as S.
  { unfold stream_line. cbn [mk st_data st_err]. destruct (piece ++ CR :: rest) as [|x d] eqn:Ed.
    { apply app_eq_nil in Ed as [_ Ed]. discriminate Ed. }
    rewrite <- Ed. replace (piece ++ CR :: rest) with ((piece ++ [CR]) ++ rest) by (now rewrite <- app_assoc).
    assert (B = length (piece ++ [CR])) as LB by (rewrite app_length; cbn; lia).
    rewrite firstn_app_exact, skipn_app_exact by assumption.
    rewrite cut_none by (intros I; apply in_app_iff in I as [I|[I|[]]]; [auto|discriminate]).
    rewrite app_length, <- LB. destruct (Nat.leb_spec B (B + length rest)); [|lia].
    rewrite last_app1, removelast_last. reflexivity. }
  rewrite S in X. destruct (read_line b) as [[[v e'] b']| | |]; cbn in X; try contradiction.
  destruct X as (-> & HR & D). exists v, b'. split; [reflexivity|]. split; [now apply D|exact HR].
Qed.
Print Assumptions long_line_cut_before_cr.

(** ** C40: what is left in the reader *)
Theorem blob_reads_exactly_its_bytes : forall B pa pc b content rest e,
  64 <= B -> fits content ->
  delivers B true b (mk (dec (N.of_nat (length content)) ++ [NUL] ++ content ++ rest) e) ->
  exists b', decode_blob (bufio_ops pa pc) BBlob b = Ok (NBlob (git_object (bs "blob") content), b') /\
             delivers B true b' (mk rest e).
Proof.
  intros B pa pc b content rest e HB F H.
  assert (2 <= B) as HB2 by lia.
  pose proof (sim_decode_blob _ _ _ (sim_bufio B HB2 true pa pc) BBlob _ _ (sim_bufio_copy B HB2 true pa pc eq_refl) H) as X.
  rewrite (decode_blob_object B HB BBlob content rest e F) in X. cbn [build_bytes bind] in X.
  destruct (decode_blob (bufio_ops pa pc) BBlob b) as [[n b']| | |]; cbn in X; try contradiction.
  destruct X as [En X]. cbn [fst snd] in En, X. subst n. exists b'. split; [reflexivity|exact X].
Qed.
Print Assumptions blob_reads_exactly_its_bytes.

Theorem entry_reads_exactly_its_bytes : forall B pa pc b t rest e,
  64 <= B -> entry_ok t ->
  delivers B true b (mk (entry_text t ++ rest) e) ->
  exists b', decode_tree_entry (bufio_ops pa pc) b =
               Ok (ge_name t, {| e_mode := ge_mode t; e_hash := git_link (ge_sha t) |}, b') /\
             delivers B true b' (mk rest e).
Proof.
  intros B pa pc b t rest e HB H D.
  assert (2 <= B) as HB2 by lia.
  pose proof (sim_decode_tree_entry _ _ _ (sim_bufio B HB2 true pa pc) _ _ D) as X.
  rewrite (decode_tree_entry_text B HB t rest e H) in X.
  destruct (decode_tree_entry (bufio_ops pa pc) b) as [[[n x] b']| | |]; cbn in X; try contradiction.
  destruct X as [E X]. cbn in E. injection E as -> ->. exists b'. split; [reflexivity|exact X].
Qed.
Print Assumptions entry_reads_exactly_its_bytes.

(** Any number of blobs one after the other, read with the same buffered reader. *)
Fixpoint read_blobs {S V} (ops : rdops S V) (n : nat) (s : S) : res (list node * S) :=
  match n with
  | O => Ok ([], s)
  | Datatypes.S n' =>
      let* (x, s1) := decode_blob ops BBlob s in
      let* (xs, s2) := read_blobs ops n' s1 in
      Ok (x :: xs, s2)
  end.

Theorem blobs_in_a_row : forall B pa pc contents b rest e,
  64 <= B -> (forall c, In c contents -> fits c) ->
  delivers B true b (mk (concat (map (fun c => dec (N.of_nat (length c)) ++ [NUL] ++ c) contents) ++ rest) e) ->
  exists b', read_blobs (bufio_ops pa pc) (length contents) b =
               Ok (map (fun c => NBlob (git_object (bs "blob") c)) contents, b') /\
             delivers B true b' (mk rest e).
Proof.
  intros B pa pc contents. induction contents as [|c cs IH]; intros b rest e HB F D.
  - exists b. split; [reflexivity|exact D].
  - cbn [map concat] in D. rewrite <- !app_assoc in D.
    destruct (blob_reads_exactly_its_bytes B pa pc b c _ e HB (F c (or_introl eq_refl)) D) as (b1 & E1 & D1).
    destruct (IH b1 rest e HB (fun x I => F x (or_intror I)) D1) as (b2 & E2 & D2).
    exists b2. split; [|exact D2]. cbn [length read_blobs]. rewrite E1. cbn [bind]. rewrite E2. reflexivity.
Qed.
Print Assumptions blobs_in_a_row.

Example blobs_in_a_row_applies :
  let cs := [bs "one"; bs ""; bs "three"] in
  (forall c, In c cs -> fits c) /\
  delivers 64 true (new_reader 64 (chunks [bs "3"; [NUL]; bs "one0"; [NUL]; bs "5"; [NUL]; bs "threerest"] EEOF))
    (mk (concat (map (fun c => dec (N.of_nat (length c)) ++ [NUL] ++ c) cs) ++ bs "rest") EEOF).
Proof.
  split; [intros c I; cbn in I; unfold fits; intuition (subst; apply Z.ltb_lt; reflexivity)|].
  apply (chunks_delivers 64 [bs "3"; [NUL]; bs "one0"; [NUL]; bs "5"; [NUL]; bs "threerest"] EEOF); [|discriminate].
  cbn. intuition discriminate.
Qed.
