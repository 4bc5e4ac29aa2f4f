(** C66: decoding takes time in proportion to its input.  [Cost.v] counts the bytes copied, the slice
    elements moved and the lines read.  Builders and slices may grow in any way that
    adds a quarter at least, as Go's do; readers may return as few bytes at a time as they
    like. *)
From Verif Require Import Base GoStr Cid Types Nodes Reader Bufio Person Assemble Decode Cost Spec HeaderSpec ReaderSpec
  StreamFacts PersonFacts DecodeFacts RoundTrip CommitFacts GrammarFacts Sim BufioFacts SafeBufio Transfer CostFacts.

(** ** Go's slices, builders and buffers grow as required, however the new size is rounded up *)
Lemma grow_loop_facts need : forall f c, c < need -> need <= grow_loop f need c /\ (1 <= f -> 5 * c <= 4 * grow_loop f need c).
Proof.
  induction f as [|f IH]; intros c L; cbn [grow_loop]; [lia|]. cbv zeta.
  assert (5 * c <= 4 * (c + (c + 768) / 4)) as Q. { pose proof (Nat.div_mod (c + 768) 4 ltac:(lia)). pose proof (Nat.mod_upper_bound (c + 768) 4 ltac:(lia)). lia. }
  destruct (Nat.leb_spec need (c + (c + 768) / 4)); [lia|]. destruct (IH (c + (c + 768) / 4)) as [A _]; [lia|]. lia.
Qed.
Theorem go_grows : forall round, (forall n, n <= round n) -> growing (append_grow round) /\ growing (buffer_grow round).
Proof.
  intros round R. split; intros cap need L; unfold append_grow, buffer_grow.
  - match goal with |- context [round ?x] => set (n := x); pose proof (R n) as Rn; assert (need <= n /\ 5 * cap <= 4 * n) as A; [|lia] end. unfold n.
    destruct (Nat.ltb_spec (2 * cap) need); [lia|]. destruct (Nat.ltb_spec cap 256); [lia|]. destruct (grow_loop_facts need need cap L) as [A1 A2]. split; [exact A1|apply A2; lia].
  - pose proof (R (Nat.max need (2 * cap))). lia.
Qed.
Print Assumptions go_grows.
Example go_grows_applies : append_grow (fun n => n) 256 257 = 512 /\ append_grow (fun n => n) 512 513 = 832 /\ append_grow (fun n => 16 * ((n + 15) / 16)) 0 5 = 16.
Proof. vm_compute. auto. Qed.

(** ** Counting changes nothing *)
Theorem counting_changes_no_result : forall grow bgrow pick pa pc b,
  snd (parse_object_c grow bgrow pick (bufio_ops pa pc) b) = parse_object (bufio_ops pa pc) b.
Proof. intros. apply parse_same. Qed.
Print Assumptions counting_changes_no_result.

(** ** The bound: for every text, however it is delivered, whatever error ends it, accepted or not *)
Theorem decoding_is_linear : forall grow bgrow pick B pa pc b d e,
  growing grow -> growing bgrow -> 64 <= B -> delivers B true b (mk d e) ->
  fst (parse_object_c grow bgrow pick (bufio_ops pa pc) b) <= (2 * B + 128) * length d + 3000.
Proof.
  intros grow bgrow pick B pa pc b d e G G' HB D. assert (2 <= B) as HB2 by lia.
  rewrite (simc_parse grow bgrow pick _ _ _ (sim_bufio B HB2 true pa pc) _ _ (sim_bufio_copy B HB2 true pa pc eq_refl) D).
  apply (parse_bound grow bgrow pick G G' B HB (2 * B + 128) (Nat.le_refl _) (mk d e)).
Qed.
Print Assumptions decoding_is_linear.
(** A signature that comes in two pieces, over a reader that fails in the end: 64 bytes copied and lines read. *)
Example decoding_is_linear_applies :
  let t := [bs "commit 0" ++ [NUL] ++ bs "gpgsig x" ++ [NL] ++ bs " " ++ [NL] ++ bs " a"; bs "bc" ++ [NL] ++ bs " def" ++ [NL]] in
  let b := new_reader 64 (chunks t (EOther 1)) in
  growing (append_grow (fun n => n)) /\ growing (buffer_grow (fun n => n)) /\ delivers 64 true b (mk (concat t) (EOther 1)) /\
  fst (parse_object_c (append_grow (fun n => n)) (buffer_grow (fun n => n)) (fun _ _ => 1) (bufio_ops (fun _ _ => 0) (fun _ _ => 0)) b) = 64.
Proof.
  cbv zeta. split; [now apply go_grows|]. split; [now apply go_grows|]. split; [apply chunks_delivers; [cbn; intuition discriminate|discriminate]|]. vm_compute. reflexivity.
Qed.

(** Trees and blobs: no matter how large the buffer of the reader is. *)
Theorem trees_and_blobs_are_linear : forall grow bgrow pick B pa pc b d e,
  growing grow -> growing bgrow -> 64 <= B -> delivers B true b (mk d e) -> begins_with (bs "tree ") d \/ begins_with (bs "blob ") d ->
  fst (parse_object_c grow bgrow pick (bufio_ops pa pc) b) <= 128 * length d + 3000.
Proof.
  intros grow bgrow pick B pa pc b d e G G' HB D T. assert (2 <= B) as HB2 by lia.
  rewrite (simc_parse grow bgrow pick _ _ _ (sim_bufio B HB2 true pa pc) _ _ (sim_bufio_copy B HB2 true pa pc eq_refl) D).
  apply (tree_blob_bound grow bgrow pick G G' B HB d e T).
Qed.
Print Assumptions trees_and_blobs_are_linear.
(** A blob of 1000 bytes read one by one: its buffer moves three times. *)
Example trees_and_blobs_are_linear_applies :
  let d := bs "blob 1000" ++ [NUL] ++ repeat x00 1000 in
  let b := new_reader 64 (chunks [d] EEOF) in
  begins_with (bs "blob ") d /\ delivers 64 true b (mk d EEOF) /\
  fst (parse_object_c (append_grow (fun n => n)) (buffer_grow (fun n => n)) (fun _ _ => 1) (bufio_ops (fun _ _ => 0) (fun _ _ => 0)) b) = 2597.
Proof.
  cbv zeta. split; [now eexists|]. split; [apply one_chunk_delivers; discriminate|]. vm_compute. reflexivity.
Qed.

(** ** The bytes of the result are copied at least once: for every reader *)
Theorem results_are_copied : forall grow bgrow pick pa pc b n,
  parse_object (bufio_ops pa pc) b = Ok n -> nsize n <= fst (parse_object_c grow bgrow pick (bufio_ops pa pc) b).
Proof. intros grow bgrow pick pa pc b n E. apply (parse_least grow bgrow pick (bufio_ops pa pc) b n). now rewrite parse_same. Qed.
Print Assumptions results_are_copied.
Example results_are_copied_applies :
  let b := new_reader 64 (chunks [bs "commit 0" ++ [NUL] ++ bs "author A <a> 1 +0" ++ [NL] ++ bs "encoding x" ++ [NL] ++ bs "foo" ++ [NL] ++ [NL] ++ bs "hello" ++ [NL]] EEOF) in
  exists n, parse_object (bufio_ops (fun _ _ => 0) (fun _ _ => 0)) b = Ok n /\ nsize n = 15.
Proof. eexists. split; vm_compute; reflexivity. Qed.

(** ** The factor is real: names are copied again for each of their words.  For every buffer
    size there are commits of any length, with lines of [2 * m + 13] bytes, whose decoding copies [m * m] bytes for
    each line. *)
Fixpoint authors (k m : nat) : bytes := match k with O => [] | S k => bs "author " ++ words_line m ++ [NL] ++ authors k m end.
Definition commit_of_authors (k m : nat) : bytes := bs "commit 0" ++ [NUL] ++ authors k m.
Lemma authors_length k m : length (authors k m) = k * (2 * m + 14).
Proof. induction k as [|k IH]; [reflexivity|]. cbn [authors]. repeat rewrite app_length. rewrite words_line_length. change (length (bs "author ")) with 7. cbn [length]. lia. Qed.
Lemma words_line_bytes m c : In c (words_line m) -> c <> NL /\ c <> CR.
Proof. induction m as [|m IH]; cbn [words_line]; [cbn; intuition (subst; discriminate)|]. intros [<-|[<-|I]]; [split; discriminate..|auto]. Qed.
Lemma author_takes B k m : 2 * m + 13 < B -> takes B (authors (S k) m) (long_author m) (authors k m).
Proof.
  intros L. cbn [authors]. unfold long_author. rewrite app_assoc. apply takes_nl.
  - intros I. apply in_app_iff in I as [I|I]; [cbn in I; intuition discriminate|]. now apply words_line_bytes in I as [? _].
  - intros [q Q]. assert (In CR (bs "author " ++ words_line m)) as I by (rewrite Q; apply in_app_iff; right; now left).
    apply in_app_iff in I as [I|I]; [cbn in I; intuition discriminate|]. now apply words_line_bytes in I as [_ ?].
  - rewrite app_length, words_line_length. change (length (bs "author ")) with 7. lia.
Qed.
Lemma cbind_least {A C} (x : costed A) (f : A -> costed C) : fst x <= fst (cbind x f).
Proof. unfold cbind. destruct (snd x); cbn [fst]; lia. Qed.
Lemma cbind_ok {A C} (x : costed A) (f : A -> costed C) a : snd x = Ok a -> cbind x f = (fst x + fst (f a), snd (f a)).
Proof. unfold cbind. now intros ->. Qed.
Lemma authors_cost grow pick B m (HB : 64 <= B) (L : 2 * m + 13 < B) : forall k f c kc, k < f ->
  k * (m * m) <= fst (commit_loop_c grow pick (stream_ops B) f c kc (mk (authors k m) EEOF)) /\
  exists c', snd (commit_loop_c grow pick (stream_ops B) f c kc (mk (authors k m) EEOF)) = Ok c'.
Proof.
  induction k as [|k IH]; intros [|f] c kc Lf; try lia.
  { split; [lia|]. exists c. reflexivity. }
  cbn [commit_loop_c]. pose proof (takes_line B HB _ _ _ EEOF (author_takes B k m L)) as T.
  erewrite cbind_ok by (unfold line_c, at_cost; cbn [snd]; change (rd_line (stream_ops B)) with (stream_line B); exact T).
  cbv beta iota. cbn [fst snd]. destruct (author_parses m) as [p Ep].
  change (rd_fuel (stream_ops B) (mk (authors k m) EEOF)) with (S (length (authors k m))). cbn [commit_line_c].
  change (rd_deref (stream_ops B) (mk (authors k m) EEOF) (long_author m)) with (long_author m). cbv zeta.
  change (has_prefix (bs "tree ") (long_author m)) with false. change (has_prefix (bs "parent ") (long_author m)) with false. change (has_prefix (bs "author ") (long_author m)) with true. cbv iota.
  pose proof (author_cost grow m) as Ca. rewrite <- (person_same grow) in Ep. rewrite (cbind_ok (parse_person_c grow (long_author m)) _ p Ep). unfold free. cbn [fst snd].
  match goal with |- context [cbind (?n, Ok (?c', kc, ?s)) _] => rewrite (cbind_ok (n, Ok (c', kc, s)) _ (c', kc, s) eq_refl); cbn [fst snd]; destruct (IH f c' kc ltac:(lia)) as [I1 I2] end.
  split; [|exact I2]. lia.
Qed.
Theorem names_are_copied_again : forall grow bgrow pick B pa pc k m,
  64 <= B -> 2 * m + 13 < B ->
  let b := new_reader B (chunks [commit_of_authors k m] EEOF) in
  length (commit_of_authors k m) = 9 + k * (2 * m + 14) /\
  k * (m * m) <= fst (parse_object_c grow bgrow pick (bufio_ops pa pc) b) /\
  exists n, parse_object (bufio_ops pa pc) b = Ok n.
Proof.
  intros grow bgrow pick B pa pc k m HB L b. assert (2 <= B) as HB2 by lia.
  assert (delivers B true b (mk (commit_of_authors k m) EEOF)) as D by (apply one_chunk_delivers; discriminate).
  split; [unfold commit_of_authors; repeat rewrite app_length; rewrite authors_length; reflexivity|].
  rewrite <- (parse_same grow bgrow pick (bufio_ops pa pc) b), (parse_same grow bgrow pick (bufio_ops pa pc) b), (parse_transfer B HB2 pa pc _ _ D), <- (parse_same grow bgrow pick (stream_ops B)).
  rewrite (simc_parse grow bgrow pick _ _ _ (sim_bufio B HB2 true pa pc) _ _ (sim_bufio_copy B HB2 true pa pc eq_refl) D).
  unfold parse_object_c, commit_of_authors.
  erewrite cbind_ok by (rewrite read_type_same; apply (read_type_app B (bs "commit") ([x30; NUL] ++ authors k m)); cbn; intuition discriminate).
  cbv beta iota. change (beqb (bs "commit") (bs "tree")) with false. change (beqb (bs "commit") (bs "commit")) with true. cbv iota. cbn [fst snd]. unfold decode_commit_c.
  erewrite (cbind_ok (read_number_c _ _)) by (rewrite read_number_same; reflexivity). cbv beta iota. cbn [fst snd].
  change (rd_fuel (stream_ops B) (mk (authors k m) EEOF)) with (S (length (authors k m))).
  destruct (authors_cost grow pick B m HB L k (S (length (authors k m))) zero_commit no_caps) as [C1 [c' C2]]; [rewrite authors_length; nia|].
  rewrite (cbind_ok _ _ c' C2). cbn [fst snd free]. split; [lia|]. now exists (NCommit c').
Qed.
Print Assumptions names_are_copied_again.
(** A buffer of 256 bytes: 57 bytes are copied for each byte of these commits (with the 4096 of bufio.NewReader, about a thousand). *)
Example names_are_copied_again_applies :
  64 <= 256 /\ 2 * 121 + 13 < 256 /\ forall k, 57 * (k * (2 * 121 + 14)) <= k * (121 * 121).
Proof. split; [lia|]. split; [lia|]. intros k. lia. Qed.
