(** C74: encoding copies a bounded number of bytes for each byte it writes. *)
From Verif Require Import Base GoStr Cid Types Nodes Reader Person Assemble Decode Encode Cost CostFacts EncodeCost EncodeCostSpec EncodeCostFacts Spec Props_cost Props_decode.
From Coq Require Import Lia.

(** ** Counting changes nothing: the calls of Fprintf, Fprint and Fprintln, with the format strings of
    the code, write what [Encode.v] says, to every writer. *)
Theorem counting_changes_no_encoding : forall grow bgrow pool hint W (wr : writer W) n w,
  snd (encode_c grow bgrow pool hint wr n w) = encode wr n w.
Proof. intros. apply encode_same. Qed.
Print Assumptions counting_changes_no_encoding.
(** The two lines of a person, with and without a date. *)
Example counting_applies :
  let p := {| p_date := bs "1"; p_timezone := bs "+0"; p_email := bs "a"; p_name := bs "A" |} in
  snd (git_string_c (buffer_grow (fun n => n)) (fun _ => 8) p) = Ok (bs "A <a> 1 +0") /\
  snd (git_string_c (buffer_grow (fun n => n)) (fun _ => 8) {| p_date := []; p_timezone := bs "100%s"; p_email := bs "a"; p_name := bs "%d" |}) = Ok (bs "%d <a> 100%s").
Proof. vm_compute. auto. Qed.

(** ** The bound: for every node that can be encoded, whoever implements it, and every writer, whether it
    accepts the bytes or not; [L] is the length of the longest CID in the node. *)
Theorem encoding_is_linear : forall grow bgrow pool hint L W (wr : writer W) n w out,
  growing grow -> growing bgrow -> encode_bytes n = Ok out ->
  Forall (short L) (all_links n) ->
  fst (encode_c grow bgrow pool hint wr n w) <= (32 + L) * length out.
Proof. intros grow bgrow pool hint L W wr n w out G G' E S. now apply encode_cost. Qed.
Print Assumptions encoding_is_linear.
(** A commit that another library's map holds, with 150 unknown lines, written to a buffer and to
    a writer that fails; all slices and buffers begin empty. *)
Definition generic_commit (other : list node) : node :=
  NGenMap [(NGenString (bs "tree"), NGenLink (git_link (repeat x41 20)));
           (NGenString (bs "parents"), NGenList [NGenLink (git_link (repeat x42 20))]);
           (NGenString (bs "message"), NGenString (bs "m"));
           (NGenString (bs "author"), NPerson {| p_date := bs "1"; p_timezone := bs "+0"; p_email := bs "a"; p_name := bs "A" |});
           (NGenString (bs "committer"), NPerson {| p_date := []; p_timezone := []; p_email := bs "b"; p_name := bs "B" |});
           (NGenString (bs "mergetag"), NGenList []);
           (NGenString (bs "other"), NGenList other)].
Example encoding_is_linear_applies :
  let n := generic_commit (repeat (NGenString (bs "xyz")) 150) in
  exists out, encode_bytes n = Ok out /\ Forall (short 24) (all_links n) /\ length out = 741 /\
  fst (encode_c (append_grow (fun n => n)) (buffer_grow (fun n => n)) (fun _ => 0) (fun _ => 0) buffer_writer n []) = 4197 /\
  fst (encode_c (append_grow (fun n => n)) (buffer_grow (fun n => n)) (fun _ => 0) (fun _ => 0) (fun p (w : bytes) => (0, Some (EOther 1), w)) n []) = 3467.
Proof. eexists. split; [vm_compute; reflexivity|]. split; [repeat constructor; vm_compute; lia|]. vm_compute. auto. Qed.

(** ** What was decoded is encoded with at most 56 copies for each byte. *)
Theorem decoded_objects_encode_linearly : forall grow bgrow pool hint S V (ops : rdops S V) s W (wr : writer W) n w out,
  growing grow -> growing bgrow -> parse_object ops s = Ok n -> encode_bytes n = Ok out ->
  fst (encode_c grow bgrow pool hint wr n w) <= 56 * length out.
Proof.
  intros grow bgrow pool hint S V ops s W wr n w out G G' P E. apply (encoding_is_linear grow bgrow pool hint 24 W wr n w out G G' E).
  assert (forall l, sha1_link l -> short 24 l) as Sh.
  { intros l (sha & Ls & ->). unfold short, git_link, git_cid. unfold is_sha in Ls. cbn [length]. lia. }
  pose proof (decoded_links_are_sha1 S V ops s n P) as D. destruct n; try contradiction D; cbn [all_links]; [constructor|..].
  - constructor; [|constructor]. destruct D as [->|D]; [exact I|now apply Sh].
  - destruct D as (D1 & D2 & D3). constructor; [destruct D1 as [->|D1]; [exact I|now apply Sh]|]. apply Forall_app. split; apply Forall_forall.
    + intros l I. apply Sh, D2, I.
    + intros l I. apply in_flat_map in I. destruct I as (t & I & [<-|[]]). apply Sh, D3, I.
  - apply Forall_forall. intros l I. apply in_map_iff in I. destruct I as ([name e] & <- & I). eapply Sh, D, I.
Qed.
Print Assumptions decoded_objects_encode_linearly.
Example decoded_objects_encode_linearly_applies :
  exists n out, parse_object (stream_ops 64) (mk (bs "tree 28" ++ [NUL] ++ bs "100644 a" ++ [NUL] ++ repeat x41 20) EEOF) = Ok n /\ encode_bytes n = Ok out /\
  length out = 37 /\
  fst (encode_c (append_grow (fun n => n)) (buffer_grow (fun n => n)) (fun _ => 0) (fun _ => 0) buffer_writer n []) = 127.
Proof. eexists _, _. split; [vm_compute; reflexivity|]. split; [vm_compute; reflexivity|]. vm_compute. auto. Qed.

(** ** Blobs are handed to the writer as they are: no byte is copied before. *)
Theorem blobs_are_handed_over : forall grow bgrow pool hint W (wr : writer W) b w,
  fst (encode_c grow bgrow pool hint wr (NBlob b) w) = length b.
Proof. reflexivity. Qed.
Print Assumptions blobs_are_handed_over.

(** ** No less than what is written. *)
Theorem what_is_written_is_copied : forall grow bgrow pool hint n out,
  encode_bytes n = Ok out -> length out <= fst (encode_c grow bgrow pool hint buffer_writer n []).
Proof.
  intros grow bgrow pool hint n out E. unfold encode_c. rewrite encode_node_same. unfold encode_bytes, encode in E.
  destruct (encode_node n) as [x|e| |]; try discriminate E. cbn [fst]. destruct x as [b|t body]; cbn [write_encoded_c fst].
  - injection E as <-. cbn [app]. lia.
  - cbn [write_encoded buffer_writer] in E. unfold buffer_write_to in E. cbn [app] in E. cbn [buffer_writer].
    destruct body as [|c body']; [injection E as <-; lia|]. cbn [buffer_writer] in E. rewrite Nat.ltb_irrefl, Nat.eqb_refl in E. injection E as <-.
    rewrite app_length. lia.
Qed.
Print Assumptions what_is_written_is_copied.

(** ** The length of the CIDs counts: a link is written as the last 20 bytes of its hash, but all of its CID is
    copied.  For every [k] and [m] there is a commit of [k] parents whose encoding copies more than [k * m] bytes, and writes 48 for
    each parent. *)
Definition long_link (m : nat) : link := LCid (repeat x00 (m + 24)).
Definition long_commit (k m : nat) : commit :=
  {| c_tree := LNil; c_parents := repeat (long_link m) k; c_message := [];
     c_author := Some zero_person; c_committer := Some zero_person; c_encoding := None; c_signature := None; c_mergetag := []; c_other := [] |}.
Lemma zeros_skip n : uvarint_skip (repeat x00 (S n)) = repeat x00 n.
Proof. reflexivity. Qed.
Lemma zeros_sha m : exists h, link_sha (long_link m) = Ok h /\ length h = 20.
Proof.
  unfold long_link, link_sha, cid_to_sha, cid_hash. replace (m + 24) with (S (S (m + 22))) by lia.
  replace (cid_is_v0 (repeat x00 (S (S (m + 22))))) with false; [|unfold cid_is_v0; cbn [repeat]; rewrite andb_false_r; reflexivity].
  rewrite !zeros_skip, repeat_length. destruct (Nat.leb_spec 20 (m + 22)); [|lia]. eexists. split; [reflexivity|].
  rewrite skipn_length, repeat_length. lia.
Qed.
Lemma parents_body k m : exists b, concat_res parent_body (repeat (long_link m) k) = Ok b /\ length b = 48 * k.
Proof.
  destruct (zeros_sha m) as (h & E & Lh). induction k as [|k (b & IH & Lb)]; [now exists []|]. cbn [repeat concat_res]. unfold parent_body at 1. rewrite E. cbn [bind].
  rewrite IH. cbn [bind]. eexists. split; [reflexivity|]. repeat rewrite app_length. rewrite CutFacts.hex_encode_length, Lh, Lb. cbn [length]. change (length (bs "parent ")) with 7. lia.
Qed.
Lemma after_least {A C} (x : costed A) (f : A -> costed C) a : snd x = Ok a -> fst x + fst (f a) <= fst (cbind x f).
Proof. intros E. unfold cbind. rewrite E. apply Nat.le_refl. Qed.
Lemma before_least {A C} (x : costed A) (f : A -> costed C) : fst x <= fst (cbind x f).
Proof. unfold cbind. destruct (snd x); cbn [fst]; lia. Qed.
Lemma fprintf_ok grow bgrow pool f args buf : exists b, snd (fprintf grow bgrow pool f args buf) = Ok b.
Proof.
  unfold fprintf, fprint, cbind. destruct (formatted_text grow pool (printf [] f args)) as [cap E]. rewrite E. cbn [snd]. unfold write, at_cost. cbv zeta. destruct (_ <=? _); eexists; reflexivity.
Qed.
Lemma parents_cost grow bgrow pool k m : forall buf, k * m <= fst (each (print_parent grow bgrow pool) (repeat (long_link m) k) buf).
Proof.
  destruct (zeros_sha m) as (h & E & Lh). induction k as [|k IH]; intros buf; [apply Nat.le_0_l|]. cbn [repeat each Nat.mul].
  assert (exists b, snd (print_parent grow bgrow pool (long_link m) buf) = Ok b) as [b Eb].
  { unfold print_parent, cbind at 1. rewrite link_hex_same, E. cbn [bind snd]. apply fprintf_ok. }
  eapply Nat.le_trans; [|apply (after_least _ _ _ Eb)]. apply Nat.add_le_mono; [|apply IH]. unfold print_parent. eapply Nat.le_trans; [|apply before_least].
  unfold link_hex_c. eapply Nat.le_trans; [|apply before_least]. cbn. rewrite repeat_length. lia.
Qed.
Theorem long_cids_are_copied : forall grow bgrow pool hint W (wr : writer W) w k m, exists body,
  encode_bytes (NCommit (long_commit k m)) = Ok (header (bs "commit") body ++ body) /\ length body = 48 * k + 32 /\
  k * m <= fst (encode_c grow bgrow pool hint wr (NCommit (long_commit k m)) w).
Proof.
  intros. destruct (parents_body k m) as (pb & Ep & Lp).
  assert (exists body, commit_body (long_commit k m) = Ok body /\ length body = 48 * k + 32) as (body & Eb & Lb).
  { unfold commit_body. cbn [long_commit c_tree c_parents c_author c_committer c_encoding c_signature c_mergetag c_other c_message link_sha bind git_string_ptr concat_res]. rewrite Ep. cbn [bind].
    eexists. split; [reflexivity|]. repeat (rewrite app_length || (progress cbn [length app])). rewrite Lp. vm_compute (length (bs _)). cbn. lia. }
  exists body. split; [|split; [exact Lb|]].
  - unfold encode_bytes, encode, encode_node, encode_commit. cbn [assign_commit]. rewrite Eb. cbn [bind write_encoded buffer_writer].
    unfold buffer_write_to. destruct body as [|c body']; [cbn in Lb; lia|]. cbn [buffer_writer]. now rewrite Nat.ltb_irrefl, Nat.eqb_refl.
  - unfold encode_c. rewrite encode_node_same. unfold encode_node, encode_commit. cbn [assign_commit]. rewrite Eb. cbn [bind fst].
    refine (Nat.le_trans _ (fst (encode_node_c grow bgrow pool hint (NCommit (long_commit k m)))) _ _ (Nat.le_add_r _ _)).
    cbn [encode_node_c]. unfold encode_commit_c. cbn [assign_commit]. eapply Nat.le_trans; [|apply (after_least _ _ tt); reflexivity].
    cbn [fst at_cost assign_cost is_commit Nat.add]. eapply Nat.le_trans; [|apply before_least]. unfold print_commit.
    eapply Nat.le_trans; [|apply (after_least _ _ []); reflexivity]. eapply Nat.le_trans; [|apply Nat.le_add_l].
    destruct (fprintf_ok grow bgrow pool (bs "tree %s" ++ [NL]) [[]] empty_builder) as [b1 E1].
    eapply Nat.le_trans; [|apply (after_least _ _ b1); exact E1]. eapply Nat.le_trans; [|apply Nat.le_add_l].
    eapply Nat.le_trans; [|apply before_least]. apply parents_cost.
Qed.
Print Assumptions long_cids_are_copied.
