(** C15 - C18, C21, C23: types, sizes, links, trees. *)
From Verif Require Import Base GoStr Cid Types Nodes Reader Bufio Person Assemble Decode Encode Spec
  ReaderSpec StreamFacts PersonFacts DecodeFacts RoundTrip CommitFacts NumFacts Sim BufioFacts SafeOps SafeBufio
  Transfer Checks Invariants.

Definition object_types : list bytes := [bs "tree"; bs "commit"; bs "blob"; bs "tag"].

(** ** C15 *)
Theorem no_space_is_rejected : forall B pa pc b data e,
  2 <= B -> ~ In SP data ->
  delivers B true b (mk data e) ->
  parse_object (bufio_ops pa pc) b = Err (if is_eof e then EUnexpectedEOF else e).
Proof.
  intros B pa pc b data e HB N D. rewrite (parse_transfer B HB pa pc _ _ D).
  unfold parse_object, read_type. change (rd_string (stream_ops B)) with stream_string.
  rewrite stream_string_none by assumption. cbn [bind]. now destruct (is_eof e).
Qed.
Print Assumptions no_space_is_rejected.

Theorem unknown_type_is_rejected : forall B pa pc b typ rest e,
  2 <= B -> ~ In SP typ -> ~ In typ object_types ->
  delivers B true b (mk (typ ++ [SP] ++ rest) e) ->
  parse_object (bufio_ops pa pc) b = Err (EUnknownType typ).
Proof.
  intros B pa pc b typ rest e HB N T D. rewrite (parse_transfer B HB pa pc _ _ D).
  unfold parse_object. unfold read_type. change (rd_string (stream_ops B)) with stream_string. cbn [app].
  rewrite stream_string_app by assumption. cbn [bind]. rewrite go_drop_last_snoc. cbn [bind].
  unfold object_types in T. cbn [In] in T. rewrite !beqb_neq by (intros ->; tauto). reflexivity.
Qed.
Print Assumptions unknown_type_is_rejected.

(** Over any reader at all: one ReadString(' ') is the only thing done to it. *)
Theorem unknown_type_reads_no_more : forall S V (ops : rdops S V) s s1 typ,
  ~ In typ object_types ->
  rd_string ops SP s = Ok (typ ++ [SP], None, s1) ->
  parse_object ops s = Err (EUnknownType typ) /\ forall k, decode_into ops k s = Err (EUnknownType typ).
Proof.
  intros S V ops s s1 typ T E. unfold parse_object, decode_into, read_type. rewrite E. cbn [bind].
  rewrite go_drop_last_snoc. cbn [bind]. unfold object_types in T. cbn [In] in T. rewrite !beqb_neq by (intros ->; tauto). auto.
Qed.
Print Assumptions unknown_type_reads_no_more.

(** What does parse starts with one of the four words, and is a node of that type. *)
Theorem only_known_types_parse : forall pa pc b n,
  wf_reader b -> parse_object (bufio_ops pa pc) b = Ok n ->
  exists typ rest,
    window b ++ concat (map fst (so_evs (b_src b))) = typ ++ [SP] ++ rest /\
    match n with
    | NBlob _ => typ = bs "blob"
    | NTree _ => typ = bs "tree"
    | NCommit _ => typ = bs "commit"
    | NTag _ => typ = bs "tag"
    | _ => False
    end.
Proof.
  intros pa pc b n H E. change (window b ++ concat (map fst (so_evs (b_src b)))) with (pending b).
  unfold parse_object in E. apply bind_ok in E as ([w b1] & E1 & E).
  unfold read_type in E1. apply bind_ok in E1 as ([[x e] b2] & E0 & E1).
  cbn [rd_string bufio_ops] in E0. unfold read_string in E0.
  destruct (read_string_loop_any (S (S (remaining b))) SP [] b H ltac:(lia)) as (x' & e' & b2' & R & S & M & Nn).
  rewrite R in E0. cbn [app] in E0. injection E0 as -> -> ->. destruct e as [e|]; [destruct (is_eof e); discriminate|].
  destruct Nn as (l & -> & Nl). rewrite go_drop_last_snoc in E1. cbn [bind] in E1. injection E1 as -> ->.
  exists w, (pending b1). split; [destruct S as (_ & _ & -> & _); now rewrite <- app_assoc|].
  destruct (beqb_spec w (bs "tree")).
  { unfold decode_tree in E. apply bind_ok in E as ([z s2] & _ & E). apply bind_ok in E as (t & Et & E). cbn in E. now injection E as <-. }
  destruct (beqb_spec w (bs "commit")).
  { unfold decode_commit in E. apply bind_ok in E as ([z s2] & _ & E). apply bind_ok in E as (t & Et & E). cbn in E. now injection E as <-. }
  destruct (beqb_spec w (bs "blob")).
  { apply bind_ok in E as ([n' b3] & E & En). cbn in En. injection En as ->.
    destruct (decode_blob_inv (bufio_ops pa pc) _ _ _ E) as [c ->]. assumption. }
  destruct (beqb_spec w (bs "tag")); [|discriminate].
  unfold decode_tag, decode_tag_printing in E. apply bind_ok in E as ([n' pr] & E & En). cbn in En. injection En as ->.
  apply bind_ok in E as ([[y er] s2] & _ & E). destruct er; [discriminate|]. apply bind_ok in E as ([t pr'] & Et & E).
  cbn in E. now injection E as <- <-.
Qed.
Print Assumptions only_known_types_parse.

Example unknown_type_applies :
  ~ In SP (bs "blobx") /\ ~ In (bs "blobx") object_types /\
  delivers 64 true (new_reader 64 (chunks [bs "blobx 3"; [NUL]] EEOF)) (mk (bs "blobx" ++ [SP] ++ bs "3" ++ [NUL]) EEOF).
Proof.
  split; [cbn; intuition discriminate|]. split; [cbn; intuition discriminate|].
  apply (chunks_delivers 64 [bs "blobx 3"; [NUL]] EEOF); [cbn; intuition discriminate|discriminate].
Qed.

(** ** C16

    The whole of what a blob header and the bytes after it give.  [size] is what stands
    between "blob " and the first NUL, [body] everything after it. *)
Theorem blob_size_handling : forall B pa pc b size body e,
  2 <= B -> ~ In NUL size ->
  delivers B true b (mk (bs "blob " ++ size ++ [NUL] ++ body) e) ->
  (* not an integer *)
  ((forall z, numeral size z -> ~ int_range z) ->
     parse_object (bufio_ops pa pc) b = Err (ENumber size ESyntax) \/ parse_object (bufio_ops pa pc) b = Err (ENumber size ERange)) /\
  (* a negative integer *)
  (forall z, numeral size z -> int_range z -> (z < 0)%Z ->
     parse_object (bufio_ops pa pc) b = Err (ENegativeSize z)) /\
  (* too few bytes *)
  (forall z, numeral size z -> int_range z -> (Z.of_nat (length body) < z)%Z ->
     parse_object (bufio_ops pa pc) b =
     Err (if is_eof e then match body with [] => EEOF | _ => EUnexpectedEOF end else e)) /\
  (* enough bytes: those declared, and the size rewritten *)
  (forall z, numeral size z -> int_range z -> (0 <= z <= Z.of_nat (length body))%Z ->
     parse_object (bufio_ops pa pc) b = Ok (NBlob (git_object (bs "blob") (firstn (Z.to_nat z) body)))).
Proof.
  intros B pa pc b size body e HB N D.
  assert (parse_object (bufio_ops pa pc) b =
          let* (z, s1) := (let* z := atoi size in Ok (z, mk body e)) in
          map_res fst (
            if (z <? 0)%Z then Err (ENegativeSize z)
            else
              let* (c, er, s2) := stream_copy z s1 in
              match er with
              | Some er => Err er
              | None =>
                  if negb (Z.of_nat (length c) =? z)%Z then
                    if length c =? 0 then Err EEOF else Err EUnexpectedEOF
                  else Ok (NBlob ((bs "blob " ++ dec_Z z ++ [NUL]) ++ c), s2)
              end)) as ->.
  { rewrite (parse_transfer B HB pa pc _ _ D). unfold parse_object.
    change (bs "blob " ++ size ++ [NUL] ++ body) with (bs "blob" ++ [SP] ++ size ++ [NUL] ++ body).
    unfold read_type. change (rd_string (stream_ops B)) with stream_string.
    change (bs "blob" ++ [SP] ++ size ++ [NUL] ++ body) with (bs "blob" ++ SP :: (size ++ [NUL] ++ body)).
    rewrite stream_string_app by (cbn; intuition discriminate). cbn [bind]. rewrite go_drop_last_snoc. cbn [bind].
    change (beqb (bs "blob") (bs "tree")) with false. change (beqb (bs "blob") (bs "commit")) with false.
    change (beqb (bs "blob") (bs "blob")) with true. cbn iota.
    unfold decode_blob, read_number. change (rd_string (stream_ops B)) with stream_string. cbn [app].
    rewrite stream_string_app by assumption. cbn [bind]. rewrite go_drop_last_snoc. cbn [bind].
    destruct (atoi size) as [z| | |]; cbn [bind map_res]; reflexivity. }
  split; [|split; [|split]].
  - intros H. destruct (atoi size) as [z|er| |] eqn:A.
    + apply atoi_iff in A as [A1 A2]. now apply H in A1.
    + apply atoi_err_kind in A. destruct A; subst; auto.
    + pose proof (atoi_safe size) as S. rewrite A in S. contradiction.
    + pose proof (atoi_safe size) as S. rewrite A in S. contradiction.
  - intros z H1 H2 H3. assert (atoi size = Ok z) as -> by (now apply atoi_iff). cbn [bind].
    destruct (Z.ltb_spec z 0); [|lia]. reflexivity.
  - intros z H1 H2 H3. assert (atoi size = Ok z) as -> by (now apply atoi_iff). cbn [bind].
    destruct (Z.ltb_spec z 0); [lia|]. unfold stream_copy. cbn [mk st_data st_err].
    rewrite takeZ_firstn by lia. rewrite firstn_all2 by lia. cbn [bind].
    destruct (Z.ltb_spec (Z.of_nat (length body)) z); [|lia].
    destruct e; cbn [andb is_eof eof_ok]; try reflexivity.
    destruct (Z.eqb_spec (Z.of_nat (length body)) z); [lia|]. cbn [negb]. now destruct body.
  - intros z H1 H2 H3. assert (atoi size = Ok z) as -> by (now apply atoi_iff). cbn [bind].
    destruct (Z.ltb_spec z 0); [lia|]. unfold stream_copy. cbn [mk st_data st_err].
    rewrite takeZ_firstn by lia. cbn [bind].
    assert (Z.of_nat (length (firstn (Z.to_nat z) body)) = z) as L by (rewrite firstn_length; lia).
    rewrite L. rewrite Z.ltb_irrefl, Z.eqb_refl. cbn [negb map_res bind]. unfold map_res. cbn [bind fst]. do 2 f_equal.
    unfold git_object, dec_Z. destruct (Z.ltb_spec z 0); [lia|].
    replace (Z.to_N z) with (N.of_nat (length (firstn (Z.to_nat z) body))) by lia. lnorm. reflexivity.
Qed.
Print Assumptions blob_size_handling.

Theorem blob_without_nul_is_rejected : forall B pa pc b size e,
  2 <= B -> ~ In NUL size ->
  delivers B true b (mk (bs "blob " ++ size) e) ->
  parse_object (bufio_ops pa pc) b = Err e.
Proof.
  intros B pa pc b size e HB N D. rewrite (parse_transfer B HB pa pc _ _ D). unfold parse_object, read_type.
  change (rd_string (stream_ops B)) with stream_string. change (bs "blob " ++ size) with (bs "blob" ++ SP :: size).
  rewrite stream_string_app by (cbn; intuition discriminate). cbn [bind]. rewrite go_drop_last_snoc. cbn [bind].
  change (beqb (bs "blob") (bs "tree")) with false. change (beqb (bs "blob") (bs "commit")) with false.
  change (beqb (bs "blob") (bs "blob")) with true. cbn iota.
  unfold decode_blob, read_number. change (rd_string (stream_ops B)) with stream_string.
  rewrite stream_string_none by assumption. reflexivity.
Qed.
Print Assumptions blob_without_nul_is_rejected.

Example blob_size_handling_applies :
  (exists z, numeral (bs "+007") z /\ int_range z /\ (0 <= z <= Z.of_nat (length (bs "seven bytes")))%Z) /\
  (exists z, numeral (bs "-1") z /\ int_range z /\ (z < 0)%Z) /\
  (exists z, numeral (bs "12") z /\ int_range z /\ (Z.of_nat (length (bs "seven bytes")) < z)%Z) /\
  (forall z, numeral (bs "1e3") z -> ~ int_range z) /\
  delivers 16 true (new_reader 16 (chunks [bs "blob +007" ++ [NUL] ++ bs "seven bytes"] EEOF))
    (mk (bs "blob " ++ bs "+007" ++ [NUL] ++ bs "seven bytes") EEOF).
Proof.
  split; [exists 7%Z; split; [apply (num_plus (bs "007") 7%N); [discriminate|reflexivity]|]; unfold int_range; cbn; lia|].
  split; [exists (-1)%Z; split; [apply (num_minus (bs "1") 1%N); [discriminate|reflexivity]|]; unfold int_range; cbn; lia|].
  split; [exists 12%Z; split; [apply (num_plain (bs "12") 12%N); [discriminate|reflexivity]|]; unfold int_range; cbn; lia|].
  split; [|apply one_chunk_delivers; discriminate].
  intros z H R. assert (atoi (bs "1e3") = Ok z) as E by (apply atoi_iff; auto). discriminate E.
Qed.

(** ** C17 *)
Lemma sized_tree_commit B typ size body e : typ = bs "tree" \/ typ = bs "commit" ->
  ~ In NUL size ->
  parse_object (stream_ops B) (mk (typ ++ [SP] ++ size ++ [NUL] ++ body) e) =
  let* _ := atoi size in
  if beqb typ (bs "tree")
  then map_res NTree (tree_loop (stream_ops B) (S (length body)) zero_tree (mk body e))
  else map_res NCommit (commit_loop (stream_ops B) (S (length body)) zero_commit (mk body e)).
Proof.
  intros T N. unfold parse_object, read_type. change (rd_string (stream_ops B)) with stream_string.
  change (typ ++ [SP] ++ size ++ [NUL] ++ body) with (typ ++ SP :: (size ++ NUL :: body)).
  rewrite stream_string_app by (destruct T; subst; cbn; intuition discriminate). cbn [bind].
  rewrite go_drop_last_snoc. cbn [bind].
  assert (forall A (f : Z * stream -> res A), bind (read_number (stream_ops B) (mk (size ++ NUL :: body) e)) f =
            let* z := atoi size in f (z, mk body e)) as RN.
  { intros A f. unfold read_number. change (rd_string (stream_ops B)) with stream_string.
    rewrite stream_string_app by assumption. cbn [bind]. rewrite go_drop_last_snoc. cbn [bind].
    destruct (atoi size); reflexivity. }
  destruct T as [-> | ->].
  - rewrite beqb_refl. unfold decode_tree. rewrite RN. destruct (atoi size); reflexivity.
  - change (beqb (bs "commit") (bs "tree")) with false. rewrite beqb_refl. unfold decode_commit. rewrite RN.
    destruct (atoi size); reflexivity.
Qed.

Lemma numeral_no_nul s z : numeral s z -> ~ In NUL s.
Proof.
  assert (forall ds a n, dec_value a ds = Some n -> ~ In NUL ds) as K.
  { induction ds as [|d ds IH]; intros a n E; [intros []|]. cbn [dec_value] in E. intros [->|I].
    - discriminate E.
    - destruct (digit_val d); [|discriminate]. eapply IH; eassumption. }
  intros [ds n _ E|ds n _ E|ds n _ E]; [eapply K; eassumption| |]; intros [I|I]; try discriminate; eapply K; eassumption.
Qed.

(** Trees and commits: any declared size will do. *)
Theorem declared_size_has_no_effect : forall B pa pc pa' pc' b b' typ size size' z z' body e,
  2 <= B -> typ = bs "tree" \/ typ = bs "commit" ->
  numeral size z -> int_range z -> numeral size' z' -> int_range z' ->
  delivers B true b (mk (typ ++ [SP] ++ size ++ [NUL] ++ body) e) ->
  delivers B true b' (mk (typ ++ [SP] ++ size' ++ [NUL] ++ body) e) ->
  parse_object (bufio_ops pa pc) b = parse_object (bufio_ops pa' pc') b'.
Proof.
  intros B pa pc pa' pc' b b' typ size size' z z' body e HB T N R N' R' D D'.
  rewrite (parse_transfer B HB pa pc _ _ D), (parse_transfer B HB pa' pc' _ _ D').
  rewrite !sized_tree_commit by eauto using numeral_no_nul.
  assert (atoi size = Ok z) as -> by (now apply atoi_iff). assert (atoi size' = Ok z') as -> by (now apply atoi_iff).
  reflexivity.
Qed.
Print Assumptions declared_size_has_no_effect.

(** ... but it must be an integer. *)
Theorem tree_and_commit_size_must_be_a_number : forall B pa pc b typ size body e,
  2 <= B -> typ = bs "tree" \/ typ = bs "commit" ->
  ~ In NUL size -> (forall z, numeral size z -> ~ int_range z) ->
  delivers B true b (mk (typ ++ [SP] ++ size ++ [NUL] ++ body) e) ->
  parse_object (bufio_ops pa pc) b = Err (ENumber size ESyntax) \/ parse_object (bufio_ops pa pc) b = Err (ENumber size ERange).
Proof.
  intros B pa pc b typ size body e HB T N H D. rewrite (parse_transfer B HB pa pc _ _ D).
  rewrite sized_tree_commit by assumption. destruct (atoi size) as [z|er| |] eqn:A.
  - apply atoi_iff in A as [A1 A2]. now apply H in A1.
  - apply atoi_err_kind in A. destruct A; subst; auto.
  - pose proof (atoi_safe size) as S. rewrite A in S. contradiction.
  - pose proof (atoi_safe size) as S. rewrite A in S. contradiction.
Qed.
Print Assumptions tree_and_commit_size_must_be_a_number.

(** Tags: anything up to the NUL will do. *)
Theorem declared_tag_size_has_no_effect : forall B pa pc pa' pc' b b' size size' body e,
  64 <= B -> ~ In NUL size -> ~ In NUL size' ->
  delivers B true b (mk (bs "tag " ++ size ++ [NUL] ++ body) e) ->
  delivers B true b' (mk (bs "tag " ++ size' ++ [NUL] ++ body) e) ->
  parse_object (bufio_ops pa pc) b = parse_object (bufio_ops pa' pc') b'.
Proof.
  intros B pa pc pa' pc' b b' size size' body e HB N N' D D'. assert (2 <= B) as HB2 by lia.
  rewrite (parse_transfer B HB2 pa pc _ _ D), (parse_transfer B HB2 pa' pc' _ _ D').
  assert (forall sz, ~ In NUL sz -> parse_object (stream_ops B) (mk (bs "tag " ++ sz ++ [NUL] ++ body) e) =
    let* (t, _) := tag_run B zero_tag [] (mk body e) in build_node BTag (NTag t)) as K.
  { intros sz NS. unfold parse_object, read_type. change (rd_string (stream_ops B)) with stream_string.
    change (bs "tag " ++ sz ++ [NUL] ++ body) with (bs "tag" ++ SP :: (sz ++ [NUL] ++ body)).
    rewrite stream_string_app by (cbn; intuition discriminate). cbn [bind]. rewrite go_drop_last_snoc. cbn [bind].
    change (beqb (bs "tag") (bs "tree")) with false. change (beqb (bs "tag") (bs "commit")) with false.
    change (beqb (bs "tag") (bs "blob")) with false. change (beqb (bs "tag") (bs "tag")) with true. cbn iota.
    now apply parse_tag_header_any. }
  now rewrite !K.
Qed.
Print Assumptions declared_tag_size_has_no_effect.

Example declared_size_applies :
  numeral (bs "0") 0 /\ numeral (bs "-99") (-99) /\ int_range 0 /\ int_range (-99) /\
  delivers 64 true (new_reader 64 (chunks [bs "tree 0" ++ [NUL] ++ bs "1 a" ++ [NUL]] EEOF)) (mk (bs "tree" ++ [SP] ++ bs "0" ++ [NUL] ++ bs "1 a" ++ [NUL]) EEOF) /\
  delivers 64 true (new_reader 64 (chunks [bs "tree -99" ++ [NUL] ++ bs "1 a" ++ [NUL]] EEOF)) (mk (bs "tree" ++ [SP] ++ bs "-99" ++ [NUL] ++ bs "1 a" ++ [NUL]) EEOF).
Proof.
  split; [apply (num_plain (bs "0") 0%N); [discriminate|reflexivity]|].
  split; [apply (num_minus (bs "99") 99%N); [discriminate|reflexivity]|].
  unfold int_range. split; [lia|]. split; [lia|]. split; apply one_chunk_delivers; discriminate.
Qed.

(** ** C18: links of decoded objects, over any reader at all *)
Definition sha1_link (l : link) : Prop := exists sha, is_sha sha /\ l = git_link sha.

Theorem decoded_links_are_sha1 : forall S V (ops : rdops S V) s n,
  parse_object ops s = Ok n ->
  match n with
  | NBlob _ => True
  | NTree t => forall name e, In (name, e) (tr_t t) -> sha1_link (e_hash e)
  | NCommit c =>
      (c_tree c = LNil \/ sha1_link (c_tree c)) /\
      (forall l, In l (c_parents c) -> sha1_link l) /\
      (forall t, In t (c_mergetag c) -> sha1_link (t_object t))
  | NTag t => t_object t = LNil \/ sha1_link (t_object t)
  | _ => False
  end.
Proof.
  intros S V ops s n E. apply parse_decoded in E. destruct E as [c|t [? ? H]|c [? ? ? ? M ?]|t []]; auto.
  split; [assumption|]. split; [assumption|]. intros t I. apply (M t I).
Qed.
Print Assumptions decoded_links_are_sha1.

(** These links are CIDs of version 1, codec git-raw, hash sha1 of 20 bytes. *)
Theorem sha1_link_prefix : forall sha, is_sha sha ->
  cid_prefix (git_cid sha) = Ok {| px_version := 1; px_codec := 120; px_mhtype := 17; px_mhlen := 20 |}.
Proof. apply cid_prefix_git. Qed.
Print Assumptions sha1_link_prefix.

(** ** C21 *)
Theorem decoded_tree_names_are_distinct : forall S V (ops : rdops S V) s t,
  parse_object ops s = Ok (NTree t) -> NoDup (map fst (tr_t t)).
Proof. intros S V ops s t E. apply parse_decoded in E. inversion E as [|? H| |]. apply H. Qed.
Print Assumptions decoded_tree_names_are_distinct.

Lemma first_repeat (es : list gentry) : ~ NoDup (map ge_name es) ->
  exists pre t post, es = pre ++ t :: post /\ NoDup (map ge_name pre) /\ In (ge_name t) (map ge_name pre).
Proof.
  induction es as [|t es IH] using rev_ind; intros H; [exfalso; apply H; constructor|].
  destruct (NoDup_dec_names (map ge_name es)) as [D|D].
  - exists es, t, []. split; [reflexivity|]. split; [exact D|].
    destruct (in_dec bytes_eq_dec (ge_name t) (map ge_name es)) as [I|I]; [exact I|]. exfalso. apply H.
    rewrite map_app. apply NoDup_app_snoc; assumption.
  - destruct (IH D) as (pre & u & post & -> & ? & ?). exists pre, u, (post ++ [t]). split; [|auto]. now rewrite <- app_assoc.
Qed.

Theorem repeated_names_are_rejected : forall B pa pc b size z es rest e,
  64 <= B -> numeral size z -> int_range z ->
  (forall x, In x es -> entry_ok x) -> ~ NoDup (map ge_name es) ->
  delivers B true b (mk (bs "tree " ++ size ++ [NUL] ++ tree_text es ++ rest) e) ->
  exists name, In name (map ge_name es) /\ parse_object (bufio_ops pa pc) b = Err (ERepeatedKey name).
Proof.
  intros B pa pc b size z es rest e HB N R H ND D. assert (2 <= B) as HB2 by lia.
  destruct (first_repeat es ND) as (pre & t & post & -> & NP & It).
  exists (ge_name t). split; [rewrite map_app; cbn; rewrite in_app_iff; cbn; auto|].
  rewrite (parse_transfer B HB2 pa pc _ _ D).
  change (bs "tree " ++ size ++ [NUL] ++ tree_text (pre ++ t :: post) ++ rest)
    with (bs "tree" ++ [SP] ++ size ++ [NUL] ++ tree_text (pre ++ t :: post) ++ rest).
  rewrite sized_tree_commit by eauto using numeral_no_nul. assert (atoi size = Ok z) as -> by (now apply atoi_iff). cbn [bind].
  rewrite beqb_refl. set (body := tree_text (pre ++ t :: post) ++ rest).
  change (tree_loop (stream_ops B) (S (length body)) zero_tree (mk body e)) with (tree_run B (tree_value []) (mk body e)).
  unfold body, tree_text. rewrite map_app, concat_app. cbn [map concat]. rewrite <- !app_assoc.
  fold (tree_text pre). fold (tree_text post).
  rewrite (tree_run_entries B HB) by (auto; intros; apply H; rewrite in_app_iff; auto). cbn [app].
  assert (entry_ok t) as Ht by (apply H; rewrite in_app_iff; cbn; auto).
  rewrite (tree_run_entry B HB2 _ _ _ _ _ (decode_tree_entry_text B HB t _ e Ht)).
  unfold tree_insert, tree_value. cbn [tr_m].
  destruct (assoc (ge_name t) (rev (map entry_value pre))) eqn:A; [reflexivity|].
  apply assoc_in in A. rewrite map_rev, map_fst_entry_value, <- in_rev in A. contradiction.
Qed.
Print Assumptions repeated_names_are_rejected.

Example repeated_names_applies :
  let es := [(bs "100644", bs "a", repeat x00 20); (bs "40000", bs "b", repeat x01 20); (bs "40000", bs "a", repeat x02 20)] in
  (forall x, In x es -> entry_ok x) /\ ~ NoDup (map ge_name es) /\
  delivers 64 true (new_reader 64 (chunks [bs "tree 9" ++ [NUL] ++ tree_text es] EEOF))
    (mk (bs "tree " ++ bs "9" ++ [NUL] ++ tree_text es ++ []) EEOF).
Proof.
  intros es. split; [|split].
  - intros x I. cbn in I. unfold entry_ok. decompose [or] I; subst; try contradiction;
      (split; [cbn; intuition discriminate|]); (split; [cbn; intuition discriminate|reflexivity]).
  - intros H. cbn in H. inversion H as [|? ? H1 _]; subst. apply H1. cbn. auto.
  - rewrite app_nil_r. apply one_chunk_delivers; discriminate.
Qed.

(** ** C23: every cut inside the body of a canonical tree

    [k]: how many bytes of the last entry are left. *)
Theorem truncated_tree : forall B pa pc b size z es t k,
  64 <= B -> numeral size z -> int_range z ->
  tree_ok es -> entry_ok t -> k < length (entry_text t) ->
  delivers B true b (mk (bs "tree " ++ size ++ [NUL] ++ tree_text es ++ firstn k (entry_text t)) EEOF) ->
  parse_object (bufio_ops pa pc) b =
  if k <=? length (ge_mode t) + 1 + length (ge_name t) + 1
  then Ok (NTree (tree_value es))           (* silently cut *)
  else Err EUnexpectedEOF.                  (* cut inside the hash *)
Proof.
  intros B pa pc b size z es t k HB N R [He Hd] (Hm & Hn & Hs) L D. assert (2 <= B) as HB2 by lia.
  rewrite (parse_transfer B HB2 pa pc _ _ D).
  change (bs "tree " ++ size ++ [NUL] ++ tree_text es ++ firstn k (entry_text t))
    with (bs "tree" ++ [SP] ++ size ++ [NUL] ++ tree_text es ++ firstn k (entry_text t)).
  rewrite sized_tree_commit by eauto using numeral_no_nul. assert (atoi size = Ok z) as -> by (now apply atoi_iff). cbn [bind].
  rewrite beqb_refl. set (body := tree_text es ++ firstn k (entry_text t)).
  change (tree_loop (stream_ops B) (S (length body)) zero_tree (mk body EEOF)) with (tree_run B (tree_value []) (mk body EEOF)).
  unfold body. rewrite (tree_run_entries B HB) by auto. cbn [app].
  assert (forall r, decode_tree_entry (stream_ops B) (mk (firstn k (entry_text t)) EEOF) = r ->
    r = Err EEOF \/ r = Err EUnexpectedEOF ->
    tree_run B (tree_value es) (mk (firstn k (entry_text t)) EEOF) =
    match r with Err EEOF => Ok (tree_value es) | _ => Err EUnexpectedEOF end) as K.
  { intros r Er Hr. unfold tree_run. cbn [tree_loop]. rewrite Er. destruct Hr as [-> | ->]; reflexivity. }
  unfold entry_text in *. rewrite !app_length in L. cbn [length] in L. rewrite Hs in L.
  destruct (Nat.leb_spec k (length (ge_mode t) + 1 + length (ge_name t) + 1)) as [Lk|Lk].
  - rewrite (K (Err EEOF)); auto.
    unfold decode_tree_entry. change (rd_string (stream_ops B)) with stream_string. change (rd_full (stream_ops B)) with stream_full.
    destruct (Nat.le_gt_cases k (length (ge_mode t))) as [L1|L1].
    { rewrite firstn_app. replace (k - length (ge_mode t)) with 0 by lia. cbn [firstn]. rewrite app_nil_r.
      rewrite stream_string_none by (intros I; apply Hm; rewrite <- (firstn_skipn k), in_app_iff; auto). reflexivity. }
    rewrite firstn_app, (firstn_all2 (ge_mode t)) by lia.
    destruct (k - length (ge_mode t)) as [|k1] eqn:E1; [lia|]. cbn [app firstn].
    rewrite stream_string_app by assumption. cbn [bind]. rewrite go_drop_last_snoc. cbn [bind].
    destruct (Nat.le_gt_cases k1 (length (ge_name t))) as [L2|L2].
    { rewrite firstn_app. replace (k1 - length (ge_name t)) with 0 by lia. cbn [firstn]. rewrite app_nil_r.
      rewrite stream_string_none by (intros I; apply Hn; rewrite <- (firstn_skipn k1), in_app_iff; auto). reflexivity. }
    rewrite firstn_app, (firstn_all2 (ge_name t)) by lia.
    destruct (k1 - length (ge_name t)) as [|k2] eqn:E2; [lia|]. assert (k2 = 0) as -> by lia. cbn [app firstn].
    rewrite stream_string_app by assumption. cbn [bind]. rewrite go_drop_last_snoc. reflexivity.
  - rewrite (K (Err EUnexpectedEOF)); auto.
    unfold decode_tree_entry. change (rd_string (stream_ops B)) with stream_string. change (rd_full (stream_ops B)) with stream_full.
    rewrite firstn_app, (firstn_all2 (ge_mode t)) by lia.
    destruct (k - length (ge_mode t)) as [|k1] eqn:E1; [lia|]. cbn [app firstn].
    rewrite stream_string_app by assumption. cbn [bind]. rewrite go_drop_last_snoc. cbn [bind].
    rewrite firstn_app, (firstn_all2 (ge_name t)) by lia.
    destruct (k1 - length (ge_name t)) as [|k2] eqn:E2; [lia|]. cbn [app firstn].
    rewrite stream_string_app by assumption. cbn [bind]. rewrite go_drop_last_snoc. cbn [bind].
    unfold stream_full. cbn [mk st_data st_err].
    assert (length (firstn k2 (ge_sha t)) = k2) as Lf by (rewrite firstn_length, Hs; lia).
    destruct (Nat.leb_spec 20 (length (firstn k2 (ge_sha t)))); [lia|].
    destruct (firstn k2 (ge_sha t)); [cbn in Lf; lia|]. reflexivity.
Qed.
Print Assumptions truncated_tree.

(** The claim "every cut is detected" is false. *)
Theorem truncated_trees_are_detected_refuted :
  exists es t k, tree_ok es /\ entry_ok t /\ 0 < k < length (entry_text t) /\
    forall B pa pc b, 64 <= B ->
    delivers B true b (mk (bs "tree " ++ bs "64" ++ [NUL] ++ tree_text es ++ firstn k (entry_text t)) EEOF) ->
    parse_object (bufio_ops pa pc) b = Ok (NTree (tree_value es)).
Proof.
  exists [(bs "100644", bs "a", repeat x00 20)], (bs "40000", bs "b", repeat x01 20), 7.
  assert (tree_ok [(bs "100644", bs "a", repeat x00 20)]) as T by (apply tree_okb_ok; vm_compute; reflexivity).
  assert (entry_ok (bs "40000", bs "b", repeat x01 20)) as Ht.
  { split; [cbn; intuition discriminate|]. split; [cbn; intuition discriminate|reflexivity]. }
  split; [exact T|]. split; [exact Ht|]. split; [cbn; lia|]. intros B pa pc b HB D.
  rewrite (truncated_tree B pa pc b (bs "64") 64%Z [(bs "100644", bs "a", repeat x00 20)]
             (bs "40000", bs "b", repeat x01 20) 7 HB); auto.
  - apply (num_plain (bs "64") 64%N); [discriminate|reflexivity].
  - unfold int_range; lia.
  - cbn; lia.
Qed.
Print Assumptions truncated_trees_are_detected_refuted.

(** What is left of it: a cut inside a hash is detected.  Missing: the other cuts. *)
Theorem cut_inside_a_hash_is_detected : forall B pa pc b size z es t k,
  64 <= B -> numeral size z -> int_range z ->
  tree_ok es -> entry_ok t ->
  length (ge_mode t) + 1 + length (ge_name t) + 1 < k < length (entry_text t) ->
  delivers B true b (mk (bs "tree " ++ size ++ [NUL] ++ tree_text es ++ firstn k (entry_text t)) EEOF) ->
  exists e, parse_object (bufio_ops pa pc) b = Err e.
Proof.
  intros B pa pc b size z es t k HB N R T Ht L D. exists EUnexpectedEOF.
  rewrite (truncated_tree B pa pc b size z es t k); auto; [|lia].
  destruct (Nat.leb_spec k (length (ge_mode t) + 1 + length (ge_name t) + 1)); [lia|reflexivity].
Qed.
Print Assumptions cut_inside_a_hash_is_detected.

Example truncated_tree_applies :
  let es := [(bs "100644", bs "a", repeat x00 20)] in let t := (bs "40000", bs "b", repeat x01 20) in
  tree_ok es /\ entry_ok t /\ 20 < length (entry_text t) /\
  delivers 64 true (new_reader 64 (chunks [bs "tree 64" ++ [NUL] ++ tree_text es ++ firstn 20 (entry_text t)] EEOF))
    (mk (bs "tree " ++ bs "64" ++ [NUL] ++ tree_text es ++ firstn 20 (entry_text t)) EEOF).
Proof.
  intros es t. split; [apply tree_okb_ok; vm_compute; reflexivity|].
  split; [split; [cbn; intuition discriminate|]; split; [cbn; intuition discriminate|reflexivity]|].
  split; [cbn; lia|]. apply one_chunk_delivers; discriminate.
Qed.
