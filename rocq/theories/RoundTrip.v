(** Decoding and encoding of canonical objects. *)
From Verif Require Import Base GoStr Cid Types Nodes Reader Person Assemble Decode Encode Spec
  StreamFacts PersonFacts DecodeFacts.

(** ** Encoding *)

Lemma encode_bytes_framed n typ body :
  encode_node n = Ok (Framed typ body) -> encode_bytes n = Ok (git_object typ body).
Proof.
  intros E. unfold encode_bytes, encode. rewrite E. cbn [write_encoded buffer_writer].
  unfold buffer_write_to, git_object, header, lenN. destruct body as [|x body].
  - now rewrite app_nil_r.
  - cbn [buffer_writer]. destruct (Nat.ltb_spec (length (x :: body)) (length (x :: body))); [lia|].
    rewrite Nat.eqb_refl. cbn [app]. f_equal. lnorm. reflexivity.
Qed.

Lemma encode_bytes_raw n b : encode_node n = Ok (Raw b) -> encode_bytes n = Ok b.
Proof. intros E. unfold encode_bytes, encode. rewrite E. reflexivity. Qed.

Lemma encode_bytes_inv n b : encode_bytes n = Ok b ->
  encode_node n = Ok (Raw b) \/ exists typ body, encode_node n = Ok (Framed typ body) /\ b = git_object typ body.
Proof.
  intros H. destruct (encode_node n) as [[r|typ body]|e| |] eqn:E.
  - left. rewrite (encode_bytes_raw _ _ E) in H. congruence.
  - right. exists typ, body. rewrite (encode_bytes_framed _ _ _ E) in H. split; congruence.
  - unfold encode_bytes, encode in H. rewrite E in H. discriminate.
  - unfold encode_bytes, encode in H. rewrite E in H. discriminate.
  - unfold encode_bytes, encode in H. rewrite E in H. discriminate.
Qed.

Lemma link_sha_git sha : is_sha sha -> link_sha (git_link sha) = Ok sha.
Proof. intros H. unfold link_sha, git_link, git_cid. now apply cid_to_sha_git. Qed.

Lemma tree_body_value es : (forall e, In e es -> entry_ok e) ->
  forall (repr : bool),
  tree_entries_body (map (fun ke => (NString (fst ke), (if repr then NEntryR else NEntry) (snd ke))) (map entry_value es))
  = Ok (tree_text es).
Proof.
  intros H repr. induction es as [|e es IH]; [reflexivity|].
  assert (entry_ok e) as (_ & _ & Hs) by (apply H; now left).
  cbn [map tree_entries_body fst snd entry_value as_string bind].
  unfold tree_entry_body.
  assert (forall v, lookup_by_string ((if repr then NEntryR else NEntry) v) (bs "mode") = Ok (NString (e_mode v))) as -> by (destruct repr; reflexivity).
  cbn [bind as_string].
  assert (forall v, lookup_by_string ((if repr then NEntryR else NEntry) v) (bs "hash") = Ok (NLink (e_hash v))) as -> by (destruct repr; reflexivity).
  cbn [bind as_link e_hash git_link e_mode]. unfold git_link, git_cid. rewrite cid_to_sha_git by exact Hs. cbn [bind].
  rewrite IH by (intros; apply H; now right). cbn [bind].
  unfold tree_text. cbn [map concat]. unfold entry_text. f_equal. 
Qed.

Lemma encode_tree_value es : (forall e, In e es -> entry_ok e) ->
  encode_bytes (NTree (tree_value es)) = Ok (git_object (bs "tree") (tree_text es)).
Proof.
  intros H. apply encode_bytes_framed. cbn [encode_node]. unfold encode_tree, tree_body. cbn [map_entries tree_value tr_t].
  pose proof (tree_body_value es H false) as X. cbn iota in X. rewrite X. reflexivity.
Qed.

Lemma unlines_cons l ls : unlines (l :: ls) = l ++ [NL] ++ unlines ls.
Proof. unfold unlines. cbn [map concat]. now rewrite <- app_assoc. Qed.
Lemma unlines_nil : unlines [] = [].
Proof. reflexivity. Qed.
Lemma unlines_app a b : unlines (a ++ b) = unlines a ++ unlines b.
Proof. unfold unlines. now rewrite map_app, concat_app. Qed.

Lemma encode_tag_value g : is_sha (gt_object g) -> gt_message g <> [] ->
  encode_bytes (NTag (tag_value g)) = Ok (git_object (bs "tag") (tag_text g)).
Proof.
  intros Ho Hm. apply encode_bytes_framed. cbn [encode_node]. unfold encode_tag, tag_body, tag_value.
  change (lookup_by_string (NTag ?t) (bs "object")) with (Ok (NLink (t_object t))).
  change (lookup_by_string (NTag ?t) (bs "type")) with (Ok (NString (t_type t))).
  change (lookup_by_string (NTag ?t) (bs "tag")) with (Ok (NString (t_tag t))).
  change (lookup_by_string (NTag ?t) (bs "message")) with (Ok (NString (t_message t))).
  change (lookup_by_string (NTag ?t) (bs "tagger")) with (Ok (NPerson (t_tagger t))).
  cbn [bind as_link as_string t_object t_type t_tag t_message t_tagger is_null assign_person].
  rewrite link_sha_git by assumption. cbn [bind]. do 2 f_equal.
  unfold tag_text, tag_lines. rewrite !unlines_cons, unlines_nil.
  rewrite git_string_text. rewrite beqb_neq by assumption.
  rewrite app_nil_r. lnorm. reflexivity.
Qed.

Lemma mergetag_body_value g : is_sha (gm_object g) ->
  mergetag_body (mergetag_value g) = Ok (unlines (mergetag_lines g)).
Proof.
  intros H. unfold mergetag_body, mergetag_value. cbn [t_object t_type t_tag t_message t_tagger].
  rewrite link_sha_git by assumption. cbn [bind]. f_equal.
  unfold mergetag_lines. rewrite unlines_app, !unlines_cons, unlines_nil, git_string_text. lnorm. reflexivity.
Qed.

Lemma concat_res_map {A C} (f : C -> res bytes) (v : A -> C) (t : A -> list bytes) (l : list A) :
  (forall a, In a l -> f (v a) = Ok (unlines (t a))) ->
  concat_res f (map v l) = Ok (unlines (concat (map t l))).
Proof.
  induction l as [|a l IH]; intros H; [reflexivity|]. cbn [map concat_res concat].
  rewrite H by now left. cbn [bind]. rewrite IH by (intros; apply H; now right). cbn [bind].
  now rewrite unlines_app.
Qed.

Lemma concat_map_single {A C} (f : A -> C) l : concat (map (fun x => [f x]) l) = map f l.
Proof. induction l; cbn; congruence. Qed.

Lemma encode_commit_value g :
  is_sha (gc_tree g) -> (forall p, In p (gc_parents g) -> is_sha p) ->
  (forall m, In m (gc_mergetags g) -> is_sha (gm_object m)) ->
  encode_bytes (NCommit (commit_value g)) = Ok (git_object (bs "commit") (commit_text g)).
Proof.
  intros Ht Hp Hm. apply encode_bytes_framed. cbn [encode_node]. unfold encode_commit. cbn [assign_commit].
  unfold commit_body, commit_value. cbn [c_tree c_parents c_author c_committer c_mergetag c_signature c_other c_encoding c_message].
  rewrite link_sha_git by assumption. cbn [bind].
  rewrite (concat_res_map parent_body git_link (fun p => [bs "parent " ++ hex_encode p])).
  2:{ intros p I. unfold parent_body. rewrite link_sha_git by now apply Hp. cbn [bind]. rewrite unlines_cons, unlines_nil. lnorm. reflexivity. }
  cbn [bind git_string_ptr].
  rewrite (concat_res_map mergetag_body mergetag_value mergetag_lines).
  2:{ intros m I. apply mergetag_body_value. now apply Hm. }
  cbn [bind]. rewrite concat_map_single, !git_string_text. do 2 f_equal.
  unfold commit_text, commit_lines. rewrite !unlines_app, !unlines_cons, unlines_nil.
  fold (unlines (gc_other g)).
  destruct (gc_encoding g) as [e|]; destruct (gc_signature g) as [[s0 ss]|]; cbn [opt_list option_map fst snd];
    rewrite ?unlines_nil, ?unlines_cons, ?unlines_nil; unfold signature_lines; cbn [fst snd];
    rewrite ?unlines_app, ?unlines_cons, ?unlines_nil; lnorm; reflexivity.
Qed.

(** ** Decoding *)

Section B.
Context (B : nat) (HB : 64 <= B).
Notation ops := (stream_ops B).
Let HB2 : 2 <= B. Proof. lia. Qed.

Lemma read_number_dec n body e : (Z.of_N n < 2 ^ 63)%Z ->
  read_number ops (mk (dec n ++ [NUL] ++ body) e) = Ok (Z.of_N n, mk body e).
Proof.
  intros H. unfold read_number. change (rd_string ops) with stream_string. cbn [app].
  rewrite stream_string_app by apply dec_no_nul. cbn [bind].
  rewrite go_drop_last_snoc. cbn [bind]. rewrite atoi_dec by lia. reflexivity.
Qed.

Lemma read_type_app typ rest e : ~ In SP typ ->
  read_type ops (mk (typ ++ [SP] ++ rest) e) = Ok (typ, mk rest e).
Proof.
  intros H. unfold read_type. change (rd_string ops) with stream_string. cbn [app].
  rewrite stream_string_app by assumption. cbn [bind]. now rewrite go_drop_last_snoc.
Qed.

Lemma fits_N body : fits body -> (Z.of_N (N.of_nat (length body)) < 2 ^ 63)%Z.
Proof. unfold fits. lia. Qed.

(** Blobs. *)
Lemma decode_blob_object k body rest e : fits body ->
  decode_blob ops k (mk (dec (N.of_nat (length body)) ++ [NUL] ++ body ++ rest) e) =
  let* n := build_bytes k (git_object (bs "blob") body) in Ok (n, mk rest e).
Proof.
  intros F. unfold decode_blob. rewrite read_number_dec by now apply fits_N. cbn [bind].
  destruct (Z.ltb_spec (Z.of_N (N.of_nat (length body))) 0); [lia|].
  change (rd_copy ops) with stream_copy. unfold stream_copy. cbn [mk st_data st_err].
  rewrite takeZ_all, dropZ_all by lia. cbn [bind].
  destruct (Z.ltb_spec (Z.of_nat (length body)) (Z.of_N (N.of_nat (length body)))); [lia|].
  destruct (Z.eqb_spec (Z.of_nat (length body)) (Z.of_N (N.of_nat (length body)))); [|lia]. cbn [negb].
  unfold dec_Z. destruct (Z.ltb_spec (Z.of_N (N.of_nat (length body))) 0); [lia|].
  replace (Z.to_N (Z.of_N (N.of_nat (length body)))) with (N.of_nat (length body)) by lia.
  unfold git_object. f_equal. f_equal. lnorm. reflexivity.
Qed.

Lemma parse_blob body rest e : fits body ->
  parse_object ops (mk (git_object (bs "blob") body ++ rest) e) = Ok (NBlob (git_object (bs "blob") body)).
Proof.
  intros F. unfold parse_object.
  replace (git_object (bs "blob") body ++ rest) with (bs "blob" ++ [SP] ++ dec (N.of_nat (length body)) ++ [NUL] ++ body ++ rest)
    by (unfold git_object; lnorm; reflexivity).
  rewrite read_type_app by (cbn; intuition discriminate). cbn [bind].
  change (beqb (bs "blob") (bs "tree")) with false. change (beqb (bs "blob") (bs "commit")) with false.
  change (beqb (bs "blob") (bs "blob")) with true. cbn iota.
  rewrite decode_blob_object by assumption. reflexivity.
Qed.

(** Trees. *)
Lemma decode_tree_entry_text t rest e : entry_ok t ->
  decode_tree_entry ops (mk (entry_text t ++ rest) e) =
  Ok (ge_name t, snd (entry_value t), mk rest e).
Proof.
  intros (Hm & Hn & Hs). unfold decode_tree_entry, entry_text.
  change (rd_string ops) with stream_string. change (rd_full ops) with stream_full. lnorm.
  rewrite stream_string_app by assumption. cbn [bind]. rewrite go_drop_last_snoc. cbn [bind].
  rewrite stream_string_app by assumption. cbn [bind]. rewrite go_drop_last_snoc. cbn [bind].
  unfold stream_full. cbn [mk st_data st_err].
  destruct (Nat.leb_spec 20 (length (ge_sha t ++ rest))) as [_|L]; [|rewrite app_length, Hs in L; lia].
  rewrite firstn_app_exact, skipn_app_exact by now rewrite Hs. cbn [bind].
  rewrite sha_to_cid_ok by assumption. reflexivity.
Qed.

Lemma assoc_notin {A} k (l : list (bytes * A)) : ~ In k (map fst l) -> assoc k l = None.
Proof.
  induction l as [|[k' v] l IH]; cbn; intros H; auto.
  rewrite beqb_neq by (intros ->; apply H; now left). apply IH. intros I; apply H; now right.
Qed.

Lemma map_fst_entry_value es : map fst (map entry_value es) = map ge_name es.
Proof. rewrite map_map. reflexivity. Qed.

Lemma tree_insert_value es t : ~ In (ge_name t) (map ge_name es) ->
  tree_insert (tree_value es) (ge_name t) (snd (entry_value t)) = Ok (tree_value (es ++ [t])).
Proof.
  intros H. unfold tree_insert, tree_value. cbn [tr_m tr_t].
  rewrite assoc_notin by (rewrite map_rev, map_fst_entry_value, <- in_rev; assumption).
  rewrite map_app, rev_app_distr. reflexivity.
Qed.

Lemma tree_run_entries es : forall done rest e,
  (forall x, In x es -> entry_ok x) -> NoDup (map ge_name (done ++ es)) ->
  tree_run B (tree_value done) (mk (tree_text es ++ rest) e) = tree_run B (tree_value (done ++ es)) (mk rest e).
Proof.
  induction es as [|t es IH]; intros done rest e H ND.
  - now rewrite app_nil_r.
  - unfold tree_text. cbn [map concat]. fold (tree_text es). rewrite <- app_assoc.
    rewrite (tree_run_entry B HB2 _ _ _ _ _ (decode_tree_entry_text t _ e (H t (or_introl eq_refl)))).
    rewrite tree_insert_value.
    + cbn [bind]. rewrite (snoc_shift done t es) in ND |- *. apply IH; [|assumption]. intros; apply H; now right.
    + rewrite map_app in ND. apply NoDup_remove_2 in ND. intros I; apply ND. rewrite in_app_iff; now left.
Qed.

Lemma tree_run_end t e : tree_run B t (mk [] e) = if is_eof e then Ok t else Err e.
Proof. unfold tree_run. cbn. now destruct e. Qed.

Lemma decode_tree_object k es e sz : (Z.of_N sz < 2 ^ 63)%Z -> tree_ok es ->
  decode_tree ops k (mk (dec sz ++ [NUL] ++ tree_text es) e) =
  if is_eof e then build_node k (NTree (tree_value es)) else Err e.
Proof.
  intros F [H ND]. unfold decode_tree. rewrite read_number_dec by assumption. cbn [bind].
  change (rd_fuel ops ?s) with (S (length (st_data s))). fold (tree_run B zero_tree (mk (tree_text es) e)).
  change zero_tree with (tree_value []).
  rewrite <- (app_nil_r (tree_text es)), tree_run_entries by assumption. cbn [app].
  rewrite tree_run_end. destruct (is_eof e); reflexivity.
Qed.

Lemma parse_tree es e : fits (tree_text es) -> tree_ok es ->
  parse_object ops (mk (git_object (bs "tree") (tree_text es)) e) =
  if is_eof e then Ok (NTree (tree_value es)) else Err e.
Proof.
  intros F H. unfold parse_object, git_object.
  rewrite read_type_app by (cbn; intuition discriminate). cbn [bind].
  change (beqb (bs "tree") (bs "tree")) with true. cbn iota.
  rewrite decode_tree_object by (auto using fits_N). reflexivity.
Qed.

(** Tags. *)
Lemma tag_run_line_ok out pr l rest e : line_ok B l -> l <> [] ->
  tag_run B out pr (mk (l ++ NL :: rest) e) =
  let* (out', p) := tag_header out l in tag_run B out' (pr ++ p) (mk rest e).
Proof.
  intros H N. destruct l as [|x l]; [congruence|].
  apply tag_run_line; auto.
  - now apply stream_line_ok.
  - cbn. rewrite app_length; cbn; lia.
Qed.

Lemma line_ok_nil : line_ok B [].
Proof. split; [intros []|]. split; [intros [r E]; destruct r; discriminate|cbn; lia]. Qed.

Lemma tag_header_object out sha : is_sha sha ->
  tag_header out (bs "object " ++ hex_encode sha) =
  Ok ({| t_object := git_link sha; t_type := t_type out; t_tag := t_tag out;
         t_tagger := t_tagger out; t_message := t_message out |}, []).
Proof.
  intros H. unfold tag_header. rewrite has_prefix_app, go_from_app by reflexivity. cbn [bind].
  rewrite hex_decode_encode. cbn [bind]. rewrite sha_to_cid_ok by assumption. reflexivity.
Qed.

Lemma tag_header_type out x :
  tag_header out (bs "type " ++ x) =
  Ok ({| t_object := t_object out; t_type := x; t_tag := t_tag out;
         t_tagger := t_tagger out; t_message := t_message out |}, []).
Proof. reflexivity. Qed.

Lemma tag_header_tag out x :
  tag_header out (bs "tag " ++ x) =
  Ok ({| t_object := t_object out; t_type := t_type out; t_tag := x;
         t_tagger := t_tagger out; t_message := t_message out |}, []).
Proof. reflexivity. Qed.

Lemma tag_header_tagger out p : person_ok p ->
  tag_header out (bs "tagger " ++ person_text p) =
  Ok ({| t_object := t_object out; t_type := t_type out; t_tag := t_tag out;
         t_tagger := p; t_message := t_message out |}, []).
Proof.
  intros H. change (tag_header out (bs "tagger " ++ person_text p)) with
    (let* q := parse_person (bs "tagger" ++ [SP] ++ person_text p) in
     Ok ({| t_object := t_object out; t_type := t_type out; t_tag := t_tag out;
         t_tagger := q; t_message := t_message out |}, @nil bytes)).
  apply (person_roundtrip (bs "tagger")) in H; [|cbn; intuition discriminate]. rewrite H. reflexivity.
Qed.

Lemma tag_run_blank_ok out pr msg : 
  tag_run B out pr (mk (NL :: msg) EEOF) =
  Ok ({| t_object := t_object out; t_type := t_type out; t_tag := t_tag out;
         t_tagger := t_tagger out; t_message := msg |}, pr).
Proof.
  apply (tag_run_blank B HB2 out pr _ (mk msg EEOF)); auto.
  apply (stream_line_ok B [] msg EEOF), line_ok_nil.
Qed.

Lemma app_NL_shape l ls rest : unlines (l :: ls) ++ rest = l ++ NL :: (unlines ls ++ rest).
Proof. rewrite unlines_cons. lnorm. reflexivity. Qed.

Lemma tag_run_value g : tag_ok B g ->
  tag_run B zero_tag [] (mk (tag_text g) EEOF) = Ok (tag_value g, []).
Proof.
  intros (Ho & Hp & Hm & Hl). unfold tag_text.
  assert (forall l, In l (tag_lines g) -> line_ok B l) as Hl' by exact Hl.
  unfold tag_lines in *. rewrite app_NL_shape.
  rewrite tag_run_line_ok by ((apply Hl'; cbn; auto) || discriminate).
  rewrite tag_header_object by assumption. cbn [bind app]. rewrite app_NL_shape.
  rewrite tag_run_line_ok by ((apply Hl'; cbn; auto) || discriminate).
  rewrite tag_header_type. cbn [bind app]. rewrite app_NL_shape.
  rewrite tag_run_line_ok by ((apply Hl'; cbn; auto) || discriminate).
  rewrite tag_header_tag. cbn [bind app]. rewrite app_NL_shape.
  rewrite tag_run_line_ok by ((apply Hl'; cbn; auto) || discriminate).
  rewrite tag_header_tagger by assumption. cbn [bind app]. rewrite unlines_nil. cbn [app].
  rewrite tag_run_blank_ok. reflexivity.
Qed.

Lemma parse_tag_header_any sz k body e : ~ In NUL sz ->
  decode_tag ops k (mk (sz ++ [NUL] ++ body) e) =
  let* (t, _) := tag_run B zero_tag [] (mk body e) in build_node k (NTag t).
Proof.
  intros H. unfold decode_tag, decode_tag_printing. change (rd_string ops) with stream_string. cbn [app].
  rewrite stream_string_app by assumption. cbn [bind].
  change (rd_fuel ops ?s) with (S (length (st_data s))). fold (tag_run B zero_tag [] (mk body e)).
  destruct (tag_run B zero_tag [] (mk body e)) as [[t pr]| | |]; cbn [bind map_res]; auto.
  unfold map_res. destruct (build_node k (NTag t)); reflexivity.
Qed.

Lemma parse_tag g : tag_ok B g ->
  parse_object ops (mk (git_object (bs "tag") (tag_text g)) EEOF) = Ok (NTag (tag_value g)).
Proof.
  intros H. unfold parse_object, git_object.
  rewrite read_type_app by (cbn; intuition discriminate). cbn [bind].
  change (beqb (bs "tag") (bs "tree")) with false. change (beqb (bs "tag") (bs "commit")) with false.
  change (beqb (bs "tag") (bs "blob")) with false. change (beqb (bs "tag") (bs "tag")) with true. cbn iota.
  rewrite parse_tag_header_any by apply dec_no_nul. rewrite tag_run_value by assumption. reflexivity.
Qed.

End B.
