(** C19, C20, C30 to C32: hashes and CIDs, and what Encode does. *)
From Verif Require Import Base GoStr Cid CidSpec CidFacts Types Nodes Reader Person Assemble Decode Encode Spec PersonFacts
  RoundTrip Invariants StructSpec StructFacts.
From Coq Require Import Permutation.

(** ** C19: hashes and CIDs *)
Theorem hash_to_cid_and_back : forall sha,
  (is_sha sha ->
     sha_to_cid sha = Ok (git_cid sha) /\
     (exists h, is_cid (git_cid sha) h /\ multihash 17 sha h) /\
     cid_to_sha (git_cid sha) = Ok sha) /\
  (~ is_sha sha -> sha_to_cid sha = Err (EShaLength (length sha))).
Proof.
  intros sha. split; intros H.
  - split; [now apply sha_to_cid_ok|]. split; [|now apply cid_to_sha_git].
    exists (x11 :: x14 :: sha). split.
    + left. exists 120%N, [x78]. split; [apply vi_last; reflexivity|]. split; [cbn; lia|reflexivity].
    + exists [x11], [x14]. split; [apply vi_last; reflexivity|]. split; [cbn; lia|].
      split; [|split; [cbn; lia|reflexivity]]. unfold is_sha in H. rewrite H. apply vi_last; reflexivity.
  - unfold sha_to_cid, gitSHALen. unfold is_sha in H. destruct (Nat.eqb_spec (length sha) 20); [contradiction|reflexivity].
Qed.
Print Assumptions hash_to_cid_and_back.

Theorem hash_to_cid_injective : forall a b c, sha_to_cid a = Ok c -> sha_to_cid b = Ok c -> a = b.
Proof. intros a b c Ha Hb. apply sha_to_cid_inv in Ha as [_ ->]. apply sha_to_cid_inv in Hb as [_ E]. congruence. Qed.
Print Assumptions hash_to_cid_injective.

Example hash_to_cid_applies : is_sha (repeat x07 20) /\ ~ is_sha (repeat x07 32) /\ sha_to_cid (repeat x07 20) = Ok (git_cid (repeat x07 20)).
Proof. split; [reflexivity|]. split; [discriminate|reflexivity]. Qed.

(** Any other CID: a multihash of less than 20 bytes crashes, a longer one is cut. *)
Theorem hash_of_any_cid : forall c h, is_cid c h ->
  (length h < 20 -> cid_to_sha c = Panic) /\
  (forall front sha, h = front ++ sha -> is_sha sha -> cid_to_sha c = Ok sha).
Proof.
  intros c h H. unfold cid_to_sha. rewrite (cid_hash_ok c h H). split.
  - intros L. cbv zeta. destruct (Nat.leb_spec 20 (length h)); [lia|reflexivity].
  - intros f sha -> S0. unfold is_sha in S0. cbv zeta. rewrite app_length, S0. destruct (Nat.leb_spec 20 (length f + 20)); [|lia].
    f_equal. replace (length f + 20 - 20) with (length f) by lia. apply skipn_exact.
Qed.
Print Assumptions hash_of_any_cid.

(** An identity CID of four bytes, a sha2-256 CIDv0, and a raw sha2-256 CIDv1. *)
Definition short_cid : bytes := x01 :: x55 :: x00 :: x04 :: bs "data".
Lemma short_cid_ok : is_cid short_cid (x00 :: x04 :: bs "data").
Proof. left. exists 85%N, [x55]. split; [apply vi_last; reflexivity|]. split; [cbn; lia|reflexivity]. Qed.
Example hash_of_any_cid_applies :
  is_cid short_cid (x00 :: x04 :: bs "data") /\
  is_cid (x12 :: x20 :: repeat x07 12 ++ repeat x08 20) (x12 :: x20 :: repeat x07 12 ++ repeat x08 20) /\
  is_cid (x01 :: x55 :: x12 :: x20 :: repeat x07 32) (x12 :: x20 :: repeat x07 32) /\
  is_cid (x01 :: xff :: x01 :: x12 :: x20 :: repeat x07 32) (x12 :: x20 :: repeat x07 32).
Proof.
  split; [exact short_cid_ok|]. split; [right; exists (repeat x07 12 ++ repeat x08 20); auto|].
  split; left.
  - exists 85%N, [x55]. split; [apply vi_last; reflexivity|]. split; [cbn; lia|reflexivity].
  - exists 255%N, [xff; x01]. split; [|split; [cbn; lia|reflexivity]].
    apply (vi_more 255 1 xff [x01]); [vm_compute; discriminate|reflexivity|apply vi_last; reflexivity|reflexivity].
Qed.

(** So encoding crashes when a link has such a short hash. *)
Lemma link_sha_cases l : (exists s, link_sha l = Ok s) \/ link_sha l = Panic.
Proof. destruct l; cbn; eauto. unfold cid_to_sha. destruct (20 <=? length (cid_hash c)); eauto. Qed.

Lemma concat_res_cases {A} (f : A -> res bytes) l : (forall x, (exists s, f x = Ok s) \/ f x = Panic) ->
  (exists s, concat_res f l = Ok s) \/ concat_res f l = Panic.
Proof.
  intros H. induction l as [|x l IH]; [cbn; eauto|]. cbn [concat_res].
  destruct (H x) as [[s ->]| ->]; [|auto]. cbn [bind]. destruct IH as [[t ->]| ->]; cbn; eauto.
Qed.
Lemma concat_res_panic {A} (f : A -> res bytes) l x : (forall x, (exists s, f x = Ok s) \/ f x = Panic) ->
  In x l -> f x = Panic -> concat_res f l = Panic.
Proof.
  intros H I E. induction l as [|y l IH]; [destruct I|]. cbn [concat_res].
  destruct (H y) as [[s Y]|Y]; rewrite Y; [|reflexivity]. cbn [bind]. destruct I as [->|I]; [congruence|]. now rewrite (IH I).
Qed.
Lemma parent_cases l : (exists s, parent_body l = Ok s) \/ parent_body l = Panic.
Proof. unfold parent_body. destruct (link_sha_cases l) as [[s ->]| ->]; cbn; eauto. Qed.
Lemma mergetag_cases t : (exists s, mergetag_body t = Ok s) \/ mergetag_body t = Panic.
Proof. unfold mergetag_body. destruct (link_sha_cases (t_object t)) as [[s ->]| ->]; cbn; eauto. Qed.

Lemma commit_cases c : (exists s, commit_body c = Ok s) \/ commit_body c = Panic.
Proof.
  unfold commit_body. destruct (link_sha_cases (c_tree c)) as [[s ->]| ->]; [|auto]. cbn [bind].
  destruct (concat_res_cases parent_body (c_parents c) parent_cases) as [[p ->]| ->]; [|auto]. cbn [bind].
  destruct (c_author c); cbn [git_string_ptr bind]; [|auto]. destruct (c_committer c); cbn [git_string_ptr bind]; [|auto].
  destruct (concat_res_cases mergetag_body (c_mergetag c) mergetag_cases) as [[m ->]| ->]; cbn; eauto.
Qed.

Lemma encode_commit_cases c : (exists s, encode_bytes (NCommit c) = Ok s) \/ encode_bytes (NCommit c) = Panic.
Proof.
  destruct (commit_cases c) as [[s E]|E].
  - left. eexists. apply encode_bytes_framed. cbn [encode_node]. unfold encode_commit. cbn [assign_commit]. rewrite E. reflexivity.
  - right. unfold encode_bytes, encode. cbn [encode_node]. unfold encode_commit. cbn [assign_commit]. now rewrite E.
Qed.

Theorem short_hashes_crash_the_encoder : forall c h, is_cid c h -> length h < 20 ->
  (forall t name e, In (name, e) (tr_t t) -> e_hash e = LCid c ->
     encode_bytes (NTree t) = Panic /\ encode_bytes (NTreeR t) = Panic) /\
  (forall t, t_object t = LCid c -> encode_bytes (NTag t) = Panic /\ encode_bytes (NTagR t) = Panic) /\
  (forall k, c_tree k = LCid c \/ In (LCid c) (c_parents k) \/ (exists t, In t (c_mergetag k) /\ t_object t = LCid c) ->
     encode_bytes (NCommit k) = Panic).
Proof.
  intros c h H L. destruct (hash_of_any_cid c h H) as [P _]. specialize (P L).
  split; [|split].
  - assert (forall (f : entry -> node) ts name e, (f = NEntry \/ f = NEntryR) -> In (name, e) ts -> e_hash e = LCid c ->
      tree_entries_body (map (fun ke => (NString (fst ke), f (snd ke))) ts) = Panic) as X.
    { intros f ts name e F I E. induction ts as [|[k v] ts IH]; [destruct I|]. cbn [map tree_entries_body fst snd as_string bind].
      assert (forall k v, tree_entry_body k (f v) = match e_hash v with LCid c => let* h := cid_to_sha c in Ok (e_mode v ++ [SP] ++ k ++ [NUL] ++ h) | _ => Panic end) as Y.
      { intros k0 v0. destruct F as [-> | ->]; reflexivity. }
      rewrite Y. destruct I as [I|I].
      - injection I as -> ->. rewrite E, P. reflexivity.
      - destruct (e_hash v); try reflexivity. unfold cid_to_sha. cbv zeta. destruct (20 <=? length (cid_hash c0)); [|reflexivity].
        cbn [bind]. now rewrite (IH I). }
    intros t name e I E. split; unfold encode_bytes, encode; cbn [encode_node]; unfold encode_tree, tree_body; cbn [map_entries];
      [rewrite (X NEntry _ name e) by auto|rewrite (X NEntryR _ name e) by auto]; reflexivity.
  - intros t E. split; unfold encode_bytes, encode; cbn [encode_node]; unfold encode_tag, tag_body; cbn; rewrite E; cbn; rewrite P; reflexivity.
  - intros k E. unfold encode_bytes, encode. cbn [encode_node]. unfold encode_commit. cbn [assign_commit].
    enough (commit_body k = Panic) as -> by reflexivity. unfold commit_body.
    destruct E as [E|[E|(t & I & E)]].
    + rewrite E. cbn [link_sha]. now rewrite P.
    + destruct (link_sha_cases (c_tree k)) as [[s ->]| ->]; [|reflexivity]. cbn [bind].
      rewrite (concat_res_panic parent_body _ (LCid c)); auto using parent_cases. unfold parent_body. cbn [link_sha]. now rewrite P.
    + destruct (link_sha_cases (c_tree k)) as [[s ->]| ->]; [|reflexivity]. cbn [bind].
      destruct (concat_res_cases parent_body (c_parents k) parent_cases) as [[p ->]| ->]; [|reflexivity]. cbn [bind].
      destruct (c_author k); cbn [git_string_ptr bind]; [|auto]. destruct (c_committer k); cbn [git_string_ptr bind]; [|auto].
      rewrite (concat_res_panic mergetag_body _ t); auto using mergetag_cases. unfold mergetag_body. rewrite E. cbn [link_sha]. now rewrite P.
Qed.
Print Assumptions short_hashes_crash_the_encoder.

Example short_hashes_crash_the_encoder_applies :
  is_cid short_cid (x00 :: x04 :: bs "data") /\ length (x00 :: x04 :: bs "data") < 20 /\
  let e := {| e_mode := bs "100644"; e_hash := LCid short_cid |} in
  In (bs "a", e) (tr_t {| tr_t := [(bs "a", e)]; tr_m := [(bs "a", e)] |}).
Proof. split; [exact short_cid_ok|]. split; [cbn; lia|]. now left. Qed.

(** ** C20: decoded objects can be encoded, but for commits without author or committer.
    Nothing is assumed about the reader. *)
Lemma good_link_sha l : good_link l -> exists s, link_sha l = Ok s.
Proof. intros (sha & H & ->). exists sha. now apply link_sha_git. Qed.

Theorem decoded_objects_encode : forall S V (ops : rdops S V) s n,
  parse_object ops s = Ok n ->
  (exists out, encode_bytes n = Ok out) \/
  (exists c, n = NCommit c /\ (c_author c = None \/ c_committer c = None) /\ encode_bytes n = Panic).
Proof.
  intros S V ops s n E. apply parse_decoded in E. destruct E as [content|t I|c I|t I].
  - left. eexists. reflexivity.
  - left. assert (exists b, tree_entries_body (map (fun ke => (NString (fst ke), NEntry (snd ke))) (tr_t t)) = Ok b) as [b Eb].
    { destruct I as [_ _ L]. induction (tr_t t) as [|[k e] ts IH]; [cbn; eauto|].
      destruct IH as [b Eb]; [intros; eapply L; right; eauto|]. destruct (L k e) as (sha & Hs & El); [now left|].
      cbn [map tree_entries_body fst snd as_string bind]. change (tree_entry_body k (NEntry e)) with (match e_hash e with LCid c => let* h := cid_to_sha c in Ok (e_mode e ++ [SP] ++ k ++ [NUL] ++ h) | _ => Panic end).
      rewrite El. unfold git_link, git_cid. cbv iota beta. rewrite cid_to_sha_git by exact Hs. cbn [bind]. rewrite Eb. cbn [bind]. eauto. }
    eexists. apply encode_bytes_framed. cbn [encode_node]. unfold encode_tree, tree_body. cbn [map_entries]. rewrite Eb. reflexivity.
  - destruct (c_author c) as [a|] eqn:Ea; [destruct (c_committer c) as [cm|] eqn:Ec|].
    + left. assert (exists b, commit_body c = Ok b) as [b Eb].
      { unfold commit_body. destruct I as [It Ip _ _ Im _].
        assert (exists s, link_sha (c_tree c) = Ok s) as [x ->] by (destruct It as [-> |It]; [cbn; eauto|now apply good_link_sha]). cbn [bind].
        assert (exists s, concat_res parent_body (c_parents c) = Ok s) as [y ->].
        { clear - Ip. induction (c_parents c) as [|l ls IH]; [cbn; eauto|]. cbn [concat_res]. unfold parent_body at 1.
          destruct (good_link_sha l) as [z ->]; [apply Ip; now left|]. cbn [bind]. destruct IH as [w ->]; [intros; apply Ip; now right|]. cbn. eauto. }
        rewrite Ea, Ec. cbn [bind git_string_ptr].
        assert (exists s, concat_res mergetag_body (c_mergetag c) = Ok s) as [z ->]; [|cbn; eauto].
        clear - Im. induction (c_mergetag c) as [|l ls IH]; [cbn; eauto|]. cbn [concat_res]. unfold mergetag_body at 1.
        destruct (good_link_sha (t_object l)) as [z ->]; [apply (Im l); now left|]. cbn [bind]. destruct IH as [w ->]; [intros; apply Im; now right|]. cbn. eauto. }
      eexists. apply encode_bytes_framed. cbn [encode_node]. unfold encode_commit. cbn [assign_commit]. rewrite Eb. reflexivity.
    + right. exists c. split; [reflexivity|]. split; [auto|]. destruct (encode_commit_cases c) as [[o X]|X]; [exfalso|exact X].
      apply encode_bytes_inv in X as [X|(ty & bd & X & _)]; cbn [encode_node] in X; unfold encode_commit in X; cbn [assign_commit] in X;
        apply bind_ok in X as (b & X & _); unfold commit_body in X; apply bind_ok in X as (? & _ & X); apply bind_ok in X as (? & _ & X);
        apply bind_ok in X as (? & _ & X); rewrite Ec in X; discriminate X.
    + right. exists c. split; [reflexivity|]. split; [auto|]. destruct (encode_commit_cases c) as [[o X]|X]; [exfalso|exact X].
      apply encode_bytes_inv in X as [X|(ty & bd & X & _)]; cbn [encode_node] in X; unfold encode_commit in X; cbn [assign_commit] in X;
        apply bind_ok in X as (b & X & _); unfold commit_body in X; apply bind_ok in X as (? & _ & X); apply bind_ok in X as (? & _ & X);
        rewrite Ea in X; discriminate X.
  - left. destruct I as [Io _]. assert (exists x, link_sha (t_object t) = Ok x) as [x Ex] by (destruct Io as [-> |Io]; [cbn; eauto|now apply good_link_sha]).
    eexists. apply encode_bytes_framed. cbn [encode_node]. unfold encode_tag, tag_body.
    change (lookup_by_string (NTag t) (bs "object")) with (Ok (NLink (t_object t))). cbn [bind as_link].
    change (lookup_by_string (NTag t) (bs "type")) with (Ok (NString (t_type t))). cbn [bind as_string].
    change (lookup_by_string (NTag t) (bs "tag")) with (Ok (NString (t_tag t))). cbn [bind as_string].
    change (lookup_by_string (NTag t) (bs "message")) with (Ok (NString (t_message t))). cbn [bind as_string].
    rewrite Ex. cbn. reflexivity.
Qed.
Print Assumptions decoded_objects_encode.

(** Both cases occur. *)
Example decoded_objects_encode_applies :
  (exists n out, parse_object (stream_ops 64) (mk (bs "tag 0" ++ [NUL]) EEOF) = Ok n /\ encode_bytes n = Ok out) /\
  (exists n, parse_object (stream_ops 64) (mk (bs "commit 0" ++ [NUL]) EEOF) = Ok n /\ encode_bytes n = Panic).
Proof. split; [do 2 eexists|eexists]; (split; [vm_compute; reflexivity|]); vm_compute; reflexivity. Qed.

(** ** C30: the two views of a node *)
Theorem both_views_encode_alike : forall n,
  (exists b, n = NBlob b) \/ (exists t, n = NTree t) \/ (exists t, n = NTag t) ->
  encode_bytes (representation n) = encode_bytes n.
Proof.
  intros n [[b ->]|[[t ->]|[t ->]]]; [reflexivity| |].
  - cbn [representation]. unfold encode_bytes, encode. cbn [encode_node]. unfold encode_tree, tree_body. cbn [map_entries].
    enough (forall ts, tree_entries_body (map (fun ke : bytes * entry => (NString (fst ke), NEntryR (snd ke))) ts) =
                       tree_entries_body (map (fun ke : bytes * entry => (NString (fst ke), NEntry (snd ke))) ts)) as -> by reflexivity.
    induction ts as [|[k e] ts IH]; [reflexivity|]. cbn [map tree_entries_body fst snd as_string bind]. rewrite IH.
    change (tree_entry_body k (NEntryR e)) with (tree_entry_body k (NEntry e)). reflexivity.
  - cbn [representation]. unfold encode_bytes, encode. cbn [encode_node]. unfold encode_tag, tag_body.
    change (lookup_by_string (NTagR t)) with (fun k => lookup_by_string (NTagR t) k). cbn. destruct (t_tagger t). reflexivity.
Qed.
Print Assumptions both_views_encode_alike.

Lemma links_repr l : assign_link_list (NCommitLinkListR l) = Ok l.
Proof.
  cbn [assign_link_list]. unfold assign_list. cbn [list_items]. induction l as [|x l IH]; [reflexivity|].
  cbn [map assign_items]. rewrite IH. reflexivity.
Qed.
Lemma strings_repr l : assign_string_list (NStringListR l) = Ok l.
Proof.
  cbn [assign_string_list]. unfold assign_list. cbn [list_items]. induction l as [|x l IH]; [reflexivity|].
  cbn [map assign_items]. rewrite IH. reflexivity.
Qed.
Lemma tag_repr t : assign_tag (NTagR t) = Ok t.
Proof. destruct t as [o ty tg [d z e n] m]. reflexivity. Qed.
Lemma tags_repr l : assign_tag_list (NTagListR l) = Ok l.
Proof.
  cbn [assign_tag_list]. unfold assign_list. cbn [list_items]. induction l as [|x l IH]; [reflexivity|].
  cbn [map assign_items]. rewrite tag_repr. cbn [bind]. rewrite IH. reflexivity.
Qed.

(** The representation view of a commit, which is what a codec-agnostic caller hands to
    Encode, never encodes. *)
Theorem encoding_the_representation_of_a_commit_panics : forall c, encode_bytes (NCommitR c) = Panic.
Proof.
  intros c. unfold encode_bytes, encode. cbn [encode_node]. enough (encode_commit (NCommitR c) = Panic) as -> by reflexivity.
  unfold encode_commit. cbn [assign_commit map_entries].
  destruct (c_author c) as [a|] eqn:Ea; [|destruct (c_committer c) as [cm|] eqn:Ec].
  - unfold struct_assign. cbn [struct_loop app]. cbn [as_string bind].
    change (field_index (bs "tree") commit_fields 0) with (Some 0). change (field_index (bs "parents") commit_fields 0) with (Some 1).
    change (field_index (bs "message") commit_fields 0) with (Some 2). change (field_index (bs "author") commit_fields 0) with (Some 3).
    cbn [existsb Nat.eqb orb set_commit]. unfold assign_link, assign_string. cbn [as_link as_string bind existsb Nat.eqb orb set_commit]. rewrite links_repr. cbn [bind existsb Nat.eqb orb set_commit as_string].
    reflexivity.
  - unfold struct_assign. cbn [struct_loop app]. cbn [as_string bind].
    change (field_index (bs "tree") commit_fields 0) with (Some 0). change (field_index (bs "parents") commit_fields 0) with (Some 1).
    change (field_index (bs "message") commit_fields 0) with (Some 2). change (field_index (bs "committer") commit_fields 0) with (Some 4).
    cbn [existsb Nat.eqb orb set_commit]. unfold assign_link, assign_string. cbn [as_link as_string bind existsb Nat.eqb orb set_commit]. rewrite links_repr. cbn [bind existsb Nat.eqb orb set_commit as_string].
    reflexivity.
  - assert (exists k, struct_assign commit_fields [0; 1; 2; 7; 8] set_commit
      ([(NString (bs "tree"), NTreeLink (c_tree c)); (NString (bs "parents"), NCommitLinkListR (c_parents c)); (NString (bs "message"), NString (c_message c))] ++
       [] ++ [] ++ match c_encoding c with Some a => [(NString (bs "encoding"), NString a)] | None => [] end ++
       match c_signature c with Some a => [(NString (bs "signature"), NGpgSig a)] | None => [] end ++
       [(NString (bs "mergetag"), NTagListR (c_mergetag c)); (NString (bs "other"), NStringListR (c_other c))]) zero_commit = Ok k /\ c_author k = None) as (k & -> & N).
    2:{ destruct (commit_cases k) as [[s X]|X]; rewrite X; [exfalso|reflexivity].
        unfold commit_body in X. apply bind_ok in X as (? & _ & X); apply bind_ok in X as (? & _ & X). rewrite N in X. discriminate X. }
    exists c. split; [|exact Ea]. apply commit_struct. eexists. split; [apply Permutation_refl|]. rewrite Ea, Ec. cbn [when app].
    assert (forall k x (P : node -> Prop), P x -> is_field (k, P) (NString k, x)) as Fi by (intros k x P X; split; [constructor|exact X]).
    constructor; [apply Fi, il_tree|]. constructor; [apply Fi, assign_link_list_iff, links_repr|]. constructor; [apply Fi, it_str|].
    apply Forall2_app; [destruct (c_encoding c); repeat constructor|]. apply Forall2_app; [destruct (c_signature c); repeat constructor|].
    constructor; [apply Fi, assign_tag_list_iff, tags_repr|]. constructor; [apply Fi, assign_string_list_iff, strings_repr|constructor].
Qed.
Print Assumptions encoding_the_representation_of_a_commit_panics.

(** So the two views of a commit that encodes do not encode alike. *)
Theorem both_views_encode_alike_refuted : exists c out,
  encode_bytes (NCommit c) = Ok out /\ encode_bytes (representation (NCommit c)) <> Ok out.
Proof.
  pose (p := {| p_date := bs "1"; p_timezone := bs "+0"; p_email := bs "a"; p_name := bs "A" |}).
  exists {| c_tree := git_link (repeat x00 20); c_parents := []; c_message := bs "m"; c_author := Some p; c_committer := Some p; c_encoding := None;
            c_signature := None; c_mergetag := []; c_other := [] |}.
  eexists. split; [vm_compute; reflexivity|]. cbn [representation]. rewrite encoding_the_representation_of_a_commit_panics. discriminate.
Qed.
Print Assumptions both_views_encode_alike_refuted.
