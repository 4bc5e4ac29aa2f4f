(** C31, C32: Encode of nodes that are not this library's own, and what reaches the writer. *)
From Verif Require Import Base GoStr Cid Types Nodes Person Assemble Encode Spec PersonFacts RoundTrip StructSpec StructFacts
  Props_roundtrip Props_encode Props_struct.
From Coq Require Import Permutation.

(** ** C31 *)
(** A node is bytes, a list, a map or something else. *)
Theorem generic_bytes_are_written_verbatim : forall b, encode_bytes (NGenBytes b) = Ok b /\ encode_bytes (NBlob b) = Ok b.
Proof. intros b. split; reflexivity. Qed.
Print Assumptions generic_bytes_are_written_verbatim.

Theorem lists_panic : forall n items, list_items n = Some items -> encode_bytes n = Panic.
Proof. intros n items H. destruct n; try discriminate H; reflexivity. Qed.
Print Assumptions lists_panic.
Example lists_panic_applies : list_items (NGenList [NGenString (bs "a")]) = Some [NGenString (bs "a")].
Proof. reflexivity. Qed.

Theorem other_nodes_are_errors : forall n,
  (forall b, n <> NGenBytes b) -> (forall b, n <> NBlob b) -> list_items n = None -> map_entries n = None ->
  encode_bytes n = Err EUnrecognizedNode.
Proof. intros n H1 H2 L M. destruct n; try discriminate; try reflexivity; exfalso; [eapply H1|eapply H2]; reflexivity. Qed.
Print Assumptions other_nodes_are_errors.
Example other_nodes_applies : (forall b, NInt 3 <> NGenBytes b) /\ (forall b, NInt 3 <> NBlob b) /\ list_items (NInt 3) = None /\ map_entries (NInt 3) = None.
Proof. split; [discriminate|]. split; [discriminate|]. auto. Qed.

Theorem empty_maps_are_errors : encode_bytes (NGenMap []) = Err EOverread.
Proof. reflexivity. Qed.
Print Assumptions empty_maps_are_errors.

(** *** The first key decides *)
Definition tag_words : list bytes := [bs "object"; bs "type"; bs "tag"; bs "tagger"; bs "text"].

Lemma tag_words_iff k : existsb (beqb k) tag_words = true <-> In k tag_words.
Proof.
  rewrite existsb_exists. split.
  - intros (x & I & E). now destruct (beqb_spec k x) as [->|].
  - intros I. exists k. split; [exact I|]. now destruct (beqb_spec k k).
Qed.

Lemma encode_generic k v rest s : is_text k s ->
  encode_node (NGenMap ((k, v) :: rest)) = if existsb (beqb s) tag_words then encode_tag (NGenMap ((k, v) :: rest)) else encode_commit (NGenMap ((k, v) :: rest)).
Proof. intros H. apply is_text_iff in H. cbn [encode_node node_kind map_entries]. now rewrite H. Qed.

(** Other first keys: the map must hold a commit, and is written like it. *)
Theorem generic_commits : forall k v rest s, is_text k s -> ~ In s tag_words ->
  (forall out, encode_bytes (NGenMap ((k, v) :: rest)) = Ok out <->
     exists c, holds_commit c (NGenMap ((k, v) :: rest)) /\ encode_bytes (NCommit c) = Ok out) /\
  (forall e, encode_bytes (NGenMap ((k, v) :: rest)) = Err e -> exists e', e = ENotCommit e').
Proof.
  intros k v rest s T N. assert (encode_node (NGenMap ((k, v) :: rest)) = encode_commit (NGenMap ((k, v) :: rest))) as E.
  { rewrite (encode_generic _ _ _ _ T). destruct (existsb (beqb s) tag_words) eqn:X; [|reflexivity]. exfalso. apply N. now apply tag_words_iff. }
  split.
  - intros out. split.
    + intros H. apply encode_bytes_inv in H as [H|(typ & body & H & ->)]; rewrite E in H; unfold encode_commit in H;
        destruct (assign_commit (NGenMap ((k, v) :: rest))) as [c| | |] eqn:A; try discriminate H; apply bind_ok in H as (b & Hb & H); [discriminate H|].
      apply assign_commit_iff in A as [A|A]; [discriminate A|]. exists c. split; [exact A|]. apply encode_bytes_framed.
      cbn [encode_node]. unfold encode_commit. cbn [assign_commit]. rewrite Hb. exact H.
    + intros (c & Hc & H). assert (assign_commit (NGenMap ((k, v) :: rest)) = Ok c) as A by (apply assign_commit_iff; auto).
      assert (encode_node (NGenMap ((k, v) :: rest)) = encode_node (NCommit c)) as Q.
      { rewrite E. cbn [encode_node]. unfold encode_commit. rewrite A. reflexivity. }
      unfold encode_bytes, encode in *. rewrite Q. exact H.
  - intros e H. unfold encode_bytes, encode in H. rewrite E in H. unfold encode_commit in H.
    destruct (assign_commit (NGenMap ((k, v) :: rest))) as [c|e0| |] eqn:A; try discriminate H.
    + destruct (commit_cases c) as [[x X]|X]; rewrite X in H; cbn [bind] in H; [|discriminate H].
      exfalso. pose proof (encode_bytes_framed (NCommit c) (bs "commit") x) as Q. unfold encode_bytes, encode in Q. cbn [encode_node] in Q.
      unfold encode_commit in Q. cbn [assign_commit] in Q. rewrite X in Q. specialize (Q eq_refl). cbn [bind] in Q. rewrite H in Q. discriminate Q.
    + injection H as <-. eauto.
Qed.
Print Assumptions generic_commits.
Example generic_commits_applies :
  let p := {| p_date := bs "1"; p_timezone := bs "+0100"; p_email := bs "a@b"; p_name := bs "A" |} in
  is_text (NGenString (bs "other")) (bs "other") /\ ~ In (bs "other") tag_words /\
  exists out, encode_bytes
    (NGenMap [ (NGenString (bs "other"), NGenList []); (NGenString (bs "mergetag"), NGenList []);
               (NGenString (bs "author"), NPerson p); (NGenString (bs "committer"), NPerson p); (NGenString (bs "message"), NGenString (bs "m"));
               (NGenString (bs "parents"), NGenList []); (NGenString (bs "tree"), NGenLink (git_link (repeat x07 20))) ]) = Ok out.
Proof. intros p. split; [constructor|]. split; [cbn; intuition discriminate|]. eexists. vm_compute. reflexivity. Qed.

(** *** Tags *)
Definition distinct_keys (kvs : list (node * node)) : Prop :=
  exists ks, Forall2 (fun kv s => is_text (fst kv) s) kvs ks /\ NoDup ks.
Definition has (kvs : list (node * node)) (name : bytes) (P : node -> Prop) : Prop :=
  exists k v, In (k, v) kvs /\ is_text k name /\ P v.

Lemma gen_lookup_cases kvs : distinct_keys kvs -> forall name,
  (exists v, gen_lookup name kvs = Ok v /\ forall P : node -> Prop, has kvs name P <-> P v) \/
  (gen_lookup name kvs = Err ENotExists /\ forall P, ~ has kvs name P).
Proof.
  intros (ks & F & ND) name. revert ND. induction F as [|[k v] s kvs ks T F IH]; intros ND.
  - right. split; [reflexivity|]. intros P (k & v & [] & _).
  - apply NoDup_cons_iff in ND as [N ND]. cbn [fst] in T. pose proof T as Et. apply is_text_iff in Et. cbn [gen_lookup]. rewrite Et.
    destruct (beqb_spec name s) as [->|Ne].
    + left. exists v. split; [reflexivity|]. intros P. split.
      * intros (k' & v' & [I|I] & T' & Hp); [injection I as <- <-; exact Hp|]. exfalso. apply N. clear - F I T'.
        induction F as [|[k v] s0 kvs ks T F IH]; [destruct I|]. destruct I as [I|I]; [|right; auto]. injection I as -> ->. cbn in T. left.
        apply is_text_iff in T, T'. congruence.
      * intros Hp. exists k, v. split; [now left|]. auto.
    + specialize (IH ND). assert (forall P : node -> Prop, has ((k, v) :: kvs) name P <-> has kvs name P) as Q.
      { intros P. split; intros (k' & v' & I & T' & Hp).
        - destruct I as [I|I]; [|exists k', v'; auto]. injection I as <- <-. apply is_text_iff in T'. congruence.
        - exists k', v'. auto with datatypes. }
      destruct IH as [(u & E & H)|[E H]]; [left; exists u|right]; (split; [exact E|]); intros P; rewrite Q; apply H.
Qed.

Definition tag_data (t : tag) (kvs : list (node * node)) : Prop :=
  has kvs (bs "object") (fun x => is_link x (t_object t)) /\ has kvs (bs "type") (fun x => is_text x (t_type t)) /\
  has kvs (bs "tag") (fun x => is_text x (t_tag t)) /\ has kvs (bs "message") (fun x => is_text x (t_message t)).

(** The tagger line, if any: none when the tagger is missing or null. *)
Definition tagger_part (t : tag) (kvs : list (node * node)) (line : bytes) : Prop :=
  (has kvs (bs "tagger") (holds_person (t_tagger t)) /\ line = bs "tagger " ++ person_text (t_tagger t) ++ [NL]) \/
  (~ has kvs (bs "tagger") (fun v => v <> NNull) /\ line = []).

Lemma has_link kvs name v : gen_lookup name kvs = Ok v -> (forall P : node -> Prop, has kvs name P <-> P v) ->
  forall l, as_link v = Ok l <-> has kvs name (fun x => is_link x l).
Proof. intros E H l. rewrite H. symmetry. apply is_link_iff. Qed.
Lemma has_text kvs name v : gen_lookup name kvs = Ok v -> (forall P : node -> Prop, has kvs name P <-> P v) ->
  forall l, as_string v = Ok l <-> has kvs name (fun x => is_text x l).
Proof. intros E H l. rewrite H. symmetry. apply is_text_iff. Qed.

Lemma tag_body_typed t : tag_body (NTag t) =
  let* h := link_sha (t_object t) in
  Ok (bs "object " ++ hex_encode h ++ [NL] ++ bs "type " ++ t_type t ++ [NL] ++ bs "tag " ++ t_tag t ++ [NL]
      ++ (bs "tagger " ++ git_string (t_tagger t) ++ [NL]) ++ (if beqb (t_message t) [] then [] else NL :: t_message t)).
Proof.
  unfold tag_body. change (lookup_by_string (NTag t) (bs "object")) with (Ok (NLink (t_object t))).
  change (lookup_by_string (NTag t) (bs "type")) with (Ok (NString (t_type t))).
  change (lookup_by_string (NTag t) (bs "tag")) with (Ok (NString (t_tag t))).
  change (lookup_by_string (NTag t) (bs "message")) with (Ok (NString (t_message t))).
  change (lookup_by_string (NTag t) (bs "tagger")) with (Ok (NPerson (t_tagger t))).
  cbn [bind as_link as_string is_null assign_person]. destruct (link_sha (t_object t)); reflexivity.
Qed.

Definition message_part (t : tag) : bytes := match t_message t with [] => [] | m => [NL] ++ m end.

Lemma ok_inj {A} (a b : A) : Ok a = Ok b -> a = b.
Proof. congruence. Qed.
Lemma git_object_inj typ b b' : git_object typ b = git_object typ b' -> b = b'.
Proof.
  unfold git_object. intros E. apply app_inv_head in E. apply (app_inv_head [SP]) in E.
  pose proof (dec_no_nul (N.of_nat (length b))) as N. pose proof (dec_no_nul (N.of_nat (length b'))) as N'.
  revert E N N'. generalize (dec (N.of_nat (length b))) (dec (N.of_nat (length b'))). intros d. induction d as [|x d IH]; intros [|x' d'] E N N'.
  - now injection E.
  - exfalso. apply N'. left. now injection E.
  - exfalso. apply N. left. now injection E.
  - apply (IH d'); [|intros X; apply N; now right|intros X; apply N'; now right]. now injection E.
Qed.

(** A map whose first key is one of the five words is written exactly when it holds the data of
    a tag, whatever other keys it has, and in whatever order: the bytes are those of the typed
    tag, but for the tagger line. *)
Theorem generic_tags : forall k v rest s, is_text k s -> In s tag_words -> distinct_keys ((k, v) :: rest) ->
  forall out, encode_bytes (NGenMap ((k, v) :: rest)) = Ok out <->
    exists t line before,
      tag_data t ((k, v) :: rest) /\ tagger_part t ((k, v) :: rest) line /\
      encode_bytes (NTag t) = Ok (git_object (bs "tag") (before ++ (bs "tagger " ++ person_text (t_tagger t) ++ [NL]) ++ message_part t)) /\
      out = git_object (bs "tag") (before ++ line ++ message_part t).
Proof.
  intros k v rest s T I D out. set (kvs := (k, v) :: rest) in *.
  assert (encode_node (NGenMap kvs) = encode_tag (NGenMap kvs)) as E.
  { unfold kvs. rewrite (encode_generic _ _ _ _ T). apply tag_words_iff in I. now rewrite I. }
  assert (forall t line h, tag_data t kvs -> tagger_part t kvs line -> link_sha (t_object t) = Ok h ->
    tag_body (NGenMap kvs) = Ok (bs "object " ++ hex_encode h ++ [NL] ++ bs "type " ++ t_type t ++ [NL] ++ bs "tag " ++ t_tag t ++ [NL]
      ++ line ++ (if beqb (t_message t) [] then [] else NL :: t_message t))) as F.
  { intros t line h (H1 & H2 & H3 & H4) Hl Hh. unfold tag_body.
    change (lookup_by_string (NGenMap kvs)) with (fun k => gen_lookup k kvs). cbv beta.
    destruct (gen_lookup_cases kvs D (bs "object")) as [(o & Eo & Ho)|[_ N]]; [|exfalso; eapply N; exact H1]. rewrite Eo. cbn [bind].
    apply Ho, is_link_iff in H1. rewrite H1. cbn [bind].
    destruct (gen_lookup_cases kvs D (bs "type")) as [(o2 & Eo2 & Ho2)|[_ N]]; [|exfalso; eapply N; exact H2]. rewrite Eo2. cbn [bind].
    apply Ho2, is_text_iff in H2. rewrite H2. cbn [bind].
    destruct (gen_lookup_cases kvs D (bs "tag")) as [(o3 & Eo3 & Ho3)|[_ N]]; [|exfalso; eapply N; exact H3]. rewrite Eo3. cbn [bind].
    apply Ho3, is_text_iff in H3. rewrite H3. cbn [bind].
    destruct (gen_lookup_cases kvs D (bs "message")) as [(o4 & Eo4 & Ho4)|[_ N]]; [|exfalso; eapply N; exact H4]. rewrite Eo4. cbn [bind].
    apply Ho4, is_text_iff in H4. rewrite H4. cbn [bind]. rewrite Hh. cbn [bind].
    destruct (gen_lookup_cases kvs D (bs "tagger")) as [(o5 & Eo5 & Ho5)|[Eo5 N]]; rewrite Eo5.
    - destruct Hl as [[Hp ->]|[Hp ->]].
      + apply Ho5 in Hp. assert (is_null o5 = false) as -> by (destruct o5; try reflexivity; destruct Hp as (? & ? & X & _); discriminate X).
        apply assign_person_iff in Hp. rewrite Hp. cbn [bind]. rewrite git_string_text. reflexivity.
      + rewrite Ho5 in Hp. destruct o5; try (exfalso; apply Hp; discriminate). reflexivity.
    - destruct Hl as [[Hp _]|[_ ->]]; [exfalso; eapply N; exact Hp|]. reflexivity. }
  split.
  - intros H. assert (exists body, tag_body (NGenMap kvs) = Ok body /\ out = git_object (bs "tag") body) as (body & Hb & ->).
    { apply encode_bytes_inv in H as [H|(typ & body & H & ->)]; rewrite E in H; unfold encode_tag in H; apply bind_ok in H as (b & Hb & H); [discriminate H|].
      injection H as <- <-. eauto. }
    clear H. pose proof Hb as Hb0. unfold tag_body in Hb. change (lookup_by_string (NGenMap kvs)) with (fun k => gen_lookup k kvs) in Hb. cbv beta in Hb.
    apply bind_ok in Hb as (o & Eo & Hb). apply bind_ok in Hb as (ol & Eol & Hb). apply bind_ok in Hb as (ty & Ety & Hb). apply bind_ok in Hb as (tys & Etys & Hb).
    apply bind_ok in Hb as (tg & Etg & Hb). apply bind_ok in Hb as (tgs & Etgs & Hb). apply bind_ok in Hb as (ms & Ems & Hb). apply bind_ok in Hb as (mss & Emss & Hb).
    apply bind_ok in Hb as (h & Eh & Hb). apply bind_ok in Hb as (tl & Etl & Hb).
    assert (forall name x, gen_lookup name kvs = Ok x -> forall P : node -> Prop, P x -> has kvs name P) as L.
    { intros name x X P Px. destruct (gen_lookup_cases kvs D name) as [(y & Ey & Hy)|[Ey _]]; rewrite X in Ey; [|discriminate Ey]. apply Hy. congruence. }
    assert (exists p, (has kvs (bs "tagger") (holds_person p) /\ tl = bs "tagger " ++ person_text p ++ [NL]) \/ (~ has kvs (bs "tagger") (fun v => v <> NNull) /\ tl = [])) as (p & Hp).
    { destruct (gen_lookup_cases kvs D (bs "tagger")) as [(o5 & Eo5 & Ho5)|[Eo5 N]]; rewrite Eo5 in Etl.
      - destruct (is_null o5) eqn:Nu.
        + exists zero_person. right. destruct o5; try discriminate Nu. split; [|congruence]. rewrite Ho5. auto.
        + apply bind_ok in Etl as (p & Ep & Etl). exists p. left. split; [apply Ho5; now apply assign_person_iff|]. rewrite <- git_string_text. congruence.
      - exists zero_person. right. split; [apply N|congruence]. }
    set (t := {| t_object := ol; t_type := tys; t_tag := tgs; t_tagger := p; t_message := mss |}).
    exists t, tl, (unlines [bs "object " ++ hex_encode h; bs "type " ++ tys; bs "tag " ++ tgs]).
    split; [split; [|split; [|split]]; eapply L; try eassumption; (apply is_link_iff + apply is_text_iff); assumption|].
    assert (message_part t = if beqb mss [] then [] else NL :: mss) as Em by (unfold message_part; cbn [t_message t]; destruct mss; reflexivity).
    split; [exact Hp|]. split; rewrite Em; clear Em.
    + apply encode_bytes_framed. cbn [encode_node]. unfold encode_tag. rewrite tag_body_typed. cbn [t_object t_type t_tag t_tagger t_message t]. rewrite Eh. cbn [bind].
      rewrite git_string_text. do 2 f_equal. unfold unlines. cbn [map concat]. lnorm. reflexivity.
    + f_equal. injection Hb as <-. unfold unlines. cbn [map concat]. lnorm. reflexivity.
  - intros (t & line & before & Hd & Hl & Ht & ->). apply encode_bytes_framed. rewrite E. unfold encode_tag.
    apply encode_bytes_inv in Ht as [Ht|(typ & body & Ht & Eq)]; cbn [encode_node] in Ht; unfold encode_tag in Ht; apply bind_ok in Ht as (b & Hb & Ht); [discriminate Ht|].
    injection Ht as <- <-. rewrite tag_body_typed in Hb. apply bind_ok in Hb as (h & Hh & Hb). rewrite (F t line h Hd Hl Hh). cbn [bind]. do 2 f_equal.
    apply ok_inj in Hb. subst b. rewrite git_string_text in Eq. apply git_object_inj in Eq.
    assert (message_part t = if beqb (t_message t) [] then [] else NL :: t_message t) as Em by (unfold message_part; destruct (t_message t); reflexivity).
    rewrite <- Em in Eq |- *. clear Em. set (U := bs "object " ++ hex_encode h ++ [NL] ++ bs "type " ++ t_type t ++ [NL] ++ bs "tag " ++ t_tag t ++ [NL]).
    assert (before = U) as ->.
    { apply (app_inv_tail ((bs "tagger " ++ person_text (t_tagger t) ++ [NL]) ++ message_part t)). rewrite Eq. unfold U. lnorm. reflexivity. }
    unfold U. lnorm. reflexivity.
Qed.
Print Assumptions generic_tags.

(** With a tagger, so that all of it agrees with the typed tag. *)
Theorem generic_tags_encode_like_typed_tags : forall k v rest s t, is_text k s -> In s tag_words -> distinct_keys ((k, v) :: rest) ->
  tag_data t ((k, v) :: rest) -> has ((k, v) :: rest) (bs "tagger") (holds_person (t_tagger t)) ->
  forall out, encode_bytes (NTag t) = Ok out -> encode_bytes (NGenMap ((k, v) :: rest)) = Ok out.
Proof.
  intros k v rest s t T I D Hd Ht out E. apply (generic_tags k v rest s T I D). pose proof E as E0.
  apply encode_bytes_inv in E as [E|(typ & body & E & ->)]; cbn [encode_node] in E; unfold encode_tag in E; apply bind_ok in E as (b & Hb & E); [discriminate E|].
  injection E as <- <-. rewrite tag_body_typed in Hb. apply bind_ok in Hb as (h & Hh & Hb). apply ok_inj in Hb.
  exists t, (bs "tagger " ++ person_text (t_tagger t) ++ [NL]), (bs "object " ++ hex_encode h ++ [NL] ++ bs "type " ++ t_type t ++ [NL] ++ bs "tag " ++ t_tag t ++ [NL]).
  assert (message_part t = if beqb (t_message t) [] then [] else NL :: t_message t) as Em by (unfold message_part; destruct (t_message t); reflexivity).
  assert (b = (bs "object " ++ hex_encode h ++ [NL] ++ bs "type " ++ t_type t ++ [NL] ++ bs "tag " ++ t_tag t ++ [NL]) ++ (bs "tagger " ++ person_text (t_tagger t) ++ [NL]) ++ message_part t) as ->.
  { rewrite <- Hb, Em, git_string_text. lnorm. reflexivity. }
  split; [exact Hd|]. split; [left; auto|]. split; [exact E0|reflexivity].
Qed.
Print Assumptions generic_tags_encode_like_typed_tags.

(** A tag out of order with an unknown key; and one without tagger. *)
Definition ex_generic_tag : list (node * node) :=
  [ (NGenString (bs "tag"), NGenString (bs "v1")); (NGenString (bs "message"), NGenString (bs "hello"));
    (NGenString (bs "colour"), NInt 7); (NGenString (bs "tagger"), ex_person_map);
    (NGenString (bs "object"), NGenLink (git_link (repeat x07 20))); (NGenString (bs "type"), NGenString (bs "commit")) ].
Ltac in_list := unfold ex_generic_tag; cbn [In]; auto 12.
Example generic_tags_applies :
  distinct_keys ex_generic_tag /\ tag_data ex_built_tag ex_generic_tag /\
  has ex_generic_tag (bs "tagger") (holds_person (t_tagger ex_built_tag)) /\ (exists out, encode_bytes (NTag ex_built_tag) = Ok out) /\
  (exists out, encode_bytes (NGenMap (filter (fun kv => match fst kv with NGenString s => negb (beqb s (bs "tagger")) | _ => true end) ex_generic_tag)) = Ok out).
Proof.
  split; [|split; [|split; [|split]]].
  - exists [bs "tag"; bs "message"; bs "colour"; bs "tagger"; bs "object"; bs "type"]. split; [repeat constructor|].
    repeat constructor; cbn; intuition discriminate.
  - split; [|split; [|split]].
    + exists (NGenString (bs "object")), (NGenLink (git_link (repeat x07 20))). split; [in_list|split; constructor].
    + exists (NGenString (bs "type")), (NGenString (bs "commit")). split; [in_list|split; constructor].
    + exists (NGenString (bs "tag")), (NGenString (bs "v1")). split; [in_list|split; constructor].
    + exists (NGenString (bs "message")), (NGenString (bs "hello")). split; [in_list|split; constructor].
  - exists (NGenString (bs "tagger")), ex_person_map. split; [in_list|]. split; [constructor|]. apply assign_person_iff. vm_compute. reflexivity.
  - eexists. vm_compute. reflexivity.
  - eexists. vm_compute. reflexivity.
Qed.

(** ** C32: what the writer sees *)
(** A node that cannot be encoded writes nothing, to any writer, and ends alike. *)
Theorem bad_nodes_write_nothing : forall W (wr : writer W) n w, (forall out, encode_bytes n <> Ok out) ->
  snd (encode wr n w) = w /\
  match encode_bytes n with
  | Err e => fst (encode wr n w) = Failed e
  | _ => fst (encode wr n w) = Panicked
  end.
Proof.
  intros W wr n w H. destruct (encode_node n) as [x| | |] eqn:E; unfold encode_bytes, encode; rewrite E; try (split; reflexivity).
  exfalso. destruct x as [b|typ body]; [apply (H b); now apply encode_bytes_raw|eapply H; apply encode_bytes_framed; exact E].
Qed.
Print Assumptions bad_nodes_write_nothing.
Example bad_nodes_applies : (forall out, encode_bytes (NInt 3) <> Ok out) /\ (forall out, encode_bytes (NCommit zero_commit) <> Ok out).
Proof. split; discriminate. Qed.

(** The contract of io.Writer: at most the given bytes are taken, in order, and fewer only with an error.
    [received] is what the writer has taken so far. *)
Definition obeys {W} (wr : writer W) (received : W -> bytes) : Prop :=
  forall p w m e w', wr p w = (m, e, w') ->
    m <= length p /\ received w' = received w ++ firstn m p /\ (e = None -> m = length p).

Theorem good_nodes_are_written : forall W (wr : writer W) received n out w,
  obeys wr received -> encode_bytes n = Ok out ->
  match encode wr n w with
  | (Done, w') => received w' = received w ++ out
  | (Failed e, w') =>
      (exists part rest, out = part ++ rest /\ received w' = received w ++ part) /\
      (exists p w1 m, wr p w1 = (m, Some e, w'))
  | (Panicked, _) => False
  end.
Proof.
  intros W wr received n out w O E. apply encode_bytes_inv in E. unfold encode. destruct E as [E|(typ & body & E & ->)]; rewrite E; cbn [write_encoded].
  - destruct (wr out w) as [[m e] w1] eqn:Ew. destruct (O _ _ _ _ _ Ew) as (L & R & N). destruct e as [e|].
    + split; [|eauto]. exists (firstn m out), (skipn m out). split; [symmetry; apply firstn_skipn|exact R].
    + rewrite (N eq_refl), firstn_all in R. exact R.
  - change (git_object typ body) with (typ ++ [SP] ++ dec (N.of_nat (length body)) ++ [NUL] ++ body).
    assert (typ ++ [SP] ++ dec (N.of_nat (length body)) ++ [NUL] ++ body = header typ body ++ body) as Eo by (unfold header, lenN; now rewrite <- !app_assoc).
    rewrite Eo. clear Eo. destruct (wr (header typ body) w) as [[m e] w1] eqn:Ew. destruct (O _ _ _ _ _ Ew) as (L & R & N). destruct e as [e|].
    + split; [|eauto]. exists (firstn m (header typ body)), (skipn m (header typ body) ++ body). split; [now rewrite app_assoc, firstn_skipn|exact R].
    + rewrite (N eq_refl), firstn_all in R. unfold buffer_write_to. destruct body as [|x body]; [now rewrite app_nil_r, R|].
      destruct (wr (x :: body) w1) as [[m2 e2] w2] eqn:Ew2. destruct (O _ _ _ _ _ Ew2) as (L2 & R2 & N2).
      destruct (Nat.ltb_spec (length (x :: body)) m2); [lia|]. destruct e2 as [e2|].
      * split; [|eauto]. exists (header typ (x :: body) ++ firstn m2 (x :: body)), (skipn m2 (x :: body)).
        split; [now rewrite <- app_assoc, firstn_skipn|]. now rewrite R2, R, app_assoc.
      * specialize (N2 eq_refl). subst m2. rewrite Nat.eqb_refl. rewrite firstn_all in R2. now rewrite R2, R, app_assoc.
Qed.
Print Assumptions good_nodes_are_written.

(** A writer with room for [fst w] more bytes, which then fails. *)
Definition limited : writer (nat * bytes) := fun p w =>
  let m := Nat.min (fst w) (length p) in
  (m, if length p <=? fst w then None else Some (EOther 0), (fst w - m, snd w ++ firstn m p)).
Example good_nodes_applies : obeys limited snd /\ (exists out, encode_bytes (NTag ex_built_tag) = Ok out) /\
  (exists w, encode limited (NTag ex_built_tag) (20, []) = (Failed (EOther 0), w) /\ snd w <> []) /\
  (exists w, encode limited (NTag ex_built_tag) (200, []) = (Done, w)).
Proof.
  split; [|split; [|split]].
  - intros p w m e w' H. injection H as <- <- <-. cbn [snd]. split; [apply Nat.le_min_r|]. split; [reflexivity|].
    destruct (Nat.leb_spec (length p) (fst w)); [lia|discriminate].
  - eexists. vm_compute. reflexivity.
  - eexists. split; [vm_compute; reflexivity|discriminate].
  - eexists. vm_compute. reflexivity.
Qed.

(** A failing write is always reported, whatever else the writer does: log the errors a writer returns. *)
Definition logged {W} (wr : writer W) : writer (W * list err) := fun p wl =>
  let '(m, e, w') := wr p (fst wl) in
  (m, e, (w', snd wl ++ match e with Some x => [x] | None => [] end)).

Theorem write_errors_are_reported : forall W (wr : writer W) n w,
  match encode (logged wr) n (w, []) with
  | (Done, (_, errs)) => errs = []
  | (Failed e, (_, errs)) => errs = [e] \/ (errs = [] /\ (encode_bytes n = Err e \/ e = EShortWrite))
  | (Panicked, (_, errs)) => encode_bytes n = Panic \/ exists p w1 m e w2, wr p w1 = (m, e, w2) /\ length p < m
  end.
Proof.
  intros W wr n w. destruct (encode_node n) as [x|e| |] eqn:E; unfold encode; rewrite E.
  - destruct x as [b|typ body]; cbn [write_encoded]; unfold logged at 1; cbn [fst snd].
    + destruct (wr b w) as [[m [e|]] w1]; auto.
    + destruct (wr (header typ body) w) as [[m [e|]] w1]; [auto|]. unfold buffer_write_to. destruct body as [|x body]; [reflexivity|].
      unfold logged. cbn [fst snd]. destruct (wr (x :: body) w1) as [[m2 e2] w2] eqn:E2.
      destruct (Nat.ltb_spec (length (x :: body)) m2); [right; eauto 8|]. destruct e2; [auto|]. destruct (m2 =? length (x :: body)); [reflexivity|]. right. auto.
  - right. split; [reflexivity|]. left. unfold encode_bytes, encode. now rewrite E.
  - left. unfold encode_bytes, encode. now rewrite E.
  - left. unfold encode_bytes, encode. now rewrite E.
Qed.
Print Assumptions write_errors_are_reported.

(** But a writer that breaks the contract, taking fewer bytes without an error, goes unnoticed
    for blobs and for headers: the counts are ignored there (blob.go:52-53, tree.go:96, commit.go:202,
    tag.go:186). *)
Theorem short_writes_are_reported_refuted : exists (wr : writer bytes) n out w',
  encode_bytes n = Ok out /\ encode wr n [] = (Done, w') /\ w' <> out.
Proof.
  exists (fun p w => (0, None, w)), (NBlob (bs "x")), (bs "x"), []. split; [reflexivity|]. split; [reflexivity|discriminate].
Qed.
Print Assumptions short_writes_are_reported_refuted.
