(** C48, C49: walking through decoded objects, and paths.  WalkSpec.v says what these are. *)
From Verif Require Import Base GoStr Cid Types Nodes NodeSpec WalkSpec Reader Bufio Person Assemble Decode Spec HeaderSpec NormalSpec
  ReaderSpec StreamFacts NodeFacts DecodeFacts SafeOps Invariants NumFacts Transfer Checks NormalFacts Props_decode Props_grammar Props_header Props_nodes.

(** ** Walking gives one answer *)
Scheme walk_ind2 := Minimality for walk Sort Prop
with walks_ind2 := Minimality for walks Sort Prop.
Combined Scheme walk_walks_ind from walk_ind2, walks_ind2.

Lemma yields_kind n l : yields n l -> node_kind n = KMap.
Proof. intros (stop & next & E & _). destruct n; try discriminate E; reflexivity. Qed.
Lemma lists_kind n l : lists n l -> node_kind n = KList.
Proof. intros (stop & next & E & _). destruct n; try discriminate E; reflexivity. Qed.
Lemma yields_unique n l l' : yields n l -> yields n l' -> l = l'.
Proof. intros (s & f & E & R) (s' & f' & E' & R'). rewrite E in E'. injection E' as <- <-. eapply run_unique; eassumption. Qed.
Lemma lists_unique n l l' : lists n l -> lists n l' -> l = l'.
Proof. intros (s & f & E & R) (s' & f' & E' & R'). rewrite E in E'. injection E' as <- <-. eapply run_unique; eassumption. Qed.

Lemma walk_unique :
  (forall n ls, walk n ls -> forall ls', walk n ls' -> ls = ls') /\
  (forall ns ls, walks ns ls -> forall ls', walks ns ls' -> ls = ls').
Proof.
  apply walk_walks_ind.
  - intros n l K E ls' W. destruct W as [n l' _ E'|n kvs ls' Y _|n kvs ls' Y _|n (_ & _ & N)].
    + congruence.
    + apply yields_kind in Y. congruence.
    + apply lists_kind in Y. congruence.
    + contradiction.
  - intros n kvs ls Y W IH ls' W'. destruct W' as [n l' K E'|n kvs' ls' Y' W'|n kvs' ls' Y' _|n (N & _ & _)].
    + apply yields_kind in Y. congruence.
    + apply IH. now rewrite (yields_unique _ _ _ Y Y').
    + apply yields_kind in Y. apply lists_kind in Y'. congruence.
    + apply yields_kind in Y. contradiction.
  - intros n kvs ls Y W IH ls' W'. destruct W' as [n l' K E'|n kvs' ls' Y' _|n kvs' ls' Y' W'|n (_ & N & _)].
    + apply lists_kind in Y. congruence.
    + apply lists_kind in Y. apply yields_kind in Y'. congruence.
    + apply IH. now rewrite (lists_unique _ _ _ Y Y').
    + apply lists_kind in Y. contradiction.
  - intros n (A & B & C) ls' W. destruct W as [n l' K E'|n kvs' ls' Y' _|n kvs' ls' Y' W'|n _].
    + contradiction.
    + apply yields_kind in Y'. contradiction.
    + apply lists_kind in Y'. contradiction.
    + reflexivity.
  - intros ls' W. now inversion W.
  - intros n l ns ls _ IH1 _ IH2 ls' W. inversion W as [|n' l' ns' ls2 W1 W2]; subst. f_equal; auto.
Qed.

Lemma walks_map {A} (f : A -> node) (g : A -> list link) l : (forall a, walk (f a) (g a)) -> walks (map f l) (concat (map g l)).
Proof. intros H. induction l as [|a l IH]; [constructor|]. cbn [map concat]. constructor; auto. Qed.

Lemma concat_map_single {A} (l : list A) : concat (map (fun a => [a]) l) = l.
Proof. induction l as [|a l IH]; cbn; congruence. Qed.

(** ** The links in a value *)
Lemma walk_entries n kvs ls : map_entries n = Some kvs -> walks (map snd kvs) ls -> walk n ls.
Proof. intros E. apply walk_map. now apply map_entries_yields. Qed.
Lemma snd_combine {A B} (a : list A) : forall b : list B, length a = length b -> map snd (combine a b) = b.
Proof. induction a as [|x a IH]; intros [|y b] L; try discriminate L; cbn; [reflexivity|]. f_equal. apply IH. now injection L. Qed.
Lemma walk_items n l ls : list_items n = Some l -> walks l ls -> walk n ls.
Proof.
  intros E W. eapply walk_list; [apply list_items_lists; exact E|].
  enough (map snd (numbered l) = l) as -> by exact W. unfold numbered. apply snd_combine. now rewrite map_length, seq_length.
Qed.

Ltac scalar := apply walk_scalar; repeat split; discriminate.
Lemma walk_person p : walk (NPerson p) [] /\ walk (NPersonR p) [].
Proof. split; (eapply walk_entries; [reflexivity|]); cbn [map snd]; repeat (apply (walks_some _ []); [scalar|]); constructor. Qed.
Lemma walk_tag t : walk (NTag t) [t_object t] /\ walk (NTagR t) [t_object t].
Proof.
  split; (eapply walk_entries; [reflexivity|]); cbn [map snd]; apply (walks_some _ [t_object t]); try (now apply walk_link);
    (apply (walks_some _ []); [scalar|]); (apply (walks_some _ []); [scalar|]); (apply (walks_some _ []); [apply walk_person|]);
    (apply (walks_some _ []); [scalar|]); constructor.
Qed.
Lemma walk_entry e : walk (NEntry e) [e_hash e] /\ walk (NEntryR e) [e_hash e].
Proof.
  split; (eapply walk_entries; [reflexivity|]); cbn [map snd]; (apply (walks_some _ []); [scalar|]);
    apply (walks_some _ [e_hash e] [] []); try (now apply walk_link); constructor.
Qed.
Lemma walk_links l : walk (NCommitLinkList l) l /\ walk (NCommitLinkListR l) l.
Proof.
  assert (walks (map NCommitLink l) l) as W.
  { rewrite <- (concat_map_single l) at 2. apply walks_map. intros a. now apply walk_link. }
  split; (eapply walk_items; [reflexivity|exact W]).
Qed.
Lemma walk_strings l : walk (NStringList l) [] /\ walk (NStringListR l) [].
Proof.
  assert (walks (map NString l) []) as W.
  { induction l; [constructor|]. cbn [map]. apply (walks_some _ []); [scalar|assumption]. }
  split; (eapply walk_items; [reflexivity|exact W]).
Qed.
Lemma walk_tags l : walk (NTagList l) (map t_object l) /\ walk (NTagListR l) (map t_object l).
Proof.
  split; (eapply walk_items; [reflexivity|]); rewrite <- (concat_map_single (map t_object l)), map_map; apply walks_map; intros a; apply walk_tag.
Qed.
Lemma walk_opt {A} (f : A -> node) o : (forall a, walk (f a) []) -> walk (opt_node f o) [].
Proof. intros H. destruct o; cbn [opt_node]; [apply H|scalar]. Qed.

Definition commit_links (c : commit) : list link := c_tree c :: c_parents c ++ map t_object (c_mergetag c).
Lemma walk_commit c : walk (NCommit c) (commit_links c) /\ walk (NCommitR c) (commit_links c).
Proof.
  split; (eapply walk_entries; [reflexivity|]); unfold commit_links.
  - cbn [map snd]. apply (walks_some _ [c_tree c]); [now apply walk_link|]. apply walks_some; [apply walk_links|].
    apply (walks_some _ []); [scalar|].
    apply (walks_some _ []); [apply walk_opt; intros; apply walk_person|]. apply (walks_some _ []); [apply walk_opt; intros; apply walk_person|].
    apply (walks_some _ []); [apply walk_opt; intros; scalar|]. apply (walks_some _ []); [apply walk_opt; intros; scalar|].
    rewrite <- (app_nil_r (map t_object _)). apply walks_some; [apply walk_tags|]. apply (walks_some _ [] [] []); [apply walk_strings|constructor].
  - rewrite !map_app. cbn [map snd]. apply (walks_some _ [c_tree c]); [now apply walk_link|]. apply walks_some; [apply walk_links|].
    apply (walks_some _ []); [scalar|].
    assert (walks [NTagListR (c_mergetag c); NStringListR (c_other c)] (map t_object (c_mergetag c))) as W.
    { rewrite <- (app_nil_r (map t_object _)). apply walks_some; [apply walk_tags|]. apply (walks_some _ [] [] []); [apply walk_strings|constructor]. }
    destruct (c_author c), (c_committer c), (c_encoding c), (c_signature c); cbn [map app snd];
      repeat (apply (walks_some _ []); [first [apply walk_person | scalar]|]); exact W.
Qed.
Lemma walk_tree t : walk (NTree t) (map (fun ke => e_hash (snd ke)) (tr_t t)) /\ walk (NTreeR t) (map (fun ke => e_hash (snd ke)) (tr_t t)).
Proof.
  split; (eapply walk_entries; [reflexivity|]); rewrite map_map;
    rewrite <- (concat_map_single (map (fun ke : bytes * entry => e_hash (snd ke)) (tr_t t))), (map_map _ (fun a => [a])); cbn [snd];
    apply walks_map; intros a; apply walk_entry.
Qed.

(** ** C48: walking through a decoded object meets exactly the hashes in its text

    In both views, in this order.  A commit without tree line and a tag without object line
    have a nil link there. *)
Definition found (n : node) (ls : list link) : Prop :=
  (forall x, walk n x <-> x = ls) /\ (forall x, walk (representation n) x <-> x = ls).
Lemma found_both n ls : walk n ls /\ walk (representation n) ls -> found n ls.
Proof.
  intros [W1 W2]. split; intros x; (split; [intros W; eapply (proj1 walk_unique); eassumption|now intros ->]).
Qed.
Definition hash_or_nil (o : option bytes) : link := match o with Some sha => git_link sha | None => LNil end.

Theorem links_of_a_commit : forall B pa pc b size d c,
  64 <= B -> ~ In NUL size ->
  delivers B true b (mk (commit_bytes size d) EEOF) ->
  parse_object (bufio_ops pa pc) b = Ok (NCommit c) ->
  exists ks en,
    reads B d (header_lines ks ++ ending_lines en) (message en) /\ (forall k, In k ks -> block_ok k) /\
    found (NCommit c) (hash_or_nil (last_of (trees ks)) :: map git_link (parents ks ++ map gm_object (mergetags ks en))).
Proof.
  intros B pa pc b size d c HB N D E.
  destruct (commit_fields_come_from_its_lines B pa pc b size d c HB N D E) as (ks & en & R & K & Et & _ & Ep & _ & _ & _ & _ & Em & _).
  exists ks, en. split; [exact R|]. split; [exact K|]. apply found_both.
  enough (commit_links c = hash_or_nil (last_of (trees ks)) :: map git_link (parents ks ++ map gm_object (mergetags ks en))) as <- by apply walk_commit.
  unfold commit_links. rewrite Et, Ep, Em, map_app, !map_map. reflexivity.
Qed.
Print Assumptions links_of_a_commit.

Theorem links_of_a_tag : forall B pa pc b size d t,
  64 <= B -> ~ In NUL size ->
  delivers B true b (mk (tag_bytes size d) EEOF) ->
  parse_object (bufio_ops pa pc) b = Ok (NTag t) ->
  exists ts (msg : option bytes),
    reads B d (map tline_text ts ++ match msg with Some _ => [[]] | None => [] end) (or_else msg []) /\
    (forall x, In x ts -> tline_ok x) /\
    found (NTag t) [hash_or_nil (last_of (tobjects ts))].
Proof.
  intros B pa pc b size d t HB N D E.
  destruct (tag_fields_come_from_its_lines B pa pc b size d t HB N D E) as (ts & msg & R & K & Eo & _).
  exists ts, msg. split; [exact R|]. split; [exact K|]. apply found_both.
  replace (hash_or_nil (last_of (tobjects ts))) with (t_object t) by exact Eo. apply walk_tag.
Qed.
Print Assumptions links_of_a_tag.

Theorem links_of_trees_and_blobs : forall B pa pc b d n,
  64 <= B -> delivers B true b (mk d EEOF) -> parse_object (bufio_ops pa pc) b = Ok n ->
  (forall t, n = NTree t -> exists size es cutoff,
     d = bs "tree " ++ size ++ [NUL] ++ tree_text es ++ cutoff /\ ~ In NUL size /\ tree_ok es /\ incomplete cutoff /\
     found n (map (fun e => git_link (ge_sha e)) es)) /\
  (forall x, n = NBlob x -> found n []).
Proof.
  intros B pa pc b d n HB D E. split.
  - intros t ->. destruct (trees_are_read_in_file_order B pa pc b d t HB D E) as (size & es & cutoff & Ed & N & O & I & Y & _).
    exists size, es, cutoff. split; [exact Ed|]. split; [exact N|]. split; [exact O|]. split; [exact I|]. apply found_both.
    apply map_entries_yields in Y. cbn [map_entries] in Y. injection Y as Y.
    assert (map (fun ke => e_hash (snd ke)) (tr_t t) = map (fun e => git_link (ge_sha e)) es) as <-; [|apply walk_tree].
    apply (f_equal (map (fun kv => match snd kv with NEntry e => e_hash e | _ => LNil end))) in Y. rewrite !map_map in Y. exact Y.
  - intros x ->. apply found_both. split; scalar.
Qed.
Print Assumptions links_of_trees_and_blobs.

(** A commit with a tree, two parents, the second one twice, and a merge tag. *)
Example links_applies :
  let h x := hex_encode (repeat x 20) in
  let d := unlines [bs "tree " ++ h x01; bs "parent " ++ h x02; bs "parent " ++ h x03; bs "parent " ++ h x03;
                    bs "mergetag object " ++ h x04; bs " type commit"; bs " tag v1"; bs " "; bs " text"] ++ [NL] ++ bs "m" in
  let b := new_reader 64 (chunks [commit_bytes (bs "0") d] EEOF) in
  delivers 64 true b (mk (commit_bytes (bs "0") d) EEOF) /\
  exists c, parse_object (bufio_ops one_byte one_byte) b = Ok (NCommit c) /\
    commit_links c = map git_link [repeat x01 20; repeat x02 20; repeat x03 20; repeat x03 20; repeat x04 20].
Proof. cbn zeta. split; [apply one_chunk_delivers; discriminate|]. eexists. split; [vm_compute; reflexivity|reflexivity]. Qed.
Example links_of_trees_and_blobs_applies :
  let es := [(bs "100644", bs "b", repeat x00 20); (bs "160000", bs "module", repeat x01 20)] in
  let d := bs "tree 66" ++ [NUL] ++ tree_text es in
  let b := new_reader 64 (chunks [d] EEOF) in
  delivers 64 true b (mk d EEOF) /\ parse_object (bufio_ops one_byte one_byte) b = Ok (NTree (tree_value es)).
Proof. split; [apply one_chunk_delivers; discriminate|vm_compute; reflexivity]. Qed.

(** ** C49: paths

    A path that walking finds resolves to the node found there, and a path that resolves
    is one that walking finds, up to other ways of writing the positions in lists. *)
Definition same_segment (s s' : bytes) : Prop := s = s' \/ exists z, numeral s z /\ s' = dec_Z z.

Definition short {A} (l : list A) : Prop := (Z.of_nat (length l) < 2 ^ 63)%Z.
Definition sized (n : node) : Prop :=
  match n with
  | NTree t | NTreeR t => tree_inv t
  | NCommit c | NCommitR c => short (c_parents c) /\ short (c_mergetag c) /\ short (c_other c)
  | NTagList l | NTagListR l => short l
  | NStringList l | NStringListR l => short l
  | NCommitLinkList l | NCommitLinkListR l => short l
  | NGenList _ | NGenMap _ => False
  | _ => True
  end.

Lemma in_combine_nth {A B} (a : list A) : forall (b : list B) x y, In (x, y) (combine a b) ->
  exists i, nth_error a i = Some x /\ nth_error b i = Some y.
Proof.
  induction a as [|x0 a IH]; intros [|y0 b] x y I; try contradiction. destruct I as [E|I].
  - injection E as <- <-. now exists 0.
  - destruct (IH b x y I) as (i & P). now exists (S i).
Qed.
Lemma nth_in_combine {A B} (a : list A) : forall (b : list B) i x y, nth_error a i = Some x -> nth_error b i = Some y ->
  In (x, y) (combine a b).
Proof.
  induction a as [|x0 a IH]; intros b [|i] x y E1 E2; try discriminate; destruct b as [|y0 b]; try discriminate; cbn in *.
  - left. congruence.
  - right. eapply IH; eassumption.
Qed.

(** Maps: pairs yielded and lookups *)
Lemma struct_pairs n fields : struct_node n fields ->
  exists l, yields n l /\ (forall k v, In (k, v) l -> exists s, k = NString s) /\
    forall k v, In (NString k, v) l <-> lookup_by_string n k = Ok v.
Proof.
  intros H. destruct (struct_fields n fields H) as (vs & Y & L & _ & G & NG). eexists. split; [exact Y|]. split.
  - intros k v I. apply in_combine_nth in I as (i & I & _). rewrite nth_error_map in I. destruct (nth_error fields i); [|discriminate]. injection I as <-. eauto.
  - intros k v. split.
    + intros I. apply in_combine_nth in I as (i & I1 & I2). rewrite nth_error_map in I1. destruct (nth_error fields i) as [f|] eqn:F; [|discriminate].
      injection I1 as <-. eapply G; eassumption.
    + intros E. destruct (in_dec (list_eq_dec Byte.byte_eq_dec) k fields) as [I|I]; [|rewrite (NG k I) in E; discriminate].
      apply In_nth_error in I as (i & I). destruct (nth_error vs i) as [v'|] eqn:V.
      * pose proof (G i k v' I V) as E'. assert (v' = v) as -> by congruence. eapply nth_in_combine; [|exact V]. rewrite nth_error_map, I. reflexivity.
      * apply nth_error_None in V. assert (i < length fields) by (apply nth_error_Some; congruence). lia.
Qed.
Lemma repr_pairs n fields : struct_node n fields ->
  exists l, yields (representation n) l /\ (forall k v, In (k, v) l -> exists s, k = NString s) /\
    forall k v, In (NString k, v) l <-> lookup_by_string (representation n) k = Ok v.
Proof.
  intros H. destruct (representation_fields n fields H) as (l & Y & F & G & _). exists l. split; [exact Y|]. split; [|exact G].
  intros k v I. apply (in_map fst) in I. rewrite F in I. apply in_map_iff in I as (s & Q & _). exists s. now symmetry.
Qed.
Lemma tree_pairs n t : tree_inv t -> n = NTree t \/ n = NTreeR t ->
  exists l, yields n l /\ (forall k v, In (k, v) l -> exists s, k = NString s) /\
    forall k v, In (NString k, v) l <-> lookup_by_string n k = Ok v.
Proof.
  intros I [->| ->]; (eexists; split; [apply map_entries_yields; reflexivity|]); (split; [intros k v J; apply in_map_iff in J as (ke & E & _); injection E as <- _; eauto|]);
  intros k v; cbn [lookup_by_string];
  (split;
   [intros J; apply in_map_iff in J as ([k' e] & E & J); cbn [fst snd] in E; injection E as -> <-; apply (inv_assoc _ _ _ I) in J; now rewrite J
   |destruct (assoc k (tr_m t)) as [e|] eqn:A; [|discriminate]; intros E; injection E as <-; apply (inv_assoc _ _ _ I) in A; apply in_map_iff; now exists (k, e)]).
Qed.
Lemma map_pairs n : sized n -> node_kind n = KMap ->
  exists l, yields n l /\ (forall k v, In (k, v) l -> exists s, k = NString s) /\
    forall k v, In (NString k, v) l <-> lookup_by_string n k = Ok v.
Proof.
  intros S K. destruct n; try discriminate K; try contradiction S;
    try (eapply struct_pairs; constructor); try (eapply tree_pairs; [exact S|]; auto).
  - exact (repr_pairs _ _ (sn_person p)).
  - exact (repr_pairs _ _ (sn_tag t)).
  - exact (repr_pairs _ _ (sn_commit c)).
  - exact (repr_pairs _ _ (sn_entry e)).
Qed.

(** Values met inside a sized node are sized. *)
Lemma lookup_sized n k v : sized n -> lookup_by_string n k = Ok v -> sized v.
Proof.
  intros S E. destruct n; try discriminate E; try contradiction S; cbn [lookup_by_string sized] in *;
    repeat match type of E with context [if ?b then _ else _] => destruct b end; try discriminate E;
    repeat match type of E with context [match ?o with Some _ => _ | None => _ end] => destruct o end; try discriminate E;
    injection E as <-; cbn; try tauto;
    match goal with |- context [opt_node ?f ?o] => destruct o; exact I end.
Qed.
Lemma list_sized n items : list_node n items -> sized n -> short items /\ forall v, In v items -> sized v.
Proof. intros H S. destruct H; (split; [unfold short; rewrite map_length; exact S|]); intros v I; apply in_map_iff in I as (x & <- & _); exact Logic.I. Qed.
Lemma sized_list n : sized n -> node_kind n = KList -> exists items, list_node n items.
Proof. intros S K. destruct (list_kind n K) as [(l & ->)|H]; [contradiction|exact H]. Qed.

Lemma in_numbered l i v : In (i, v) (numbered l) <-> exists k, i = Z.of_nat k /\ nth_error l k = Some v.
Proof.
  split.
  - intros I. apply In_nth_error in I as (k & E). rewrite nth_numbered in E. destruct (nth_error l k) as [w|] eqn:N; [|discriminate].
    injection E as <- <-. eauto.
  - intros (k & -> & E). apply (nth_error_In _ k). now rewrite nth_numbered, E.
Qed.
Lemma segment_position l i v : short l -> In (i, v) (numbered l) -> atoi (dec_Z i) = Ok i.
Proof.
  intros S I. apply in_numbered in I as (k & -> & E). assert (k < length l) as K by (apply nth_error_Some; congruence).
  unfold short in S. change (2 ^ 63)%Z with 9223372036854775808%Z in S. unfold dec_Z. destruct (Z.ltb_spec (Z.of_nat k) 0); [lia|].
  rewrite atoi_dec by lia. f_equal. lia.
Qed.

Lemma child_lookup n s v : sized n -> child n s v -> sized v /\ lookup_by_segment n s = Ok v.
Proof.
  intros S C. destruct C as [l k s v Y I E|l i v Y I].
  - pose proof (yields_kind _ _ Y) as K. destruct (map_pairs n S K) as (l' & Y' & P & G). rewrite <- (yields_unique _ _ _ Y Y') in *.
    destruct (P k v I) as (s' & ->). cbn in E. injection E as <-. apply G in I. split; [eapply lookup_sized; eassumption|].
    unfold lookup_by_segment. now rewrite K.
  - pose proof (lists_kind _ _ Y) as K. destruct (sized_list n S K) as (items & H). destruct (list_sized n items H S) as [Sh Sv].
    destruct (list_lookup n items H) as (Y' & _ & X). rewrite (lists_unique _ _ _ Y Y') in I.
    unfold lookup_by_segment. rewrite K, (segment_position _ _ _ Sh I). cbn [bind]. apply in_numbered in I as (k & -> & N).
    split; [apply Sv; eapply nth_error_In; exact N|]. destruct (X (Z.of_nat k)) as (_ & _ & X3).
    assert (k < length items) by (apply nth_error_Some; congruence). destruct X3 as (w & N' & _ & ->); [lia|]. rewrite Nat2Z.id in N'. congruence.
Qed.
Lemma lookup_child n s v : sized n -> lookup_by_segment n s = Ok v -> exists s', child n s' v /\ same_segment s s'.
Proof.
  intros S E. unfold lookup_by_segment in E. destruct (node_kind n) eqn:K; try discriminate E.
  - destruct (map_pairs n S K) as (l & Y & P & G). exists s. split; [|now left]. apply G in E. eapply child_map; [exact Y|exact E|reflexivity].
  - destruct (sized_list n S K) as (items & H). destruct (list_lookup n items H) as (Y & _ & X).
    apply bind_ok in E as (z & A & E). destruct (X z) as (X1 & X2 & X3).
    destruct (Z.ltb_spec z 0); [rewrite X1 in E by lia; discriminate|].
    destruct (Z.leb_spec (Z.of_nat (length items)) z); [rewrite X2 in E by lia; discriminate|].
    destruct X3 as (w & _ & I & E'); [lia|]. assert (w = v) as -> by congruence.
    exists (dec_Z z). split; [eapply child_list; [exact Y|exact I]|]. right. exists z. split; [|reflexivity]. now apply atoi_iff in A.
Qed.

Lemma path_resolves n p m : at_path n p m -> sized n -> resolve n p = Ok m.
Proof.
  induction 1 as [n|n s v p m C _ IH]; intros S; [reflexivity|]. destruct (child_lookup n s v S C) as [Sv E].
  cbn [resolve]. rewrite E. cbn [bind]. auto.
Qed.
Lemma resolved_path p : forall n m, sized n -> resolve n p = Ok m -> exists p', at_path n p' m /\ Forall2 same_segment p p'.
Proof.
  induction p as [|s p IH]; intros n m S E; cbn [resolve] in E.
  - injection E as <-. exists []. split; constructor.
  - apply bind_ok in E as (v & E & R). destruct (lookup_child n s v S E) as (s' & C & Q).
    destruct (IH v m (proj1 (child_lookup n s' v S C)) R) as (p' & A & F). exists (s' :: p'). split; [econstructor; eassumption|now constructor].
Qed.

(** Decoded objects are sized: every line takes at least one byte. *)
Lemma takes_some B d l r : 2 <= B -> takes B d l r -> length r < length d.
Proof.
  intros HB H. destruct H; rewrite ?app_length; cbn; try lia. destruct l; [congruence|cbn; lia].
Qed.
Lemma reads_length B d ls r : 2 <= B -> reads B d ls r -> length ls + length r <= length d.
Proof.
  intros HB. induction 1 as [d|d l d1 ls r T R IH]; [cbn; lia|]. apply takes_some in T; [|exact HB]. cbn. lia.
Qed.
Lemma header_lines_length ks : length ks <= length (header_lines ks).
Proof.
  unfold header_lines. induction ks as [|k ks IH]; [cbn; lia|]. cbn [map concat]. rewrite app_length.
  assert (1 <= length (block_lines k)) by (destruct k; cbn; lia). cbn [length]. lia.
Qed.
Lemma flat_map_short {A B} (f : A -> list B) l : (forall a, length (f a) <= 1) -> length (flat_map f l) <= length l.
Proof. intros H. induction l as [|a l IH]; [cbn; lia|]. cbn [flat_map]. rewrite app_length. specialize (H a). cbn [length]. lia. Qed.

Lemma decoded_sized B pa pc b d n : 64 <= B -> delivers B true b (mk d EEOF) -> fits d ->
  parse_object (bufio_ops pa pc) b = Ok n -> sized n /\ sized (representation n).
Proof.
  intros HB D F E. pose proof (parse_decoded _ _ _ E) as I. pose proof E as A. apply (accepted_objects B pa pc b d _ HB D) in A.
  inversion A as [size content more N1 N2|size z d' t N1 N2 T|size z d' c N1 N2 M|size d' t pr N1 M]; subst.
  - split; exact Logic.I.
  - inversion I; subst. split; assumption.
  - destruct (commit_fields_come_from_its_lines B pa pc b size d' c HB (numeral_no_nul _ _ N1) D E) as (ks & en & R & _ & _ & _ & Ep & _ & _ & _ & _ & Em & Eo & _).
    apply reads_length in R; [|lia]. rewrite app_length in R. pose proof (header_lines_length ks) as L.
    assert (length d' <= length (bs "commit " ++ size ++ [NUL] ++ d')) as Ld by (rewrite !app_length; lia).
    unfold fits in F. cbn [sized representation]. unfold short. rewrite Ep, Em, Eo, !map_length.
    assert (length (parents ks) <= length ks) by (apply flat_map_short; intros [ | | | | | | | ]; cbn; lia).
    assert (length (others ks) <= length ks) by (apply flat_map_short; intros [ | | | | | | | ]; cbn; lia).
    assert (length (mergetags ks en) <= length ks + length (ending_lines en)).
    { unfold mergetags. rewrite app_length. apply Nat.add_le_mono; [apply flat_map_short; intros [ | | | | | | | ]; cbn; lia|destruct en; cbn; lia]. }
    repeat split; lia.
  - split; exact Logic.I.
Qed.

Theorem paths_agree_with_walking : forall B pa pc b d n view,
  64 <= B -> delivers B true b (mk d EEOF) -> fits d -> parse_object (bufio_ops pa pc) b = Ok n ->
  view = n \/ view = representation n ->
  (forall p m, at_path view p m -> resolve view p = Ok m) /\
  (forall p m, resolve view p = Ok m -> exists p', at_path view p' m /\ Forall2 same_segment p p').
Proof.
  intros B pa pc b d n view HB D F E V. assert (sized view) as S.
  { destruct (decoded_sized B pa pc b d n HB D F E). now destruct V as [->| ->]. }
  split; [intros p m A; now apply path_resolves|intros p m R; now apply resolved_path].
Qed.
Print Assumptions paths_agree_with_walking.

(** Different paths lead to the same node: the hash of the first parent of this commit is
    also found under paths that walking does not produce. *)
Theorem paths_are_unique_refuted : exists d c,
  let b := new_reader 64 (chunks [commit_bytes (bs "0") d] EEOF) in
  let m := NCommitLink (git_link (repeat x02 20)) in
  delivers 64 true b (mk (commit_bytes (bs "0") d) EEOF) /\
  parse_object (bufio_ops one_byte one_byte) b = Ok (NCommit c) /\
  resolve (NCommit c) [bs "parents"; bs "0"] = Ok m /\
  resolve (NCommit c) [bs "parents"; bs "+0"] = Ok m /\ resolve (NCommit c) [bs "parents"; bs "00"] = Ok m /\
  ~ at_path (NCommit c) [bs "parents"; bs "00"] m.
Proof.
  exists (unlines [bs "tree " ++ hex_encode (repeat x01 20); bs "parent " ++ hex_encode (repeat x02 20)] ++ [NL] ++ bs "m").
  eexists. cbn zeta. split; [apply one_chunk_delivers; discriminate|]. split; [vm_compute; reflexivity|].
  split; [vm_compute; reflexivity|]. split; [vm_compute; reflexivity|]. split; [vm_compute; reflexivity|].
  intros A. inversion A as [|n s v p m C A1]; subst.
  match type of C with child ?x _ _ => assert (sized x) as S by (repeat split; reflexivity) end.
  apply (child_lookup _ _ _ S) in C as [_ Q]. vm_compute in Q. injection Q as <-.
  inversion A1 as [|n1 s1 v1 p1 m1 C1 A2]; subst. inversion C1 as [l k s ? Y I Q Es Ev|l i ? Y I Q Ev]; subst.
  - apply yields_kind in Y. discriminate Y.
  - match type of Y with lists ?x _ => rewrite (lists_unique _ _ _ Y (list_items_lists x _ eq_refl)) in I end.
    apply in_numbered in I as ([|[|k]] & -> & N); try discriminate N. discriminate Q.
Qed.
Print Assumptions paths_are_unique_refuted.

Example paths_apply :
  at_path (NCommit ex_commit) [bs "parents"; bs "0"] (NCommitLink (git_link (repeat x08 20))) /\
  at_path (NCommitR ex_commit) [bs "author"; bs "name"] (NString []) /\
  at_path (NCommit ex_commit) [bs "committer"] NAbsent.
Proof.
  assert (forall n l k s v p m, map_entries n = Some l -> In (k, v) l -> as_string k = Ok s -> at_path v p m -> at_path n (s :: p) m) as M.
  { intros n l k s v p m E I Q A. eapply at_child; [eapply child_map; [now apply map_entries_yields in E; exact E|exact I|exact Q]|exact A]. }
  split; [|split].
  - eapply M; [reflexivity|right; left; reflexivity|reflexivity|]. change (bs "0") with (dec_Z 0).
    eapply at_child; [eapply (child_list _ (numbered [NCommitLink (git_link (repeat x08 20))])); [now apply list_items_lists|left; reflexivity]|constructor].
  - eapply M; [reflexivity|do 3 right; left; reflexivity|reflexivity|]. eapply M; [reflexivity|do 3 right; left; reflexivity|reflexivity|constructor].
  - eapply M; [reflexivity|do 4 right; left; reflexivity|reflexivity|constructor].
Qed.
