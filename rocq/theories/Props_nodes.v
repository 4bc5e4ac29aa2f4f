(** C22, C38, C39: reading the generated nodes.  NodeSpec.v says what iterating means. *)
From Verif Require Import Base GoStr Cid Types Nodes NodeSpec Reader Assemble Decode Spec HeaderSpec NormalSpec
  Invariants NodeFacts TreeHeap TreeHeapFacts Bufio ReaderSpec BufioFacts Transfer Props_decode Props_header Props_grammar.

(** ** C38: structs *)

(** Iterating over a struct yields every field of the schema once, in order, with the
    value that looking it up gives; other names are unknown. *)
Theorem struct_fields : forall n fields, struct_node n fields ->
  exists vs, yields n (combine (map NString fields) vs) /\ length vs = length fields /\
    node_length n = Z.of_nat (length fields) /\
    (forall i k v, nth_error fields i = Some k -> nth_error vs i = Some v -> lookup_by_string n k = Ok v) /\
    (forall k, ~ In k fields -> lookup_by_string n k = Err (EInvalidKey k)).
Proof.
  assert (forall k f fs (r1 r2 : res node), ~ In k (f :: fs) -> (~ In k fs -> r2 = Err (EInvalidKey k)) ->
            (if beqb k f then r1 else r2) = Err (EInvalidKey k)) as X.
  { intros k f fs r1 r2 N H. rewrite beqb_neq by (intros ->; apply N; now left). apply H. intros I. apply N. now right. }
  intros n fields H. destruct H as [p|t|e|c].
  all: match goal with |- context [yields ?n] => destruct (map_entries n) as [l|] eqn:M; [|discriminate M];
         pose proof (proj1 (map_entries_yields _ _) M) as Y; cbn [map_entries] in M; injection M as <- end.
  all: match type of Y with yields _ ?l => exists (map snd l) end.
  all: split; [exact Y|]; clear Y; split; [reflexivity|]; split; [reflexivity|]; split.
  all: try (intros k N; cbn [lookup_by_string]; repeat (eapply X; [exact N|clear N; intros N]); reflexivity).
  all: intros i k v Hk Hv; repeat (destruct i as [|i]; [cbn in Hk, Hv; injection Hk as <-; injection Hv as <-; reflexivity|]);
    destruct i; discriminate Hk.
Qed.
Print Assumptions struct_fields.

(** The representation leaves out exactly the fields that are absent; the others keep
    their order, and looking one up gives the representation of the field. *)
Definition absent (n : node) (k : bytes) : bool :=
  match lookup_by_string n k with Ok NAbsent => true | _ => false end.

Theorem representation_fields : forall n fields, struct_node n fields ->
  exists l, yields (representation n) l /\
    map fst l = map NString (filter (fun k => negb (absent n k)) fields) /\
    (forall k v, In (NString k, v) l <-> lookup_by_string (representation n) k = Ok v) /\
    node_length (representation n) = Z.of_nat (length l) /\
    (forall k, lookup_by_string (representation n) k =
       match lookup_by_string n k with
       | Ok NAbsent => Err ENotExists
       | Ok v => Ok (representation v)
       | r => r
       end).
Proof.
  intros n fields H.
  assert (forall k, lookup_by_string (representation n) k =
            match lookup_by_string n k with Ok NAbsent => Err ENotExists | Ok v => Ok (representation v) | r => r end) as L.
  { intros k. destruct H as [p|t|e|c]; cbn [representation lookup_by_string];
      repeat (match goal with |- context [if beqb ?a ?b then _ else _] => destruct (beqb a b); [try reflexivity|] end);
      try reflexivity;
      match goal with |- context [opt_node _ (?f c)] => destruct (f c); reflexivity end. }
  destruct (map_entries (representation n)) as [l|] eqn:M; [|destruct H; discriminate M].
  exists l. split; [now apply map_entries_yields|]. 
  split; [|split; [|split; [|exact L]]].
  - destruct H as [p|t|e|c]; cbn [representation map_entries] in M; injection M as <-; try reflexivity.
    destruct c as [? ? ? a cm en sg ? ?]. destruct a, cm, en, sg; reflexivity.
  - intros k v. destruct H as [p|t|e|c]; cbn [representation map_entries] in M; injection M as <-; cbn [representation lookup_by_string].
    4: destruct c as [? ? ? a cm en sg ? ?]; cbn [Types.c_tree Types.c_parents Types.c_message Types.c_author Types.c_committer Types.c_encoding Types.c_signature Types.c_mergetag Types.c_other];
       destruct a, cm, en, sg; cbn [app].
    all: split;
      [ intros I; repeat (destruct I as [I|I]; [injection I as <- <-; reflexivity|]); destruct I
      | repeat (match goal with |- context [if beqb ?a ?b then _ else _] => destruct (beqb_spec a b) as [->|]; [intros Q; try discriminate Q; injection Q as <-; cbn; tauto|] end);
        discriminate ].
  - destruct H as [p|t|e|c]; cbn [representation map_entries] in M; injection M as <-; try reflexivity.
    destruct c as [? ? ? a cm en sg ? ?]. destruct a, cm, en, sg; reflexivity.
Qed.
Print Assumptions representation_fields.

(** Calling Next after Done is an error, never a crash or a repeated pair. *)
Theorem no_overread : forall n stop next i,
  map_iterator n = Some (stop, next) -> stop <= i -> next i = Err EOverread.
Proof.
  assert (forall A (l : list A) i, length l <= i -> nth_error l i = None) as X by (intros; now apply nth_error_None).
  intros n stop next i E Hi. destruct n; try discriminate E; cbn [map_iterator] in E; injection E as <- <-;
    try (do 10 (destruct i as [|i]; [try (exfalso; lia); reflexivity|]); reflexivity).
  - unfold gen_next. now rewrite X.
  - unfold tree_next. now rewrite X.
  - unfold tree_next. now rewrite X.
Qed.
Print Assumptions no_overread.

(** A commit with some optional fields and without others. *)
Definition ex_commit : commit :=
  {| c_tree := git_link (repeat x07 20); c_parents := [git_link (repeat x08 20)]; c_message := bs "m";
     c_author := Some zero_person; c_committer := None; c_encoding := None; c_signature := Some (bs "s");
     c_mergetag := []; c_other := [bs "x"] |}.
Example struct_fields_applies :
  struct_node (NCommit ex_commit) commit_fields /\
  filter (fun k => negb (absent (NCommit ex_commit) k)) commit_fields =
    [bs "tree"; bs "parents"; bs "message"; bs "author"; bs "signature"; bs "mergetag"; bs "other"] /\
  node_length (NCommitR ex_commit) = 7%Z /\
  yields (NCommitR ex_commit)
    [(NString (bs "tree"), NTreeLink (git_link (repeat x07 20))); (NString (bs "parents"), NCommitLinkListR [git_link (repeat x08 20)]);
     (NString (bs "message"), NString (bs "m")); (NString (bs "author"), NPersonR zero_person); (NString (bs "signature"), NGpgSig (bs "s"));
     (NString (bs "mergetag"), NTagListR []); (NString (bs "other"), NStringListR [bs "x"])].
Proof. repeat split; try constructor. apply map_entries_yields. reflexivity. Qed.

(** ** C39: lists *)

Theorem list_lookup : forall n items, list_node n items ->
  lists n (numbered items) /\ node_length n = Z.of_nat (length items) /\
  forall i : Z,
    ((i < 0)%Z -> lookup_by_index n i = Panic) /\
    ((Z.of_nat (length items) <= i)%Z -> lookup_by_index n i = Err ENotExists) /\
    ((0 <= i < Z.of_nat (length items))%Z ->
       exists v, nth_error items (Z.to_nat i) = Some v /\ In (i, v) (numbered items) /\ lookup_by_index n i = Ok v).
Proof.
  intros n items H.
  assert (list_items n = Some items) as L by (destruct H; reflexivity).
  split; [now apply list_items_lists|]. split; [destruct H; cbn [node_length]; now rewrite map_length|].
  assert (forall A (f : A -> node) (l : list A) i,
    ((i < 0)%Z -> map_res f (go_list_index l i) = Panic) /\
    ((Z.of_nat (length (map f l)) <= i)%Z -> map_res f (go_list_index l i) = Err ENotExists) /\
    ((0 <= i < Z.of_nat (length (map f l)))%Z ->
       exists v, nth_error (map f l) (Z.to_nat i) = Some v /\ In (i, v) (numbered (map f l)) /\ map_res f (go_list_index l i) = Ok v)) as X.
  { clear. intros A f l i. unfold go_list_index. rewrite map_length. split; [|split]; intros Hi.
    - destruct (Z.leb_spec (Z.of_nat (length l)) i); [lia|]. destruct (Z.ltb_spec i 0); [reflexivity|lia].
    - destruct (Z.leb_spec (Z.of_nat (length l)) i); [reflexivity|lia].
    - destruct (Z.leb_spec (Z.of_nat (length l)) i); [lia|]. destruct (Z.ltb_spec i 0); [lia|].
      destruct (nth_error l (Z.to_nat i)) as [a|] eqn:N; [|apply nth_error_None in N; lia].
      exists (f a). rewrite nth_error_map, N. split; [reflexivity|]. split.
      + apply (nth_error_In _ (Z.to_nat i)). rewrite nth_numbered, nth_error_map, N. cbn. do 2 f_equal. lia.
      + unfold go_at. now rewrite N. }
  intros i. destruct H; exact (X _ _ _ i).
Qed.
Print Assumptions list_lookup.

Example list_lookup_applies : list_node (NStringList [bs "a"; bs "b"]) [NString (bs "a"); NString (bs "b")].
Proof. apply (ln_strings [bs "a"; bs "b"]). Qed.

(** Lookups crash exactly for negative positions in a list and, by node, for keys of a
    tree that are not its own strings. *)
Definition crashes_by_segment (n : node) (seg : bytes) : Prop :=
  (exists items, list_node n items) /\ exists z, atoi seg = Ok z /\ (z < 0)%Z.
Definition crashes_by_node (n k : node) : Prop :=
  ((exists t, n = NTree t \/ n = NTreeR t) /\ (forall s, k <> NString s)) \/
  ((exists items, list_node n items) /\ exists z, k = NInt z /\ (z < 0)%Z).

Lemma lookup_by_string_safe n k : safe (lookup_by_string n k).
Proof.
  assert (forall kvs, safe (gen_lookup k kvs)) as G.
  { induction kvs as [|[k1 v] l IH]; [exact I|]. cbn [gen_lookup].
    destruct (as_string k1); auto. destruct (beqb k a); [exact I|auto]. }
  destruct n; cbn [lookup_by_string]; try exact I; try apply G;
    repeat (match goal with |- context [if ?b then _ else _] => destruct b end); try exact I;
    repeat (match goal with |- context [match ?b with _ => _ end] => destruct b end); exact I.
Qed.

Lemma gen_list_safe l i : safe (lookup_by_index (NGenList l) i).
Proof.
  cbn [lookup_by_index]. destruct (Z.ltb_spec i 0); cbn [orb]; [exact I|].
  destruct (Z.leb_spec (Z.of_nat (length l)) i); [exact I|]. unfold go_at.
  destruct (nth_error l (Z.to_nat i)) eqn:N; [exact I|]. apply nth_error_None in N. lia.
Qed.

Lemma list_kind n : node_kind n = KList -> (exists l, n = NGenList l) \/ exists items, list_node n items.
Proof. destruct n; try discriminate; eauto; intros _; right; eexists; constructor. Qed.

Lemma list_index_panics n items i : list_node n items -> lookup_by_index n i = Panic <-> (i < 0)%Z.
Proof.
  intros H. destruct (list_lookup n items H) as (_ & _ & X). destruct (X i) as (X1 & X2 & X3). split; [|exact X1].
  intros P. destruct (Z.ltb_spec i 0); [assumption|]. exfalso. destruct (Z.leb_spec (Z.of_nat (length items)) i).
  - rewrite X2 in P by lia. discriminate.
  - destruct X3 as (v & _ & _ & Q); [lia|]. rewrite Q in P. discriminate.
Qed.

Lemma safe_not_panic {A} (r : res A) : safe r -> r <> Panic.
Proof. now intros H ->. Qed.

Theorem lookups_crash_exactly : forall n,
  (forall k, lookup_by_string n k <> Panic) /\
  (forall seg, lookup_by_segment n seg = Panic <-> crashes_by_segment n seg) /\
  (forall k, lookup_by_node n k = Panic <-> crashes_by_node n k).
Proof.
  intros n. split; [intros; apply safe_not_panic, lookup_by_string_safe|]. split.
  - intros seg. unfold lookup_by_segment, crashes_by_segment.
    destruct (node_kind n) eqn:K;
      try (split; [discriminate|]; intros ((items & H) & _); destruct H; discriminate K).
    + split; [intros H; exfalso; revert H; apply safe_not_panic, lookup_by_string_safe|]. intros ((items & H) & _); destruct H; discriminate K.
    + pose proof (atoi_safe seg) as A. destruct (list_kind n K) as [(l & ->)|(items & H)].
      * split.
        -- intros P. exfalso. destruct (atoi seg) as [z| | |]; try contradiction; cbn [bind] in P; try discriminate. revert P. apply safe_not_panic, gen_list_safe.
        -- intros ((items & H) & _). inversion H.
      * split.
        -- intros P. split; [eauto|]. destruct (atoi seg) as [z| | |]; try contradiction; cbn [bind] in P; try discriminate.
           exists z. split; [reflexivity|]. now apply (list_index_panics n items).
        -- intros (_ & z & -> & Hz). cbn [bind]. now apply (list_index_panics n items).
  - intros k. unfold lookup_by_node, crashes_by_node.
    destruct n as [| | | | | | | |l| | | | | | | | | | | | | | | | | | | | | |t|t];
    try (cbn [node_kind]; split; [discriminate|]; intros [((t & [Q|Q]) & _)|((items & H) & _)]; [discriminate Q|discriminate Q|inversion H]).
    all: try (cbn [node_kind]; split;
      [ intros P; exfalso; destruct (as_string k) as [s| | |] eqn:A; cbn [bind] in P; try discriminate P;
          [revert P; apply safe_not_panic, lookup_by_string_safe|destruct k; discriminate A]
      | intros [((t' & [Q|Q]) & _)|((items & H) & _)]; [discriminate Q|discriminate Q|inversion H]]).
    + cbn [node_kind]. split.
      * intros P. exfalso. destruct k; try discriminate P. revert P. apply safe_not_panic, gen_list_safe.
      * intros [((t & [Q|Q]) & _)|((items & H) & _)]; [discriminate Q|discriminate Q|inversion H].
    + cbn [node_kind]. split; [intros P; right; destruct k; try discriminate P; split; [eexists; constructor|]; eexists; split; [reflexivity|]; eapply list_index_panics; [constructor|exact P]|].
      intros [((t & [Q|Q]) & _)|(_ & z & -> & Hz)]; [discriminate Q|discriminate Q|]. eapply list_index_panics; [constructor|exact Hz].
    + cbn [node_kind]. split; [intros P; right; destruct k; try discriminate P; split; [eexists; constructor|]; eexists; split; [reflexivity|]; eapply list_index_panics; [constructor|exact P]|].
      intros [((t & [Q|Q]) & _)|(_ & z & -> & Hz)]; [discriminate Q|discriminate Q|]. eapply list_index_panics; [constructor|exact Hz].
    + cbn [node_kind]. split; [intros P; right; destruct k; try discriminate P; split; [eexists; constructor|]; eexists; split; [reflexivity|]; eapply list_index_panics; [constructor|exact P]|].
      intros [((t & [Q|Q]) & _)|(_ & z & -> & Hz)]; [discriminate Q|discriminate Q|]. eapply list_index_panics; [constructor|exact Hz].
    + cbn [node_kind]. split; [intros P; right; destruct k; try discriminate P; split; [eexists; constructor|]; eexists; split; [reflexivity|]; eapply list_index_panics; [constructor|exact P]|].
      intros [((t & [Q|Q]) & _)|(_ & z & -> & Hz)]; [discriminate Q|discriminate Q|]. eapply list_index_panics; [constructor|exact Hz].
    + cbn [node_kind]. split; [intros P; right; destruct k; try discriminate P; split; [eexists; constructor|]; eexists; split; [reflexivity|]; eapply list_index_panics; [constructor|exact P]|].
      intros [((t & [Q|Q]) & _)|(_ & z & -> & Hz)]; [discriminate Q|discriminate Q|]. eapply list_index_panics; [constructor|exact Hz].
    + cbn [node_kind]. split; [intros P; right; destruct k; try discriminate P; split; [eexists; constructor|]; eexists; split; [reflexivity|]; eapply list_index_panics; [constructor|exact P]|].
      intros [((t & [Q|Q]) & _)|(_ & z & -> & Hz)]; [discriminate Q|discriminate Q|]. eapply list_index_panics; [constructor|exact Hz].
    + split.
      * intros P. left. split; [eauto|]. intros s ->. revert P. apply safe_not_panic, lookup_by_string_safe.
      * intros [(_ & Q)|((items & H) & _)]; [|inversion H]. destruct k; try reflexivity. now contradiction (Q s).
    + split.
      * intros P. left. split; [eauto|]. intros s ->. revert P. apply safe_not_panic, lookup_by_string_safe.
      * intros [(_ & Q)|((items & H) & _)]; [|inversion H]. destruct k; try reflexivity. now contradiction (Q s).
Qed.
Print Assumptions lookups_crash_exactly.

(** "Lookups never crash" is false: the path "parents/-1" crashes for every commit, and
    so does a generic string as the key of a tree. *)
Theorem lookups_never_crash_refuted :
  (forall c, exists ps, lookup_by_segment (NCommit c) (bs "parents") = Ok ps /\ lookup_by_segment ps (bs "-1") = Panic) /\
  (forall t s, lookup_by_node (NTree t) (NGenString s) = Panic).
Proof.
  split; [|reflexivity]. intros c. eexists. split; [reflexivity|].
  apply lookups_crash_exactly. split; [eexists; constructor|]. exists (-1)%Z. split; [vm_compute; reflexivity|lia].
Qed.
Print Assumptions lookups_never_crash_refuted.

(** ** C22: trees

    The tree with its pointers (TreeHeap.v), for every way [grow] of growing arrays and
    any reader. *)
Lemma decode_tree_inv {S V} (ops : rdops S V) s t : decode_tree ops BTree s = Ok (NTree t) -> tree_inv t.
Proof.
  unfold decode_tree. intros E. apply bind_ok in E as ((z & s1) & _ & E). apply bind_ok in E as (t1 & E1 & E).
  cbn [build_node assign_tree map_res bind] in E. injection E as <-. eapply inv_tree_loop; [exact zero_tree_inv|exact E1].
Qed.

Lemma assoc_some {A} k (l : list (bytes * A)) v : NoDup (map fst l) -> assoc k l = Some v <-> In (k, v) l.
Proof.
  induction l as [|[k1 v1] l IH]; cbn [assoc map fst In]; intros N; [split; [discriminate|tauto]|].
  inversion N as [|? ? N1 N2]; subst. destruct (beqb_spec k k1) as [->|D].
  - split; [intros [= ->]; now left|]. intros [[= ->]|I]; [reflexivity|]. contradiction N1. now apply (in_map fst) in I.
  - rewrite IH by assumption. split; [now right|]. intros [[= -> ->]|I]; [congruence|assumption].
Qed.

Lemma inv_assoc t k e : tree_inv t -> assoc k (tr_m t) = Some e <-> In (k, e) (tr_t t).
Proof.
  intros [H1 H2 _]. rewrite H1. rewrite assoc_some; [|rewrite map_rev; now apply NoDup_rev]. now rewrite <- in_rev.
Qed.

Theorem tree_lookup_agrees_with_iteration : forall S V (ops : rdops S V) grow s h,
  h_decode_tree ops grow s = Ok h ->
  exists l, run (Z.to_nat (h_length h)) (h_next h) 0 l /\ h_length h = Z.of_nat (length l) /\
    NoDup (map fst l) /\
    (forall name e, h_lookup h name = Ok e <-> In (name, e) l) /\
    (forall name, h_lookup h name = Err ENotExists <-> ~ In name (map fst l)).
Proof.
  intros S V ops grow s h E. pose proof (h_decode_tree_models ops grow s) as M. rewrite E in M.
  destruct (decode_tree ops BTree s) as [n| | |] eqn:D; try contradiction. destruct M as (t & -> & M).
  apply decode_tree_inv in D. exists (tr_t t). rewrite (models_length _ _ M), Nat2Z.id. split; [|split; [reflexivity|split; [apply D|split]]].
  - apply run_whole. intros i [k e] N. rewrite (models_next _ _ _ M), N. reflexivity.
  - intros name e. rewrite (models_lookup _ _ _ M), <- (inv_assoc t name e D).
    destruct (assoc name (tr_m t)); split; congruence.
  - intros name. rewrite (models_lookup _ _ _ M). destruct (assoc name (tr_m t)) as [e|] eqn:A.
    + apply (inv_assoc t name e D) in A. apply (in_map fst) in A. split; [discriminate|]. intros N. now contradiction N.
    + split; [|reflexivity]. intros _ I. apply in_map_iff in I as ([k e] & <- & I). apply (inv_assoc t k e D) in I. cbn in A. congruence.
Qed.
Print Assumptions tree_lookup_agrees_with_iteration.

(** The pointers make no difference: the decoder with pointers gives the tree that the
    decoder of Decode.v gives, whatever the growth of arrays, and both answer alike. *)
Theorem pointers_do_not_matter : forall S V (ops : rdops S V) grow s,
  match h_decode_tree ops grow s, decode_tree ops BTree s with
  | Ok h, Ok n =>
      exists l, run (Z.to_nat (h_length h)) (h_next h) 0 l /\
        yields n (map (fun ke => (NString (fst ke), NEntry (snd ke))) l) /\
        node_length n = h_length h /\
        forall name, lookup_by_string n name = map_res NEntry (h_lookup h name)
  | Err x, Err y => x = y
  | Panic, Panic => True
  | OutOfFuel, OutOfFuel => True
  | _, _ => False
  end.
Proof.
  intros S V ops grow s. pose proof (h_decode_tree_models ops grow s) as M.
  destruct (h_decode_tree ops grow s) as [h| | |], (decode_tree ops BTree s) as [n| | |]; auto. destruct M as (t & -> & M).
  exists (tr_t t). rewrite (models_length _ _ M), Nat2Z.id. split; [|split; [|split]].
  - apply run_whole. intros i [k e] N. rewrite (models_next _ _ _ M), N. reflexivity.
  - apply map_entries_yields. reflexivity.
  - reflexivity.
  - intros name. cbn [lookup_by_string]. rewrite (models_lookup _ _ _ M). destruct (assoc name (tr_m t)); reflexivity.
Qed.
Print Assumptions pointers_do_not_matter.

(** Iteration yields the entries in the order of the file, and looking a name up gives
    its entry. *)
Theorem trees_are_read_in_file_order : forall B pa pc b d t,
  64 <= B -> delivers B true b (mk d EEOF) -> parse_object (bufio_ops pa pc) b = Ok (NTree t) ->
  exists size es cutoff,
    d = bs "tree " ++ size ++ [NUL] ++ tree_text es ++ cutoff /\ ~ In NUL size /\ tree_ok es /\ incomplete cutoff /\
    let entry e := {| e_mode := ge_mode e; e_hash := git_link (ge_sha e) |} in
    yields (NTree t) (map (fun e => (NString (ge_name e), NEntry (entry e))) es) /\
    yields (NTreeR t) (map (fun e => (NString (ge_name e), NEntryR (entry e))) es) /\
    node_length (NTree t) = Z.of_nat (length es) /\
    (forall e, In e es -> lookup_by_string (NTree t) (ge_name e) = Ok (NEntry (entry e)) /\
                          lookup_by_string (NTreeR t) (ge_name e) = Ok (NEntryR (entry e))) /\
    (forall name, ~ In name (map ge_name es) -> lookup_by_string (NTree t) name = Err ENotExists).
Proof.
  intros B pa pc b d t HB D E. pose proof (parse_decoded _ _ _ E) as I. inversion I as [|? TI| |]; subst. clear I.
  apply (accepted_objects B pa pc b d _ HB D) in E. inversion E as [|size z d' t' N R T| |]; subst. destruct T as (es & cutoff & -> & O & C & ->).
  exists size, es, cutoff. split; [reflexivity|]. split; [eapply numeral_no_nul; exact N|]. split; [exact O|]. split; [exact C|]. cbn zeta.
  split; [apply map_entries_yields; cbn [map_entries tree_value tr_t]; rewrite map_map; reflexivity|].
  split; [apply map_entries_yields; cbn [map_entries tree_value tr_t]; rewrite map_map; reflexivity|].
  split; [cbn [node_length tree_value tr_t]; now rewrite map_length|]. split.
  - intros e Ie. cbn [lookup_by_string].
    assert (assoc (ge_name e) (tr_m (tree_value es)) = Some {| e_mode := ge_mode e; e_hash := git_link (ge_sha e) |}) as ->; [|auto].
    apply (inv_assoc _ _ _ TI). cbn [tree_value tr_t]. apply in_map_iff. now exists e.
  - intros name Nn. cbn [lookup_by_string]. destruct (assoc name (tr_m (tree_value es))) as [e|] eqn:A; [|reflexivity].
    apply (inv_assoc _ _ _ TI) in A. cbn [tree_value tr_t] in A. apply in_map_iff in A as (g & G & Ig). injection G as <- _. contradiction Nn. now apply in_map.
Qed.
Print Assumptions trees_are_read_in_file_order.

(** Two entries, arrays that grow by one cell: the second append moves the first entry,
    and the map still refers to the old array. *)
Example tree_lookup_applies :
  let es := [(bs "100644", bs "b", repeat x00 20); (bs "40000", bs "a", repeat x01 20)] in
  match h_decode_tree (stream_ops 64) (fun _ => 0) (mk (bs "66" ++ [NUL] ++ tree_text es) EEOF) with
  | Ok h => ht_m h = [(bs "a", (2, 1)); (bs "b", (1, 0))] /\ sl_array (ht_t h) = 2 /\
            h_lookup h (bs "b") = Ok {| e_mode := bs "100644"; e_hash := git_link (repeat x00 20) |} /\
            h_lookup h (bs "c") = Err ENotExists
  | _ => False
  end.
Proof. vm_compute. repeat split. Qed.
Example trees_in_file_order_applies :
  let es := [(bs "100644", bs "b", repeat x00 20); (bs "40000", bs "a", repeat x01 20)] in
  let d := bs "tree 66" ++ [NUL] ++ tree_text es in
  let b := new_reader 64 (chunks [d] EEOF) in
  delivers 64 true b (mk d EEOF) /\ parse_object (bufio_ops one_byte one_byte) b = Ok (NTree (tree_value es)).
Proof. split; [apply one_chunk_delivers; discriminate|vm_compute; reflexivity]. Qed.
