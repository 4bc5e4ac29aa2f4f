(** C54, C55: the typed side of the nodes. *)
From Verif Require Import Base GoStr Cid Types Nodes Assemble NodeSpec NodeFacts StructSpec StructFacts Builder AssignCalls Props_assign Props_nodes Typed.

(** C54.  Every accessor gives what LookupByString gives under the name of its field, and
    panics on a nil pointer. *)
Theorem accessors_are_lookups :
  (forall c, let get := lookup_by_string (NCommit c) in
     map_res NTreeLink (commit_FieldTree (Some c)) = get (bs "tree") /\
     map_res NCommitLinkList (commit_FieldParents (Some c)) = get (bs "parents") /\
     map_res NString (commit_FieldMessage (Some c)) = get (bs "message") /\
     bind (commit_FieldAuthor (Some c)) (maybe_as_node NPerson) = get (bs "author") /\
     bind (commit_FieldCommitter (Some c)) (maybe_as_node NPerson) = get (bs "committer") /\
     bind (commit_FieldEncoding (Some c)) (maybe_as_node NString) = get (bs "encoding") /\
     bind (commit_FieldSignature (Some c)) (maybe_as_node NGpgSig) = get (bs "signature") /\
     map_res NTagList (commit_FieldMergetag (Some c)) = get (bs "mergetag") /\
     map_res NStringList (commit_FieldOther (Some c)) = get (bs "other")) /\
  (forall t, let get := lookup_by_string (NTag t) in
     map_res NLink (tag_FieldObject (Some t)) = get (bs "object") /\
     map_res NString (tag_FieldType (Some t)) = get (bs "type") /\
     map_res NString (tag_FieldTag (Some t)) = get (bs "tag") /\
     map_res NPerson (tag_FieldTagger (Some t)) = get (bs "tagger") /\
     map_res NString (tag_FieldMessage (Some t)) = get (bs "message")) /\
  (forall p, let get := lookup_by_string (NPerson p) in
     map_res NString (person_FieldDate (Some p)) = get (bs "date") /\
     map_res NString (person_FieldTimezone (Some p)) = get (bs "timezone") /\
     map_res NString (person_FieldEmail (Some p)) = get (bs "email") /\
     map_res NString (person_FieldName (Some p)) = get (bs "name")) /\
  (forall e, let get := lookup_by_string (NEntry e) in
     map_res NString (entry_FieldMode (Some e)) = get (bs "mode") /\
     map_res NLink (entry_FieldHash (Some e)) = get (bs "hash")).
Proof.
  assert (forall A (f : A -> node) (o : option A), maybe_as_node f (Some (field_maybe o)) = Ok (opt_node f o)) as M by (intros A f [a|]; reflexivity).
  split; [|split; [|split]]; intros x; cbn zeta; repeat split; try reflexivity;
    unfold commit_FieldAuthor, commit_FieldCommitter, commit_FieldEncoding, commit_FieldSignature; cbn [deref bind]; apply M.
Qed.
Print Assumptions accessors_are_lookups.

Theorem accessors_panic_on_nil :
  commit_FieldTree None = Panic /\ commit_FieldParents None = Panic /\ commit_FieldMessage None = Panic /\ commit_FieldAuthor None = Panic /\
  commit_FieldCommitter None = Panic /\ commit_FieldEncoding None = Panic /\ commit_FieldSignature None = Panic /\
  commit_FieldMergetag None = Panic /\ commit_FieldOther None = Panic /\
  tag_FieldObject None = Panic /\ tag_FieldType None = Panic /\ tag_FieldTag None = Panic /\ tag_FieldTagger None = Panic /\ tag_FieldMessage None = Panic /\
  person_FieldDate None = Panic /\ person_FieldTimezone None = Panic /\ person_FieldEmail None = Panic /\ person_FieldName None = Panic /\
  entry_FieldMode None = Panic /\ entry_FieldHash None = Panic.
Proof. repeat split. Qed.
Print Assumptions accessors_panic_on_nil.

(** Optional fields of commits: never null; they exist exactly when the commit has them,
    and unboxing one that does not exist panics. *)
Theorem optional_fields_unbox : forall A (o : option A),
  let m := Some (field_maybe o) in
  maybe_is_null m = Ok false /\
  (maybe_exists m = Ok true <-> o <> None) /\ (maybe_is_absent m = Ok true <-> o = None) /\
  (forall a, maybe_must m = Ok a <-> o = Some a) /\ (maybe_must m = Panic <-> o = None).
Proof.
  intros A [a|]; cbn; repeat split; try congruence; try discriminate.
Qed.
Print Assumptions optional_fields_unbox.

(** Maybes in any state, null included: exactly one of IsNull, IsAbsent and Exists holds,
    AsNode says which, Must gives the value and panics without one; nil pointers panic. *)
Theorem maybes_in_every_state : forall A (f : A -> node) (m : maybe A), let p := Some m in
  (maybe_is_null p = Ok true <-> m = MNull) /\ (maybe_is_absent p = Ok true <-> m = MAbsent) /\
  (maybe_exists p = Ok true <-> exists a, m = MValue a) /\
  (exists x y z, maybe_is_null p = Ok x /\ maybe_is_absent p = Ok y /\ maybe_exists p = Ok z /\
     In (x, y, z) [(true, false, false); (false, true, false); (false, false, true)]) /\
  maybe_as_node f p = Ok (match m with MNull => NNull | MAbsent => NAbsent | MValue a => f a end) /\
  (forall a, maybe_must p = Ok a <-> m = MValue a) /\ (maybe_must p = Panic <-> maybe_exists p = Ok false).
Proof.
  intros A f [| |a]; cbn; (split; [|split; [|split; [|split; [|split; [|split]]]]]);
    try (split; intros; congruence || discriminate || (destruct H; discriminate)); try reflexivity;
    try (do 3 eexists; repeat split; cbn; tauto).
Qed.
Print Assumptions maybes_in_every_state.

Theorem nil_maybes_panic : forall A (f : A -> node),
  @maybe_is_null A None = Panic /\ @maybe_is_absent A None = Panic /\ @maybe_exists A None = Panic /\
  maybe_as_node f None = Panic /\ @maybe_must A None = Panic.
Proof. repeat split. Qed.
Print Assumptions nil_maybes_panic.

Definition ex_commit : commit :=
  {| c_tree := LCid (bs "x"); c_parents := [LNil]; c_message := bs "m"; c_author := Some zero_person; c_committer := None;
     c_encoding := Some (bs "e"); c_signature := None; c_mergetag := [zero_tag]; c_other := [bs "o"] |}.
Example accessors_apply :
  bind (commit_FieldAuthor (Some ex_commit)) maybe_must = Ok zero_person /\ bind (commit_FieldCommitter (Some ex_commit)) maybe_must = Panic /\
  commit_FieldTree None = Panic.
Proof. auto. Qed.

(** Typed iterators yield what the generic ones do; past the end they say -1 and nil again
    and again, where the generic ones give an error. *)
Definition positions {A} (l : list A) : list (Z * option A) := combine (map Z.of_nat (seq 0 (length l))) (map Some l).

Lemma drain_list_from {A} (l : list A) : forall k fuel, k <= length l -> length l - k < fuel ->
  drain_list fuel l k = Ok (combine (map Z.of_nat (seq k (length l - k))) (map Some (skipn k l))).
Proof.
  intros k fuel. revert k. induction fuel as [|fuel IH]; intros k L F; [lia|]. cbn [drain_list]. unfold list_itr_Done, list_itr_Next.
  destruct (Nat.leb_spec (length l) k) as [H|H].
  - replace k with (length l) by lia. rewrite Nat.sub_diag. reflexivity.
  - unfold go_at. destruct (nth_error l k) as [v|] eqn:E; [|apply nth_error_None in E; lia]. cbn [bind].
    rewrite IH by lia. cbn [bind]. replace (length l - k) with (S (length l - S k)) by lia. cbn [seq map].
    assert (skipn k l = v :: skipn (S k) l) as ->; [|reflexivity].
    clear - E. revert l E. induction k as [|k IHk]; intros [|x l] E; try discriminate; [injection E as ->; reflexivity|]. cbn [skipn]. now apply IHk.
Qed.
Lemma drain_tree_from t : forall k fuel, k <= length (tr_t t) -> length (tr_t t) - k < fuel ->
  drain_tree fuel t k = Ok (map (fun x => (Some (fst x), Some (snd x))) (skipn k (tr_t t))).
Proof.
  intros k fuel. revert k. induction fuel as [|fuel IH]; intros k L F; [lia|]. cbn [drain_tree]. unfold tree_itr_Done, tree_itr_Next.
  destruct (Nat.leb_spec (length (tr_t t)) k) as [H|H].
  - replace k with (length (tr_t t)) by lia. now rewrite skipn_all.
  - unfold go_at. destruct (nth_error (tr_t t) k) as [v|] eqn:E; [|apply nth_error_None in E; lia]. cbn [bind].
    rewrite IH by lia. cbn [bind].
    assert (skipn k (tr_t t) = v :: skipn (S k) (tr_t t)) as ->; [|reflexivity].
    clear - E. revert E. generalize (tr_t t) as l. induction k as [|k IHk]; intros [|x l] E; try discriminate; [injection E as ->; reflexivity|]. cbn [skipn]. now apply IHk.
Qed.
Lemma numbered_positions {A} (f : A -> node) l :
  numbered (map f l) = map (fun p => (fst p, match snd p with Some a => f a | None => NNull end)) (positions l).
Proof.
  unfold numbered, positions. rewrite map_length. generalize 0 as k. induction l as [|a l IH]; intros k; [reflexivity|]. cbn [length seq map combine fst snd]. now rewrite IH.
Qed.

Theorem typed_iteration_is_iteration :
  (forall A (l : list A), exists fuel, drain_list fuel l 0 = Ok (positions l)) /\
  (forall l, lists (NTagList l) (map (fun p => (fst p, match snd p with Some t => NTag t | None => NNull end)) (positions l))) /\
  (forall l, lists (NStringList l) (map (fun p => (fst p, match snd p with Some s => NString s | None => NNull end)) (positions l))) /\
  (forall l, lists (NCommitLinkList l) (map (fun p => (fst p, match snd p with Some k => NCommitLink k | None => NNull end)) (positions l))) /\
  (forall t, exists fuel kvs, drain_tree fuel t 0 = Ok (map (fun kv => (Some (fst kv), Some (snd kv))) kvs) /\
     yields (NTree t) (map (fun kv => (NString (fst kv), NEntry (snd kv))) kvs)) /\
  (forall A (l : list A) i, length l <= i -> list_itr_Next l i = Ok ((-1)%Z, None, i)) /\
  (forall t i, length (tr_t t) <= i -> tree_itr_Next t i = Ok (None, None, i)).
Proof.
  split; [|split; [|split; [|split; [|split; [|split]]]]].
  - intros A l. exists (S (length l)). rewrite drain_list_from by lia. rewrite Nat.sub_0_r. reflexivity.
  - intros l. rewrite <- (numbered_positions NTag). now apply list_items_lists.
  - intros l. rewrite <- (numbered_positions NString). now apply list_items_lists.
  - intros l. rewrite <- (numbered_positions NCommitLink). now apply list_items_lists.
  - intros t. exists (S (length (tr_t t))), (tr_t t). split; [rewrite drain_tree_from by lia; reflexivity|]. apply map_entries_yields. reflexivity.
  - intros A l i H. unfold list_itr_Next. destruct (Nat.leb_spec (length l) i); [reflexivity|lia].
  - intros t i H. unfold tree_itr_Next. destruct (Nat.leb_spec (length (tr_t t)) i); [reflexivity|lia].
Qed.
Print Assumptions typed_iteration_is_iteration.
Example typed_iteration_applies :
  drain_list 3 [bs "a"; bs "b"] 0 = Ok [(0, Some (bs "a")); (1, Some (bs "b"))]%Z /\ list_itr_Next [bs "a"; bs "b"] 2 = Ok ((-1)%Z, None, 2).
Proof. auto. Qed.

(** Typed lookups: nil where the generic lookup says that nothing is there, a panic where
    it panics. *)
Definition looked_up {A} (f : A -> node) (r : res (option A)) : res node :=
  match r with Ok (Some a) => Ok (f a) | Ok None => Err ENotExists | Err e => Err e | Panic => Panic | OutOfFuel => OutOfFuel end.
Theorem typed_lookups_are_lookups :
  (forall l i, looked_up NTag (list_Lookup l i) = lookup_by_index (NTagList l) i) /\
  (forall l i, looked_up NString (list_Lookup l i) = lookup_by_index (NStringList l) i) /\
  (forall l i, looked_up NCommitLink (list_Lookup l i) = lookup_by_index (NCommitLinkList l) i) /\
  (forall t k, looked_up NEntry (tree_Lookup t (Some k)) = lookup_by_string (NTree t) k) /\
  (forall t, tree_Lookup t None = Panic).
Proof.
  assert (forall A (f : A -> node) l i, looked_up f (list_Lookup l i) = map_res f (go_list_index l i)) as H.
  { intros A f l i. unfold list_Lookup, go_list_index. destruct (_ <=? _)%Z; [reflexivity|]. destruct (_ <? _)%Z; [reflexivity|].
    unfold go_at. now destruct (nth_error l (Z.to_nat i)). }
  split; [intros; apply H|]. split; [intros; apply H|]. split; [intros; apply H|]. split; [|reflexivity].
  intros t k. unfold tree_Lookup. cbn [deref bind lookup_by_string]. now destruct (assoc k (tr_m t)).
Qed.
Print Assumptions typed_lookups_are_lookups.

(** LookupMaybe: an existing item exists.  A name that is not in a tree gives an absent
    Maybe, but a position past the end of a list gives nil. *)
Theorem typed_lookup_maybe : 
  (forall A (l : list A) i a, list_Lookup l i = Ok (Some a) <-> list_LookupMaybe l i = Ok (Some (MValue a))) /\
  (forall A (l : list A) i, list_LookupMaybe l i = Ok None <-> (Z.of_nat (length l) <= i)%Z) /\
  (forall A (l : list A) i, list_LookupMaybe l i = Panic <-> (i < 0)%Z) /\
  (forall t k e, tree_LookupMaybe t (Some k) = Ok (Some (MValue e)) <-> tree_Lookup t (Some k) = Ok (Some e)) /\
  (forall t k, bind (tree_LookupMaybe t (Some k)) maybe_is_absent = Ok true <-> tree_Lookup t (Some k) = Ok None).
Proof.
  assert (forall A (l : list A) i, (0 <= i < Z.of_nat (length l))%Z -> exists a, nth_error l (Z.to_nat i) = Some a) as X.
  { intros A l i H. destruct (nth_error l (Z.to_nat i)) as [a|] eqn:E; [eauto|]. apply nth_error_None in E. lia. }
  split; [|split; [|split; [|split]]].
  - intros A l i a. unfold list_Lookup, list_LookupMaybe. destruct (_ <=? _)%Z; [split; discriminate|]. destruct (_ <? _)%Z; [split; discriminate|].
    destruct (go_at l (Z.to_nat i)); cbn; split; congruence.
  - intros A l i. unfold list_LookupMaybe. destruct (Z.leb_spec (Z.of_nat (length l)) i); [split; auto|]. split; [|lia].
    destruct (Z.ltb_spec i 0); [discriminate|]. unfold go_at. destruct (X A l i ltac:(lia)) as [a ->]. discriminate.
  - intros A l i. unfold list_LookupMaybe. destruct (Z.leb_spec (Z.of_nat (length l)) i); [split; [discriminate|lia]|].
    destruct (Z.ltb_spec i 0); [split; auto|]. unfold go_at. destruct (X A l i ltac:(lia)) as [a ->]. split; [discriminate|lia].
  - intros t k e. cbn. destruct (assoc k (tr_m t)); split; congruence.
  - intros t k. cbn. destruct (assoc k (tr_m t)); cbn; split; congruence.
Qed.
Print Assumptions typed_lookup_maybe.

(** So the answer of LookupMaybe cannot always be asked whether it exists: for every list
    and every position past its end that panics. *)
Theorem lookup_maybe_can_be_asked_refuted :
  (forall A (l : list A) i, (Z.of_nat (length l) <= i)%Z ->
     bind (list_LookupMaybe l i) maybe_exists = Panic /\ bind (list_LookupMaybe l i) maybe_is_absent = Panic) /\
  (forall t k, bind (tree_LookupMaybe t (Some k)) maybe_exists <> Panic).
Proof.
  split.
  - intros A l i H. apply (proj1 (proj2 typed_lookup_maybe)) in H. rewrite H. auto.
  - intros t k. cbn. discriminate.
Qed.
Print Assumptions lookup_maybe_can_be_asked_refuted.
Example lookup_maybe_applies :
  bind (list_LookupMaybe (c_parents ex_commit) 1) maybe_exists = Panic /\ bind (list_LookupMaybe (c_parents ex_commit) 0) maybe_exists = Ok true /\
  bind (tree_LookupMaybe zero_tree (Some (bs "x"))) maybe_exists = Ok false.
Proof. auto. Qed.

(** Scalars keep the value they are made from. *)
Theorem scalars_keep_their_value : forall v l,
  as_bytes (from_bytes v) = Ok v /\ as_string (from_string v) = Ok v /\ as_string (gpgsig_from_string v) = Ok v /\
  as_link (link_from_link l) = Ok l /\ as_link (tree_link_from_link l) = Ok l /\ as_link (commit_link_from_link l) = Ok l.
Proof. intros. repeat split. Qed.
Print Assumptions scalars_keep_their_value.

(** C55.  A typed node assigned to a builder of its own prototype gives the node again. *)
Definition typed (n : node) : Prop :=
  match n with
  | NBlob _ | NString _ | NGpgSig _ | NLink _ | NTreeLink _ | NCommitLink _ | NPerson _ | NTag _ | NTagList _ | NStringList _
  | NCommitLinkList _ | NCommit _ | NEntry _ | NTree _ => True
  | _ => False
  end.
Theorem prototypes_rebuild_typed_nodes : forall n, typed n -> rebuild n = Some (Ok n).
Proof. intros []; cbn; intuition. Qed.
Print Assumptions prototypes_rebuild_typed_nodes.

(** So does the representation of a node, except that commits with an author or committer
    panic, and so do trees that are not empty. *)
Theorem prototypes_rebuild_representations : forall n, typed n ->
  rebuild (representation n) =
  Some (match n with
        | NCommit c => match c_author c, c_committer c with None, None => Ok n | _, _ => Panic end
        | NTree t => match tr_t t with [] => Ok (NTree zero_tree) | _ => Panic end
        | _ => Ok n
        end).
Proof.
  intros n T. destruct n as [| | | | | | | | | |s|s|s|l|l|l|p|p|t|t|l|l|l|l|l|l|c|c|e|e|t|t]; cbn in T; try contradiction; try reflexivity; cbn [representation rebuild].
  - destruct p; reflexivity.
  - destruct t as [object type tag [date timezone email name] message]; reflexivity.
  - unfold assign_tag_list, assign_list. cbn [list_items]. rewrite (items_back assign_tag NTagR); [reflexivity|].
    intros [object type tag [date timezone email name] message]; reflexivity.
  - unfold assign_string_list, assign_list. cbn [list_items]. rewrite (items_back assign_string NString); reflexivity.
  - rewrite links_back. reflexivity.
  - rewrite assign_commit_repr. now destruct (c_author c), (c_committer c).
  - destruct e; reflexivity.
  - destruct t as [[|[k e] t] m]; reflexivity.
Qed.
Print Assumptions prototypes_rebuild_representations.
Example rebuilding_applies :
  rebuild (NCommit ex_commit) = Some (Ok (NCommit ex_commit)) /\ rebuild (representation (NCommit ex_commit)) = Some Panic.
Proof. split; reflexivity. Qed.
