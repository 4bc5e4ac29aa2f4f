(** C50: assigning a whole node is making the calls for its parts one by one; what
    datamodel.Copy does instead. *)
From Verif Require Import Base GoStr Cid Types Nodes Assemble Builder BuilderSpec BuilderFacts AssignCalls AssignFacts AssignLoops AssignLink.

(** [o], the end of a sequence of calls, is what [r] says. *)
Definition ends_as {X} (value : X -> val) (r : res X) (o : outcome) : Prop :=
  match r with
  | Ok x => fst o = OK /\ build (snd o) = Some (value x)
  | Err _ => fst o = ERR
  | Panic => fst o = PANIC
  | OutOfFuel => False
  end.

Lemma gives_ends {X} (f : X -> val) repr t l r : gives repr false t l (map_res f r) -> ends_as f r (exec repr t (new_builder t) l).
Proof.
  intros H. pose proof (new_builder_rep repr t) as R.
  assert (T : let '(x, wv, mv) := new_builder t in target (a_own x) wv = Some (zero t)) by (unfold new_builder; destruct (asm0 t); reflexivity).
  destruct (new_builder t) as [[x wv] mv]. specialize (H x wv mv R T).
  destruct (exec repr t (x, wv, mv) l) as [v [[x1 wv1] mv1]]. destruct r; cbn in *; try exact H.
  destruct H as (-> & fin & _ & -> & _ & T1 & _). split; [reflexivity|exact T1].
Qed.

(** C50.  AssignNode of any node on a fresh builder of either view, made of calls on the
    builder and its children, ends as the one-step functions say. *)
Theorem assigning_is_calling (repr : bool) (v : node) :
  ends_as commit_val (assign_commit v) (exec repr t_commit (new_builder t_commit) (commit_calls v)) /\
  ends_as tag_val (assign_tag v) (exec repr t_tag (new_builder t_tag) (tag_calls v)) /\
  ends_as person_val (assign_person false v) (exec repr t_person (new_builder t_person) (person_calls v)) /\
  ends_as entry_val (assign_entry v) (exec repr t_entry (new_builder t_entry) (entry_calls v)) /\
  ends_as (fun l => VList (map link_val l)) (assign_link_list v) (exec repr (TList t_link) (new_builder (TList t_link)) (commit_links_calls v)) /\
  ends_as (fun l => VList (map text_val l)) (assign_string_list v) (exec repr (TList t_string) (new_builder (TList t_string)) (strings_calls v)) /\
  ends_as (fun l => VList (map tag_val l)) (assign_tag_list v) (exec repr (TList t_tag) (new_builder (TList t_tag)) (tags_calls v)) /\
  ends_as (fun s => VScalar (SBytes s)) (as_bytes v) (exec repr t_blob (new_builder t_blob) (blob_calls v)).
Proof.
  split; [apply gives_ends, commit_gives|]. split; [apply gives_ends, tag_gives|]. split; [apply gives_ends, person_gives|].
  split; [apply gives_ends, entry_gives|]. split; [apply gives_ends, links_gives|]. split; [apply gives_ends, strings_gives|].
  split; [apply gives_ends, tags_gives|]. apply gives_ends, blob_gives.
Qed.

(** C50 for trees: a map without entries leaves the hash map unmade. *)
Theorem assigning_a_tree_is_calling (repr : bool) (v : node) :
  let o := exec repr t_tree (new_builder t_tree) (tree_calls v) in
  match v, map_entries v with
  | NTree t, _ => assign_tree v = Ok t /\ ends_as tree_val (Ok t) o
  | _, Some [] => assign_tree v = Ok zero_tree /\ ends_as (fun _ : tree => VTree [] None) (Ok zero_tree) o
  | _, _ => ends_as tree_val (assign_tree v) o
  end.
Proof.
  assert (P : pointers_to_structs t_tree) by apply schema_pointers.
  assert (N : forall r, r = Err EWrongKind -> ends_as tree_val r (exec repr t_tree (new_builder t_tree) [Do [] AssignNull])).
  { intros r ->. apply (gives_ends tree_val repr t_tree _ (Err EWrongKind)). apply null_gives; [exact P|reflexivity]. }
  assert (F : forall r, r = Err EWrongKind -> ends_as tree_val r (exec repr t_tree (new_builder t_tree) [Fail])) by (intros r ->; reflexivity).
  assert (M : forall kvs, match kvs with
     | [] => ends_as (fun _ : tree => VTree [] None) (Ok zero_tree) (exec repr t_tree (new_builder t_tree) (flat_map tree_entry_calls kvs ++ [Do [] Finish]))
     | (k, _) :: _ => ends_as tree_val (let* _ := as_string k in Panic) (exec repr t_tree (new_builder t_tree) (flat_map tree_entry_calls kvs ++ [Do [] Finish]))
     end).
  { intros kvs. pose proof (tree_bare repr t_entry entry_calls (fst (fst (new_builder t_tree))) (Some (zero t_tree)) kvs) as B.
    specialize (B (new_builder_rep repr t_tree)). change (one_entry entry_calls) with tree_entry_calls in B.
    change (fst (fst (new_builder t_tree)), Some (zero t_tree), Some MAbsent) with (new_builder t_tree) in B.
    fold t_tree in B.
    destruct (exec repr t_tree (new_builder t_tree) (flat_map tree_entry_calls kvs ++ [Do [] Finish])) as [r [[x1 wv1] mv1]].
    destruct kvs as [|[k u] kvs].
    - destruct B as (-> & _ & -> & _ & T & _). split; [reflexivity|exact T].
    - destruct (as_string k) eqn:Ek; try (destruct k; discriminate Ek); cbn; exact B. }
  destruct v; cbn [map_entries tree_calls is_null assign_tree]; try (now apply F); try (now apply N).
  all: try (match goal with |- context [flat_map tree_entry_calls ?l] => pose proof (M l) as K end; cbn in K |- *; exact K).
  - specialize (M kvs). destruct kvs as [|[k u] kvs]; [split; [reflexivity|exact M]|exact M].
  - split; [reflexivity|]. apply (gives_ends tree_val repr t_tree _ (Ok t)). apply typed_gives; [exact P|discriminate].
  - specialize (M (map (fun ke => (NString (fst ke), NEntryR (snd ke))) (tr_t t))).
    destruct (tr_t t) as [|ke l]; [split; [reflexivity|exact M]|exact M].
Qed.

(** ** Copying *)

(** The entries of a map, each value assigned to a tree entry *)
Fixpoint as_entries (kvs : list (node * node)) : res (list (bytes * entry)) :=
  match kvs with
  | [] => Ok []
  | (k, v) :: r => let* s := as_string k in let* e := assign_entry v in let* es := as_entries r in Ok ((s, e) :: es)
  end.

(** Copying any map into a tree builder makes the tree of its entries: no panic, and no
    check for repeated names either. *)
Theorem copying_into_a_tree (repr : bool) (v : node) :
  ends_as (fun es => VTree (map (fun ke => (fst ke, entry_val (snd ke))) es) (Some (rev (map fst es))))
    (match map_entries v with Some kvs => as_entries (present kvs) | None => Err EWrongKind end)
    (exec repr t_tree (new_builder t_tree) (copy_tree v)).
Proof.
  unfold copy_tree, copy_map. destruct (map_entries v) as [kvs|]; [|reflexivity]. generalize (present kvs) as l. clear kvs v. intros l.
  apply gives_ends. eapply gives_like.
  - apply (tree_copy_gives repr t_entry entry_calls (fun v => map_res entry_val (assign_entry v))); [apply schema_pointers|]. apply entry_gives.
  - assert (E : match as_entries l with
      | Ok es => entries_res (fun v => map_res entry_val (assign_entry v)) l = Ok (map (fun ke => (fst ke, entry_val (snd ke))) es)
      | Err _ => exists e, entries_res (fun v => map_res entry_val (assign_entry v)) l = Err e
      | Panic => entries_res (fun v => map_res entry_val (assign_entry v)) l = Panic
      | OutOfFuel => entries_res (fun v => map_res entry_val (assign_entry v)) l = OutOfFuel
      end).
    { induction l as [|[k v] l IH]; [reflexivity|]. cbn [as_entries entries_res].
      destruct (as_string k); cbn [bind]; eauto. destruct (assign_entry v); cbn [bind map_res]; eauto.
      destruct (as_entries l); cbn [bind]; [now rewrite IH|destruct IH as [e' ->]; cbn; eauto|now rewrite IH|now rewrite IH]. }
    destruct (as_entries l); cbn [like]; [rewrite E|destruct E as [e' ->]; cbn; eauto|now rewrite E|now rewrite E].
    cbn [map_res bind]. unfold tree_value. now rewrite map_map.
Qed.

(** Assigning the same map panics as soon as it has an entry: assigning and copying do
    not agree. *)
Theorem copying_is_assigning_refuted :
  ~ forall v, fst (exec false t_tree (new_builder t_tree) (tree_calls v)) = fst (exec false t_tree (new_builder t_tree) (copy_tree v)).
Proof.
  intros H. specialize (H (NGenMap [(NGenString (bs "a"), NEntry zero_entry)])). vm_compute in H. discriminate.
Qed.

(** Copying into a commit or tag builder is assigning the map without its absent values. *)
Theorem copying_into_a_struct (repr : bool) (v : node) :
  ends_as commit_val (match map_entries v with Some kvs => assign_commit (NGenMap (present kvs)) | None => Err EWrongKind end)
    (exec repr t_commit (new_builder t_commit) (copy_commit v)) /\
  ends_as tag_val (match map_entries v with Some kvs => assign_tag (NGenMap (present kvs)) | None => Err EWrongKind end)
    (exec repr t_tag (new_builder t_tag) (copy_tag v)).
Proof.
  destruct schema_pointers as (_ & Pt & Pc & _). split.
  - unfold copy_commit, copy_struct, copy_map. destruct (map_entries v) as [kvs|]; [|reflexivity]. apply gives_ends. eapply gives_like.
    + apply (begun_struct_gives repr (fields_of t_commit) commit_child commit_rs Pc). intros i f u E. now apply commit_child_gives.
    + apply commit_like.
  - unfold copy_tag, copy_struct, copy_map. destruct (map_entries v) as [kvs|]; [|reflexivity]. apply gives_ends. eapply gives_like.
    + apply (begun_struct_gives repr (fields_of t_tag) tag_child tag_rs Pt). intros i f u E. now apply tag_child_gives.
    + apply tag_like.
Qed.

(** So a commit is copied whole, although assigning its fields one by one as they are
    iterated is an error when an optional field is absent. *)
Theorem copying_a_commit (repr : bool) (c : commit) :
  ends_as commit_val (Ok c) (exec repr t_commit (new_builder t_commit) (copy_commit (NCommit c))).
Proof.
  destruct (copying_into_a_struct repr (NCommit c)) as [H _]. cbn [map_entries] in H.
  match type of H with ends_as _ ?r _ => replace r with (Ok c) in H; [exact H|] end.
  destruct c as [tree parents message author committer encoding signature mergetag other].
  destruct author, committer, encoding, signature; vm_compute; reflexivity.
Qed.
Theorem copying_a_tag (repr : bool) (t : tag) :
  ends_as tag_val (Ok t) (exec repr t_tag (new_builder t_tag) (copy_tag (NTag t))) /\
  ends_as tag_val (Ok t) (exec repr t_tag (new_builder t_tag) (copy_tag (NTagR t))).
Proof.
  split; [destruct (copying_into_a_struct repr (NTag t)) as [_ H]|destruct (copying_into_a_struct repr (NTagR t)) as [_ H]]; cbn [map_entries] in H;
    (match type of H with ends_as _ ?r _ => replace r with (Ok t) in H; [exact H|] end);
    destruct t as [object type tag [date timezone email name] message]; vm_compute; reflexivity.
Qed.

Lemma items_back {X} (f : node -> res X) (g : X -> node) l : (forall x, f (g x) = Ok x) -> assign_items f (map g l) = Ok l.
Proof. intros H. induction l as [|x l IH]; cbn; [reflexivity|]. now rewrite H, IH. Qed.
Lemma links_back l : assign_link_list (NCommitLinkListR l) = Ok l.
Proof. now apply items_back. Qed.
Lemma strings_back l : assign_string_list (NStringListR l) = Ok l.
Proof. now apply items_back. Qed.
Lemma tags_back l : assign_tag_list (NTagListR l) = Ok l.
Proof. apply items_back. intros [object type tag [date timezone email name] message]. vm_compute. reflexivity. Qed.

Lemma assign_commit_repr c : assign_commit (NCommitR c) = match c_author c, c_committer c with None, None => Ok c | _, _ => Panic end.
Proof.
  destruct c as [tree parents message author committer encoding signature mergetag other]. cbn [c_author c_committer].
  assert (E : forall rest, struct_loop commit_fields set_commit
      ((NString (bs "tree"), NTreeLink tree) :: (NString (bs "parents"), NCommitLinkListR parents) :: (NString (bs "message"), NString message) :: rest) [] zero_commit =
    struct_loop commit_fields set_commit rest [2; 1; 0]
      {| c_tree := tree; c_parents := parents; c_message := message; c_author := None; c_committer := None; c_encoding := None;
         c_signature := None; c_mergetag := []; c_other := [] |}).
  { intros rest. cbn [struct_loop as_string bind]. change (Assemble.field_index (bs "tree") commit_fields 0) with (Some 0).
    change (Assemble.field_index (bs "parents") commit_fields 0) with (Some 1). change (Assemble.field_index (bs "message") commit_fields 0) with (Some 2).
    cbn [existsb Nat.eqb set_commit assign_link as_link bind orb]. rewrite links_back. reflexivity. }
  unfold assign_commit. cbn [map_entries c_tree c_parents c_message c_author c_committer c_encoding c_signature c_mergetag c_other app].
    unfold struct_assign. rewrite E.
    destruct author as [[]|]; [reflexivity|]. destruct committer as [[]|]; [reflexivity|].
    cbn [app]. destruct encoding, signature; cbn [app struct_loop as_string bind];
      repeat (match goal with |- context [Assemble.field_index (bs ?k) commit_fields 0] =>
                let r := eval vm_compute in (Assemble.field_index (bs k) commit_fields 0) in change (Assemble.field_index (bs k) commit_fields 0) with r end);
      cbn [existsb Nat.eqb set_commit assign_string as_string bind orb]; rewrite tags_back; cbn [bind struct_loop as_string];
      cbn [existsb Nat.eqb set_commit bind orb]; rewrite strings_back; reflexivity.
Qed.

(** The representation of a commit yields its author and committer as representations:
    neither assigning nor copying takes them. *)
Theorem commit_representations_panic (repr : bool) (c : commit) :
  let assigned := exec repr t_commit (new_builder t_commit) (commit_calls (NCommitR c)) in
  let copied := exec repr t_commit (new_builder t_commit) (copy_commit (NCommitR c)) in
  match c_author c, c_committer c with
  | None, None => ends_as commit_val (Ok c) assigned /\ ends_as commit_val (Ok c) copied
  | _, _ => fst assigned = PANIC /\ fst copied = PANIC
  end.
Proof.
  cbn zeta. destruct (assigning_is_calling repr (NCommitR c)) as [H _]. destruct (copying_into_a_struct repr (NCommitR c)) as [K _]. cbn [map_entries] in K.
  destruct c as [tree parents message author committer encoding signature mergetag other]. cbn [c_author c_committer].
  assert (P : forall kvs, assign_commit (NGenMap kvs) = struct_assign commit_fields [0; 1; 2; 7; 8] set_commit kvs zero_commit) by reflexivity.
  assert (A := assign_commit_repr {| c_tree := tree; c_parents := parents; c_message := message; c_author := author; c_committer := committer;
      c_encoding := encoding; c_signature := signature; c_mergetag := mergetag; c_other := other |}). cbn [c_author c_committer] in A.
  match type of K with ends_as _ (assign_commit (NGenMap (present ?l))) _ => assert (Q : present l = l) by (destruct author, committer, encoding, signature; reflexivity) end.
  rewrite Q, P in K. clear Q P.
  change (struct_assign commit_fields [0; 1; 2; 7; 8] set_commit _ zero_commit) with
    (assign_commit (NCommitR {| c_tree := tree; c_parents := parents; c_message := message; c_author := author; c_committer := committer;
      c_encoding := encoding; c_signature := signature; c_mergetag := mergetag; c_other := other |})) in K.
  rewrite A in H, K. destruct author, committer; split; assumption.
Qed.

(** ** Cases *)
Definition a_person : person := {| p_date := bs "1"; p_timezone := bs "+0000"; p_email := bs "e"; p_name := bs "n" |}.
Definition an_entry : entry := {| e_mode := bs "100644"; e_hash := LCid (bs "hash") |}.
Definition a_commit : commit :=
  {| c_tree := LCid (bs "tree"); c_parents := [LCid (bs "p")]; c_message := bs "m"; c_author := Some a_person; c_committer := None;
     c_encoding := Some (bs "utf8"); c_signature := None; c_mergetag := []; c_other := [bs "x"] |}.
(** A commit from a generic map whose fields come in another order *)
Example a_generic_commit : 
  let v := NGenMap [(NGenString (bs "other"), NGenList [NGenString (bs "x")]); (NGenString (bs "encoding"), NGenString (bs "utf8"));
                    (NGenString (bs "tree"), NGenLink (LCid (bs "tree"))); (NGenString (bs "parents"), NGenList [NGenLink (LCid (bs "p"))]);
                    (NGenString (bs "author"), NPerson a_person); (NGenString (bs "message"), NGenString (bs "m"));
                    (NGenString (bs "mergetag"), NGenList [])] in
  assign_commit v = Ok a_commit /\ fst (exec true t_commit (new_builder t_commit) (commit_calls v)) = OK /\ length (commit_calls v) = 33.
Proof. vm_compute. auto. Qed.
(** Each end is met. *)
Example the_ends :
  fst (exec false t_commit (new_builder t_commit) (commit_calls (NCommit a_commit))) = OK /\
  fst (exec false t_commit (new_builder t_commit) (commit_calls (NGenMap []))) = ERR /\
  fst (exec false t_commit (new_builder t_commit) (commit_calls (NGenMap [(NGenString (bs "author"), NPersonR a_person)]))) = PANIC.
Proof. vm_compute. auto. Qed.
(** Two entries of the same name go into a copied tree. *)
Example a_copied_tree :
  let v := NGenMap [(NGenString (bs "a"), NEntry an_entry); (NGenString (bs "a"), NEntryR an_entry)] in
  build (snd (exec true t_tree (new_builder t_tree) (copy_tree v))) =
    Some (VTree [(bs "a", entry_val an_entry); (bs "a", entry_val an_entry)] (Some [bs "a"; bs "a"])) /\
  fst (exec true t_tree (new_builder t_tree) (tree_calls v)) = PANIC.
Proof. vm_compute. auto. Qed.

Print Assumptions assigning_is_calling.
Print Assumptions assigning_a_tree_is_calling.
Print Assumptions copying_into_a_tree.
Print Assumptions copying_is_assigning_refuted.
Print Assumptions copying_into_a_struct.
Print Assumptions copying_a_commit.
Print Assumptions copying_a_tag.
Print Assumptions commit_representations_panic.
