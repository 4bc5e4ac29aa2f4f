(** [AssignNode] and [AssignBytes] of the generated builders, on a fresh builder.

    For each type X the generated code has two assemblers, [_X__Assembler] and
    [_X__ReprAssembler], whose methods differ only in type names; both are cited.
    A struct is assembled from an iterator with AssembleKey/AssembleValue/Finish;
    the field bits [s] are modelled as the list of field numbers seen. *)
From Verif Require Import Base GoStr Cid Types Nodes.

(** Index of a key among the field names. *)
Fixpoint field_index (k : bytes) (fields : list bytes) (i : nat) : option nat :=
  match fields with
  | [] => None
  | f :: fs => if beqb k f then Some i else field_index k fs (S i)
  end.

(** The loop [for !itr.Done()] of a struct's AssignNode, with KeyAssembler.AssignString
    (repeated and unknown keys) and AssembleValue().AssignNode ([set]).
    _Commit 563-600, 941-1034 / 1330-1367, 1712-1803; _PersonInfo 3281-3318, 3542 / 3810-3847, 4068;
    _Tag 5196-5233, 5484 / 5768-5805, 6052; _TreeEntry 7696-7733, 7903 / 8139-8176, 8345. *)
Fixpoint struct_loop {W} (fields : list bytes) (set : nat -> node -> W -> res W)
    (kvs : list (node * node)) (seen : list nat) (w : W) : res (list nat * W) :=
  match kvs with
  | [] => Ok (seen, w)
  | (k, v) :: r =>
      let* ks := as_string k in
      match field_index ks fields 0 with
      | None => Err (EInvalidKey ks)
      | Some i =>
          if existsb (Nat.eqb i) seen then Err (ERepeatedKey ks)
          else let* w' := set i v w in
               struct_loop fields set r (i :: seen) w'
      end
  end.

(** [Finish] (876, 1647, 3480, 4006, 5419, 5987, 7847, 8289): the names of the
    required fields that were not seen, in order. *)
Definition missing_fields (fields : list bytes) (required seen : list nat) : list bytes :=
  map (fun i => nth i fields []) (filter (fun i => negb (existsb (Nat.eqb i) seen)) required).

Definition struct_assign {W} (fields : list bytes) (required : list nat)
    (set : nat -> node -> W -> res W) (kvs : list (node * node)) (w : W) : res W :=
  let* (seen, w') := struct_loop fields set kvs [] w in
  match missing_fields fields required seen with
  | [] => Ok w'
  | ms => Err (EMissing ms)
  end.

(** String, GpgSig assemblers' AssignNode: null and non-strings are wrong kinds
    (4298, 2781). *)
Definition assign_string (v : node) : res bytes := as_string v.
(** Link, Tree_Link, Commit_Link assemblers' AssignNode (2986, 1978, 8555). *)
Definition assign_link (v : node) : res link := as_link v.

(** The loop of a list's AssignNode (2268, 2526, 4585, 4843, 6368, 6626). *)
Fixpoint assign_items {A} (f : node -> res A) (l : list node) : res (list A) :=
  match l with
  | [] => Ok []
  | v :: r => let* a := f v in let* rs := assign_items f r in Ok (a :: rs)
  end.

Definition assign_list {A} (f : node -> res A) (v : node) : res (list A) :=
  match list_items v with
  | None => Err EWrongKind
  | Some l => assign_items f l
  end.

(** Commit_Link_List, String_List: a typed list is copied, others are assembled; the
    copied items are what assembling would give. *)
Definition assign_link_list (v : node) : res (list link) :=
  match v with
  | NCommitLinkList l => Ok l
  | _ => assign_list assign_link v
  end.
Definition assign_string_list (v : node) : res (list bytes) :=
  match v with
  | NStringList l => Ok l
  | _ => assign_list assign_string v
  end.

(** PersonInfo fields (AssembleValue, 3445-3479 / 3971-4005). *)
Definition set_person (i : nat) (v : node) (p : person) : res person :=
  let* s := assign_string v in
  match i with
  | 0 => Ok {| p_date := s; p_timezone := p_timezone p; p_email := p_email p; p_name := p_name p |}
  | 1 => Ok {| p_date := p_date p; p_timezone := s; p_email := p_email p; p_name := p_name p |}
  | 2 => Ok {| p_date := p_date p; p_timezone := p_timezone p; p_email := s; p_name := p_name p |}
  | 3 => Ok {| p_date := p_date p; p_timezone := p_timezone p; p_email := p_email p; p_name := s |}
  | _ => Panic
  end.

(** PersonInfo AssignNode (3281 / 3810).  [wnil]: the assembler's [w] is nil, as it is
    for the author and committer of a commit under assembly (their Maybe holds a
    pointer).  A typed PersonInfo is then just referenced; any other map reaches
    AssembleValue, where [&ma.w.date] dereferences nil. *)
Definition assign_person (wnil : bool) (v : node) : res person :=
  match v with
  | NPerson p => Ok p
  | _ =>
      match map_entries v with
      | None => Err EWrongKind
      | Some kvs =>
          struct_assign person_fields [0; 1; 2; 3]
            (if wnil then fun _ _ _ => Panic else set_person) kvs zero_person
      end
  end.

(** Tag fields (AssembleValue 5380-5418 / 5948-5986). *)
Definition set_tag (i : nat) (v : node) (t : tag) : res tag :=
  match i with
  | 0 => let* l := assign_link v in
         Ok {| t_object := l; t_type := t_type t; t_tag := t_tag t; t_tagger := t_tagger t; t_message := t_message t |}
  | 1 => let* s := assign_string v in
         Ok {| t_object := t_object t; t_type := s; t_tag := t_tag t; t_tagger := t_tagger t; t_message := t_message t |}
  | 2 => let* s := assign_string v in
         Ok {| t_object := t_object t; t_type := t_type t; t_tag := s; t_tagger := t_tagger t; t_message := t_message t |}
  | 3 => let* p := assign_person false v in
         Ok {| t_object := t_object t; t_type := t_type t; t_tag := t_tag t; t_tagger := p; t_message := t_message t |}
  | 4 => let* s := assign_string v in
         Ok {| t_object := t_object t; t_type := t_type t; t_tag := t_tag t; t_tagger := t_tagger t; t_message := s |}
  | _ => Panic
  end.

(** Tag AssignNode (5196 / 5768). *)
Definition assign_tag (v : node) : res tag :=
  match v with
  | NTag t => Ok t
  | _ =>
      match map_entries v with
      | None => Err EWrongKind
      | Some kvs => struct_assign tag_fields [0; 1; 2; 3; 4] set_tag kvs zero_tag
      end
  end.

Definition assign_tag_list (v : node) : res (list tag) :=
  match v with
  | NTagList l => Ok l
  | _ => assign_list assign_tag v
  end.

(** TreeEntry AssignNode (7696 / 8139), AssembleValue (7820 / 8262). *)
Definition set_entry (i : nat) (v : node) (e : entry) : res entry :=
  match i with
  | 0 => let* s := assign_string v in Ok {| e_mode := s; e_hash := e_hash e |}
  | 1 => let* l := assign_link v in Ok {| e_mode := e_mode e; e_hash := l |}
  | _ => Panic
  end.
Definition assign_entry (v : node) : res entry :=
  match v with
  | NEntry e => Ok e
  | _ =>
      match map_entries v with
      | None => Err EWrongKind
      | Some kvs => struct_assign entry_fields [0; 1] set_entry kvs zero_entry
      end
  end.

(** Commit fields (AssembleValue 821-875 / 1588-1646): author and committer get an
    assembler whose [w] is the nil pointer of the Maybe. *)
Definition set_commit (i : nat) (v : node) (c : commit) : res commit :=
  match i with
  | 0 => let* l := assign_link v in
         Ok {| c_tree := l; c_parents := c_parents c; c_message := c_message c; c_author := c_author c; c_committer := c_committer c; c_encoding := c_encoding c; c_signature := c_signature c; c_mergetag := c_mergetag c; c_other := c_other c |}
  | 1 => let* l := assign_link_list v in
         Ok {| c_tree := c_tree c; c_parents := l; c_message := c_message c; c_author := c_author c; c_committer := c_committer c; c_encoding := c_encoding c; c_signature := c_signature c; c_mergetag := c_mergetag c; c_other := c_other c |}
  | 2 => let* s := assign_string v in
         Ok {| c_tree := c_tree c; c_parents := c_parents c; c_message := s; c_author := c_author c; c_committer := c_committer c; c_encoding := c_encoding c; c_signature := c_signature c; c_mergetag := c_mergetag c; c_other := c_other c |}
  | 3 => let* p := assign_person true v in
         Ok {| c_tree := c_tree c; c_parents := c_parents c; c_message := c_message c; c_author := Some p; c_committer := c_committer c; c_encoding := c_encoding c; c_signature := c_signature c; c_mergetag := c_mergetag c; c_other := c_other c |}
  | 4 => let* p := assign_person true v in
         Ok {| c_tree := c_tree c; c_parents := c_parents c; c_message := c_message c; c_author := c_author c; c_committer := Some p; c_encoding := c_encoding c; c_signature := c_signature c; c_mergetag := c_mergetag c; c_other := c_other c |}
  | 5 => let* s := assign_string v in
         Ok {| c_tree := c_tree c; c_parents := c_parents c; c_message := c_message c; c_author := c_author c; c_committer := c_committer c; c_encoding := Some s; c_signature := c_signature c; c_mergetag := c_mergetag c; c_other := c_other c |}
  | 6 => let* s := assign_string v in
         Ok {| c_tree := c_tree c; c_parents := c_parents c; c_message := c_message c; c_author := c_author c; c_committer := c_committer c; c_encoding := c_encoding c; c_signature := Some s; c_mergetag := c_mergetag c; c_other := c_other c |}
  | 7 => let* l := assign_tag_list v in
         Ok {| c_tree := c_tree c; c_parents := c_parents c; c_message := c_message c; c_author := c_author c; c_committer := c_committer c; c_encoding := c_encoding c; c_signature := c_signature c; c_mergetag := l; c_other := c_other c |}
  | 8 => let* l := assign_string_list v in
         Ok {| c_tree := c_tree c; c_parents := c_parents c; c_message := c_message c; c_author := c_author c; c_committer := c_committer c; c_encoding := c_encoding c; c_signature := c_signature c; c_mergetag := c_mergetag c; c_other := l |}
  | _ => Panic
  end.

(** Commit AssignNode (563-600 / 1330-1367). *)
Definition assign_commit (v : node) : res commit :=
  match v with
  | NCommit c => Ok c
  | _ =>
      match map_entries v with
      | None => Err EWrongKind
      | Some kvs => struct_assign commit_fields [0; 1; 2; 7; 8] set_commit kvs zero_commit
      end
  end.

(** Tree AssignNode (6966 / 7300) on a fresh builder: a typed tree is
    copied.  For any other map BeginMap is never called, so the map [m] is nil: the
    first key is read, then keyFinishTidy (7002 / 7336) stores into the nil map. *)
Definition assign_tree (v : node) : res tree :=
  match v with
  | NTree t => Ok t
  | _ =>
      match map_entries v with
      | None => Err EWrongKind
      | Some [] => Ok zero_tree
      | Some ((k, _) :: _) => let* _ := as_string k in Panic
      end
  end.

(** Tree AssembleEntry(name) (7030-7061 / 7364-7395) and AssignNode of a TreeEntry on
    its value assembler, after BeginMap. *)
Definition tree_insert (t : tree) (name : bytes) (e : entry) : res tree :=
  match assoc name (tr_m t) with
  | Some _ => Err (ERepeatedKey name)
  | None => Ok {| tr_t := tr_t t ++ [(name, e)]; tr_m := (name, e) :: tr_m t |}
  end.

(** ** Fresh builders

    [Type.X.NewBuilder()] or [Type.X__Repr.NewBuilder()], and basicnode's Any. *)
Inductive bkind := BBlob | BCommit | BTag | BTree | BAny.

(** [nb.AssignNode(v)] then [nb.Build()].  Build gives the typed node for both the
    typed and the representation builder (1238-1243 and alike).  The Any builder
    keeps the node itself. *)
Definition build_node (k : bkind) (v : node) : res node :=
  match k with
  | BBlob => map_res NBlob (as_bytes v)
  | BCommit => map_res NCommit (assign_commit v)
  | BTag => map_res NTag (assign_tag v)
  | BTree => map_res NTree (assign_tree v)
  | BAny => Ok v
  end.

(** [nb.AssignBytes(b)] then [nb.Build()]. *)
Definition build_bytes (k : bkind) (b : bytes) : res node :=
  match k with
  | BBlob => Ok (NBlob b)
  | BAny => Ok (NGenBytes b)
  | _ => Err EWrongKind
  end.
