(** Encode over any implementation of [ipld.Node].

    Encode.v and Assemble.v work on the nodes of Types.v.  Here the same functions are
    written over the methods of an arbitrary type of nodes: the methods may fail, be
    inconsistent with each other, or panic.  [Props_foreign.v] proves that on the nodes
    of Types.v they are the functions of Encode.v.  Line numbers without a file name are those of
    ipldsch_satisfaction.go. *)
From Verif Require Import Base GoStr Cid Types Nodes Person Assemble Encode.

(** The four object types, as the switch on [n.Prototype()] tells them apart (marshal.go:12-21). *)
Inductive otype := OBlob | OCommit | OTree | OTag.

(** What Encode can observe of a node (go-ipld-prime, datamodel/node.go).  An iterator is
    given by the pairs (or values) that successive calls of [Next] return, and by the error
    the call after them returns, if it does not say [Done] then; [None] is the nil iterator.
    Simplification: iterators end, and calling a method twice gives the same answer; Moving.v
    does without. *)
Record nodeops (N : Type) := {
  o_type : N -> option otype;                                 (* n.Prototype() *)
  o_own : N -> option node;                                   (* type assertions n.( *_X) *)
  o_kind : N -> kind;                                         (* n.Kind() *)
  o_null : N -> bool;                                         (* n.IsNull() *)
  o_string : N -> res bytes;                                  (* n.AsString() *)
  o_bytes : N -> res bytes;                                   (* n.AsBytes() *)
  o_link : N -> res link;                                     (* n.AsLink() *)
  o_lookup : N -> bytes -> res N;                             (* n.LookupByString(k) *)
  o_map : N -> option (list (N * N) * option err);            (* n.MapIterator() *)
  o_list : N -> option (list N * option err)                  (* n.ListIterator() *)
}.
Arguments o_type {N} _ _. Arguments o_own {N} _ _. Arguments o_kind {N} _ _. Arguments o_null {N} _ _.
Arguments o_string {N} _ _. Arguments o_bytes {N} _ _. Arguments o_link {N} _ _. Arguments o_lookup {N} _ _ _.
Arguments o_map {N} _ _. Arguments o_list {N} _ _.

Section Foreign.
Context {N : Type} (ops : nodeops N).

(** String and GpgSig AssignNode (4298, 2781): null is refused, a typed string is copied. *)
Definition fassign_string (v : N) : res bytes :=
  if o_null ops v then Err EWrongKind
  else match o_own ops v with Some (NString s) => Ok s | _ => o_string ops v end.
Definition fassign_gpgsig (v : N) : res bytes :=
  if o_null ops v then Err EWrongKind
  else match o_own ops v with Some (NGpgSig s) => Ok s | _ => o_string ops v end.
(** Link, Tree_Link, Commit_Link AssignNode (2986, 8555, 1978). *)
Definition fassign_link (v : N) : res link :=
  if o_null ops v then Err EWrongKind
  else match o_own ops v with Some (NLink l) => Ok l | _ => o_link ops v end.
Definition fassign_tree_link (v : N) : res link :=
  if o_null ops v then Err EWrongKind
  else match o_own ops v with Some (NTreeLink l) => Ok l | _ => o_link ops v end.
Definition fassign_commit_link (v : N) : res link :=
  if o_null ops v then Err EWrongKind
  else match o_own ops v with Some (NCommitLink l) => Ok l | _ => o_link ops v end.

(** The loop of a list's AssignNode (2268, 2526, 4585, 4843, 6368, 6626): the elements, then
    the error of [Next], if any. *)
Fixpoint fassign_items {A} (f : N -> res A) (l : list N) (e : option err) : res (list A) :=
  match l with
  | [] => match e with Some e => Err e | None => Ok [] end
  | v :: r => let* a := f v in let* rs := fassign_items f r e in Ok (a :: rs)
  end.
Definition fassign_list {A} (own : node -> option (list A)) (f : N -> res A) (v : N) : res (list A) :=
  if o_null ops v then Err EWrongKind
  else match match o_own ops v with Some n => own n | None => None end with
       | Some l => Ok l
       | None =>
           match o_kind ops v with
           | KList => match o_list ops v with
                      | Some (l, e) => fassign_items f l e
                      | None => Panic                         (* itr.Done() on a nil iterator *)
                      end
           | _ => Err EWrongKind
           end
       end.

(** The loop of a struct's AssignNode: see [struct_loop]. *)
Fixpoint fstruct_loop {W} (fields : list bytes) (set : nat -> N -> W -> res W)
    (kvs : list (N * N)) (e : option err) (seen : list nat) (w : W) : res (list nat * W) :=
  match kvs with
  | [] => match e with Some e => Err e | None => Ok (seen, w) end
  | (k, v) :: r =>
      let* ks := o_string ops k in
      match field_index ks fields 0 with
      | None => Err (EInvalidKey ks)
      | Some i =>
          if existsb (Nat.eqb i) seen then Err (ERepeatedKey ks)
          else let* w' := set i v w in
               fstruct_loop fields set r e (i :: seen) w'
      end
  end.
(** A struct's AssignNode (563 / 1330, 3281 / 3810, 5196 / 5768). *)
Definition fassign_struct {W} (own : node -> option W) (fields : list bytes) (required : list nat)
    (set : nat -> N -> W -> res W) (zero : W) (v : N) : res W :=
  if o_null ops v then Err EWrongKind
  else match match o_own ops v with Some n => own n | None => None end with
       | Some w => Ok w
       | None =>
           match o_kind ops v with
           | KMap =>
               match o_map ops v with
               | Some (kvs, e) =>
                   let* (seen, w') := fstruct_loop fields set kvs e [] zero in
                   match missing_fields fields required seen with
                   | [] => Ok w'
                   | ms => Err (EMissing ms)
                   end
               | None => Panic                                (* itr.Done() on a nil iterator *)
               end
           | _ => Err EWrongKind
           end
       end.

(** PersonInfo (AssembleValue 3445-3479 / 3971-4005, AssignNode 3281 / 3810); [wnil] as in [assign_person]. *)
Definition fset_person (i : nat) (v : N) (p : person) : res person :=
  let* s := fassign_string v in
  match i with
  | 0 => Ok {| p_date := s; p_timezone := p_timezone p; p_email := p_email p; p_name := p_name p |}
  | 1 => Ok {| p_date := p_date p; p_timezone := s; p_email := p_email p; p_name := p_name p |}
  | 2 => Ok {| p_date := p_date p; p_timezone := p_timezone p; p_email := s; p_name := p_name p |}
  | 3 => Ok {| p_date := p_date p; p_timezone := p_timezone p; p_email := p_email p; p_name := s |}
  | _ => Panic
  end.
Definition fassign_person (wnil : bool) (v : N) : res person :=
  fassign_struct (fun n => match n with NPerson p => Some p | _ => None end) person_fields [0; 1; 2; 3]
    (if wnil then fun _ _ _ => Panic else fset_person) zero_person v.

(** Tag (AssembleValue 5380-5418 / 5948-5986, AssignNode 5196 / 5768). *)
Definition fset_tag (i : nat) (v : N) (t : tag) : res tag :=
  match i with
  | 0 => let* l := fassign_link v in
         Ok {| t_object := l; t_type := t_type t; t_tag := t_tag t; t_tagger := t_tagger t; t_message := t_message t |}
  | 1 => let* s := fassign_string v in
         Ok {| t_object := t_object t; t_type := s; t_tag := t_tag t; t_tagger := t_tagger t; t_message := t_message t |}
  | 2 => let* s := fassign_string v in
         Ok {| t_object := t_object t; t_type := t_type t; t_tag := s; t_tagger := t_tagger t; t_message := t_message t |}
  | 3 => let* p := fassign_person false v in
         Ok {| t_object := t_object t; t_type := t_type t; t_tag := t_tag t; t_tagger := p; t_message := t_message t |}
  | 4 => let* s := fassign_string v in
         Ok {| t_object := t_object t; t_type := t_type t; t_tag := t_tag t; t_tagger := t_tagger t; t_message := s |}
  | _ => Panic
  end.
Definition fassign_tag (v : N) : res tag :=
  fassign_struct (fun n => match n with NTag t => Some t | _ => None end) tag_fields [0; 1; 2; 3; 4] fset_tag zero_tag v.

(** Lists (Commit_Link_List 2268 / 2526, String_List 4585 / 4843, Tag_List 6368 / 6626). *)
Definition fassign_link_list (v : N) : res (list link) :=
  fassign_list (fun n => match n with NCommitLinkList l => Some l | _ => None end) fassign_commit_link v.
Definition fassign_string_list (v : N) : res (list bytes) :=
  fassign_list (fun n => match n with NStringList l => Some l | _ => None end) fassign_string v.
Definition fassign_tag_list (v : N) : res (list tag) :=
  fassign_list (fun n => match n with NTagList l => Some l | _ => None end) fassign_tag v.

(** Commit (AssembleValue 821-875 / 1588-1646, AssignNode 563 / 1330). *)
Definition fset_commit (i : nat) (v : N) (c : commit) : res commit :=
  match i with
  | 0 => let* l := fassign_tree_link v in
         Ok {| c_tree := l; c_parents := c_parents c; c_message := c_message c; c_author := c_author c; c_committer := c_committer c; c_encoding := c_encoding c; c_signature := c_signature c; c_mergetag := c_mergetag c; c_other := c_other c |}
  | 1 => let* l := fassign_link_list v in
         Ok {| c_tree := c_tree c; c_parents := l; c_message := c_message c; c_author := c_author c; c_committer := c_committer c; c_encoding := c_encoding c; c_signature := c_signature c; c_mergetag := c_mergetag c; c_other := c_other c |}
  | 2 => let* s := fassign_string v in
         Ok {| c_tree := c_tree c; c_parents := c_parents c; c_message := s; c_author := c_author c; c_committer := c_committer c; c_encoding := c_encoding c; c_signature := c_signature c; c_mergetag := c_mergetag c; c_other := c_other c |}
  | 3 => let* p := fassign_person true v in
         Ok {| c_tree := c_tree c; c_parents := c_parents c; c_message := c_message c; c_author := Some p; c_committer := c_committer c; c_encoding := c_encoding c; c_signature := c_signature c; c_mergetag := c_mergetag c; c_other := c_other c |}
  | 4 => let* p := fassign_person true v in
         Ok {| c_tree := c_tree c; c_parents := c_parents c; c_message := c_message c; c_author := c_author c; c_committer := Some p; c_encoding := c_encoding c; c_signature := c_signature c; c_mergetag := c_mergetag c; c_other := c_other c |}
  | 5 => let* s := fassign_string v in
         Ok {| c_tree := c_tree c; c_parents := c_parents c; c_message := c_message c; c_author := c_author c; c_committer := c_committer c; c_encoding := Some s; c_signature := c_signature c; c_mergetag := c_mergetag c; c_other := c_other c |}
  | 6 => let* s := fassign_gpgsig v in
         Ok {| c_tree := c_tree c; c_parents := c_parents c; c_message := c_message c; c_author := c_author c; c_committer := c_committer c; c_encoding := c_encoding c; c_signature := Some s; c_mergetag := c_mergetag c; c_other := c_other c |}
  | 7 => let* l := fassign_tag_list v in
         Ok {| c_tree := c_tree c; c_parents := c_parents c; c_message := c_message c; c_author := c_author c; c_committer := c_committer c; c_encoding := c_encoding c; c_signature := c_signature c; c_mergetag := l; c_other := c_other c |}
  | 8 => let* l := fassign_string_list v in
         Ok {| c_tree := c_tree c; c_parents := c_parents c; c_message := c_message c; c_author := c_author c; c_committer := c_committer c; c_encoding := c_encoding c; c_signature := c_signature c; c_mergetag := c_mergetag c; c_other := l |}
  | _ => Panic
  end.
Definition fassign_commit (v : N) : res commit :=
  fassign_struct (fun n => match n with NCommit c => Some c | _ => None end) commit_fields [0; 1; 2; 7; 8] fset_commit zero_commit v.

(** tree.go:104-132 *)
Definition ftree_entry_body (name : bytes) (n : N) : res bytes :=
  let* m := o_lookup ops n (bs "mode") in
  let* ms := o_string ops m in
  let* ha := o_lookup ops n (bs "hash") in
  let* hal := o_link ops ha in
  match hal with
  | LCid c => let* h := cid_to_sha c in Ok (ms ++ [SP] ++ name ++ [NUL] ++ h)
  | _ => Panic                       (* hal.(cidlink.Link), tree.go:126 *)
  end.
(** tree.go:82-94 *)
Fixpoint ftree_entries_body (kvs : list (N * N)) (e : option err) : res bytes :=
  match kvs with
  | [] => match e with Some e => Err e | None => Ok [] end
  | (k, te) :: r =>
      let* name := o_string ops k in
      let* a := ftree_entry_body name te in
      let* b := ftree_entries_body r e in
      Ok (a ++ b)
  end.
Definition fencode_tree (n : N) : res encoded :=
  match o_map ops n with
  | None => Panic                    (* mi.Done() on a nil iterator, tree.go:82 *)
  | Some (kvs, e) => let* b := ftree_entries_body kvs e in Ok (Framed (bs "tree") b)
  end.

(** tag.go:127-191 *)
Definition fencode_tag (n : N) : res encoded :=
  let* obj := o_lookup ops n (bs "object") in
  let* objLnk := o_link ops obj in
  let* typ := o_lookup ops n (bs "type") in
  let* ttStr := o_string ops typ in
  let* tg := o_lookup ops n (bs "tag") in
  let* tagStr := o_string ops tg in
  let* message := o_lookup ops n (bs "message") in
  let* messageStr := o_string ops message in
  let* tagger := match o_lookup ops n (bs "tagger") with          (* taggerErr *)
                 | Ok tn => Ok (Some tn)
                 | Err _ => Ok None
                 | Panic => Panic
                 | OutOfFuel => OutOfFuel
                 end in
  let* h := link_sha objLnk in
  let* line :=
    match tagger with
    | Some tn => if o_null ops tn then Ok []
                 else let* p := fassign_person false tn in
                      Ok (bs "tagger " ++ git_string p ++ [NL])
    | None => Ok []
    end in
  Ok (Framed (bs "tag")
     (bs "object " ++ hex_encode h ++ [NL]
      ++ bs "type " ++ ttStr ++ [NL]
      ++ bs "tag " ++ tagStr ++ [NL]
      ++ line
      ++ (if beqb messageStr [] then [] else NL :: messageStr))).

(** commit.go:165-209; the lines from 171 on are [commit_body] *)
Definition fencode_commit (n : N) : res encoded :=
  match fassign_commit n with
  | Ok c => let* b := commit_body c in Ok (Framed (bs "commit") b)
  | Err e => Err (ENotCommit e)
  | Panic => Panic
  | OutOfFuel => OutOfFuel
  end.
(** blob.go:46-53 *)
Definition fencode_blob (n : N) : res encoded :=
  let* b := o_bytes ops n in Ok (Raw b).

(** marshal.go:11-51.  [Next] is called without asking [Done]: at the end it returns
    ErrIteratorOverread. *)
Definition fencode_node (n : N) : res encoded :=
  match o_type ops n with
  | Some OBlob => fencode_blob n
  | Some OCommit => fencode_commit n
  | Some OTree => fencode_tree n
  | Some OTag => fencode_tag n
  | None =>
      match o_kind ops n with
      | KBytes => fencode_blob n
      | KList => fencode_tree n
      | KMap =>
          match o_map ops n with
          | None => Panic
          | Some ([], e) => Err match e with Some e => e | None => EOverread end
          | Some ((k, _) :: _, _) =>
              let* repKey := o_string ops k in
              if existsb (beqb repKey) [bs "object"; bs "type"; bs "tag"; bs "tagger"; bs "text"]
              then fencode_tag n else fencode_commit n
          end
      | _ => Err EUnrecognizedNode
      end
  end.

(** [Encode(n, w)] *)
Definition fencode {W} (wr : writer W) (n : N) (w : W) : outcome * W :=
  match fencode_node n with
  | Ok x => write_encoded wr x w
  | Err e => (Failed e, w)
  | Panic => (Panicked, w)
  | OutOfFuel => (Panicked, w)
  end.
End Foreign.

(** The nodes of Types.v: their prototypes, methods and iterators. *)
Definition node_otype (n : node) : option otype :=
  match n with
  | NBlob _ => Some OBlob
  | NCommit _ | NCommitR _ => Some OCommit
  | NTree _ | NTreeR _ => Some OTree
  | NTag _ | NTagR _ => Some OTag
  | _ => None
  end.
(** The generic nodes are not of this package's types. *)
Definition node_own (n : node) : option node :=
  match n with
  | NNull | NAbsent | NBool _ | NInt _ | NFloat _ | NGenString _ | NGenBytes _ | NGenLink _ | NGenList _ | NGenMap _ => None
  | _ => Some n
  end.
Definition node_ops : nodeops node :=
  {| o_type := node_otype; o_own := node_own; o_kind := node_kind; o_null := is_null;
     o_string := as_string; o_bytes := as_bytes; o_link := as_link; o_lookup := lookup_by_string;
     o_map := fun n => option_map (fun kvs => (kvs, None)) (map_entries n);
     o_list := fun n => option_map (fun l => (l, None)) (list_items n) |}.
