(** Values of the generated types (ipldsch_types.go) and IPLD nodes. *)
From Verif Require Import Base GoStr Cid.

(** ** Values *)

(** [_PersonInfo], ipldsch_types.go.  Fields in schema order. *)
Record person := {
  p_date : bytes;
  p_timezone : bytes;
  p_email : bytes;
  p_name : bytes
}.

(** [_Tag] *)
Record tag := {
  t_object : link;
  t_type : bytes;
  t_tag : bytes;
  t_tagger : person;
  t_message : bytes
}.

(** [_Commit].  An optional field is [None] when its [Maybe] is absent.  [author]
    and [committer] are pointers in Go: absent means the nil pointer. *)
Record commit := {
  c_tree : link;
  c_parents : list link;
  c_message : bytes;
  c_author : option person;
  c_committer : option person;
  c_encoding : option bytes;
  c_signature : option bytes;
  c_mergetag : list tag;
  c_other : list bytes
}.

(** [_TreeEntry] *)
Record entry := {
  e_mode : bytes;
  e_hash : link
}.

(** [_Tree]: the entry table [t] in order, and the map [m], as an association list
    (latest binding first) from names to the entries the pointers refer to.
    Simplification: the pointers into the table are replaced by the values they
    point to; TreeHeap.v models the pointers and proves this sound. *)
Record tree := {
  tr_t : list (bytes * entry);
  tr_m : list (bytes * entry)
}.

Definition zero_person : person := {| p_date := []; p_timezone := []; p_email := []; p_name := [] |}.
Definition zero_tag : tag :=
  {| t_object := LNil; t_type := []; t_tag := []; t_tagger := zero_person; t_message := [] |}.
Definition zero_commit : commit :=
  {| c_tree := LNil; c_parents := []; c_message := []; c_author := None; c_committer := None;
     c_encoding := None; c_signature := None; c_mergetag := []; c_other := [] |}.
Definition zero_entry : entry := {| e_mode := []; e_hash := LNil |}.
Definition zero_tree : tree := {| tr_t := []; tr_m := [] |}.

(** Association list lookup. *)
Fixpoint assoc {A} (k : bytes) (l : list (bytes * A)) : option A :=
  match l with
  | [] => None
  | (k', v) :: l' => if beqb k k' then Some v else assoc k l'
  end.

(** ** Nodes

    One constructor per node implementation that reaches this package.  A suffix
    [R] marks the representation view ([_X__Repr]).  The scalar types String,
    GpgSig, Link, Tree_Link, Commit_Link have [_X__Repr = _X]: one constructor.
    [NGen*] are the generic nodes of go-ipld-prime's basicnode (and any other
    implementation that behaves like them). *)
Inductive node : Type :=
| NNull                                   (* ipld.Null *)
| NAbsent                                 (* ipld.Absent *)
| NBool (b : bool)
| NInt (z : Z)
| NFloat (n : nat)
| NGenString (s : bytes)
| NGenBytes (s : bytes)
| NGenLink (l : link)
| NGenList (l : list node)
| NGenMap (kvs : list (node * node))
| NBlob (s : bytes)
| NString (s : bytes)
| NGpgSig (s : bytes)
| NLink (l : link)
| NTreeLink (l : link)
| NCommitLink (l : link)
| NPerson (p : person)
| NPersonR (p : person)
| NTag (t : tag)
| NTagR (t : tag)
| NTagList (l : list tag)
| NTagListR (l : list tag)
| NStringList (l : list bytes)
| NStringListR (l : list bytes)
| NCommitLinkList (l : list link)
| NCommitLinkListR (l : list link)
| NCommit (c : commit)
| NCommitR (c : commit)
| NEntry (e : entry)
| NEntryR (e : entry)
| NTree (t : tree)
| NTreeR (t : tree).

Inductive kind := KMap | KList | KNull | KBool | KInt | KFloat | KString | KBytes | KLink.

Definition node_kind (n : node) : kind :=
  match n with
  | NNull | NAbsent => KNull
  | NBool _ => KBool
  | NInt _ => KInt
  | NFloat _ => KFloat
  | NGenString _ | NString _ | NGpgSig _ => KString
  | NGenBytes _ | NBlob _ => KBytes
  | NGenLink _ | NLink _ | NTreeLink _ | NCommitLink _ => KLink
  | NGenList _ | NTagList _ | NTagListR _ | NStringList _ | NStringListR _
  | NCommitLinkList _ | NCommitLinkListR _ => KList
  | NGenMap _ | NPerson _ | NPersonR _ | NTag _ | NTagR _ | NCommit _ | NCommitR _
  | NEntry _ | NEntryR _ | NTree _ | NTreeR _ => KMap
  end.

Definition is_null (n : node) : bool := match n with NNull => true | _ => false end.

Definition as_string (n : node) : res bytes :=
  match n with
  | NGenString s | NString s | NGpgSig s => Ok s
  | _ => Err EWrongKind
  end.

Definition as_bytes (n : node) : res bytes :=
  match n with
  | NGenBytes s | NBlob s => Ok s
  | _ => Err EWrongKind
  end.

Definition as_link (n : node) : res link :=
  match n with
  | NGenLink l | NLink l | NTreeLink l | NCommitLink l => Ok l
  | _ => Err EWrongKind
  end.

(** An optional field seen through the typed view: [ipld.Absent] when absent. *)
Definition opt_node {A} (f : A -> node) (o : option A) : node :=
  match o with Some a => f a | None => NAbsent end.
