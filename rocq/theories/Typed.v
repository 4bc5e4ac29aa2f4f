(** The typed side of the generated nodes: field accessors, Maybes, typed lookups and
    iterators, prototypes (ipldsch_satisfaction.go).  A pointer is an [option]; [None] is the
    nil pointer, and using it panics. *)
From Verif Require Import Base GoStr Cid Types Nodes Assemble.

(** Dereferencing a pointer. *)
Definition deref {A} (p : option A) : res A := match p with Some a => Ok a | None => Panic end.

(** ** Maybes

    [schema.Maybe] and the value: _Blob__Maybe (19-51), _Commit__Maybe (244-276),
    _Commit_Link__Maybe (1817-1849), _Commit_Link_List__Maybe (2059-2091), _GpgSig__Maybe
    (2620-2652), _Link__Maybe (2825-2857), _PersonInfo__Maybe (3035-3067), _String__Maybe
    (4137-4169), _String_List__Maybe (4376-4408), _Tag__Maybe (4941-4973), _Tag_List__Maybe
    (6159-6191), _Tree__Maybe (6751-6783), _TreeEntry__Maybe (7468-7500), _Tree_Link__Maybe
    (8394-8426).  They are all alike.  Simplification: the value is there in the state
    Maybe_Value only. *)
Inductive maybe (A : Type) := MAbsent | MNull | MValue (a : A).
Arguments MAbsent {A}. Arguments MNull {A}. Arguments MValue {A}.

(** IsNull, e.g. 25-27 *)
Definition maybe_is_null {A} (m : option (maybe A)) : res bool :=
  let* m := deref m in Ok (match m with MNull => true | _ => false end).
(** IsAbsent, e.g. 28-30 *)
Definition maybe_is_absent {A} (m : option (maybe A)) : res bool :=
  let* m := deref m in Ok (match m with MAbsent => true | _ => false end).
(** Exists, e.g. 31-33 *)
Definition maybe_exists {A} (m : option (maybe A)) : res bool :=
  let* m := deref m in Ok (match m with MValue _ => true | _ => false end).
(** AsNode, e.g. 34-45; [f] is the node of a value *)
Definition maybe_as_node {A} (f : A -> node) (m : option (maybe A)) : res node :=
  let* m := deref m in
  Ok (match m with MAbsent => NAbsent | MNull => NNull | MValue a => f a end).
(** Must, e.g. 46-51 *)
Definition maybe_must {A} (m : option (maybe A)) : res A :=
  let* e := maybe_exists m in
  if e then let* m := deref m in match m with MValue a => Ok a | _ => Panic end
  else Panic.

(** An optional field of a commit as the Maybe it is: the decoders and builders set
    Maybe_Value or leave Maybe_Absent (the zero value). *)
Definition field_maybe {A} (o : option A) : maybe A := match o with Some a => MValue a | None => MAbsent end.

(** ** Field accessors

    The receivers are values, so a nil pointer panics.  The answers are pointers into a
    copy of the struct. *)
(** 216-242 *)
Definition commit_FieldTree (n : option commit) : res link := let* c := deref n in Ok (c_tree c).
Definition commit_FieldParents (n : option commit) : res (list link) := let* c := deref n in Ok (c_parents c).
Definition commit_FieldMessage (n : option commit) : res bytes := let* c := deref n in Ok (c_message c).
Definition commit_FieldAuthor (n : option commit) : res (option (maybe person)) := let* c := deref n in Ok (Some (field_maybe (c_author c))).
Definition commit_FieldCommitter (n : option commit) : res (option (maybe person)) := let* c := deref n in Ok (Some (field_maybe (c_committer c))).
Definition commit_FieldEncoding (n : option commit) : res (option (maybe bytes)) := let* c := deref n in Ok (Some (field_maybe (c_encoding c))).
Definition commit_FieldSignature (n : option commit) : res (option (maybe bytes)) := let* c := deref n in Ok (Some (field_maybe (c_signature c))).
Definition commit_FieldMergetag (n : option commit) : res (list tag) := let* c := deref n in Ok (c_mergetag c).
Definition commit_FieldOther (n : option commit) : res (list bytes) := let* c := deref n in Ok (c_other c).
(** 3022-3033 *)
Definition person_FieldDate (n : option person) : res bytes := let* p := deref n in Ok (p_date p).
Definition person_FieldTimezone (n : option person) : res bytes := let* p := deref n in Ok (p_timezone p).
Definition person_FieldEmail (n : option person) : res bytes := let* p := deref n in Ok (p_email p).
Definition person_FieldName (n : option person) : res bytes := let* p := deref n in Ok (p_name p).
(** 4925-4939 *)
Definition tag_FieldObject (n : option tag) : res link := let* t := deref n in Ok (t_object t).
Definition tag_FieldType (n : option tag) : res bytes := let* t := deref n in Ok (t_type t).
Definition tag_FieldTag (n : option tag) : res bytes := let* t := deref n in Ok (t_tag t).
Definition tag_FieldTagger (n : option tag) : res person := let* t := deref n in Ok (t_tagger t).
Definition tag_FieldMessage (n : option tag) : res bytes := let* t := deref n in Ok (t_message t).
(** 7461-7466 *)
Definition entry_FieldMode (n : option entry) : res bytes := let* e := deref n in Ok (e_mode e).
Definition entry_FieldHash (n : option entry) : res link := let* e := deref n in Ok (e_hash e).

(** ** Lists: _Commit_Link_List (2017-2057), _String_List (4334-4374), _Tag_List (6117-6157) *)

(** Lookup, e.g. 2017-2023: only the upper bound is checked. *)
Definition list_Lookup {A} (l : list A) (idx : Z) : res (option A) :=
  if (Z.of_nat (length l) <=? idx)%Z then Ok None
  else if (idx <? 0)%Z then Panic
  else map_res Some (go_at l (Z.to_nat idx)).
(** LookupMaybe, e.g. 2024-2033: beyond the end the answer is the nil pointer, not the
    absent value declared at 2035 (4352, 6135). *)
Definition list_LookupMaybe {A} (l : list A) (idx : Z) : res (option (maybe A)) :=
  if (Z.of_nat (length l) <=? idx)%Z then Ok None
  else if (idx <? 0)%Z then Panic
  else map_res (fun v => Some (MValue v)) (go_at l (Z.to_nat idx)).
(** Next, e.g. 2046-2054: position, value and next index *)
Definition list_itr_Next {A} (l : list A) (idx : nat) : res (Z * option A * nat) :=
  if length l <=? idx then Ok (-1, None, idx)%Z
  else let* v := go_at l idx in Ok (Z.of_nat idx, Some v, S idx).
(** Done, e.g. 2055-2057 *)
Definition list_itr_Done {A} (l : list A) (idx : nat) : bool := length l <=? idx.

(** ** Trees (6708-6749) *)
(** Lookup 6708-6714: the key is a pointer to a String *)
Definition tree_Lookup (t : tree) (k : option bytes) : res (option entry) :=
  let* k := deref k in Ok (assoc k (tr_m t)).
(** LookupMaybe 6715-6724 *)
Definition tree_LookupMaybe (t : tree) (k : option bytes) : res (option (maybe entry)) :=
  let* k := deref k in
  Ok (Some (match assoc k (tr_m t) with Some e => MValue e | None => MAbsent end)).
(** Next 6737-6746 *)
Definition tree_itr_Next (t : tree) (idx : nat) : res (option bytes * option entry * nat) :=
  if length (tr_t t) <=? idx then Ok (None, None, idx)
  else let* x := go_at (tr_t t) idx in Ok (Some (fst x), Some (snd x), S idx).
(** Done 6747-6749 *)
Definition tree_itr_Done (t : tree) (idx : nat) : bool := length (tr_t t) <=? idx.

(** ** The loops clients write: [for !itr.Done() { k, v := itr.Next(); ... }] *)
Fixpoint drain_list {A} (fuel : nat) (l : list A) (idx : nat) : res (list (Z * option A)) :=
  match fuel with
  | O => OutOfFuel
  | S f => if list_itr_Done l idx then Ok []
           else let* (i, v, idx') := list_itr_Next l idx in
                let* r := drain_list f l idx' in Ok ((i, v) :: r)
  end.
Fixpoint drain_tree (fuel : nat) (t : tree) (idx : nat) : res (list (option bytes * option entry)) :=
  match fuel with
  | O => OutOfFuel
  | S f => if tree_itr_Done t idx then Ok []
           else let* (k, v, idx') := tree_itr_Next t idx in
                let* r := drain_tree f t idx' in Ok ((k, v) :: r)
  end.

(** ** Scalars: FromBytes 14-17, FromLink 1812-1815, 2820-2823, 8389-8392, FromString
    2615-2618, 4132-4135 make a value; Bytes 11-13, Link 1809, 2817, 8386, String 2608, 4125
    give it back. *)
Definition from_bytes (v : bytes) : node := NBlob v.
Definition from_string (v : bytes) : node := NString v.
Definition gpgsig_from_string (v : bytes) : node := NGpgSig v.
Definition link_from_link (v : link) : node := NLink v.
Definition tree_link_from_link (v : link) : node := NTreeLink v.
Definition commit_link_from_link (v : link) : node := NCommitLink v.

(** ** Prototypes

    [n.Prototype().NewBuilder()], AssignNode of [n] itself, Build.  Typed nodes answer with
    the typed prototype, representation nodes with the representation prototype (104, 441,
    1222, 1902, 2176, 2434, 2705, 2910, 3174, 3712, 4222, 4493, 4751, 5086, 5668, 6276, 6534,
    6873, 7207, 7595, 8045, 8479); the assemblers of the two do the same (Assemble.v), and
    Build gives the typed node.  Generic nodes: not modelled here. *)
Definition rebuild (n : node) : option (res node) :=
  match n with
  | NBlob _ => Some (map_res NBlob (as_bytes n))
  | NString _ => Some (map_res NString (assign_string n))
  | NGpgSig _ => Some (map_res NGpgSig (assign_string n))
  | NLink _ => Some (map_res NLink (assign_link n))
  | NTreeLink _ => Some (map_res NTreeLink (assign_link n))
  | NCommitLink _ => Some (map_res NCommitLink (assign_link n))
  | NPerson _ | NPersonR _ => Some (map_res NPerson (assign_person false n))
  | NTag _ | NTagR _ => Some (map_res NTag (assign_tag n))
  | NTagList _ | NTagListR _ => Some (map_res NTagList (assign_tag_list n))
  | NStringList _ | NStringListR _ => Some (map_res NStringList (assign_string_list n))
  | NCommitLinkList _ | NCommitLinkListR _ => Some (map_res NCommitLinkList (assign_link_list n))
  | NCommit _ | NCommitR _ => Some (map_res NCommit (assign_commit n))
  | NEntry _ | NEntryR _ => Some (map_res NEntry (assign_entry n))
  | NTree _ | NTreeR _ => Some (map_res NTree (assign_tree n))
  | _ => None
  end.

(** LinkTargetNodePrototype of the typed links (2003-2005, 8580-8582): Commit__Repr and
    Tree__Repr.  The type Link has none (a client then takes basicnode's Any). *)
Definition link_target (n : node) : option bkind :=
  match n with
  | NTreeLink _ => Some BTree
  | NCommitLink _ => Some BCommit
  | _ => None
  end.
