(** Methods of the generated nodes: representation, iteration, lookup, length. *)
From Verif Require Import Base GoStr Cid Types.

(** [Representation()] of a typed node (ipldsch_satisfaction.go:1041, 2352, 3602,
    4669, 5552, 6452, 7129, 7947).  Scalars are their own representation. *)
Definition representation (n : node) : node :=
  match n with
  | NPerson p => NPersonR p
  | NTag t => NTagR t
  | NTagList l => NTagListR l
  | NStringList l => NStringListR l
  | NCommitLinkList l => NCommitLinkListR l
  | NCommit c => NCommitR c
  | NEntry e => NEntryR e
  | NTree t => NTreeR t
  | _ => n
  end.

(** Field names, in schema order. *)
Definition person_fields := [bs "date"; bs "timezone"; bs "email"; bs "name"].
Definition tag_fields := [bs "object"; bs "type"; bs "tag"; bs "tagger"; bs "message"].
Definition entry_fields := [bs "mode"; bs "hash"].
Definition commit_fields :=
  [bs "tree"; bs "parents"; bs "message"; bs "author"; bs "committer"; bs "encoding";
   bs "signature"; bs "mergetag"; bs "other"].

(** ** Map iterators as state machines

    An iterator is an index; [Next] gives the pair and the next index. *)
Definition itr_step := (res (node * node * nat))%type.

(** _PersonInfo__MapItr.Next, ipldsch_satisfaction.go:3117-3142; the representation
    iterator (3655-3680) yields the same scalar nodes. *)
Definition person_next (p : person) (idx : nat) : itr_step :=
  match idx with
  | 0 => Ok (NString (bs "date"), NString (p_date p), 1)
  | 1 => Ok (NString (bs "timezone"), NString (p_timezone p), 2)
  | 2 => Ok (NString (bs "email"), NString (p_email p), 3)
  | 3 => Ok (NString (bs "name"), NString (p_name p), 4)
  | _ => Err EOverread
  end.

(** _TreeEntry__MapItr.Next 7544-7563, representation 7994-8013. *)
Definition entry_next (e : entry) (idx : nat) : itr_step :=
  match idx with
  | 0 => Ok (NString (bs "mode"), NString (e_mode e), 1)
  | 1 => Ok (NString (bs "hash"), NLink (e_hash e), 2)
  | _ => Err EOverread
  end.

(** _Tag__MapItr.Next 5026-5051 ([repr = false]), _Tag__ReprMapItr.Next 5608-5636. *)
Definition tag_next (repr : bool) (t : tag) (idx : nat) : itr_step :=
  let view n := if repr then representation n else n in
  match idx with
  | 0 => Ok (NString (bs "object"), view (NLink (t_object t)), 1)
  | 1 => Ok (NString (bs "type"), view (NString (t_type t)), 2)
  | 2 => Ok (NString (bs "tag"), view (NString (t_tag t)), 3)
  | 3 => Ok (NString (bs "tagger"), view (NPerson (t_tagger t)), 4)
  | 4 => Ok (NString (bs "message"), view (NString (t_message t)), 5)
  | _ => Err EOverread
  end.

(** _Commit__MapItr.Next 353-406: absent optional fields are yielded as Absent. *)
Definition commit_next (c : commit) (idx : nat) : itr_step :=
  match idx with
  | 0 => Ok (NString (bs "tree"), NTreeLink (c_tree c), 1)
  | 1 => Ok (NString (bs "parents"), NCommitLinkList (c_parents c), 2)
  | 2 => Ok (NString (bs "message"), NString (c_message c), 3)
  | 3 => Ok (NString (bs "author"), opt_node NPerson (c_author c), 4)
  | 4 => Ok (NString (bs "committer"), opt_node NPerson (c_committer c), 5)
  | 5 => Ok (NString (bs "encoding"), opt_node NString (c_encoding c), 6)
  | 6 => Ok (NString (bs "signature"), opt_node NGpgSig (c_signature c), 7)
  | 7 => Ok (NString (bs "mergetag"), NTagList (c_mergetag c), 8)
  | 8 => Ok (NString (bs "other"), NStringList (c_other c), 9)
  | _ => Err EOverread
  end.

(** _Commit__ReprMapItr.Next 1121-1175: [goto advance] skips absent fields. *)
Definition commit_next_r8 (c : commit) (idx : nat) : itr_step :=
  match idx with
  | 8 => Ok (NString (bs "other"), NStringListR (c_other c), 9)
  | _ => Err EOverread
  end.
Definition commit_next_r7 (c : commit) (idx : nat) : itr_step :=
  match idx with
  | 7 => Ok (NString (bs "mergetag"), NTagListR (c_mergetag c), 8)
  | _ => commit_next_r8 c idx
  end.
Definition commit_next_r6 (c : commit) (idx : nat) : itr_step :=
  match idx with
  | 6 => match c_signature c with
         | Some s => Ok (NString (bs "signature"), NGpgSig s, 7)
         | None => commit_next_r7 c 7
         end
  | _ => commit_next_r7 c idx
  end.
Definition commit_next_r5 (c : commit) (idx : nat) : itr_step :=
  match idx with
  | 5 => match c_encoding c with
         | Some s => Ok (NString (bs "encoding"), NString s, 6)
         | None => commit_next_r6 c 6
         end
  | _ => commit_next_r6 c idx
  end.
Definition commit_next_r4 (c : commit) (idx : nat) : itr_step :=
  match idx with
  | 4 => match c_committer c with
         | Some p => Ok (NString (bs "committer"), NPersonR p, 5)
         | None => commit_next_r5 c 5
         end
  | _ => commit_next_r5 c idx
  end.
Definition commit_next_r (c : commit) (idx : nat) : itr_step :=
  match idx with
  | 0 => Ok (NString (bs "tree"), NTreeLink (c_tree c), 1)
  | 1 => Ok (NString (bs "parents"), NCommitLinkListR (c_parents c), 2)
  | 2 => Ok (NString (bs "message"), NString (c_message c), 3)
  | 3 => match c_author c with
         | Some p => Ok (NString (bs "author"), NPersonR p, 4)
         | None => commit_next_r4 c 4
         end
  | _ => commit_next_r4 c idx
  end.

(** _Tree__MapItr.Next 6829-6838 and _Tree__ReprMapItr.Next 7166-7172. *)
Definition tree_next (repr : bool) (t : tree) (idx : nat) : itr_step :=
  match nth_error (tr_t t) idx with
  | None => Err EOverread
  | Some (k, e) => Ok (NString k, if repr then NEntryR e else NEntry e, S idx)
  end.

(** Generic (basicnode) map iterator. *)
Definition gen_next (kvs : list (node * node)) (idx : nat) : itr_step :=
  match nth_error kvs idx with
  | None => Err EOverread
  | Some (k, v) => Ok (k, v, S idx)
  end.

(** [MapIterator()]: [None] is the nil iterator; otherwise the length at which
    [Done()] becomes true (_Commit 407, 1176; _Tag 5052; _PersonInfo 3143;
    _TreeEntry 7564; _Tree 6839, 7173) and [Next]. *)
Definition map_iterator (n : node) : option (nat * (nat -> itr_step)) :=
  match n with
  | NGenMap kvs => Some (length kvs, gen_next kvs)
  | NPerson p | NPersonR p => Some (4, person_next p)
  | NTag t => Some (5, tag_next false t)
  | NTagR t => Some (5, tag_next true t)
  | NCommit c => Some (9, commit_next c)
  | NCommitR c => Some (9, commit_next_r c)
  | NEntry e | NEntryR e => Some (2, entry_next e)
  | NTree t => Some (length (tr_t t), tree_next false t)
  | NTreeR t => Some (length (tr_t t), tree_next true t)
  | _ => None
  end.

(** The loop [for !itr.Done() { k, v, err := itr.Next(); ... }] collects: *)
Fixpoint drain (fuel : nat) (stop : nat) (next : nat -> itr_step) (idx : nat)
  : res (list (node * node)) :=
  match fuel with
  | O => OutOfFuel
  | S f => if stop <=? idx then Ok []
           else let* (k, v, idx') := next idx in
                let* r := drain f stop next idx' in
                Ok ((k, v) :: r)
  end.

(** All pairs an iteration yields.  [None]: nil iterator.  [map_entries_drain]
    (NodeFacts.v) proves that [drain] computes exactly this. *)
Definition map_entries (n : node) : option (list (node * node)) :=
  match n with
  | NGenMap kvs => Some kvs
  | NPerson p | NPersonR p =>
      Some [(NString (bs "date"), NString (p_date p));
            (NString (bs "timezone"), NString (p_timezone p));
            (NString (bs "email"), NString (p_email p));
            (NString (bs "name"), NString (p_name p))]
  | NTag t =>
      Some [(NString (bs "object"), NLink (t_object t));
            (NString (bs "type"), NString (t_type t));
            (NString (bs "tag"), NString (t_tag t));
            (NString (bs "tagger"), NPerson (t_tagger t));
            (NString (bs "message"), NString (t_message t))]
  | NTagR t =>
      Some [(NString (bs "object"), NLink (t_object t));
            (NString (bs "type"), NString (t_type t));
            (NString (bs "tag"), NString (t_tag t));
            (NString (bs "tagger"), NPersonR (t_tagger t));
            (NString (bs "message"), NString (t_message t))]
  | NCommit c =>
      Some [(NString (bs "tree"), NTreeLink (c_tree c));
            (NString (bs "parents"), NCommitLinkList (c_parents c));
            (NString (bs "message"), NString (c_message c));
            (NString (bs "author"), opt_node NPerson (c_author c));
            (NString (bs "committer"), opt_node NPerson (c_committer c));
            (NString (bs "encoding"), opt_node NString (c_encoding c));
            (NString (bs "signature"), opt_node NGpgSig (c_signature c));
            (NString (bs "mergetag"), NTagList (c_mergetag c));
            (NString (bs "other"), NStringList (c_other c))]
  | NCommitR c =>
      let opt {A} (k : bytes) (f : A -> node) (o : option A) :=
        match o with Some a => [(NString k, f a)] | None => [] end in
      Some ([(NString (bs "tree"), NTreeLink (c_tree c));
             (NString (bs "parents"), NCommitLinkListR (c_parents c));
             (NString (bs "message"), NString (c_message c))]
            ++ opt (bs "author") NPersonR (c_author c)
            ++ opt (bs "committer") NPersonR (c_committer c)
            ++ opt (bs "encoding") NString (c_encoding c)
            ++ opt (bs "signature") NGpgSig (c_signature c)
            ++ [(NString (bs "mergetag"), NTagListR (c_mergetag c));
                (NString (bs "other"), NStringListR (c_other c))])
  | NEntry e | NEntryR e =>
      Some [(NString (bs "mode"), NString (e_mode e)); (NString (bs "hash"), NLink (e_hash e))]
  | NTree t => Some (map (fun ke => (NString (fst ke), NEntry (snd ke))) (tr_t t))
  | NTreeR t => Some (map (fun ke => (NString (fst ke), NEntryR (snd ke))) (tr_t t))
  | _ => None
  end.

(** Items a list iteration yields ([ListIterator]); [None]: nil iterator.
    ipldsch_satisfaction.go:2135, 2396, 4452, 4713, 6235, 6496. *)
Definition list_items (n : node) : option (list node) :=
  match n with
  | NGenList l => Some l
  | NTagList l => Some (map NTag l)
  | NTagListR l => Some (map NTagR l)
  | NStringList l | NStringListR l => Some (map NString l)
  | NCommitLinkList l | NCommitLinkListR l => Some (map NCommitLink l)
  | _ => None
  end.

(** [Length()] (77, 414, 1182, 2149, 2407, 3147, 3684, 5059, 5640, 6846, 7180, ...);
    -1 for scalars. *)
Definition node_length (n : node) : Z :=
  match n with
  | NGenMap kvs => Z.of_nat (length kvs)
  | NPerson _ | NPersonR _ => 4
  | NTag _ | NTagR _ => 5
  | NCommit _ => 9
  | NCommitR c =>
      9 - (match c_author c with None => 1 | Some _ => 0 end)
        - (match c_committer c with None => 1 | Some _ => 0 end)
        - (match c_encoding c with None => 1 | Some _ => 0 end)
        - (match c_signature c with None => 1 | Some _ => 0 end)
  | NEntry _ | NEntryR _ => 2
  | NTree t | NTreeR t => Z.of_nat (length (tr_t t))
  | NGenList l => Z.of_nat (length l)
  | NTagList l | NTagListR l => Z.of_nat (length l)
  | NStringList l | NStringListR l => Z.of_nat (length l)
  | NCommitLinkList l | NCommitLinkListR l => Z.of_nat (length l)
  | _ => -1
  end%Z.

(** [LookupByString] of a generic map: the value under the first key equal to [k].
    (basicnode maps have distinct string keys.) *)
Fixpoint gen_lookup (k : bytes) (kvs : list (node * node)) : res node :=
  match kvs with
  | [] => Err ENotExists
  | (k', v) :: r =>
      match as_string k' with
      | Ok s => if beqb k s then Ok v else gen_lookup k r
      | _ => gen_lookup k r
      end
  end.

(** [LookupByString] (295, 1063, 3081, 3619, 4988, 5570, 6791, 7140, 7512, 7962).
    Typed commits give Absent for an absent field, the representation gives an
    error.  Lists and scalars: wrong kind. *)
Definition lookup_by_string (n : node) (k : bytes) : res node :=
  match n with
  | NGenMap kvs => gen_lookup k kvs
  | NPerson p | NPersonR p =>
      if beqb k (bs "date") then Ok (NString (p_date p))
      else if beqb k (bs "timezone") then Ok (NString (p_timezone p))
      else if beqb k (bs "email") then Ok (NString (p_email p))
      else if beqb k (bs "name") then Ok (NString (p_name p))
      else Err (EInvalidKey k)
  | NTag t =>
      if beqb k (bs "object") then Ok (NLink (t_object t))
      else if beqb k (bs "type") then Ok (NString (t_type t))
      else if beqb k (bs "tag") then Ok (NString (t_tag t))
      else if beqb k (bs "tagger") then Ok (NPerson (t_tagger t))
      else if beqb k (bs "message") then Ok (NString (t_message t))
      else Err (EInvalidKey k)
  | NTagR t =>
      if beqb k (bs "object") then Ok (NLink (t_object t))
      else if beqb k (bs "type") then Ok (NString (t_type t))
      else if beqb k (bs "tag") then Ok (NString (t_tag t))
      else if beqb k (bs "tagger") then Ok (NPersonR (t_tagger t))
      else if beqb k (bs "message") then Ok (NString (t_message t))
      else Err (EInvalidKey k)
  | NCommit c =>
      if beqb k (bs "tree") then Ok (NTreeLink (c_tree c))
      else if beqb k (bs "parents") then Ok (NCommitLinkList (c_parents c))
      else if beqb k (bs "message") then Ok (NString (c_message c))
      else if beqb k (bs "author") then Ok (opt_node NPerson (c_author c))
      else if beqb k (bs "committer") then Ok (opt_node NPerson (c_committer c))
      else if beqb k (bs "encoding") then Ok (opt_node NString (c_encoding c))
      else if beqb k (bs "signature") then Ok (opt_node NGpgSig (c_signature c))
      else if beqb k (bs "mergetag") then Ok (NTagList (c_mergetag c))
      else if beqb k (bs "other") then Ok (NStringList (c_other c))
      else Err (EInvalidKey k)
  | NCommitR c =>
      let opt {A} (f : A -> node) (o : option A) :=
        match o with Some a => Ok (f a) | None => Err ENotExists end in
      if beqb k (bs "tree") then Ok (NTreeLink (c_tree c))
      else if beqb k (bs "parents") then Ok (NCommitLinkListR (c_parents c))
      else if beqb k (bs "message") then Ok (NString (c_message c))
      else if beqb k (bs "author") then opt NPersonR (c_author c)
      else if beqb k (bs "committer") then opt NPersonR (c_committer c)
      else if beqb k (bs "encoding") then opt NString (c_encoding c)
      else if beqb k (bs "signature") then opt NGpgSig (c_signature c)
      else if beqb k (bs "mergetag") then Ok (NTagListR (c_mergetag c))
      else if beqb k (bs "other") then Ok (NStringListR (c_other c))
      else Err (EInvalidKey k)
  | NEntry e | NEntryR e =>
      if beqb k (bs "mode") then Ok (NString (e_mode e))
      else if beqb k (bs "hash") then Ok (NLink (e_hash e))
      else Err (EInvalidKey k)
  | NTree t =>
      match assoc k (tr_m t) with Some e => Ok (NEntry e) | None => Err ENotExists end
  | NTreeR t =>
      match assoc k (tr_m t) with Some e => Ok (NEntryR e) | None => Err ENotExists end
  | _ => Err EWrongKind
  end.

(** [LookupByIndex] of the list types (2109, 2373, 4426, 4690, 6209, 6473): only the
    upper bound is checked before indexing. *)
Definition go_list_index {A} (l : list A) (idx : Z) : res A :=
  if (Z.of_nat (length l) <=? idx)%Z then Err ENotExists
  else if (idx <? 0)%Z then Panic
  else go_at l (Z.to_nat idx).

Definition lookup_by_index (n : node) (idx : Z) : res node :=
  match n with
  | NGenList l =>
      (* basicnode list: both bounds are checked *)
      if (idx <? 0)%Z || (Z.of_nat (length l) <=? idx)%Z then Err ENotExists
      else go_at l (Z.to_nat idx)
  | NTagList l => map_res NTag (go_list_index l idx)
  | NTagListR l => map_res NTagR (go_list_index l idx)
  | NStringList l | NStringListR l => map_res NString (go_list_index l idx)
  | NCommitLinkList l | NCommitLinkListR l => map_res NCommitLink (go_list_index l idx)
  | _ => Err EWrongKind
  end.

(** [LookupBySegment] with a string segment (what a textual path gives): maps look
    the string up, lists parse it as an integer ([PathSegment.Index] is
    [strconv.ParseInt(s, 10, 64)]) and index (341, 1109, 2116, 2380, ...). *)
Definition lookup_by_segment (n : node) (seg : bytes) : res node :=
  match node_kind n with
  | KMap => lookup_by_string n seg
  | KList => let* i := atoi seg in lookup_by_index n i
  | _ => Err EWrongKind
  end.

(** [LookupByNode]: structs read the key as a string, lists as an integer; a tree
    requires its own String type and panics otherwise (6802-6813, 7147-7153). *)
Definition lookup_by_node (n : node) (k : node) : res node :=
  match n with
  | NTree _ | NTreeR _ =>
      match k with NString s => lookup_by_string n s | _ => Panic end
  | _ =>
      match node_kind n with
      | KMap => let* s := as_string k in lookup_by_string n s
      | KList => match k with NInt z => lookup_by_index n z | _ => Err EWrongKind end
      | _ => Err EWrongKind
      end
  end.

(** ** List iterators

    [ListIterator()] (2125, 2389, 4442, 4706, 6225, 6489): an index, [Done] at the
    length; [Next] (2134-2143, 2398-2404, 4451-4460, 4715-4721, 6234-6243, 6498-6504)
    gives the position, the item and the next index.  The representation views
    answer with the representation of the item, which for strings and links is the
    item itself. *)
Definition list_next (items : list node) (idx : nat) : res (Z * node * nat) :=
  match nth_error items idx with
  | None => Err EOverread
  | Some v => Ok (Z.of_nat idx, v, S idx)
  end.

Definition list_iterator (n : node) : option (nat * (nat -> res (Z * node * nat))) :=
  match n with
  | NGenList l => Some (length l, list_next l)
  | NTagList l => Some (length l, list_next (map NTag l))
  | NTagListR l => Some (length l, list_next (map (fun t => representation (NTag t)) l))
  | NStringList l => Some (length l, list_next (map NString l))
  | NStringListR l => Some (length l, list_next (map (fun s => representation (NString s)) l))
  | NCommitLinkList l => Some (length l, list_next (map NCommitLink l))
  | NCommitLinkListR l => Some (length l, list_next (map (fun s => representation (NCommitLink s)) l))
  | _ => None
  end.
