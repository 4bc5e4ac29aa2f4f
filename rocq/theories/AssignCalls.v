(** AssignNode of the generated assemblers as the sequence of calls it makes, executed by
    the machine of Builder.v.  Models the bodies of AssignNode in
    ipldsch_satisfaction.go, and datamodel.Copy of go-ipld-prime.

    The calls depend on the node only: a body stops at the first call that fails, and
    nothing it does later depends on the answers. *)
From Verif Require Import Base GoStr Cid Types Nodes Builder.

(** One call on the assembler itself or on one below it; or an error that comes from
    the node and not from the assembler. *)
Inductive action := Do (path : list nat) (m : meth) | Fail.
Definition under (i : nat) (a : action) : action := match a with Do p m => Do (i :: p) m | Fail => Fail end.
Definition inside (i : nat) (l : list action) : list action := map (under i) l.

(** [if err := ...; err != nil { return err }] after every call *)
Fixpoint exec (repr : bool) (t : ty) (w : world) (l : list action) : outcome :=
  match l with
  | [] => (OK, w)
  | Fail :: _ => (ERR, w)
  | Do p m :: r =>
      let '(v, w1) := step repr t w (p, m) in
      match v with OK => exec repr t w1 r | _ => (v, w1) end
  end.

(** The Go values of the generated types (ipldsch_types.go) *)
Definition text_val (s : bytes) : val := VScalar (SString s).
Definition link_val (l : link) : val := VScalar (SLink l).
Definition person_val (p : person) : val :=
  VStruct [(MAbsent, text_val (p_date p)); (MAbsent, text_val (p_timezone p)); (MAbsent, text_val (p_email p)); (MAbsent, text_val (p_name p))].
Definition tag_val (t : tag) : val :=
  VStruct [(MAbsent, link_val (Types.t_object t)); (MAbsent, text_val (t_type t)); (MAbsent, text_val (Types.t_tag t));
           (MAbsent, person_val (t_tagger t)); (MAbsent, text_val (t_message t))].
Definition entry_val (e : entry) : val := VStruct [(MAbsent, text_val (e_mode e)); (MAbsent, link_val (e_hash e))].
Definition pointer_val {X} (f : X -> val) (o : option X) : maybe * val := match o with Some x => (MValue, f x) | None => (MAbsent, VNil) end.
Definition inline_val (o : option bytes) : maybe * val := match o with Some s => (MValue, text_val s) | None => (MAbsent, text_val []) end.
Definition commit_val (c : commit) : val :=
  VStruct [(MAbsent, link_val (c_tree c)); (MAbsent, VList (map link_val (c_parents c))); (MAbsent, text_val (c_message c));
           pointer_val person_val (c_author c); pointer_val person_val (c_committer c);
           inline_val (c_encoding c); inline_val (c_signature c);
           (MAbsent, VList (map tag_val (c_mergetag c))); (MAbsent, VList (map text_val (c_other c)))].
(** [tr_m] says nothing about whether the hash map was ever made: an empty one counts as made. *)
Definition tree_val (t : tree) : val :=
  VTree (map (fun ke => (fst ke, entry_val (snd ke))) (tr_t t)) (Some (map fst (tr_m t))).

(** *** Scalars: null, a node of the assembler's own Go type, any other node.
    String 4298-4316, GpgSig 2781-2799 *)
Definition text_calls (own : node -> option bytes) (v : node) : list action :=
  if is_null v then [Do [] AssignNull]
  else match own v with
       | Some s => [Do [] (AssignTyped (text_val s))]
       | None => match as_string v with Ok s => [Do [] (Assign (SString s))] | _ => [Fail] end
       end.
Definition string_calls := text_calls (fun v => match v with NString s => Some s | _ => None end).
Definition gpgsig_calls := text_calls (fun v => match v with NGpgSig s => Some s | _ => None end).
(** Link 2986-3004, Commit_Link 1978-1996, Tree_Link 8555-8573 *)
Definition any_link_calls (own : node -> option link) (v : node) : list action :=
  if is_null v then [Do [] AssignNull]
  else match own v with
       | Some l => [Do [] (AssignTyped (link_val l))]
       | None => match as_link v with Ok l => [Do [] (Assign (SLink l))] | _ => [Fail] end
       end.
Definition link_calls := any_link_calls (fun v => match v with NLink l => Some l | _ => None end).
Definition tree_link_calls := any_link_calls (fun v => match v with NTreeLink l => Some l | _ => None end).
Definition commit_link_calls := any_link_calls (fun v => match v with NCommitLink l => Some l | _ => None end).
(** Blob 185-199 *)
Definition blob_calls (v : node) : list action :=
  if is_null v then [Do [] AssignNull]
  else match v with
       | NBlob s => [Do [] (AssignTyped (VScalar (SBytes s)))]
       | _ => match as_bytes v with Ok s => [Do [] (Assign (SBytes s))] | _ => [Fail] end
       end.

(** *** Structs: [na.AssembleKey().AssignNode(k)] (the key assembler: AsString, then
    AssignString, 1027-1033), [na.AssembleValue().AssignNode(v)], in the end [na.Finish()] *)
Definition field_calls (fs : list field) (child : nat -> node -> list action) (kv : node * node) : list action :=
  Do [] AssembleKey ::
  match as_string (fst kv) with
  | Ok k =>
      Do [] (KeyAssign k) :: Do [] AssembleValue ::
      match field_index fs k with Some i => inside i (child i (snd kv)) | None => [] end
  | _ => [Fail]
  end.
Definition fields_calls fs child (kvs : list (node * node)) : list action := flat_map (field_calls fs child) kvs.

(** AssignNode: Commit 563-600 / 1330-1367, PersonInfo 3281-3318 / 3810-3847,
    Tag 5196-5233 / 5768-5805, TreeEntry 7696-7733 / 8139-8176 *)
Definition struct_calls (fs : list field) (own : node -> option val) (child : nat -> node -> list action) (v : node) : list action :=
  if is_null v then [Do [] AssignNull]
  else match own v with
       | Some u => [Do [] (AssignTyped u)]
       | None =>
           match map_entries v with
           | None => [Fail]
           | Some kvs => fields_calls fs child kvs ++ [Do [] Finish]
           end
       end.

Definition fields_of (t : ty) : list field := match t with TStruct fs => fs | _ => [] end.
Definition person_calls : node -> list action :=
  struct_calls (fields_of t_person) (fun v => match v with NPerson p => Some (person_val p) | _ => None end) (fun _ => string_calls).
Definition tag_calls : node -> list action :=
  struct_calls (fields_of t_tag) (fun v => match v with NTag t => Some (tag_val t) | _ => None end)
    (fun i => match i with 0 => link_calls | 3 => person_calls | _ => string_calls end).
Definition entry_calls : node -> list action :=
  struct_calls (fields_of t_entry) (fun v => match v with NEntry e => Some (entry_val e) | _ => None end)
    (fun i => match i with 0 => string_calls | _ => link_calls end).

(** *** Lists: 2268-2300 / 2526-2558, 4585 / 4843, 6368 / 6626 *)
Definition items_calls (child : node -> list action) (l : list node) : list action :=
  flat_map (fun v => Do [] AssembleValue :: inside 0 (child v)) l.
Definition list_calls (own : node -> option val) (child : node -> list action) (v : node) : list action :=
  if is_null v then [Do [] AssignNull]
  else match own v with
       | Some u => [Do [] (AssignTyped u)]
       | None =>
           match list_items v with
           | None => [Fail]
           | Some l => items_calls child l ++ [Do [] Finish]
           end
       end.
Definition commit_links_calls := list_calls (fun v => match v with NCommitLinkList l => Some (VList (map link_val l)) | _ => None end) commit_link_calls.
Definition strings_calls := list_calls (fun v => match v with NStringList l => Some (VList (map text_val l)) | _ => None end) string_calls.
Definition tags_calls := list_calls (fun v => match v with NTagList l => Some (VList (map tag_val l)) | _ => None end) tag_calls.

Definition commit_calls : node -> list action :=
  struct_calls (fields_of t_commit) (fun v => match v with NCommit c => Some (commit_val c) | _ => None end)
    (fun i => match i with
              | 0 => tree_link_calls | 1 => commit_links_calls | 2 => string_calls
              | 3 | 4 => person_calls
              | 5 => string_calls | 6 => gpgsig_calls | 7 => tags_calls | _ => strings_calls
              end).

(** *** Trees: 6966-6999 / 7300-7333 *)
Definition tree_entry_calls (kv : node * node) : list action :=
  Do [] AssembleKey :: inside 0 (string_calls (fst kv)) ++ Do [] AssembleValue :: inside 1 (entry_calls (snd kv)).
Definition tree_calls (v : node) : list action :=
  if is_null v then [Do [] AssignNull]
  else match v with
       | NTree t => [Do [] (AssignTyped (tree_val t))]
       | _ =>
           match map_entries v with
           | None => [Fail]
           | Some kvs => flat_map tree_entry_calls kvs ++ [Do [] Finish]
           end
       end.

(** *** datamodel.Copy of a map into an assembler: BeginMap first; absent values are left out. *)
Definition is_absent (n : node) : bool := match n with NAbsent => true | _ => false end.
Definition present (kvs : list (node * node)) : list (node * node) := filter (fun kv => negb (is_absent (snd kv))) kvs.
Definition copy_map (each : node * node -> list action) (v : node) : list action :=
  match map_entries v with
  | None => [Fail]
  | Some kvs => Do [] BeginMap :: flat_map each (present kvs) ++ [Do [] Finish]
  end.
Definition copy_tree : node -> list action := copy_map tree_entry_calls.
Definition copy_struct (t : ty) (child : nat -> node -> list action) : node -> list action :=
  copy_map (field_calls (fields_of t) child).
Definition copy_commit : node -> list action :=
  copy_struct t_commit
    (fun i => match i with
              | 0 => tree_link_calls | 1 => commit_links_calls | 2 => string_calls
              | 3 | 4 => person_calls
              | 5 => string_calls | 6 => gpgsig_calls | 7 => tags_calls | _ => strings_calls
              end).
Definition copy_tag : node -> list action :=
  copy_struct t_tag (fun i => match i with 0 => link_calls | 3 => person_calls | _ => string_calls end).
