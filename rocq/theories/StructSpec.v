(** Specification: when a node holds the data of a person, tag, tree entry or commit.

    A map holds a struct when its pairs are, in some order, the fields of the struct, each once,
    and no other.  [map_entries] and [list_items] (Nodes.v) are what iterating over a node yields. *)
From Verif Require Import Base GoStr Cid Types Nodes.
From Coq Require Import Permutation.

Inductive is_text : node -> bytes -> Prop :=
| it_gen s : is_text (NGenString s) s
| it_str s : is_text (NString s) s
| it_sig s : is_text (NGpgSig s) s.
Inductive is_link : node -> link -> Prop :=
| il_gen l : is_link (NGenLink l) l
| il_link l : is_link (NLink l) l
| il_tree l : is_link (NTreeLink l) l
| il_commit l : is_link (NCommitLink l) l.

(** A field: its name, and what its value must be. *)
Definition field := (bytes * (node -> Prop))%type.
Definition is_field (f : field) (kv : node * node) : Prop := is_text (fst kv) (fst f) /\ snd f (snd kv).
(** The pairs are exactly these fields, in any order. *)
Definition made_of (fs : list field) (v : node) : Prop :=
  exists kvs kvs', map_entries v = Some kvs /\ Permutation kvs' kvs /\ Forall2 is_field fs kvs'.
Definition list_of {A} (P : A -> node -> Prop) (l : list A) (v : node) : Prop :=
  exists items, list_items v = Some items /\ Forall2 P l items.

Definition holds_person (p : person) (v : node) : Prop :=
  made_of [ (bs "date", fun x => is_text x (p_date p)); (bs "timezone", fun x => is_text x (p_timezone p));
            (bs "email", fun x => is_text x (p_email p)); (bs "name", fun x => is_text x (p_name p)) ] v.
Definition holds_entry (e : entry) (v : node) : Prop :=
  made_of [ (bs "mode", fun x => is_text x (e_mode e)); (bs "hash", fun x => is_link x (e_hash e)) ] v.
Definition holds_tag (t : tag) (v : node) : Prop :=
  made_of [ (bs "object", fun x => is_link x (t_object t)); (bs "type", fun x => is_text x (t_type t));
            (bs "tag", fun x => is_text x (t_tag t)); (bs "tagger", holds_person (t_tagger t));
            (bs "message", fun x => is_text x (t_message t)) ] v.
(** An optional field is there exactly when the commit has it.  The author and committer
    must be the library's own PersonInfo nodes. *)
Definition when {A} (o : option A) (f : A -> field) : list field := match o with Some a => [f a] | None => [] end.
Definition holds_commit (c : commit) (v : node) : Prop :=
  made_of ([ (bs "tree", fun x => is_link x (c_tree c));
             (bs "parents", list_of (fun l x => is_link x l) (c_parents c));
             (bs "message", fun x => is_text x (c_message c)) ]
           ++ when (c_author c) (fun p => (bs "author", fun x => x = NPerson p))
           ++ when (c_committer c) (fun p => (bs "committer", fun x => x = NPerson p))
           ++ when (c_encoding c) (fun e => (bs "encoding", fun x => is_text x e))
           ++ when (c_signature c) (fun s => (bs "signature", fun x => is_text x s))
           ++ [ (bs "mergetag", list_of holds_tag (c_mergetag c));
                (bs "other", list_of (fun s x => is_text x s) (c_other c)) ]) v.
