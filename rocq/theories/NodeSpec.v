(** Iterating over a node, independently of how the iterators work: the loop

    [for !itr.Done() { k, v, err := itr.Next(); ... }]

    seen from outside. *)
From Verif Require Import Base GoStr Cid Types Nodes.

(** [run stop next i l]: the loop started at position [i] ends by itself, no call of
    [Next] fails, and the pairs it gets are [l]. *)
Inductive run {A} (stop : nat) (next : nat -> res (A * nat)) : nat -> list A -> Prop :=
| run_done i : stop <= i -> run stop next i []
| run_step i a j l : i < stop -> next i = Ok (a, j) -> run stop next j l -> run stop next i (a :: l).

(** The map [n] yields the pairs [l]. *)
Definition yields (n : node) (l : list (node * node)) : Prop :=
  exists stop next, map_iterator n = Some (stop, next) /\ run stop next 0 l.

(** The list [n] yields the items [l], with their positions. *)
Definition lists (n : node) (l : list (Z * node)) : Prop :=
  exists stop next, list_iterator n = Some (stop, next) /\ run stop next 0 l.

(** The names of the fields, from the schema (gen/gen.go). *)
Inductive struct_node : node -> list bytes -> Prop :=
| sn_person p : struct_node (NPerson p) [bs "date"; bs "timezone"; bs "email"; bs "name"]
| sn_tag t : struct_node (NTag t) [bs "object"; bs "type"; bs "tag"; bs "tagger"; bs "message"]
| sn_entry e : struct_node (NEntry e) [bs "mode"; bs "hash"]
| sn_commit c : struct_node (NCommit c)
    [bs "tree"; bs "parents"; bs "message"; bs "author"; bs "committer"; bs "encoding";
     bs "signature"; bs "mergetag"; bs "other"].

(** The six list nodes and their items. *)
Inductive list_node : node -> list node -> Prop :=
| ln_tags l : list_node (NTagList l) (map NTag l)
| ln_tags_r l : list_node (NTagListR l) (map NTagR l)
| ln_strings l : list_node (NStringList l) (map NString l)
| ln_strings_r l : list_node (NStringListR l) (map NString l)
| ln_links l : list_node (NCommitLinkList l) (map NCommitLink l)
| ln_links_r l : list_node (NCommitLinkListR l) (map NCommitLink l).
