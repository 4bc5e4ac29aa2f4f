(** Specification: walking an object with its iterators, and following a path.  This is
    what go-ipld-prime's traversal does with the nodes of this library. *)
From Verif Require Import Base GoStr Cid Types Nodes NodeSpec.

(** ** The links found by walking through a node, in the order they are met *)
Definition holds_nothing (n : node) : Prop :=
  node_kind n <> KMap /\ node_kind n <> KList /\ node_kind n <> KLink.
Inductive walk : node -> list link -> Prop :=
| walk_link n l : node_kind n = KLink -> as_link n = Ok l -> walk n [l]
| walk_map n kvs ls : yields n kvs -> walks (map snd kvs) ls -> walk n ls
| walk_list n vs ls : lists n vs -> walks (map snd vs) ls -> walk n ls
| walk_scalar n : holds_nothing n -> walk n []
with walks : list node -> list link -> Prop :=
| walks_none : walks [] []
| walks_some n l ns ls : walk n l -> walks ns ls -> walks (n :: ns) (l ++ ls).

(** ** Paths

    [child n s v]: iterating over [n] yields [v] under the key [s], or at the position whose
    decimal numeral is [s]. *)
Inductive child (n : node) : bytes -> node -> Prop :=
| child_map l k s v : yields n l -> In (k, v) l -> as_string k = Ok s -> child n s v
| child_list l i v : lists n l -> In (i, v) l -> child n (dec_Z i) v.
Inductive at_path : node -> list bytes -> node -> Prop :=
| at_here n : at_path n [] n
| at_child n s v p m : child n s v -> at_path v p m -> at_path n (s :: p) m.

(** traversal.Get on a textual path: one LookupBySegment after the other. *)
Fixpoint resolve (n : node) (p : list bytes) : res node :=
  match p with
  | [] => Ok n
  | s :: r => let* m := lookup_by_segment n s in resolve m r
  end.
