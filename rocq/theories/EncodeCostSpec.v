(** What the bounds on the work of encoding speak of: the CIDs in a node. *)
From Verif Require Import Base GoStr Cid Types.

Definition tag_cids (t : tag) : list link := [t_object t].
Definition commit_cids (c : commit) : list link := c_tree c :: c_parents c ++ flat_map tag_cids (c_mergetag c).

(** Every link anywhere in a node. *)
Fixpoint all_links (n : node) : list link :=
  match n with
  | NGenLink l | NLink l | NTreeLink l | NCommitLink l => [l]
  | NGenList l => flat_map all_links l
  | NGenMap kvs => flat_map (fun kv => all_links (fst kv) ++ all_links (snd kv)) kvs
  | NTag t | NTagR t => tag_cids t
  | NTagList l | NTagListR l => flat_map tag_cids l
  | NCommitLinkList l | NCommitLinkListR l => l
  | NCommit c | NCommitR c => commit_cids c
  | NEntry e | NEntryR e => [e_hash e]
  | NTree t | NTreeR t => map (fun ne => e_hash (snd ne)) (tr_t t)
  | _ => []
  end.

(** The CID of a link, if it has one, is not longer than [L] bytes. *)
Definition short (L : nat) (l : link) : Prop :=
  match l with LCid c => length c <= L | _ => True end.
