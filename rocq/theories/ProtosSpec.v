(** The schema (gen/gen.go): which types the fields, the elements and the values have.  For C76. *)
From Verif Require Import Base Types Methods MethodsSpec Protos.

(** gen.go:26-66 *)
Definition fields (t : tyname) : list (bytes * tyname) :=
  match t with
  | TPersonInfo => [(bs "date", TString); (bs "timezone", TString); (bs "email", TString); (bs "name", TString)]
  | TTag => [(bs "object", TLink); (bs "type", TString); (bs "tag", TString); (bs "tagger", TPersonInfo); (bs "message", TString)]
  | TCommit => [(bs "tree", TTree_Link); (bs "parents", TCommit_Link_List); (bs "message", TString); (bs "author", TPersonInfo);
                (bs "committer", TPersonInfo); (bs "encoding", TString); (bs "signature", TGpgSig); (bs "mergetag", TTag_List);
                (bs "other", TString_List)]
  | TTreeEntry => [(bs "mode", TString); (bs "hash", TLink)]
  | _ => []
  end.
(** What is under the segment [s] in a value of type [t]: under a name in a struct, under any name in a tree, under any
    index in a list; in scalars there is nothing *)
Inductive under : tyname -> bytes -> tyname -> Prop :=
| under_field t s u : In (s, u) (fields t) -> under t s u
| under_key s : under TTree s TTreeEntry
| under_index_link s : under TCommit_Link_List s TCommit_Link
| under_index_string s : under TString_List s TString
| under_index_tag s : under TTag_List s TTag.
Inductive down : tyname -> list bytes -> tyname -> Prop :=
| down_here t : down t [] t
| down_step t s u path v : under t s u -> down u path v -> down t (s :: path) v.

(** The two ways to see a value of a type: as the type itself or as its representation.  A scalar is its own
    representation. *)
Definition seen (repr : bool) (t : tyname) : bool := repr && recursive (schema_kind t).
Definition the_proto (repr : bool) (t : tyname) : proto := P (seen repr t) t.
Definition the_node (repr : bool) (t : tyname) : gotype := (if seen repr t then ReprNode else Node, t).
Definition the_assembler (repr : bool) (t : tyname) : gotype := (if seen repr t then ReprAssembler else Assembler, t).
