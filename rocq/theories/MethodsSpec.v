(** Which methods a kind has, and how the types are called.  For C75. *)
From Verif Require Import Base Types Methods.
From Coq Require Import String.
Local Open Scope string_scope.

(** The data model: maps and lists are looked up in, a scalar is read as what it is, null as nothing; for
    assemblers the same.  Everything can be asked to take another node. *)
Definition has (k : kind) (m : method) : bool :=
  match m, k with
  | (LookupByString | BeginMap), KMap => true
  | (LookupByIndex | BeginList), KList => true
  | (LookupByNode | LookupBySegment), (KMap | KList) => true
  | (AsBool | AssignBool), KBool => true
  | (AsInt | AssignInt), KInt => true
  | (AsFloat | AssignFloat), KFloat => true
  | (AsString | AssignString), KString => true
  | (AsBytes | AssignBytes), KBytes => true
  | (AsLink | AssignLink), KLink => true
  | AssignNull, KNull => true
  | AssignNode, _ => true
  | _, _ => false
  end.

(** The schema (gen/gen.go): names and kinds *)
Definition schema_name (t : tyname) : string :=
  match t with
  | TBlob => "Blob" | TCommit => "Commit" | TCommit_Link => "Commit_Link" | TCommit_Link_List => "Commit_Link_List"
  | TGpgSig => "GpgSig" | TLink => "Link" | TPersonInfo => "PersonInfo" | TString => "String" | TString_List => "String_List"
  | TTag => "Tag" | TTag_List => "Tag_List" | TTree => "Tree" | TTreeEntry => "TreeEntry" | TTree_Link => "Tree_Link"
  end.
Definition schema_kind (t : tyname) : kind :=
  match t with
  | TBlob => KBytes
  | TString | TGpgSig => KString
  | TLink | TCommit_Link | TTree_Link => KLink
  | TCommit_Link_List | TString_List | TTag_List => KList
  | TCommit | TPersonInfo | TTag | TTree | TTreeEntry => KMap
  end.
Definition is_struct (t : tyname) : bool :=
  match t with TCommit | TPersonInfo | TTag | TTreeEntry => true | _ => false end.
Definition recursive (k : kind) : bool := match k with KMap | KList => true | _ => false end.

(** What an error should call them *)
Definition full_name (r : role) (t : tyname) : string :=
  "ipldgit." ++ schema_name t ++
  match r with
  | Node | Assembler => ""
  | ReprNode | ReprAssembler => ".Repr"
  | Key => ".KeyAssembler"
  | ReprKey => ".Repr.KeyAssembler"
  end.
(** The kind that an assembler takes; keys are strings *)
Definition takes (r : role) (t : tyname) : kind :=
  match r with Key | ReprKey => KString | _ => schema_kind t end.
(** The assemblers there are: scalars have none for the representation, only structs have some for keys *)
Definition assembler_exists (r : role) (t : tyname) : bool :=
  match r with
  | Assembler => true
  | ReprAssembler => recursive (schema_kind t)
  | Key | ReprKey => is_struct t
  | Node | ReprNode => false
  end.
Definition assembler_method (m : method) : bool :=
  match m with
  | BeginMap | BeginList | AssignNull | AssignBool | AssignInt | AssignFloat | AssignString | AssignBytes | AssignLink | AssignNode => true
  | _ => false
  end.

(** The error tells the type by its name, the method, the kind of what it was called on, and names only kinds for which the
    method would do *)
Definition tells (w : wrong_kind) (name : string) (m : method) (k : kind) : Prop :=
  wk_type w = name /\ wk_method w = m /\ wk_actual w = k /\ wk_right w <> nil /\ forall k', In k' (wk_right w) -> has k' m = true.
