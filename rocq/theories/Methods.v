(** The calls of a kind that a node or an assembler does not have, and the errors they give.

    In the generated code each such method is one line, [return mixins.K{"T"}.M(...)].  The lines are
    data here: [refusals] has one row for each, in the order of the file.  The numbers beside the rows are
    lines of ipldsch_satisfaction.go. *)
From Verif Require Import Base GoStr Cid Types Nodes.
From Coq Require Import String.
Local Open Scope string_scope.
Local Open Scope list_scope.

(** The types of the schema, and the Go types of the generated code for each: the node, the node of the representation,
    the assemblers of both, and the assemblers of the keys of structs *)
Inductive tyname := TBlob | TCommit | TCommit_Link | TCommit_Link_List | TGpgSig | TLink | TPersonInfo
| TString | TString_List | TTag | TTag_List | TTree | TTreeEntry | TTree_Link.
Inductive role := Node | ReprNode | Assembler | ReprAssembler | Key | ReprKey.

(** The methods of ipld.Node and ipld.NodeAssembler that can be of the wrong kind *)
Inductive method := LookupByString | LookupByNode | LookupByIndex | LookupBySegment
| AsBool | AsInt | AsFloat | AsString | AsBytes | AsLink
| BeginMap | BeginList | AssignNull | AssignBool | AssignInt | AssignFloat | AssignString | AssignBytes | AssignLink | AssignNode.

(** ipld.ErrWrongKind *)
Record wrong_kind := W { wk_type : string; wk_method : method; wk_right : list kind; wk_actual : kind }.

(** The packages [mixins] of go-ipld-prime: [mixins.K{tn}.M()] and [mixins.KAssembler{tn}.M()]; every method that
    exists there gives the error *)
Definition right_kinds (m : method) : list kind :=
  match m with
  | LookupByString | LookupByNode | BeginMap => [KMap]
  | LookupByIndex | BeginList => [KList]
  | LookupBySegment => [KMap; KList]
  | AsBool | AssignBool => [KBool]
  | AsInt | AssignInt => [KInt]
  | AsFloat | AssignFloat => [KFloat]
  | AsString | AssignString => [KString]
  | AsBytes | AssignBytes => [KBytes]
  | AsLink | AssignLink => [KLink]
  | AssignNull => [KNull]
  | AssignNode => []                                             (* the mixins have no such method *)
  end.
Definition mixin (k : kind) (tn : string) (m : method) : wrong_kind := W tn m (right_kinds m) k.

(** One method: of which type it is, its name, the mixin it calls, with which name, and which method of it *)
Record refusal := R { r_role : role; r_type : tyname; r_method : method; r_mixin : kind; r_name : string; r_calls : method }.
Definition refusals : list refusal := [
  R Node TBlob LookupByString KBytes "ipldgit.Blob" LookupByString; (* 60 *)
  R Node TBlob LookupByNode KBytes "ipldgit.Blob" LookupByNode; (* 63 *)
  R Node TBlob LookupByIndex KBytes "ipldgit.Blob" LookupByIndex; (* 66 *)
  R Node TBlob LookupBySegment KBytes "ipldgit.Blob" LookupBySegment; (* 69 *)
  R Node TBlob AsBool KBytes "ipldgit.Blob" AsBool; (* 87 *)
  R Node TBlob AsInt KBytes "ipldgit.Blob" AsInt; (* 90 *)
  R Node TBlob AsFloat KBytes "ipldgit.Blob" AsFloat; (* 93 *)
  R Node TBlob AsString KBytes "ipldgit.Blob" AsString; (* 96 *)
  R Node TBlob AsLink KBytes "ipldgit.Blob" AsLink; (* 102 *)
  R Assembler TBlob BeginMap KBytes "ipldgit.Blob" BeginMap; (* 139 *)
  R Assembler TBlob BeginList KBytes "ipldgit.Blob" BeginList; (* 142 *)
  R Assembler TBlob AssignNull KBytes "ipldgit.Blob" AssignNull; (* 150 *)
  R Assembler TBlob AssignBool KBytes "ipldgit.Blob" AssignBool; (* 157 *)
  R Assembler TBlob AssignInt KBytes "ipldgit.Blob" AssignInt; (* 160 *)
  R Assembler TBlob AssignFloat KBytes "ipldgit.Blob" AssignFloat; (* 163 *)
  R Assembler TBlob AssignString KBytes "ipldgit.Blob" AssignString; (* 166 *)
  R Assembler TBlob AssignLink KBytes "ipldgit.Blob" AssignLink; (* 178 *)
  R Node TCommit LookupByIndex KMap "ipldgit.Commit" LookupByIndex; (* 339 *)
  R Node TCommit AsBool KMap "ipldgit.Commit" AsBool; (* 424 *)
  R Node TCommit AsInt KMap "ipldgit.Commit" AsInt; (* 427 *)
  R Node TCommit AsFloat KMap "ipldgit.Commit" AsFloat; (* 430 *)
  R Node TCommit AsString KMap "ipldgit.Commit" AsString; (* 433 *)
  R Node TCommit AsBytes KMap "ipldgit.Commit" AsBytes; (* 436 *)
  R Node TCommit AsLink KMap "ipldgit.Commit" AsLink; (* 439 *)
  R Assembler TCommit BeginList KMap "ipldgit.Commit" BeginList; (* 529 *)
  R Assembler TCommit AssignNull KMap "ipldgit.Commit" AssignNull; (* 537 *)
  R Assembler TCommit AssignBool KMap "ipldgit.Commit" AssignBool; (* 546 *)
  R Assembler TCommit AssignInt KMap "ipldgit.Commit" AssignInt; (* 549 *)
  R Assembler TCommit AssignFloat KMap "ipldgit.Commit" AssignFloat; (* 552 *)
  R Assembler TCommit AssignString KMap "ipldgit.Commit" AssignString; (* 555 *)
  R Assembler TCommit AssignBytes KMap "ipldgit.Commit" AssignBytes; (* 558 *)
  R Assembler TCommit AssignLink KMap "ipldgit.Commit" AssignLink; (* 561 *)
  R Key TCommit BeginMap KString "ipldgit.Commit.KeyAssembler" BeginMap; (* 924 *)
  R Key TCommit BeginList KString "ipldgit.Commit.KeyAssembler" BeginList; (* 927 *)
  R Key TCommit AssignNull KString "ipldgit.Commit.KeyAssembler" AssignNull; (* 930 *)
  R Key TCommit AssignBool KString "ipldgit.Commit.KeyAssembler" AssignBool; (* 933 *)
  R Key TCommit AssignInt KString "ipldgit.Commit.KeyAssembler" AssignInt; (* 936 *)
  R Key TCommit AssignFloat KString "ipldgit.Commit.KeyAssembler" AssignFloat; (* 939 *)
  R Key TCommit AssignBytes KString "ipldgit.Commit.KeyAssembler" AssignBytes; (* 1023 *)
  R Key TCommit AssignLink KString "ipldgit.Commit.KeyAssembler" AssignLink; (* 1026 *)
  R ReprNode TCommit LookupByIndex KMap "ipldgit.Commit.Repr" LookupByIndex; (* 1107 *)
  R ReprNode TCommit AsBool KMap "ipldgit.Commit.Repr" AsBool; (* 1205 *)
  R ReprNode TCommit AsInt KMap "ipldgit.Commit.Repr" AsInt; (* 1208 *)
  R ReprNode TCommit AsFloat KMap "ipldgit.Commit.Repr" AsFloat; (* 1211 *)
  R ReprNode TCommit AsString KMap "ipldgit.Commit.Repr" AsString; (* 1214 *)
  R ReprNode TCommit AsBytes KMap "ipldgit.Commit.Repr" AsBytes; (* 1217 *)
  R ReprNode TCommit AsLink KMap "ipldgit.Commit.Repr" AsLink; (* 1220 *)
  R ReprAssembler TCommit BeginList KMap "ipldgit.Commit.Repr" BeginList; (* 1296 *)
  R ReprAssembler TCommit AssignNull KMap "ipldgit.Commit.Repr.Repr" AssignNull; (* 1304 *)
  R ReprAssembler TCommit AssignBool KMap "ipldgit.Commit.Repr" AssignBool; (* 1313 *)
  R ReprAssembler TCommit AssignInt KMap "ipldgit.Commit.Repr" AssignInt; (* 1316 *)
  R ReprAssembler TCommit AssignFloat KMap "ipldgit.Commit.Repr" AssignFloat; (* 1319 *)
  R ReprAssembler TCommit AssignString KMap "ipldgit.Commit.Repr" AssignString; (* 1322 *)
  R ReprAssembler TCommit AssignBytes KMap "ipldgit.Commit.Repr" AssignBytes; (* 1325 *)
  R ReprAssembler TCommit AssignLink KMap "ipldgit.Commit.Repr" AssignLink; (* 1328 *)
  R ReprKey TCommit BeginMap KString "ipldgit.Commit.Repr.KeyAssembler" BeginMap; (* 1695 *)
  R ReprKey TCommit BeginList KString "ipldgit.Commit.Repr.KeyAssembler" BeginList; (* 1698 *)
  R ReprKey TCommit AssignNull KString "ipldgit.Commit.Repr.KeyAssembler" AssignNull; (* 1701 *)
  R ReprKey TCommit AssignBool KString "ipldgit.Commit.Repr.KeyAssembler" AssignBool; (* 1704 *)
  R ReprKey TCommit AssignInt KString "ipldgit.Commit.Repr.KeyAssembler" AssignInt; (* 1707 *)
  R ReprKey TCommit AssignFloat KString "ipldgit.Commit.Repr.KeyAssembler" AssignFloat; (* 1710 *)
  R ReprKey TCommit AssignBytes KString "ipldgit.Commit.Repr.KeyAssembler" AssignBytes; (* 1793 *)
  R ReprKey TCommit AssignLink KString "ipldgit.Commit.Repr.KeyAssembler" AssignLink; (* 1796 *)
  R Node TCommit_Link LookupByString KLink "ipldgit.Commit_Link" LookupByString; (* 1858 *)
  R Node TCommit_Link LookupByNode KLink "ipldgit.Commit_Link" LookupByNode; (* 1861 *)
  R Node TCommit_Link LookupByIndex KLink "ipldgit.Commit_Link" LookupByIndex; (* 1864 *)
  R Node TCommit_Link LookupBySegment KLink "ipldgit.Commit_Link" LookupBySegment; (* 1867 *)
  R Node TCommit_Link AsBool KLink "ipldgit.Commit_Link" AsBool; (* 1885 *)
  R Node TCommit_Link AsInt KLink "ipldgit.Commit_Link" AsInt; (* 1888 *)
  R Node TCommit_Link AsFloat KLink "ipldgit.Commit_Link" AsFloat; (* 1891 *)
  R Node TCommit_Link AsString KLink "ipldgit.Commit_Link" AsString; (* 1894 *)
  R Node TCommit_Link AsBytes KLink "ipldgit.Commit_Link" AsBytes; (* 1897 *)
  R Assembler TCommit_Link BeginMap KLink "ipldgit.Commit_Link" BeginMap; (* 1937 *)
  R Assembler TCommit_Link BeginList KLink "ipldgit.Commit_Link" BeginList; (* 1940 *)
  R Assembler TCommit_Link AssignNull KLink "ipldgit.Commit_Link" AssignNull; (* 1948 *)
  R Assembler TCommit_Link AssignBool KLink "ipldgit.Commit_Link" AssignBool; (* 1955 *)
  R Assembler TCommit_Link AssignInt KLink "ipldgit.Commit_Link" AssignInt; (* 1958 *)
  R Assembler TCommit_Link AssignFloat KLink "ipldgit.Commit_Link" AssignFloat; (* 1961 *)
  R Assembler TCommit_Link AssignString KLink "ipldgit.Commit_Link" AssignString; (* 1964 *)
  R Assembler TCommit_Link AssignBytes KLink "ipldgit.Commit_Link" AssignBytes; (* 1967 *)
  R Node TCommit_Link_List LookupByString KList "ipldgit.Commit_Link_List" LookupByString; (* 2100 *)
  R Node TCommit_Link_List AsBool KList "ipldgit.Commit_Link_List" AsBool; (* 2159 *)
  R Node TCommit_Link_List AsInt KList "ipldgit.Commit_Link_List" AsInt; (* 2162 *)
  R Node TCommit_Link_List AsFloat KList "ipldgit.Commit_Link_List" AsFloat; (* 2165 *)
  R Node TCommit_Link_List AsString KList "ipldgit.Commit_Link_List" AsString; (* 2168 *)
  R Node TCommit_Link_List AsBytes KList "ipldgit.Commit_Link_List" AsBytes; (* 2171 *)
  R Node TCommit_Link_List AsLink KList "ipldgit.Commit_Link_List" AsLink; (* 2174 *)
  R Assembler TCommit_Link_List BeginMap KList "ipldgit.Commit_Link_List" BeginMap; (* 2218 *)
  R Assembler TCommit_Link_List AssignNull KList "ipldgit.Commit_Link_List" AssignNull; (* 2242 *)
  R Assembler TCommit_Link_List AssignBool KList "ipldgit.Commit_Link_List" AssignBool; (* 2251 *)
  R Assembler TCommit_Link_List AssignInt KList "ipldgit.Commit_Link_List" AssignInt; (* 2254 *)
  R Assembler TCommit_Link_List AssignFloat KList "ipldgit.Commit_Link_List" AssignFloat; (* 2257 *)
  R Assembler TCommit_Link_List AssignString KList "ipldgit.Commit_Link_List" AssignString; (* 2260 *)
  R Assembler TCommit_Link_List AssignBytes KList "ipldgit.Commit_Link_List" AssignBytes; (* 2263 *)
  R Assembler TCommit_Link_List AssignLink KList "ipldgit.Commit_Link_List" AssignLink; (* 2266 *)
  R ReprNode TCommit_Link_List LookupByString KList "ipldgit.Commit_Link_List.Repr" LookupByString; (* 2364 *)
  R ReprNode TCommit_Link_List AsBool KList "ipldgit.Commit_Link_List.Repr" AsBool; (* 2417 *)
  R ReprNode TCommit_Link_List AsInt KList "ipldgit.Commit_Link_List.Repr" AsInt; (* 2420 *)
  R ReprNode TCommit_Link_List AsFloat KList "ipldgit.Commit_Link_List.Repr" AsFloat; (* 2423 *)
  R ReprNode TCommit_Link_List AsString KList "ipldgit.Commit_Link_List.Repr" AsString; (* 2426 *)
  R ReprNode TCommit_Link_List AsBytes KList "ipldgit.Commit_Link_List.Repr" AsBytes; (* 2429 *)
  R ReprNode TCommit_Link_List AsLink KList "ipldgit.Commit_Link_List.Repr" AsLink; (* 2432 *)
  R ReprAssembler TCommit_Link_List BeginMap KList "ipldgit.Commit_Link_List.Repr" BeginMap; (* 2476 *)
  R ReprAssembler TCommit_Link_List AssignNull KList "ipldgit.Commit_Link_List.Repr.Repr" AssignNull; (* 2500 *)
  R ReprAssembler TCommit_Link_List AssignBool KList "ipldgit.Commit_Link_List.Repr" AssignBool; (* 2509 *)
  R ReprAssembler TCommit_Link_List AssignInt KList "ipldgit.Commit_Link_List.Repr" AssignInt; (* 2512 *)
  R ReprAssembler TCommit_Link_List AssignFloat KList "ipldgit.Commit_Link_List.Repr" AssignFloat; (* 2515 *)
  R ReprAssembler TCommit_Link_List AssignString KList "ipldgit.Commit_Link_List.Repr" AssignString; (* 2518 *)
  R ReprAssembler TCommit_Link_List AssignBytes KList "ipldgit.Commit_Link_List.Repr" AssignBytes; (* 2521 *)
  R ReprAssembler TCommit_Link_List AssignLink KList "ipldgit.Commit_Link_List.Repr" AssignLink; (* 2524 *)
  R Node TGpgSig LookupByString KString "ipldgit.GpgSig" LookupByString; (* 2661 *)
  R Node TGpgSig LookupByNode KString "ipldgit.GpgSig" LookupByNode; (* 2664 *)
  R Node TGpgSig LookupByIndex KString "ipldgit.GpgSig" LookupByIndex; (* 2667 *)
  R Node TGpgSig LookupBySegment KString "ipldgit.GpgSig" LookupBySegment; (* 2670 *)
  R Node TGpgSig AsBool KString "ipldgit.GpgSig" AsBool; (* 2688 *)
  R Node TGpgSig AsInt KString "ipldgit.GpgSig" AsInt; (* 2691 *)
  R Node TGpgSig AsFloat KString "ipldgit.GpgSig" AsFloat; (* 2694 *)
  R Node TGpgSig AsBytes KString "ipldgit.GpgSig" AsBytes; (* 2700 *)
  R Node TGpgSig AsLink KString "ipldgit.GpgSig" AsLink; (* 2703 *)
  R Assembler TGpgSig BeginMap KString "ipldgit.GpgSig" BeginMap; (* 2740 *)
  R Assembler TGpgSig BeginList KString "ipldgit.GpgSig" BeginList; (* 2743 *)
  R Assembler TGpgSig AssignNull KString "ipldgit.GpgSig" AssignNull; (* 2751 *)
  R Assembler TGpgSig AssignBool KString "ipldgit.GpgSig" AssignBool; (* 2758 *)
  R Assembler TGpgSig AssignInt KString "ipldgit.GpgSig" AssignInt; (* 2761 *)
  R Assembler TGpgSig AssignFloat KString "ipldgit.GpgSig" AssignFloat; (* 2764 *)
  R Assembler TGpgSig AssignBytes KString "ipldgit.GpgSig" AssignBytes; (* 2776 *)
  R Assembler TGpgSig AssignLink KString "ipldgit.GpgSig" AssignLink; (* 2779 *)
  R Node TLink LookupByString KLink "ipldgit.Link" LookupByString; (* 2866 *)
  R Node TLink LookupByNode KLink "ipldgit.Link" LookupByNode; (* 2869 *)
  R Node TLink LookupByIndex KLink "ipldgit.Link" LookupByIndex; (* 2872 *)
  R Node TLink LookupBySegment KLink "ipldgit.Link" LookupBySegment; (* 2875 *)
  R Node TLink AsBool KLink "ipldgit.Link" AsBool; (* 2893 *)
  R Node TLink AsInt KLink "ipldgit.Link" AsInt; (* 2896 *)
  R Node TLink AsFloat KLink "ipldgit.Link" AsFloat; (* 2899 *)
  R Node TLink AsString KLink "ipldgit.Link" AsString; (* 2902 *)
  R Node TLink AsBytes KLink "ipldgit.Link" AsBytes; (* 2905 *)
  R Assembler TLink BeginMap KLink "ipldgit.Link" BeginMap; (* 2945 *)
  R Assembler TLink BeginList KLink "ipldgit.Link" BeginList; (* 2948 *)
  R Assembler TLink AssignNull KLink "ipldgit.Link" AssignNull; (* 2956 *)
  R Assembler TLink AssignBool KLink "ipldgit.Link" AssignBool; (* 2963 *)
  R Assembler TLink AssignInt KLink "ipldgit.Link" AssignInt; (* 2966 *)
  R Assembler TLink AssignFloat KLink "ipldgit.Link" AssignFloat; (* 2969 *)
  R Assembler TLink AssignString KLink "ipldgit.Link" AssignString; (* 2972 *)
  R Assembler TLink AssignBytes KLink "ipldgit.Link" AssignBytes; (* 2975 *)
  R Node TPersonInfo LookupByIndex KMap "ipldgit.PersonInfo" LookupByIndex; (* 3103 *)
  R Node TPersonInfo AsBool KMap "ipldgit.PersonInfo" AsBool; (* 3157 *)
  R Node TPersonInfo AsInt KMap "ipldgit.PersonInfo" AsInt; (* 3160 *)
  R Node TPersonInfo AsFloat KMap "ipldgit.PersonInfo" AsFloat; (* 3163 *)
  R Node TPersonInfo AsString KMap "ipldgit.PersonInfo" AsString; (* 3166 *)
  R Node TPersonInfo AsBytes KMap "ipldgit.PersonInfo" AsBytes; (* 3169 *)
  R Node TPersonInfo AsLink KMap "ipldgit.PersonInfo" AsLink; (* 3172 *)
  R Assembler TPersonInfo BeginList KMap "ipldgit.PersonInfo" BeginList; (* 3247 *)
  R Assembler TPersonInfo AssignNull KMap "ipldgit.PersonInfo" AssignNull; (* 3255 *)
  R Assembler TPersonInfo AssignBool KMap "ipldgit.PersonInfo" AssignBool; (* 3264 *)
  R Assembler TPersonInfo AssignInt KMap "ipldgit.PersonInfo" AssignInt; (* 3267 *)
  R Assembler TPersonInfo AssignFloat KMap "ipldgit.PersonInfo" AssignFloat; (* 3270 *)
  R Assembler TPersonInfo AssignString KMap "ipldgit.PersonInfo" AssignString; (* 3273 *)
  R Assembler TPersonInfo AssignBytes KMap "ipldgit.PersonInfo" AssignBytes; (* 3276 *)
  R Assembler TPersonInfo AssignLink KMap "ipldgit.PersonInfo" AssignLink; (* 3279 *)
  R Key TPersonInfo BeginMap KString "ipldgit.PersonInfo.KeyAssembler" BeginMap; (* 3525 *)
  R Key TPersonInfo BeginList KString "ipldgit.PersonInfo.KeyAssembler" BeginList; (* 3528 *)
  R Key TPersonInfo AssignNull KString "ipldgit.PersonInfo.KeyAssembler" AssignNull; (* 3531 *)
  R Key TPersonInfo AssignBool KString "ipldgit.PersonInfo.KeyAssembler" AssignBool; (* 3534 *)
  R Key TPersonInfo AssignInt KString "ipldgit.PersonInfo.KeyAssembler" AssignInt; (* 3537 *)
  R Key TPersonInfo AssignFloat KString "ipldgit.PersonInfo.KeyAssembler" AssignFloat; (* 3540 *)
  R Key TPersonInfo AssignBytes KString "ipldgit.PersonInfo.KeyAssembler" AssignBytes; (* 3584 *)
  R Key TPersonInfo AssignLink KString "ipldgit.PersonInfo.KeyAssembler" AssignLink; (* 3587 *)
  R ReprNode TPersonInfo LookupByIndex KMap "ipldgit.PersonInfo.Repr" LookupByIndex; (* 3641 *)
  R ReprNode TPersonInfo AsBool KMap "ipldgit.PersonInfo.Repr" AsBool; (* 3695 *)
  R ReprNode TPersonInfo AsInt KMap "ipldgit.PersonInfo.Repr" AsInt; (* 3698 *)
  R ReprNode TPersonInfo AsFloat KMap "ipldgit.PersonInfo.Repr" AsFloat; (* 3701 *)
  R ReprNode TPersonInfo AsString KMap "ipldgit.PersonInfo.Repr" AsString; (* 3704 *)
  R ReprNode TPersonInfo AsBytes KMap "ipldgit.PersonInfo.Repr" AsBytes; (* 3707 *)
  R ReprNode TPersonInfo AsLink KMap "ipldgit.PersonInfo.Repr" AsLink; (* 3710 *)
  R ReprAssembler TPersonInfo BeginList KMap "ipldgit.PersonInfo.Repr" BeginList; (* 3776 *)
  R ReprAssembler TPersonInfo AssignNull KMap "ipldgit.PersonInfo.Repr.Repr" AssignNull; (* 3784 *)
  R ReprAssembler TPersonInfo AssignBool KMap "ipldgit.PersonInfo.Repr" AssignBool; (* 3793 *)
  R ReprAssembler TPersonInfo AssignInt KMap "ipldgit.PersonInfo.Repr" AssignInt; (* 3796 *)
  R ReprAssembler TPersonInfo AssignFloat KMap "ipldgit.PersonInfo.Repr" AssignFloat; (* 3799 *)
  R ReprAssembler TPersonInfo AssignString KMap "ipldgit.PersonInfo.Repr" AssignString; (* 3802 *)
  R ReprAssembler TPersonInfo AssignBytes KMap "ipldgit.PersonInfo.Repr" AssignBytes; (* 3805 *)
  R ReprAssembler TPersonInfo AssignLink KMap "ipldgit.PersonInfo.Repr" AssignLink; (* 3808 *)
  R ReprKey TPersonInfo BeginMap KString "ipldgit.PersonInfo.Repr.KeyAssembler" BeginMap; (* 4051 *)
  R ReprKey TPersonInfo BeginList KString "ipldgit.PersonInfo.Repr.KeyAssembler" BeginList; (* 4054 *)
  R ReprKey TPersonInfo AssignNull KString "ipldgit.PersonInfo.Repr.KeyAssembler" AssignNull; (* 4057 *)
  R ReprKey TPersonInfo AssignBool KString "ipldgit.PersonInfo.Repr.KeyAssembler" AssignBool; (* 4060 *)
  R ReprKey TPersonInfo AssignInt KString "ipldgit.PersonInfo.Repr.KeyAssembler" AssignInt; (* 4063 *)
  R ReprKey TPersonInfo AssignFloat KString "ipldgit.PersonInfo.Repr.KeyAssembler" AssignFloat; (* 4066 *)
  R ReprKey TPersonInfo AssignBytes KString "ipldgit.PersonInfo.Repr.KeyAssembler" AssignBytes; (* 4109 *)
  R ReprKey TPersonInfo AssignLink KString "ipldgit.PersonInfo.Repr.KeyAssembler" AssignLink; (* 4112 *)
  R Node TString LookupByString KString "ipldgit.String" LookupByString; (* 4178 *)
  R Node TString LookupByNode KString "ipldgit.String" LookupByNode; (* 4181 *)
  R Node TString LookupByIndex KString "ipldgit.String" LookupByIndex; (* 4184 *)
  R Node TString LookupBySegment KString "ipldgit.String" LookupBySegment; (* 4187 *)
  R Node TString AsBool KString "ipldgit.String" AsBool; (* 4205 *)
  R Node TString AsInt KString "ipldgit.String" AsInt; (* 4208 *)
  R Node TString AsFloat KString "ipldgit.String" AsFloat; (* 4211 *)
  R Node TString AsBytes KString "ipldgit.String" AsBytes; (* 4217 *)
  R Node TString AsLink KString "ipldgit.String" AsLink; (* 4220 *)
  R Assembler TString BeginMap KString "ipldgit.String" BeginMap; (* 4257 *)
  R Assembler TString BeginList KString "ipldgit.String" BeginList; (* 4260 *)
  R Assembler TString AssignNull KString "ipldgit.String" AssignNull; (* 4268 *)
  R Assembler TString AssignBool KString "ipldgit.String" AssignBool; (* 4275 *)
  R Assembler TString AssignInt KString "ipldgit.String" AssignInt; (* 4278 *)
  R Assembler TString AssignFloat KString "ipldgit.String" AssignFloat; (* 4281 *)
  R Assembler TString AssignBytes KString "ipldgit.String" AssignBytes; (* 4293 *)
  R Assembler TString AssignLink KString "ipldgit.String" AssignLink; (* 4296 *)
  R Node TString_List LookupByString KList "ipldgit.String_List" LookupByString; (* 4417 *)
  R Node TString_List AsBool KList "ipldgit.String_List" AsBool; (* 4476 *)
  R Node TString_List AsInt KList "ipldgit.String_List" AsInt; (* 4479 *)
  R Node TString_List AsFloat KList "ipldgit.String_List" AsFloat; (* 4482 *)
  R Node TString_List AsString KList "ipldgit.String_List" AsString; (* 4485 *)
  R Node TString_List AsBytes KList "ipldgit.String_List" AsBytes; (* 4488 *)
  R Node TString_List AsLink KList "ipldgit.String_List" AsLink; (* 4491 *)
  R Assembler TString_List BeginMap KList "ipldgit.String_List" BeginMap; (* 4535 *)
  R Assembler TString_List AssignNull KList "ipldgit.String_List" AssignNull; (* 4559 *)
  R Assembler TString_List AssignBool KList "ipldgit.String_List" AssignBool; (* 4568 *)
  R Assembler TString_List AssignInt KList "ipldgit.String_List" AssignInt; (* 4571 *)
  R Assembler TString_List AssignFloat KList "ipldgit.String_List" AssignFloat; (* 4574 *)
  R Assembler TString_List AssignString KList "ipldgit.String_List" AssignString; (* 4577 *)
  R Assembler TString_List AssignBytes KList "ipldgit.String_List" AssignBytes; (* 4580 *)
  R Assembler TString_List AssignLink KList "ipldgit.String_List" AssignLink; (* 4583 *)
  R ReprNode TString_List LookupByString KList "ipldgit.String_List.Repr" LookupByString; (* 4681 *)
  R ReprNode TString_List AsBool KList "ipldgit.String_List.Repr" AsBool; (* 4734 *)
  R ReprNode TString_List AsInt KList "ipldgit.String_List.Repr" AsInt; (* 4737 *)
  R ReprNode TString_List AsFloat KList "ipldgit.String_List.Repr" AsFloat; (* 4740 *)
  R ReprNode TString_List AsString KList "ipldgit.String_List.Repr" AsString; (* 4743 *)
  R ReprNode TString_List AsBytes KList "ipldgit.String_List.Repr" AsBytes; (* 4746 *)
  R ReprNode TString_List AsLink KList "ipldgit.String_List.Repr" AsLink; (* 4749 *)
  R ReprAssembler TString_List BeginMap KList "ipldgit.String_List.Repr" BeginMap; (* 4793 *)
  R ReprAssembler TString_List AssignNull KList "ipldgit.String_List.Repr.Repr" AssignNull; (* 4817 *)
  R ReprAssembler TString_List AssignBool KList "ipldgit.String_List.Repr" AssignBool; (* 4826 *)
  R ReprAssembler TString_List AssignInt KList "ipldgit.String_List.Repr" AssignInt; (* 4829 *)
  R ReprAssembler TString_List AssignFloat KList "ipldgit.String_List.Repr" AssignFloat; (* 4832 *)
  R ReprAssembler TString_List AssignString KList "ipldgit.String_List.Repr" AssignString; (* 4835 *)
  R ReprAssembler TString_List AssignBytes KList "ipldgit.String_List.Repr" AssignBytes; (* 4838 *)
  R ReprAssembler TString_List AssignLink KList "ipldgit.String_List.Repr" AssignLink; (* 4841 *)
  R Node TTag LookupByIndex KMap "ipldgit.Tag" LookupByIndex; (* 5012 *)
  R Node TTag AsBool KMap "ipldgit.Tag" AsBool; (* 5069 *)
  R Node TTag AsInt KMap "ipldgit.Tag" AsInt; (* 5072 *)
  R Node TTag AsFloat KMap "ipldgit.Tag" AsFloat; (* 5075 *)
  R Node TTag AsString KMap "ipldgit.Tag" AsString; (* 5078 *)
  R Node TTag AsBytes KMap "ipldgit.Tag" AsBytes; (* 5081 *)
  R Node TTag AsLink KMap "ipldgit.Tag" AsLink; (* 5084 *)
  R Assembler TTag BeginList KMap "ipldgit.Tag" BeginList; (* 5162 *)
  R Assembler TTag AssignNull KMap "ipldgit.Tag" AssignNull; (* 5170 *)
  R Assembler TTag AssignBool KMap "ipldgit.Tag" AssignBool; (* 5179 *)
  R Assembler TTag AssignInt KMap "ipldgit.Tag" AssignInt; (* 5182 *)
  R Assembler TTag AssignFloat KMap "ipldgit.Tag" AssignFloat; (* 5185 *)
  R Assembler TTag AssignString KMap "ipldgit.Tag" AssignString; (* 5188 *)
  R Assembler TTag AssignBytes KMap "ipldgit.Tag" AssignBytes; (* 5191 *)
  R Assembler TTag AssignLink KMap "ipldgit.Tag" AssignLink; (* 5194 *)
  R Key TTag BeginMap KString "ipldgit.Tag.KeyAssembler" BeginMap; (* 5467 *)
  R Key TTag BeginList KString "ipldgit.Tag.KeyAssembler" BeginList; (* 5470 *)
  R Key TTag AssignNull KString "ipldgit.Tag.KeyAssembler" AssignNull; (* 5473 *)
  R Key TTag AssignBool KString "ipldgit.Tag.KeyAssembler" AssignBool; (* 5476 *)
  R Key TTag AssignInt KString "ipldgit.Tag.KeyAssembler" AssignInt; (* 5479 *)
  R Key TTag AssignFloat KString "ipldgit.Tag.KeyAssembler" AssignFloat; (* 5482 *)
  R Key TTag AssignBytes KString "ipldgit.Tag.KeyAssembler" AssignBytes; (* 5534 *)
  R Key TTag AssignLink KString "ipldgit.Tag.KeyAssembler" AssignLink; (* 5537 *)
  R ReprNode TTag LookupByIndex KMap "ipldgit.Tag.Repr" LookupByIndex; (* 5594 *)
  R ReprNode TTag AsBool KMap "ipldgit.Tag.Repr" AsBool; (* 5651 *)
  R ReprNode TTag AsInt KMap "ipldgit.Tag.Repr" AsInt; (* 5654 *)
  R ReprNode TTag AsFloat KMap "ipldgit.Tag.Repr" AsFloat; (* 5657 *)
  R ReprNode TTag AsString KMap "ipldgit.Tag.Repr" AsString; (* 5660 *)
  R ReprNode TTag AsBytes KMap "ipldgit.Tag.Repr" AsBytes; (* 5663 *)
  R ReprNode TTag AsLink KMap "ipldgit.Tag.Repr" AsLink; (* 5666 *)
  R ReprAssembler TTag BeginList KMap "ipldgit.Tag.Repr" BeginList; (* 5734 *)
  R ReprAssembler TTag AssignNull KMap "ipldgit.Tag.Repr.Repr" AssignNull; (* 5742 *)
  R ReprAssembler TTag AssignBool KMap "ipldgit.Tag.Repr" AssignBool; (* 5751 *)
  R ReprAssembler TTag AssignInt KMap "ipldgit.Tag.Repr" AssignInt; (* 5754 *)
  R ReprAssembler TTag AssignFloat KMap "ipldgit.Tag.Repr" AssignFloat; (* 5757 *)
  R ReprAssembler TTag AssignString KMap "ipldgit.Tag.Repr" AssignString; (* 5760 *)
  R ReprAssembler TTag AssignBytes KMap "ipldgit.Tag.Repr" AssignBytes; (* 5763 *)
  R ReprAssembler TTag AssignLink KMap "ipldgit.Tag.Repr" AssignLink; (* 5766 *)
  R ReprKey TTag BeginMap KString "ipldgit.Tag.Repr.KeyAssembler" BeginMap; (* 6035 *)
  R ReprKey TTag BeginList KString "ipldgit.Tag.Repr.KeyAssembler" BeginList; (* 6038 *)
  R ReprKey TTag AssignNull KString "ipldgit.Tag.Repr.KeyAssembler" AssignNull; (* 6041 *)
  R ReprKey TTag AssignBool KString "ipldgit.Tag.Repr.KeyAssembler" AssignBool; (* 6044 *)
  R ReprKey TTag AssignInt KString "ipldgit.Tag.Repr.KeyAssembler" AssignInt; (* 6047 *)
  R ReprKey TTag AssignFloat KString "ipldgit.Tag.Repr.KeyAssembler" AssignFloat; (* 6050 *)
  R ReprKey TTag AssignBytes KString "ipldgit.Tag.Repr.KeyAssembler" AssignBytes; (* 6101 *)
  R ReprKey TTag AssignLink KString "ipldgit.Tag.Repr.KeyAssembler" AssignLink; (* 6104 *)
  R Node TTag_List LookupByString KList "ipldgit.Tag_List" LookupByString; (* 6200 *)
  R Node TTag_List AsBool KList "ipldgit.Tag_List" AsBool; (* 6259 *)
  R Node TTag_List AsInt KList "ipldgit.Tag_List" AsInt; (* 6262 *)
  R Node TTag_List AsFloat KList "ipldgit.Tag_List" AsFloat; (* 6265 *)
  R Node TTag_List AsString KList "ipldgit.Tag_List" AsString; (* 6268 *)
  R Node TTag_List AsBytes KList "ipldgit.Tag_List" AsBytes; (* 6271 *)
  R Node TTag_List AsLink KList "ipldgit.Tag_List" AsLink; (* 6274 *)
  R Assembler TTag_List BeginMap KList "ipldgit.Tag_List" BeginMap; (* 6318 *)
  R Assembler TTag_List AssignNull KList "ipldgit.Tag_List" AssignNull; (* 6342 *)
  R Assembler TTag_List AssignBool KList "ipldgit.Tag_List" AssignBool; (* 6351 *)
  R Assembler TTag_List AssignInt KList "ipldgit.Tag_List" AssignInt; (* 6354 *)
  R Assembler TTag_List AssignFloat KList "ipldgit.Tag_List" AssignFloat; (* 6357 *)
  R Assembler TTag_List AssignString KList "ipldgit.Tag_List" AssignString; (* 6360 *)
  R Assembler TTag_List AssignBytes KList "ipldgit.Tag_List" AssignBytes; (* 6363 *)
  R Assembler TTag_List AssignLink KList "ipldgit.Tag_List" AssignLink; (* 6366 *)
  R ReprNode TTag_List LookupByString KList "ipldgit.Tag_List.Repr" LookupByString; (* 6464 *)
  R ReprNode TTag_List AsBool KList "ipldgit.Tag_List.Repr" AsBool; (* 6517 *)
  R ReprNode TTag_List AsInt KList "ipldgit.Tag_List.Repr" AsInt; (* 6520 *)
  R ReprNode TTag_List AsFloat KList "ipldgit.Tag_List.Repr" AsFloat; (* 6523 *)
  R ReprNode TTag_List AsString KList "ipldgit.Tag_List.Repr" AsString; (* 6526 *)
  R ReprNode TTag_List AsBytes KList "ipldgit.Tag_List.Repr" AsBytes; (* 6529 *)
  R ReprNode TTag_List AsLink KList "ipldgit.Tag_List.Repr" AsLink; (* 6532 *)
  R ReprAssembler TTag_List BeginMap KList "ipldgit.Tag_List.Repr" BeginMap; (* 6576 *)
  R ReprAssembler TTag_List AssignNull KList "ipldgit.Tag_List.Repr.Repr" AssignNull; (* 6600 *)
  R ReprAssembler TTag_List AssignBool KList "ipldgit.Tag_List.Repr" AssignBool; (* 6609 *)
  R ReprAssembler TTag_List AssignInt KList "ipldgit.Tag_List.Repr" AssignInt; (* 6612 *)
  R ReprAssembler TTag_List AssignFloat KList "ipldgit.Tag_List.Repr" AssignFloat; (* 6615 *)
  R ReprAssembler TTag_List AssignString KList "ipldgit.Tag_List.Repr" AssignString; (* 6618 *)
  R ReprAssembler TTag_List AssignBytes KList "ipldgit.Tag_List.Repr" AssignBytes; (* 6621 *)
  R ReprAssembler TTag_List AssignLink KList "ipldgit.Tag_List.Repr" AssignLink; (* 6624 *)
  R Node TTree LookupByIndex KMap "ipldgit.Tree" LookupByIndex; (* 6815 *)
  R Node TTree AsBool KMap "ipldgit.Tree" AsBool; (* 6856 *)
  R Node TTree AsInt KMap "ipldgit.Tree" AsInt; (* 6859 *)
  R Node TTree AsFloat KMap "ipldgit.Tree" AsFloat; (* 6862 *)
  R Node TTree AsString KMap "ipldgit.Tree" AsString; (* 6865 *)
  R Node TTree AsBytes KMap "ipldgit.Tree" AsBytes; (* 6868 *)
  R Node TTree AsLink KMap "ipldgit.Tree" AsLink; (* 6871 *)
  R Assembler TTree BeginList KMap "ipldgit.Tree" BeginList; (* 6932 *)
  R Assembler TTree AssignNull KMap "ipldgit.Tree" AssignNull; (* 6940 *)
  R Assembler TTree AssignBool KMap "ipldgit.Tree" AssignBool; (* 6949 *)
  R Assembler TTree AssignInt KMap "ipldgit.Tree" AssignInt; (* 6952 *)
  R Assembler TTree AssignFloat KMap "ipldgit.Tree" AssignFloat; (* 6955 *)
  R Assembler TTree AssignString KMap "ipldgit.Tree" AssignString; (* 6958 *)
  R Assembler TTree AssignBytes KMap "ipldgit.Tree" AssignBytes; (* 6961 *)
  R Assembler TTree AssignLink KMap "ipldgit.Tree" AssignLink; (* 6964 *)
  R ReprNode TTree LookupByIndex KMap "ipldgit.Tree.Repr" LookupByIndex; (* 7155 *)
  R ReprNode TTree AsBool KMap "ipldgit.Tree.Repr" AsBool; (* 7190 *)
  R ReprNode TTree AsInt KMap "ipldgit.Tree.Repr" AsInt; (* 7193 *)
  R ReprNode TTree AsFloat KMap "ipldgit.Tree.Repr" AsFloat; (* 7196 *)
  R ReprNode TTree AsString KMap "ipldgit.Tree.Repr" AsString; (* 7199 *)
  R ReprNode TTree AsBytes KMap "ipldgit.Tree.Repr" AsBytes; (* 7202 *)
  R ReprNode TTree AsLink KMap "ipldgit.Tree.Repr" AsLink; (* 7205 *)
  R ReprAssembler TTree BeginList KMap "ipldgit.Tree.Repr" BeginList; (* 7266 *)
  R ReprAssembler TTree AssignNull KMap "ipldgit.Tree.Repr.Repr" AssignNull; (* 7274 *)
  R ReprAssembler TTree AssignBool KMap "ipldgit.Tree.Repr" AssignBool; (* 7283 *)
  R ReprAssembler TTree AssignInt KMap "ipldgit.Tree.Repr" AssignInt; (* 7286 *)
  R ReprAssembler TTree AssignFloat KMap "ipldgit.Tree.Repr" AssignFloat; (* 7289 *)
  R ReprAssembler TTree AssignString KMap "ipldgit.Tree.Repr" AssignString; (* 7292 *)
  R ReprAssembler TTree AssignBytes KMap "ipldgit.Tree.Repr" AssignBytes; (* 7295 *)
  R ReprAssembler TTree AssignLink KMap "ipldgit.Tree.Repr" AssignLink; (* 7298 *)
  R Node TTreeEntry LookupByIndex KMap "ipldgit.TreeEntry" LookupByIndex; (* 7530 *)
  R Node TTreeEntry AsBool KMap "ipldgit.TreeEntry" AsBool; (* 7578 *)
  R Node TTreeEntry AsInt KMap "ipldgit.TreeEntry" AsInt; (* 7581 *)
  R Node TTreeEntry AsFloat KMap "ipldgit.TreeEntry" AsFloat; (* 7584 *)
  R Node TTreeEntry AsString KMap "ipldgit.TreeEntry" AsString; (* 7587 *)
  R Node TTreeEntry AsBytes KMap "ipldgit.TreeEntry" AsBytes; (* 7590 *)
  R Node TTreeEntry AsLink KMap "ipldgit.TreeEntry" AsLink; (* 7593 *)
  R Assembler TTreeEntry BeginList KMap "ipldgit.TreeEntry" BeginList; (* 7662 *)
  R Assembler TTreeEntry AssignNull KMap "ipldgit.TreeEntry" AssignNull; (* 7670 *)
  R Assembler TTreeEntry AssignBool KMap "ipldgit.TreeEntry" AssignBool; (* 7679 *)
  R Assembler TTreeEntry AssignInt KMap "ipldgit.TreeEntry" AssignInt; (* 7682 *)
  R Assembler TTreeEntry AssignFloat KMap "ipldgit.TreeEntry" AssignFloat; (* 7685 *)
  R Assembler TTreeEntry AssignString KMap "ipldgit.TreeEntry" AssignString; (* 7688 *)
  R Assembler TTreeEntry AssignBytes KMap "ipldgit.TreeEntry" AssignBytes; (* 7691 *)
  R Assembler TTreeEntry AssignLink KMap "ipldgit.TreeEntry" AssignLink; (* 7694 *)
  R Key TTreeEntry BeginMap KString "ipldgit.TreeEntry.KeyAssembler" BeginMap; (* 7886 *)
  R Key TTreeEntry BeginList KString "ipldgit.TreeEntry.KeyAssembler" BeginList; (* 7889 *)
  R Key TTreeEntry AssignNull KString "ipldgit.TreeEntry.KeyAssembler" AssignNull; (* 7892 *)
  R Key TTreeEntry AssignBool KString "ipldgit.TreeEntry.KeyAssembler" AssignBool; (* 7895 *)
  R Key TTreeEntry AssignInt KString "ipldgit.TreeEntry.KeyAssembler" AssignInt; (* 7898 *)
  R Key TTreeEntry AssignFloat KString "ipldgit.TreeEntry.KeyAssembler" AssignFloat; (* 7901 *)
  R Key TTreeEntry AssignBytes KString "ipldgit.TreeEntry.KeyAssembler" AssignBytes; (* 7929 *)
  R Key TTreeEntry AssignLink KString "ipldgit.TreeEntry.KeyAssembler" AssignLink; (* 7932 *)
  R ReprNode TTreeEntry LookupByIndex KMap "ipldgit.TreeEntry.Repr" LookupByIndex; (* 7980 *)
  R ReprNode TTreeEntry AsBool KMap "ipldgit.TreeEntry.Repr" AsBool; (* 8028 *)
  R ReprNode TTreeEntry AsInt KMap "ipldgit.TreeEntry.Repr" AsInt; (* 8031 *)
  R ReprNode TTreeEntry AsFloat KMap "ipldgit.TreeEntry.Repr" AsFloat; (* 8034 *)
  R ReprNode TTreeEntry AsString KMap "ipldgit.TreeEntry.Repr" AsString; (* 8037 *)
  R ReprNode TTreeEntry AsBytes KMap "ipldgit.TreeEntry.Repr" AsBytes; (* 8040 *)
  R ReprNode TTreeEntry AsLink KMap "ipldgit.TreeEntry.Repr" AsLink; (* 8043 *)
  R ReprAssembler TTreeEntry BeginList KMap "ipldgit.TreeEntry.Repr" BeginList; (* 8105 *)
  R ReprAssembler TTreeEntry AssignNull KMap "ipldgit.TreeEntry.Repr.Repr" AssignNull; (* 8113 *)
  R ReprAssembler TTreeEntry AssignBool KMap "ipldgit.TreeEntry.Repr" AssignBool; (* 8122 *)
  R ReprAssembler TTreeEntry AssignInt KMap "ipldgit.TreeEntry.Repr" AssignInt; (* 8125 *)
  R ReprAssembler TTreeEntry AssignFloat KMap "ipldgit.TreeEntry.Repr" AssignFloat; (* 8128 *)
  R ReprAssembler TTreeEntry AssignString KMap "ipldgit.TreeEntry.Repr" AssignString; (* 8131 *)
  R ReprAssembler TTreeEntry AssignBytes KMap "ipldgit.TreeEntry.Repr" AssignBytes; (* 8134 *)
  R ReprAssembler TTreeEntry AssignLink KMap "ipldgit.TreeEntry.Repr" AssignLink; (* 8137 *)
  R ReprKey TTreeEntry BeginMap KString "ipldgit.TreeEntry.Repr.KeyAssembler" BeginMap; (* 8328 *)
  R ReprKey TTreeEntry BeginList KString "ipldgit.TreeEntry.Repr.KeyAssembler" BeginList; (* 8331 *)
  R ReprKey TTreeEntry AssignNull KString "ipldgit.TreeEntry.Repr.KeyAssembler" AssignNull; (* 8334 *)
  R ReprKey TTreeEntry AssignBool KString "ipldgit.TreeEntry.Repr.KeyAssembler" AssignBool; (* 8337 *)
  R ReprKey TTreeEntry AssignInt KString "ipldgit.TreeEntry.Repr.KeyAssembler" AssignInt; (* 8340 *)
  R ReprKey TTreeEntry AssignFloat KString "ipldgit.TreeEntry.Repr.KeyAssembler" AssignFloat; (* 8343 *)
  R ReprKey TTreeEntry AssignBytes KString "ipldgit.TreeEntry.Repr.KeyAssembler" AssignBytes; (* 8370 *)
  R ReprKey TTreeEntry AssignLink KString "ipldgit.TreeEntry.Repr.KeyAssembler" AssignLink; (* 8373 *)
  R Node TTree_Link LookupByString KLink "ipldgit.Tree_Link" LookupByString; (* 8435 *)
  R Node TTree_Link LookupByNode KLink "ipldgit.Tree_Link" LookupByNode; (* 8438 *)
  R Node TTree_Link LookupByIndex KLink "ipldgit.Tree_Link" LookupByIndex; (* 8441 *)
  R Node TTree_Link LookupBySegment KLink "ipldgit.Tree_Link" LookupBySegment; (* 8444 *)
  R Node TTree_Link AsBool KLink "ipldgit.Tree_Link" AsBool; (* 8462 *)
  R Node TTree_Link AsInt KLink "ipldgit.Tree_Link" AsInt; (* 8465 *)
  R Node TTree_Link AsFloat KLink "ipldgit.Tree_Link" AsFloat; (* 8468 *)
  R Node TTree_Link AsString KLink "ipldgit.Tree_Link" AsString; (* 8471 *)
  R Node TTree_Link AsBytes KLink "ipldgit.Tree_Link" AsBytes; (* 8474 *)
  R Assembler TTree_Link BeginMap KLink "ipldgit.Tree_Link" BeginMap; (* 8514 *)
  R Assembler TTree_Link BeginList KLink "ipldgit.Tree_Link" BeginList; (* 8517 *)
  R Assembler TTree_Link AssignNull KLink "ipldgit.Tree_Link" AssignNull; (* 8525 *)
  R Assembler TTree_Link AssignBool KLink "ipldgit.Tree_Link" AssignBool; (* 8532 *)
  R Assembler TTree_Link AssignInt KLink "ipldgit.Tree_Link" AssignInt; (* 8535 *)
  R Assembler TTree_Link AssignFloat KLink "ipldgit.Tree_Link" AssignFloat; (* 8538 *)
  R Assembler TTree_Link AssignString KLink "ipldgit.Tree_Link" AssignString; (* 8541 *)
  R Assembler TTree_Link AssignBytes KLink "ipldgit.Tree_Link" AssignBytes (* 8544 *)
].

(** The errors of AssignNode of the types that are maps and lists; the actual kind is that of the node *)
Record node_refusal := N { n_role : role; n_type : tyname; n_name : string; n_method : method; n_right : kind }.
Definition node_refusals : list node_refusal := [
  N Assembler TCommit "ipldgit.Commit" AssignNode KMap; (* 584 *)
  N ReprAssembler TCommit "ipldgit.Commit.Repr" AssignNode KMap; (* 1351 *)
  N Assembler TCommit_Link_List "ipldgit.Commit_Link_List" AssignNode KList; (* 2284 *)
  N ReprAssembler TCommit_Link_List "ipldgit.Commit_Link_List.Repr" AssignNode KList; (* 2542 *)
  N Assembler TPersonInfo "ipldgit.PersonInfo" AssignNode KMap; (* 3302 *)
  N ReprAssembler TPersonInfo "ipldgit.PersonInfo.Repr" AssignNode KMap; (* 3831 *)
  N Assembler TString_List "ipldgit.String_List" AssignNode KList; (* 4601 *)
  N ReprAssembler TString_List "ipldgit.String_List.Repr" AssignNode KList; (* 4859 *)
  N Assembler TTag "ipldgit.Tag" AssignNode KMap; (* 5217 *)
  N ReprAssembler TTag "ipldgit.Tag.Repr" AssignNode KMap; (* 5789 *)
  N Assembler TTag_List "ipldgit.Tag_List" AssignNode KList; (* 6384 *)
  N ReprAssembler TTag_List "ipldgit.Tag_List.Repr" AssignNode KList; (* 6642 *)
  N Assembler TTree "ipldgit.Tree" AssignNode KMap; (* 6982 *)
  N ReprAssembler TTree "ipldgit.Tree.Repr" AssignNode KMap; (* 7316 *)
  N Assembler TTreeEntry "ipldgit.TreeEntry" AssignNode KMap; (* 7717 *)
  N ReprAssembler TTreeEntry "ipldgit.TreeEntry.Repr" AssignNode KMap (* 8160 *)
].

(** Which Go type a node has.  Scalars are their own representation ([type _Blob__Repr = _Blob], 209; 2010, 2810, 3015, 4327, 8587). *)
Definition receiver (n : node) : option (role * tyname) :=
  match n with
  | NBlob _ => Some (Node, TBlob)
  | NString _ => Some (Node, TString)
  | NGpgSig _ => Some (Node, TGpgSig)
  | NLink _ => Some (Node, TLink)
  | NTreeLink _ => Some (Node, TTree_Link)
  | NCommitLink _ => Some (Node, TCommit_Link)
  | NPerson _ => Some (Node, TPersonInfo)
  | NPersonR _ => Some (ReprNode, TPersonInfo)
  | NTag _ => Some (Node, TTag)
  | NTagR _ => Some (ReprNode, TTag)
  | NTagList _ => Some (Node, TTag_List)
  | NTagListR _ => Some (ReprNode, TTag_List)
  | NStringList _ => Some (Node, TString_List)
  | NStringListR _ => Some (ReprNode, TString_List)
  | NCommitLinkList _ => Some (Node, TCommit_Link_List)
  | NCommitLinkListR _ => Some (ReprNode, TCommit_Link_List)
  | NCommit _ => Some (Node, TCommit)
  | NCommitR _ => Some (ReprNode, TCommit)
  | NEntry _ => Some (Node, TTreeEntry)
  | NEntryR _ => Some (ReprNode, TTreeEntry)
  | NTree _ => Some (Node, TTree)
  | NTreeR _ => Some (ReprNode, TTree)
  | NNull | NAbsent | NBool _ | NInt _ | NFloat _ | NGenString _ | NGenBytes _ | NGenLink _ | NGenList _ | NGenMap _ => None
  end.

Definition role_eqb (a b : role) : bool :=
  match a, b with
  | Node, Node | ReprNode, ReprNode | Assembler, Assembler | ReprAssembler, ReprAssembler | Key, Key | ReprKey, ReprKey => true
  | _, _ => false
  end.
Definition tyname_eq_dec (a b : tyname) : {a = b} + {a <> b}.
Proof. decide equality. Defined.
Definition method_eq_dec (a b : method) : {a = b} + {a <> b}.
Proof. decide equality. Defined.

(** The method that the Go type has: the row with its name, if it is one of the refusing ones *)
Definition refuses (r : role) (t : tyname) (m : method) : option wrong_kind :=
  match find (fun x => role_eqb (r_role x) r && (if tyname_eq_dec (r_type x) t then true else false) &&
                       (if method_eq_dec (r_method x) m then true else false)) refusals with
  | Some x => Some (mixin (r_mixin x) (r_name x) (r_calls x))
  | None => None
  end.

(** ** Nodes *)

Inductive ask :=
| AskLookupByString (k : bytes) | AskLookupByNode (k : node) | AskLookupByIndex (i : Z) | AskLookupBySegment (seg : bytes)
| AskBool | AskInt | AskFloat | AskString | AskBytes | AskLink.
Definition asks (a : ask) : method :=
  match a with
  | AskLookupByString _ => LookupByString | AskLookupByNode _ => LookupByNode
  | AskLookupByIndex _ => LookupByIndex | AskLookupBySegment _ => LookupBySegment
  | AskBool => AsBool | AskInt => AsInt | AskFloat => AsFloat | AskString => AsString | AskBytes => AsBytes | AskLink => AsLink
  end.
(** What comes back.  [NoMethod] would not compile. *)
Inductive reply := Refused (w : wrong_kind) | GotNode (r : res node) | GotBytes (r : res bytes) | GotLink (r : res link) | NoMethod.
(** The methods with a body of their own, as in [Nodes.v] and [Types.v] *)
Definition own_answer (n : node) (a : ask) : reply :=
  match a with
  | AskLookupByString k => GotNode (lookup_by_string n k)
  | AskLookupByNode k => GotNode (lookup_by_node n k)
  | AskLookupByIndex i => GotNode (lookup_by_index n i)
  | AskLookupBySegment s => GotNode (lookup_by_segment n s)
  | AskString => GotBytes (as_string n)
  | AskBytes => GotBytes (as_bytes n)
  | AskLink => GotLink (as_link n)
  | AskBool | AskInt | AskFloat => NoMethod
  end.
Definition answer (n : node) (a : ask) : reply :=
  match receiver n with
  | None => own_answer n a                                       (* nodes of other packages *)
  | Some (r, t) => match refuses r t (asks a) with Some w => Refused w | None => own_answer n a end
  end.

(** [IsAbsent] and [IsNull] of the 22 node types: [return false] (81, 84, 417, 420, 1198, 1201, ...) *)
Definition is_absent (n : node) : bool := match n with NAbsent => true | _ => false end.

(** ** Assemblers *)

(** [AssignNode(v)] when [v] is neither null nor of the assembler's own Go type and of the wrong kind.  Maps and lists: the error of [node_refusals]
    (584, 1351, 2284, ...).  Scalars ask the node (192-196, 1991-1995, 2794-2798, 2999-3003, 4311-4315, 8568-8572; struct keys: 1028-1034 and
    the like): the error is the node's. *)
Definition assign_node_refuses (r : role) (t : tyname) (v : node) : option wrong_kind :=
  match find (fun x => role_eqb (n_role x) r && (if tyname_eq_dec (n_type x) t then true else false)) node_refusals with
  | Some x => if match node_kind v, n_right x with KMap, KMap | KList, KList => true | _, _ => false end then None
              else Some (W (n_name x) (n_method x) [n_right x] (node_kind v))
  | None =>
      let a := match r, t with
               | Key, _ | ReprKey, _ => AskString
               | _, TBlob => AskBytes
               | _, (TLink | TTree_Link | TCommit_Link) => AskLink
               | _, _ => AskString
               end in
      match answer v a with Refused w => Some w | _ => None end
  end.
