(** What nodes and assemblers tell of prototypes, and which assemblers the assemblers of maps and lists hand out.

    As in Methods.v the lines of the generated code are data: each table has one row for each method, field or case, in
    the order of the file; the numbers beside the rows are lines of ipldsch_satisfaction.go.  Simplification: only the
    types of the assemblers are here.  Their states, and that a call in the wrong state panics, are in Builder.v. *)
From Verif Require Import Base GoStr Cid Types Nodes Methods.
From Coq Require Import String.
Local Open Scope string_scope.
Local Open Scope list_scope.

(** A Go type of the generated code, and a prototype: [P false T] is _T__Prototype, [P true T] is _T__ReprPrototype *)
Definition gotype : Type := role * tyname.
Inductive proto := P (repr : bool) (t : tyname).
Definition gotype_eqb (a b : gotype) : bool :=
  role_eqb (fst a) (fst b) && (if tyname_eq_dec (snd a) (snd b) then true else false).
Definition proto_eqb (p q : proto) : bool :=
  match p, q with P a s, P b t => Bool.eqb a b && (if tyname_eq_dec s t then true else false) end.

(** The types of the representations of scalars are other names for the types themselves: the nodes (209, 2010, 2810,
    3015, 4327, 8587), the prototypes (213, 2014, 2814, 3019, 4331, 8591) and the assemblers (214, 2015, 2815, 3020,
    4332, 8592) *)
Definition alias (t : tyname) : bool :=
  match t with TBlob | TCommit_Link | TGpgSig | TLink | TString | TTree_Link => true | _ => false end.
Definition resolve (a : gotype) : gotype :=
  match a with
  | (ReprNode, t) => if alias t then (Node, t) else a
  | (ReprAssembler, t) => if alias t then (Assembler, t) else a
  | _ => a
  end.
Definition resolve_proto (p : proto) : proto := match p with P r t => P (r && negb (alias t)) t end.

(** ** Prototype() of nodes and assemblers *)
Definition prototype_rows : list (gotype * proto) := [
  ((Node, TBlob), P false TBlob); (* 104 *)
  ((Assembler, TBlob), P false TBlob); (* 199 *)
  ((Node, TCommit), P false TCommit); (* 441 *)
  ((Assembler, TCommit), P false TCommit); (* 601 *)
  ((Key, TCommit), P false TString); (* 1035 *)
  ((ReprNode, TCommit), P true TCommit); (* 1222 *)
  ((ReprAssembler, TCommit), P true TCommit); (* 1368 *)
  ((ReprKey, TCommit), P false TString); (* 1805 *)
  ((Node, TCommit_Link), P false TCommit_Link); (* 1902 *)
  ((Assembler, TCommit_Link), P false TCommit_Link); (* 1997 *)
  ((Node, TCommit_Link_List), P false TCommit_Link_List); (* 2176 *)
  ((Assembler, TCommit_Link_List), P false TCommit_Link_List); (* 2298 *)
  ((ReprNode, TCommit_Link_List), P true TCommit_Link_List); (* 2434 *)
  ((ReprAssembler, TCommit_Link_List), P true TCommit_Link_List); (* 2556 *)
  ((Node, TGpgSig), P false TGpgSig); (* 2705 *)
  ((Assembler, TGpgSig), P false TGpgSig); (* 2800 *)
  ((Node, TLink), P false TLink); (* 2910 *)
  ((Assembler, TLink), P false TLink); (* 3005 *)
  ((Node, TPersonInfo), P false TPersonInfo); (* 3174 *)
  ((Assembler, TPersonInfo), P false TPersonInfo); (* 3319 *)
  ((Key, TPersonInfo), P false TString); (* 3596 *)
  ((ReprNode, TPersonInfo), P true TPersonInfo); (* 3712 *)
  ((ReprAssembler, TPersonInfo), P true TPersonInfo); (* 3848 *)
  ((ReprKey, TPersonInfo), P false TString); (* 4121 *)
  ((Node, TString), P false TString); (* 4222 *)
  ((Assembler, TString), P false TString); (* 4317 *)
  ((Node, TString_List), P false TString_List); (* 4493 *)
  ((Assembler, TString_List), P false TString_List); (* 4615 *)
  ((ReprNode, TString_List), P true TString_List); (* 4751 *)
  ((ReprAssembler, TString_List), P true TString_List); (* 4873 *)
  ((Node, TTag), P false TTag); (* 5086 *)
  ((Assembler, TTag), P false TTag); (* 5234 *)
  ((Key, TTag), P false TString); (* 5546 *)
  ((ReprNode, TTag), P true TTag); (* 5668 *)
  ((ReprAssembler, TTag), P true TTag); (* 5806 *)
  ((ReprKey, TTag), P false TString); (* 6113 *)
  ((Node, TTag_List), P false TTag_List); (* 6276 *)
  ((Assembler, TTag_List), P false TTag_List); (* 6398 *)
  ((ReprNode, TTag_List), P true TTag_List); (* 6534 *)
  ((ReprAssembler, TTag_List), P true TTag_List); (* 6656 *)
  ((Node, TTree), P false TTree); (* 6873 *)
  ((Assembler, TTree), P false TTree); (* 6999 *)
  ((ReprNode, TTree), P true TTree); (* 7207 *)
  ((ReprAssembler, TTree), P true TTree); (* 7333 *)
  ((Node, TTreeEntry), P false TTreeEntry); (* 7595 *)
  ((Assembler, TTreeEntry), P false TTreeEntry); (* 7734 *)
  ((Key, TTreeEntry), P false TString); (* 7941 *)
  ((ReprNode, TTreeEntry), P true TTreeEntry); (* 8045 *)
  ((ReprAssembler, TTreeEntry), P true TTreeEntry); (* 8177 *)
  ((ReprKey, TTreeEntry), P false TString); (* 8382 *)
  ((Node, TTree_Link), P false TTree_Link); (* 8479 *)
  ((Assembler, TTree_Link), P false TTree_Link) (* 8574 *)
].
Definition prototype (a : gotype) : option proto :=
  match find (fun x => gotype_eqb (fst x) (resolve a)) prototype_rows with
  | Some x => Some (resolve_proto (snd x))
  | None => None
  end.
Definition node_prototype (n : node) : option proto := match receiver n with Some a => prototype a | None => None end.

(** ** NewBuilder() of prototypes

    [var nb T__Builder; nb.Reset(); return &nb].  The builder has the methods of the assembler it embeds; Reset points it
    at a new value and Build gives the pointer to that.  The rows: the prototype, the assembler in the builder, the
    type of the value.  The lines are those of NewBuilder, of the struct and of Reset. *)
Definition builder_rows : list (proto * gotype * gotype) := [
  (P false TBlob, (Assembler, TBlob), (Node, TBlob)); (* 110, 116, 126 *)
  (P false TCommit, (Assembler, TCommit), (Node, TCommit)); (* 447, 453, 463 *)
  (P true TCommit, (ReprAssembler, TCommit), (Node, TCommit)); (* 1228, 1234, 1244 *)
  (P false TCommit_Link, (Assembler, TCommit_Link), (Node, TCommit_Link)); (* 1908, 1914, 1924 *)
  (P false TCommit_Link_List, (Assembler, TCommit_Link_List), (Node, TCommit_Link_List)); (* 2182, 2188, 2198 *)
  (P true TCommit_Link_List, (ReprAssembler, TCommit_Link_List), (Node, TCommit_Link_List)); (* 2440, 2446, 2456 *)
  (P false TGpgSig, (Assembler, TGpgSig), (Node, TGpgSig)); (* 2711, 2717, 2727 *)
  (P false TLink, (Assembler, TLink), (Node, TLink)); (* 2916, 2922, 2932 *)
  (P false TPersonInfo, (Assembler, TPersonInfo), (Node, TPersonInfo)); (* 3180, 3186, 3196 *)
  (P true TPersonInfo, (ReprAssembler, TPersonInfo), (Node, TPersonInfo)); (* 3718, 3724, 3734 *)
  (P false TString, (Assembler, TString), (Node, TString)); (* 4228, 4234, 4244 *)
  (P false TString_List, (Assembler, TString_List), (Node, TString_List)); (* 4499, 4505, 4515 *)
  (P true TString_List, (ReprAssembler, TString_List), (Node, TString_List)); (* 4757, 4763, 4773 *)
  (P false TTag, (Assembler, TTag), (Node, TTag)); (* 5092, 5098, 5108 *)
  (P true TTag, (ReprAssembler, TTag), (Node, TTag)); (* 5674, 5680, 5690 *)
  (P false TTag_List, (Assembler, TTag_List), (Node, TTag_List)); (* 6282, 6288, 6298 *)
  (P true TTag_List, (ReprAssembler, TTag_List), (Node, TTag_List)); (* 6540, 6546, 6556 *)
  (P false TTree, (Assembler, TTree), (Node, TTree)); (* 6879, 6885, 6895 *)
  (P true TTree, (ReprAssembler, TTree), (Node, TTree)); (* 7213, 7219, 7229 *)
  (P false TTreeEntry, (Assembler, TTreeEntry), (Node, TTreeEntry)); (* 7601, 7607, 7617 *)
  (P true TTreeEntry, (ReprAssembler, TTreeEntry), (Node, TTreeEntry)); (* 8051, 8057, 8067 *)
  (P false TTree_Link, (Assembler, TTree_Link), (Node, TTree_Link)) (* 8485, 8491, 8501 *)
].
Definition builder_row (p : proto) := find (fun x => proto_eqb (fst (fst x)) (resolve_proto p)) builder_rows.
Definition new_builder (p : proto) : option gotype := match builder_row p with Some (_, a, _) => Some a | None => None end.
Definition builds (p : proto) : option gotype := match builder_row p with Some (_, _, w) => Some w | None => None end.

(** ** The assemblers inside assemblers: for the fields of structs, for the elements of lists, for keys and values of trees *)
Definition part_rows : list (gotype * string * gotype) := [
  ((Assembler, TCommit), "ca_tree", (Assembler, TTree_Link)); (* 477 *)
  ((Assembler, TCommit), "ca_parents", (Assembler, TCommit_Link_List)); (* 478 *)
  ((Assembler, TCommit), "ca_message", (Assembler, TString)); (* 479 *)
  ((Assembler, TCommit), "ca_author", (Assembler, TPersonInfo)); (* 480 *)
  ((Assembler, TCommit), "ca_committer", (Assembler, TPersonInfo)); (* 481 *)
  ((Assembler, TCommit), "ca_encoding", (Assembler, TString)); (* 482 *)
  ((Assembler, TCommit), "ca_signature", (Assembler, TGpgSig)); (* 483 *)
  ((Assembler, TCommit), "ca_mergetag", (Assembler, TTag_List)); (* 484 *)
  ((Assembler, TCommit), "ca_other", (Assembler, TString_List)); (* 485 *)
  ((ReprAssembler, TCommit), "ca_tree", (ReprAssembler, TTree_Link)); (* 1258 *)
  ((ReprAssembler, TCommit), "ca_parents", (ReprAssembler, TCommit_Link_List)); (* 1259 *)
  ((ReprAssembler, TCommit), "ca_message", (ReprAssembler, TString)); (* 1260 *)
  ((ReprAssembler, TCommit), "ca_author", (ReprAssembler, TPersonInfo)); (* 1261 *)
  ((ReprAssembler, TCommit), "ca_committer", (ReprAssembler, TPersonInfo)); (* 1262 *)
  ((ReprAssembler, TCommit), "ca_encoding", (ReprAssembler, TString)); (* 1263 *)
  ((ReprAssembler, TCommit), "ca_signature", (ReprAssembler, TGpgSig)); (* 1264 *)
  ((ReprAssembler, TCommit), "ca_mergetag", (ReprAssembler, TTag_List)); (* 1265 *)
  ((ReprAssembler, TCommit), "ca_other", (ReprAssembler, TString_List)); (* 1266 *)
  ((Assembler, TCommit_Link_List), "va", (Assembler, TCommit_Link)); (* 2210 *)
  ((ReprAssembler, TCommit_Link_List), "va", (ReprAssembler, TCommit_Link)); (* 2468 *)
  ((Assembler, TPersonInfo), "ca_date", (Assembler, TString)); (* 3210 *)
  ((Assembler, TPersonInfo), "ca_timezone", (Assembler, TString)); (* 3211 *)
  ((Assembler, TPersonInfo), "ca_email", (Assembler, TString)); (* 3212 *)
  ((Assembler, TPersonInfo), "ca_name", (Assembler, TString)); (* 3213 *)
  ((ReprAssembler, TPersonInfo), "ca_date", (ReprAssembler, TString)); (* 3748 *)
  ((ReprAssembler, TPersonInfo), "ca_timezone", (ReprAssembler, TString)); (* 3749 *)
  ((ReprAssembler, TPersonInfo), "ca_email", (ReprAssembler, TString)); (* 3750 *)
  ((ReprAssembler, TPersonInfo), "ca_name", (ReprAssembler, TString)); (* 3751 *)
  ((Assembler, TString_List), "va", (Assembler, TString)); (* 4527 *)
  ((ReprAssembler, TString_List), "va", (ReprAssembler, TString)); (* 4785 *)
  ((Assembler, TTag), "ca_object", (Assembler, TLink)); (* 5122 *)
  ((Assembler, TTag), "ca_typ", (Assembler, TString)); (* 5123 *)
  ((Assembler, TTag), "ca_tag", (Assembler, TString)); (* 5124 *)
  ((Assembler, TTag), "ca_tagger", (Assembler, TPersonInfo)); (* 5125 *)
  ((Assembler, TTag), "ca_message", (Assembler, TString)); (* 5126 *)
  ((ReprAssembler, TTag), "ca_object", (ReprAssembler, TLink)); (* 5704 *)
  ((ReprAssembler, TTag), "ca_typ", (ReprAssembler, TString)); (* 5705 *)
  ((ReprAssembler, TTag), "ca_tag", (ReprAssembler, TString)); (* 5706 *)
  ((ReprAssembler, TTag), "ca_tagger", (ReprAssembler, TPersonInfo)); (* 5707 *)
  ((ReprAssembler, TTag), "ca_message", (ReprAssembler, TString)); (* 5708 *)
  ((Assembler, TTag_List), "va", (Assembler, TTag)); (* 6310 *)
  ((ReprAssembler, TTag_List), "va", (ReprAssembler, TTag)); (* 6568 *)
  ((Assembler, TTree), "ka", (Assembler, TString)); (* 6907 *)
  ((Assembler, TTree), "va", (Assembler, TTreeEntry)); (* 6908 *)
  ((ReprAssembler, TTree), "ka", (ReprAssembler, TString)); (* 7241 *)
  ((ReprAssembler, TTree), "va", (ReprAssembler, TTreeEntry)); (* 7242 *)
  ((Assembler, TTreeEntry), "ca_mode", (Assembler, TString)); (* 7631 *)
  ((Assembler, TTreeEntry), "ca_hash", (Assembler, TLink)); (* 7632 *)
  ((ReprAssembler, TTreeEntry), "ca_mode", (ReprAssembler, TString)); (* 8081 *)
  ((ReprAssembler, TTreeEntry), "ca_hash", (ReprAssembler, TLink)) (* 8082 *)
].
Definition part (a : gotype) (f : string) : option gotype :=
  match find (fun x => gotype_eqb (fst (fst x)) a && String.eqb (snd (fst x)) f) part_rows with
  | Some x => Some (resolve (snd x))
  | None => None
  end.
(** A part by its name and its type *)
Definition held : Type := string * gotype.
Definition handed (a : gotype) (f : string) : res held := match part a f with Some c => Ok (f, c) | None => Panic end.

(** ** AssembleEntry: the key ([None]: any), the number it sets [f] to (trees have none), the part it gives.  Another key
    is refused as invalid (801, 1568, 3425, 3951, 5360, 5928, 7800, 8242). *)
Definition entry_rows : list (gotype * option bytes * nat * string) := [
  ((Assembler, TCommit), Some (bs "tree"), 0, "ca_tree"); (* 710 *)
  ((Assembler, TCommit), Some (bs "parents"), 1, "ca_parents"); (* 720 *)
  ((Assembler, TCommit), Some (bs "message"), 2, "ca_message"); (* 730 *)
  ((Assembler, TCommit), Some (bs "author"), 3, "ca_author"); (* 740 *)
  ((Assembler, TCommit), Some (bs "committer"), 4, "ca_committer"); (* 750 *)
  ((Assembler, TCommit), Some (bs "encoding"), 5, "ca_encoding"); (* 760 *)
  ((Assembler, TCommit), Some (bs "signature"), 6, "ca_signature"); (* 770 *)
  ((Assembler, TCommit), Some (bs "mergetag"), 7, "ca_mergetag"); (* 780 *)
  ((Assembler, TCommit), Some (bs "other"), 8, "ca_other"); (* 790 *)
  ((ReprAssembler, TCommit), Some (bs "tree"), 0, "ca_tree"); (* 1472 *)
  ((ReprAssembler, TCommit), Some (bs "parents"), 1, "ca_parents"); (* 1482 *)
  ((ReprAssembler, TCommit), Some (bs "message"), 2, "ca_message"); (* 1492 *)
  ((ReprAssembler, TCommit), Some (bs "author"), 3, "ca_author"); (* 1502 *)
  ((ReprAssembler, TCommit), Some (bs "committer"), 4, "ca_committer"); (* 1513 *)
  ((ReprAssembler, TCommit), Some (bs "encoding"), 5, "ca_encoding"); (* 1524 *)
  ((ReprAssembler, TCommit), Some (bs "signature"), 6, "ca_signature"); (* 1535 *)
  ((ReprAssembler, TCommit), Some (bs "mergetag"), 7, "ca_mergetag"); (* 1546 *)
  ((ReprAssembler, TCommit), Some (bs "other"), 8, "ca_other"); (* 1556 *)
  ((Assembler, TPersonInfo), Some (bs "date"), 0, "ca_date"); (* 3384 *)
  ((Assembler, TPersonInfo), Some (bs "timezone"), 1, "ca_timezone"); (* 3394 *)
  ((Assembler, TPersonInfo), Some (bs "email"), 2, "ca_email"); (* 3404 *)
  ((Assembler, TPersonInfo), Some (bs "name"), 3, "ca_name"); (* 3414 *)
  ((ReprAssembler, TPersonInfo), Some (bs "date"), 0, "ca_date"); (* 3909 *)
  ((ReprAssembler, TPersonInfo), Some (bs "timezone"), 1, "ca_timezone"); (* 3919 *)
  ((ReprAssembler, TPersonInfo), Some (bs "email"), 2, "ca_email"); (* 3929 *)
  ((ReprAssembler, TPersonInfo), Some (bs "name"), 3, "ca_name"); (* 3939 *)
  ((Assembler, TTag), Some (bs "object"), 0, "ca_object"); (* 5309 *)
  ((Assembler, TTag), Some (bs "type"), 1, "ca_typ"); (* 5319 *)
  ((Assembler, TTag), Some (bs "tag"), 2, "ca_tag"); (* 5329 *)
  ((Assembler, TTag), Some (bs "tagger"), 3, "ca_tagger"); (* 5339 *)
  ((Assembler, TTag), Some (bs "message"), 4, "ca_message"); (* 5349 *)
  ((ReprAssembler, TTag), Some (bs "object"), 0, "ca_object"); (* 5876 *)
  ((ReprAssembler, TTag), Some (bs "type"), 1, "ca_typ"); (* 5886 *)
  ((ReprAssembler, TTag), Some (bs "tag"), 2, "ca_tag"); (* 5896 *)
  ((ReprAssembler, TTag), Some (bs "tagger"), 3, "ca_tagger"); (* 5906 *)
  ((ReprAssembler, TTag), Some (bs "message"), 4, "ca_message"); (* 5916 *)
  ((Assembler, TTree), None, 0, "va"); (* 7060 *)
  ((ReprAssembler, TTree), None, 0, "va"); (* 7394 *)
  ((Assembler, TTreeEntry), Some (bs "mode"), 0, "ca_mode"); (* 7779 *)
  ((Assembler, TTreeEntry), Some (bs "hash"), 1, "ca_hash"); (* 7789 *)
  ((ReprAssembler, TTreeEntry), Some (bs "mode"), 0, "ca_mode"); (* 8220 *)
  ((ReprAssembler, TTreeEntry), Some (bs "hash"), 1, "ca_hash") (* 8230 *)
].
Definition key_fits (k' : option bytes) (k : bytes) : bool := match k' with Some k' => beqb k' k | None => true end.
Definition has_entries (a : gotype) : bool := existsb (fun x => gotype_eqb (fst (fst (fst x))) a) entry_rows.
Definition assemble_entry (a : gotype) (k : bytes) : res (nat * held) :=
  let a := resolve a in
  if has_entries a then
    match find (fun x => gotype_eqb (fst (fst (fst x))) a && key_fits (snd (fst (fst x))) k) entry_rows with
    | Some (_, _, f, c) => let* c := handed a c in Ok (f, c)
    | None => Err (EInvalidKey k)
    end
  else Err EWrongKind.                    (* BeginMap has refused (Methods.v) *)

(** ** AssembleKey: the struct itself as the assembler of its key, the part [ka] of a tree *)
Definition key_assembler_rows : list (gotype * (gotype + string)) := [
  ((Assembler, TCommit), inl (Key, TCommit)); (* 819 *)
  ((ReprAssembler, TCommit), inl (ReprKey, TCommit)); (* 1586 *)
  ((Assembler, TPersonInfo), inl (Key, TPersonInfo)); (* 3443 *)
  ((ReprAssembler, TPersonInfo), inl (ReprKey, TPersonInfo)); (* 3969 *)
  ((Assembler, TTag), inl (Key, TTag)); (* 5378 *)
  ((ReprAssembler, TTag), inl (ReprKey, TTag)); (* 5946 *)
  ((Assembler, TTree), inr "ka"); (* 7081 *)
  ((ReprAssembler, TTree), inr "ka"); (* 7415 *)
  ((Assembler, TTreeEntry), inl (Key, TTreeEntry)); (* 7818 *)
  ((ReprAssembler, TTreeEntry), inl (ReprKey, TTreeEntry)) (* 8260 *)
].
Definition assemble_key (a : gotype) : res gotype :=
  let a := resolve a in
  match find (fun x => gotype_eqb (fst x) a) key_assembler_rows with
  | Some (_, inl c) => Ok c
  | Some (_, inr c) => map_res snd (handed a c)
  | None => Err EWrongKind
  end.

(** AssignString of the assemblers of the keys of structs: the number it sets [f] to.  Another key is invalid.  The
    key of a tree is any string and is put into the tree. *)
Definition key_rows : list (gotype * bytes * nat) := [
  ((Key, TCommit), bs "tree", 0); (* 946 *)
  ((Key, TCommit), bs "parents", 1); (* 954 *)
  ((Key, TCommit), bs "message", 2); (* 962 *)
  ((Key, TCommit), bs "author", 3); (* 970 *)
  ((Key, TCommit), bs "committer", 4); (* 978 *)
  ((Key, TCommit), bs "encoding", 5); (* 986 *)
  ((Key, TCommit), bs "signature", 6); (* 994 *)
  ((Key, TCommit), bs "mergetag", 7); (* 1002 *)
  ((Key, TCommit), bs "other", 8); (* 1010 *)
  ((ReprKey, TCommit), bs "tree", 0); (* 1717 *)
  ((ReprKey, TCommit), bs "parents", 1); (* 1725 *)
  ((ReprKey, TCommit), bs "message", 2); (* 1733 *)
  ((ReprKey, TCommit), bs "author", 3); (* 1741 *)
  ((ReprKey, TCommit), bs "committer", 4); (* 1749 *)
  ((ReprKey, TCommit), bs "encoding", 5); (* 1757 *)
  ((ReprKey, TCommit), bs "signature", 6); (* 1765 *)
  ((ReprKey, TCommit), bs "mergetag", 7); (* 1773 *)
  ((ReprKey, TCommit), bs "other", 8); (* 1781 *)
  ((Key, TPersonInfo), bs "date", 0); (* 3547 *)
  ((Key, TPersonInfo), bs "timezone", 1); (* 3555 *)
  ((Key, TPersonInfo), bs "email", 2); (* 3563 *)
  ((Key, TPersonInfo), bs "name", 3); (* 3571 *)
  ((ReprKey, TPersonInfo), bs "date", 0); (* 4073 *)
  ((ReprKey, TPersonInfo), bs "timezone", 1); (* 4081 *)
  ((ReprKey, TPersonInfo), bs "email", 2); (* 4089 *)
  ((ReprKey, TPersonInfo), bs "name", 3); (* 4097 *)
  ((Key, TTag), bs "object", 0); (* 5489 *)
  ((Key, TTag), bs "type", 1); (* 5497 *)
  ((Key, TTag), bs "tag", 2); (* 5505 *)
  ((Key, TTag), bs "tagger", 3); (* 5513 *)
  ((Key, TTag), bs "message", 4); (* 5521 *)
  ((ReprKey, TTag), bs "object", 0); (* 6057 *)
  ((ReprKey, TTag), bs "type", 1); (* 6065 *)
  ((ReprKey, TTag), bs "tag", 2); (* 6073 *)
  ((ReprKey, TTag), bs "tagger", 3); (* 6081 *)
  ((ReprKey, TTag), bs "message", 4); (* 6089 *)
  ((Key, TTreeEntry), bs "mode", 0); (* 7908 *)
  ((Key, TTreeEntry), bs "hash", 1); (* 7916 *)
  ((ReprKey, TTreeEntry), bs "mode", 0); (* 8350 *)
  ((ReprKey, TTreeEntry), bs "hash", 1) (* 8358 *)
].
Definition key_assign (ka : gotype) (k : bytes) : res nat :=
  match ka with
  | ((Key | ReprKey), _) =>
      match find (fun x => gotype_eqb (fst (fst x)) ka && beqb (snd (fst x)) k) key_rows with
      | Some (_, _, f) => Ok f
      | None => Err (EInvalidKey k)
      end
  | _ => Ok 0
  end.

(** ** AssembleValue: for structs the part for the number in [f] ([panic("unreachable")] for another number), for lists and
    trees the part [va] *)
Definition value_rows : list (gotype * option nat * string) := [
  ((Assembler, TCommit), Some 0, "ca_tree"); (* 836 *)
  ((Assembler, TCommit), Some 1, "ca_parents"); (* 840 *)
  ((Assembler, TCommit), Some 2, "ca_message"); (* 844 *)
  ((Assembler, TCommit), Some 3, "ca_author"); (* 848 *)
  ((Assembler, TCommit), Some 4, "ca_committer"); (* 852 *)
  ((Assembler, TCommit), Some 5, "ca_encoding"); (* 856 *)
  ((Assembler, TCommit), Some 6, "ca_signature"); (* 860 *)
  ((Assembler, TCommit), Some 7, "ca_mergetag"); (* 864 *)
  ((Assembler, TCommit), Some 8, "ca_other"); (* 868 *)
  ((ReprAssembler, TCommit), Some 0, "ca_tree"); (* 1603 *)
  ((ReprAssembler, TCommit), Some 1, "ca_parents"); (* 1607 *)
  ((ReprAssembler, TCommit), Some 2, "ca_message"); (* 1611 *)
  ((ReprAssembler, TCommit), Some 3, "ca_author"); (* 1615 *)
  ((ReprAssembler, TCommit), Some 4, "ca_committer"); (* 1620 *)
  ((ReprAssembler, TCommit), Some 5, "ca_encoding"); (* 1625 *)
  ((ReprAssembler, TCommit), Some 6, "ca_signature"); (* 1630 *)
  ((ReprAssembler, TCommit), Some 7, "ca_mergetag"); (* 1635 *)
  ((ReprAssembler, TCommit), Some 8, "ca_other"); (* 1639 *)
  ((Assembler, TCommit_Link_List), None, "va"); (* 2329 *)
  ((ReprAssembler, TCommit_Link_List), None, "va"); (* 2587 *)
  ((Assembler, TPersonInfo), Some 0, "ca_date"); (* 3460 *)
  ((Assembler, TPersonInfo), Some 1, "ca_timezone"); (* 3464 *)
  ((Assembler, TPersonInfo), Some 2, "ca_email"); (* 3468 *)
  ((Assembler, TPersonInfo), Some 3, "ca_name"); (* 3472 *)
  ((ReprAssembler, TPersonInfo), Some 0, "ca_date"); (* 3986 *)
  ((ReprAssembler, TPersonInfo), Some 1, "ca_timezone"); (* 3990 *)
  ((ReprAssembler, TPersonInfo), Some 2, "ca_email"); (* 3994 *)
  ((ReprAssembler, TPersonInfo), Some 3, "ca_name"); (* 3998 *)
  ((Assembler, TString_List), None, "va"); (* 4646 *)
  ((ReprAssembler, TString_List), None, "va"); (* 4904 *)
  ((Assembler, TTag), Some 0, "ca_object"); (* 5395 *)
  ((Assembler, TTag), Some 1, "ca_typ"); (* 5399 *)
  ((Assembler, TTag), Some 2, "ca_tag"); (* 5403 *)
  ((Assembler, TTag), Some 3, "ca_tagger"); (* 5407 *)
  ((Assembler, TTag), Some 4, "ca_message"); (* 5411 *)
  ((ReprAssembler, TTag), Some 0, "ca_object"); (* 5963 *)
  ((ReprAssembler, TTag), Some 1, "ca_typ"); (* 5967 *)
  ((ReprAssembler, TTag), Some 2, "ca_tag"); (* 5971 *)
  ((ReprAssembler, TTag), Some 3, "ca_tagger"); (* 5975 *)
  ((ReprAssembler, TTag), Some 4, "ca_message"); (* 5979 *)
  ((Assembler, TTag_List), None, "va"); (* 6429 *)
  ((ReprAssembler, TTag_List), None, "va"); (* 6687 *)
  ((Assembler, TTree), None, "va"); (* 7099 *)
  ((ReprAssembler, TTree), None, "va"); (* 7433 *)
  ((Assembler, TTreeEntry), Some 0, "ca_mode"); (* 7835 *)
  ((Assembler, TTreeEntry), Some 1, "ca_hash"); (* 7839 *)
  ((ReprAssembler, TTreeEntry), Some 0, "ca_mode"); (* 8277 *)
  ((ReprAssembler, TTreeEntry), Some 1, "ca_hash") (* 8281 *)
].
Definition assemble_value (a : gotype) (f : nat) : res held :=
  let a := resolve a in
  match find (fun x => gotype_eqb (fst (fst x)) a && match snd (fst x) with Some f' => Nat.eqb f' f | None => true end) value_rows with
  | Some (_, _, c) => handed a c
  | None => if existsb (fun x => gotype_eqb (fst (fst x)) a) value_rows then Panic else Err EWrongKind
  end.

(** ** KeyPrototype() and ValuePrototype(k): the answer is the same for every key and every index; those of the
    structs are [panic("todo structbuilder mapassembler valueprototype")] *)
Definition key_prototype_rows : list (gotype * proto) := [
  ((Assembler, TCommit), P false TString); (* 914 *)
  ((ReprAssembler, TCommit), P false TString); (* 1685 *)
  ((Assembler, TPersonInfo), P false TString); (* 3515 *)
  ((ReprAssembler, TPersonInfo), P false TString); (* 4041 *)
  ((Assembler, TTag), P false TString); (* 5457 *)
  ((ReprAssembler, TTag), P false TString); (* 6025 *)
  ((Assembler, TTree), P false TString); (* 7120 *)
  ((ReprAssembler, TTree), P true TString); (* 7454 *)
  ((Assembler, TTreeEntry), P false TString); (* 7876 *)
  ((ReprAssembler, TTreeEntry), P false TString) (* 8318 *)
].
Definition value_prototype_rows : list (gotype * option proto) := [
  ((Assembler, TCommit), None); (* 917 *)
  ((ReprAssembler, TCommit), None); (* 1688 *)
  ((Assembler, TCommit_Link_List), Some (P false TCommit_Link)); (* 2346 *)
  ((ReprAssembler, TCommit_Link_List), Some (P true TCommit_Link)); (* 2604 *)
  ((Assembler, TPersonInfo), None); (* 3518 *)
  ((ReprAssembler, TPersonInfo), None); (* 4044 *)
  ((Assembler, TString_List), Some (P false TString)); (* 4663 *)
  ((ReprAssembler, TString_List), Some (P true TString)); (* 4921 *)
  ((Assembler, TTag), None); (* 5460 *)
  ((ReprAssembler, TTag), None); (* 6028 *)
  ((Assembler, TTag_List), Some (P false TTag)); (* 6446 *)
  ((ReprAssembler, TTag_List), Some (P true TTag)); (* 6704 *)
  ((Assembler, TTree), Some (P false TTreeEntry)); (* 7123 *)
  ((ReprAssembler, TTree), Some (P true TTreeEntry)); (* 7457 *)
  ((Assembler, TTreeEntry), None); (* 7879 *)
  ((ReprAssembler, TTreeEntry), None) (* 8321 *)
].
Definition key_prototype (a : gotype) : res proto :=
  match find (fun x => gotype_eqb (fst x) (resolve a)) key_prototype_rows with
  | Some x => Ok (resolve_proto (snd x))
  | None => Err EWrongKind
  end.
Definition value_prototype (a : gotype) : res proto :=
  match find (fun x => gotype_eqb (fst x) (resolve a)) value_prototype_rows with
  | Some (_, Some p) => Ok (resolve_proto p)
  | Some (_, None) => Panic
  | None => Err EWrongKind
  end.

(** ** Going down: what a path of segments leads to, in a node (LookupBySegment, Nodes.v) and in an assembler (an entry
    of a map, the next element of a list) *)
Fixpoint node_at (n : node) (path : list bytes) : res node :=
  match path with
  | [] => Ok n
  | s :: path => let* c := lookup_by_segment n s in node_at c path
  end.
Fixpoint assembler_at (a : gotype) (path : list bytes) : res gotype :=
  match path with
  | [] => Ok (resolve a)
  | s :: path =>
      let* c := if has_entries (resolve a) then map_res snd (assemble_entry a s) else assemble_value a 0 in
      assembler_at (snd c) path
  end.
