(** The bodies of the methods of all generated assemblers, statement by statement, and what they do to the states of Builder.v.

    Builder.v has one function for all scalars, one for all lists, one for trees and one for all structs.  Here each method of
    each of the 20 assemblers, and of the 8 key assemblers, has its own row, with the statements of its own body; Props_code.v proves that running
    them is what the functions of Builder.v do.  The numbers beside the rows are lines of ipldsch_satisfaction.go.  The cases
    for the fields of structs are in FieldBits.v and Wiring.v; the texts of panics are left out; the second half of AssignNode,
    for nodes of other types, is in AssignCalls.v. *)
From Verif Require Import Base GoStr Types Methods Protos Wiring.
From Verif Require Builder FieldBits.
From Coq Require Import String.
Local Open Scope string_scope.
Local Open Scope list_scope.

Inductive mlabel := M (m : Builder.maybe) | AllowNull.
Inductive line :=
| Panicking                          (* panic("...") *)
| Return                             (* return nil; return na, nil *)
| Refuse                             (* return mixins.XAssembler{...}.Method(...) *)
| ReturnPart (p : string)            (* return &ma.p *)
| ReturnKey (k : gotype)             (* return ( *_T__KeyAssembler)(ma) *)
| PutM (m : Builder.maybe)           (* *na.m = m *)
| PutState (s : Builder.mstate)      (* ma.state = s *)
| ClearCm                            (* ma.cm = schema.Maybe_Absent *)
| Tidy | KeyTidy                     (* if !ma.valueFinishTidy() { panic("...") } *)
| PartNil (p : string)               (* ma.p.w = nil *)
| PartM (p : string)                 (* ma.p.m = &ma.cm *)
| PartReset (p : string)             (* ma.p.reset() *)
| IsNode (t : tyname)                (* if v2, ok := v.( *_T); ok *)
| CopyNode                           (* *na.w = *v2 *)
| AdoptIfNil                         (* if na.w == nil { na.w = v2; *na.m = schema.Maybe_Value; return nil } *)
| NewIfNil (t : tyname)              (* if na.w == nil { na.w = &_T{} } *)
| SetX                               (* na.w.x = v *)
| FixHint                            (* if sizeHint < 0 { sizeHint = 0 } *)
| MakeIfHint (t : tyname)            (* if sizeHint > 0 { na.w.x = make([]_T, 0, sizeHint) } *)
| AppendElem (t : tyname)            (* la.w.x = append(la.w.x, _T{}) *)
| TakeRow                            (* row := &la.w.x[len(la.w.x)-1] *)
| PointRow (p : string)              (* la.p.w = row *)
| MakeMap                            (* na.w.m = make(map[_String]*_TreeEntry, sizeHint) *)
| MakeSlice                          (* na.w.t = make([]_Tree__entry, 0, sizeHint) *)
| KeyString                          (* var k2 _String; if err := (_String__Prototype{}).fromString(&k2, k); err != nil { return nil, err } *)
| RepeatedTest                       (* if _, exists := ma.w.m[k2]; exists { return nil, ipld.ErrRepeatedMapKey{Key: &k2} } *)
| AppendKey                          (* ma.w.t = append(ma.w.t, _Tree__entry{k: k2}) *)
| AppendNone                         (* ma.w.t = append(ma.w.t, _Tree__entry{}) *)
| TakeLast                           (* tz := &ma.w.t[len(ma.w.t)-1] *)
| MapKey                             (* ma.w.m[k2] = &tz.v *)
| MapLast                            (* ma.w.m[tz.k] = &tz.v *)
| PointEntry (p : string)            (* ma.p.w = &tz.v *)
| PointKey (p : string)              (* ma.p.w = &ma.w.t[len(ma.w.t)-1].k *)
| KeyGuard                           (* if ka.state != maState_midKey { panic("...") } *)
| Sufficient (t : tyname)            (* if ma.s&fieldBits__T_sufficient != fieldBits__T_sufficient { ... return err } *)
| KeyCases                           (* switch k { ... *)
| FieldCases.                        (* switch ma.f { ... *)
Inductive stm :=
| L (l : line)
| OnM (cases : list (list mlabel * list line))              (* switch *na.m { ... } *)
| OnState (cases : list (Builder.mstate * list line)).      (* switch ma.state { ... } *)

(** ** The methods: the assembler, the method, its statements *)
Definition method_rows : list (gotype * string * list stm) := [
  ((Assembler, TBlob), "BeginMap", [L Refuse]); (* 138 *)
  ((Assembler, TBlob), "BeginList", [L Refuse]); (* 141 *)
  ((Assembler, TBlob), "AssignNull", [OnM [([AllowNull], [PutM Builder.MNull; Return]); ([M Builder.MAbsent], [Refuse]); ([M Builder.MValue; M Builder.MNull], [Panicking])]; L Panicking]); (* 144 *)
  ((Assembler, TBlob), "AssignBool", [L Refuse]); (* 156 *)
  ((Assembler, TBlob), "AssignInt", [L Refuse]); (* 159 *)
  ((Assembler, TBlob), "AssignFloat", [L Refuse]); (* 162 *)
  ((Assembler, TBlob), "AssignString", [L Refuse]); (* 165 *)
  ((Assembler, TBlob), "AssignBytes", [OnM [([M Builder.MValue; M Builder.MNull], [Panicking])]; L SetX; L (PutM Builder.MValue); L Return]); (* 168 *)
  ((Assembler, TBlob), "AssignLink", [L Refuse]); (* 177 *)
  ((Assembler, TBlob), "AssignNode", [L (IsNode TBlob); OnM [([M Builder.MValue; M Builder.MNull], [Panicking])]; L CopyNode; L (PutM Builder.MValue); L Return]); (* 180 *)
  ((Assembler, TCommit), "BeginMap", [OnM [([M Builder.MValue; M Builder.MNull], [Panicking]); ([M Builder.MMid], [Panicking])]; L (PutM Builder.MMid); L (NewIfNil TCommit); L Return]); (* 515 *)
  ((Assembler, TCommit), "BeginList", [L Refuse]); (* 528 *)
  ((Assembler, TCommit), "AssignNull", [OnM [([AllowNull], [PutM Builder.MNull; Return]); ([M Builder.MAbsent], [Refuse]); ([M Builder.MValue; M Builder.MNull], [Panicking]); ([M Builder.MMid], [Panicking])]; L Panicking]); (* 531 *)
  ((Assembler, TCommit), "AssignBool", [L Refuse]); (* 545 *)
  ((Assembler, TCommit), "AssignInt", [L Refuse]); (* 548 *)
  ((Assembler, TCommit), "AssignFloat", [L Refuse]); (* 551 *)
  ((Assembler, TCommit), "AssignString", [L Refuse]); (* 554 *)
  ((Assembler, TCommit), "AssignBytes", [L Refuse]); (* 557 *)
  ((Assembler, TCommit), "AssignLink", [L Refuse]); (* 560 *)
  ((Assembler, TCommit), "AssignNode", [L (IsNode TCommit); OnM [([M Builder.MValue; M Builder.MNull], [Panicking]); ([M Builder.MMid], [Panicking])]; L AdoptIfNil; L CopyNode; L (PutM Builder.MValue); L Return]); (* 563 *)
  ((Assembler, TCommit), "AssembleEntry", [OnState [(Builder.Initial, []); (Builder.MidKey, [Panicking]); (Builder.ExpectValue, [Panicking]); (Builder.MidValue, [Tidy]); (Builder.Finished, [Panicking])]; L KeyCases]); (* 694 *)
  ((Assembler, TCommit), "AssembleKey", [OnState [(Builder.Initial, []); (Builder.MidKey, [Panicking]); (Builder.ExpectValue, [Panicking]); (Builder.MidValue, [Tidy]); (Builder.Finished, [Panicking])]; L (PutState Builder.MidKey); L (ReturnKey (Key, TCommit))]); (* 803 *)
  ((Assembler, TCommit), "AssembleValue", [OnState [(Builder.Initial, [Panicking]); (Builder.MidKey, [Panicking]); (Builder.ExpectValue, []); (Builder.MidValue, [Panicking]); (Builder.Finished, [Panicking])]; L (PutState Builder.MidValue); L FieldCases]); (* 821 *)
  ((Assembler, TCommit), "Finish", [OnState [(Builder.Initial, []); (Builder.MidKey, [Panicking]); (Builder.ExpectValue, [Panicking]); (Builder.MidValue, [Tidy]); (Builder.Finished, [Panicking])]; L (Sufficient TCommit); L (PutState Builder.Finished); L (PutM Builder.MValue); L Return]); (* 876 *)
  ((Key, TCommit), "BeginMap", [L Refuse]); (* 923 *)
  ((Key, TCommit), "BeginList", [L Refuse]); (* 926 *)
  ((Key, TCommit), "AssignNull", [L Refuse]); (* 929 *)
  ((Key, TCommit), "AssignBool", [L Refuse]); (* 932 *)
  ((Key, TCommit), "AssignInt", [L Refuse]); (* 935 *)
  ((Key, TCommit), "AssignFloat", [L Refuse]); (* 938 *)
  ((Key, TCommit), "AssignString", [L KeyGuard; L KeyCases]); (* 941 *)
  ((Key, TCommit), "AssignBytes", [L Refuse]); (* 1022 *)
  ((Key, TCommit), "AssignLink", [L Refuse]); (* 1025 *)
  ((ReprAssembler, TCommit), "BeginMap", [OnM [([M Builder.MValue; M Builder.MNull], [Panicking]); ([M Builder.MMid], [Panicking])]; L (PutM Builder.MMid); L (NewIfNil TCommit); L Return]); (* 1282 *)
  ((ReprAssembler, TCommit), "BeginList", [L Refuse]); (* 1295 *)
  ((ReprAssembler, TCommit), "AssignNull", [OnM [([AllowNull], [PutM Builder.MNull; Return]); ([M Builder.MAbsent], [Refuse]); ([M Builder.MValue; M Builder.MNull], [Panicking]); ([M Builder.MMid], [Panicking])]; L Panicking]); (* 1298 *)
  ((ReprAssembler, TCommit), "AssignBool", [L Refuse]); (* 1312 *)
  ((ReprAssembler, TCommit), "AssignInt", [L Refuse]); (* 1315 *)
  ((ReprAssembler, TCommit), "AssignFloat", [L Refuse]); (* 1318 *)
  ((ReprAssembler, TCommit), "AssignString", [L Refuse]); (* 1321 *)
  ((ReprAssembler, TCommit), "AssignBytes", [L Refuse]); (* 1324 *)
  ((ReprAssembler, TCommit), "AssignLink", [L Refuse]); (* 1327 *)
  ((ReprAssembler, TCommit), "AssignNode", [L (IsNode TCommit); OnM [([M Builder.MValue; M Builder.MNull], [Panicking]); ([M Builder.MMid], [Panicking])]; L AdoptIfNil; L CopyNode; L (PutM Builder.MValue); L Return]); (* 1330 *)
  ((ReprAssembler, TCommit), "AssembleEntry", [OnState [(Builder.Initial, []); (Builder.MidKey, [Panicking]); (Builder.ExpectValue, [Panicking]); (Builder.MidValue, [Tidy]); (Builder.Finished, [Panicking])]; L KeyCases]); (* 1456 *)
  ((ReprAssembler, TCommit), "AssembleKey", [OnState [(Builder.Initial, []); (Builder.MidKey, [Panicking]); (Builder.ExpectValue, [Panicking]); (Builder.MidValue, [Tidy]); (Builder.Finished, [Panicking])]; L (PutState Builder.MidKey); L (ReturnKey (ReprKey, TCommit))]); (* 1570 *)
  ((ReprAssembler, TCommit), "AssembleValue", [OnState [(Builder.Initial, [Panicking]); (Builder.MidKey, [Panicking]); (Builder.ExpectValue, []); (Builder.MidValue, [Panicking]); (Builder.Finished, [Panicking])]; L (PutState Builder.MidValue); L FieldCases]); (* 1588 *)
  ((ReprAssembler, TCommit), "Finish", [OnState [(Builder.Initial, []); (Builder.MidKey, [Panicking]); (Builder.ExpectValue, [Panicking]); (Builder.MidValue, [Tidy]); (Builder.Finished, [Panicking])]; L (Sufficient TCommit); L (PutState Builder.Finished); L (PutM Builder.MValue); L Return]); (* 1647 *)
  ((ReprKey, TCommit), "BeginMap", [L Refuse]); (* 1694 *)
  ((ReprKey, TCommit), "BeginList", [L Refuse]); (* 1697 *)
  ((ReprKey, TCommit), "AssignNull", [L Refuse]); (* 1700 *)
  ((ReprKey, TCommit), "AssignBool", [L Refuse]); (* 1703 *)
  ((ReprKey, TCommit), "AssignInt", [L Refuse]); (* 1706 *)
  ((ReprKey, TCommit), "AssignFloat", [L Refuse]); (* 1709 *)
  ((ReprKey, TCommit), "AssignString", [L KeyGuard; L KeyCases]); (* 1712 *)
  ((ReprKey, TCommit), "AssignBytes", [L Refuse]); (* 1792 *)
  ((ReprKey, TCommit), "AssignLink", [L Refuse]); (* 1795 *)
  ((Assembler, TCommit_Link), "BeginMap", [L Refuse]); (* 1936 *)
  ((Assembler, TCommit_Link), "BeginList", [L Refuse]); (* 1939 *)
  ((Assembler, TCommit_Link), "AssignNull", [OnM [([AllowNull], [PutM Builder.MNull; Return]); ([M Builder.MAbsent], [Refuse]); ([M Builder.MValue; M Builder.MNull], [Panicking])]; L Panicking]); (* 1942 *)
  ((Assembler, TCommit_Link), "AssignBool", [L Refuse]); (* 1954 *)
  ((Assembler, TCommit_Link), "AssignInt", [L Refuse]); (* 1957 *)
  ((Assembler, TCommit_Link), "AssignFloat", [L Refuse]); (* 1960 *)
  ((Assembler, TCommit_Link), "AssignString", [L Refuse]); (* 1963 *)
  ((Assembler, TCommit_Link), "AssignBytes", [L Refuse]); (* 1966 *)
  ((Assembler, TCommit_Link), "AssignLink", [OnM [([M Builder.MValue; M Builder.MNull], [Panicking])]; L SetX; L (PutM Builder.MValue); L Return]); (* 1969 *)
  ((Assembler, TCommit_Link), "AssignNode", [L (IsNode TCommit_Link); OnM [([M Builder.MValue; M Builder.MNull], [Panicking])]; L CopyNode; L (PutM Builder.MValue); L Return]); (* 1978 *)
  ((Assembler, TCommit_Link_List), "BeginMap", [L Refuse]); (* 2217 *)
  ((Assembler, TCommit_Link_List), "BeginList", [OnM [([M Builder.MValue; M Builder.MNull], [Panicking]); ([M Builder.MMid], [Panicking])]; L (PutM Builder.MMid); L FixHint; L (MakeIfHint TCommit_Link); L Return]); (* 2220 *)
  ((Assembler, TCommit_Link_List), "AssignNull", [OnM [([AllowNull], [PutM Builder.MNull; Return]); ([M Builder.MAbsent], [Refuse]); ([M Builder.MValue; M Builder.MNull], [Panicking]); ([M Builder.MMid], [Panicking])]; L Panicking]); (* 2236 *)
  ((Assembler, TCommit_Link_List), "AssignBool", [L Refuse]); (* 2250 *)
  ((Assembler, TCommit_Link_List), "AssignInt", [L Refuse]); (* 2253 *)
  ((Assembler, TCommit_Link_List), "AssignFloat", [L Refuse]); (* 2256 *)
  ((Assembler, TCommit_Link_List), "AssignString", [L Refuse]); (* 2259 *)
  ((Assembler, TCommit_Link_List), "AssignBytes", [L Refuse]); (* 2262 *)
  ((Assembler, TCommit_Link_List), "AssignLink", [L Refuse]); (* 2265 *)
  ((Assembler, TCommit_Link_List), "AssignNode", [L (IsNode TCommit_Link_List); OnM [([M Builder.MValue; M Builder.MNull], [Panicking]); ([M Builder.MMid], [Panicking])]; L CopyNode; L (PutM Builder.MValue); L Return]); (* 2268 *)
  ((Assembler, TCommit_Link_List), "AssembleValue", [OnState [(Builder.Initial, []); (Builder.MidValue, [Tidy]); (Builder.Finished, [Panicking])]; L (AppendElem TCommit_Link); L (PutState Builder.MidValue); L TakeRow; L (PointRow "va"); L (PartM "va"); L (ReturnPart "va")]); (* 2313 *)
  ((Assembler, TCommit_Link_List), "Finish", [OnState [(Builder.Initial, []); (Builder.MidValue, [Tidy]); (Builder.Finished, [Panicking])]; L (PutState Builder.Finished); L (PutM Builder.MValue); L Return]); (* 2331 *)
  ((ReprAssembler, TCommit_Link_List), "BeginMap", [L Refuse]); (* 2475 *)
  ((ReprAssembler, TCommit_Link_List), "BeginList", [OnM [([M Builder.MValue; M Builder.MNull], [Panicking]); ([M Builder.MMid], [Panicking])]; L (PutM Builder.MMid); L FixHint; L (MakeIfHint TCommit_Link); L Return]); (* 2478 *)
  ((ReprAssembler, TCommit_Link_List), "AssignNull", [OnM [([AllowNull], [PutM Builder.MNull; Return]); ([M Builder.MAbsent], [Refuse]); ([M Builder.MValue; M Builder.MNull], [Panicking]); ([M Builder.MMid], [Panicking])]; L Panicking]); (* 2494 *)
  ((ReprAssembler, TCommit_Link_List), "AssignBool", [L Refuse]); (* 2508 *)
  ((ReprAssembler, TCommit_Link_List), "AssignInt", [L Refuse]); (* 2511 *)
  ((ReprAssembler, TCommit_Link_List), "AssignFloat", [L Refuse]); (* 2514 *)
  ((ReprAssembler, TCommit_Link_List), "AssignString", [L Refuse]); (* 2517 *)
  ((ReprAssembler, TCommit_Link_List), "AssignBytes", [L Refuse]); (* 2520 *)
  ((ReprAssembler, TCommit_Link_List), "AssignLink", [L Refuse]); (* 2523 *)
  ((ReprAssembler, TCommit_Link_List), "AssignNode", [L (IsNode TCommit_Link_List); OnM [([M Builder.MValue; M Builder.MNull], [Panicking]); ([M Builder.MMid], [Panicking])]; L CopyNode; L (PutM Builder.MValue); L Return]); (* 2526 *)
  ((ReprAssembler, TCommit_Link_List), "AssembleValue", [OnState [(Builder.Initial, []); (Builder.MidValue, [Tidy]); (Builder.Finished, [Panicking])]; L (AppendElem TCommit_Link); L (PutState Builder.MidValue); L TakeRow; L (PointRow "va"); L (PartM "va"); L (ReturnPart "va")]); (* 2571 *)
  ((ReprAssembler, TCommit_Link_List), "Finish", [OnState [(Builder.Initial, []); (Builder.MidValue, [Tidy]); (Builder.Finished, [Panicking])]; L (PutState Builder.Finished); L (PutM Builder.MValue); L Return]); (* 2589 *)
  ((Assembler, TGpgSig), "BeginMap", [L Refuse]); (* 2739 *)
  ((Assembler, TGpgSig), "BeginList", [L Refuse]); (* 2742 *)
  ((Assembler, TGpgSig), "AssignNull", [OnM [([AllowNull], [PutM Builder.MNull; Return]); ([M Builder.MAbsent], [Refuse]); ([M Builder.MValue; M Builder.MNull], [Panicking])]; L Panicking]); (* 2745 *)
  ((Assembler, TGpgSig), "AssignBool", [L Refuse]); (* 2757 *)
  ((Assembler, TGpgSig), "AssignInt", [L Refuse]); (* 2760 *)
  ((Assembler, TGpgSig), "AssignFloat", [L Refuse]); (* 2763 *)
  ((Assembler, TGpgSig), "AssignString", [OnM [([M Builder.MValue; M Builder.MNull], [Panicking])]; L SetX; L (PutM Builder.MValue); L Return]); (* 2766 *)
  ((Assembler, TGpgSig), "AssignBytes", [L Refuse]); (* 2775 *)
  ((Assembler, TGpgSig), "AssignLink", [L Refuse]); (* 2778 *)
  ((Assembler, TGpgSig), "AssignNode", [L (IsNode TGpgSig); OnM [([M Builder.MValue; M Builder.MNull], [Panicking])]; L CopyNode; L (PutM Builder.MValue); L Return]); (* 2781 *)
  ((Assembler, TLink), "BeginMap", [L Refuse]); (* 2944 *)
  ((Assembler, TLink), "BeginList", [L Refuse]); (* 2947 *)
  ((Assembler, TLink), "AssignNull", [OnM [([AllowNull], [PutM Builder.MNull; Return]); ([M Builder.MAbsent], [Refuse]); ([M Builder.MValue; M Builder.MNull], [Panicking])]; L Panicking]); (* 2950 *)
  ((Assembler, TLink), "AssignBool", [L Refuse]); (* 2962 *)
  ((Assembler, TLink), "AssignInt", [L Refuse]); (* 2965 *)
  ((Assembler, TLink), "AssignFloat", [L Refuse]); (* 2968 *)
  ((Assembler, TLink), "AssignString", [L Refuse]); (* 2971 *)
  ((Assembler, TLink), "AssignBytes", [L Refuse]); (* 2974 *)
  ((Assembler, TLink), "AssignLink", [OnM [([M Builder.MValue; M Builder.MNull], [Panicking])]; L SetX; L (PutM Builder.MValue); L Return]); (* 2977 *)
  ((Assembler, TLink), "AssignNode", [L (IsNode TLink); OnM [([M Builder.MValue; M Builder.MNull], [Panicking])]; L CopyNode; L (PutM Builder.MValue); L Return]); (* 2986 *)
  ((Assembler, TPersonInfo), "BeginMap", [OnM [([M Builder.MValue; M Builder.MNull], [Panicking]); ([M Builder.MMid], [Panicking])]; L (PutM Builder.MMid); L (NewIfNil TPersonInfo); L Return]); (* 3233 *)
  ((Assembler, TPersonInfo), "BeginList", [L Refuse]); (* 3246 *)
  ((Assembler, TPersonInfo), "AssignNull", [OnM [([AllowNull], [PutM Builder.MNull; Return]); ([M Builder.MAbsent], [Refuse]); ([M Builder.MValue; M Builder.MNull], [Panicking]); ([M Builder.MMid], [Panicking])]; L Panicking]); (* 3249 *)
  ((Assembler, TPersonInfo), "AssignBool", [L Refuse]); (* 3263 *)
  ((Assembler, TPersonInfo), "AssignInt", [L Refuse]); (* 3266 *)
  ((Assembler, TPersonInfo), "AssignFloat", [L Refuse]); (* 3269 *)
  ((Assembler, TPersonInfo), "AssignString", [L Refuse]); (* 3272 *)
  ((Assembler, TPersonInfo), "AssignBytes", [L Refuse]); (* 3275 *)
  ((Assembler, TPersonInfo), "AssignLink", [L Refuse]); (* 3278 *)
  ((Assembler, TPersonInfo), "AssignNode", [L (IsNode TPersonInfo); OnM [([M Builder.MValue; M Builder.MNull], [Panicking]); ([M Builder.MMid], [Panicking])]; L AdoptIfNil; L CopyNode; L (PutM Builder.MValue); L Return]); (* 3281 *)
  ((Assembler, TPersonInfo), "AssembleEntry", [OnState [(Builder.Initial, []); (Builder.MidKey, [Panicking]); (Builder.ExpectValue, [Panicking]); (Builder.MidValue, [Tidy]); (Builder.Finished, [Panicking])]; L KeyCases]); (* 3368 *)
  ((Assembler, TPersonInfo), "AssembleKey", [OnState [(Builder.Initial, []); (Builder.MidKey, [Panicking]); (Builder.ExpectValue, [Panicking]); (Builder.MidValue, [Tidy]); (Builder.Finished, [Panicking])]; L (PutState Builder.MidKey); L (ReturnKey (Key, TPersonInfo))]); (* 3427 *)
  ((Assembler, TPersonInfo), "AssembleValue", [OnState [(Builder.Initial, [Panicking]); (Builder.MidKey, [Panicking]); (Builder.ExpectValue, []); (Builder.MidValue, [Panicking]); (Builder.Finished, [Panicking])]; L (PutState Builder.MidValue); L FieldCases]); (* 3445 *)
  ((Assembler, TPersonInfo), "Finish", [OnState [(Builder.Initial, []); (Builder.MidKey, [Panicking]); (Builder.ExpectValue, [Panicking]); (Builder.MidValue, [Tidy]); (Builder.Finished, [Panicking])]; L (Sufficient TPersonInfo); L (PutState Builder.Finished); L (PutM Builder.MValue); L Return]); (* 3480 *)
  ((Key, TPersonInfo), "BeginMap", [L Refuse]); (* 3524 *)
  ((Key, TPersonInfo), "BeginList", [L Refuse]); (* 3527 *)
  ((Key, TPersonInfo), "AssignNull", [L Refuse]); (* 3530 *)
  ((Key, TPersonInfo), "AssignBool", [L Refuse]); (* 3533 *)
  ((Key, TPersonInfo), "AssignInt", [L Refuse]); (* 3536 *)
  ((Key, TPersonInfo), "AssignFloat", [L Refuse]); (* 3539 *)
  ((Key, TPersonInfo), "AssignString", [L KeyGuard; L KeyCases]); (* 3542 *)
  ((Key, TPersonInfo), "AssignBytes", [L Refuse]); (* 3583 *)
  ((Key, TPersonInfo), "AssignLink", [L Refuse]); (* 3586 *)
  ((ReprAssembler, TPersonInfo), "BeginMap", [OnM [([M Builder.MValue; M Builder.MNull], [Panicking]); ([M Builder.MMid], [Panicking])]; L (PutM Builder.MMid); L (NewIfNil TPersonInfo); L Return]); (* 3762 *)
  ((ReprAssembler, TPersonInfo), "BeginList", [L Refuse]); (* 3775 *)
  ((ReprAssembler, TPersonInfo), "AssignNull", [OnM [([AllowNull], [PutM Builder.MNull; Return]); ([M Builder.MAbsent], [Refuse]); ([M Builder.MValue; M Builder.MNull], [Panicking]); ([M Builder.MMid], [Panicking])]; L Panicking]); (* 3778 *)
  ((ReprAssembler, TPersonInfo), "AssignBool", [L Refuse]); (* 3792 *)
  ((ReprAssembler, TPersonInfo), "AssignInt", [L Refuse]); (* 3795 *)
  ((ReprAssembler, TPersonInfo), "AssignFloat", [L Refuse]); (* 3798 *)
  ((ReprAssembler, TPersonInfo), "AssignString", [L Refuse]); (* 3801 *)
  ((ReprAssembler, TPersonInfo), "AssignBytes", [L Refuse]); (* 3804 *)
  ((ReprAssembler, TPersonInfo), "AssignLink", [L Refuse]); (* 3807 *)
  ((ReprAssembler, TPersonInfo), "AssignNode", [L (IsNode TPersonInfo); OnM [([M Builder.MValue; M Builder.MNull], [Panicking]); ([M Builder.MMid], [Panicking])]; L AdoptIfNil; L CopyNode; L (PutM Builder.MValue); L Return]); (* 3810 *)
  ((ReprAssembler, TPersonInfo), "AssembleEntry", [OnState [(Builder.Initial, []); (Builder.MidKey, [Panicking]); (Builder.ExpectValue, [Panicking]); (Builder.MidValue, [Tidy]); (Builder.Finished, [Panicking])]; L KeyCases]); (* 3893 *)
  ((ReprAssembler, TPersonInfo), "AssembleKey", [OnState [(Builder.Initial, []); (Builder.MidKey, [Panicking]); (Builder.ExpectValue, [Panicking]); (Builder.MidValue, [Tidy]); (Builder.Finished, [Panicking])]; L (PutState Builder.MidKey); L (ReturnKey (ReprKey, TPersonInfo))]); (* 3953 *)
  ((ReprAssembler, TPersonInfo), "AssembleValue", [OnState [(Builder.Initial, [Panicking]); (Builder.MidKey, [Panicking]); (Builder.ExpectValue, []); (Builder.MidValue, [Panicking]); (Builder.Finished, [Panicking])]; L (PutState Builder.MidValue); L FieldCases]); (* 3971 *)
  ((ReprAssembler, TPersonInfo), "Finish", [OnState [(Builder.Initial, []); (Builder.MidKey, [Panicking]); (Builder.ExpectValue, [Panicking]); (Builder.MidValue, [Tidy]); (Builder.Finished, [Panicking])]; L (Sufficient TPersonInfo); L (PutState Builder.Finished); L (PutM Builder.MValue); L Return]); (* 4006 *)
  ((ReprKey, TPersonInfo), "BeginMap", [L Refuse]); (* 4050 *)
  ((ReprKey, TPersonInfo), "BeginList", [L Refuse]); (* 4053 *)
  ((ReprKey, TPersonInfo), "AssignNull", [L Refuse]); (* 4056 *)
  ((ReprKey, TPersonInfo), "AssignBool", [L Refuse]); (* 4059 *)
  ((ReprKey, TPersonInfo), "AssignInt", [L Refuse]); (* 4062 *)
  ((ReprKey, TPersonInfo), "AssignFloat", [L Refuse]); (* 4065 *)
  ((ReprKey, TPersonInfo), "AssignString", [L KeyGuard; L KeyCases]); (* 4068 *)
  ((ReprKey, TPersonInfo), "AssignBytes", [L Refuse]); (* 4108 *)
  ((ReprKey, TPersonInfo), "AssignLink", [L Refuse]); (* 4111 *)
  ((Assembler, TString), "BeginMap", [L Refuse]); (* 4256 *)
  ((Assembler, TString), "BeginList", [L Refuse]); (* 4259 *)
  ((Assembler, TString), "AssignNull", [OnM [([AllowNull], [PutM Builder.MNull; Return]); ([M Builder.MAbsent], [Refuse]); ([M Builder.MValue; M Builder.MNull], [Panicking])]; L Panicking]); (* 4262 *)
  ((Assembler, TString), "AssignBool", [L Refuse]); (* 4274 *)
  ((Assembler, TString), "AssignInt", [L Refuse]); (* 4277 *)
  ((Assembler, TString), "AssignFloat", [L Refuse]); (* 4280 *)
  ((Assembler, TString), "AssignString", [OnM [([M Builder.MValue; M Builder.MNull], [Panicking])]; L SetX; L (PutM Builder.MValue); L Return]); (* 4283 *)
  ((Assembler, TString), "AssignBytes", [L Refuse]); (* 4292 *)
  ((Assembler, TString), "AssignLink", [L Refuse]); (* 4295 *)
  ((Assembler, TString), "AssignNode", [L (IsNode TString); OnM [([M Builder.MValue; M Builder.MNull], [Panicking])]; L CopyNode; L (PutM Builder.MValue); L Return]); (* 4298 *)
  ((Assembler, TString_List), "BeginMap", [L Refuse]); (* 4534 *)
  ((Assembler, TString_List), "BeginList", [OnM [([M Builder.MValue; M Builder.MNull], [Panicking]); ([M Builder.MMid], [Panicking])]; L (PutM Builder.MMid); L FixHint; L (MakeIfHint TString); L Return]); (* 4537 *)
  ((Assembler, TString_List), "AssignNull", [OnM [([AllowNull], [PutM Builder.MNull; Return]); ([M Builder.MAbsent], [Refuse]); ([M Builder.MValue; M Builder.MNull], [Panicking]); ([M Builder.MMid], [Panicking])]; L Panicking]); (* 4553 *)
  ((Assembler, TString_List), "AssignBool", [L Refuse]); (* 4567 *)
  ((Assembler, TString_List), "AssignInt", [L Refuse]); (* 4570 *)
  ((Assembler, TString_List), "AssignFloat", [L Refuse]); (* 4573 *)
  ((Assembler, TString_List), "AssignString", [L Refuse]); (* 4576 *)
  ((Assembler, TString_List), "AssignBytes", [L Refuse]); (* 4579 *)
  ((Assembler, TString_List), "AssignLink", [L Refuse]); (* 4582 *)
  ((Assembler, TString_List), "AssignNode", [L (IsNode TString_List); OnM [([M Builder.MValue; M Builder.MNull], [Panicking]); ([M Builder.MMid], [Panicking])]; L CopyNode; L (PutM Builder.MValue); L Return]); (* 4585 *)
  ((Assembler, TString_List), "AssembleValue", [OnState [(Builder.Initial, []); (Builder.MidValue, [Tidy]); (Builder.Finished, [Panicking])]; L (AppendElem TString); L (PutState Builder.MidValue); L TakeRow; L (PointRow "va"); L (PartM "va"); L (ReturnPart "va")]); (* 4630 *)
  ((Assembler, TString_List), "Finish", [OnState [(Builder.Initial, []); (Builder.MidValue, [Tidy]); (Builder.Finished, [Panicking])]; L (PutState Builder.Finished); L (PutM Builder.MValue); L Return]); (* 4648 *)
  ((ReprAssembler, TString_List), "BeginMap", [L Refuse]); (* 4792 *)
  ((ReprAssembler, TString_List), "BeginList", [OnM [([M Builder.MValue; M Builder.MNull], [Panicking]); ([M Builder.MMid], [Panicking])]; L (PutM Builder.MMid); L FixHint; L (MakeIfHint TString); L Return]); (* 4795 *)
  ((ReprAssembler, TString_List), "AssignNull", [OnM [([AllowNull], [PutM Builder.MNull; Return]); ([M Builder.MAbsent], [Refuse]); ([M Builder.MValue; M Builder.MNull], [Panicking]); ([M Builder.MMid], [Panicking])]; L Panicking]); (* 4811 *)
  ((ReprAssembler, TString_List), "AssignBool", [L Refuse]); (* 4825 *)
  ((ReprAssembler, TString_List), "AssignInt", [L Refuse]); (* 4828 *)
  ((ReprAssembler, TString_List), "AssignFloat", [L Refuse]); (* 4831 *)
  ((ReprAssembler, TString_List), "AssignString", [L Refuse]); (* 4834 *)
  ((ReprAssembler, TString_List), "AssignBytes", [L Refuse]); (* 4837 *)
  ((ReprAssembler, TString_List), "AssignLink", [L Refuse]); (* 4840 *)
  ((ReprAssembler, TString_List), "AssignNode", [L (IsNode TString_List); OnM [([M Builder.MValue; M Builder.MNull], [Panicking]); ([M Builder.MMid], [Panicking])]; L CopyNode; L (PutM Builder.MValue); L Return]); (* 4843 *)
  ((ReprAssembler, TString_List), "AssembleValue", [OnState [(Builder.Initial, []); (Builder.MidValue, [Tidy]); (Builder.Finished, [Panicking])]; L (AppendElem TString); L (PutState Builder.MidValue); L TakeRow; L (PointRow "va"); L (PartM "va"); L (ReturnPart "va")]); (* 4888 *)
  ((ReprAssembler, TString_List), "Finish", [OnState [(Builder.Initial, []); (Builder.MidValue, [Tidy]); (Builder.Finished, [Panicking])]; L (PutState Builder.Finished); L (PutM Builder.MValue); L Return]); (* 4906 *)
  ((Assembler, TTag), "BeginMap", [OnM [([M Builder.MValue; M Builder.MNull], [Panicking]); ([M Builder.MMid], [Panicking])]; L (PutM Builder.MMid); L (NewIfNil TTag); L Return]); (* 5148 *)
  ((Assembler, TTag), "BeginList", [L Refuse]); (* 5161 *)
  ((Assembler, TTag), "AssignNull", [OnM [([AllowNull], [PutM Builder.MNull; Return]); ([M Builder.MAbsent], [Refuse]); ([M Builder.MValue; M Builder.MNull], [Panicking]); ([M Builder.MMid], [Panicking])]; L Panicking]); (* 5164 *)
  ((Assembler, TTag), "AssignBool", [L Refuse]); (* 5178 *)
  ((Assembler, TTag), "AssignInt", [L Refuse]); (* 5181 *)
  ((Assembler, TTag), "AssignFloat", [L Refuse]); (* 5184 *)
  ((Assembler, TTag), "AssignString", [L Refuse]); (* 5187 *)
  ((Assembler, TTag), "AssignBytes", [L Refuse]); (* 5190 *)
  ((Assembler, TTag), "AssignLink", [L Refuse]); (* 5193 *)
  ((Assembler, TTag), "AssignNode", [L (IsNode TTag); OnM [([M Builder.MValue; M Builder.MNull], [Panicking]); ([M Builder.MMid], [Panicking])]; L AdoptIfNil; L CopyNode; L (PutM Builder.MValue); L Return]); (* 5196 *)
  ((Assembler, TTag), "AssembleEntry", [OnState [(Builder.Initial, []); (Builder.MidKey, [Panicking]); (Builder.ExpectValue, [Panicking]); (Builder.MidValue, [Tidy]); (Builder.Finished, [Panicking])]; L KeyCases]); (* 5293 *)
  ((Assembler, TTag), "AssembleKey", [OnState [(Builder.Initial, []); (Builder.MidKey, [Panicking]); (Builder.ExpectValue, [Panicking]); (Builder.MidValue, [Tidy]); (Builder.Finished, [Panicking])]; L (PutState Builder.MidKey); L (ReturnKey (Key, TTag))]); (* 5362 *)
  ((Assembler, TTag), "AssembleValue", [OnState [(Builder.Initial, [Panicking]); (Builder.MidKey, [Panicking]); (Builder.ExpectValue, []); (Builder.MidValue, [Panicking]); (Builder.Finished, [Panicking])]; L (PutState Builder.MidValue); L FieldCases]); (* 5380 *)
  ((Assembler, TTag), "Finish", [OnState [(Builder.Initial, []); (Builder.MidKey, [Panicking]); (Builder.ExpectValue, [Panicking]); (Builder.MidValue, [Tidy]); (Builder.Finished, [Panicking])]; L (Sufficient TTag); L (PutState Builder.Finished); L (PutM Builder.MValue); L Return]); (* 5419 *)
  ((Key, TTag), "BeginMap", [L Refuse]); (* 5466 *)
  ((Key, TTag), "BeginList", [L Refuse]); (* 5469 *)
  ((Key, TTag), "AssignNull", [L Refuse]); (* 5472 *)
  ((Key, TTag), "AssignBool", [L Refuse]); (* 5475 *)
  ((Key, TTag), "AssignInt", [L Refuse]); (* 5478 *)
  ((Key, TTag), "AssignFloat", [L Refuse]); (* 5481 *)
  ((Key, TTag), "AssignString", [L KeyGuard; L KeyCases]); (* 5484 *)
  ((Key, TTag), "AssignBytes", [L Refuse]); (* 5533 *)
  ((Key, TTag), "AssignLink", [L Refuse]); (* 5536 *)
  ((ReprAssembler, TTag), "BeginMap", [OnM [([M Builder.MValue; M Builder.MNull], [Panicking]); ([M Builder.MMid], [Panicking])]; L (PutM Builder.MMid); L (NewIfNil TTag); L Return]); (* 5720 *)
  ((ReprAssembler, TTag), "BeginList", [L Refuse]); (* 5733 *)
  ((ReprAssembler, TTag), "AssignNull", [OnM [([AllowNull], [PutM Builder.MNull; Return]); ([M Builder.MAbsent], [Refuse]); ([M Builder.MValue; M Builder.MNull], [Panicking]); ([M Builder.MMid], [Panicking])]; L Panicking]); (* 5736 *)
  ((ReprAssembler, TTag), "AssignBool", [L Refuse]); (* 5750 *)
  ((ReprAssembler, TTag), "AssignInt", [L Refuse]); (* 5753 *)
  ((ReprAssembler, TTag), "AssignFloat", [L Refuse]); (* 5756 *)
  ((ReprAssembler, TTag), "AssignString", [L Refuse]); (* 5759 *)
  ((ReprAssembler, TTag), "AssignBytes", [L Refuse]); (* 5762 *)
  ((ReprAssembler, TTag), "AssignLink", [L Refuse]); (* 5765 *)
  ((ReprAssembler, TTag), "AssignNode", [L (IsNode TTag); OnM [([M Builder.MValue; M Builder.MNull], [Panicking]); ([M Builder.MMid], [Panicking])]; L AdoptIfNil; L CopyNode; L (PutM Builder.MValue); L Return]); (* 5768 *)
  ((ReprAssembler, TTag), "AssembleEntry", [OnState [(Builder.Initial, []); (Builder.MidKey, [Panicking]); (Builder.ExpectValue, [Panicking]); (Builder.MidValue, [Tidy]); (Builder.Finished, [Panicking])]; L KeyCases]); (* 5860 *)
  ((ReprAssembler, TTag), "AssembleKey", [OnState [(Builder.Initial, []); (Builder.MidKey, [Panicking]); (Builder.ExpectValue, [Panicking]); (Builder.MidValue, [Tidy]); (Builder.Finished, [Panicking])]; L (PutState Builder.MidKey); L (ReturnKey (ReprKey, TTag))]); (* 5930 *)
  ((ReprAssembler, TTag), "AssembleValue", [OnState [(Builder.Initial, [Panicking]); (Builder.MidKey, [Panicking]); (Builder.ExpectValue, []); (Builder.MidValue, [Panicking]); (Builder.Finished, [Panicking])]; L (PutState Builder.MidValue); L FieldCases]); (* 5948 *)
  ((ReprAssembler, TTag), "Finish", [OnState [(Builder.Initial, []); (Builder.MidKey, [Panicking]); (Builder.ExpectValue, [Panicking]); (Builder.MidValue, [Tidy]); (Builder.Finished, [Panicking])]; L (Sufficient TTag); L (PutState Builder.Finished); L (PutM Builder.MValue); L Return]); (* 5987 *)
  ((ReprKey, TTag), "BeginMap", [L Refuse]); (* 6034 *)
  ((ReprKey, TTag), "BeginList", [L Refuse]); (* 6037 *)
  ((ReprKey, TTag), "AssignNull", [L Refuse]); (* 6040 *)
  ((ReprKey, TTag), "AssignBool", [L Refuse]); (* 6043 *)
  ((ReprKey, TTag), "AssignInt", [L Refuse]); (* 6046 *)
  ((ReprKey, TTag), "AssignFloat", [L Refuse]); (* 6049 *)
  ((ReprKey, TTag), "AssignString", [L KeyGuard; L KeyCases]); (* 6052 *)
  ((ReprKey, TTag), "AssignBytes", [L Refuse]); (* 6100 *)
  ((ReprKey, TTag), "AssignLink", [L Refuse]); (* 6103 *)
  ((Assembler, TTag_List), "BeginMap", [L Refuse]); (* 6317 *)
  ((Assembler, TTag_List), "BeginList", [OnM [([M Builder.MValue; M Builder.MNull], [Panicking]); ([M Builder.MMid], [Panicking])]; L (PutM Builder.MMid); L FixHint; L (MakeIfHint TTag); L Return]); (* 6320 *)
  ((Assembler, TTag_List), "AssignNull", [OnM [([AllowNull], [PutM Builder.MNull; Return]); ([M Builder.MAbsent], [Refuse]); ([M Builder.MValue; M Builder.MNull], [Panicking]); ([M Builder.MMid], [Panicking])]; L Panicking]); (* 6336 *)
  ((Assembler, TTag_List), "AssignBool", [L Refuse]); (* 6350 *)
  ((Assembler, TTag_List), "AssignInt", [L Refuse]); (* 6353 *)
  ((Assembler, TTag_List), "AssignFloat", [L Refuse]); (* 6356 *)
  ((Assembler, TTag_List), "AssignString", [L Refuse]); (* 6359 *)
  ((Assembler, TTag_List), "AssignBytes", [L Refuse]); (* 6362 *)
  ((Assembler, TTag_List), "AssignLink", [L Refuse]); (* 6365 *)
  ((Assembler, TTag_List), "AssignNode", [L (IsNode TTag_List); OnM [([M Builder.MValue; M Builder.MNull], [Panicking]); ([M Builder.MMid], [Panicking])]; L CopyNode; L (PutM Builder.MValue); L Return]); (* 6368 *)
  ((Assembler, TTag_List), "AssembleValue", [OnState [(Builder.Initial, []); (Builder.MidValue, [Tidy]); (Builder.Finished, [Panicking])]; L (AppendElem TTag); L (PutState Builder.MidValue); L TakeRow; L (PointRow "va"); L (PartM "va"); L (ReturnPart "va")]); (* 6413 *)
  ((Assembler, TTag_List), "Finish", [OnState [(Builder.Initial, []); (Builder.MidValue, [Tidy]); (Builder.Finished, [Panicking])]; L (PutState Builder.Finished); L (PutM Builder.MValue); L Return]); (* 6431 *)
  ((ReprAssembler, TTag_List), "BeginMap", [L Refuse]); (* 6575 *)
  ((ReprAssembler, TTag_List), "BeginList", [OnM [([M Builder.MValue; M Builder.MNull], [Panicking]); ([M Builder.MMid], [Panicking])]; L (PutM Builder.MMid); L FixHint; L (MakeIfHint TTag); L Return]); (* 6578 *)
  ((ReprAssembler, TTag_List), "AssignNull", [OnM [([AllowNull], [PutM Builder.MNull; Return]); ([M Builder.MAbsent], [Refuse]); ([M Builder.MValue; M Builder.MNull], [Panicking]); ([M Builder.MMid], [Panicking])]; L Panicking]); (* 6594 *)
  ((ReprAssembler, TTag_List), "AssignBool", [L Refuse]); (* 6608 *)
  ((ReprAssembler, TTag_List), "AssignInt", [L Refuse]); (* 6611 *)
  ((ReprAssembler, TTag_List), "AssignFloat", [L Refuse]); (* 6614 *)
  ((ReprAssembler, TTag_List), "AssignString", [L Refuse]); (* 6617 *)
  ((ReprAssembler, TTag_List), "AssignBytes", [L Refuse]); (* 6620 *)
  ((ReprAssembler, TTag_List), "AssignLink", [L Refuse]); (* 6623 *)
  ((ReprAssembler, TTag_List), "AssignNode", [L (IsNode TTag_List); OnM [([M Builder.MValue; M Builder.MNull], [Panicking]); ([M Builder.MMid], [Panicking])]; L CopyNode; L (PutM Builder.MValue); L Return]); (* 6626 *)
  ((ReprAssembler, TTag_List), "AssembleValue", [OnState [(Builder.Initial, []); (Builder.MidValue, [Tidy]); (Builder.Finished, [Panicking])]; L (AppendElem TTag); L (PutState Builder.MidValue); L TakeRow; L (PointRow "va"); L (PartM "va"); L (ReturnPart "va")]); (* 6671 *)
  ((ReprAssembler, TTag_List), "Finish", [OnState [(Builder.Initial, []); (Builder.MidValue, [Tidy]); (Builder.Finished, [Panicking])]; L (PutState Builder.Finished); L (PutM Builder.MValue); L Return]); (* 6689 *)
  ((Assembler, TTree), "BeginMap", [OnM [([M Builder.MValue; M Builder.MNull], [Panicking]); ([M Builder.MMid], [Panicking])]; L (PutM Builder.MMid); L FixHint; L MakeMap; L MakeSlice; L Return]); (* 6916 *)
  ((Assembler, TTree), "BeginList", [L Refuse]); (* 6931 *)
  ((Assembler, TTree), "AssignNull", [OnM [([AllowNull], [PutM Builder.MNull; Return]); ([M Builder.MAbsent], [Refuse]); ([M Builder.MValue; M Builder.MNull], [Panicking]); ([M Builder.MMid], [Panicking])]; L Panicking]); (* 6934 *)
  ((Assembler, TTree), "AssignBool", [L Refuse]); (* 6948 *)
  ((Assembler, TTree), "AssignInt", [L Refuse]); (* 6951 *)
  ((Assembler, TTree), "AssignFloat", [L Refuse]); (* 6954 *)
  ((Assembler, TTree), "AssignString", [L Refuse]); (* 6957 *)
  ((Assembler, TTree), "AssignBytes", [L Refuse]); (* 6960 *)
  ((Assembler, TTree), "AssignLink", [L Refuse]); (* 6963 *)
  ((Assembler, TTree), "AssignNode", [L (IsNode TTree); OnM [([M Builder.MValue; M Builder.MNull], [Panicking]); ([M Builder.MMid], [Panicking])]; L CopyNode; L (PutM Builder.MValue); L Return]); (* 6966 *)
  ((Assembler, TTree), "AssembleEntry", [OnState [(Builder.Initial, []); (Builder.MidKey, [Panicking]); (Builder.ExpectValue, [Panicking]); (Builder.MidValue, [Tidy]); (Builder.Finished, [Panicking])]; L KeyString; L RepeatedTest; L AppendKey; L TakeLast; L (PutState Builder.MidValue); L MapKey; L (PointEntry "va"); L (PartM "va"); L (ReturnPart "va")]); (* 7030 *)
  ((Assembler, TTree), "AssembleKey", [OnState [(Builder.Initial, []); (Builder.MidKey, [Panicking]); (Builder.ExpectValue, [Panicking]); (Builder.MidValue, [Tidy]); (Builder.Finished, [Panicking])]; L AppendNone; L (PutState Builder.MidKey); L (PartM "ka"); L (PointKey "ka"); L (ReturnPart "ka")]); (* 7062 *)
  ((Assembler, TTree), "AssembleValue", [OnState [(Builder.Initial, [Panicking]); (Builder.MidKey, [KeyTidy]); (Builder.ExpectValue, []); (Builder.MidValue, [Panicking]); (Builder.Finished, [Panicking])]; L (PutState Builder.MidValue); L (ReturnPart "va")]); (* 7083 *)
  ((Assembler, TTree), "Finish", [OnState [(Builder.Initial, []); (Builder.MidKey, [Panicking]); (Builder.ExpectValue, [Panicking]); (Builder.MidValue, [Tidy]); (Builder.Finished, [Panicking])]; L (PutState Builder.Finished); L (PutM Builder.MValue); L Return]); (* 7101 *)
  ((ReprAssembler, TTree), "BeginMap", [OnM [([M Builder.MValue; M Builder.MNull], [Panicking]); ([M Builder.MMid], [Panicking])]; L (PutM Builder.MMid); L FixHint; L MakeMap; L MakeSlice; L Return]); (* 7250 *)
  ((ReprAssembler, TTree), "BeginList", [L Refuse]); (* 7265 *)
  ((ReprAssembler, TTree), "AssignNull", [OnM [([AllowNull], [PutM Builder.MNull; Return]); ([M Builder.MAbsent], [Refuse]); ([M Builder.MValue; M Builder.MNull], [Panicking]); ([M Builder.MMid], [Panicking])]; L Panicking]); (* 7268 *)
  ((ReprAssembler, TTree), "AssignBool", [L Refuse]); (* 7282 *)
  ((ReprAssembler, TTree), "AssignInt", [L Refuse]); (* 7285 *)
  ((ReprAssembler, TTree), "AssignFloat", [L Refuse]); (* 7288 *)
  ((ReprAssembler, TTree), "AssignString", [L Refuse]); (* 7291 *)
  ((ReprAssembler, TTree), "AssignBytes", [L Refuse]); (* 7294 *)
  ((ReprAssembler, TTree), "AssignLink", [L Refuse]); (* 7297 *)
  ((ReprAssembler, TTree), "AssignNode", [L (IsNode TTree); OnM [([M Builder.MValue; M Builder.MNull], [Panicking]); ([M Builder.MMid], [Panicking])]; L CopyNode; L (PutM Builder.MValue); L Return]); (* 7300 *)
  ((ReprAssembler, TTree), "AssembleEntry", [OnState [(Builder.Initial, []); (Builder.MidKey, [Panicking]); (Builder.ExpectValue, [Panicking]); (Builder.MidValue, [Tidy]); (Builder.Finished, [Panicking])]; L KeyString; L RepeatedTest; L AppendKey; L TakeLast; L (PutState Builder.MidValue); L MapKey; L (PointEntry "va"); L (PartM "va"); L (ReturnPart "va")]); (* 7364 *)
  ((ReprAssembler, TTree), "AssembleKey", [OnState [(Builder.Initial, []); (Builder.MidKey, [Panicking]); (Builder.ExpectValue, [Panicking]); (Builder.MidValue, [Tidy]); (Builder.Finished, [Panicking])]; L AppendNone; L (PutState Builder.MidKey); L (PartM "ka"); L (PointKey "ka"); L (ReturnPart "ka")]); (* 7396 *)
  ((ReprAssembler, TTree), "AssembleValue", [OnState [(Builder.Initial, [Panicking]); (Builder.MidKey, [KeyTidy]); (Builder.ExpectValue, []); (Builder.MidValue, [Panicking]); (Builder.Finished, [Panicking])]; L (PutState Builder.MidValue); L (ReturnPart "va")]); (* 7417 *)
  ((ReprAssembler, TTree), "Finish", [OnState [(Builder.Initial, []); (Builder.MidKey, [Panicking]); (Builder.ExpectValue, [Panicking]); (Builder.MidValue, [Tidy]); (Builder.Finished, [Panicking])]; L (PutState Builder.Finished); L (PutM Builder.MValue); L Return]); (* 7435 *)
  ((Assembler, TTreeEntry), "BeginMap", [OnM [([M Builder.MValue; M Builder.MNull], [Panicking]); ([M Builder.MMid], [Panicking])]; L (PutM Builder.MMid); L (NewIfNil TTreeEntry); L Return]); (* 7648 *)
  ((Assembler, TTreeEntry), "BeginList", [L Refuse]); (* 7661 *)
  ((Assembler, TTreeEntry), "AssignNull", [OnM [([AllowNull], [PutM Builder.MNull; Return]); ([M Builder.MAbsent], [Refuse]); ([M Builder.MValue; M Builder.MNull], [Panicking]); ([M Builder.MMid], [Panicking])]; L Panicking]); (* 7664 *)
  ((Assembler, TTreeEntry), "AssignBool", [L Refuse]); (* 7678 *)
  ((Assembler, TTreeEntry), "AssignInt", [L Refuse]); (* 7681 *)
  ((Assembler, TTreeEntry), "AssignFloat", [L Refuse]); (* 7684 *)
  ((Assembler, TTreeEntry), "AssignString", [L Refuse]); (* 7687 *)
  ((Assembler, TTreeEntry), "AssignBytes", [L Refuse]); (* 7690 *)
  ((Assembler, TTreeEntry), "AssignLink", [L Refuse]); (* 7693 *)
  ((Assembler, TTreeEntry), "AssignNode", [L (IsNode TTreeEntry); OnM [([M Builder.MValue; M Builder.MNull], [Panicking]); ([M Builder.MMid], [Panicking])]; L AdoptIfNil; L CopyNode; L (PutM Builder.MValue); L Return]); (* 7696 *)
  ((Assembler, TTreeEntry), "AssembleEntry", [OnState [(Builder.Initial, []); (Builder.MidKey, [Panicking]); (Builder.ExpectValue, [Panicking]); (Builder.MidValue, [Tidy]); (Builder.Finished, [Panicking])]; L KeyCases]); (* 7763 *)
  ((Assembler, TTreeEntry), "AssembleKey", [OnState [(Builder.Initial, []); (Builder.MidKey, [Panicking]); (Builder.ExpectValue, [Panicking]); (Builder.MidValue, [Tidy]); (Builder.Finished, [Panicking])]; L (PutState Builder.MidKey); L (ReturnKey (Key, TTreeEntry))]); (* 7802 *)
  ((Assembler, TTreeEntry), "AssembleValue", [OnState [(Builder.Initial, [Panicking]); (Builder.MidKey, [Panicking]); (Builder.ExpectValue, []); (Builder.MidValue, [Panicking]); (Builder.Finished, [Panicking])]; L (PutState Builder.MidValue); L FieldCases]); (* 7820 *)
  ((Assembler, TTreeEntry), "Finish", [OnState [(Builder.Initial, []); (Builder.MidKey, [Panicking]); (Builder.ExpectValue, [Panicking]); (Builder.MidValue, [Tidy]); (Builder.Finished, [Panicking])]; L (Sufficient TTreeEntry); L (PutState Builder.Finished); L (PutM Builder.MValue); L Return]); (* 7847 *)
  ((Key, TTreeEntry), "BeginMap", [L Refuse]); (* 7885 *)
  ((Key, TTreeEntry), "BeginList", [L Refuse]); (* 7888 *)
  ((Key, TTreeEntry), "AssignNull", [L Refuse]); (* 7891 *)
  ((Key, TTreeEntry), "AssignBool", [L Refuse]); (* 7894 *)
  ((Key, TTreeEntry), "AssignInt", [L Refuse]); (* 7897 *)
  ((Key, TTreeEntry), "AssignFloat", [L Refuse]); (* 7900 *)
  ((Key, TTreeEntry), "AssignString", [L KeyGuard; L KeyCases]); (* 7903 *)
  ((Key, TTreeEntry), "AssignBytes", [L Refuse]); (* 7928 *)
  ((Key, TTreeEntry), "AssignLink", [L Refuse]); (* 7931 *)
  ((ReprAssembler, TTreeEntry), "BeginMap", [OnM [([M Builder.MValue; M Builder.MNull], [Panicking]); ([M Builder.MMid], [Panicking])]; L (PutM Builder.MMid); L (NewIfNil TTreeEntry); L Return]); (* 8091 *)
  ((ReprAssembler, TTreeEntry), "BeginList", [L Refuse]); (* 8104 *)
  ((ReprAssembler, TTreeEntry), "AssignNull", [OnM [([AllowNull], [PutM Builder.MNull; Return]); ([M Builder.MAbsent], [Refuse]); ([M Builder.MValue; M Builder.MNull], [Panicking]); ([M Builder.MMid], [Panicking])]; L Panicking]); (* 8107 *)
  ((ReprAssembler, TTreeEntry), "AssignBool", [L Refuse]); (* 8121 *)
  ((ReprAssembler, TTreeEntry), "AssignInt", [L Refuse]); (* 8124 *)
  ((ReprAssembler, TTreeEntry), "AssignFloat", [L Refuse]); (* 8127 *)
  ((ReprAssembler, TTreeEntry), "AssignString", [L Refuse]); (* 8130 *)
  ((ReprAssembler, TTreeEntry), "AssignBytes", [L Refuse]); (* 8133 *)
  ((ReprAssembler, TTreeEntry), "AssignLink", [L Refuse]); (* 8136 *)
  ((ReprAssembler, TTreeEntry), "AssignNode", [L (IsNode TTreeEntry); OnM [([M Builder.MValue; M Builder.MNull], [Panicking]); ([M Builder.MMid], [Panicking])]; L AdoptIfNil; L CopyNode; L (PutM Builder.MValue); L Return]); (* 8139 *)
  ((ReprAssembler, TTreeEntry), "AssembleEntry", [OnState [(Builder.Initial, []); (Builder.MidKey, [Panicking]); (Builder.ExpectValue, [Panicking]); (Builder.MidValue, [Tidy]); (Builder.Finished, [Panicking])]; L KeyCases]); (* 8204 *)
  ((ReprAssembler, TTreeEntry), "AssembleKey", [OnState [(Builder.Initial, []); (Builder.MidKey, [Panicking]); (Builder.ExpectValue, [Panicking]); (Builder.MidValue, [Tidy]); (Builder.Finished, [Panicking])]; L (PutState Builder.MidKey); L (ReturnKey (ReprKey, TTreeEntry))]); (* 8244 *)
  ((ReprAssembler, TTreeEntry), "AssembleValue", [OnState [(Builder.Initial, [Panicking]); (Builder.MidKey, [Panicking]); (Builder.ExpectValue, []); (Builder.MidValue, [Panicking]); (Builder.Finished, [Panicking])]; L (PutState Builder.MidValue); L FieldCases]); (* 8262 *)
  ((ReprAssembler, TTreeEntry), "Finish", [OnState [(Builder.Initial, []); (Builder.MidKey, [Panicking]); (Builder.ExpectValue, [Panicking]); (Builder.MidValue, [Tidy]); (Builder.Finished, [Panicking])]; L (Sufficient TTreeEntry); L (PutState Builder.Finished); L (PutM Builder.MValue); L Return]); (* 8289 *)
  ((ReprKey, TTreeEntry), "BeginMap", [L Refuse]); (* 8327 *)
  ((ReprKey, TTreeEntry), "BeginList", [L Refuse]); (* 8330 *)
  ((ReprKey, TTreeEntry), "AssignNull", [L Refuse]); (* 8333 *)
  ((ReprKey, TTreeEntry), "AssignBool", [L Refuse]); (* 8336 *)
  ((ReprKey, TTreeEntry), "AssignInt", [L Refuse]); (* 8339 *)
  ((ReprKey, TTreeEntry), "AssignFloat", [L Refuse]); (* 8342 *)
  ((ReprKey, TTreeEntry), "AssignString", [L KeyGuard; L KeyCases]); (* 8345 *)
  ((ReprKey, TTreeEntry), "AssignBytes", [L Refuse]); (* 8369 *)
  ((ReprKey, TTreeEntry), "AssignLink", [L Refuse]); (* 8372 *)
  ((Assembler, TTree_Link), "BeginMap", [L Refuse]); (* 8513 *)
  ((Assembler, TTree_Link), "BeginList", [L Refuse]); (* 8516 *)
  ((Assembler, TTree_Link), "AssignNull", [OnM [([AllowNull], [PutM Builder.MNull; Return]); ([M Builder.MAbsent], [Refuse]); ([M Builder.MValue; M Builder.MNull], [Panicking])]; L Panicking]); (* 8519 *)
  ((Assembler, TTree_Link), "AssignBool", [L Refuse]); (* 8531 *)
  ((Assembler, TTree_Link), "AssignInt", [L Refuse]); (* 8534 *)
  ((Assembler, TTree_Link), "AssignFloat", [L Refuse]); (* 8537 *)
  ((Assembler, TTree_Link), "AssignString", [L Refuse]); (* 8540 *)
  ((Assembler, TTree_Link), "AssignBytes", [L Refuse]); (* 8543 *)
  ((Assembler, TTree_Link), "AssignLink", [OnM [([M Builder.MValue; M Builder.MNull], [Panicking])]; L SetX; L (PutM Builder.MValue); L Return]); (* 8546 *)
  ((Assembler, TTree_Link), "AssignNode", [L (IsNode TTree_Link); OnM [([M Builder.MValue; M Builder.MNull], [Panicking])]; L CopyNode; L (PutM Builder.MValue); L Return]) (* 8555 *)
].
(** valueFinishTidy and keyFinishTidy of lists and trees: the statements of [case schema.Maybe_Value]; [default] answers false.
    Those of structs are in Wiring.v. *)
Definition tidy_rows : list (gotype * line * list line) := [
  ((Assembler, TCommit_Link_List), Tidy, [PartNil "va"; ClearCm; PutState Builder.Initial; PartReset "va"]); (* 2301 *)
  ((ReprAssembler, TCommit_Link_List), Tidy, [PartNil "va"; ClearCm; PutState Builder.Initial; PartReset "va"]); (* 2559 *)
  ((Assembler, TString_List), Tidy, [PartNil "va"; ClearCm; PutState Builder.Initial; PartReset "va"]); (* 4618 *)
  ((ReprAssembler, TString_List), Tidy, [PartNil "va"; ClearCm; PutState Builder.Initial; PartReset "va"]); (* 4876 *)
  ((Assembler, TTag_List), Tidy, [PartNil "va"; ClearCm; PutState Builder.Initial; PartReset "va"]); (* 6401 *)
  ((ReprAssembler, TTag_List), Tidy, [PartNil "va"; ClearCm; PutState Builder.Initial; PartReset "va"]); (* 6659 *)
  ((Assembler, TTree), KeyTidy, [PartNil "ka"; TakeLast; ClearCm; PutState Builder.ExpectValue; MapLast; PointEntry "va"; PartM "va"; PartReset "ka"]); (* 7002 *)
  ((Assembler, TTree), Tidy, [PartNil "va"; ClearCm; PutState Builder.Initial; PartReset "va"]); (* 7018 *)
  ((ReprAssembler, TTree), KeyTidy, [PartNil "ka"; TakeLast; ClearCm; PutState Builder.ExpectValue; MapLast; PointEntry "va"; PartM "va"; PartReset "ka"]); (* 7336 *)
  ((ReprAssembler, TTree), Tidy, [PartNil "va"; ClearCm; PutState Builder.Initial; PartReset "va"]) (* 7352 *)
].
(** reset of the other assemblers; those of structs are in Wiring.v *)
Definition reset_rows : list (gotype * list line) := [
  ((Assembler, TBlob), []); (* 137 *)
  ((Assembler, TCommit_Link), []); (* 1935 *)
  ((Assembler, TCommit_Link_List), [PutState Builder.Initial; PartReset "va"]); (* 2213 *)
  ((ReprAssembler, TCommit_Link_List), [PutState Builder.Initial; PartReset "va"]); (* 2471 *)
  ((Assembler, TGpgSig), []); (* 2738 *)
  ((Assembler, TLink), []); (* 2943 *)
  ((Assembler, TString), []); (* 4255 *)
  ((Assembler, TString_List), [PutState Builder.Initial; PartReset "va"]); (* 4530 *)
  ((ReprAssembler, TString_List), [PutState Builder.Initial; PartReset "va"]); (* 4788 *)
  ((Assembler, TTag_List), [PutState Builder.Initial; PartReset "va"]); (* 6313 *)
  ((ReprAssembler, TTag_List), [PutState Builder.Initial; PartReset "va"]); (* 6571 *)
  ((Assembler, TTree), [PutState Builder.Initial; PartReset "ka"; PartReset "va"]); (* 6911 *)
  ((ReprAssembler, TTree), [PutState Builder.Initial; PartReset "ka"; PartReset "va"]); (* 7245 *)
  ((Assembler, TTree_Link), []) (* 8512 *)
].
(** ** Running them *)

(** A statement goes on to the next, ends the method, or hands over to the cases for the fields.  [Lost]: Builder.v has no state
    for what happens, as when the part for keys is pointed at a value, or Go would not compile it. *)
Inductive flow :=
| Goes (w : Builder.asm * option Builder.val * option Builder.maybe) (hint : Z)
| Stops (v : Builder.verdict) (w : Builder.asm * option Builder.val * option Builder.maybe)
| Hands (w : Builder.asm * option Builder.val * option Builder.maybe)
| Lost.

Definition maybe_eqb (a b : Builder.maybe) : bool :=
  match a, b with
  | Builder.MAbsent, Builder.MAbsent | Builder.MNull, Builder.MNull | Builder.MValue, Builder.MValue | Builder.MMid, Builder.MMid => true
  | _, _ => false
  end.
Definition mstate_eqb (a b : Builder.mstate) : bool :=
  match a, b with
  | Builder.Initial, Builder.Initial | Builder.MidKey, Builder.MidKey | Builder.ExpectValue, Builder.ExpectValue
  | Builder.MidValue, Builder.MidValue | Builder.Finished, Builder.Finished => true
  | _, _ => false
  end.
Definition tyname_eqb (a b : tyname) : bool := if tyname_eq_dec a b then true else false.
(** The type of what a part assembles, and whether its reset does nothing *)
Definition part_type (a : gotype) (p : string) : option tyname := option_map snd (part a p).
Definition reset_body (a : gotype) : option (list line) := option_map snd (find (fun r => gotype_eqb (fst r) a) reset_rows).
Definition resets_nothing (a : gotype) : bool := match reset_body (resolve a) with Some [] => true | _ => false end.

(** [tyof]: the types of Builder.v.  [m]: the method with its arguments. *)
Definition exec_line (tyof : tyname -> Builder.ty) (tidy : line -> Builder.asm -> option Builder.val -> option Builder.maybe -> Z -> flow)
  (a : gotype) (m : Builder.meth) (l : line) (x : Builder.asm) (wv : option Builder.val) (mv : option Builder.maybe) (h : Z) : flow :=
  let v := Builder.target (Builder.a_own x) wv in
  let panics := Stops Builder.PANIC (x, wv, mv) in
  let deref (k : Builder.val -> flow) := match v with None => panics | Some u => k u end in
  let put (u : Builder.val) := let '(x1, wv1) := Builder.store u x wv in Goes (x1, wv1, mv) h in
  let on_m (k : flow) := match Builder.maybe_of (Builder.a_own x) mv with None => panics | Some _ => k end in
  let on_part (p : string) (k : nat -> flow) := match part_no a p with Some i => k i | None => Lost end in
  let child (i : nat) (g : Builder.asm -> Builder.asm) := Goes (Builder.on_child i g x, wv, mv) h in
  let own (g : Builder.own -> Builder.own) := Goes (Builder.on_own g x, wv, mv) h in
  match l with
  | Panicking => panics
  | Return => Stops Builder.OK (x, wv, mv)
  | Refuse => Stops Builder.ERR (x, wv, mv)
  | ReturnPart p => on_part p (fun _ => Stops Builder.OK (x, wv, mv))
  | ReturnKey k => if gotype_eqb k (FieldBits.key_view a true) then Stops Builder.OK (x, wv, mv) else Lost
  | PutM c => on_m (Goes (x, wv, Some c) h)
  | PutState s => own (Builder.set_st s)
  | ClearCm => own (Builder.set_cm Builder.MAbsent)
  | Tidy | KeyTidy => tidy l x wv mv h
  | PartNil p => on_part p (fun i => child i (Builder.on_own (Builder.set_w Builder.WNil)))
  | PartM p => on_part p (fun i => child i (Builder.on_own Builder.set_m))
  | PartReset p => on_part p (fun i =>
      match part a p with Some c => if resets_nothing c then Goes (x, wv, mv) h else child i Builder.reset | None => Lost end)
  | IsNode t => if tyname_eqb t (snd a) then Goes (x, wv, mv) h else Lost
  | CopyNode => deref (fun _ => match m with Builder.AssignTyped u => put u | _ => Lost end)
  | AdoptIfNil =>
      match v, m with
      | Some _, _ => Goes (x, wv, mv) h
      | None, Builder.AssignTyped u => on_m (Stops Builder.OK (Builder.on_own (Builder.set_w (Builder.WOwn u)) x, wv, Some Builder.MValue))
      | None, _ => Lost
      end
  | NewIfNil t =>
      if tyname_eqb t (snd a) then
        match v with
        | Some _ => Goes (x, wv, mv) h
        | None => own (Builder.set_w (Builder.WOwn (Builder.zero (tyof t))))
        end
      else Lost
  | SetX => deref (fun _ => match m with Builder.Assign s => put (Builder.VScalar s) | _ => Lost end)
  | FixHint => Goes (x, wv, mv) (if (h <? 0)%Z then 0%Z else h)
  | MakeIfHint t =>
      match part_type a "va" with
      | Some u => if tyname_eqb t u then (if (0 <? h)%Z then deref (fun _ => put (Builder.VList [])) else Goes (x, wv, mv) h) else Lost
      | None => Lost
      end
  | AppendElem t =>
      match part_type a "va" with
      | Some u => if tyname_eqb t u then deref (fun v => put (Builder.VList (Builder.elems (Some v) ++ [Builder.zero (tyof t)]))) else Lost
      | None => Lost
      end
  | TakeRow => deref (fun v => match Builder.elems (Some v) with [] => panics | _ => Goes (x, wv, mv) h end)
  | PointRow p => on_part p (fun i => match Builder.elems v with [] => Lost | _ => child i (Builder.on_own (Builder.set_w Builder.WParent)) end)
  | MakeMap => deref (fun v => put (Builder.VTree (fst (Builder.tree_of (Some v))) (Some [])))
  | MakeSlice => deref (fun v => if (h <? 0)%Z then panics else put (Builder.VTree [] (snd (Builder.tree_of (Some v)))))
  | KeyString => Goes (x, wv, mv) h
  | RepeatedTest => deref (fun v => match m with
      | Builder.AssembleEntry k => if Builder.has_key k (snd (Builder.tree_of (Some v))) then Stops Builder.ERR (x, wv, mv) else Goes (x, wv, mv) h
      | _ => Lost
      end)
  | AppendKey => deref (fun v => match m, part_type a "va" with
      | Builder.AssembleEntry k, Some t =>
          put (Builder.VTree (fst (Builder.tree_of (Some v)) ++ [(k, Builder.zero (tyof t))]) (snd (Builder.tree_of (Some v))))
      | _, _ => Lost
      end)
  | AppendNone => deref (fun v => match part_type a "va" with
      | Some t => put (Builder.VTree (fst (Builder.tree_of (Some v)) ++ [([], Builder.zero (tyof t))]) (snd (Builder.tree_of (Some v))))
      | None => Lost
      end)
  | TakeLast => deref (fun v => match fst (Builder.tree_of (Some v)) with [] => panics | _ => Goes (x, wv, mv) h end)
  | MapKey => deref (fun v => match snd (Builder.tree_of (Some v)), m with
      | None, _ => panics
      | Some l, Builder.AssembleEntry k => put (Builder.VTree (fst (Builder.tree_of (Some v))) (Some (k :: l)))
      | _, _ => Lost
      end)
  | MapLast => deref (fun v => match snd (Builder.tree_of (Some v)) with
      | None => panics
      | Some l =>
          let t := fst (Builder.tree_of (Some v)) in put (Builder.VTree t (Some (fst (last t ([], Builder.VNil)) :: l)))
      end)
  | PointEntry p => on_part p (fun i => match i, fst (Builder.tree_of v) with
      | 1, _ :: _ => child i (Builder.on_own (Builder.set_w Builder.WParent))
      | _, _ => Lost
      end)
  | PointKey p => deref (fun v => match fst (Builder.tree_of (Some v)) with
      | [] => panics
      | _ => on_part p (fun i => match i with 0 => child i (Builder.on_own (Builder.set_w Builder.WParent)) | _ => Lost end)
      end)
  | KeyGuard => if Builder.is_midkey (Builder.o_st (Builder.a_own x)) then Goes (x, wv, mv) h else panics
  | Sufficient t =>
      if tyname_eqb t (snd a) then
        match tyof t with
        | Builder.TStruct fs => if Builder.sufficient fs (Builder.o_s (Builder.a_own x)) then Goes (x, wv, mv) h else Stops Builder.ERR (x, wv, mv)
        | _ => Lost
        end
      else Lost
  | KeyCases | FieldCases => Hands (x, wv, mv)
  end.
Fixpoint exec_lines tyof tidy a m (ls : list line) (x : Builder.asm) (wv : option Builder.val) (mv : option Builder.maybe) (h : Z) : flow :=
  match ls with
  | [] => Goes (x, wv, mv) h
  | l :: ls => match exec_line tyof tidy a m l x wv mv h with
               | Goes (x, wv, mv) h => exec_lines tyof tidy a m ls x wv mv h
               | f => f
               end
  end.
Definition exec_stm tyof tidy a m (s : stm) (x : Builder.asm) (wv : option Builder.val) (mv : option Builder.maybe) (h : Z) : flow :=
  match s with
  | L l => exec_line tyof tidy a m l x wv mv h
  | OnM cs =>
      match Builder.maybe_of (Builder.a_own x) mv with
      | None => Stops Builder.PANIC (x, wv, mv)
      | Some c =>
          match find (fun r => existsb (fun b => match b with M c' => maybe_eqb c c' | AllowNull => false end) (fst r)) cs with
          | Some r => exec_lines tyof tidy a m (snd r) x wv mv h
          | None => Goes (x, wv, mv) h
          end
      end
  | OnState cs =>
      match find (fun r => mstate_eqb (Builder.o_st (Builder.a_own x)) (fst r)) cs with
      | Some r => exec_lines tyof tidy a m (snd r) x wv mv h
      | None => Goes (x, wv, mv) h
      end
  end.
Fixpoint exec_stms tyof tidy a m (ss : list stm) (x : Builder.asm) (wv : option Builder.val) (mv : option Builder.maybe) (h : Z) : flow :=
  match ss with
  | [] => Lost                                    (* missing return *)
  | s :: ss => match exec_stm tyof tidy a m s x wv mv h with
               | Goes (x, wv, mv) h => exec_stms tyof tidy a m ss x wv mv h
               | f => f
               end
  end.

(** valueFinishTidy and keyFinishTidy with the panic of the caller *)
Definition line_eqb (a b : line) : bool := match a, b with Tidy, Tidy | KeyTidy, KeyTidy => true | _, _ => false end.
Definition tidying (tyof : tyname -> Builder.ty) (a : gotype) (m : Builder.meth) (l : line)
  (x : Builder.asm) (wv : option Builder.val) (mv : option Builder.maybe) (h : Z) : flow :=
  match find (fun r => gotype_eqb (fst (fst r)) a && line_eqb (snd (fst r)) l) tidy_rows with
  | Some (_, _, ls) =>
      match Builder.o_cm (Builder.a_own x) with
      | Builder.MValue => exec_lines tyof (fun _ _ _ _ _ => Lost) a m ls x wv mv h
      | _ => Stops Builder.PANIC (x, wv, mv)
      end
  | None =>                                                            (* structs: Wiring.v *)
      match l, Wiring.tidy a x wv with
      | Tidy, Some (Some (x1, wv1)) => Goes (x1, wv1, mv) h
      | Tidy, Some None => Stops Builder.PANIC (x, wv, mv)
      | _, _ => Lost
      end
  end.

(** A method of an assembler; [hint] is the sizeHint of BeginMap and BeginList *)
Definition body (a : gotype) (n : string) : option (list stm) :=
  option_map snd (find (fun r => gotype_eqb (fst (fst r)) a && String.eqb (snd (fst r)) n) method_rows).
Definition run_method (tyof : tyname -> Builder.ty) (self a : gotype) (n : string) (m : Builder.meth) (hint : Z)
  (x : Builder.asm) (wv : option Builder.val) (mv : option Builder.maybe) : flow :=
  match body self n with
  | Some b => exec_stms tyof (tidying tyof a m) a m b x wv mv hint
  | None => Lost
  end.
Definition run_reset (tyof : tyname -> Builder.ty) (a : gotype) (x : Builder.asm) : flow :=
  match reset_body a with
  | Some ls => exec_lines tyof (fun _ _ _ _ _ => Lost) a Builder.Finish ls x None None 0%Z
  | None => Lost
  end.
