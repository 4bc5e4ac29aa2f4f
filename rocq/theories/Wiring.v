(** What the assemblers of structs do to their parts: the lines of AssembleEntry, AssembleValue, valueFinishTidy, reset and
    AssignString of the key assemblers, field by field, for the 8 assemblers.

    Builder.v has one function for all structs, with the list of fields as its argument.  Here the lines themselves are
    data, one row for each case, and they are run on the states of Builder.v; Props_wiring.v proves that running them is what the
    functions of Builder.v do.  The numbers beside the rows are lines of ipldsch_satisfaction.go, of ipldsch_types.go where said.
    The lines with the bits [s] are in FieldBits.v. *)
From Verif Require Import Base GoStr Types Methods Protos.
From Verif Require Builder.
From Coq Require Import String.
Local Open Scope string_scope.
Local Open Scope list_scope.

(** The statements.  [p] is a part, [ma.p]; [F] is a field of the value, [ma.w.F]. *)
Inductive pointer :=
| AtField (F : string)         (* &ma.w.F *)
| InField (F : string)         (* ma.w.F.v, which is a pointer *)
| AtValue (F : string).        (* &ma.w.F.v *)
Inductive place :=
| OwnCm                        (* &ma.cm *)
| FieldM (F : string).         (* &ma.w.F.m *)
Inductive stmt :=
| SetState (s : Builder.mstate)          (* ma.state = s *)
| SetF (n : nat)                         (* ma.f = n *)
| SetW (p : string) (e : pointer)        (* ma.p.w = e *)
| SetM (p : string) (e : place)          (* ma.p.m = e *)
| NilW (p : string)                      (* ma.p.w = nil *)
| CopyW (F p : string)                   (* ma.w.F.v = ma.p.w *)
| ClearCm.                               (* ma.cm = schema.Maybe_Absent *)

(** The fields of the structs, in order (ipldsch_types.go), and whether a Maybe, with a pointer (3037) or a value (2622, 4139) in it *)
Definition field_rows : list (tyname * list (string * Builder.fkind)) := [
  (TCommit, [("tree", Builder.Required); ("parents", Builder.Required); ("message", Builder.Required); ("author", Builder.OptionalPointer); ("committer", Builder.OptionalPointer); ("encoding", Builder.OptionalInline); ("signature", Builder.OptionalInline); ("mergetag", Builder.Required); ("other", Builder.Required)]); (* 60 *)
  (TPersonInfo, [("date", Builder.Required); ("timezone", Builder.Required); ("email", Builder.Required); ("name", Builder.Required)]); (* 92 *)
  (TTag, [("object", Builder.Required); ("typ", Builder.Required); ("tag", Builder.Required); ("tagger", Builder.Required); ("message", Builder.Required)]); (* 111 *)
  (TTreeEntry, [("mode", Builder.Required); ("hash", Builder.Required)]) (* 138 *)
].
Definition fields_of (t : tyname) : list (string * Builder.fkind) :=
  match find (fun x => if tyname_eq_dec (fst x) t then true else false) field_rows with Some x => snd x | None => [] end.
(** The parts of the assemblers, in order: part_rows of Protos.v *)
Definition parts_of (a : gotype) : list string := map (fun x => snd (fst x)) (filter (fun x => gotype_eqb (fst (fst x)) a) part_rows).

Fixpoint place_in (l : list string) (s : string) : option nat :=
  match l with
  | [] => None
  | x :: l => if String.eqb x s then Some 0 else option_map S (place_in l s)
  end.
Definition field_no (t : tyname) (F : string) : option nat := place_in (map fst (fields_of t)) F.
Definition part_no (a : gotype) (p : string) : option nat := place_in (parts_of a) p.
Definition field_kind (t : tyname) (i : nat) : Builder.fkind := match nth_error (fields_of t) i with Some f => snd f | None => Builder.Required end.

(** Running a statement on an assembler and what its [w] points to.  [Stuck]: Builder.v has no state for what happens, as when
    the part of one field is pointed at another field.  A nil [ma.w] panics. *)
Inductive ran := Did (x : Builder.asm) (wv : option Builder.val) | Panics | Stuck.
Definition on_part (a : gotype) (p : string) (g : nat -> ran) : ran := match part_no a p with Some i => g i | None => Stuck end.
Definition at_field (t : tyname) (F : string) (i : nat) (k : ran) : ran :=
  match field_no t F with Some j => if Nat.eqb i j then k else Stuck | None => Stuck end.
Definition point (p : Builder.wref) (i : nat) (x : Builder.asm) (wv : option Builder.val) : ran :=
  Did (Builder.on_child i (Builder.on_own (Builder.set_w p)) x) wv.
Definition exec (a : gotype) (s : stmt) (x : Builder.asm) (wv : option Builder.val) : ran :=
  let t := snd a in
  let v := Builder.target (Builder.a_own x) wv in
  match s with
  | SetState st => Did (Builder.on_own (Builder.set_st st) x) wv
  | SetF n => Did (Builder.on_own (Builder.set_f n) x) wv
  | ClearCm => Did (Builder.on_own (Builder.set_cm Builder.MAbsent) x) wv
  | NilW p => on_part a p (fun i => point Builder.WNil i x wv)
  | SetW p e =>
      match v with
      | None => Panics
      | Some _ =>
          on_part a p (fun i =>
          match e with
          | AtField F => at_field t F i (match field_kind t i with Builder.Required => point Builder.WParent i x wv | _ => Stuck end)
          | AtValue F => at_field t F i (match field_kind t i with Builder.OptionalInline => point Builder.WParent i x wv | _ => Stuck end)
          | InField F => at_field t F i (match field_kind t i with
              | Builder.OptionalPointer =>
                  point (match snd (Builder.slot_at v i) with Builder.VNil => Builder.WNil | u => Builder.WOwn u end) i x wv
              | _ => Stuck end)
          end)
      end
  | SetM p e =>
      on_part a p (fun i =>
      let set := Did (Builder.on_child i (Builder.on_own Builder.set_m) x) wv in
      match e with
      | OwnCm => match field_kind t i with Builder.Required => set | _ => Stuck end
      | FieldM F => match v with
          | None => Panics
          | Some _ => at_field t F i (match field_kind t i with Builder.Required => Stuck | _ => set end)
          end
      end)
  | CopyW F p =>
      match v with
      | None => Panics
      | Some _ =>
          on_part a p (fun i => at_field t F i (
          let u := match nth_error (Builder.a_ch x) i with
                   | Some c => match Builder.o_w (Builder.a_own c) with Builder.WOwn u => u | _ => Builder.VNil end
                   | None => Builder.VNil
                   end in
          let '(x1, wv1) := Builder.store (Builder.set_slot i (fst (Builder.slot_at v i), u) v) x wv in Did x1 wv1))
      end
  end.
Fixpoint execs (a : gotype) (l : list stmt) (x : Builder.asm) (wv : option Builder.val) : Builder.verdict * Builder.asm * option Builder.val :=
  match l with
  | [] => (Builder.OK, x, wv)
  | s :: l => match exec a s x wv with
              | Did x1 wv1 => execs a l x1 wv1
              | Panics => (Builder.PANIC, x, wv)
              | Stuck => (Builder.ERR, x, wv)
              end
  end.

(** ** AssembleEntry, after the test of the bit: the key, the statements *)
Definition entry_lines : list (gotype * bytes * list stmt) := [
  ((Assembler, TCommit), bs "tree", [SetState Builder.MidValue; SetF 0; SetW "ca_tree" (AtField "tree"); SetM "ca_tree" OwnCm]); (* 710 *)
  ((Assembler, TCommit), bs "parents", [SetState Builder.MidValue; SetF 1; SetW "ca_parents" (AtField "parents"); SetM "ca_parents" OwnCm]); (* 720 *)
  ((Assembler, TCommit), bs "message", [SetState Builder.MidValue; SetF 2; SetW "ca_message" (AtField "message"); SetM "ca_message" OwnCm]); (* 730 *)
  ((Assembler, TCommit), bs "author", [SetState Builder.MidValue; SetF 3; SetW "ca_author" (InField "author"); SetM "ca_author" (FieldM "author")]); (* 740 *)
  ((Assembler, TCommit), bs "committer", [SetState Builder.MidValue; SetF 4; SetW "ca_committer" (InField "committer"); SetM "ca_committer" (FieldM "committer")]); (* 750 *)
  ((Assembler, TCommit), bs "encoding", [SetState Builder.MidValue; SetF 5; SetW "ca_encoding" (AtValue "encoding"); SetM "ca_encoding" (FieldM "encoding")]); (* 760 *)
  ((Assembler, TCommit), bs "signature", [SetState Builder.MidValue; SetF 6; SetW "ca_signature" (AtValue "signature"); SetM "ca_signature" (FieldM "signature")]); (* 770 *)
  ((Assembler, TCommit), bs "mergetag", [SetState Builder.MidValue; SetF 7; SetW "ca_mergetag" (AtField "mergetag"); SetM "ca_mergetag" OwnCm]); (* 780 *)
  ((Assembler, TCommit), bs "other", [SetState Builder.MidValue; SetF 8; SetW "ca_other" (AtField "other"); SetM "ca_other" OwnCm]); (* 790 *)
  ((ReprAssembler, TCommit), bs "tree", [SetState Builder.MidValue; SetF 0; SetW "ca_tree" (AtField "tree"); SetM "ca_tree" OwnCm]); (* 1472 *)
  ((ReprAssembler, TCommit), bs "parents", [SetState Builder.MidValue; SetF 1; SetW "ca_parents" (AtField "parents"); SetM "ca_parents" OwnCm]); (* 1482 *)
  ((ReprAssembler, TCommit), bs "message", [SetState Builder.MidValue; SetF 2; SetW "ca_message" (AtField "message"); SetM "ca_message" OwnCm]); (* 1492 *)
  ((ReprAssembler, TCommit), bs "author", [SetState Builder.MidValue; SetF 3; SetW "ca_author" (InField "author"); SetM "ca_author" (FieldM "author")]); (* 1502 *)
  ((ReprAssembler, TCommit), bs "committer", [SetState Builder.MidValue; SetF 4; SetW "ca_committer" (InField "committer"); SetM "ca_committer" (FieldM "committer")]); (* 1513 *)
  ((ReprAssembler, TCommit), bs "encoding", [SetState Builder.MidValue; SetF 5; SetW "ca_encoding" (AtValue "encoding"); SetM "ca_encoding" (FieldM "encoding")]); (* 1524 *)
  ((ReprAssembler, TCommit), bs "signature", [SetState Builder.MidValue; SetF 6; SetW "ca_signature" (AtValue "signature"); SetM "ca_signature" (FieldM "signature")]); (* 1535 *)
  ((ReprAssembler, TCommit), bs "mergetag", [SetState Builder.MidValue; SetF 7; SetW "ca_mergetag" (AtField "mergetag"); SetM "ca_mergetag" OwnCm]); (* 1546 *)
  ((ReprAssembler, TCommit), bs "other", [SetState Builder.MidValue; SetF 8; SetW "ca_other" (AtField "other"); SetM "ca_other" OwnCm]); (* 1556 *)
  ((Assembler, TPersonInfo), bs "date", [SetState Builder.MidValue; SetF 0; SetW "ca_date" (AtField "date"); SetM "ca_date" OwnCm]); (* 3384 *)
  ((Assembler, TPersonInfo), bs "timezone", [SetState Builder.MidValue; SetF 1; SetW "ca_timezone" (AtField "timezone"); SetM "ca_timezone" OwnCm]); (* 3394 *)
  ((Assembler, TPersonInfo), bs "email", [SetState Builder.MidValue; SetF 2; SetW "ca_email" (AtField "email"); SetM "ca_email" OwnCm]); (* 3404 *)
  ((Assembler, TPersonInfo), bs "name", [SetState Builder.MidValue; SetF 3; SetW "ca_name" (AtField "name"); SetM "ca_name" OwnCm]); (* 3414 *)
  ((ReprAssembler, TPersonInfo), bs "date", [SetState Builder.MidValue; SetF 0; SetW "ca_date" (AtField "date"); SetM "ca_date" OwnCm]); (* 3909 *)
  ((ReprAssembler, TPersonInfo), bs "timezone", [SetState Builder.MidValue; SetF 1; SetW "ca_timezone" (AtField "timezone"); SetM "ca_timezone" OwnCm]); (* 3919 *)
  ((ReprAssembler, TPersonInfo), bs "email", [SetState Builder.MidValue; SetF 2; SetW "ca_email" (AtField "email"); SetM "ca_email" OwnCm]); (* 3929 *)
  ((ReprAssembler, TPersonInfo), bs "name", [SetState Builder.MidValue; SetF 3; SetW "ca_name" (AtField "name"); SetM "ca_name" OwnCm]); (* 3939 *)
  ((Assembler, TTag), bs "object", [SetState Builder.MidValue; SetF 0; SetW "ca_object" (AtField "object"); SetM "ca_object" OwnCm]); (* 5309 *)
  ((Assembler, TTag), bs "type", [SetState Builder.MidValue; SetF 1; SetW "ca_typ" (AtField "typ"); SetM "ca_typ" OwnCm]); (* 5319 *)
  ((Assembler, TTag), bs "tag", [SetState Builder.MidValue; SetF 2; SetW "ca_tag" (AtField "tag"); SetM "ca_tag" OwnCm]); (* 5329 *)
  ((Assembler, TTag), bs "tagger", [SetState Builder.MidValue; SetF 3; SetW "ca_tagger" (AtField "tagger"); SetM "ca_tagger" OwnCm]); (* 5339 *)
  ((Assembler, TTag), bs "message", [SetState Builder.MidValue; SetF 4; SetW "ca_message" (AtField "message"); SetM "ca_message" OwnCm]); (* 5349 *)
  ((ReprAssembler, TTag), bs "object", [SetState Builder.MidValue; SetF 0; SetW "ca_object" (AtField "object"); SetM "ca_object" OwnCm]); (* 5876 *)
  ((ReprAssembler, TTag), bs "type", [SetState Builder.MidValue; SetF 1; SetW "ca_typ" (AtField "typ"); SetM "ca_typ" OwnCm]); (* 5886 *)
  ((ReprAssembler, TTag), bs "tag", [SetState Builder.MidValue; SetF 2; SetW "ca_tag" (AtField "tag"); SetM "ca_tag" OwnCm]); (* 5896 *)
  ((ReprAssembler, TTag), bs "tagger", [SetState Builder.MidValue; SetF 3; SetW "ca_tagger" (AtField "tagger"); SetM "ca_tagger" OwnCm]); (* 5906 *)
  ((ReprAssembler, TTag), bs "message", [SetState Builder.MidValue; SetF 4; SetW "ca_message" (AtField "message"); SetM "ca_message" OwnCm]); (* 5916 *)
  ((Assembler, TTreeEntry), bs "mode", [SetState Builder.MidValue; SetF 0; SetW "ca_mode" (AtField "mode"); SetM "ca_mode" OwnCm]); (* 7779 *)
  ((Assembler, TTreeEntry), bs "hash", [SetState Builder.MidValue; SetF 1; SetW "ca_hash" (AtField "hash"); SetM "ca_hash" OwnCm]); (* 7789 *)
  ((ReprAssembler, TTreeEntry), bs "mode", [SetState Builder.MidValue; SetF 0; SetW "ca_mode" (AtField "mode"); SetM "ca_mode" OwnCm]); (* 8220 *)
  ((ReprAssembler, TTreeEntry), bs "hash", [SetState Builder.MidValue; SetF 1; SetW "ca_hash" (AtField "hash"); SetM "ca_hash" OwnCm]) (* 8230 *)
].
Definition entry_stmts (a : gotype) (k : bytes) : option (list stmt) :=
  option_map snd (find (fun x => gotype_eqb (fst (fst x)) a && beqb (snd (fst x)) k) entry_lines).

(** ** AssignString of the key assemblers, after the test of the bit *)
Definition key_lines : list (gotype * bytes * list stmt) := [
  ((Key, TCommit), bs "tree", [SetState Builder.ExpectValue; SetF 0]); (* 946 *)
  ((Key, TCommit), bs "parents", [SetState Builder.ExpectValue; SetF 1]); (* 954 *)
  ((Key, TCommit), bs "message", [SetState Builder.ExpectValue; SetF 2]); (* 962 *)
  ((Key, TCommit), bs "author", [SetState Builder.ExpectValue; SetF 3]); (* 970 *)
  ((Key, TCommit), bs "committer", [SetState Builder.ExpectValue; SetF 4]); (* 978 *)
  ((Key, TCommit), bs "encoding", [SetState Builder.ExpectValue; SetF 5]); (* 986 *)
  ((Key, TCommit), bs "signature", [SetState Builder.ExpectValue; SetF 6]); (* 994 *)
  ((Key, TCommit), bs "mergetag", [SetState Builder.ExpectValue; SetF 7]); (* 1002 *)
  ((Key, TCommit), bs "other", [SetState Builder.ExpectValue; SetF 8]); (* 1010 *)
  ((ReprKey, TCommit), bs "tree", [SetState Builder.ExpectValue; SetF 0]); (* 1717 *)
  ((ReprKey, TCommit), bs "parents", [SetState Builder.ExpectValue; SetF 1]); (* 1725 *)
  ((ReprKey, TCommit), bs "message", [SetState Builder.ExpectValue; SetF 2]); (* 1733 *)
  ((ReprKey, TCommit), bs "author", [SetState Builder.ExpectValue; SetF 3]); (* 1741 *)
  ((ReprKey, TCommit), bs "committer", [SetState Builder.ExpectValue; SetF 4]); (* 1749 *)
  ((ReprKey, TCommit), bs "encoding", [SetState Builder.ExpectValue; SetF 5]); (* 1757 *)
  ((ReprKey, TCommit), bs "signature", [SetState Builder.ExpectValue; SetF 6]); (* 1765 *)
  ((ReprKey, TCommit), bs "mergetag", [SetState Builder.ExpectValue; SetF 7]); (* 1773 *)
  ((ReprKey, TCommit), bs "other", [SetState Builder.ExpectValue; SetF 8]); (* 1781 *)
  ((Key, TPersonInfo), bs "date", [SetState Builder.ExpectValue; SetF 0]); (* 3547 *)
  ((Key, TPersonInfo), bs "timezone", [SetState Builder.ExpectValue; SetF 1]); (* 3555 *)
  ((Key, TPersonInfo), bs "email", [SetState Builder.ExpectValue; SetF 2]); (* 3563 *)
  ((Key, TPersonInfo), bs "name", [SetState Builder.ExpectValue; SetF 3]); (* 3571 *)
  ((ReprKey, TPersonInfo), bs "date", [SetState Builder.ExpectValue; SetF 0]); (* 4073 *)
  ((ReprKey, TPersonInfo), bs "timezone", [SetState Builder.ExpectValue; SetF 1]); (* 4081 *)
  ((ReprKey, TPersonInfo), bs "email", [SetState Builder.ExpectValue; SetF 2]); (* 4089 *)
  ((ReprKey, TPersonInfo), bs "name", [SetState Builder.ExpectValue; SetF 3]); (* 4097 *)
  ((Key, TTag), bs "object", [SetState Builder.ExpectValue; SetF 0]); (* 5489 *)
  ((Key, TTag), bs "type", [SetState Builder.ExpectValue; SetF 1]); (* 5497 *)
  ((Key, TTag), bs "tag", [SetState Builder.ExpectValue; SetF 2]); (* 5505 *)
  ((Key, TTag), bs "tagger", [SetState Builder.ExpectValue; SetF 3]); (* 5513 *)
  ((Key, TTag), bs "message", [SetState Builder.ExpectValue; SetF 4]); (* 5521 *)
  ((ReprKey, TTag), bs "object", [SetState Builder.ExpectValue; SetF 0]); (* 6057 *)
  ((ReprKey, TTag), bs "type", [SetState Builder.ExpectValue; SetF 1]); (* 6065 *)
  ((ReprKey, TTag), bs "tag", [SetState Builder.ExpectValue; SetF 2]); (* 6073 *)
  ((ReprKey, TTag), bs "tagger", [SetState Builder.ExpectValue; SetF 3]); (* 6081 *)
  ((ReprKey, TTag), bs "message", [SetState Builder.ExpectValue; SetF 4]); (* 6089 *)
  ((Key, TTreeEntry), bs "mode", [SetState Builder.ExpectValue; SetF 0]); (* 7908 *)
  ((Key, TTreeEntry), bs "hash", [SetState Builder.ExpectValue; SetF 1]); (* 7916 *)
  ((ReprKey, TTreeEntry), bs "mode", [SetState Builder.ExpectValue; SetF 0]); (* 8350 *)
  ((ReprKey, TTreeEntry), bs "hash", [SetState Builder.ExpectValue; SetF 1]) (* 8358 *)
].
Definition key_stmts (a : gotype) (k : bytes) : option (list stmt) :=
  option_map snd (find (fun x => gotype_eqb (fst (fst x)) a && beqb (snd (fst x)) k) key_lines).

(** ** AssembleValue, after the switch on the state: the number in [f], the statements ([state] is set before the switch on [f]) *)
Definition value_lines : list (gotype * nat * list stmt) := [
  ((Assembler, TCommit), 0, [SetState Builder.MidValue; SetW "ca_tree" (AtField "tree"); SetM "ca_tree" OwnCm]); (* 836 *)
  ((Assembler, TCommit), 1, [SetState Builder.MidValue; SetW "ca_parents" (AtField "parents"); SetM "ca_parents" OwnCm]); (* 840 *)
  ((Assembler, TCommit), 2, [SetState Builder.MidValue; SetW "ca_message" (AtField "message"); SetM "ca_message" OwnCm]); (* 844 *)
  ((Assembler, TCommit), 3, [SetState Builder.MidValue; SetW "ca_author" (InField "author"); SetM "ca_author" (FieldM "author")]); (* 848 *)
  ((Assembler, TCommit), 4, [SetState Builder.MidValue; SetW "ca_committer" (InField "committer"); SetM "ca_committer" (FieldM "committer")]); (* 852 *)
  ((Assembler, TCommit), 5, [SetState Builder.MidValue; SetW "ca_encoding" (AtValue "encoding"); SetM "ca_encoding" (FieldM "encoding")]); (* 856 *)
  ((Assembler, TCommit), 6, [SetState Builder.MidValue; SetW "ca_signature" (AtValue "signature"); SetM "ca_signature" (FieldM "signature")]); (* 860 *)
  ((Assembler, TCommit), 7, [SetState Builder.MidValue; SetW "ca_mergetag" (AtField "mergetag"); SetM "ca_mergetag" OwnCm]); (* 864 *)
  ((Assembler, TCommit), 8, [SetState Builder.MidValue; SetW "ca_other" (AtField "other"); SetM "ca_other" OwnCm]); (* 868 *)
  ((ReprAssembler, TCommit), 0, [SetState Builder.MidValue; SetW "ca_tree" (AtField "tree"); SetM "ca_tree" OwnCm]); (* 1603 *)
  ((ReprAssembler, TCommit), 1, [SetState Builder.MidValue; SetW "ca_parents" (AtField "parents"); SetM "ca_parents" OwnCm]); (* 1607 *)
  ((ReprAssembler, TCommit), 2, [SetState Builder.MidValue; SetW "ca_message" (AtField "message"); SetM "ca_message" OwnCm]); (* 1611 *)
  ((ReprAssembler, TCommit), 3, [SetState Builder.MidValue; SetW "ca_author" (InField "author"); SetM "ca_author" (FieldM "author")]); (* 1615 *)
  ((ReprAssembler, TCommit), 4, [SetState Builder.MidValue; SetW "ca_committer" (InField "committer"); SetM "ca_committer" (FieldM "committer")]); (* 1620 *)
  ((ReprAssembler, TCommit), 5, [SetState Builder.MidValue; SetW "ca_encoding" (AtValue "encoding"); SetM "ca_encoding" (FieldM "encoding")]); (* 1625 *)
  ((ReprAssembler, TCommit), 6, [SetState Builder.MidValue; SetW "ca_signature" (AtValue "signature"); SetM "ca_signature" (FieldM "signature")]); (* 1630 *)
  ((ReprAssembler, TCommit), 7, [SetState Builder.MidValue; SetW "ca_mergetag" (AtField "mergetag"); SetM "ca_mergetag" OwnCm]); (* 1635 *)
  ((ReprAssembler, TCommit), 8, [SetState Builder.MidValue; SetW "ca_other" (AtField "other"); SetM "ca_other" OwnCm]); (* 1639 *)
  ((Assembler, TPersonInfo), 0, [SetState Builder.MidValue; SetW "ca_date" (AtField "date"); SetM "ca_date" OwnCm]); (* 3460 *)
  ((Assembler, TPersonInfo), 1, [SetState Builder.MidValue; SetW "ca_timezone" (AtField "timezone"); SetM "ca_timezone" OwnCm]); (* 3464 *)
  ((Assembler, TPersonInfo), 2, [SetState Builder.MidValue; SetW "ca_email" (AtField "email"); SetM "ca_email" OwnCm]); (* 3468 *)
  ((Assembler, TPersonInfo), 3, [SetState Builder.MidValue; SetW "ca_name" (AtField "name"); SetM "ca_name" OwnCm]); (* 3472 *)
  ((ReprAssembler, TPersonInfo), 0, [SetState Builder.MidValue; SetW "ca_date" (AtField "date"); SetM "ca_date" OwnCm]); (* 3986 *)
  ((ReprAssembler, TPersonInfo), 1, [SetState Builder.MidValue; SetW "ca_timezone" (AtField "timezone"); SetM "ca_timezone" OwnCm]); (* 3990 *)
  ((ReprAssembler, TPersonInfo), 2, [SetState Builder.MidValue; SetW "ca_email" (AtField "email"); SetM "ca_email" OwnCm]); (* 3994 *)
  ((ReprAssembler, TPersonInfo), 3, [SetState Builder.MidValue; SetW "ca_name" (AtField "name"); SetM "ca_name" OwnCm]); (* 3998 *)
  ((Assembler, TTag), 0, [SetState Builder.MidValue; SetW "ca_object" (AtField "object"); SetM "ca_object" OwnCm]); (* 5395 *)
  ((Assembler, TTag), 1, [SetState Builder.MidValue; SetW "ca_typ" (AtField "typ"); SetM "ca_typ" OwnCm]); (* 5399 *)
  ((Assembler, TTag), 2, [SetState Builder.MidValue; SetW "ca_tag" (AtField "tag"); SetM "ca_tag" OwnCm]); (* 5403 *)
  ((Assembler, TTag), 3, [SetState Builder.MidValue; SetW "ca_tagger" (AtField "tagger"); SetM "ca_tagger" OwnCm]); (* 5407 *)
  ((Assembler, TTag), 4, [SetState Builder.MidValue; SetW "ca_message" (AtField "message"); SetM "ca_message" OwnCm]); (* 5411 *)
  ((ReprAssembler, TTag), 0, [SetState Builder.MidValue; SetW "ca_object" (AtField "object"); SetM "ca_object" OwnCm]); (* 5963 *)
  ((ReprAssembler, TTag), 1, [SetState Builder.MidValue; SetW "ca_typ" (AtField "typ"); SetM "ca_typ" OwnCm]); (* 5967 *)
  ((ReprAssembler, TTag), 2, [SetState Builder.MidValue; SetW "ca_tag" (AtField "tag"); SetM "ca_tag" OwnCm]); (* 5971 *)
  ((ReprAssembler, TTag), 3, [SetState Builder.MidValue; SetW "ca_tagger" (AtField "tagger"); SetM "ca_tagger" OwnCm]); (* 5975 *)
  ((ReprAssembler, TTag), 4, [SetState Builder.MidValue; SetW "ca_message" (AtField "message"); SetM "ca_message" OwnCm]); (* 5979 *)
  ((Assembler, TTreeEntry), 0, [SetState Builder.MidValue; SetW "ca_mode" (AtField "mode"); SetM "ca_mode" OwnCm]); (* 7835 *)
  ((Assembler, TTreeEntry), 1, [SetState Builder.MidValue; SetW "ca_hash" (AtField "hash"); SetM "ca_hash" OwnCm]); (* 7839 *)
  ((ReprAssembler, TTreeEntry), 0, [SetState Builder.MidValue; SetW "ca_mode" (AtField "mode"); SetM "ca_mode" OwnCm]); (* 8277 *)
  ((ReprAssembler, TTreeEntry), 1, [SetState Builder.MidValue; SetW "ca_hash" (AtField "hash"); SetM "ca_hash" OwnCm]) (* 8281 *)
].
Definition value_stmts (a : gotype) (f : nat) : option (list stmt) :=
  option_map snd (find (fun x => gotype_eqb (fst (fst x)) a && Nat.eqb (snd (fst x)) f) value_lines).

(** ** valueFinishTidy: the number in [f], what is compared with Maybe_Value, the statements before [return true] *)
Definition tidy_lines : list (gotype * nat * place * list stmt) := [
  ((Assembler, TCommit), 0, OwnCm, [NilW "ca_tree"; ClearCm; SetState Builder.Initial]); (* 606 *)
  ((Assembler, TCommit), 1, OwnCm, [NilW "ca_parents"; ClearCm; SetState Builder.Initial]); (* 616 *)
  ((Assembler, TCommit), 2, OwnCm, [NilW "ca_message"; ClearCm; SetState Builder.Initial]); (* 626 *)
  ((Assembler, TCommit), 3, FieldM "author", [CopyW "author" "ca_author"; SetState Builder.Initial]); (* 636 *)
  ((Assembler, TCommit), 4, FieldM "committer", [CopyW "committer" "ca_committer"; SetState Builder.Initial]); (* 645 *)
  ((Assembler, TCommit), 5, FieldM "encoding", [SetState Builder.Initial]); (* 654 *)
  ((Assembler, TCommit), 6, FieldM "signature", [SetState Builder.Initial]); (* 662 *)
  ((Assembler, TCommit), 7, OwnCm, [NilW "ca_mergetag"; ClearCm; SetState Builder.Initial]); (* 670 *)
  ((Assembler, TCommit), 8, OwnCm, [NilW "ca_other"; ClearCm; SetState Builder.Initial]); (* 680 *)
  ((ReprAssembler, TCommit), 0, OwnCm, [ClearCm; SetState Builder.Initial]); (* 1373 *)
  ((ReprAssembler, TCommit), 1, OwnCm, [ClearCm; SetState Builder.Initial]); (* 1382 *)
  ((ReprAssembler, TCommit), 2, OwnCm, [ClearCm; SetState Builder.Initial]); (* 1391 *)
  ((ReprAssembler, TCommit), 3, FieldM "author", [CopyW "author" "ca_author"; SetState Builder.Initial]); (* 1400 *)
  ((ReprAssembler, TCommit), 4, FieldM "committer", [CopyW "committer" "ca_committer"; SetState Builder.Initial]); (* 1409 *)
  ((ReprAssembler, TCommit), 5, FieldM "encoding", [SetState Builder.Initial]); (* 1418 *)
  ((ReprAssembler, TCommit), 6, FieldM "signature", [SetState Builder.Initial]); (* 1426 *)
  ((ReprAssembler, TCommit), 7, OwnCm, [ClearCm; SetState Builder.Initial]); (* 1434 *)
  ((ReprAssembler, TCommit), 8, OwnCm, [ClearCm; SetState Builder.Initial]); (* 1443 *)
  ((Assembler, TPersonInfo), 0, OwnCm, [NilW "ca_date"; ClearCm; SetState Builder.Initial]); (* 3324 *)
  ((Assembler, TPersonInfo), 1, OwnCm, [NilW "ca_timezone"; ClearCm; SetState Builder.Initial]); (* 3334 *)
  ((Assembler, TPersonInfo), 2, OwnCm, [NilW "ca_email"; ClearCm; SetState Builder.Initial]); (* 3344 *)
  ((Assembler, TPersonInfo), 3, OwnCm, [NilW "ca_name"; ClearCm; SetState Builder.Initial]); (* 3354 *)
  ((ReprAssembler, TPersonInfo), 0, OwnCm, [ClearCm; SetState Builder.Initial]); (* 3853 *)
  ((ReprAssembler, TPersonInfo), 1, OwnCm, [ClearCm; SetState Builder.Initial]); (* 3862 *)
  ((ReprAssembler, TPersonInfo), 2, OwnCm, [ClearCm; SetState Builder.Initial]); (* 3871 *)
  ((ReprAssembler, TPersonInfo), 3, OwnCm, [ClearCm; SetState Builder.Initial]); (* 3880 *)
  ((Assembler, TTag), 0, OwnCm, [NilW "ca_object"; ClearCm; SetState Builder.Initial]); (* 5239 *)
  ((Assembler, TTag), 1, OwnCm, [NilW "ca_typ"; ClearCm; SetState Builder.Initial]); (* 5249 *)
  ((Assembler, TTag), 2, OwnCm, [NilW "ca_tag"; ClearCm; SetState Builder.Initial]); (* 5259 *)
  ((Assembler, TTag), 3, OwnCm, [NilW "ca_tagger"; ClearCm; SetState Builder.Initial]); (* 5269 *)
  ((Assembler, TTag), 4, OwnCm, [NilW "ca_message"; ClearCm; SetState Builder.Initial]); (* 5279 *)
  ((ReprAssembler, TTag), 0, OwnCm, [ClearCm; SetState Builder.Initial]); (* 5811 *)
  ((ReprAssembler, TTag), 1, OwnCm, [ClearCm; SetState Builder.Initial]); (* 5820 *)
  ((ReprAssembler, TTag), 2, OwnCm, [ClearCm; SetState Builder.Initial]); (* 5829 *)
  ((ReprAssembler, TTag), 3, OwnCm, [ClearCm; SetState Builder.Initial]); (* 5838 *)
  ((ReprAssembler, TTag), 4, OwnCm, [ClearCm; SetState Builder.Initial]); (* 5847 *)
  ((Assembler, TTreeEntry), 0, OwnCm, [NilW "ca_mode"; ClearCm; SetState Builder.Initial]); (* 7739 *)
  ((Assembler, TTreeEntry), 1, OwnCm, [NilW "ca_hash"; ClearCm; SetState Builder.Initial]); (* 7749 *)
  ((ReprAssembler, TTreeEntry), 0, OwnCm, [ClearCm; SetState Builder.Initial]); (* 8182 *)
  ((ReprAssembler, TTreeEntry), 1, OwnCm, [ClearCm; SetState Builder.Initial]) (* 8191 *)
].
(** [Some None]: it answers false, or panics at a nil [ma.w]; its callers panic in either case.  [None]: not a state of Builder.v. *)
Definition tidy (a : gotype) (x : Builder.asm) (wv : option Builder.val) : option (option (Builder.asm * option Builder.val)) :=
  match find (fun r => gotype_eqb (fst (fst (fst r))) a && Nat.eqb (snd (fst (fst r))) (Builder.o_f (Builder.a_own x))) tidy_lines with
  | None => None
  | Some (_, _, pl, l) =>
      let v := Builder.target (Builder.a_own x) wv in
      let flag := match pl with
                  | OwnCm => Some (Builder.o_cm (Builder.a_own x))
                  | FieldM F => match field_no (snd a) F with Some j => Some (fst (Builder.slot_at v j)) | None => None end
                  end in
      match flag with
      | None => None
      | Some Builder.MValue =>
          match execs a l x wv with
          | (Builder.OK, x1, wv1) => Some (Some (x1, wv1))
          | (Builder.PANIC, _, _) => Some None
          | _ => None
          end
      | Some _ => Some None
      end
  end.

(** ** reset: [na.state = maState_initial; na.s = 0] and the parts that are reset *)
Definition reset_lines : list (gotype * list string) := [
  ((Assembler, TCommit), ["ca_tree"; "ca_parents"; "ca_message"; "ca_author"; "ca_committer"; "ca_encoding"; "ca_signature"; "ca_mergetag"; "ca_other"]); (* 488 *)
  ((ReprAssembler, TCommit), ["ca_tree"; "ca_parents"; "ca_message"; "ca_author"; "ca_committer"; "ca_encoding"; "ca_signature"; "ca_mergetag"; "ca_other"]); (* 1269 *)
  ((Assembler, TPersonInfo), ["ca_date"; "ca_timezone"; "ca_email"; "ca_name"]); (* 3216 *)
  ((ReprAssembler, TPersonInfo), ["ca_date"; "ca_timezone"; "ca_email"; "ca_name"]); (* 3754 *)
  ((Assembler, TTag), ["ca_object"; "ca_typ"; "ca_tag"; "ca_tagger"; "ca_message"]); (* 5129 *)
  ((ReprAssembler, TTag), ["ca_object"; "ca_typ"; "ca_tag"; "ca_tagger"; "ca_message"]); (* 5711 *)
  ((Assembler, TTreeEntry), ["ca_mode"; "ca_hash"]); (* 7635 *)
  ((ReprAssembler, TTreeEntry), ["ca_mode"; "ca_hash"]) (* 8085 *)
].
Definition reset_struct (a : gotype) (x : Builder.asm) : option Builder.asm :=
  match find (fun r => gotype_eqb (fst r) a) reset_lines with
  | None => None
  | Some (_, ps) =>
      fold_left (fun x p => match x, part_no a p with Some x, Some i => Some (Builder.on_child i Builder.reset x) | _, _ => None end) ps
        (Some (Builder.on_own (fun o => Builder.set_s [] (Builder.set_st Builder.Initial o)) x))
  end.
