(** The bits in which the assemblers of structs remember the fields they were given.

    As in Protos.v the lines of the generated code are data; the numbers beside the rows are lines of
    ipldsch_satisfaction.go.  [ma.s] is an int in Go; here a number of N, which is the same as long as it does not
    overflow (it stays below 2^9, Props_fieldbits.v). *)
From Coq Require Import NArith.
From Verif Require Import Base GoStr Types Methods Protos.
From Coq Require Import String.
Local Open Scope string_scope.
Local Open Scope list_scope.
Local Open Scope N_scope.
Notation num := BinNums.N.      (* [N] is a constructor of Methods.v *)

(** A field by its symbol in Go: [(TCommit, "Tree")] is the Tree of fieldBit__Commit_Tree and of fieldName__Commit_Tree *)
Definition symbol : Type := tyname * string.
Definition symbol_eqb (a b : symbol) : bool := (if tyname_eq_dec (fst a) (fst b) then true else false) && String.eqb (snd a) (snd b).

(** fieldBit__T_F = 1 << n *)
Definition bit_rows : list (symbol * num) := [
  ((TCommit, "Tree"), 0); (* 503 *)
  ((TCommit, "Parents"), 1); (* 504 *)
  ((TCommit, "Message"), 2); (* 505 *)
  ((TCommit, "Author"), 3); (* 506 *)
  ((TCommit, "Committer"), 4); (* 507 *)
  ((TCommit, "Encoding"), 5); (* 508 *)
  ((TCommit, "Signature"), 6); (* 509 *)
  ((TCommit, "Mergetag"), 7); (* 510 *)
  ((TCommit, "Other"), 8); (* 511 *)
  ((TPersonInfo, "Date"), 0); (* 3226 *)
  ((TPersonInfo, "Timezone"), 1); (* 3227 *)
  ((TPersonInfo, "Email"), 2); (* 3228 *)
  ((TPersonInfo, "Name"), 3); (* 3229 *)
  ((TTag, "Object"), 0); (* 5140 *)
  ((TTag, "Type"), 1); (* 5141 *)
  ((TTag, "Tag"), 2); (* 5142 *)
  ((TTag, "Tagger"), 3); (* 5143 *)
  ((TTag, "Message"), 4); (* 5144 *)
  ((TTreeEntry, "Mode"), 0); (* 7643 *)
  ((TTreeEntry, "Hash"), 1) (* 7644 *)
].
Definition bit (f : symbol) : num := match find (fun x => symbol_eqb (fst x) f) bit_rows with Some x => N.shiftl 1 (snd x) | None => 0 end.

(** fieldBits__T_sufficient: the sum of the shifted ones *)
Definition sufficient_rows : list (tyname * list num) := [
  (TCommit, [0; 1; 2; 7; 8]); (* 512 *)
  (TPersonInfo, [0; 1; 2; 3]); (* 3230 *)
  (TTag, [0; 1; 2; 3; 4]); (* 5145 *)
  (TTreeEntry, [0; 1]) (* 7645 *)
].
Definition sufficient_bits (t : tyname) : num :=
  match find (fun x => if tyname_eq_dec (fst x) t then true else false) sufficient_rows with
  | Some x => fold_left (fun a n => a + N.shiftl 1 n) (snd x) 0
  | None => 0
  end.

(** fieldName__T_F, and fieldName__T_F_serial *)
Definition name_rows : list (symbol * bool * bytes) := [
  ((TCommit, "Tree"), false, bs "tree"); (* 279 *)
  ((TCommit, "Parents"), false, bs "parents"); (* 280 *)
  ((TCommit, "Message"), false, bs "message"); (* 281 *)
  ((TCommit, "Author"), false, bs "author"); (* 282 *)
  ((TCommit, "Committer"), false, bs "committer"); (* 283 *)
  ((TCommit, "Encoding"), false, bs "encoding"); (* 284 *)
  ((TCommit, "Signature"), false, bs "signature"); (* 285 *)
  ((TCommit, "Mergetag"), false, bs "mergetag"); (* 286 *)
  ((TCommit, "Other"), false, bs "other"); (* 287 *)
  ((TCommit, "Tree"), true, bs "tree"); (* 1048 *)
  ((TCommit, "Parents"), true, bs "parents"); (* 1049 *)
  ((TCommit, "Message"), true, bs "message"); (* 1050 *)
  ((TCommit, "Author"), true, bs "author"); (* 1051 *)
  ((TCommit, "Committer"), true, bs "committer"); (* 1052 *)
  ((TCommit, "Encoding"), true, bs "encoding"); (* 1053 *)
  ((TCommit, "Signature"), true, bs "signature"); (* 1054 *)
  ((TCommit, "Mergetag"), true, bs "mergetag"); (* 1055 *)
  ((TCommit, "Other"), true, bs "other"); (* 1056 *)
  ((TPersonInfo, "Date"), false, bs "date"); (* 3070 *)
  ((TPersonInfo, "Timezone"), false, bs "timezone"); (* 3071 *)
  ((TPersonInfo, "Email"), false, bs "email"); (* 3072 *)
  ((TPersonInfo, "Name"), false, bs "name"); (* 3073 *)
  ((TPersonInfo, "Date"), true, bs "date"); (* 3609 *)
  ((TPersonInfo, "Timezone"), true, bs "timezone"); (* 3610 *)
  ((TPersonInfo, "Email"), true, bs "email"); (* 3611 *)
  ((TPersonInfo, "Name"), true, bs "name"); (* 3612 *)
  ((TTag, "Object"), false, bs "object"); (* 4976 *)
  ((TTag, "Type"), false, bs "type"); (* 4977 *)
  ((TTag, "Tag"), false, bs "tag"); (* 4978 *)
  ((TTag, "Tagger"), false, bs "tagger"); (* 4979 *)
  ((TTag, "Message"), false, bs "message"); (* 4980 *)
  ((TTag, "Object"), true, bs "object"); (* 5559 *)
  ((TTag, "Type"), true, bs "type"); (* 5560 *)
  ((TTag, "Tag"), true, bs "tag"); (* 5561 *)
  ((TTag, "Tagger"), true, bs "tagger"); (* 5562 *)
  ((TTag, "Message"), true, bs "message"); (* 5563 *)
  ((TTreeEntry, "Mode"), false, bs "mode"); (* 7503 *)
  ((TTreeEntry, "Hash"), false, bs "hash"); (* 7504 *)
  ((TTreeEntry, "Mode"), true, bs "mode"); (* 7954 *)
  ((TTreeEntry, "Hash"), true, bs "hash") (* 7955 *)
].
Definition field_name (f : symbol) (serial : bool) : bytes :=
  match find (fun x => symbol_eqb (fst (fst x)) f && Bool.eqb (snd (fst x)) serial) name_rows with Some x => snd x | None => [] end.

(** The cases of AssembleEntry and of AssignString of the key assemblers: the key, the bit that is tested, the name in the error
    for a key that is there, the bit that is added *)
Record case := C { c_of : gotype; c_key : bytes; c_tests : symbol; c_tells : symbol * bool; c_adds : symbol }.
Definition cases : list case := [
  C (Assembler, TCommit) (bs "tree") (TCommit, "Tree") ((TCommit, "Tree"), false) (TCommit, "Tree"); (* 710 *)
  C (Assembler, TCommit) (bs "parents") (TCommit, "Parents") ((TCommit, "Parents"), false) (TCommit, "Parents"); (* 720 *)
  C (Assembler, TCommit) (bs "message") (TCommit, "Message") ((TCommit, "Message"), false) (TCommit, "Message"); (* 730 *)
  C (Assembler, TCommit) (bs "author") (TCommit, "Author") ((TCommit, "Author"), false) (TCommit, "Author"); (* 740 *)
  C (Assembler, TCommit) (bs "committer") (TCommit, "Committer") ((TCommit, "Committer"), false) (TCommit, "Committer"); (* 750 *)
  C (Assembler, TCommit) (bs "encoding") (TCommit, "Encoding") ((TCommit, "Encoding"), false) (TCommit, "Encoding"); (* 760 *)
  C (Assembler, TCommit) (bs "signature") (TCommit, "Signature") ((TCommit, "Signature"), false) (TCommit, "Signature"); (* 770 *)
  C (Assembler, TCommit) (bs "mergetag") (TCommit, "Mergetag") ((TCommit, "Mergetag"), false) (TCommit, "Mergetag"); (* 780 *)
  C (Assembler, TCommit) (bs "other") (TCommit, "Other") ((TCommit, "Other"), false) (TCommit, "Other"); (* 790 *)
  C (Key, TCommit) (bs "tree") (TCommit, "Tree") ((TCommit, "Tree"), false) (TCommit, "Tree"); (* 946 *)
  C (Key, TCommit) (bs "parents") (TCommit, "Parents") ((TCommit, "Parents"), false) (TCommit, "Parents"); (* 954 *)
  C (Key, TCommit) (bs "message") (TCommit, "Message") ((TCommit, "Message"), false) (TCommit, "Message"); (* 962 *)
  C (Key, TCommit) (bs "author") (TCommit, "Author") ((TCommit, "Author"), false) (TCommit, "Author"); (* 970 *)
  C (Key, TCommit) (bs "committer") (TCommit, "Committer") ((TCommit, "Committer"), false) (TCommit, "Committer"); (* 978 *)
  C (Key, TCommit) (bs "encoding") (TCommit, "Encoding") ((TCommit, "Encoding"), false) (TCommit, "Encoding"); (* 986 *)
  C (Key, TCommit) (bs "signature") (TCommit, "Signature") ((TCommit, "Signature"), false) (TCommit, "Signature"); (* 994 *)
  C (Key, TCommit) (bs "mergetag") (TCommit, "Mergetag") ((TCommit, "Mergetag"), false) (TCommit, "Mergetag"); (* 1002 *)
  C (Key, TCommit) (bs "other") (TCommit, "Other") ((TCommit, "Other"), false) (TCommit, "Other"); (* 1010 *)
  C (ReprAssembler, TCommit) (bs "tree") (TCommit, "Tree") ((TCommit, "Tree"), true) (TCommit, "Tree"); (* 1472 *)
  C (ReprAssembler, TCommit) (bs "parents") (TCommit, "Parents") ((TCommit, "Parents"), true) (TCommit, "Parents"); (* 1482 *)
  C (ReprAssembler, TCommit) (bs "message") (TCommit, "Message") ((TCommit, "Message"), true) (TCommit, "Message"); (* 1492 *)
  C (ReprAssembler, TCommit) (bs "author") (TCommit, "Author") ((TCommit, "Author"), true) (TCommit, "Author"); (* 1502 *)
  C (ReprAssembler, TCommit) (bs "committer") (TCommit, "Committer") ((TCommit, "Committer"), true) (TCommit, "Committer"); (* 1513 *)
  C (ReprAssembler, TCommit) (bs "encoding") (TCommit, "Encoding") ((TCommit, "Encoding"), true) (TCommit, "Encoding"); (* 1524 *)
  C (ReprAssembler, TCommit) (bs "signature") (TCommit, "Signature") ((TCommit, "Signature"), true) (TCommit, "Signature"); (* 1535 *)
  C (ReprAssembler, TCommit) (bs "mergetag") (TCommit, "Mergetag") ((TCommit, "Mergetag"), true) (TCommit, "Mergetag"); (* 1546 *)
  C (ReprAssembler, TCommit) (bs "other") (TCommit, "Other") ((TCommit, "Other"), true) (TCommit, "Other"); (* 1556 *)
  C (ReprKey, TCommit) (bs "tree") (TCommit, "Tree") ((TCommit, "Tree"), true) (TCommit, "Tree"); (* 1717 *)
  C (ReprKey, TCommit) (bs "parents") (TCommit, "Parents") ((TCommit, "Parents"), true) (TCommit, "Parents"); (* 1725 *)
  C (ReprKey, TCommit) (bs "message") (TCommit, "Message") ((TCommit, "Message"), true) (TCommit, "Message"); (* 1733 *)
  C (ReprKey, TCommit) (bs "author") (TCommit, "Author") ((TCommit, "Author"), true) (TCommit, "Author"); (* 1741 *)
  C (ReprKey, TCommit) (bs "committer") (TCommit, "Committer") ((TCommit, "Committer"), true) (TCommit, "Committer"); (* 1749 *)
  C (ReprKey, TCommit) (bs "encoding") (TCommit, "Encoding") ((TCommit, "Encoding"), true) (TCommit, "Encoding"); (* 1757 *)
  C (ReprKey, TCommit) (bs "signature") (TCommit, "Signature") ((TCommit, "Signature"), true) (TCommit, "Signature"); (* 1765 *)
  C (ReprKey, TCommit) (bs "mergetag") (TCommit, "Mergetag") ((TCommit, "Mergetag"), true) (TCommit, "Mergetag"); (* 1773 *)
  C (ReprKey, TCommit) (bs "other") (TCommit, "Other") ((TCommit, "Other"), true) (TCommit, "Other"); (* 1781 *)
  C (Assembler, TPersonInfo) (bs "date") (TPersonInfo, "Date") ((TPersonInfo, "Date"), false) (TPersonInfo, "Date"); (* 3384 *)
  C (Assembler, TPersonInfo) (bs "timezone") (TPersonInfo, "Timezone") ((TPersonInfo, "Timezone"), false) (TPersonInfo, "Timezone"); (* 3394 *)
  C (Assembler, TPersonInfo) (bs "email") (TPersonInfo, "Email") ((TPersonInfo, "Email"), false) (TPersonInfo, "Email"); (* 3404 *)
  C (Assembler, TPersonInfo) (bs "name") (TPersonInfo, "Name") ((TPersonInfo, "Name"), false) (TPersonInfo, "Name"); (* 3414 *)
  C (Key, TPersonInfo) (bs "date") (TPersonInfo, "Date") ((TPersonInfo, "Date"), false) (TPersonInfo, "Date"); (* 3547 *)
  C (Key, TPersonInfo) (bs "timezone") (TPersonInfo, "Timezone") ((TPersonInfo, "Timezone"), false) (TPersonInfo, "Timezone"); (* 3555 *)
  C (Key, TPersonInfo) (bs "email") (TPersonInfo, "Email") ((TPersonInfo, "Email"), false) (TPersonInfo, "Email"); (* 3563 *)
  C (Key, TPersonInfo) (bs "name") (TPersonInfo, "Name") ((TPersonInfo, "Name"), false) (TPersonInfo, "Name"); (* 3571 *)
  C (ReprAssembler, TPersonInfo) (bs "date") (TPersonInfo, "Date") ((TPersonInfo, "Date"), true) (TPersonInfo, "Date"); (* 3909 *)
  C (ReprAssembler, TPersonInfo) (bs "timezone") (TPersonInfo, "Timezone") ((TPersonInfo, "Timezone"), true) (TPersonInfo, "Timezone"); (* 3919 *)
  C (ReprAssembler, TPersonInfo) (bs "email") (TPersonInfo, "Email") ((TPersonInfo, "Email"), true) (TPersonInfo, "Email"); (* 3929 *)
  C (ReprAssembler, TPersonInfo) (bs "name") (TPersonInfo, "Name") ((TPersonInfo, "Name"), true) (TPersonInfo, "Name"); (* 3939 *)
  C (ReprKey, TPersonInfo) (bs "date") (TPersonInfo, "Date") ((TPersonInfo, "Date"), true) (TPersonInfo, "Date"); (* 4073 *)
  C (ReprKey, TPersonInfo) (bs "timezone") (TPersonInfo, "Timezone") ((TPersonInfo, "Timezone"), true) (TPersonInfo, "Timezone"); (* 4081 *)
  C (ReprKey, TPersonInfo) (bs "email") (TPersonInfo, "Email") ((TPersonInfo, "Email"), true) (TPersonInfo, "Email"); (* 4089 *)
  C (ReprKey, TPersonInfo) (bs "name") (TPersonInfo, "Name") ((TPersonInfo, "Name"), true) (TPersonInfo, "Name"); (* 4097 *)
  C (Assembler, TTag) (bs "object") (TTag, "Object") ((TTag, "Object"), false) (TTag, "Object"); (* 5309 *)
  C (Assembler, TTag) (bs "type") (TTag, "Type") ((TTag, "Type"), false) (TTag, "Type"); (* 5319 *)
  C (Assembler, TTag) (bs "tag") (TTag, "Tag") ((TTag, "Tag"), false) (TTag, "Tag"); (* 5329 *)
  C (Assembler, TTag) (bs "tagger") (TTag, "Tagger") ((TTag, "Tagger"), false) (TTag, "Tagger"); (* 5339 *)
  C (Assembler, TTag) (bs "message") (TTag, "Message") ((TTag, "Message"), false) (TTag, "Message"); (* 5349 *)
  C (Key, TTag) (bs "object") (TTag, "Object") ((TTag, "Object"), false) (TTag, "Object"); (* 5489 *)
  C (Key, TTag) (bs "type") (TTag, "Type") ((TTag, "Type"), false) (TTag, "Type"); (* 5497 *)
  C (Key, TTag) (bs "tag") (TTag, "Tag") ((TTag, "Tag"), false) (TTag, "Tag"); (* 5505 *)
  C (Key, TTag) (bs "tagger") (TTag, "Tagger") ((TTag, "Tagger"), false) (TTag, "Tagger"); (* 5513 *)
  C (Key, TTag) (bs "message") (TTag, "Message") ((TTag, "Message"), false) (TTag, "Message"); (* 5521 *)
  C (ReprAssembler, TTag) (bs "object") (TTag, "Object") ((TTag, "Object"), true) (TTag, "Object"); (* 5876 *)
  C (ReprAssembler, TTag) (bs "type") (TTag, "Type") ((TTag, "Type"), true) (TTag, "Type"); (* 5886 *)
  C (ReprAssembler, TTag) (bs "tag") (TTag, "Tag") ((TTag, "Tag"), true) (TTag, "Tag"); (* 5896 *)
  C (ReprAssembler, TTag) (bs "tagger") (TTag, "Tagger") ((TTag, "Tagger"), true) (TTag, "Tagger"); (* 5906 *)
  C (ReprAssembler, TTag) (bs "message") (TTag, "Message") ((TTag, "Message"), true) (TTag, "Message"); (* 5916 *)
  C (ReprKey, TTag) (bs "object") (TTag, "Object") ((TTag, "Object"), true) (TTag, "Object"); (* 6057 *)
  C (ReprKey, TTag) (bs "type") (TTag, "Type") ((TTag, "Type"), true) (TTag, "Type"); (* 6065 *)
  C (ReprKey, TTag) (bs "tag") (TTag, "Tag") ((TTag, "Tag"), true) (TTag, "Tag"); (* 6073 *)
  C (ReprKey, TTag) (bs "tagger") (TTag, "Tagger") ((TTag, "Tagger"), true) (TTag, "Tagger"); (* 6081 *)
  C (ReprKey, TTag) (bs "message") (TTag, "Message") ((TTag, "Message"), true) (TTag, "Message"); (* 6089 *)
  C (Assembler, TTreeEntry) (bs "mode") (TTreeEntry, "Mode") ((TTreeEntry, "Mode"), false) (TTreeEntry, "Mode"); (* 7779 *)
  C (Assembler, TTreeEntry) (bs "hash") (TTreeEntry, "Hash") ((TTreeEntry, "Hash"), false) (TTreeEntry, "Hash"); (* 7789 *)
  C (Key, TTreeEntry) (bs "mode") (TTreeEntry, "Mode") ((TTreeEntry, "Mode"), false) (TTreeEntry, "Mode"); (* 7908 *)
  C (Key, TTreeEntry) (bs "hash") (TTreeEntry, "Hash") ((TTreeEntry, "Hash"), false) (TTreeEntry, "Hash"); (* 7916 *)
  C (ReprAssembler, TTreeEntry) (bs "mode") (TTreeEntry, "Mode") ((TTreeEntry, "Mode"), true) (TTreeEntry, "Mode"); (* 8220 *)
  C (ReprAssembler, TTreeEntry) (bs "hash") (TTreeEntry, "Hash") ((TTreeEntry, "Hash"), true) (TTreeEntry, "Hash"); (* 8230 *)
  C (ReprKey, TTreeEntry) (bs "mode") (TTreeEntry, "Mode") ((TTreeEntry, "Mode"), true) (TTreeEntry, "Mode"); (* 8350 *)
  C (ReprKey, TTreeEntry) (bs "hash") (TTreeEntry, "Hash") ((TTreeEntry, "Hash"), true) (TTreeEntry, "Hash") (* 8358 *)
].
Definition mark (a : gotype) (s : num) (k : bytes) : res num :=
  match find (fun x => gotype_eqb (c_of x) a && beqb (c_key x) k) cases with
  | Some x => if N.land s (bit (c_tests x)) =? 0 then Ok (s + bit (c_adds x))
              else Err (ERepeatedKey (field_name (fst (c_tells x)) (snd (c_tells x))))
  | None => Err (EInvalidKey k)
  end.
(** The name of the type in the error for an invalid key *)
Definition invalid_rows : list (gotype * string) := [
  ((Assembler, TCommit), "ipldgit.Commit"); (* 801 *)
  ((Key, TCommit), "ipldgit.Commit"); (* 1019 *)
  ((ReprAssembler, TCommit), "ipldgit.Commit.Repr"); (* 1568 *)
  ((ReprKey, TCommit), "ipldgit.Commit.Repr"); (* 1790 *)
  ((Assembler, TPersonInfo), "ipldgit.PersonInfo"); (* 3425 *)
  ((Key, TPersonInfo), "ipldgit.PersonInfo"); (* 3580 *)
  ((ReprAssembler, TPersonInfo), "ipldgit.PersonInfo.Repr"); (* 3951 *)
  ((ReprKey, TPersonInfo), "ipldgit.PersonInfo.Repr"); (* 4106 *)
  ((Assembler, TTag), "ipldgit.Tag"); (* 5360 *)
  ((Key, TTag), "ipldgit.Tag"); (* 5530 *)
  ((ReprAssembler, TTag), "ipldgit.Tag.Repr"); (* 5928 *)
  ((ReprKey, TTag), "ipldgit.Tag.Repr"); (* 6098 *)
  ((Assembler, TTreeEntry), "ipldgit.TreeEntry"); (* 7800 *)
  ((Key, TTreeEntry), "ipldgit.TreeEntry"); (* 7925 *)
  ((ReprAssembler, TTreeEntry), "ipldgit.TreeEntry.Repr"); (* 8242 *)
  ((ReprKey, TTreeEntry), "ipldgit.TreeEntry.Repr") (* 8367 *)
].
Definition invalid_name (a : gotype) : option string :=
  match find (fun x => gotype_eqb (fst x) a) invalid_rows with Some x => Some (snd x) | None => None end.

(** Finish: the first test, and in it one test for each field that must be there *)
Definition guard_rows : list (gotype * tyname) := [
  ((Assembler, TCommit), TCommit); (* 891 *)
  ((ReprAssembler, TCommit), TCommit); (* 1662 *)
  ((Assembler, TPersonInfo), TPersonInfo); (* 3495 *)
  ((ReprAssembler, TPersonInfo), TPersonInfo); (* 4021 *)
  ((Assembler, TTag), TTag); (* 5434 *)
  ((ReprAssembler, TTag), TTag); (* 6002 *)
  ((Assembler, TTreeEntry), TTreeEntry); (* 7862 *)
  ((ReprAssembler, TTreeEntry), TTreeEntry) (* 8304 *)
].
Definition missing_rows : list (gotype * symbol * bytes) := [
  ((Assembler, TCommit), (TCommit, "Tree"), bs "tree"); (* 893 *)
  ((Assembler, TCommit), (TCommit, "Parents"), bs "parents"); (* 896 *)
  ((Assembler, TCommit), (TCommit, "Message"), bs "message"); (* 899 *)
  ((Assembler, TCommit), (TCommit, "Mergetag"), bs "mergetag"); (* 902 *)
  ((Assembler, TCommit), (TCommit, "Other"), bs "other"); (* 905 *)
  ((ReprAssembler, TCommit), (TCommit, "Tree"), bs "tree"); (* 1664 *)
  ((ReprAssembler, TCommit), (TCommit, "Parents"), bs "parents"); (* 1667 *)
  ((ReprAssembler, TCommit), (TCommit, "Message"), bs "message"); (* 1670 *)
  ((ReprAssembler, TCommit), (TCommit, "Mergetag"), bs "mergetag"); (* 1673 *)
  ((ReprAssembler, TCommit), (TCommit, "Other"), bs "other"); (* 1676 *)
  ((Assembler, TPersonInfo), (TPersonInfo, "Date"), bs "date"); (* 3497 *)
  ((Assembler, TPersonInfo), (TPersonInfo, "Timezone"), bs "timezone"); (* 3500 *)
  ((Assembler, TPersonInfo), (TPersonInfo, "Email"), bs "email"); (* 3503 *)
  ((Assembler, TPersonInfo), (TPersonInfo, "Name"), bs "name"); (* 3506 *)
  ((ReprAssembler, TPersonInfo), (TPersonInfo, "Date"), bs "date"); (* 4023 *)
  ((ReprAssembler, TPersonInfo), (TPersonInfo, "Timezone"), bs "timezone"); (* 4026 *)
  ((ReprAssembler, TPersonInfo), (TPersonInfo, "Email"), bs "email"); (* 4029 *)
  ((ReprAssembler, TPersonInfo), (TPersonInfo, "Name"), bs "name"); (* 4032 *)
  ((Assembler, TTag), (TTag, "Object"), bs "object"); (* 5436 *)
  ((Assembler, TTag), (TTag, "Type"), bs "type"); (* 5439 *)
  ((Assembler, TTag), (TTag, "Tag"), bs "tag"); (* 5442 *)
  ((Assembler, TTag), (TTag, "Tagger"), bs "tagger"); (* 5445 *)
  ((Assembler, TTag), (TTag, "Message"), bs "message"); (* 5448 *)
  ((ReprAssembler, TTag), (TTag, "Object"), bs "object"); (* 6004 *)
  ((ReprAssembler, TTag), (TTag, "Type"), bs "type"); (* 6007 *)
  ((ReprAssembler, TTag), (TTag, "Tag"), bs "tag"); (* 6010 *)
  ((ReprAssembler, TTag), (TTag, "Tagger"), bs "tagger"); (* 6013 *)
  ((ReprAssembler, TTag), (TTag, "Message"), bs "message"); (* 6016 *)
  ((Assembler, TTreeEntry), (TTreeEntry, "Mode"), bs "mode"); (* 7864 *)
  ((Assembler, TTreeEntry), (TTreeEntry, "Hash"), bs "hash"); (* 7867 *)
  ((ReprAssembler, TTreeEntry), (TTreeEntry, "Mode"), bs "mode"); (* 8306 *)
  ((ReprAssembler, TTreeEntry), (TTreeEntry, "Hash"), bs "hash") (* 8309 *)
].
Definition finish (a : gotype) (s : num) : res unit :=
  match find (fun x => gotype_eqb (fst x) a) guard_rows with
  | None => Panic
  | Some (_, t) =>
      if N.land s (sufficient_bits t) =? sufficient_bits t then Ok tt
      else Err (EMissing (map snd (filter (fun x => gotype_eqb (fst (fst x)) a && (N.land s (bit (snd (fst x))) =? 0)) missing_rows)))
  end.

(** Keys offered one after the other to a struct, each either to AssembleEntry ([false]) or to the assembler of keys ([true]);
    a refused key changes nothing.  The answers, and the bits in the end. *)
Definition key_view (a : gotype) (by_key : bool) : gotype :=
  if by_key then match a with (Assembler, t) => (Key, t) | (ReprAssembler, t) => (ReprKey, t) | _ => a end else a.
Fixpoint offer (a : gotype) (s : num) (ks : list (bool * bytes)) : list (res unit) * num :=
  match ks with
  | [] => ([], s)
  | (w, k) :: ks =>
      let r := mark (key_view a w) s k in
      let s' := match r with Ok s' => s' | _ => s end in
      let '(rs, s'') := offer a s' ks in (map_res (fun _ => tt) r :: rs, s'')
  end.
