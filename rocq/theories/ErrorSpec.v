(** Specification: why a text is not an object, and which error says so.  The counterpart of
    HeaderSpec.v, for the texts it leaves out; nothing here refers to the decoders. *)
From Verif Require Import Base GoStr Cid Types Spec HeaderSpec.

(** ** Hashes: the first character that is no hexadecimal digit, an odd number of them, or not 20 bytes *)
Definition hex_char (c : byte) : Prop := In (lower c) (bs "0123456789abcdef").
Inductive bad_hash : bytes -> err -> Prop :=
| bad_char pre c post : (forall x, In x pre -> hex_char x) -> ~ hex_char c -> bad_hash (pre ++ [c] ++ post) (EHexByte c)
| bad_odd h : (forall x, In x h -> hex_char x) -> (forall n, length h <> n + n) -> bad_hash h EHexLength
| bad_length h sha : hex_text h sha -> ~ is_sha sha -> bad_hash h (EShaLength (length sha)).

(** ** Persons: fewer than three words, or no email.  The error holds the line. *)
Inductive bad_person (line : bytes) : err -> Prop :=
| bad_words : length (words line) < 3 -> bad_person line (EPersonFormat line)
| bad_email : 3 <= length (words line) -> (forall p, ~ person_line line p) -> bad_person line (EPersonInvalid line).

(** ** Sizes

    [bad_number s e]: [e] says what is wrong with [s]; the error of an object holds [s], too.  A character that is no digit is a syntax error, unless the digits before it make a number
    of more than 64 bits. *)
Definition digit (c : byte) : Prop := In c (bs "0123456789").
Definition sign (s : bytes) : Prop := s = [] \/ s = bs "+" \/ s = bs "-".
Inductive bad_number : bytes -> err -> Prop :=
| bad_empty s : sign s -> bad_number s ESyntax
| bad_digit s ds v c post : sign s -> dec_value 0 ds = Some v -> (v < 2 ^ 64)%N -> ~ digit c ->
    (s = [] -> ds = [] -> c <> x2b /\ c <> x2d) -> bad_number (s ++ ds ++ [c] ++ post) ESyntax
| bad_huge s ds v post : sign s -> dec_value 0 ds = Some v -> (2 ^ 64 <= v)%N -> bad_number (s ++ ds ++ post) ERange
| bad_range s z : numeral s z -> ~ int_range z -> bad_number s ERange.

(** ** Trees: a hash that breaks off, or a name that comes twice *)
Inductive tree_refused : bytes -> err -> Prop :=
| tree_cut es mode name part : tree_ok es -> ~ In SP mode -> ~ In NUL name -> 0 < length part < 20 ->
    tree_refused (tree_text es ++ mode ++ [SP] ++ name ++ [NUL] ++ part) EUnexpectedEOF
| tree_twice es e r : tree_ok es -> entry_ok e -> In (ge_name e) (map ge_name es) ->
    tree_refused (tree_text es ++ entry_text e ++ r) (ERepeatedKey (ge_name e)).

(** ** Commits

    [bad_block ls r e]: the lines [ls], with [r] after them, begin a block that is wrong. *)
Inductive bad_block : list bytes -> bytes -> err -> Prop :=
| bb_tree h r e : bad_hash h e -> bad_block [bs "tree " ++ h] r e
| bb_parent h r e : bad_hash h e -> bad_block [bs "parent " ++ h] r e
| bb_author x r e : bad_person (bs "author " ++ x) e -> bad_block [bs "author " ++ x] r e
| bb_committer x r e : bad_person (bs "committer " ++ x) e -> bad_block [bs "committer " ++ x] r e
| bb_mergetag h r e : bad_hash h e -> bad_block [bs "mergetag object " ++ h] r e
| bb_tagger h sha ms x r e : hex_text h sha -> is_sha sha -> (forall m, In m ms -> mline_ok m) ->
    bad_person (bs "tagger " ++ x) e ->
    bad_block ([bs "mergetag object " ++ h] ++ map mline_text ms ++ [bs " tagger " ++ x]) r e
| bb_message h sha ms msg : hex_text h sha -> is_sha sha -> (forall m, In m ms -> mline_ok m) ->
    (forall l, In l msg -> starts_with SP l) ->
    bad_block ([bs "mergetag object " ++ h] ++ map mline_text ms ++ [bs " "] ++ msg) [] EEOF
| bb_no_signature x : bad_block [bs "gpgsig " ++ x] [] EEOF
| bb_first x first r : ~ signature_ok (first, []) -> bad_block [bs "gpgsig " ++ x; first] r EGpgFirstLine
| bb_signature x first ss : signature_ok (first, ss) -> bad_block ([bs "gpgsig " ++ x] ++ [first] ++ ss) [] EEOF.

Definition commit_refused (B : nat) (d : bytes) (e : err) : Prop :=
  exists ks ls r, reads B d (header_lines ks ++ ls) r /\ (forall k, In k ks -> block_ok k) /\
    mergetags_end ks (EndMessage []) /\ bad_block ls r e.

(** ** Tags *)
Inductive bad_tline : bytes -> err -> Prop :=
| bt_object h e : bad_hash h e -> bad_tline (bs "object " ++ h) e
| bt_tagger x e : bad_person (bs "tagger " ++ x) e -> bad_tline (bs "tagger " ++ x) e.
Definition tag_refused (B : nat) (d : bytes) (e : err) : Prop :=
  exists ts l r, reads B d (map tline_text ts ++ [l]) r /\ (forall x, In x ts -> tline_ok x) /\ bad_tline l e.

(** ** Objects *)
Definition sized_types : list bytes := [bs "blob"; bs "tree"; bs "commit"].
Inductive object_refused (B : nat) : bytes -> err -> Prop :=
| or_no_type d : ~ In SP d -> object_refused B d EUnexpectedEOF
| or_type typ r : ~ In SP typ -> ~ In typ (bs "tag" :: sized_types) ->
    object_refused B (typ ++ [SP] ++ r) (EUnknownType typ)
| or_no_size typ r : In typ (bs "tag" :: sized_types) -> ~ In NUL r -> object_refused B (typ ++ [SP] ++ r) EEOF
| or_size typ size r e : In typ sized_types -> ~ In NUL size -> bad_number size e ->
    object_refused B (typ ++ [SP] ++ size ++ [NUL] ++ r) (ENumber size e)
| or_negative size z r : numeral size z -> int_range z -> (z < 0)%Z ->
    object_refused B (bs "blob " ++ size ++ [NUL] ++ r) (ENegativeSize z)
| or_no_content size z : numeral size z -> int_range z -> (0 < z)%Z ->
    object_refused B (bs "blob " ++ size ++ [NUL]) EEOF
| or_content size z content : numeral size z -> int_range z -> content <> [] -> (Z.of_nat (length content) < z)%Z ->
    object_refused B (bs "blob " ++ size ++ [NUL] ++ content) EUnexpectedEOF
| or_tree size z d e : numeral size z -> int_range z -> tree_refused d e ->
    object_refused B (bs "tree " ++ size ++ [NUL] ++ d) e
| or_commit size z d e : numeral size z -> int_range z -> commit_refused B d e ->
    object_refused B (bs "commit " ++ size ++ [NUL] ++ d) e
| or_tag size d e : ~ In NUL size -> tag_refused B d e ->
    object_refused B (bs "tag " ++ size ++ [NUL] ++ d) e.
