(** Specification: git objects as byte strings, and which of them are canonical.

    Nothing here refers to the decoders, encoders or reader model: only to byte
    strings, the value types of Types.v, decimal and hexadecimal numerals. *)
From Verif Require Import Base GoStr Cid Types.

(** ** Objects: "<type> <decimal length>\0<body>" *)
Definition git_object (typ body : bytes) : bytes :=
  typ ++ [SP] ++ dec (N.of_nat (length body)) ++ [NUL] ++ body.

(** A size that fits Go's int. *)
Definition fits (b : bytes) : Prop := (Z.of_nat (length b) < 2 ^ 63)%Z.

(** ** Decimal integers: digits, with an optional sign *)
Inductive numeral : bytes -> Z -> Prop :=
| num_plain ds n : ds <> [] -> dec_value 0 ds = Some n -> numeral ds (Z.of_N n)
| num_plus ds n : ds <> [] -> dec_value 0 ds = Some n -> numeral (bs "+" ++ ds) (Z.of_N n)
| num_minus ds n : ds <> [] -> dec_value 0 ds = Some n -> numeral (bs "-" ++ ds) (- Z.of_N n).
(** An integer that fits Go's int. *)
Definition int_range (z : Z) : Prop := (- 2 ^ 63 <= z < 2 ^ 63)%Z.

Definition is_sha (s : bytes) : Prop := length s = 20.

(** CIDv1, codec git-raw (0x78), multihash sha1 (0x11) of 20 bytes (0x14). *)
Definition git_cid (sha : bytes) : bytes := x01 :: x78 :: x11 :: x14 :: sha.
Definition git_link (sha : bytes) : link := LCid (git_cid sha).

(** ** Words: maximal space-free pieces (of "a  b": "a", "", "b") *)
Definition words (s : bytes) : list bytes := split_on SP s.
Definition starts_with (c : byte) (w : bytes) : Prop := exists r, w = c :: r.
Definition ends_with (c : byte) (w : bytes) : Prop := exists r, w = r ++ [c].

(** ** Persons: "name <email> date timezone" *)
Definition person_text (p : person) : bytes :=
  p_name p ++ bs " <" ++ p_email p ++ bs ">"
  ++ match p_date p with [] => [] | d => [SP] ++ d end
  ++ match p_timezone p with [] => [] | z => [SP] ++ z end.

Definition name_ok (n : bytes) : Prop :=
  ~ starts_with SP n /\ forall w, In w (words n) -> ~ starts_with LT w.

(** Words of the email but the last do not end in '>', words but the first do not
    start with '<'. *)
Definition email_ok (e : bytes) : Prop :=
  (forall pre w post, words e = pre ++ w :: post -> post <> [] -> ~ ends_with GT w) /\
  (forall pre w post, words e = pre ++ w :: post -> pre <> [] -> ~ starts_with LT w).

Definition person_ok (p : person) : Prop :=
  name_ok (p_name p) /\ email_ok (p_email p) /\
  ~ In SP (p_date p) /\ ~ In SP (p_timezone p) /\
  (p_date p = [] -> p_timezone p = []).

(** ** Trees: entries (mode, name, sha), "mode name\0sha" each *)
Definition gentry := (bytes * bytes * bytes)%type.
Definition ge_mode (e : gentry) : bytes := fst (fst e).
Definition ge_name (e : gentry) : bytes := snd (fst e).
Definition ge_sha (e : gentry) : bytes := snd e.

Definition entry_text (e : gentry) : bytes :=
  ge_mode e ++ [SP] ++ ge_name e ++ [NUL] ++ ge_sha e.
Definition tree_text (es : list gentry) : bytes := concat (map entry_text es).

Definition entry_ok (e : gentry) : Prop :=
  ~ In SP (ge_mode e) /\ ~ In NUL (ge_name e) /\ is_sha (ge_sha e).
Definition tree_ok (es : list gentry) : Prop :=
  (forall e, In e es -> entry_ok e) /\ NoDup (map ge_name es).

(** ** Lines that a reader with a buffer of [B] bytes hands out unchanged *)
Definition line_ok (B : nat) (l : bytes) : Prop :=
  ~ In NL l /\ ~ ends_with CR l /\ length l < B.

(** Lines, each with its newline. *)
Definition unlines (ls : list bytes) : bytes := concat (map (fun l => l ++ [NL]) ls).

(** ** Tags *)
Record gtag := {
  gt_object : bytes;
  gt_type : bytes;
  gt_tag : bytes;
  gt_tagger : person;
  gt_message : bytes
}.

Definition tag_lines (g : gtag) : list bytes :=
  [ bs "object " ++ hex_encode (gt_object g);
    bs "type " ++ gt_type g;
    bs "tag " ++ gt_tag g;
    bs "tagger " ++ person_text (gt_tagger g) ].

Definition tag_text (g : gtag) : bytes :=
  unlines (tag_lines g) ++ [NL] ++ gt_message g.

Definition tag_ok (B : nat) (g : gtag) : Prop :=
  is_sha (gt_object g) /\ person_ok (gt_tagger g) /\ gt_message g <> [] /\
  forall l, In l (tag_lines g) -> line_ok B l.

(** ** Commits *)
Record gmergetag := {
  gm_object : bytes;
  gm_type : bytes;
  gm_tag : bytes;
  gm_tagger : person;
  gm_message : list bytes          (* lines, each starting with a space *)
}.

Record gcommit := {
  gc_tree : bytes;
  gc_parents : list bytes;
  gc_author : person;
  gc_committer : person;
  gc_encoding : option bytes;
  gc_mergetags : list gmergetag;
  gc_signature : option (bytes * list bytes);  (* lines of the armor body *)
  gc_other : list bytes;
  gc_message : bytes
}.

Definition mergetag_lines (g : gmergetag) : list bytes :=
  [ bs "mergetag object " ++ hex_encode (gm_object g);
    bs " type " ++ gm_type g;
    bs " tag " ++ gm_tag g;
    bs " tagger " ++ person_text (gm_tagger g);
    bs " " ] ++ gm_message g.

Definition opt_list {A B} (f : A -> list B) (o : option A) : list B :=
  match o with Some a => f a | None => [] end.

Definition pgp_begin : bytes := bs "gpgsig -----BEGIN PGP SIGNATURE-----".
Definition pgp_end : bytes := bs " -----END PGP SIGNATURE-----".

Definition signature_lines (sg : bytes * list bytes) : list bytes :=
  [pgp_begin] ++ [fst sg] ++ snd sg ++ [pgp_end].

Definition commit_lines (g : gcommit) : list bytes :=
  [bs "tree " ++ hex_encode (gc_tree g)]
  ++ map (fun p => bs "parent " ++ hex_encode p) (gc_parents g)
  ++ [bs "author " ++ person_text (gc_author g);
      bs "committer " ++ person_text (gc_committer g)]
  ++ opt_list (fun e => [bs "encoding " ++ e]) (gc_encoding g)
  ++ concat (map mergetag_lines (gc_mergetags g))
  ++ opt_list signature_lines (gc_signature g)
  ++ gc_other g.

Definition commit_text (g : gcommit) : bytes :=
  unlines (commit_lines g) ++ [NL] ++ gc_message g.

(** The words that begin the headers git itself writes. *)
Definition header_words : list bytes :=
  [bs "tree "; bs "parent "; bs "author "; bs "committer "; bs "encoding ";
   bs "mergetag object "; bs "gpgsig "].
Definition begins_with (p l : bytes) : Prop := exists r, l = p ++ r.
Definition is_header (l : bytes) : Prop := exists p, In p header_words /\ begins_with p l.

Definition mergetag_ok (g : gmergetag) : Prop :=
  is_sha (gm_object g) /\ person_ok (gm_tagger g) /\
  forall l, In l (gm_message g) -> starts_with SP l.

Definition signature_ok (sg : bytes * list bytes) : Prop :=
  (fst sg = bs " " \/ begins_with (bs " Version: ") (fst sg) \/ begins_with (bs " Comment: ") (fst sg)) /\
  ~ In pgp_end (snd sg).

Definition commit_ok (B : nat) (g : gcommit) : Prop :=
  is_sha (gc_tree g) /\
  (forall p, In p (gc_parents g) -> is_sha p) /\
  person_ok (gc_author g) /\ person_ok (gc_committer g) /\
  (forall m, In m (gc_mergetags g) -> mergetag_ok m) /\
  (forall s, gc_signature g = Some s -> signature_ok s) /\
  (forall l, In l (gc_other g) -> l <> [] /\ ~ is_header l) /\
  (* a line starting with a space right after a merge tag belongs to the merge tag *)
  (gc_mergetags g <> [] -> gc_signature g = None ->
   forall l ls, gc_other g = l :: ls -> ~ starts_with SP l) /\
  forall l, In l (commit_lines g) -> line_ok B l.

(** ** The values these texts stand for *)
Definition tag_value (g : gtag) : tag :=
  {| t_object := git_link (gt_object g); t_type := gt_type g; t_tag := gt_tag g;
     t_tagger := gt_tagger g; t_message := gt_message g |}.

Definition mergetag_value (g : gmergetag) : tag :=
  {| t_object := git_link (gm_object g); t_type := gm_type g; t_tag := gm_tag g;
     t_tagger := gm_tagger g; t_message := unlines (gm_message g) |}.

Definition commit_value (g : gcommit) : commit :=
  {| c_tree := git_link (gc_tree g); c_parents := map git_link (gc_parents g);
     c_message := gc_message g; c_author := Some (gc_author g);
     c_committer := Some (gc_committer g); c_encoding := gc_encoding g;
     c_signature := option_map (fun sg => unlines (fst sg :: snd sg)) (gc_signature g);
     c_mergetag := map mergetag_value (gc_mergetags g);
     c_other := gc_other g |}.

Definition entry_value (e : gentry) : bytes * entry :=
  (ge_name e, {| e_mode := ge_mode e; e_hash := git_link (ge_sha e) |}).
(** The entry table in order; the name index finds the entry of each name. *)
Definition tree_value (es : list gentry) : tree :=
  {| tr_t := map entry_value es; tr_m := rev (map entry_value es) |}.

(** ** Well formed nodes, and the git object each stands for *)
Inductive stands_for (B : nat) : node -> bytes -> Prop :=
| sf_blob content : fits content ->
    stands_for B (NBlob (git_object (bs "blob") content)) (git_object (bs "blob") content)
| sf_tree es : fits (tree_text es) -> tree_ok es ->
    stands_for B (NTree (tree_value es)) (git_object (bs "tree") (tree_text es))
| sf_commit g : fits (commit_text g) -> commit_ok B g ->
    stands_for B (NCommit (commit_value g)) (git_object (bs "commit") (commit_text g))
| sf_tag g : fits (tag_text g) -> tag_ok B g ->
    stands_for B (NTag (tag_value g)) (git_object (bs "tag") (tag_text g)).
