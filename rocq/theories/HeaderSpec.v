(** Specification: which texts are commits and tags, and what they mean.

    A text is first cut in lines, the way bufio.Reader.ReadLine does it.  The lines of a
    commit are grouped in blocks, in any order; each block changes the commit in one way.
    Nothing here refers to the decoders. *)
From Verif Require Import Base GoStr Cid Types Spec.

(** ** Updates of one field of a commit *)

Definition with_tree (c : commit) (l : link) : commit :=
  {| c_tree := l; c_parents := c_parents c; c_message := c_message c; c_author := c_author c;
     c_committer := c_committer c; c_encoding := c_encoding c; c_signature := c_signature c;
     c_mergetag := c_mergetag c; c_other := c_other c |}.
Definition with_parents (c : commit) (l : list link) : commit :=
  {| c_tree := c_tree c; c_parents := c_parents c ++ l; c_message := c_message c; c_author := c_author c;
     c_committer := c_committer c; c_encoding := c_encoding c; c_signature := c_signature c;
     c_mergetag := c_mergetag c; c_other := c_other c |}.
Definition with_message (c : commit) (m : bytes) : commit :=
  {| c_tree := c_tree c; c_parents := c_parents c; c_message := m; c_author := c_author c;
     c_committer := c_committer c; c_encoding := c_encoding c; c_signature := c_signature c;
     c_mergetag := c_mergetag c; c_other := c_other c |}.
Definition with_author (c : commit) (p : person) : commit :=
  {| c_tree := c_tree c; c_parents := c_parents c; c_message := c_message c; c_author := Some p;
     c_committer := c_committer c; c_encoding := c_encoding c; c_signature := c_signature c;
     c_mergetag := c_mergetag c; c_other := c_other c |}.
Definition with_committer (c : commit) (p : person) : commit :=
  {| c_tree := c_tree c; c_parents := c_parents c; c_message := c_message c; c_author := c_author c;
     c_committer := Some p; c_encoding := c_encoding c; c_signature := c_signature c;
     c_mergetag := c_mergetag c; c_other := c_other c |}.
Definition with_encoding (c : commit) (e : bytes) : commit :=
  {| c_tree := c_tree c; c_parents := c_parents c; c_message := c_message c; c_author := c_author c;
     c_committer := c_committer c; c_encoding := Some e; c_signature := c_signature c;
     c_mergetag := c_mergetag c; c_other := c_other c |}.
Definition with_signature (c : commit) (s : bytes) : commit :=
  {| c_tree := c_tree c; c_parents := c_parents c; c_message := c_message c; c_author := c_author c;
     c_committer := c_committer c; c_encoding := c_encoding c; c_signature := Some s;
     c_mergetag := c_mergetag c; c_other := c_other c |}.
Definition with_mergetags (c : commit) (l : list tag) : commit :=
  {| c_tree := c_tree c; c_parents := c_parents c; c_message := c_message c; c_author := c_author c;
     c_committer := c_committer c; c_encoding := c_encoding c; c_signature := c_signature c;
     c_mergetag := c_mergetag c ++ l; c_other := c_other c |}.
Definition with_other (c : commit) (l : list bytes) : commit :=
  {| c_tree := c_tree c; c_parents := c_parents c; c_message := c_message c; c_author := c_author c;
     c_committer := c_committer c; c_encoding := c_encoding c; c_signature := c_signature c;
     c_mergetag := c_mergetag c; c_other := c_other c ++ l |}.

(** ** Lines

    [takes B d l r]: with a buffer of [B] bytes the next line of the text [d] is [l],
    and [r] is what follows.  A line ends with a newline or with a carriage return and a
    newline; the last line may lack its end; a line that does not fit the buffer is cut. *)
Inductive takes (B : nat) : bytes -> bytes -> bytes -> Prop :=
| takes_nl l r : ~ In NL l -> ~ ends_with CR l -> length l < B -> takes B (l ++ [NL] ++ r) l r
| takes_crnl l r : ~ In NL l -> S (length l) < B -> takes B (l ++ [CR; NL] ++ r) l r
| takes_last l : l <> [] -> ~ In NL l -> length l < B -> takes B l l []
| takes_cut l r : ~ In NL l -> ~ ends_with CR l -> length l = B -> takes B (l ++ r) l r
| takes_cut_cr l r : ~ In NL l -> S (length l) = B -> takes B (l ++ [CR] ++ r) l (CR :: r).

(** The lines [ls] come first in the text, then [r]. *)
Inductive reads (B : nat) : bytes -> list bytes -> bytes -> Prop :=
| reads_none d : reads B d [] d
| reads_line d l d1 ls r : takes B d l d1 -> reads B d1 ls r -> reads B d (l :: ls) r.

(** ** Person lines: a label, a name, an email in angle brackets, a date, a timezone

    Every word of the email loses a '<' in front; the email ends with the first word that
    then ends with '>'.  Words after the timezone are ignored. *)
Definition unlt (w : bytes) : bytes := match w with x3c :: r => r | _ => w end.   (* '<' *)
Definition person_line (line : bytes) (p : person) : Prop :=
  exists label blanks name email more,
    words line = label :: blanks ++ name ++ email ++ more /\
    3 <= length (words line) /\
    (forall w, In w blanks -> w = []) /\
    (forall w ws, name = w :: ws -> w <> []) /\
    (forall w, In w name -> ~ starts_with LT w) /\
    (exists w ws, email = w :: ws /\ starts_with LT w) /\
    (forall pre w w' post, email = pre ++ w :: w' :: post -> ~ ends_with GT (unlt w)) /\
    p_name p = join SP name /\
    p_email p ++ [GT] = join SP (map unlt email) /\
    p_date p = nth 0 more [] /\ p_timezone p = nth 1 more [].

(** ** Hashes in hexadecimal, in upper or lower case *)
Definition lower (c : byte) : byte :=
  match c with
  | x41 => x61 | x42 => x62 | x43 => x63 | x44 => x64 | x45 => x65 | x46 => x66   (* A-F *)
  | c => c
  end.
Definition hex_text (h sha : bytes) : Prop := map lower h = hex_encode sha.


(** ** Merge tags: a tag inside a commit *)
Inductive mline :=
| MType (x : bytes)                 (* " type <x>" *)
| MTag (x : bytes)                  (* " tag <x>" *)
| MTagger (x : bytes) (p : person)  (* " tagger <x>" *)
| MIgnored (l : bytes).             (* any other line but " " *)

Definition mline_text (m : mline) : bytes :=
  match m with
  | MType x => bs " type " ++ x
  | MTag x => bs " tag " ++ x
  | MTagger x _ => bs " tagger " ++ x
  | MIgnored l => l
  end.
Definition mline_ok (m : mline) : Prop :=
  match m with
  | MType _ | MTag _ => True
  | MTagger x p => person_line (bs "tagger " ++ x) p
  | MIgnored l => l <> bs " " /\ ~ begins_with (bs " type ") l /\ ~ begins_with (bs " tag ") l /\
                  ~ begins_with (bs " tagger ") l
  end.
Definition mline_apply (t : tag) (m : mline) : tag :=
  match m with
  | MType x => {| t_object := t_object t; t_type := x; t_tag := t_tag t; t_tagger := t_tagger t; t_message := t_message t |}
  | MTag x => {| t_object := t_object t; t_type := t_type t; t_tag := x; t_tagger := t_tagger t; t_message := t_message t |}
  | MTagger _ p => {| t_object := t_object t; t_type := t_type t; t_tag := t_tag t; t_tagger := p; t_message := t_message t |}
  | MIgnored _ => t
  end.
(** The merge tag of an object: its header lines, then its message. *)
Definition mtag_value (sha : bytes) (ms : list mline) (msg : bytes) : tag :=
  fold_left mline_apply ms
    {| t_object := git_link sha; t_type := []; t_tag := []; t_tagger := zero_person; t_message := msg |}.

(** ** Commits *)
Inductive block :=
| KTree (h sha : bytes)                       (* "tree <h>" *)
| KParent (h sha : bytes)                     (* "parent <h>" *)
| KAuthor (x : bytes) (p : person)            (* "author <x>" *)
| KCommitter (x : bytes) (p : person)         (* "committer <x>" *)
| KEncoding (x : bytes)                       (* "encoding <x>" *)
| KMergetag (h sha : bytes) (ms : list mline) (msg : list bytes)
                                              (* "mergetag object <h>", header lines, " ", lines *)
| KSignature (x first : bytes) (ss : list bytes)
                                              (* "gpgsig <x>", lines, the PGP end line *)
| KOther (l : bytes).                         (* any other line but the empty one *)

Definition block_lines (k : block) : list bytes :=
  match k with
  | KTree h _ => [bs "tree " ++ h]
  | KParent h _ => [bs "parent " ++ h]
  | KAuthor x _ => [bs "author " ++ x]
  | KCommitter x _ => [bs "committer " ++ x]
  | KEncoding x => [bs "encoding " ++ x]
  | KMergetag h _ ms msg => [bs "mergetag object " ++ h] ++ map mline_text ms ++ [bs " "] ++ msg
  | KSignature x first ss => [bs "gpgsig " ++ x] ++ [first] ++ ss ++ [pgp_end]
  | KOther l => [l]
  end.
Definition header_lines (ks : list block) : list bytes := concat (map block_lines ks).

Definition block_ok (k : block) : Prop :=
  match k with
  | KTree h sha | KParent h sha => hex_text h sha /\ is_sha sha
  | KAuthor x p => person_line (bs "author " ++ x) p
  | KCommitter x p => person_line (bs "committer " ++ x) p
  | KEncoding x => True
  | KMergetag h sha ms msg => hex_text h sha /\ is_sha sha /\ (forall m, In m ms -> mline_ok m) /\
                              forall l, In l msg -> starts_with SP l
  | KSignature x first ss => signature_ok (first, ss)
  | KOther l => l <> [] /\ ~ is_header l
  end.

(** What a block does to the commit: later ones win, parents, merge tags and other lines
    add up. *)
Definition apply_block (c : commit) (k : block) : commit :=
  match k with
  | KTree _ sha => with_tree c (git_link sha)
  | KParent _ sha => with_parents c [git_link sha]
  | KAuthor _ p => with_author c p
  | KCommitter _ p => with_committer c p
  | KEncoding x => with_encoding c x
  | KMergetag _ sha ms msg => with_mergetags c [mtag_value sha ms (unlines msg)]
  | KSignature _ first ss => with_signature c (unlines (first :: ss))
  | KOther l => with_other c [l]
  end.
Definition header_value (ks : list block) : commit := fold_left apply_block ks zero_commit.

(** How a commit ends. *)
Inductive ending :=
| EndNone                                     (* no blank line *)
| EndMessage (msg : bytes)                    (* a blank line, then the message *)
| EndMergetag (h sha : bytes) (ms : list mline).    (* inside the header of a merge tag *)
Definition ending_lines (en : ending) : list bytes :=
  match en with
  | EndNone => []
  | EndMessage _ => [[]]
  | EndMergetag h _ ms => (bs "mergetag object " ++ h) :: map mline_text ms
  end.
Definition ending_rest (en : ending) : bytes := match en with EndMessage msg => msg | _ => [] end.
Definition ending_ok (en : ending) : Prop :=
  match en with
  | EndMergetag h sha ms => hex_text h sha /\ is_sha sha /\ forall m, In m ms -> mline_ok m
  | _ => True
  end.
Definition apply_ending (c : commit) (en : ending) : commit :=
  match en with
  | EndNone => c
  | EndMessage msg => with_message c msg
  | EndMergetag _ sha ms => with_mergetags c [mtag_value sha ms []]
  end.

(** A merge tag ends with a line that does not start with a space. *)
Fixpoint mergetags_end (ks : list block) (en : ending) : Prop :=
  match ks with
  | [] => True
  | KMergetag _ _ _ _ :: ks' =>
      (match ks' with
       | [] => en <> EndNone
       | KOther l :: _ => ~ starts_with SP l
       | _ => True
       end) /\ mergetags_end ks' en
  | _ :: ks' => mergetags_end ks' en
  end.

(** The text [d] of a commit stands for the commit [c]. *)
Definition commit_means (B : nat) (d : bytes) (c : commit) : Prop :=
  exists ks en,
    reads B d (header_lines ks ++ ending_lines en) (ending_rest en) /\
    (forall k, In k ks -> block_ok k) /\ ending_ok en /\ mergetags_end ks en /\
    c = apply_ending (header_value ks) en.

(** ** Tags *)
Inductive tline :=
| TObject (h sha : bytes)           (* "object <h>" *)
| TType (x : bytes)                 (* "type <x>" *)
| TTag (x : bytes)                  (* "tag <x>" *)
| TTagger (x : bytes) (p : person)  (* "tagger <x>" *)
| TIgnored (l : bytes).             (* any other line but the empty one *)
Definition tline_text (t : tline) : bytes :=
  match t with
  | TObject h _ => bs "object " ++ h
  | TType x => bs "type " ++ x
  | TTag x => bs "tag " ++ x
  | TTagger x _ => bs "tagger " ++ x
  | TIgnored l => l
  end.
Definition tag_words : list bytes := [bs "object "; bs "type "; bs "tag "; bs "tagger "].
Definition tline_ok (t : tline) : Prop :=
  match t with
  | TObject h sha => hex_text h sha /\ is_sha sha
  | TType _ | TTag _ => True
  | TTagger x p => person_line (bs "tagger " ++ x) p
  | TIgnored l => l <> [] /\ forall w, In w tag_words -> ~ begins_with w l
  end.
Definition tline_apply (t : tag) (x : tline) : tag :=
  match x with
  | TObject _ sha => {| t_object := git_link sha; t_type := t_type t; t_tag := t_tag t; t_tagger := t_tagger t; t_message := t_message t |}
  | TType x => {| t_object := t_object t; t_type := x; t_tag := t_tag t; t_tagger := t_tagger t; t_message := t_message t |}
  | TTag x => {| t_object := t_object t; t_type := t_type t; t_tag := x; t_tagger := t_tagger t; t_message := t_message t |}
  | TTagger _ p => {| t_object := t_object t; t_type := t_type t; t_tag := t_tag t; t_tagger := p; t_message := t_message t |}
  | TIgnored _ => t
  end.
Definition tag_of (ts : list tline) (msg : bytes) : tag :=
  fold_left tline_apply ts
    {| t_object := LNil; t_type := []; t_tag := []; t_tagger := zero_person; t_message := msg |}.
(** The lines that are ignored (and printed). *)
Definition ignored (ts : list tline) : list bytes :=
  concat (map (fun t => match t with TIgnored l => [l] | _ => [] end) ts).

(** The text [d] of a tag stands for the tag [t]; [pr] are the ignored lines. *)
Definition tag_means (B : nat) (d : bytes) (t : tag) (pr : list bytes) : Prop :=
  exists ts (msg : option bytes),
    reads B d (map tline_text ts ++ match msg with Some _ => [[]] | None => [] end)
              (match msg with Some m => m | None => [] end) /\
    (forall x, In x ts -> tline_ok x) /\
    t = tag_of ts (match msg with Some m => m | None => [] end) /\ pr = ignored ts.

(** ** Trees: entries, and possibly an incomplete one, which is dropped *)
Definition incomplete (d : bytes) : Prop :=
  ~ In SP d \/
  (exists mode n, d = mode ++ [SP] ++ n /\ ~ In SP mode /\ ~ In NUL n) \/
  (exists mode n, d = mode ++ [SP] ++ n ++ [NUL] /\ ~ In SP mode /\ ~ In NUL n).
Definition tree_means (d : bytes) (t : tree) : Prop :=
  exists es cutoff, d = tree_text es ++ cutoff /\ tree_ok es /\ incomplete cutoff /\ t = tree_value es.

(** ** Objects

    [object_means B d n]: the bytes [d] are a git object, as far as this library is
    concerned, and [n] is what it stands for. *)
Inductive object_means (B : nat) : bytes -> node -> Prop :=
| om_blob size content more :
    numeral size (Z.of_nat (length content)) -> fits content ->
    object_means B (bs "blob " ++ size ++ [NUL] ++ content ++ more) (NBlob (git_object (bs "blob") content))
| om_tree size z d t :
    numeral size z -> int_range z -> tree_means d t ->
    object_means B (bs "tree " ++ size ++ [NUL] ++ d) (NTree t)
| om_commit size z d c :
    numeral size z -> int_range z -> commit_means B d c ->
    object_means B (bs "commit " ++ size ++ [NUL] ++ d) (NCommit c)
| om_tag size d t pr :
    ~ In NUL size -> tag_means B d t pr ->
    object_means B (bs "tag " ++ size ++ [NUL] ++ d) (NTag t).
