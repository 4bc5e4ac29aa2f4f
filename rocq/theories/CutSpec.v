(** Specification: what becomes of a commit or a tag that breaks off.

    A commit or tag that git wrote (the texts of Spec.v) is cut at some byte and the rest is
    lost.  The tables below say, for every place where the cut can be, what the part that is
    left stands for, or with which error it is refused.  Nothing here refers to the decoders. *)
From Verif Require Import Base GoStr Cid Types Spec HeaderSpec.

(** ** A hash that breaks off: [x] is left of the 40 digits of [sha] *)
Inductive cut_hash (sha : bytes) : bytes -> res link -> Prop :=
| cut_hash_whole : cut_hash sha (hex_encode sha) (Ok (git_link sha))
| cut_hash_even n : n < 20 -> cut_hash sha (firstn (n + n) (hex_encode sha)) (Err (EShaLength n))
| cut_hash_odd n : n < 20 -> cut_hash sha (firstn (S (n + n)) (hex_encode sha)) (Err EHexLength).

(** ** A person that breaks off: [x] is left of "name <email> date timezone", behind the word [w]

    Without the '>' there is no email, unless the email itself has a '>' where the cut is.
    Behind the '>' only what is lost is missing. *)
Inductive cut_person (w : bytes) (p : person) : bytes -> res person -> Prop :=
| cut_person_few x :
    begins_with x (p_name p ++ bs " <" ++ p_email p) ->
    (forall e, x <> p_name p ++ bs " <" ++ e ++ bs ">") ->
    length (words (w ++ x)) < 3 -> cut_person w p x (Err (EPersonFormat (w ++ x)))
| cut_person_early x :
    begins_with x (p_name p ++ bs " <" ++ p_email p) ->
    (forall e, x <> p_name p ++ bs " <" ++ e ++ bs ">") ->
    3 <= length (words (w ++ x)) -> cut_person w p x (Err (EPersonInvalid (w ++ x)))
| cut_person_email e :
    begins_with (e ++ bs ">") (p_email p) ->
    cut_person w p (p_name p ++ bs " <" ++ e ++ bs ">")
      (Ok {| p_name := p_name p; p_email := e; p_date := []; p_timezone := [] |})
| cut_person_bracket :
    cut_person w p (p_name p ++ bs " <" ++ p_email p ++ bs ">")
      (Ok {| p_name := p_name p; p_email := p_email p; p_date := []; p_timezone := [] |})
| cut_person_date d :
    begins_with d (p_date p) ->
    cut_person w p (p_name p ++ bs " <" ++ p_email p ++ bs "> " ++ d)
      (Ok {| p_name := p_name p; p_email := p_email p; p_date := d; p_timezone := [] |})
| cut_person_zone z :
    begins_with z (p_timezone p) ->
    cut_person w p (p_name p ++ bs " <" ++ p_email p ++ bs "> " ++ p_date p ++ [SP] ++ z)
      (Ok {| p_name := p_name p; p_email := p_email p; p_date := p_date p; p_timezone := z |}).

(** ** A line of a merge tag's header that breaks off: [q] is left of the line [m]; the lines
    before it made [t] *)
Definition with_type (t : tag) (x : bytes) : tag :=
  {| t_object := t_object t; t_type := x; t_tag := t_tag t; t_tagger := t_tagger t; t_message := t_message t |}.
Definition with_name (t : tag) (x : bytes) : tag :=
  {| t_object := t_object t; t_type := t_type t; t_tag := x; t_tagger := t_tagger t; t_message := t_message t |}.
Definition with_tagger (t : tag) (p : person) : tag :=
  {| t_object := t_object t; t_type := t_type t; t_tag := t_tag t; t_tagger := p; t_message := t_message t |}.

Definition mline_word (m : mline) : bytes :=
  match m with MType _ => bs " type " | MTag _ => bs " tag " | MTagger _ _ => bs " tagger " | MIgnored _ => [] end.

Inductive cut_mline (t : tag) : mline -> bytes -> res tag -> Prop :=
| cut_mline_none m : cut_mline t m [] (Ok t)
| cut_mline_blank m : cut_mline t m (bs " ") (Err EEOF)          (* as if the message came next *)
| cut_mline_word m q : q <> [] -> q <> bs " " -> begins_with q (mline_word m) -> q <> mline_word m -> cut_mline t m q (Ok t)
| cut_mline_type y x : begins_with x y -> cut_mline t (MType y) (bs " type " ++ x) (Ok (with_type t x))
| cut_mline_tag y x : begins_with x y -> cut_mline t (MTag y) (bs " tag " ++ x) (Ok (with_name t x))
| cut_mline_tagger y p x r : cut_person (bs "tagger ") p x r ->
    cut_mline t (MTagger y p) (bs " tagger " ++ x) (map_res (with_tagger t) r).

(** ** A block of a commit that breaks off

    [cut_block c k ls q r]: the blocks before made the commit [c]; of the block [k] there are
    left the whole lines [ls] and the part [q] of the next one; [r] is what comes of it. *)
Inductive cut_block (c : commit) : block -> list bytes -> bytes -> res commit -> Prop :=
(* a word that breaks off is a line like any other *)
| cut_word k w x ls q : block_lines k = (w ++ x) :: ls -> In w header_words ->
    q <> [] -> begins_with q w -> q <> w -> cut_block c k [] q (Ok (with_other c [q]))
| cut_tree h sha x r : cut_hash sha x r -> cut_block c (KTree h sha) [] (bs "tree " ++ x) (map_res (with_tree c) r)
| cut_parent h sha x r : cut_hash sha x r ->
    cut_block c (KParent h sha) [] (bs "parent " ++ x) (map_res (fun l => with_parents c [l]) r)
| cut_author t p x r : cut_person (bs "author ") p x r ->
    cut_block c (KAuthor t p) [] (bs "author " ++ x) (map_res (with_author c) r)
| cut_committer t p x r : cut_person (bs "committer ") p x r ->
    cut_block c (KCommitter t p) [] (bs "committer " ++ x) (map_res (with_committer c) r)
| cut_encoding e x : begins_with x e -> cut_block c (KEncoding e) [] (bs "encoding " ++ x) (Ok (with_encoding c x))
| cut_other l q : q <> [] -> begins_with q l -> cut_block c (KOther l) [] q (Ok (with_other c [q]))
(* a merge tag that breaks off in its header is taken as it is; in its message, refused *)
| cut_mergetag h sha ms msg x r : cut_hash sha x r ->
    cut_block c (KMergetag h sha ms msg) [] (bs "mergetag object " ++ x)
      (map_res (fun _ => with_mergetags c [mtag_value sha [] []]) r)
| cut_mergetag_line h sha ms msg before m after q r :
    ms = before ++ m :: after -> cut_mline (mtag_value sha before []) m q r ->
    cut_block c (KMergetag h sha ms msg) ((bs "mergetag object " ++ h) :: map mline_text before) q
      (map_res (fun t => with_mergetags c [t]) r)
| cut_mergetag_header h sha ms msg :
    cut_block c (KMergetag h sha ms msg) ((bs "mergetag object " ++ h) :: map mline_text ms) []
      (Ok (with_mergetags c [mtag_value sha ms []]))
| cut_mergetag_blank h sha ms msg :
    cut_block c (KMergetag h sha ms msg) ((bs "mergetag object " ++ h) :: map mline_text ms) (bs " ") (Err EEOF)
| cut_mergetag_message h sha ms msg before after q :
    msg = before ++ after -> begins_with q (hd [] after) ->
    cut_block c (KMergetag h sha ms msg)
      ([bs "mergetag object " ++ h] ++ map mline_text ms ++ [bs " "] ++ before) q (Err EEOF)
(* a signature that breaks off is refused, unless an end line is left *)
| cut_signature s f ss x : begins_with x s -> cut_block c (KSignature s f ss) [] (bs "gpgsig " ++ x) (Err EEOF)
| cut_signature_none s f ss : cut_block c (KSignature s f ss) [bs "gpgsig " ++ s] [] (Err EEOF)
| cut_signature_first s f ss q : q <> [] -> begins_with q f -> ~ signature_ok (q, []) ->
    cut_block c (KSignature s f ss) [bs "gpgsig " ++ s] q (Err EGpgFirstLine)
| cut_signature_only s f ss q : begins_with q f -> signature_ok (q, []) ->
    cut_block c (KSignature s f ss) [bs "gpgsig " ++ s] q (Err EEOF)
| cut_signature_lines s f ss before l after q :
    ss ++ [pgp_end] = before ++ l :: after -> begins_with q l -> q <> pgp_end ->
    cut_block c (KSignature s f ss) ([bs "gpgsig " ++ s; f] ++ before) q (Err EEOF)
| cut_signature_end s f ss before l after :
    ss ++ [pgp_end] = before ++ l :: after -> begins_with pgp_end l ->
    cut_block c (KSignature s f ss) ([bs "gpgsig " ++ s; f] ++ before) pgp_end (Ok (with_signature c (unlines (f :: before)))).

(** ** Commits *)
(** The blocks of a commit that git wrote. *)
Definition mergetag_block (m : gmergetag) : block :=
  KMergetag (hex_encode (gm_object m)) (gm_object m)
    [MType (gm_type m); MTag (gm_tag m); MTagger (person_text (gm_tagger m)) (gm_tagger m)] (gm_message m).
Definition commit_blocks (g : gcommit) : list block :=
  [KTree (hex_encode (gc_tree g)) (gc_tree g)]
  ++ map (fun p => KParent (hex_encode p) p) (gc_parents g)
  ++ [KAuthor (person_text (gc_author g)) (gc_author g); KCommitter (person_text (gc_committer g)) (gc_committer g)]
  ++ opt_list (fun e => [KEncoding e]) (gc_encoding g)
  ++ map mergetag_block (gc_mergetags g)
  ++ opt_list (fun sg => [KSignature (bs "-----BEGIN PGP SIGNATURE-----") (fst sg) (snd sg)]) (gc_signature g)
  ++ map KOther (gc_other g).
Definition ends_in_mergetag (ks : list block) : Prop := exists ks' h sha ms msg, ks = ks' ++ [KMergetag h sha ms msg].

(** [cut_commit g cut r]: [cut] is left of the text of [g]; [r] is what comes of it. *)
Inductive cut_commit (g : gcommit) : bytes -> res commit -> Prop :=
| cut_in_message m : begins_with m (gc_message g) ->
    cut_commit g (unlines (commit_lines g) ++ [NL] ++ m) (Ok (with_message (commit_value g) m))
| cut_between before after : commit_blocks g = before ++ after -> ~ ends_in_mergetag before ->
    cut_commit g (unlines (header_lines before)) (Ok (header_value before))
| cut_after_mergetag before after : commit_blocks g = before ++ after -> ends_in_mergetag before ->
    cut_commit g (unlines (header_lines before)) (Err EEOF)
| cut_in_block before k after ls l more q r : commit_blocks g = before ++ k :: after ->
    block_lines k = ls ++ l :: more -> begins_with q l -> cut_block (header_value before) k ls q r ->
    cut_commit g (unlines (header_lines before ++ ls) ++ q) r.

(** ** Tags *)
Definition tag_tlines (g : gtag) : list tline :=
  [TObject (hex_encode (gt_object g)) (gt_object g); TType (gt_type g); TTag (gt_tag g);
   TTagger (person_text (gt_tagger g)) (gt_tagger g)].
Definition with_object (t : tag) (l : link) : tag :=
  {| t_object := l; t_type := t_type t; t_tag := t_tag t; t_tagger := t_tagger t; t_message := t_message t |}.
Definition tline_word (t : tline) : bytes :=
  match t with TObject _ _ => bs "object " | TType _ => bs "type " | TTag _ => bs "tag " | TTagger _ _ => bs "tagger " | TIgnored _ => [] end.

Inductive cut_tline (t : tag) : tline -> bytes -> res tag -> Prop :=
| cut_tline_none l : cut_tline t l [] (Ok t)
| cut_tline_word l q : q <> [] -> begins_with q (tline_word l) -> q <> tline_word l -> cut_tline t l q (Ok t)
| cut_tline_object h sha x r : cut_hash sha x r -> cut_tline t (TObject h sha) (bs "object " ++ x) (map_res (with_object t) r)
| cut_tline_type y x : begins_with x y -> cut_tline t (TType y) (bs "type " ++ x) (Ok (with_type t x))
| cut_tline_tag y x : begins_with x y -> cut_tline t (TTag y) (bs "tag " ++ x) (Ok (with_name t x))
| cut_tline_tagger y p x r : cut_person (bs "tagger ") p x r ->
    cut_tline t (TTagger y p) (bs "tagger " ++ x) (map_res (with_tagger t) r).

Inductive cut_tag (g : gtag) : bytes -> res tag -> Prop :=
| cut_tag_message m : begins_with m (gt_message g) ->
    cut_tag g (unlines (tag_lines g) ++ [NL] ++ m) (Ok (tag_of (tag_tlines g) m))
| cut_tag_header : cut_tag g (unlines (tag_lines g)) (Ok (tag_of (tag_tlines g) []))
| cut_tag_line before l after q r : tag_tlines g = before ++ l :: after ->
    begins_with q (tline_text l) -> cut_tline (tag_of before []) l q r ->
    cut_tag g (unlines (map tline_text before) ++ q) r.

(** ** Objects: the type and the size break off, or the text does *)
Inductive cut_object {A} (typ text : bytes) (table : bytes -> res A -> Prop) : bytes -> res A -> Prop :=
| cut_object_type cut : begins_with cut typ -> cut_object typ text table cut (Err EUnexpectedEOF)
| cut_object_size cut : begins_with cut (dec (N.of_nat (length text))) -> cut_object typ text table (typ ++ [SP] ++ cut) (Err EEOF)
| cut_object_text cut r : table cut r -> cut_object typ text table (typ ++ [SP] ++ dec (N.of_nat (length text)) ++ [NUL] ++ cut) r.
