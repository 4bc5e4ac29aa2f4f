(** Specification: the fields of a commit or tag in terms of its lines, and the normal form
    in which it is written back.  Nothing here refers to the decoders or encoders. *)
From Verif Require Import Base GoStr Cid Types Spec HeaderSpec.

(** The last element, if any. *)
Definition last_of {A} (l : list A) : option A :=
  match rev l with [] => None | x :: _ => Some x end.
Definition or_else {A} (o : option A) (d : A) : A := match o with Some x => x | None => d end.

(** ** The values the blocks of a commit carry, in order *)
Definition trees (ks : list block) : list bytes :=
  flat_map (fun k => match k with KTree _ sha => [sha] | _ => [] end) ks.
Definition parents (ks : list block) : list bytes :=
  flat_map (fun k => match k with KParent _ sha => [sha] | _ => [] end) ks.
Definition authors (ks : list block) : list person :=
  flat_map (fun k => match k with KAuthor _ p => [p] | _ => [] end) ks.
Definition committers (ks : list block) : list person :=
  flat_map (fun k => match k with KCommitter _ p => [p] | _ => [] end) ks.
Definition encodings (ks : list block) : list bytes :=
  flat_map (fun k => match k with KEncoding x => [x] | _ => [] end) ks.
Definition signatures (ks : list block) : list (bytes * list bytes) :=
  flat_map (fun k => match k with KSignature _ first ss => [(first, ss)] | _ => [] end) ks.
Definition others (ks : list block) : list bytes :=
  flat_map (fun k => match k with KOther l => [l] | _ => [] end) ks.

(** The kind of a block; git writes the blocks of a commit in this order. *)
Definition kind (k : block) : nat :=
  match k with
  | KTree _ _ => 0 | KParent _ _ => 1 | KAuthor _ _ => 2 | KCommitter _ _ => 3 | KEncoding _ => 4
  | KMergetag _ _ _ _ => 5 | KSignature _ _ _ => 6 | KOther _ => 7
  end.

(** ** Merge tags *)
Definition mtypes (ms : list mline) : list bytes :=
  flat_map (fun m => match m with MType x => [x] | _ => [] end) ms.
Definition mtags (ms : list mline) : list bytes :=
  flat_map (fun m => match m with MTag x => [x] | _ => [] end) ms.
Definition mtaggers (ms : list mline) : list person :=
  flat_map (fun m => match m with MTagger _ p => [p] | _ => [] end) ms.

(** What is not there is empty; a tagger that is not there is the empty person. *)
Definition normal_mergetag (sha : bytes) (ms : list mline) (msg : list bytes) : gmergetag :=
  {| gm_object := sha; gm_type := or_else (last_of (mtypes ms)) []; gm_tag := or_else (last_of (mtags ms)) [];
     gm_tagger := or_else (last_of (mtaggers ms)) zero_person; gm_message := msg |}.
Definition mergetags (ks : list block) (en : ending) : list gmergetag :=
  flat_map (fun k => match k with KMergetag _ sha ms msg => [normal_mergetag sha ms msg] | _ => [] end) ks
  ++ match en with EndMergetag _ sha ms => [normal_mergetag sha ms []] | _ => [] end.

Definition message (en : ending) : bytes := match en with EndMessage msg => msg | _ => [] end.

(** The normal form of a commit with this author and committer. *)
Definition normal (ks : list block) (en : ending) (author committer : person) : gcommit :=
  {| gc_tree := or_else (last_of (trees ks)) [];
     gc_parents := parents ks;
     gc_author := author;
     gc_committer := committer;
     gc_encoding := last_of (encodings ks);
     gc_mergetags := mergetags ks en;
     gc_signature := last_of (signatures ks);
     gc_other := others ks;
     gc_message := message en |}.

(** ** Tags *)
Definition tobjects (ts : list tline) : list bytes :=
  flat_map (fun t => match t with TObject _ sha => [sha] | _ => [] end) ts.
Definition ttypes (ts : list tline) : list bytes :=
  flat_map (fun t => match t with TType x => [x] | _ => [] end) ts.
Definition ttags (ts : list tline) : list bytes :=
  flat_map (fun t => match t with TTag x => [x] | _ => [] end) ts.
Definition ttaggers (ts : list tline) : list person :=
  flat_map (fun t => match t with TTagger _ p => [p] | _ => [] end) ts.
Definition normal_tag (ts : list tline) (msg : bytes) : gtag :=
  {| gt_object := or_else (last_of (tobjects ts)) [];
     gt_type := or_else (last_of (ttypes ts)) [];
     gt_tag := or_else (last_of (ttags ts)) [];
     gt_tagger := or_else (last_of (ttaggers ts)) zero_person;
     gt_message := msg |}.
(** A tag is written without its blank line if its message is empty. *)
Definition tag_text_short (g : gtag) : bytes :=
  unlines (tag_lines g) ++ match gt_message g with [] => [] | m => [NL] ++ m end.
