(** Specification: exactly which objects survive decoding and encoding, lines of any length
    included.  Nothing here refers to the decoders or encoders. *)
From Verif Require Import Base GoStr Cid Types Spec HeaderSpec NormalSpec.

(** The lines of a merge tag but its type, tag and tagger lines. *)
Definition mergetag_tight_lines (m : gmergetag) : list bytes :=
  [bs "mergetag object " ++ hex_encode (gm_object m); bs " "] ++ gm_message m.

(** The lines of a commit but the type, tag and tagger lines of its merge tags. *)
Definition tight_lines (g : gcommit) : list bytes :=
  [bs "tree " ++ hex_encode (gc_tree g)]
  ++ map (fun p => bs "parent " ++ hex_encode p) (gc_parents g)
  ++ [bs "author " ++ person_text (gc_author g);
      bs "committer " ++ person_text (gc_committer g)]
  ++ opt_list (fun e => [bs "encoding " ++ e]) (gc_encoding g)
  ++ concat (map mergetag_tight_lines (gc_mergetags g))
  ++ opt_list signature_lines (gc_signature g)
  ++ gc_other g.

(** A line of exactly [B] bytes is read as the line and an empty line.  In the header of a
    merge tag the empty line is ignored; anywhere else it would end the header, belong to the
    signature or to the message. *)
Definition commit_survives (B : nat) (g : gcommit) : Prop :=
  commit_ok (S B) g /\ forall l, In l (tight_lines g) -> line_ok B l.

(** Likewise the tagger line, the last one of a tag, may have exactly [B] bytes if nothing
    follows it. *)
Definition tag_survives (B : nat) (g : gtag) : Prop :=
  is_sha (gt_object g) /\ person_ok (gt_tagger g) /\
  line_ok B (bs "type " ++ gt_type g) /\ line_ok B (bs "tag " ++ gt_tag g) /\
  line_ok (match gt_message g with [] => S B | _ => B end) (bs "tagger " ++ person_text (gt_tagger g)).

(** [survives B n d]: the bytes [d] are read as the node [n], which is written as [d]. *)
Inductive survives (B : nat) : node -> bytes -> Prop :=
| sv_blob content : fits content ->
    survives B (NBlob (git_object (bs "blob") content)) (git_object (bs "blob") content)
| sv_tree es : fits (tree_text es) -> tree_ok es ->
    survives B (NTree (tree_value es)) (git_object (bs "tree") (tree_text es))
| sv_commit g : fits (commit_text g) -> commit_survives B g ->
    survives B (NCommit (commit_value g)) (git_object (bs "commit") (commit_text g))
| sv_tag g : tag_survives B g ->
    survives B (NTag (tag_value g)) (git_object (bs "tag") (tag_text_short g)).
