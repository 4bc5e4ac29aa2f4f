(** The decoders once more, with the state of the reader after success.

    Decode.v drops the reader when a tree, commit or tag is complete, as the entry
    points do.  A caller that looks at the underlying reader afterwards (LinkSystem.v)
    needs it.  [decode_into_end_is_decode_into] in DecodeEndFacts.v: the results are the same. *)
From Verif Require Import Base GoStr Cid Types Nodes Reader Person Assemble Decode.

Section Ends.
Context {S V : Type} (ops : rdops S V).

(** tree.go:47-76, for an entry that ends in EOF: the reader after it *)
Definition entry_end (s : S) : res S :=
  let* (_, e, s1) := rd_string ops SP s in
  match e with
  | Some _ => Ok s1
  | None =>
      let* (_, e, s2) := rd_string ops NUL s1 in
      match e with
      | Some _ => Ok s2
      | None => let* (_, _, s3) := rd_full ops 20 s2 in Ok s3
      end
  end.

(** tree.go:24-39 *)
Fixpoint tree_loop_end (fuel : nat) (t : tree) (s : S) : res (tree * S) :=
  match fuel with
  | O => OutOfFuel
  | Datatypes.S f =>
      match decode_tree_entry ops s with
      | Ok (name, e, s1) =>
          let* t' := tree_insert t name e in
          tree_loop_end f t' s1
      | Err EEOF => let* s' := entry_end s in Ok (t, s')
      | Err e => Err e
      | Panic => Panic
      | OutOfFuel => OutOfFuel
      end
  end.

(** commit.go:27-40 *)
Fixpoint commit_loop_end (fuel : nat) (c : commit) (s : S) : res (commit * S) :=
  match fuel with
  | O => OutOfFuel
  | Datatypes.S f =>
      let* (v, e, s1) := rd_line ops s in
      match e with
      | Some e => if is_eof e then Ok (c, s1) else Err e
      | None =>
          let* (c', s2) := commit_line ops (rd_fuel ops s1) c v s1 in
          commit_loop_end f c' s2
      end
  end.

(** tag.go:28-70 *)
Fixpoint tag_loop_end (fuel : nat) (out : tag) (s : S) : res (tag * S) :=
  match fuel with
  | O => OutOfFuel
  | Datatypes.S f =>
      let* (v, e, s1) := rd_line ops s in
      match e with
      | Some e => if is_eof e then Ok (out, s1) else Err e
      | None =>
          let line := rd_deref ops s1 v in
          if has_prefix (bs "object ") line then
            let* h := go_from 7 line in
            let* sha := hex_decode h in
            let* c := sha_to_cid sha in
            tag_loop_end f {| t_object := LCid c; t_type := t_type out; t_tag := t_tag out;
                          t_tagger := t_tagger out; t_message := t_message out |} s1
          else if has_prefix (bs "tag ") line then
            let* x := go_from 4 line in
            tag_loop_end f {| t_object := t_object out; t_type := t_type out; t_tag := x;
                          t_tagger := t_tagger out; t_message := t_message out |} s1
          else if has_prefix (bs "tagger ") line then
            let* p := parse_person line in
            tag_loop_end f {| t_object := t_object out; t_type := t_type out; t_tag := t_tag out;
                          t_tagger := p; t_message := t_message out |} s1
          else if has_prefix (bs "type ") line then
            let* x := go_from 5 line in
            tag_loop_end f {| t_object := t_object out; t_type := x; t_tag := t_tag out;
                          t_tagger := t_tagger out; t_message := t_message out |} s1
          else if length line =? 0 then
            let* (rest, e, s2) := rd_all ops s1 in
            match e with
            | Some e => Err e
            | None =>
                tag_loop_end f {| t_object := t_object out; t_type := t_type out; t_tag := t_tag out;
                              t_tagger := t_tagger out; t_message := rest |} s2
            end
          else tag_loop_end f out s1
      end
  end.

(** unmarshal.go:12-37 with tree.go:14-44, commit.go:19-43, tag.go:20-73 *)
Definition decode_into_end (k : bkind) (s : S) : res (node * S) :=
  let* (typ, s1) := read_type ops s in
  if beqb typ (bs "tree") then
    let* (_, s2) := read_number ops s1 in
    let* (t, s3) := tree_loop_end (rd_fuel ops s2) zero_tree s2 in
    let* n := build_node k (NTree t) in Ok (n, s3)
  else if beqb typ (bs "commit") then
    let* (_, s2) := read_number ops s1 in
    let* (c, s3) := commit_loop_end (rd_fuel ops s2) zero_commit s2 in
    let* n := build_node k (NCommit c) in Ok (n, s3)
  else if beqb typ (bs "blob") then decode_blob ops k s1
  else if beqb typ (bs "tag") then
    let* (_, e, s2) := rd_string ops NUL s1 in
    match e with
    | Some e => Err e
    | None =>
        let* (t, s3) := tag_loop_end (rd_fuel ops s2) zero_tag s2 in
        let* n := build_node k (NTag t) in Ok (n, s3)
    end
  else Err (EUnknownType typ).

End Ends.
