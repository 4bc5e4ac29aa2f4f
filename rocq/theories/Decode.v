(** The decoders and entry points: blob.go, tree.go, commit.go, tag.go, helper.go,
    unmarshal.go.  They are generic in the reader; an error drops the reader
    state, which no caller uses after an error. *)
From Verif Require Import Base GoStr Cid Types Nodes Reader Person Assemble.

Section Decoders.
Context {S V : Type} (ops : rdops S V).

(** helper.go:45-53 *)
Definition read_number (s : S) : res (Z * S) :=
  let* (lstr, e, s1) := rd_string ops NUL s in
  match e with
  | Some e => Err e
  | None =>
      let* l := go_drop_last lstr in
      let* z := atoi l in
      Ok (z, s1)
  end.

(** blob.go:13-44, with [na] a fresh builder of kind [k] *)
Definition decode_blob (k : bkind) (s : S) : res (node * S) :=
  let* (sizen, s1) := read_number s in
  if (sizen <? 0)%Z then Err (ENegativeSize sizen)
  else
    let pre := bs "blob " ++ dec_Z sizen ++ [NUL] in
    let* (body, e, s2) := rd_copy ops sizen s1 in
    match e with
    | Some e => Err e
    | None =>
        if negb (Z.of_nat (length body) =? sizen)%Z then
          if length body =? 0 then Err EEOF else Err EUnexpectedEOF
        else
          let* n := build_bytes k (pre ++ body) in
          Ok (n, s2)
    end.

(** tree.go:47-76 *)
Definition decode_tree_entry (s : S) : res (bytes * entry * S) :=
  let* (data, e, s1) := rd_string ops SP s in
  match e with
  | Some e => Err e
  | None =>
      let* mode := go_drop_last data in
      let* (nm, e, s2) := rd_string ops NUL s1 in
      match e with
      | Some e => Err e
      | None =>
          let* name := go_drop_last nm in
          let* (sha, e, s3) := rd_full ops 20 s2 in
          match e with
          | Some e => Err e
          | None =>
              let* c := sha_to_cid sha in
              Ok (name, {| e_mode := mode; e_hash := LCid c |}, s3)
          end
      end
  end.

(** tree.go:24-39.  EOF from DecodeTreeEntry ends the loop. The state after an EOF is
    not needed: nothing is read after it. *)
Fixpoint tree_loop (fuel : nat) (t : tree) (s : S) : res tree :=
  match fuel with
  | O => OutOfFuel
  | Datatypes.S f =>
      match decode_tree_entry s with
      | Ok (name, e, s1) =>
          let* t' := tree_insert t name e in
          tree_loop f t' s1
      | Err EEOF => Ok t
      | Err e => Err e
      | Panic => Panic
      | OutOfFuel => OutOfFuel
      end
  end.

(** tree.go:14-44 *)
Definition decode_tree (k : bkind) (s : S) : res node :=
  let* (_, s1) := read_number s in
  let* t := tree_loop (rd_fuel ops s1) zero_tree s1 in
  build_node k (NTree t).

(** commit.go:147-159 *)
Fixpoint gpgsig_loop (fuel : nat) (sig : bytes) (s : S) : res (bytes * S) :=
  match fuel with
  | O => OutOfFuel
  | Datatypes.S f =>
      let* (v, e, s1) := rd_line ops s in
      match e with
      | Some e => Err e
      | None =>
          let line := rd_deref ops s1 v in
          if beqb line (bs " -----END PGP SIGNATURE-----") then Ok (sig, s1)
          else gpgsig_loop f (sig ++ line ++ [NL]) s1
      end
  end.

(** commit.go:125-163 *)
Definition decode_gpgsig (s : S) : res (bytes * S) :=
  let* (v, e, s1) := rd_line ops s in
  match e with
  | Some e => Err e
  | None =>
      let line := rd_deref ops s1 v in
      if negb (beqb line (bs " ")) then
        if has_prefix (bs " Version: ") line || has_prefix (bs " Comment: ") line then
          gpgsig_loop (rd_fuel ops s1) (line ++ [NL]) s1
        else Err EGpgFirstLine
      else gpgsig_loop (rd_fuel ops s1) (bs " " ++ [NL]) s1
  end.

(** tag.go:108-121: the message of a merge tag.  The first line not starting with a
    space is returned, as a slice of the reader's buffer. *)
Fixpoint mergetag_msg_loop (fuel : nat) (msg : bytes) (s : S) : res (bytes * V * S) :=
  match fuel with
  | O => OutOfFuel
  | Datatypes.S f =>
      let* (v, e, s1) := rd_line ops s in
      match e with
      | Some e => Err e
      | None =>
          let line := rd_deref ops s1 v in
          if negb (has_prefix (bs " ") line) then Ok (msg, v, s1)
          else mergetag_msg_loop f (msg ++ line ++ [NL]) s1
      end
  end.

(** tag.go:84-124: the header lines of a merge tag.  Other lines are ignored. *)
Fixpoint mergetag_loop (fuel : nat) (out : tag) (s : S) : res (tag * option V * S) :=
  match fuel with
  | O => OutOfFuel
  | Datatypes.S f =>
      let* (v, e, s1) := rd_line ops s in
      match e with
      | Some e => if is_eof e then Ok (out, None, s1) else Err e
      | None =>
          let line := rd_deref ops s1 v in
          if has_prefix (bs " type ") line then
            let* x := go_from 6 line in
            mergetag_loop f {| t_object := t_object out; t_type := x; t_tag := t_tag out;
                               t_tagger := t_tagger out; t_message := t_message out |} s1
          else if has_prefix (bs " tag ") line then
            let* x := go_from 5 line in
            mergetag_loop f {| t_object := t_object out; t_type := t_type out; t_tag := x;
                               t_tagger := t_tagger out; t_message := t_message out |} s1
          else if has_prefix (bs " tagger ") line then
            let* x := go_from 1 line in
            let* p := parse_person x in
            mergetag_loop f {| t_object := t_object out; t_type := t_type out; t_tag := t_tag out;
                               t_tagger := p; t_message := t_message out |} s1
          else if beqb line (bs " ") then
            let* (msg, rest, s2) := mergetag_msg_loop (rd_fuel ops s1) [] s1 in
            Ok ({| t_object := t_object out; t_type := t_type out; t_tag := t_tag out;
                   t_tagger := t_tagger out; t_message := msg |}, Some rest, s2)
          else mergetag_loop f out s1
      end
  end.

(** tag.go:76-125 *)
Definition read_merge_tag (hash : bytes) (s : S) : res (tag * option V * S) :=
  let* c := sha_to_cid hash in
  mergetag_loop (rd_fuel ops s)
    {| t_object := LCid c; t_type := []; t_tag := []; t_tagger := zero_person; t_message := [] |} s.

(** commit.go:45-123.  The line [v] is a slice of the reader's buffer, dereferenced in
    the reader state at the time of use: every case uses it before it reads more
    from [rd]. *)
Fixpoint commit_line (fuel : nat) (c : commit) (v : V) (s : S) : res (commit * S) :=
  match fuel with
  | O => OutOfFuel
  | Datatypes.S f =>
      let line := rd_deref ops s v in
      if has_prefix (bs "tree ") line then
        let* h := go_from 5 line in
        let* sha := hex_decode h in
        let* cd := sha_to_cid sha in
        Ok ({| c_tree := LCid cd; c_parents := c_parents c; c_message := c_message c;
               c_author := c_author c; c_committer := c_committer c; c_encoding := c_encoding c;
               c_signature := c_signature c; c_mergetag := c_mergetag c; c_other := c_other c |}, s)
      else if has_prefix (bs "parent ") line then
        let* h := go_from 7 line in
        let* sha := hex_decode h in
        let* cd := sha_to_cid sha in
        Ok ({| c_tree := c_tree c; c_parents := c_parents c ++ [LCid cd]; c_message := c_message c;
               c_author := c_author c; c_committer := c_committer c; c_encoding := c_encoding c;
               c_signature := c_signature c; c_mergetag := c_mergetag c; c_other := c_other c |}, s)
      else if has_prefix (bs "author ") line then
        let* p := parse_person line in
        Ok ({| c_tree := c_tree c; c_parents := c_parents c; c_message := c_message c;
               c_author := Some p; c_committer := c_committer c; c_encoding := c_encoding c;
               c_signature := c_signature c; c_mergetag := c_mergetag c; c_other := c_other c |}, s)
      else if has_prefix (bs "committer ") line then
        let* p := parse_person line in
        Ok ({| c_tree := c_tree c; c_parents := c_parents c; c_message := c_message c;
               c_author := c_author c; c_committer := Some p; c_encoding := c_encoding c;
               c_signature := c_signature c; c_mergetag := c_mergetag c; c_other := c_other c |}, s)
      else if has_prefix (bs "encoding ") line then
        let* x := go_from 9 line in
        Ok ({| c_tree := c_tree c; c_parents := c_parents c; c_message := c_message c;
               c_author := c_author c; c_committer := c_committer c; c_encoding := Some x;
               c_signature := c_signature c; c_mergetag := c_mergetag c; c_other := c_other c |}, s)
      else if has_prefix (bs "mergetag object ") line then
        let* h := go_from 16 line in
        let* sha := hex_decode h in
        let* (mt, rest, s1) := read_merge_tag sha s in
        let c' := {| c_tree := c_tree c; c_parents := c_parents c; c_message := c_message c;
               c_author := c_author c; c_committer := c_committer c; c_encoding := c_encoding c;
               c_signature := c_signature c; c_mergetag := c_mergetag c ++ [mt]; c_other := c_other c |} in
        match rest with
        | Some v' => commit_line f c' v' s1
        | None => Ok (c', s1)
        end
      else if has_prefix (bs "gpgsig ") line then
        let* (sig, s1) := decode_gpgsig s in
        Ok ({| c_tree := c_tree c; c_parents := c_parents c; c_message := c_message c;
               c_author := c_author c; c_committer := c_committer c; c_encoding := c_encoding c;
               c_signature := Some sig; c_mergetag := c_mergetag c; c_other := c_other c |}, s1)
      else if length line =? 0 then
        let* (rest, e, s1) := rd_all ops s in
        match e with
        | Some e => Err e
        | None =>
            Ok ({| c_tree := c_tree c; c_parents := c_parents c; c_message := rest;
               c_author := c_author c; c_committer := c_committer c; c_encoding := c_encoding c;
               c_signature := c_signature c; c_mergetag := c_mergetag c; c_other := c_other c |}, s1)
        end
      else
        Ok ({| c_tree := c_tree c; c_parents := c_parents c; c_message := c_message c;
               c_author := c_author c; c_committer := c_committer c; c_encoding := c_encoding c;
               c_signature := c_signature c; c_mergetag := c_mergetag c; c_other := c_other c ++ [line] |}, s)
  end.

(** commit.go:27-40 *)
Fixpoint commit_loop (fuel : nat) (c : commit) (s : S) : res commit :=
  match fuel with
  | O => OutOfFuel
  | Datatypes.S f =>
      let* (v, e, s1) := rd_line ops s in
      match e with
      | Some e => if is_eof e then Ok c else Err e
      | None =>
          let* (c', s2) := commit_line (rd_fuel ops s1) c v s1 in
          commit_loop f c' s2
      end
  end.

(** commit.go:19-43 *)
Definition decode_commit (k : bkind) (s : S) : res node :=
  let* (_, s1) := read_number s in
  let* c := commit_loop (rd_fuel ops s1) zero_commit s1 in
  build_node k (NCommit c).

(** tag.go:28-70.  Also collects the lines printed by tag.go:68. *)
Fixpoint tag_loop (fuel : nat) (out : tag) (printed : list bytes) (s : S)
  : res (tag * list bytes) :=
  match fuel with
  | O => OutOfFuel
  | Datatypes.S f =>
      let* (v, e, s1) := rd_line ops s in
      match e with
      | Some e => if is_eof e then Ok (out, printed) else Err e
      | None =>
          let line := rd_deref ops s1 v in
          if has_prefix (bs "object ") line then
            let* h := go_from 7 line in
            let* sha := hex_decode h in
            let* c := sha_to_cid sha in
            tag_loop f {| t_object := LCid c; t_type := t_type out; t_tag := t_tag out;
                          t_tagger := t_tagger out; t_message := t_message out |} printed s1
          else if has_prefix (bs "tag ") line then
            let* x := go_from 4 line in
            tag_loop f {| t_object := t_object out; t_type := t_type out; t_tag := x;
                          t_tagger := t_tagger out; t_message := t_message out |} printed s1
          else if has_prefix (bs "tagger ") line then
            let* p := parse_person line in
            tag_loop f {| t_object := t_object out; t_type := t_type out; t_tag := t_tag out;
                          t_tagger := p; t_message := t_message out |} printed s1
          else if has_prefix (bs "type ") line then
            let* x := go_from 5 line in
            tag_loop f {| t_object := t_object out; t_type := x; t_tag := t_tag out;
                          t_tagger := t_tagger out; t_message := t_message out |} printed s1
          else if length line =? 0 then
            let* (rest, e, s2) := rd_all ops s1 in
            match e with
            | Some e => Err e
            | None =>
                tag_loop f {| t_object := t_object out; t_type := t_type out; t_tag := t_tag out;
                              t_tagger := t_tagger out; t_message := rest |} printed s2
            end
          else tag_loop f out (printed ++ [line]) s1
      end
  end.

(** tag.go:20-73: the size is read but not parsed. *)
Definition decode_tag_printing (k : bkind) (s : S) : res (node * list bytes) :=
  let* (_, e, s1) := rd_string ops NUL s in
  match e with
  | Some e => Err e
  | None =>
      let* (t, printed) := tag_loop (rd_fuel ops s1) zero_tag [] s1 in
      let* n := build_node k (NTag t) in
      Ok (n, printed)
  end.

Definition decode_tag (k : bkind) (s : S) : res node :=
  map_res fst (decode_tag_printing k s).

(** unmarshal.go:15-22 and 42-49: the type word *)
Definition read_type (s : S) : res (bytes * S) :=
  let* (typ, e, s1) := rd_string ops SP s in
  match e with
  | Some e => if is_eof e then Err EUnexpectedEOF else Err e
  | None => let* t := go_drop_last typ in Ok (t, s1)
  end.

(** unmarshal.go:12-37: [Decode(na, r)] then [na.Build()], [na] a fresh builder *)
Definition decode_into (k : bkind) (s : S) : res node :=
  let* (typ, s1) := read_type s in
  if beqb typ (bs "tree") then decode_tree k s1
  else if beqb typ (bs "commit") then decode_commit k s1
  else if beqb typ (bs "blob") then map_res fst (decode_blob k s1)
  else if beqb typ (bs "tag") then decode_tag k s1
  else Err (EUnknownType typ).

(** unmarshal.go:39-75 *)
Definition parse_object (s : S) : res node :=
  let* (typ, s1) := read_type s in
  if beqb typ (bs "tree") then decode_tree BTree s1
  else if beqb typ (bs "commit") then decode_commit BCommit s1
  else if beqb typ (bs "blob") then map_res fst (decode_blob BBlob s1)
  else if beqb typ (bs "tag") then decode_tag BTag s1
  else Err (EUnknownType typ).

End Decoders.

(** helper.go:41-43: a [bytes.Reader] is a stream that ends with EOF. *)
Definition parse_object_from_buffer (B : nat) (b : bytes) : res node :=
  parse_object (stream_ops B) (mk b EEOF).

(** helper.go:19-27 *)
Definition decode_block (B : nat) (c : cid) (raw : bytes) : res node :=
  let* px := cid_prefix c in
  if negb (px_codec px =? GitRaw)%N || negb (px_mhtype px =? SHA1)%N
     || negb (px_mhlen px =? SHA1_len)%N
  then Err EInvalidCidPrefix
  else parse_object_from_buffer B raw.

(** helper.go:30-38.  [zlib_open] is [zlib.NewReader] followed by its stream of
    decompressed bytes and final error; it is not modelled further. *)
Definition parse_compressed_object (B : nat) (zlib_open : stream -> res stream) (r : stream) : res node :=
  let* rc := zlib_open r in
  parse_object (stream_ops B) rc.
