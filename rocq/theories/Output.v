(** What ParseObject writes to the standard output.  The only function that prints is
    DecodeTag (tag.go:68); the model follows the loop of [Decode.v] and keeps the output
    whatever becomes of the decoding. *)
From Verif Require Import Base GoStr Cid Types Nodes Reader Person Assemble Decode.

(** Results that come with the output so far: go on with a result, or stop there. *)
Definition andthen {A C} (out : bytes) (r : res A) (f : A -> bytes * res C) : bytes * res C :=
  match r with
  | Ok a => f a
  | Err e => (out, Err e)
  | Panic => (out, Panic)
  | OutOfFuel => (out, OutOfFuel)
  end.

(** tag.go:68: fmt.Println puts a space between its operands and a newline at the end. *)
Definition println_unhandled (line : bytes) : bytes := bs "unhandled line: " ++ [SP] ++ line ++ [NL].

Section Out.
Context {S V : Type} (ops : rdops S V).

(** tag.go:28-70, as [tag_loop] in Decode.v *)
Fixpoint tag_loop_out (fuel : nat) (t : tag) (out : bytes) (s : S) : bytes * res tag :=
  match fuel with
  | O => (out, OutOfFuel)
  | Datatypes.S f =>
      andthen out (rd_line ops s) (fun '(v, e, s1) =>
      match e with
      | Some e => (out, if is_eof e then Ok t else Err e)
      | None =>
          let line := rd_deref ops s1 v in
          if has_prefix (bs "object ") line then
            andthen out (let* h := go_from 7 line in let* sha := hex_decode h in sha_to_cid sha) (fun c =>
            tag_loop_out f {| t_object := LCid c; t_type := t_type t; t_tag := t_tag t;
                              t_tagger := t_tagger t; t_message := t_message t |} out s1)
          else if has_prefix (bs "tag ") line then
            andthen out (go_from 4 line) (fun x =>
            tag_loop_out f {| t_object := t_object t; t_type := t_type t; t_tag := x;
                              t_tagger := t_tagger t; t_message := t_message t |} out s1)
          else if has_prefix (bs "tagger ") line then
            andthen out (parse_person line) (fun p =>
            tag_loop_out f {| t_object := t_object t; t_type := t_type t; t_tag := t_tag t;
                              t_tagger := p; t_message := t_message t |} out s1)
          else if has_prefix (bs "type ") line then
            andthen out (go_from 5 line) (fun x =>
            tag_loop_out f {| t_object := t_object t; t_type := x; t_tag := t_tag t;
                              t_tagger := t_tagger t; t_message := t_message t |} out s1)
          else if length line =? 0 then
            andthen out (rd_all ops s1) (fun '(rest, e, s2) =>
            match e with
            | Some e => (out, Err e)
            | None =>
                tag_loop_out f {| t_object := t_object t; t_type := t_type t; t_tag := t_tag t;
                                  t_tagger := t_tagger t; t_message := rest |} out s2
            end)
          else tag_loop_out f t (out ++ println_unhandled line) s1
      end)
  end.

(** tag.go:20-73 *)
Definition decode_tag_out (k : bkind) (s : S) : bytes * res node :=
  andthen [] (rd_string ops NUL s) (fun '(_, e, s1) =>
  match e with
  | Some e => ([], Err e)
  | None =>
      let '(out, r) := tag_loop_out (rd_fuel ops s1) zero_tag [] s1 in
      andthen out r (fun t => (out, build_node k (NTag t)))
  end).

(** unmarshal.go:39-75 *)
Definition parse_object_out (s : S) : bytes * res node :=
  andthen [] (read_type ops s) (fun '(typ, s1) =>
  if beqb typ (bs "tree") then ([], decode_tree ops BTree s1)
  else if beqb typ (bs "commit") then ([], decode_commit ops BCommit s1)
  else if beqb typ (bs "blob") then ([], map_res fst (decode_blob ops BBlob s1))
  else if beqb typ (bs "tag") then decode_tag_out BTag s1
  else ([], Err (EUnknownType typ))).

End Out.
