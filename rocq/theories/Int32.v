(** The decoders on platforms where Go's [int] has [w] bits.  Decode.v is about 64 bits.  The only
    place that depends on it is strconv.Atoi in helper.go:52.  (Lengths of slices stay unbounded
    here as in Decode.v.) *)
From Verif Require Import Base GoStr Cid Types Nodes Reader Person Assemble Decode.

Section Width.
Context (w : N).

(** The loop of strconv.ParseUint(s, 10, w): the accumulator is a uint64, the limit is that of [w] bits. *)
Fixpoint parse_uint_w (acc : N) (s : bytes) : res N :=
  match s with
  | [] => Ok acc
  | c :: s' =>
      match digit_val c with
      | None => Err ESyntax
      | Some d =>
          if (1844674407370955162 <=? acc)%N then Err ERange
          else let n1 := (acc * 10 + d)%N in
               if (2 ^ w <=? n1)%N then Err ERange
               else parse_uint_w n1 s'
      end
  end.
(** strconv.ParseInt(s, 10, w): the magnitude and the check of the range *)
Definition atoi_signed_w (neg : bool) (ds : bytes) : res Z :=
  match ds with
  | [] => Err ESyntax
  | _ =>
      let* un := parse_uint_w 0 ds in
      if neg then
        if (2 ^ (w - 1) <? un)%N then Err ERange else Ok (- Z.of_N un)%Z
      else
        if (2 ^ (w - 1) <=? un)%N then Err ERange else Ok (Z.of_N un)
  end.
(** strconv.Atoi; its fast path for short strings has the same results *)
Definition atoi_value_w (s : bytes) : res Z :=
  match s with
  | c :: s' => if byte_eqb c x2d then atoi_signed_w true s'
               else if byte_eqb c x2b then atoi_signed_w false s'
               else atoi_signed_w false s
  | [] => Err ESyntax
  end.
Definition atoi_w (s : bytes) : res Z := num_error s (atoi_value_w s).

Section Decoders.
Context {S V : Type} (ops : rdops S V).

(** helper.go:45-53 *)
Definition read_number_w (s : S) : res (Z * S) :=
  let* (lstr, e, s1) := rd_string ops NUL s in
  match e with
  | Some e => Err e
  | None =>
      let* l := go_drop_last lstr in
      let* z := atoi_w l in
      Ok (z, s1)
  end.
(** blob.go:13-44; [int64(sizen)] changes nothing *)
Definition decode_blob_w (k : bkind) (s : S) : res (node * S) :=
  let* (sizen, s1) := read_number_w s in
  if (sizen <? 0)%Z then Err (ENegativeSize sizen)
  else
    let pre := bs "blob " ++ dec_Z sizen ++ [NUL] in
    let* (body, e, s2) := rd_copy ops sizen s1 in
    match e with
    | Some e => Err e
    | None =>
        if negb (Z.of_nat (length body) =? sizen)%Z then
          if length body =? 0 then Err EEOF else Err EUnexpectedEOF
        else
          let* n := build_bytes k (pre ++ body) in
          Ok (n, s2)
    end.
(** tree.go:14-44 *)
Definition decode_tree_w (k : bkind) (s : S) : res node :=
  let* (_, s1) := read_number_w s in
  let* t := tree_loop ops (rd_fuel ops s1) zero_tree s1 in
  build_node k (NTree t).
(** commit.go:19-43 *)
Definition decode_commit_w (k : bkind) (s : S) : res node :=
  let* (_, s1) := read_number_w s in
  let* c := commit_loop ops (rd_fuel ops s1) zero_commit s1 in
  build_node k (NCommit c).
(** unmarshal.go:39-75; tag.go:21 reads the size of a tag without parsing it *)
Definition parse_object_w (s : S) : res node :=
  let* (typ, s1) := read_type ops s in
  if beqb typ (bs "tree") then decode_tree_w BTree s1
  else if beqb typ (bs "commit") then decode_commit_w BCommit s1
  else if beqb typ (bs "blob") then map_res fst (decode_blob_w BBlob s1)
  else if beqb typ (bs "tag") then decode_tag ops BTag s1
  else Err (EUnknownType typ).
End Decoders.
End Width.
