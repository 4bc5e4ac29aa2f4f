(** The decoders once more, filling any implementation of [ipld.NodeAssembler].

    Decode.v has them with a fresh builder of this package or of basicnode.  Here [na] is
    any assembler: a state and two methods that change it.  The decoders use no others. *)
From Verif Require Import Base GoStr Cid Types Nodes Reader Person Assemble Decode.

Record assembler (A : Type) := {
  asm_node : node -> A -> res unit * A;     (* na.AssignNode(n) *)
  asm_bytes : bytes -> A -> res unit * A    (* na.AssignBytes(b) *)
}.
Arguments asm_node {A} _ _ _. Arguments asm_bytes {A} _ _ _.

Section Any.
Context {S V : Type} (ops : rdops S V) {A : Type} (na : assembler A).

(** What happened before [na] is touched, then the rest. *)
Definition then_any {X} (r : res X) (k : X -> A -> res unit * A) (a : A) : res unit * A :=
  match r with
  | Ok x => k x a
  | Err e => (Err e, a)
  | Panic => (Panic, a)
  | OutOfFuel => (OutOfFuel, a)
  end.

(** blob.go:13-44 *)
Definition decode_blob_any (s : S) : A -> res unit * A :=
  then_any (read_number ops s) (fun '(sizen, s1) =>
  if (sizen <? 0)%Z then then_any (Err (ENegativeSize sizen)) (fun x : unit => fun a => (Ok tt, a))
  else
    let pre := bs "blob " ++ dec_Z sizen ++ [NUL] in
    then_any (rd_copy ops sizen s1) (fun '(body, e, s2) a =>
    match e with
    | Some e => (Err e, a)
    | None =>
        if negb (Z.of_nat (length body) =? sizen)%Z then
          if length body =? 0 then (Err EEOF, a) else (Err EUnexpectedEOF, a)
        else asm_bytes na (pre ++ body) a                       (* blob.go:43 *)
    end)).

(** tree.go:14-44: the tree is built apart. *)
Definition decode_tree_any (s : S) : A -> res unit * A :=
  then_any (read_number ops s) (fun '(_, s1) =>
  then_any (tree_loop ops (rd_fuel ops s1) zero_tree s1) (fun t a =>
  asm_node na (NTree t) a)).                                    (* tree.go:43 *)

(** commit.go:19-43 *)
Definition decode_commit_any (s : S) : A -> res unit * A :=
  then_any (read_number ops s) (fun '(_, s1) =>
  then_any (commit_loop ops (rd_fuel ops s1) zero_commit s1) (fun c a =>
  asm_node na (NCommit c) a)).                                  (* commit.go:42 *)

(** tag.go:20-73 *)
Definition decode_tag_any (s : S) : A -> res unit * A :=
  then_any (rd_string ops NUL s) (fun '(_, e, s1) =>
  match e with
  | Some e => fun a => (Err e, a)
  | None =>
      then_any (tag_loop ops (rd_fuel ops s1) zero_tag [] s1) (fun '(t, _) a =>
      asm_node na (NTag t) a)                                   (* tag.go:72 *)
  end).

(** unmarshal.go:12-37: [Decode(na, r)] *)
Definition decode_any (s : S) : A -> res unit * A :=
  then_any (read_type ops s) (fun '(typ, s1) =>
  if beqb typ (bs "tree") then decode_tree_any s1
  else if beqb typ (bs "commit") then decode_commit_any s1
  else if beqb typ (bs "blob") then decode_blob_any s1
  else if beqb typ (bs "tag") then decode_tag_any s1
  else fun a => (Err (EUnknownType typ), a)).
End Any.
