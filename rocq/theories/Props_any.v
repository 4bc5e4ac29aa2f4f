(** C59: Decode and the assembler it fills. *)
From Verif Require Import Base GoStr Cid Types Nodes Reader Bufio Person Assemble Decode DecodeAny Spec ReaderSpec Transfer Sim BufioFacts.

(** ** Specification: the one call an object asks for. *)
Definition hand_over {A} (na : assembler A) (n : node) (a : A) : res unit * A :=
  match n with
  | NBlob b => asm_bytes na b a
  | n => asm_node na n a
  end.

(** Whatever the assembler and the reader do, Decode does what ParseObject does, and then
    hands over what it found in one call, whose outcome is the outcome.  If there is an
    error, the assembler is as it was. *)
Theorem decoding_is_parsing_and_one_call : forall S V (ops : rdops S V) A (na : assembler A) s a,
  decode_any ops na s a =
  match parse_object ops s with
  | Ok n => hand_over na n a
  | Err e => (Err e, a)
  | Panic => (Panic, a)
  | OutOfFuel => (OutOfFuel, a)
  end.
Proof.
  intros S V ops A na s a. unfold decode_any, parse_object.
  destruct (read_type ops s) as [[typ s1]| | |]; try reflexivity. cbn [then_any bind].
  destruct (beqb typ (bs "tree")).
  { unfold decode_tree_any, decode_tree. destruct (read_number ops s1) as [[z s2]| | |]; try reflexivity. cbn [then_any bind].
    now destruct (tree_loop ops (rd_fuel ops s2) zero_tree s2). }
  destruct (beqb typ (bs "commit")).
  { unfold decode_commit_any, decode_commit. destruct (read_number ops s1) as [[z s2]| | |]; try reflexivity. cbn [then_any bind].
    now destruct (commit_loop ops (rd_fuel ops s2) zero_commit s2). }
  destruct (beqb typ (bs "blob")).
  { unfold decode_blob_any, decode_blob. destruct (read_number ops s1) as [[z s2]| | |]; try reflexivity. cbn [then_any bind].
    destruct (z <? 0)%Z; [reflexivity|]. destruct (rd_copy ops z s2) as [[[body [e|]] s3]| | |]; try reflexivity. cbn [then_any bind].
    destruct (negb (Z.of_nat (length body) =? z)%Z); [now destruct (length body =? 0)|]. reflexivity. }
  destruct (beqb typ (bs "tag")).
  { unfold decode_tag_any, decode_tag, decode_tag_printing. destruct (rd_string ops NUL s1) as [[[x [e|]] s2]| | |]; try reflexivity. cbn [then_any bind].
    now destruct (tag_loop ops (rd_fuel ops s2) zero_tag [] s2) as [[t pr]| | |]. }
  reflexivity.
Qed.
Print Assumptions decoding_is_parsing_and_one_call.

(** The calls that an assembler records: none, or one that carries a whole object. *)
Inductive acall := CNode (n : node) | CBytes (b : bytes).
Definition recorder : assembler (list acall) :=
  {| asm_node := fun n a => (Ok tt, a ++ [CNode n]); asm_bytes := fun b a => (Ok tt, a ++ [CBytes b]) |}.
(** A failing assembler: its error is the error of Decode. *)
Definition refuser (e : err) : assembler (list acall) :=
  {| asm_node := fun n a => (Err e, a ++ [CNode n]); asm_bytes := fun b a => (Err e, a ++ [CBytes b]) |}.

Example decoding_hands_over :
  decode_any (stream_ops 64) recorder (mk (bs "blob 3" ++ [NUL] ++ bs "abc") EEOF) [] = (Ok tt, [CBytes (bs "blob 3" ++ [NUL] ++ bs "abc")]) /\
  (exists t, decode_any (stream_ops 64) recorder (mk (bs "tag 3" ++ [NUL] ++ bs "tag v1") EEOF) [] = (Ok tt, [CNode (NTag t)])) /\
  decode_any (stream_ops 64) recorder (mk (bs "blob 4" ++ [NUL] ++ bs "abc") EEOF) [] = (Err EUnexpectedEOF, []) /\
  decode_any (stream_ops 64) (refuser (EOther 4)) (mk (bs "blob 3" ++ [NUL] ++ bs "abc") EEOF) [] = (Err (EOther 4), [CBytes (bs "blob 3" ++ [NUL] ++ bs "abc")]).
Proof. split; [vm_compute; reflexivity|]. split; [eexists; vm_compute; reflexivity|]. split; vm_compute; reflexivity. Qed.

(** The model of Decode with a fresh builder of Decode.v is an instance: the assembler is a
    builder that has nothing yet, and [Build] gives what it was handed. *)
Definition builder_of (k : bkind) : assembler (option node) :=
  {| asm_node := fun n a => match build_node k n with Ok x => (Ok tt, Some x) | Err e => (Err e, a) | Panic => (Panic, a) | OutOfFuel => (OutOfFuel, a) end;
     asm_bytes := fun b a => match build_bytes k b with Ok x => (Ok tt, Some x) | Err e => (Err e, a) | Panic => (Panic, a) | OutOfFuel => (OutOfFuel, a) end |}.
Theorem fresh_builders_are_assemblers : forall S V (ops : rdops S V) k s,
  decode_any ops (builder_of k) s None =
  match decode_into ops k s with
  | Ok n => (Ok tt, Some n)
  | Err e => (Err e, None)
  | Panic => (Panic, None)
  | OutOfFuel => (OutOfFuel, None)
  end.
Proof.
  intros S V ops k s. unfold decode_any, decode_into.
  destruct (read_type ops s) as [[typ s1]| | |]; try reflexivity. cbn [then_any bind].
  destruct (beqb typ (bs "tree")).
  { unfold decode_tree_any, decode_tree. destruct (read_number ops s1) as [[z s2]| | |]; try reflexivity. cbn [then_any bind].
    destruct (tree_loop ops (rd_fuel ops s2) zero_tree s2); reflexivity. }
  destruct (beqb typ (bs "commit")).
  { unfold decode_commit_any, decode_commit. destruct (read_number ops s1) as [[z s2]| | |]; try reflexivity. cbn [then_any bind].
    destruct (commit_loop ops (rd_fuel ops s2) zero_commit s2); reflexivity. }
  destruct (beqb typ (bs "blob")).
  { unfold decode_blob_any, decode_blob. destruct (read_number ops s1) as [[z s2]| | |]; try reflexivity. cbn [then_any bind].
    destruct (z <? 0)%Z; [reflexivity|]. destruct (rd_copy ops z s2) as [[[body [e|]] s3]| | |]; try reflexivity. cbn [then_any bind].
    destruct (negb (Z.of_nat (length body) =? z)%Z); [now destruct (length body =? 0)|]. cbn [builder_of asm_bytes].
    match goal with |- context [build_bytes k ?x] => now destruct (build_bytes k x) end. }
  destruct (beqb typ (bs "tag")).
  { unfold decode_tag_any, decode_tag, decode_tag_printing. destruct (rd_string ops NUL s1) as [[[x [e|]] s2]| | |]; try reflexivity. cbn [then_any bind].
    destruct (tag_loop ops (rd_fuel ops s2) zero_tag [] s2) as [[t pr]| | |]; try reflexivity. cbn [then_any bind builder_of asm_node]. now destruct (build_node k (NTag t)). }
  reflexivity.
Qed.
Print Assumptions fresh_builders_are_assemblers.
