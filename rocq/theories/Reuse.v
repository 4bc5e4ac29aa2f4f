(** Decode with a builder of this package that may have been used before: the decoders of
    DecodeAny.v filling the call-by-call builders of Builder.v through the calls of
    AssignCalls.v. *)
From Verif Require Import Base GoStr Cid Types Nodes Reader Person Assemble Decode DecodeAny.
From Verif Require Builder AssignCalls.

(** The four object types. *)
Inductive object_type := TyBlob | TyCommit | TyTag | TyTree.

(** Type.X and Type.X__Repr (ipldsch_minima.go and the prototypes of ipldsch_satisfaction.go) *)
Definition type_of (k : object_type) : Builder.ty :=
  match k with
  | TyBlob => Builder.t_blob
  | TyCommit => Builder.t_commit
  | TyTag => Builder.t_tag
  | TyTree => Builder.t_tree
  end.
(** AssignNode of the builder: ipldsch_satisfaction.go:185, 563 / 1330, 5196 / 5768, 6966 / 7300 *)
Definition calls_of (k : object_type) : node -> list AssignCalls.action :=
  match k with
  | TyBlob => AssignCalls.blob_calls
  | TyCommit => AssignCalls.commit_calls
  | TyTag => AssignCalls.tag_calls
  | TyTree => AssignCalls.tree_calls
  end.

(** What the caller is told.  Builder.v does not tell the errors of a builder apart: [EWrongKind]
    stands for all of them. *)
Definition told (v : Builder.verdict) : res unit :=
  match v with Builder.OK => Ok tt | Builder.ERR => Err EWrongKind | Builder.PANIC => Panic end.

(** A builder, typed or representation, as the assembler that Decode fills *)
Definition builder_assembler (repr : bool) (k : object_type) : assembler Builder.world :=
  {| asm_node := fun n w => let '(v, w1) := AssignCalls.exec repr (type_of k) w (calls_of k n) in (told v, w1);
     asm_bytes := fun b w => let '(v, w1) := Builder.step repr (type_of k) w ([], Builder.Assign (Builder.SBytes b)) in (told v, w1) |}.

(** [nb.Reset()], e.g. ipldsch_satisfaction.go:6895-6899: a new value and a new Maybe *)
Definition reset_builder (k : object_type) (w : Builder.world) : Builder.world := Builder.new_builder (type_of k).

(** A client that decodes one reader after the other with the same builder, whatever it is
    told, recovering from panics. *)
Fixpoint decode_all {S V} (ops : rdops S V) (repr : bool) (k : object_type) (ss : list S) (w : Builder.world)
  : list (res unit) * Builder.world :=
  match ss with
  | [] => ([], w)
  | s :: r =>
      let '(v, w1) := decode_any ops (builder_assembler repr k) s w in
      let '(vs, w2) := decode_all ops repr k r w1 in
      (v :: vs, w2)
  end.
