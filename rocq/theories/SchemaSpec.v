(** Specification: when a node conforms to a type of an IPLD schema.

    [yields] and [lists] (NodeSpec.v) say what iterating over a map or a list gives,
    [is_text] (StructSpec.v) says which nodes are strings. *)
From Verif Require Import Base GoStr Cid Types Nodes NodeSpec Schema StructSpec.
From Coq Require Import Permutation.

(** A selection of the fields of a struct, in order, that leaves out optional ones only. *)
Inductive selection : list field_def -> list field_def -> Prop :=
| sel_nil : selection [] []
| sel_take f fs gs : selection fs gs -> selection (f :: fs) (f :: gs)
| sel_skip f fs gs : fd_optional f = true -> selection fs gs -> selection (f :: fs) gs.

(** Seen as typed data, a struct has all its fields, and [ipld.Absent] stands for an optional
    field that is not there.  In the representation such a field is left out. *)
Inductive level := Typed | Representation.

Section Conforms.
(** [good l]: which links count as links. *)
Context (sch : schema) (good : link -> Prop) (lv : level).

Inductive conforms : bytes -> node -> Prop :=
| cf_string T n s : In (T, DString) sch -> is_text n s -> conforms T n
| cf_bytes T n s : In (T, DBytes) sch -> as_bytes n = Ok s -> conforms T n
| cf_link T n l target : In (T, DLink target) sch -> is_link n l -> good l -> conforms T n
| cf_list T e nullable n items : In (T, DList e nullable) sch -> lists n items ->
    Forall (fun iv => or_null nullable e (snd iv)) items -> conforms T n
| cf_map T k e nullable n kvs names : In (T, DMap k e nullable) sch -> yields n kvs ->
    Forall2 (fun kv name => is_text (fst kv) name) kvs names -> NoDup names ->
    Forall (fun kv => conforms k (fst kv)) kvs ->
    Forall (fun kv => or_null nullable e (snd kv)) kvs -> conforms T n
| cf_struct T fs gs n kvs kvs' : In (T, DStruct fs) sch -> yields n kvs ->
    (match lv with Typed => gs = fs | Representation => selection fs gs end) ->
    Permutation kvs' kvs ->
    Forall2 (fun f kv => is_text (fst kv) (fd_name f) /\ field_value f (snd kv)) gs kvs' -> conforms T n
with or_null : bool -> bytes -> node -> Prop :=
| on_value nullable T n : conforms T n -> or_null nullable T n
| on_null T : or_null true T NNull
with field_value : field_def -> node -> Prop :=
| fv_value f n : or_null (fd_nullable f) (fd_type f) n -> field_value f n
| fv_absent f : lv = Typed -> fd_optional f = true -> field_value f NAbsent.
End Conforms.
