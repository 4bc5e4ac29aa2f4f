(** The schema from which the types of this package are generated (gen/gen.go), as data.

    Simplification: the generator itself is not modelled.  Left out: the name [typ] of a Go
    struct field (gen.go:17), which no node shows, and the table of union layouts, which is empty. *)
From Verif Require Import Base GoStr.

(** schema.SpawnStructField(name, type, optional, nullable) *)
Record field_def := { fd_name : bytes; fd_type : bytes; fd_optional : bool; fd_nullable : bool }.
Definition spawn_field (name type : bytes) (optional nullable : bool) : field_def :=
  {| fd_name := name; fd_type := type; fd_optional := optional; fd_nullable := nullable |}.

(** schema.SpawnString, SpawnBytes, SpawnLink and SpawnLinkReference (the type linked to),
    SpawnList and SpawnMap (the last argument: values may be null), SpawnStruct with a map
    representation that renames no field. *)
Inductive typedef :=
| DString
| DBytes
| DLink (target : option bytes)
| DList (elem : bytes) (nullable : bool)
| DMap (key value : bytes) (nullable : bool)
| DStruct (fields : list field_def).

Definition schema := list (bytes * typedef).

(** gen.go:21-66: the calls of ts.Accumulate, in order *)
Definition git_schema : schema :=
  [ (bs "String", DString);
    (bs "Link", DLink None);
    (bs "String_List", DList (bs "String") false);
    (bs "PersonInfo", DStruct
      [ spawn_field (bs "date") (bs "String") false false;
        spawn_field (bs "timezone") (bs "String") false false;
        spawn_field (bs "email") (bs "String") false false;
        spawn_field (bs "name") (bs "String") false false ]);
    (bs "GpgSig", DString);
    (bs "Tag", DStruct
      [ spawn_field (bs "object") (bs "Link") false false;
        spawn_field (bs "type") (bs "String") false false;
        spawn_field (bs "tag") (bs "String") false false;
        spawn_field (bs "tagger") (bs "PersonInfo") false false;
        spawn_field (bs "message") (bs "String") false false ]);
    (bs "Tag_List", DList (bs "Tag") false);
    (bs "Commit", DStruct
      [ spawn_field (bs "tree") (bs "Tree_Link") false false;
        spawn_field (bs "parents") (bs "Commit_Link_List") false false;
        spawn_field (bs "message") (bs "String") false false;
        spawn_field (bs "author") (bs "PersonInfo") true false;
        spawn_field (bs "committer") (bs "PersonInfo") true false;
        spawn_field (bs "encoding") (bs "String") true false;
        spawn_field (bs "signature") (bs "GpgSig") true false;
        spawn_field (bs "mergetag") (bs "Tag_List") false false;
        spawn_field (bs "other") (bs "String_List") false false ]);
    (bs "Commit_Link", DLink (Some (bs "Commit")));
    (bs "Commit_Link_List", DList (bs "Commit_Link") false);
    (bs "Blob", DBytes);
    (bs "Tree", DMap (bs "String") (bs "TreeEntry") false);
    (bs "TreeEntry", DStruct
      [ spawn_field (bs "mode") (bs "String") false false;
        spawn_field (bs "hash") (bs "Link") false false ]);
    (bs "Tree_Link", DLink (Some (bs "Tree"))) ].
