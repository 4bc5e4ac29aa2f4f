(** Encode and the encoders: marshal.go, blob.go, tree.go, commit.go, tag.go. *)
From Verif Require Import Base GoStr Cid Types Nodes Person Assemble.

(** An [io.Writer]: [Write(p)] returns a count, an error and the new state. *)
Definition writer (W : Type) := bytes -> W -> nat * option err * W.

(** How a call ended. *)
Inductive outcome := Done | Failed (e : err) | Panicked.

(** commit.go:183-189: one merge tag in a commit *)
Definition mergetag_body (t : tag) : res bytes :=
  let* o := link_sha (t_object t) in
  Ok (bs "mergetag object " ++ hex_encode o ++ [NL]
      ++ bs " type " ++ t_type t ++ [NL]
      ++ bs " tag " ++ t_tag t ++ [NL]
      ++ bs " tagger " ++ git_string (t_tagger t) ++ [NL] ++ bs " " ++ [NL]
      ++ t_message t).

(** commit.go:175-177 *)
Definition parent_body (l : link) : res bytes :=
  let* h := link_sha l in
  Ok (bs "parent " ++ hex_encode h ++ [NL]).

(** [for _, x := range l { f(x) }], outputs concatenated *)
Fixpoint concat_res {A} (f : A -> res bytes) (l : list A) : res bytes :=
  match l with
  | [] => Ok []
  | x :: r => let* a := f x in let* b := concat_res f r in Ok (a ++ b)
  end.

(** commit.go:172-198: the buffer *)
Definition commit_body (c : commit) : res bytes :=
  let* tr := link_sha (c_tree c) in
  let* parents := concat_res parent_body (c_parents c) in
  let* author := git_string_ptr (c_author c) in
  let* committer := git_string_ptr (c_committer c) in
  let* mts := concat_res mergetag_body (c_mergetag c) in
  Ok (bs "tree " ++ hex_encode tr ++ [NL]
      ++ parents
      ++ bs "author " ++ author ++ [NL]
      ++ bs "committer " ++ committer ++ [NL]
      ++ match c_encoding c with Some e => bs "encoding " ++ e ++ [NL] | None => [] end
      ++ mts
      ++ match c_signature c with
         | Some s => bs "gpgsig -----BEGIN PGP SIGNATURE-----" ++ [NL]
                     ++ s ++ bs " -----END PGP SIGNATURE-----" ++ [NL]
         | None => []
         end
      ++ concat (map (fun l => l ++ [NL]) (c_other c))
      ++ [NL] ++ c_message c).

(** tree.go:104-132.  The entry is written to a bytes.Buffer, which never fails. *)
Definition tree_entry_body (name : bytes) (n : node) : res bytes :=
  let* m := lookup_by_string n (bs "mode") in
  let* ms := as_string m in
  let* ha := lookup_by_string n (bs "hash") in
  let* hal := as_link ha in
  match hal with
  | LCid c => let* h := cid_to_sha c in Ok (ms ++ [SP] ++ name ++ [NUL] ++ h)
  | _ => Panic                       (* hal.(cidlink.Link), tree.go:126 *)
  end.

(** tree.go:82-94 *)
Fixpoint tree_entries_body (kvs : list (node * node)) : res bytes :=
  match kvs with
  | [] => Ok []
  | (k, te) :: r =>
      let* name := as_string k in
      let* a := tree_entry_body name te in
      let* b := tree_entries_body r in
      Ok (a ++ b)
  end.

Definition tree_body (n : node) : res bytes :=
  match map_entries n with
  | None => Panic                    (* mi.Done() on a nil iterator, tree.go:82 *)
  | Some kvs => tree_entries_body kvs
  end.

(** tag.go:128-184 *)
Definition tag_body (n : node) : res bytes :=
  let* obj := lookup_by_string n (bs "object") in
  let* objLnk := as_link obj in
  let* typ := lookup_by_string n (bs "type") in
  let* ttStr := as_string typ in
  let* tg := lookup_by_string n (bs "tag") in
  let* tagStr := as_string tg in
  let* message := lookup_by_string n (bs "message") in
  let* messageStr := as_string message in
  let* h := link_sha objLnk in
  let* tagger :=
    (match lookup_by_string n (bs "tagger") with
     | Ok tn => if is_null tn then Ok []
                else let* p := assign_person false tn in
                     Ok (bs "tagger " ++ git_string p ++ [NL])
     | Err _ => Ok []
     | Panic => Panic
     | OutOfFuel => OutOfFuel
     end) in
  Ok (bs "object " ++ hex_encode h ++ [NL]
      ++ bs "type " ++ ttStr ++ [NL]
      ++ bs "tag " ++ tagStr ++ [NL]
      ++ tagger
      ++ (if beqb messageStr [] then [] else NL :: messageStr)).

(** What the node is encoded as: raw bytes, or a typed header and a body. *)
Inductive encoded :=
| Raw (b : bytes)
| Framed (typ body : bytes).

(** commit.go:165-170 *)
Definition encode_commit (n : node) : res encoded :=
  match assign_commit n with
  | Ok c => let* b := commit_body c in Ok (Framed (bs "commit") b)
  | Err e => Err (ENotCommit e)
  | Panic => Panic
  | OutOfFuel => OutOfFuel
  end.

Definition encode_tree (n : node) : res encoded :=
  let* b := tree_body n in Ok (Framed (bs "tree") b).
Definition encode_tag (n : node) : res encoded :=
  let* b := tag_body n in Ok (Framed (bs "tag") b).
Definition encode_blob (n : node) : res encoded :=
  let* b := as_bytes n in Ok (Raw b).

(** marshal.go:11-51.  The generated nodes of the four object types, in both views,
    are recognised by their prototype; all others by kind. *)
Definition encode_node (n : node) : res encoded :=
  match n with
  | NBlob _ => encode_blob n
  | NCommit _ | NCommitR _ => encode_commit n
  | NTree _ | NTreeR _ => encode_tree n
  | NTag _ | NTagR _ => encode_tag n
  | _ =>
      match node_kind n with
      | KBytes => encode_blob n
      | KList => encode_tree n
      | KMap =>
          match map_entries n with
          | None => Panic
          | Some [] => Err EOverread
          | Some ((k, _) :: _) =>
              let* repKey := as_string k in
              if existsb (beqb repKey) [bs "object"; bs "type"; bs "tag"; bs "tagger"; bs "text"]
              then encode_tag n else encode_commit n
          end
      | _ => Err EUnrecognizedNode
      end
  end.

(** [fmt.Fprintf(w, "<typ> %d\x00", buf.Len())] *)
Definition header (typ body : bytes) : bytes := typ ++ [SP] ++ dec (lenN body) ++ [NUL].

(** [buf.WriteTo(w)] (bytes.Buffer): nothing for an empty buffer; a count above the
    length panics; a short count without error is ErrShortWrite. *)
Definition buffer_write_to {W} (wr : writer W) (b : bytes) (w : W) : outcome * W :=
  match b with
  | [] => (Done, w)
  | _ =>
      let '(m, e, w1) := wr b w in
      if length b <? m then (Panicked, w1)
      else match e with
           | Some e => (Failed e, w1)
           | None => if m =? length b then (Done, w1) else (Failed EShortWrite, w1)
           end
  end.

(** tree.go:96-101, commit.go:202-208, tag.go:186-190; blob.go:52-53 *)
Definition write_encoded {W} (wr : writer W) (x : encoded) (w : W) : outcome * W :=
  match x with
  | Raw b =>
      let '(_, e, w1) := wr b w in
      (match e with Some e => Failed e | None => Done end, w1)
  | Framed typ body =>
      let '(_, e, w1) := wr (header typ body) w in
      match e with
      | Some e => (Failed e, w1)
      | None => buffer_write_to wr body w1
      end
  end.

(** [Encode(n, w)] *)
Definition encode {W} (wr : writer W) (n : node) (w : W) : outcome * W :=
  match encode_node n with
  | Ok x => write_encoded wr x w
  | Err e => (Failed e, w)
  | Panic => (Panicked, w)
  | OutOfFuel => (Panicked, w)        (* not reached: encode_node has no loops with fuel *)
  end.

(** A writer that accepts everything: [bytes.Buffer]. *)
Definition buffer_writer : writer bytes := fun p w => (length p, None, w ++ p).

(** The bytes written to an initially empty buffer. *)
Definition encode_bytes (n : node) : res bytes :=
  match encode buffer_writer n [] with
  | (Done, b) => Ok b
  | (Failed e, _) => Err e
  | (Panicked, _) => Panic
  end.
