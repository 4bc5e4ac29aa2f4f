(** The work of encoding: how many bytes are copied and slice elements moved.

    The encoders of [Encode.v] again, with a count, as the sequence of Fprintf, Fprint and
    Fprintln calls they are.  Counted are: the bytes of a CID that Hash copies, hex.EncodeToString
    (its bytes, and again as a string), the pieces that fmt puts together in its own buffer, Sprintf's
    string, the format string and the arguments that GitString puts together, the writes to
    the bytes.Buffer, the contents that all these buffers and slices move when they grow, the elements that
    AssignNode appends when it copies another implementation's commit, the bytes that are
    given to the writer.  Not counted: comparisons, lookups, iterators, the assignments of AssignNode
    that copy no bytes, and what a call did that failed before it wrote anything. *)
From Verif Require Import Base GoStr Cid Types Nodes Person Assemble Encode Cost.

(** fmt's doPrintf: what it appends to its buffer, for formats whose verbs are %s and
    %d and that have an argument for each verb (the argument as text).  [lit] is the text since the last verb. *)
Fixpoint printf (lit f : bytes) (args : list bytes) : list bytes :=
  match f with
  | [] => [lit]
  | c :: f' =>
      if byte_eqb c x25 then
        match f', args with
        | _ :: f'', a :: args' => lit :: a :: printf [] f'' args'
        | _, _ => [lit]
        end
      else printf (lit ++ [c]) f' args
  end.

Section EncodeCost.
Context (grow : nat -> nat -> nat).     (* append *)
Context (bgrow : nat -> nat -> nat).    (* bytes.Buffer *)
Context (pool : nat -> nat).            (* the capacity of the buffer that fmt takes from its pool *)
Context (hint : nat -> nat).            (* the capacities that BeginList makes for the length it is told *)

(** fmt: the pieces are appended to a buffer taken from a pool *)
Fixpoint append_all (pieces : list bytes) (b : builder) : costed builder :=
  match pieces with
  | [] => free (Ok b)
  | p :: r => let! b := write grow b p in append_all r b
  end.
Definition formatted (pieces : list bytes) : costed builder :=
  append_all pieces {| b_text := []; b_cap := pool (length pieces) |}.
(** fmt.Fprintf, Fprint and Fprintln: one Write of what was put together *)
Definition fprint (pieces : list bytes) (buf : builder) : costed builder :=
  let! x := formatted pieces in write bgrow buf (b_text x).
Definition fprintf (f : bytes) (args : list bytes) : builder -> costed builder := fprint (printf [] f args).
Definition fprintln (x : bytes) : builder -> costed builder := fprint [x; [NL]].
(** fmt.Sprintf: a string is made *)
Definition sprintf (f : bytes) (args : list bytes) : costed bytes :=
  let! x := formatted (printf [] f args) in at_cost (length (b_text x)) (Ok (b_text x)).

(** util.go:28-63: go-cid's Hash copies the CID *)
Definition sha_of_cid_c (c : cid) : costed bytes := at_cost (length c) (cid_to_sha c).
Definition link_sha_c (l : link) : costed bytes := match l with LCid c => sha_of_cid_c c | _ => free (Ok []) end.
(** [hex.EncodeToString(l.sha())] *)
Definition link_hex_c (l : link) : costed bytes :=
  let! h := link_sha_c l in at_cost (4 * length h) (Ok (hex_encode h)).

(** personinfo.go:76-89 *)
Definition add_verb (x : bytes) (s : bytes * list bytes * nat) : costed (bytes * list bytes * nat) :=
  let '(f, arg, cap) := s in
  if beqb x [] then free (Ok s)
  else
    let '(n, cap') := append_one grow (length arg) cap in
    at_cost (length (f ++ bs " %s") + n) (Ok (f ++ bs " %s", arg ++ [x], cap')).
Definition git_string_c (p : person) : costed bytes :=
  let! s := add_verb (p_date p) (bs "%s <%s>", [p_name p; p_email p], 2) in
  let! (f, arg, _) := add_verb (p_timezone p) s in
  sprintf f arg.
Definition git_string_ptr_c (p : option person) : costed bytes :=
  match p with Some p => git_string_c p | None => free Panic end.

(** [for _, x := range l] *)
Fixpoint each {A} (f : A -> builder -> costed builder) (l : list A) (buf : builder) : costed builder :=
  match l with
  | [] => free (Ok buf)
  | x :: r => let! buf := f x buf in each f r buf
  end.

(** commit.go:175-177 *)
Definition print_parent (l : link) (buf : builder) : costed builder :=
  let! h := link_hex_c l in fprintf (bs "parent %s" ++ [NL]) [h] buf.
(** commit.go:183-189 *)
Definition print_mergetag (t : tag) (buf : builder) : costed builder :=
  let! h := link_hex_c (t_object t) in
  let! buf := fprintf (bs "mergetag object %s" ++ [NL]) [h] buf in
  let! buf := fprintf (bs " type %s" ++ [NL]) [t_type t] buf in
  let! buf := fprintf (bs " tag %s" ++ [NL]) [t_tag t] buf in
  let! g := git_string_c (t_tagger t) in
  let! buf := fprintf (bs " tagger %s" ++ [NL] ++ bs " " ++ [NL]) [g] buf in
  fprintf (bs "%s") [t_message t] buf.
(** commit.go:180-182 *)
Definition print_encoding (e : option bytes) (buf : builder) : costed builder :=
  match e with
  | Some e => fprintf (bs "encoding %s" ++ [NL]) [e] buf
  | None => free (Ok buf)
  end.
(** commit.go:190-194 *)
Definition print_signature (s : option bytes) (buf : builder) : costed builder :=
  match s with
  | Some s =>
      let! buf := fprintln (bs "gpgsig -----BEGIN PGP SIGNATURE-----") buf in
      let! buf := fprint [s] buf in
      fprintln (bs " -----END PGP SIGNATURE-----") buf
  | None => free (Ok buf)
  end.
(** commit.go:172-198 *)
Definition print_commit (c : commit) (buf : builder) : costed builder :=
  let! h := link_hex_c (c_tree c) in
  let! buf := fprintf (bs "tree %s" ++ [NL]) [h] buf in
  let! buf := each print_parent (c_parents c) buf in
  let! g := git_string_ptr_c (c_author c) in
  let! buf := fprintf (bs "author %s" ++ [NL]) [g] buf in
  let! g := git_string_ptr_c (c_committer c) in
  let! buf := fprintf (bs "committer %s" ++ [NL]) [g] buf in
  let! buf := print_encoding (c_encoding c) buf in
  let! buf := each print_mergetag (c_mergetag c) buf in
  let! buf := print_signature (c_signature c) buf in
  let! buf := each fprintln (c_other c) buf in
  fprintf ([NL] ++ bs "%s") [c_message c] buf.

(** The appends of a list assembler: [todo] elements on a slice of [n]. *)
Fixpoint appends (todo n cap : nat) : nat :=
  match todo with
  | O => 0
  | S t => let '(k, cap') := append_one grow n cap in k + appends t (n + 1) cap'
  end.
(** [ci.AssignNode(n)], commit.go:166-170: a commit of this package is copied as a struct, without its lists;
    from another node each element is appended. *)
Definition lists_cost (c : commit) : nat :=
  appends (length (c_parents c)) 0 (hint 0) + appends (length (c_mergetag c)) 0 (hint 1) + appends (length (c_other c)) 0 (hint 2).
Definition is_commit (n : node) : bool := match n with NCommit _ => true | _ => false end.
Definition assign_cost (n : node) (c : commit) : nat := if is_commit n then 0 else lists_cost c.

(** commit.go:165-209 *)
Definition encode_commit_c (n : node) : costed encoded :=
  match assign_commit n with
  | Ok c =>
      let! _ := at_cost (assign_cost n c) (Ok tt) in
      let! buf := print_commit c empty_builder in
      free (Ok (Framed (bs "commit") (b_text buf)))
  | Err e => free (Err (ENotCommit e))
  | Panic => free Panic
  | OutOfFuel => free OutOfFuel
  end.

(** tree.go:104-132 *)
Definition print_tree_entry (name : bytes) (n : node) (buf : builder) : costed builder :=
  let! m := free (lookup_by_string n (bs "mode")) in
  let! ms := free (as_string m) in
  let! ha := free (lookup_by_string n (bs "hash")) in
  let! buf := fprintf (bs "%s %s" ++ [NUL]) [ms; name] buf in
  let! hal := free (as_link ha) in
  match hal with
  | LCid c => let! h := sha_of_cid_c c in write bgrow buf h
  | _ => free Panic
  end.
(** tree.go:79-94 *)
Fixpoint print_tree_entries (kvs : list (node * node)) (buf : builder) : costed builder :=
  match kvs with
  | [] => free (Ok buf)
  | (k, te) :: r =>
      let! name := free (as_string k) in
      let! buf := print_tree_entry name te buf in
      print_tree_entries r buf
  end.
Definition encode_tree_c (n : node) : costed encoded :=
  match map_entries n with
  | None => free Panic
  | Some kvs => let! buf := print_tree_entries kvs empty_builder in free (Ok (Framed (bs "tree") (b_text buf)))
  end.

(** tag.go:170-181 *)
Definition print_tagger (n : node) (buf : builder) : costed builder :=
  match lookup_by_string n (bs "tagger") with
  | Ok tn =>
      if is_null tn then free (Ok buf)
      else
        let! p := free (assign_person false tn) in
        let! g := git_string_c p in
        fprintf (bs "tagger %s" ++ [NL]) [g] buf
  | Err _ => free (Ok buf)
  | Panic => free Panic
  | OutOfFuel => free OutOfFuel
  end.
(** tag.go:128-184 *)
Definition print_tag (n : node) (buf : builder) : costed builder :=
  let! obj := free (lookup_by_string n (bs "object")) in
  let! objLnk := free (as_link obj) in
  let! typ := free (lookup_by_string n (bs "type")) in
  let! ttStr := free (as_string typ) in
  let! tg := free (lookup_by_string n (bs "tag")) in
  let! tagStr := free (as_string tg) in
  let! message := free (lookup_by_string n (bs "message")) in
  let! messageStr := free (as_string message) in
  let! h := link_hex_c objLnk in
  let! buf := fprintf (bs "object %s" ++ [NL]) [h] buf in
  let! buf := fprintf (bs "type %s" ++ [NL]) [ttStr] buf in
  let! buf := fprintf (bs "tag %s" ++ [NL]) [tagStr] buf in
  let! buf := print_tagger n buf in
  if beqb messageStr [] then free (Ok buf) else fprintf ([NL] ++ bs "%s") [messageStr] buf.
Definition encode_tag_c (n : node) : costed encoded :=
  let! buf := print_tag n empty_builder in free (Ok (Framed (bs "tag") (b_text buf))).

(** blob.go:46-53 *)
Definition encode_blob_c (n : node) : costed encoded := let! b := free (as_bytes n) in free (Ok (Raw b)).

(** marshal.go:11-51 *)
Definition encode_node_c (n : node) : costed encoded :=
  match n with
  | NBlob _ => encode_blob_c n
  | NCommit _ | NCommitR _ => encode_commit_c n
  | NTree _ | NTreeR _ => encode_tree_c n
  | NTag _ | NTagR _ => encode_tag_c n
  | _ =>
      match node_kind n with
      | KBytes => encode_blob_c n
      | KList => encode_tree_c n
      | KMap =>
          match map_entries n with
          | None => free Panic
          | Some [] => free (Err EOverread)
          | Some ((k, _) :: _) =>
              let! repKey := free (as_string k) in
              if existsb (beqb repKey) [bs "object"; bs "type"; bs "tag"; bs "tagger"; bs "text"]
              then encode_tag_c n else encode_commit_c n
          end
      | _ => free (Err EUnrecognizedNode)
      end
  end.

(** The bytes given to the writer: tree.go:96-101, commit.go:202-209, tag.go:186-190; blob.go:52-53.
    The header is put together by fmt; WriteTo hands over the buffer itself. *)
Definition write_encoded_c {W} (wr : writer W) (x : encoded) (w : W) : nat * (outcome * W) :=
  (match x with
   | Raw b => length b
   | Framed typ body =>
       let h := formatted [typ ++ [SP]; dec (lenN body); [NUL]] in
       fst h + length (header typ body) +
       match wr (header typ body) w with
       | (_, None, _) => length body
       | _ => 0
       end
   end, write_encoded wr x w).

(** [Encode(n, w)] *)
Definition encode_c {W} (wr : writer W) (n : node) (w : W) : nat * (outcome * W) :=
  let x := encode_node_c n in
  match snd x with
  | Ok e => (fst x + fst (write_encoded_c wr e w), snd (write_encoded_c wr e w))
  | Err e => (fst x, (Failed e, w))
  | Panic => (fst x, (Panicked, w))
  | OutOfFuel => (fst x, (Panicked, w))
  end.

End EncodeCost.
