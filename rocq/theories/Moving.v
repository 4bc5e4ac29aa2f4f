(** Encode over nodes whose answers change from call to call.

    Foreign.v takes the answers of a node to be fixed, and its iterators to end.  Here a method
    may do anything: the answers depend on a state that every call may change, and an
    iterator is asked again and again and need not end.  The functions are those of
    Foreign.v, with the calls in the order in which the code makes them.  Simplifications: the
    second call of Kind that builds the text of an error is left out, as error texts are; the
    writer is not touched by the methods; and a node of this package that an assembler takes over by its
    pointer (3293, 3822) is not changed by later calls.  Line numbers without a file
    name are those of ipldsch_satisfaction.go. *)
From Verif Require Import Base GoStr Cid Types Nodes Person Assemble Encode Foreign.

(** ** Computations with a state *)
Definition state_res (S A : Type) := S -> res A * S.
Definition sret {S A} (a : A) : state_res S A := fun s => (Ok a, s).
Definition sfail {S A} (r : res A) : state_res S A := fun s => (r, s).
Definition sbind {S A B} (m : state_res S A) (f : A -> state_res S B) : state_res S B :=
  fun s => let '(r, s') := m s in
           match r with
           | Ok a => f a s'
           | Err e => (Err e, s')
           | Panic => (Panic, s')
           | OutOfFuel => (OutOfFuel, s')
           end.
(** Looking at the result before going on *)
Definition smap {S A B} (t : res A -> res B) (m : state_res S A) : state_res S B :=
  fun s => let '(r, s') := m s in (t r, s').
(** A method without an error result *)
Definition total {S A} (m : S -> A * S) : state_res S A := fun s => let '(a, s') := m s in (Ok a, s').
Notation "'let!' x := m 'in' k" := (sbind m (fun x => k)) (at level 200, x pattern, m at level 100, k at level 200).

(** What Encode can ask, as [nodeops] of Foreign.v, with states [S] and iterators [I]. *)
Record movops (S N I : Type) := {
  m_type : N -> S -> option otype * S;                        (* n.Prototype() *)
  m_own : N -> S -> option node * S;                          (* n.( *_X), and reading what it points to *)
  m_kind : N -> S -> kind * S;                                (* n.Kind() *)
  m_null : N -> S -> bool * S;                                (* n.IsNull() *)
  m_string : N -> state_res S bytes;                          (* n.AsString() *)
  m_bytes : N -> state_res S bytes;                           (* n.AsBytes() *)
  m_link : N -> state_res S link;                             (* n.AsLink() *)
  m_lookup : N -> bytes -> state_res S N;                     (* n.LookupByString(k) *)
  m_map : N -> S -> option I * S;                             (* n.MapIterator(), [None]: nil *)
  m_list : N -> S -> option I * S;                            (* n.ListIterator(), [None]: nil *)
  m_done : I -> S -> bool * S;                                (* itr.Done() *)
  m_next_pair : I -> state_res S (N * N);                     (* itr.Next() of a MapIterator *)
  m_next_item : I -> state_res S N                            (* itr.Next() of a ListIterator *)
}.
Arguments m_type {S N I} _ _ _. Arguments m_own {S N I} _ _ _. Arguments m_kind {S N I} _ _ _. Arguments m_null {S N I} _ _ _.
Arguments m_string {S N I} _ _ _. Arguments m_bytes {S N I} _ _ _. Arguments m_link {S N I} _ _ _. Arguments m_lookup {S N I} _ _ _ _.
Arguments m_map {S N I} _ _ _. Arguments m_list {S N I} _ _ _. Arguments m_done {S N I} _ _ _.
Arguments m_next_pair {S N I} _ _ _. Arguments m_next_item {S N I} _ _ _.

Section Moving.
Context {S N I : Type} (ops : movops S N I).
(** Each loop makes at most [fuel] rounds; OutOfFuel stands for a loop that goes on. *)
Variable fuel : nat.
Notation M := (state_res S).
Notation ret := sret.
Notation fail := sfail.

(** The start of every AssignNode: null is refused, a node of the assembler's own type is
    copied, else [other] goes on (1978, 2781, 2986, 4298, 8555, and those below). *)
Definition massign {A} (own : node -> option A) (other : N -> M A) (v : N) : M A :=
  let! b := total (m_null ops v) in
  if b : bool then fail (Err EWrongKind)
  else let! o := total (m_own ops v) in
       match match o with Some n => own n | None => None end with
       | Some a => ret a
       | None => other v
       end.
Definition massign_string : N -> M bytes := massign (fun n => match n with NString s => Some s | _ => None end) (m_string ops).
Definition massign_gpgsig : N -> M bytes := massign (fun n => match n with NGpgSig s => Some s | _ => None end) (m_string ops).
Definition massign_link : N -> M link := massign (fun n => match n with NLink l => Some l | _ => None end) (m_link ops).
Definition massign_tree_link : N -> M link := massign (fun n => match n with NTreeLink l => Some l | _ => None end) (m_link ops).
Definition massign_commit_link : N -> M link := massign (fun n => match n with NCommitLink l => Some l | _ => None end) (m_link ops).

(** The loop of a list's AssignNode (2268, 2526, 4585, 4843, 6368, 6626) *)
Fixpoint mitems {A} (f : N -> M A) (left : nat) (it : I) : M (list A) :=
  match left with
  | O => fail OutOfFuel
  | Datatypes.S left' =>
      let! d := total (m_done ops it) in
      if d : bool then ret []
      else let! v := m_next_item ops it in
           let! a := f v in
           let! rs := mitems f left' it in
           ret (a :: rs)
  end.
Definition massign_list {A} (own : node -> option (list A)) (f : N -> M A) : N -> M (list A) :=
  massign own (fun v =>
    let! k := total (m_kind ops v) in
    match k with
    | KList => let! i := total (m_list ops v) in
               match i with
               | Some it => mitems f fuel it
               | None => fail Panic                             (* itr.Done() on a nil iterator *)
               end
    | _ => fail (Err EWrongKind)
    end).

(** The loop of a struct's AssignNode: see [struct_loop]. *)
Fixpoint mstruct_loop {W} (fields : list bytes) (set : nat -> N -> W -> M W) (left : nat) (it : I)
    (seen : list nat) (w : W) : M (list nat * W) :=
  match left with
  | O => fail OutOfFuel
  | Datatypes.S left' =>
      let! d := total (m_done ops it) in
      if d : bool then ret (seen, w)
      else let! (k, v) := m_next_pair ops it in
           let! ks := m_string ops k in
           match field_index ks fields 0 with
           | None => fail (Err (EInvalidKey ks))
           | Some i =>
               if existsb (Nat.eqb i) seen then fail (Err (ERepeatedKey ks))
               else let! w' := set i v w in
                    mstruct_loop fields set left' it (i :: seen) w'
           end
  end.
(** A struct's AssignNode (563 / 1330, 3281 / 3810, 5196 / 5768) *)
Definition massign_struct {W} (own : node -> option W) (fields : list bytes) (required : list nat)
    (set : nat -> N -> W -> M W) (zero : W) : N -> M W :=
  massign own (fun v =>
    let! k := total (m_kind ops v) in
    match k with
    | KMap =>
        let! i := total (m_map ops v) in
        match i with
        | Some it =>
            let! (seen, w') := mstruct_loop fields set fuel it [] zero in
            match missing_fields fields required seen with
            | [] => ret w'
            | ms => fail (Err (EMissing ms))
            end
        | None => fail Panic                                    (* itr.Done() on a nil iterator *)
        end
    | _ => fail (Err EWrongKind)
    end).

(** PersonInfo (AssembleValue 3445-3479 / 3971-4005, AssignNode 3281 / 3810); [wnil] as in [assign_person]. *)
Definition mset_person (i : nat) (v : N) (p : person) : M person :=
  let! s := massign_string v in
  match i with
  | 0 => ret {| p_date := s; p_timezone := p_timezone p; p_email := p_email p; p_name := p_name p |}
  | 1 => ret {| p_date := p_date p; p_timezone := s; p_email := p_email p; p_name := p_name p |}
  | 2 => ret {| p_date := p_date p; p_timezone := p_timezone p; p_email := s; p_name := p_name p |}
  | 3 => ret {| p_date := p_date p; p_timezone := p_timezone p; p_email := p_email p; p_name := s |}
  | _ => fail Panic
  end.
Definition massign_person (wnil : bool) : N -> M person :=
  massign_struct (fun n => match n with NPerson p => Some p | _ => None end) person_fields [0; 1; 2; 3]
    (if wnil then fun _ _ _ => fail Panic else mset_person) zero_person.

(** Tag (AssembleValue 5380-5418 / 5948-5986, AssignNode 5196 / 5768) *)
Definition mset_tag (i : nat) (v : N) (t : tag) : M tag :=
  match i with
  | 0 => let! l := massign_link v in
         ret {| t_object := l; t_type := t_type t; t_tag := t_tag t; t_tagger := t_tagger t; t_message := t_message t |}
  | 1 => let! s := massign_string v in
         ret {| t_object := t_object t; t_type := s; t_tag := t_tag t; t_tagger := t_tagger t; t_message := t_message t |}
  | 2 => let! s := massign_string v in
         ret {| t_object := t_object t; t_type := t_type t; t_tag := s; t_tagger := t_tagger t; t_message := t_message t |}
  | 3 => let! p := massign_person false v in
         ret {| t_object := t_object t; t_type := t_type t; t_tag := t_tag t; t_tagger := p; t_message := t_message t |}
  | 4 => let! s := massign_string v in
         ret {| t_object := t_object t; t_type := t_type t; t_tag := t_tag t; t_tagger := t_tagger t; t_message := s |}
  | _ => fail Panic
  end.
Definition massign_tag : N -> M tag :=
  massign_struct (fun n => match n with NTag t => Some t | _ => None end) tag_fields [0; 1; 2; 3; 4] mset_tag zero_tag.

(** Lists (Commit_Link_List 2268 / 2526, String_List 4585 / 4843, Tag_List 6368 / 6626) *)
Definition massign_link_list : N -> M (list link) :=
  massign_list (fun n => match n with NCommitLinkList l => Some l | _ => None end) massign_commit_link.
Definition massign_string_list : N -> M (list bytes) :=
  massign_list (fun n => match n with NStringList l => Some l | _ => None end) massign_string.
Definition massign_tag_list : N -> M (list tag) :=
  massign_list (fun n => match n with NTagList l => Some l | _ => None end) massign_tag.

(** Commit (AssembleValue 821-875 / 1588-1646, AssignNode 563 / 1330) *)
Definition mset_commit (i : nat) (v : N) (c : commit) : M commit :=
  match i with
  | 0 => let! l := massign_tree_link v in
         ret {| c_tree := l; c_parents := c_parents c; c_message := c_message c; c_author := c_author c; c_committer := c_committer c; c_encoding := c_encoding c; c_signature := c_signature c; c_mergetag := c_mergetag c; c_other := c_other c |}
  | 1 => let! l := massign_link_list v in
         ret {| c_tree := c_tree c; c_parents := l; c_message := c_message c; c_author := c_author c; c_committer := c_committer c; c_encoding := c_encoding c; c_signature := c_signature c; c_mergetag := c_mergetag c; c_other := c_other c |}
  | 2 => let! s := massign_string v in
         ret {| c_tree := c_tree c; c_parents := c_parents c; c_message := s; c_author := c_author c; c_committer := c_committer c; c_encoding := c_encoding c; c_signature := c_signature c; c_mergetag := c_mergetag c; c_other := c_other c |}
  | 3 => let! p := massign_person true v in
         ret {| c_tree := c_tree c; c_parents := c_parents c; c_message := c_message c; c_author := Some p; c_committer := c_committer c; c_encoding := c_encoding c; c_signature := c_signature c; c_mergetag := c_mergetag c; c_other := c_other c |}
  | 4 => let! p := massign_person true v in
         ret {| c_tree := c_tree c; c_parents := c_parents c; c_message := c_message c; c_author := c_author c; c_committer := Some p; c_encoding := c_encoding c; c_signature := c_signature c; c_mergetag := c_mergetag c; c_other := c_other c |}
  | 5 => let! s := massign_string v in
         ret {| c_tree := c_tree c; c_parents := c_parents c; c_message := c_message c; c_author := c_author c; c_committer := c_committer c; c_encoding := Some s; c_signature := c_signature c; c_mergetag := c_mergetag c; c_other := c_other c |}
  | 6 => let! s := massign_gpgsig v in
         ret {| c_tree := c_tree c; c_parents := c_parents c; c_message := c_message c; c_author := c_author c; c_committer := c_committer c; c_encoding := c_encoding c; c_signature := Some s; c_mergetag := c_mergetag c; c_other := c_other c |}
  | 7 => let! l := massign_tag_list v in
         ret {| c_tree := c_tree c; c_parents := c_parents c; c_message := c_message c; c_author := c_author c; c_committer := c_committer c; c_encoding := c_encoding c; c_signature := c_signature c; c_mergetag := l; c_other := c_other c |}
  | 8 => let! l := massign_string_list v in
         ret {| c_tree := c_tree c; c_parents := c_parents c; c_message := c_message c; c_author := c_author c; c_committer := c_committer c; c_encoding := c_encoding c; c_signature := c_signature c; c_mergetag := c_mergetag c; c_other := l |}
  | _ => fail Panic
  end.
Definition massign_commit : N -> M commit :=
  massign_struct (fun n => match n with NCommit c => Some c | _ => None end) commit_fields [0; 1; 2; 7; 8] mset_commit zero_commit.

(** tree.go:104-132 *)
Definition mtree_entry_body (name : bytes) (n : N) : M bytes :=
  let! m := m_lookup ops n (bs "mode") in
  let! ms := m_string ops m in
  let! ha := m_lookup ops n (bs "hash") in
  let! hal := m_link ops ha in
  match hal with
  | LCid c => let! h := fail (cid_to_sha c) in ret (ms ++ [SP] ++ name ++ [NUL] ++ h)
  | _ => fail Panic                       (* hal.(cidlink.Link), tree.go:126 *)
  end.
(** tree.go:82-94 *)
Fixpoint mtree_entries_body (left : nat) (it : I) : M bytes :=
  match left with
  | O => fail OutOfFuel
  | Datatypes.S left' =>
      let! d := total (m_done ops it) in
      if d : bool then ret []
      else let! (k, te) := m_next_pair ops it in
           let! name := m_string ops k in
           let! a := mtree_entry_body name te in
           let! b := mtree_entries_body left' it in
           ret (a ++ b)
  end.
Definition mencode_tree (n : N) : M encoded :=
  let! i := total (m_map ops n) in
  match i with
  | None => fail Panic                    (* mi.Done() on a nil iterator, tree.go:82 *)
  | Some it => let! b := mtree_entries_body fuel it in ret (Framed (bs "tree") b)
  end.

(** tag.go:127-191 *)
Definition mencode_tag (n : N) : M encoded :=
  let! obj := m_lookup ops n (bs "object") in
  let! objLnk := m_link ops obj in
  let! typ := m_lookup ops n (bs "type") in
  let! ttStr := m_string ops typ in
  let! tg := m_lookup ops n (bs "tag") in
  let! tagStr := m_string ops tg in
  let! message := m_lookup ops n (bs "message") in
  let! messageStr := m_string ops message in
  let! tagger := smap (fun r => match r with                                       (* taggerErr *)
                                | Ok tn => Ok (Some tn)
                                | Err _ => Ok None
                                | Panic => Panic
                                | OutOfFuel => OutOfFuel
                                end) (m_lookup ops n (bs "tagger")) in
  let! h := fail (link_sha objLnk) in
  let! line :=
    match tagger with
    | Some tn => let! b := total (m_null ops tn) in
                 if b : bool then ret []
                 else let! p := massign_person false tn in
                      ret (bs "tagger " ++ git_string p ++ [NL])
    | None => ret []
    end in
  ret (Framed (bs "tag")
     (bs "object " ++ hex_encode h ++ [NL]
      ++ bs "type " ++ ttStr ++ [NL]
      ++ bs "tag " ++ tagStr ++ [NL]
      ++ line
      ++ (if beqb messageStr [] then [] else NL :: messageStr))).

(** commit.go:165-209; the lines from 171 on are [commit_body] *)
Definition mencode_commit (n : N) : M encoded :=
  smap (fun r => match r with
                 | Ok c => let* b := commit_body c in Ok (Framed (bs "commit") b)
                 | Err e => Err (ENotCommit e)
                 | Panic => Panic
                 | OutOfFuel => OutOfFuel
                 end) (massign_commit n).
(** blob.go:46-53 *)
Definition mencode_blob (n : N) : M encoded :=
  let! b := m_bytes ops n in ret (Raw b).

(** marshal.go:11-51 *)
Definition mencode_node (n : N) : M encoded :=
  let! ty := total (m_type ops n) in
  match ty with
  | Some OBlob => mencode_blob n
  | Some OCommit => mencode_commit n
  | Some OTree => mencode_tree n
  | Some OTag => mencode_tag n
  | None =>
      let! kd := total (m_kind ops n) in
      match kd with
      | KBytes => mencode_blob n
      | KList => mencode_tree n
      | KMap =>
          let! i := total (m_map ops n) in
          match i with
          | None => fail Panic
          | Some it =>
              let! (k, _) := m_next_pair ops it in
              let! repKey := m_string ops k in
              if existsb (beqb repKey) [bs "object"; bs "type"; bs "tag"; bs "tagger"; bs "text"]
              then mencode_tag n else mencode_commit n
          end
      | _ => fail (Err EUnrecognizedNode)
      end
  end.
End Moving.

(** [Encode(n, w)]; [None] stands for a call that goes on. *)
Definition mencode {S N I W} (ops : movops S N I) (fuel : nat) (wr : writer W) (n : N) (s : S) (w : W) : option (outcome * W) :=
  match fst (mencode_node ops fuel n s) with
  | Ok x => Some (write_encoded wr x w)
  | Err e => Some (Failed e, w)
  | Panic => Some (Panicked, w)
  | OutOfFuel => None
  end.

(** ** Nodes that stand still

    An implementation of Foreign.v as one of these: its state is what each iterator that was made
    has still to give, the iterators are numbered. *)
Definition rest (N : Type) : Type := list (N * N) * list N * option err.
Definition rest_of {N} (s : list (rest N)) (i : nat) : rest N := nth i s ([], [], None).
Definition still {N} (o : nodeops N) : movops (list (rest N)) N nat :=
  {| m_type := fun n s => (o_type o n, s);
     m_own := fun n s => (o_own o n, s);
     m_kind := fun n s => (o_kind o n, s);
     m_null := fun n s => (o_null o n, s);
     m_string := fun n s => (o_string o n, s);
     m_bytes := fun n s => (o_bytes o n, s);
     m_link := fun n s => (o_link o n, s);
     m_lookup := fun n k s => (o_lookup o n k, s);
     m_map := fun n s => match o_map o n with
                         | Some (l, e) => (Some (length s), s ++ [(l, [], e)])
                         | None => (None, s)
                         end;
     m_list := fun n s => match o_list o n with
                          | Some (l, e) => (Some (length s), s ++ [([], l, e)])
                          | None => (None, s)
                          end;
     m_done := fun i s => (match rest_of s i with ([], [], None) => true | _ => false end, s);
     m_next_pair := fun i s => match rest_of s i with
                               | (kv :: l, l', e) => (Ok kv, firstn i s ++ (l, l', e) :: skipn (S i) s)
                               | (_, _, Some e) => (Err e, s)
                               | (_, _, None) => (Err EOverread, s)
                               end;
     m_next_item := fun i s => match rest_of s i with
                               | (l', v :: l, e) => (Ok v, firstn i s ++ (l', l, e) :: skipn (S i) s)
                               | (_, _, Some e) => (Err e, s)
                               | (_, _, None) => (Err EOverread, s)
                               end |}.
