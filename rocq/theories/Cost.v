(** The work of decoding: how many bytes are copied, slice elements moved and lines read.

    The decoders of [Decode.v] again, with a count.  Counted are: every ReadLine, ReadString
    (its result twice: bufio collects it and joins it), conversions between bytes and
    strings, string concatenations, writes to a strings.Builder, the contents that append,
    strings.Builder, bytes.Buffer and io.ReadAll move when they grow, the bytes that io.ReadAll,
    io.ReadFull and bytes.Buffer.ReadFrom read.  Slice elements (a link, a tag, a string, a tree entry)
    count as one each.  Not counted: what bufio does to its own buffer, the growth of Go maps, comparisons, making error
    texts, the assignments at the end of the decoders. *)
From Verif Require Import Base GoStr Cid Types Nodes Reader Person Assemble Decode.

(** A result and its cost. *)
Definition costed (A : Type) : Type := (nat * res A)%type.
Definition cbind {A C} (x : costed A) (f : A -> costed C) : costed C :=
  match snd x with
  | Ok a => let r := f a in (fst x + fst r, snd r)
  | Err e => (fst x, Err e)
  | Panic => (fst x, Panic)
  | OutOfFuel => (fst x, OutOfFuel)
  end.
Notation "'let!' p ':=' x 'in' k" := (cbind x (fun p => k)) (at level 200, p pattern, right associativity).
Definition at_cost {A} (n : nat) (r : res A) : costed A := (n, r).
Definition free {A} (r : res A) : costed A := (0, r).

(** Growing a slice of capacity [cap] to hold [need] elements gives a capacity of at least
    [need] and at least a quarter more than before. *)
Definition growing (grow : nat -> nat -> nat) : Prop :=
  forall cap need, cap < need -> need <= grow cap need /\ 5 * cap <= 4 * grow cap need.

(** runtime.nextslicecap (Go 1.18 and later), before rounding: the new capacity of append.  The
    loop adds a quarter and 192 until the capacity suffices. *)
Fixpoint grow_loop (fuel need newcap : nat) : nat :=
  match fuel with
  | O => need
  | S f => let n := newcap + (newcap + 768) / 4 in if need <=? n then n else grow_loop f need n
  end.
Definition append_grow (round : nat -> nat) (cap need : nat) : nat :=
  round (if 2 * cap <? need then need else if cap <? 256 then 2 * cap else grow_loop need need cap).
(** bytes.growSlice: what is needed, or twice as much as before *)
Definition buffer_grow (round : nat -> nat) (cap need : nat) : nat := round (Nat.max need (2 * cap)).

Section Cost.
Context (grow : nat -> nat -> nat).     (* append, strings.Builder and io.ReadAll *)
Context (bgrow : nat -> nat -> nat).    (* bytes.Buffer *)
Context (pick : nat -> nat -> nat).     (* how much a Read with this much read before and this much room gives *)

(** append(x, e) on a slice of [n] elements and capacity [cap]: the cost and the capacity *)
Definition append_one (n cap : nat) : nat * nat :=
  if n <? cap then (1, cap) else (n + 1, grow cap (n + 1)).

(** strings.Builder *)
Record builder := { b_text : bytes; b_cap : nat }.
Definition empty_builder : builder := {| b_text := []; b_cap := 0 |}.
Definition write (b : builder) (x : bytes) : costed builder :=
  let n := length (b_text b) in
  let need := n + length x in
  if need <=? b_cap b then at_cost (length x) (Ok {| b_text := b_text b ++ x; b_cap := b_cap b |})
  else at_cost (n + length x) (Ok {| b_text := b_text b ++ x; b_cap := grow (b_cap b) need |}).

(** io.ReadAll and bytes.Buffer.ReadFrom: make room for [room] bytes, then read, until
    [left] bytes are read and the next Read reports the end.  [len] bytes are in the buffer. *)
Fixpoint fill (grow : nat -> nat -> nat) (room : nat) (fuel len cap left : nat) : nat :=
  match fuel with
  | O => 0
  | S f =>
      let '(moved, cap) := if cap <? len + room then (len, grow cap (len + room)) else (0, cap) in
      match left with
      | O => moved + 1
      | S _ =>
          let n := Nat.max 1 (Nat.min (pick len (cap - len)) (Nat.min left (cap - len))) in
          moved + 1 + n + fill grow room f (len + n) cap (left - n)
      end
  end.
(** io.ReadAll begins with 512 bytes. *)
Definition readall_cost (n : nat) : nat := fill grow 1 (S n) 0 512 n.
(** The buffer holds the prefix in its first 64 bytes. *)
Definition readfrom_cost (held n : nat) : nat := fill bgrow 512 (S n) held 64 n.

(** personinfo.go:22-36.  name += string(part) + " " copies the name, too. *)
Fixpoint name_loop_c (line : bytes) (fuel : nat) (parts : list bytes) (at_ : nat) (name : bytes) : costed (nat * bytes) :=
  match fuel with
  | O => free OutOfFuel
  | S f =>
      if at_ =? length parts then free (Err (EPersonInvalid line))
      else
        let! part := free (go_at parts at_) in
        if negb (length part =? 0) then
          let! c := free (go_at part 0) in
          if byte_eqb c LT then free (Ok (at_, name))
          else
            let! name' := at_cost (length part + (length name + length part + 1)) (Ok (name ++ part ++ [SP])) in
            name_loop_c line f parts (S at_) name'
        else if 0 <? length name then
          let! name' := at_cost (length name + 1) (Ok (name ++ [SP])) in
          name_loop_c line f parts (S at_) name'
        else name_loop_c line f parts (S at_) name
  end.

(** personinfo.go:41-60 *)
Fixpoint email_loop_c (line : bytes) (fuel : nat) (parts : list bytes) (at_ : nat) (email : builder) : costed (nat * builder) :=
  match fuel with
  | O => free OutOfFuel
  | S f =>
      if at_ =? length parts then free (Err (EPersonInvalid line))
      else
        let! part0 := free (go_at parts at_) in
        let! part := free
          (if 0 <? length part0 then
             let* c := go_at part0 0 in
             if byte_eqb c LT then go_from 1 part0 else Ok part0
           else Ok part0) in
        let! stop := free
          (if 0 <? length part then
             let* c := go_at part (length part - 1) in Ok (byte_eqb c GT)
           else Ok false) in
        if stop : bool then
          let! p := free (go_drop_last part) in
          let! p := at_cost (length p) (Ok p) in
          let! email := write email p in
          free (Ok (S at_, email))
        else
          let! x := at_cost (length part + (length part + 1)) (Ok (part ++ [SP])) in
          let! email := write email x in
          email_loop_c line f parts (S at_) email
  end.

(** personinfo.go:9-74.  bytes.Split makes a slice of the parts. *)
Definition parse_person_c (line : bytes) : costed person :=
  let parts := split_on SP line in
  let n := length parts in
  let! _ := at_cost n (Ok tt) in
  if n <? 3 then free (Err (EPersonFormat line))
  else
    let! (at1, name) := name_loop_c line (S n) parts 1 [] in
    let! pname := free (if negb (length name =? 0) then go_drop_last name else Ok []) in
    let! (at2, email) := email_loop_c line (S n) parts at1 empty_builder in
    if at2 =? n then
      free (Ok {| p_date := []; p_timezone := []; p_email := b_text email; p_name := pname |})
    else
      let! date := free (go_at parts at2) in
      let! date := at_cost (length date) (Ok date) in
      let at3 := S at2 in
      if at3 =? n then
        free (Ok {| p_date := date; p_timezone := []; p_email := b_text email; p_name := pname |})
      else
        let! tz := free (go_at parts at3) in
        let! tz := at_cost (length tz) (Ok tz) in
        free (Ok {| p_date := date; p_timezone := tz; p_email := b_text email; p_name := pname |}).

(** util.go:17-26: multihash and CID are copied.  [h] is the text of the hash: hex.DecodeString
    of a string made from it. *)
Definition sha_to_cid_c (sha : bytes) : costed cid := at_cost 64 (sha_to_cid sha).
Definition hex_decode_c (h : bytes) : costed bytes := at_cost (2 * length h) (hex_decode h).

Section Decoders.
Context {S V : Type} (ops : rdops S V).

Definition string_c (d : byte) (s : S) : costed (bytes * option err * S) :=
  let r := rd_string ops d s in
  at_cost (match r with Ok (l, _, _) => 2 * length l | _ => 0 end + 1) r.
Definition line_c (s : S) : costed (V * option err * S) := at_cost 1 (rd_line ops s).
(** io.ReadAll and the conversion to a string: commit.go:113-118, tag.go:61-66 *)
Definition all_c (s : S) : costed (bytes * option err * S) :=
  let r := rd_all ops s in
  at_cost (match r with Ok (l, _, _) => readall_cost (length l) + length l | _ => 0 end) r.
Definition full_c (n : nat) (s : S) : costed (bytes * option err * S) :=
  let r := rd_full ops n s in
  at_cost (match r with Ok (l, _, _) => length l | _ => 0 end) r.
Definition copy_c (held : nat) (n : Z) (s : S) : costed (bytes * option err * S) :=
  let r := rd_copy ops n s in
  at_cost (match r with Ok (l, _, _) => readfrom_cost held (length l) | _ => 0 end) r.

(** helper.go:45-53 *)
Definition read_number_c (s : S) : costed (Z * S) :=
  let! (lstr, e, s1) := string_c NUL s in
  match e with
  | Some e => free (Err e)
  | None => let! l := free (go_drop_last lstr) in let! z := free (atoi l) in free (Ok (z, s1))
  end.

(** blob.go:13-44 *)
Definition decode_blob_c (k : bkind) (s : S) : costed (node * S) :=
  let! (sizen, s1) := read_number_c s in
  if (sizen <? 0)%Z then free (Err (ENegativeSize sizen))
  else
    let! pre := at_cost (2 * length (bs "blob " ++ dec_Z sizen ++ [NUL])) (Ok (bs "blob " ++ dec_Z sizen ++ [NUL])) in
    let! (body, e, s2) := copy_c (length pre) sizen s1 in
    match e with
    | Some e => free (Err e)
    | None =>
        if negb (Z.of_nat (length body) =? sizen)%Z then
          if length body =? 0 then free (Err EEOF) else free (Err EUnexpectedEOF)
        else
          let! n := free (build_bytes k (pre ++ body)) in
          free (Ok (n, s2))
    end.

(** tree.go:47-76 *)
Definition decode_tree_entry_c (s : S) : costed (bytes * entry * S) :=
  let! (data, e, s1) := string_c SP s in
  match e with
  | Some e => free (Err e)
  | None =>
      let! mode := free (go_drop_last data) in
      let! (nm, e, s2) := string_c NUL s1 in
      match e with
      | Some e => free (Err e)
      | None =>
          let! name := free (go_drop_last nm) in
          let! (sha, e, s3) := full_c 20 s2 in
          match e with
          | Some e => free (Err e)
          | None =>
              let! c := sha_to_cid_c sha in
              free (Ok (name, {| e_mode := mode; e_hash := LCid c |}, s3))
          end
      end
  end.

(** tree.go:24-39 and the append of ipldsch_satisfaction.go:7053; [cap] is the capacity of
    the slice of entries. *)
Fixpoint tree_loop_c (fuel : nat) (t : tree) (cap : nat) (s : S) : costed tree :=
  match fuel with
  | O => free OutOfFuel
  | Datatypes.S f =>
      let r := decode_tree_entry_c s in
      match snd r with
      | Ok (name, e, s1) =>
          let '(n, cap') := append_one (length (tr_t t)) cap in
          let! t' := at_cost (fst r + n) (tree_insert t name e) in
          tree_loop_c f t' cap' s1
      | Err EEOF => at_cost (fst r) (Ok t)
      | Err e => at_cost (fst r) (Err e)
      | Panic => at_cost (fst r) Panic
      | OutOfFuel => at_cost (fst r) OutOfFuel
      end
  end.

(** tree.go:14-44 *)
Definition decode_tree_c (k : bkind) (s : S) : costed node :=
  let! (_, s1) := read_number_c s in
  let! t := tree_loop_c (rd_fuel ops s1) zero_tree 0 s1 in
  free (build_node k (NTree t)).

(** commit.go:147-159 *)
Fixpoint gpgsig_loop_c (fuel : nat) (sig : builder) (s : S) : costed (bytes * S) :=
  match fuel with
  | O => free OutOfFuel
  | Datatypes.S f =>
      let! (v, e, s1) := line_c s in
      match e with
      | Some e => free (Err e)
      | None =>
          let line := rd_deref ops s1 v in
          if beqb line (bs " -----END PGP SIGNATURE-----") then free (Ok (b_text sig, s1))
          else
            let! x := at_cost (length line + (length line + 1)) (Ok (line ++ [NL])) in
            let! sig := write sig x in
            gpgsig_loop_c f sig s1
      end
  end.

(** commit.go:125-163 *)
Definition decode_gpgsig_c (s : S) : costed (bytes * S) :=
  let! (v, e, s1) := line_c s in
  match e with
  | Some e => free (Err e)
  | None =>
      let line := rd_deref ops s1 v in
      if negb (beqb line (bs " ")) then
        let! _ := at_cost (2 * length line) (Ok tt) in
        if has_prefix (bs " Version: ") line || has_prefix (bs " Comment: ") line then
          let! x := at_cost (length line + (length line + 1)) (Ok (line ++ [NL])) in
          let! sig := write empty_builder x in
          gpgsig_loop_c (rd_fuel ops s1) sig s1
        else free (Err EGpgFirstLine)
      else
        let! sig := write empty_builder (bs " " ++ [NL]) in
        gpgsig_loop_c (rd_fuel ops s1) sig s1
  end.

(** tag.go:108-121 *)
Fixpoint mergetag_msg_loop_c (fuel : nat) (msg : builder) (s : S) : costed (bytes * V * S) :=
  match fuel with
  | O => free OutOfFuel
  | Datatypes.S f =>
      let! (v, e, s1) := line_c s in
      match e with
      | Some e => free (Err e)
      | None =>
          let line := rd_deref ops s1 v in
          if negb (has_prefix (bs " ") line) then free (Ok (b_text msg, v, s1))
          else
            let! x := at_cost (length line + (length line + 1)) (Ok (line ++ [NL])) in
            let! msg := write msg x in
            mergetag_msg_loop_c f msg s1
      end
  end.

(** tag.go:84-124 *)
Fixpoint mergetag_loop_c (fuel : nat) (out : tag) (s : S) : costed (tag * option V * S) :=
  match fuel with
  | O => free OutOfFuel
  | Datatypes.S f =>
      let! (v, e, s1) := line_c s in
      match e with
      | Some e => free (if is_eof e then Ok (out, None, s1) else Err e)
      | None =>
          let line := rd_deref ops s1 v in
          if has_prefix (bs " type ") line then
            let! x := at_cost (length line) (go_from 6 line) in
            mergetag_loop_c f {| t_object := t_object out; t_type := x; t_tag := t_tag out;
                                 t_tagger := t_tagger out; t_message := t_message out |} s1
          else if has_prefix (bs " tag ") line then
            let! x := at_cost (length line) (go_from 5 line) in
            mergetag_loop_c f {| t_object := t_object out; t_type := t_type out; t_tag := x;
                                 t_tagger := t_tagger out; t_message := t_message out |} s1
          else if has_prefix (bs " tagger ") line then
            let! x := free (go_from 1 line) in
            let! p := parse_person_c x in
            mergetag_loop_c f {| t_object := t_object out; t_type := t_type out; t_tag := t_tag out;
                                 t_tagger := p; t_message := t_message out |} s1
          else if beqb line (bs " ") then
            let! (msg, rest, s2) := mergetag_msg_loop_c (rd_fuel ops s1) empty_builder s1 in
            free (Ok ({| t_object := t_object out; t_type := t_type out; t_tag := t_tag out;
                         t_tagger := t_tagger out; t_message := msg |}, Some rest, s2))
          else mergetag_loop_c f out s1
      end
  end.

(** tag.go:76-125 *)
Definition read_merge_tag_c (hash : bytes) (s : S) : costed (tag * option V * S) :=
  let! c := sha_to_cid_c hash in
  mergetag_loop_c (rd_fuel ops s)
    {| t_object := LCid c; t_type := []; t_tag := []; t_tagger := zero_person; t_message := [] |} s.

(** The capacities of the slices of a commit: parents, merge tags and other lines. *)
Record caps := { k_parents : nat; k_tags : nat; k_other : nat }.
Definition no_caps : caps := {| k_parents := 0; k_tags := 0; k_other := 0 |}.

(** commit.go:45-123 *)
Fixpoint commit_line_c (fuel : nat) (c : commit) (k : caps) (v : V) (s : S) : costed (commit * caps * S) :=
  match fuel with
  | O => free OutOfFuel
  | Datatypes.S f =>
      let line := rd_deref ops s v in
      if has_prefix (bs "tree ") line then
        let! h := free (go_from 5 line) in
        let! sha := hex_decode_c h in
        let! cd := sha_to_cid_c sha in
        free (Ok ({| c_tree := LCid cd; c_parents := c_parents c; c_message := c_message c;
               c_author := c_author c; c_committer := c_committer c; c_encoding := c_encoding c;
               c_signature := c_signature c; c_mergetag := c_mergetag c; c_other := c_other c |}, k, s))
      else if has_prefix (bs "parent ") line then
        let! h := free (go_from 7 line) in
        let! sha := hex_decode_c h in
        let! cd := sha_to_cid_c sha in
        let '(n, cap) := append_one (length (c_parents c)) (k_parents k) in
        at_cost n (Ok ({| c_tree := c_tree c; c_parents := c_parents c ++ [LCid cd]; c_message := c_message c;
               c_author := c_author c; c_committer := c_committer c; c_encoding := c_encoding c;
               c_signature := c_signature c; c_mergetag := c_mergetag c; c_other := c_other c |},
               {| k_parents := cap; k_tags := k_tags k; k_other := k_other k |}, s))
      else if has_prefix (bs "author ") line then
        let! p := parse_person_c line in
        free (Ok ({| c_tree := c_tree c; c_parents := c_parents c; c_message := c_message c;
               c_author := Some p; c_committer := c_committer c; c_encoding := c_encoding c;
               c_signature := c_signature c; c_mergetag := c_mergetag c; c_other := c_other c |}, k, s))
      else if has_prefix (bs "committer ") line then
        let! p := parse_person_c line in
        free (Ok ({| c_tree := c_tree c; c_parents := c_parents c; c_message := c_message c;
               c_author := c_author c; c_committer := Some p; c_encoding := c_encoding c;
               c_signature := c_signature c; c_mergetag := c_mergetag c; c_other := c_other c |}, k, s))
      else if has_prefix (bs "encoding ") line then
        let! x := at_cost (length line) (go_from 9 line) in
        free (Ok ({| c_tree := c_tree c; c_parents := c_parents c; c_message := c_message c;
               c_author := c_author c; c_committer := c_committer c; c_encoding := Some x;
               c_signature := c_signature c; c_mergetag := c_mergetag c; c_other := c_other c |}, k, s))
      else if has_prefix (bs "mergetag object ") line then
        let! h := at_cost (length line) (go_from 16 line) in
        let! sha := hex_decode_c h in
        let! (mt, rest, s1) := read_merge_tag_c sha s in
        let '(n, cap) := append_one (length (c_mergetag c)) (k_tags k) in
        let! _ := at_cost n (Ok tt) in
        let c' := {| c_tree := c_tree c; c_parents := c_parents c; c_message := c_message c;
               c_author := c_author c; c_committer := c_committer c; c_encoding := c_encoding c;
               c_signature := c_signature c; c_mergetag := c_mergetag c ++ [mt]; c_other := c_other c |} in
        let k' := {| k_parents := k_parents k; k_tags := cap; k_other := k_other k |} in
        match rest with
        | Some v' => commit_line_c f c' k' v' s1
        | None => free (Ok (c', k', s1))
        end
      else if has_prefix (bs "gpgsig ") line then
        let! (sig, s1) := decode_gpgsig_c s in
        free (Ok ({| c_tree := c_tree c; c_parents := c_parents c; c_message := c_message c;
               c_author := c_author c; c_committer := c_committer c; c_encoding := c_encoding c;
               c_signature := Some sig; c_mergetag := c_mergetag c; c_other := c_other c |}, k, s1))
      else if length line =? 0 then
        let! (rest, e, s1) := all_c s in
        match e with
        | Some e => free (Err e)
        | None =>
            free (Ok ({| c_tree := c_tree c; c_parents := c_parents c; c_message := rest;
                   c_author := c_author c; c_committer := c_committer c; c_encoding := c_encoding c;
                   c_signature := c_signature c; c_mergetag := c_mergetag c; c_other := c_other c |}, k, s1))
        end
      else
        let '(n, cap) := append_one (length (c_other c)) (k_other k) in
        at_cost (length line + n)
          (Ok ({| c_tree := c_tree c; c_parents := c_parents c; c_message := c_message c;
               c_author := c_author c; c_committer := c_committer c; c_encoding := c_encoding c;
               c_signature := c_signature c; c_mergetag := c_mergetag c; c_other := c_other c ++ [line] |},
               {| k_parents := k_parents k; k_tags := k_tags k; k_other := cap |}, s))
  end.

(** commit.go:27-40 *)
Fixpoint commit_loop_c (fuel : nat) (c : commit) (k : caps) (s : S) : costed commit :=
  match fuel with
  | O => free OutOfFuel
  | Datatypes.S f =>
      let! (v, e, s1) := line_c s in
      match e with
      | Some e => free (if is_eof e then Ok c else Err e)
      | None =>
          let! (c', k', s2) := commit_line_c (rd_fuel ops s1) c k v s1 in
          commit_loop_c f c' k' s2
      end
  end.

(** commit.go:19-43 *)
Definition decode_commit_c (k : bkind) (s : S) : costed node :=
  let! (_, s1) := read_number_c s in
  let! c := commit_loop_c (rd_fuel ops s1) zero_commit no_caps s1 in
  free (build_node k (NCommit c)).

(** tag.go:28-70; printing a line copies it *)
Fixpoint tag_loop_c (fuel : nat) (out : tag) (printed : list bytes) (s : S) : costed (tag * list bytes) :=
  match fuel with
  | O => free OutOfFuel
  | Datatypes.S f =>
      let! (v, e, s1) := line_c s in
      match e with
      | Some e => free (if is_eof e then Ok (out, printed) else Err e)
      | None =>
          let line := rd_deref ops s1 v in
          if has_prefix (bs "object ") line then
            let! h := free (go_from 7 line) in
            let! sha := hex_decode_c h in
            let! c := sha_to_cid_c sha in
            tag_loop_c f {| t_object := LCid c; t_type := t_type out; t_tag := t_tag out;
                            t_tagger := t_tagger out; t_message := t_message out |} printed s1
          else if has_prefix (bs "tag ") line then
            let! x := at_cost (length line) (go_from 4 line) in
            tag_loop_c f {| t_object := t_object out; t_type := t_type out; t_tag := x;
                            t_tagger := t_tagger out; t_message := t_message out |} printed s1
          else if has_prefix (bs "tagger ") line then
            let! p := parse_person_c line in
            tag_loop_c f {| t_object := t_object out; t_type := t_type out; t_tag := t_tag out;
                            t_tagger := p; t_message := t_message out |} printed s1
          else if has_prefix (bs "type ") line then
            let! x := at_cost (length line) (go_from 5 line) in
            tag_loop_c f {| t_object := t_object out; t_type := x; t_tag := t_tag out;
                            t_tagger := t_tagger out; t_message := t_message out |} printed s1
          else if length line =? 0 then
            let! (rest, e, s2) := all_c s1 in
            match e with
            | Some e => free (Err e)
            | None =>
                tag_loop_c f {| t_object := t_object out; t_type := t_type out; t_tag := t_tag out;
                                t_tagger := t_tagger out; t_message := rest |} printed s2
            end
          else
            let! pr := at_cost (2 * length line + 18) (Ok (printed ++ [line])) in
            tag_loop_c f out pr s1
      end
  end.

(** tag.go:20-73 *)
Definition decode_tag_c (k : bkind) (s : S) : costed node :=
  let! (_, e, s1) := string_c NUL s in
  match e with
  | Some e => free (Err e)
  | None =>
      let! (t, _) := tag_loop_c (rd_fuel ops s1) zero_tag [] s1 in
      free (build_node k (NTag t))
  end.

(** unmarshal.go:42-49 *)
Definition read_type_c (s : S) : costed (bytes * S) :=
  let! (typ, e, s1) := string_c SP s in
  match e with
  | Some e => free (if is_eof e then Err EUnexpectedEOF else Err e)
  | None => let! t := free (go_drop_last typ) in free (Ok (t, s1))
  end.

(** unmarshal.go:39-75 *)
Definition parse_object_c (s : S) : costed node :=
  let! (typ, s1) := read_type_c s in
  if beqb typ (bs "tree") then decode_tree_c BTree s1
  else if beqb typ (bs "commit") then decode_commit_c BCommit s1
  else if beqb typ (bs "blob") then let! (n, _) := decode_blob_c BBlob s1 in free (Ok n)
  else if beqb typ (bs "tag") then decode_tag_c BTag s1
  else free (Err (EUnknownType typ)).

End Decoders.
End Cost.
