(** The tree under construction with its pointers.

    [_Tree] (ipldsch_types.go:127-134) is a slice [t] of key/entry cells and a map [m]
    from names to pointers at the entries of such cells.  Appending to a full slice
    moves the cells to a new array, while the pointers in [m] keep referring to the old
    one.  Assemble.v replaces every pointer by the value it refers to; here the arrays
    and pointers are explicit, so that this can be justified. *)
From Verif Require Import Base GoStr Cid Types Nodes Reader Assemble Decode.

(** ** Memory: arrays of cells, addressed by their number

    Arrays are never freed here: an array stays as long as something refers to it. *)
Notation cell := (bytes * entry)%type.
Definition zero_cell : cell := ([], zero_entry).
Definition memory := list (list cell).

(** A pointer to a cell: array, index. *)
Definition pointer := (nat * nat)%type.

Definition load (h : memory) (p : pointer) : option cell :=
  match nth_error h (fst p) with
  | Some a => nth_error a (snd p)
  | None => None
  end.

Fixpoint set_nth {A} (i : nat) (x : A) (l : list A) : list A :=
  match l, i with
  | [], _ => []
  | _ :: r, O => x :: r
  | y :: r, S j => y :: set_nth j x r
  end.

Definition store (h : memory) (p : pointer) (c : cell) : memory :=
  match nth_error h (fst p) with
  | Some a => set_nth (fst p) (set_nth (snd p) c a) h
  | None => h
  end.

(** A slice: its array and length.  Its capacity is the length of the array (slices of
    a tree start at the beginning of their array). *)
Record tslice := { sl_array : nat; sl_len : nat }.
Definition sl_cells (h : memory) (s : tslice) : list cell :=
  firstn (sl_len s) (nth (sl_array s) h []).
Definition sl_cap (h : memory) (s : tslice) : nat := length (nth (sl_array s) h []).

(** ** [_Tree] and the assembler's [va.w] *)
Record htree := {
  ht_mem : memory;
  ht_t : tslice;
  ht_m : list (bytes * pointer)   (* latest binding first *)
}.

(** BeginMap(sizeHint), ipldsch_satisfaction.go:6916-6932 / 7250-7266: an empty map and a slice
    of capacity [hint] (0 when negative). *)
Definition h_begin (hint : Z) : htree :=
  {| ht_mem := [repeat zero_cell (Z.to_nat hint)];
     ht_t := {| sl_array := 0; sl_len := 0 |};
     ht_m := [] |}.

(** Go's [append(s, c)]: in place when there is room, otherwise into a new, larger
    array.  [grow n]: how many spare cells the runtime gives to a slice that grows beyond
    [n] cells. *)
Definition h_append (grow : nat -> nat) (h : memory) (s : tslice) (c : cell) : memory * tslice :=
  if sl_len s <? sl_cap h s then
    (store h (sl_array s, sl_len s) c, {| sl_array := sl_array s; sl_len := S (sl_len s) |})
  else
    (h ++ [sl_cells h s ++ c :: repeat zero_cell (grow (sl_len s))],
     {| sl_array := length h; sl_len := S (sl_len s) |}).

(** AssembleEntry(k), 7030-7061 / 7364-7395, in a state where an entry may be added: refuse a key that is in
    the map; append a cell with the key and no entry; [tz := &t[len(t)-1]]; [m[k] = &tz.v];
    the value assembler gets the same pointer. *)
Definition h_assemble_entry (grow : nat -> nat) (t : htree) (k : bytes) : res (htree * pointer) :=
  match assoc k (ht_m t) with
  | Some _ => Err (ERepeatedKey k)
  | None =>
      let '(h, s) := h_append grow (ht_mem t) (ht_t t) (k, zero_entry) in
      let tz := (sl_array s, sl_len s - 1) in
      Ok ({| ht_mem := h; ht_t := s; ht_m := (k, tz) :: ht_m t |}, tz)
  end.

(** AssignNode of a [*_TreeEntry] on the value assembler (7696-7712 / 8139-8155):
    [*na.w = *v2], which panics when [w] refers to nothing. *)
Definition h_assign_entry (t : htree) (w : pointer) (e : entry) : res htree :=
  match load (ht_mem t) w with
  | None => Panic
  | Some (k, _) => Ok {| ht_mem := store (ht_mem t) w (k, e); ht_t := ht_t t; ht_m := ht_m t |}
  end.

(** tree.go:32-38 *)
Definition h_insert (grow : nat -> nat) (t : htree) (name : bytes) (e : entry) : res htree :=
  let* (t1, w) := h_assemble_entry grow t name in
  h_assign_entry t1 w e.

(** ** Reading the tree *)

(** LookupByString, 6791-6801: through the map and its pointer. *)
Definition h_lookup (t : htree) (k : bytes) : res entry :=
  match assoc k (ht_m t) with
  | None => Err ENotExists
  | Some p => match load (ht_mem t) p with Some (_, e) => Ok e | None => Panic end
  end.

(** _Tree__MapItr.Next, 6829-6838: through the slice. *)
Definition h_next (t : htree) (idx : nat) : res (bytes * entry * nat) :=
  if sl_len (ht_t t) <=? idx then Err EOverread
  else match load (ht_mem t) (sl_array (ht_t t), idx) with
       | Some (k, e) => Ok (k, e, S idx)
       | None => Panic
       end.

(** Length, 6846 *)
Definition h_length (t : htree) : Z := Z.of_nat (sl_len (ht_t t)).

(** ** DecodeTree, tree.go:14-44, up to [t.Build()] *)
Section Decoder.
Context {S V : Type} (ops : rdops S V) (grow : nat -> nat).

Fixpoint h_tree_loop (fuel : nat) (t : htree) (s : S) : res htree :=
  match fuel with
  | O => OutOfFuel
  | Datatypes.S f =>
      match decode_tree_entry ops s with
      | Ok (name, e, s1) =>
          let* t' := h_insert grow t name e in
          h_tree_loop f t' s1
      | Err EEOF => Ok t
      | Err e => Err e
      | Panic => Panic
      | OutOfFuel => OutOfFuel
      end
  end.

Definition h_decode_tree (s : S) : res htree :=
  let* (_, s1) := read_number ops s in
  h_tree_loop (rd_fuel ops s1) (h_begin (-1)) s1.
End Decoder.
