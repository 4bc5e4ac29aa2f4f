(** The tree builder with its pointers: what AssignNode of a tree shares.

    AssignNode of a [*_Tree] copies the two words of the struct, [*na.w = *v2]
    (ipldsch_satisfaction.go:6966-6999 / 7300-7333): the builder's tree and the given tree
    then hold the same map and the same array.  TreeHeap.v has the arrays and pointers of
    one tree that only DecodeTree writes to; here there are many trees, one memory and one
    store of maps, and a builder on which every method may be called in every order. *)
From Verif Require Import Base GoStr Cid Types Nodes Reader Assemble Decode TreeHeap.
From Verif Require Builder.
Import Builder (maybe(..), mstate(..), verdict(..)).

(** Go's maps, by number; the latest binding of a key comes first. *)
Definition maps := list (list (bytes * pointer)).

(** [_Tree] (ipldsch_types.go:127-134): a slice and a map, [None] for the nil map.  The
    nil slice is the one of length 0 on array 0, which has no cells. *)
Record header := H { hd_t : tslice; hd_m : option nat }.
Definition zero_header : header := H {| sl_array := 0; sl_len := 0 |} None.

(** _Tree__Builder (6885-6894) and _Tree__Assembler (6901-6909), also 7235-7243 of the
    representation view: [*w], [*m], [state], [cm] and the [w] of [ka] and [va]; [None]: nil.
    [ka.m] and [va.m] are set together with the first [w], so they are not kept. *)
Record tb := TB { b_hd : header; b_m : maybe; b_st : mstate; b_cm : maybe;
                  b_ka : option pointer; b_va : option pointer }.
Notation state := (tb * memory * maps)%type.

(** NewBuilder and Reset, 6879-6883 and 6895-6899 *)
Definition new_builder : tb := TB zero_header MAbsent Initial MAbsent None None.

(** [&w.t[len(w.t)-1]] *)
Definition last_cell (s : tslice) : pointer := (sl_array s, sl_len s - 1).

(** [m[k] = p] in map number [i] *)
Definition bind_key (ms : maps) (i : nat) (k : bytes) (p : pointer) : maps :=
  set_nth i ((k, p) :: nth i ms []) ms.

(** The calls.  [CAssignTree h]: AssignNode of a [*_Tree].  AssignNode of any other map is
    the calls CAssembleKey, CKey, CAssembleValue, CValue for each entry, then CFinish, up to
    the first that fails (6982-6998); the calls that only return an error or panic are left
    out.  [CKey]: AssignString, or AssignNode of a string, on the key assembler.  [CValue e m]:
    any calls at all on the value assembler, which leave some [e] where its [w] points
    and some [m] in [cm]: more than the entry assembler can do, whose own states are in
    Builder.v.  What such a call does with [w] nil stays outside this memory. *)
Inductive tcall :=
| CBegin (hint : Z)
| CAssignTree (h : header)
| CAssembleKey
| CKey (k : bytes)
| CAssembleValue
| CEntry (k : bytes)
| CValue (e : entry) (m : maybe)
| CFinish.

(** valueFinishTidy, 7018-7028, and the states in which AssembleEntry, AssembleKey and
    Finish go on: [None] is a panic. *)
Definition go_on (b : tb) : option tb :=
  match b_st b, b_cm b with
  | Initial, _ => Some b
  | MidValue, MValue => Some (TB (b_hd b) (b_m b) Initial MAbsent (b_ka b) None)
  | _, _ => None
  end.

Section Steps.
Variable grow : nat -> nat.

Definition tstep (c : tcall) (w : state) : verdict * state :=
  let '(b, mem, ms) := w in
  match c with
  | CBegin hint =>                                              (* 6916-6930 *)
      match b_m b with
      | MAbsent =>
          (OK, (TB (H {| sl_array := length mem; sl_len := 0 |} (Some (length ms))) MMid
                   (b_st b) (b_cm b) (b_ka b) (b_va b),
                mem ++ [repeat zero_cell (Z.to_nat hint)], ms ++ [[]]))
      | _ => (PANIC, w)
      end
  | CAssignTree h =>                                            (* 6970-6981 *)
      match b_m b with
      | MAbsent => (OK, (TB h MValue (b_st b) (b_cm b) (b_ka b) (b_va b), mem, ms))
      | _ => (PANIC, w)
      end
  | CAssembleKey =>                                             (* 7062-7082 *)
      match go_on b with
      | None => (PANIC, w)
      | Some b =>
          let '(mem', s) := h_append grow mem (hd_t (b_hd b)) zero_cell in
          (OK, (TB (H s (hd_m (b_hd b))) (b_m b) MidKey (b_cm b) (Some (last_cell s)) (b_va b),
                mem', ms))
      end
  | CKey k =>                                                   (* 4283-4291, 4298-4316 *)
      match b_ka b, b_cm b with
      | None, _ | _, MValue | _, MNull => (PANIC, w)
      | Some p, _ =>
          match load mem p with
          | None => (PANIC, w)
          | Some (_, e) => (OK, (TB (b_hd b) (b_m b) (b_st b) MValue (b_ka b) (b_va b),
                                 store mem p (k, e), ms))
          end
      end
  | CAssembleValue =>                                           (* 7083-7100, 7002-7017 *)
      match b_st b, b_cm b with
      | MidKey, MValue =>
          let tz := last_cell (hd_t (b_hd b)) in
          match sl_len (hd_t (b_hd b)), load mem tz, hd_m (b_hd b) with
          | O, _, _ | _, None, _ =>
              (PANIC, (TB (b_hd b) (b_m b) MidKey MValue None (b_va b), mem, ms))
          | _, _, None =>
              (PANIC, (TB (b_hd b) (b_m b) ExpectValue MAbsent None (b_va b), mem, ms))
          | _, Some (k, _), Some i =>
              (OK, (TB (b_hd b) (b_m b) MidValue MAbsent None (Some tz), mem, bind_key ms i k tz))
          end
      | ExpectValue, _ =>
          (OK, (TB (b_hd b) (b_m b) MidValue (b_cm b) (b_ka b) (b_va b), mem, ms))
      | _, _ => (PANIC, w)
      end
  | CEntry k =>                                                 (* 7030-7061 *)
      match go_on b with
      | None => (PANIC, w)
      | Some b =>
          match match hd_m (b_hd b) with None => None | Some i => assoc k (nth i ms []) end with
          | Some _ => (ERR, (b, mem, ms))
          | None =>
              let '(mem', s) := h_append grow mem (hd_t (b_hd b)) (k, zero_entry) in
              match hd_m (b_hd b) with
              | None =>
                  (PANIC, (TB (H s None) (b_m b) MidValue (b_cm b) (b_ka b) (b_va b), mem', ms))
              | Some i =>
                  (OK, (TB (H s (Some i)) (b_m b) MidValue (b_cm b) (b_ka b) (Some (last_cell s)),
                        mem', bind_key ms i k (last_cell s)))
              end
          end
      end
  | CValue e m =>
      let b' := TB (b_hd b) (b_m b) (b_st b) m (b_ka b) (b_va b) in
      match b_va b with
      | None => (OK, (b', mem, ms))
      | Some p => match load mem p with
                  | None => (OK, (b', mem, ms))
                  | Some (k, _) => (OK, (b', store mem p (k, e), ms))
                  end
      end
  | CFinish =>                                                  (* 7101-7119 *)
      match go_on b with
      | None => (PANIC, w)
      | Some b => (OK, (TB (b_hd b) MValue Finished (b_cm b) (b_ka b) (b_va b), mem, ms))
      end
  end.

Fixpoint trun (cs : list tcall) (w : state) : list verdict * state :=
  match cs with
  | [] => ([], w)
  | c :: cs' =>
      let '(v, w') := tstep c w in
      let '(vs, w'') := trun cs' w' in (v :: vs, w'')
  end.
End Steps.

(** ** Reading a tree *)

(** Iteration goes through the slice (6829-6838), *)
Definition entries_of (mem : memory) (h : header) : list cell := sl_cells mem (hd_t h).

(** and LookupByString through the map and its pointer (6791-6801); [None]: not found. *)
Definition find_in (mem : memory) (ms : maps) (h : header) (k : bytes) : option entry :=
  match hd_m h with
  | None => None
  | Some i => match assoc k (nth i ms []) with
              | None => None
              | Some p => match load mem p with Some (_, e) => Some e | None => None end
              end
  end.

(** A tree that is there: its slice fits its array, and each pointer of its map is to a
    cell with that name, not one of the spare cells of the array. *)
Definition is_tree (mem : memory) (ms : maps) (h : header) : Prop :=
  sl_array (hd_t h) < length mem /\
  sl_len (hd_t h) <= sl_cap mem (hd_t h) /\
  match hd_m h with
  | None => True
  | Some i =>
      i < length ms /\
      forall k p, assoc k (nth i ms []) = Some p ->
        (exists e, load mem p = Some (k, e)) /\
        (fst p = sl_array (hd_t h) -> snd p < sl_len (hd_t h))
  end.

(** The tree DecodeTree leaves, as a header: map number 0. *)
Definition header_of (t : htree) : header := H (ht_t t) (Some 0).
