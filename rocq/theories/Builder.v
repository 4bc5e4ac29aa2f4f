(** The builders call by call: every method of the generated assemblers as one step of a
    machine.  Models ipldsch_satisfaction.go (the assemblers of Commit, Tag, PersonInfo,
    TreeEntry, Tree, the three lists, the scalars and their __Repr twins) and
    ipldsch_minima.go:14-35, for any schema of these shapes; the schema of gen/gen.go is
    at the end.

    Simplifications:
    - AssignNode of a node of another type is not a step of its own: the generated code
      does it with AssembleKey, AssembleValue, Finish and the children's AssignNode, which
      are steps (563-600); AssignCalls.v models it as these steps, Assemble.v in one go.
    - The pointers [w] of a child assembler are nil, "the place in the parent's value"
      or an object of its own.  A pointer kept beyond the end of a list row is taken to
      follow the assembler to the next row, and one into a tree that is replaced by
      AssignNode of another tree, to the last entry of that tree.
    - An optional struct field holds a pointer to its value; it is modelled by a copy of
      the value made where the pointer is stored (valueFinishTidy, 636-653).
    - The hash map of a tree is the set of its keys; TreeHeap.v has its pointers.
    - [AssignNull] can never succeed here: the schema has no nullable field, and
      [allowNull] is never stored. *)
From Verif Require Import Base GoStr Cid.

(** schema.Maybe and [midvalue] (ipldsch_minima.go:12-15) *)
Inductive maybe := MAbsent | MNull | MValue | MMid.

(** maState and laState (ipldsch_minima.go:17-35); laState has no key states *)
Inductive mstate := Initial | MidKey | ExpectValue | MidValue | Finished.

(** Scalars: string and GpgSig, links, bytes.  [SOther]: bool, int and float. *)
Inductive skind := KString | KLink | KBytes.
Inductive scalar := SString (s : bytes) | SLink (l : link) | SBytes (s : bytes) | SOther.

(** How a struct holds a field: in place, optional in place, optional behind a pointer *)
Inductive fkind := Required | OptionalInline | OptionalPointer.
Inductive ty :=
| TScalar (k : skind)
| TList (elem : ty)
| TTree (entry : ty)
| TStruct (fields : list (bytes * fkind * ty)).
Notation field := (bytes * fkind * ty)%type.
Definition f_name (f : field) : bytes := fst (fst f).
Definition f_kind (f : field) : fkind := snd (fst f).
Definition f_type (f : field) : ty := snd f.

(** The Go values.  A struct is a list of fields, each with the [m] of its maybe (of no
    use, and absent, for a required field). A tree has its entries and its keys in the
    hash map, if there is one.  [VNil] is a nil pointer. *)
Inductive val :=
| VScalar (s : scalar)
| VList (l : list val)
| VTree (t : list (bytes * val)) (m : option (list bytes))
| VStruct (fs : list (maybe * val))
| VNil.

(** The zero value of a Go type *)
Fixpoint zero (t : ty) : val :=
  match t with
  | TScalar KString => VScalar (SString [])
  | TScalar KLink => VScalar (SLink LNil)
  | TScalar KBytes => VScalar (SBytes [])
  | TList _ => VList []
  | TTree _ => VTree [] None
  | TStruct fs =>
      VStruct ((fix go (fs : list field) := match fs with
               | [] => []
               | f :: r => (MAbsent, match snd (fst f) with OptionalPointer => VNil | _ => zero (snd f) end) :: go r
               end) fs)
  end.

(** An assembler: the pointer [w], whether its pointer [m] is set, [state], the bits [s],
    [f], [cm], and the assemblers embedded in it ([ca_*], or [va], or [ka] and [va]). *)
Inductive wref := WNil | WParent | WOwn (v : val).
Record own := mkO { o_w : wref; o_m : bool; o_st : mstate; o_s : list nat; o_f : nat; o_cm : maybe }.
Inductive asm := A (o : own) (ch : list asm).
Definition a_own (x : asm) : own := let 'A o _ := x in o.
Definition a_ch (x : asm) : list asm := let 'A _ ch := x in ch.

Definition set_w w o := mkO w (o_m o) (o_st o) (o_s o) (o_f o) (o_cm o).
Definition set_m o := mkO (o_w o) true (o_st o) (o_s o) (o_f o) (o_cm o).
Definition set_st st o := mkO (o_w o) (o_m o) st (o_s o) (o_f o) (o_cm o).
Definition set_s s o := mkO (o_w o) (o_m o) (o_st o) s (o_f o) (o_cm o).
Definition set_f f o := mkO (o_w o) (o_m o) (o_st o) (o_s o) f (o_cm o).
Definition set_cm cm o := mkO (o_w o) (o_m o) (o_st o) (o_s o) (o_f o) cm.
Definition on_own (g : own -> own) (x : asm) : asm := let 'A o ch := x in A (g o) ch.

Fixpoint upd {X} (i : nat) (g : X -> X) (l : list X) : list X :=
  match l, i with
  | [], _ => []
  | x :: r, O => g x :: r
  | x :: r, S j => x :: upd j g r
  end.
Definition on_child (i : nat) (g : asm -> asm) (x : asm) : asm := let 'A o ch := x in A o (upd i g ch).

(** The zero assembler of a type *)
Definition own0 : own := mkO WNil false Initial [] 0 MAbsent.
Fixpoint asm0 (t : ty) : asm :=
  match t with
  | TScalar _ => A own0 []
  | TList e => A own0 [asm0 e]
  | TTree e => A own0 [A own0 []; asm0 e]
  | TStruct fs => A own0 ((fix go (fs : list field) := match fs with [] => [] | f :: r => asm0 (snd f) :: go r end) fs)
  end.

(** reset() (488-500, 2213, 6911 and the like): [state] and [s], not [cm], [w], [m], [f] *)
Fixpoint reset (x : asm) : asm :=
  match x with A o ch => A (set_s [] (set_st Initial o)) (map reset ch) end.

(** The calls *)
Inductive meth :=
| BeginMap | BeginList (hint : Z)
| AssignNull
| Assign (s : scalar)              (* AssignString, AssignLink, AssignBytes, AssignBool... *)
| AssignTyped (v : val)            (* AssignNode of a node of the assembler's own type *)
| AssembleKey | KeyAssign (k : bytes)   (* the struct KeyAssembler's AssignString *)
| AssembleValue | AssembleEntry (k : bytes) | Finish.

Inductive verdict := OK | ERR | PANIC.

(** What a call sees and leaves: the assembler, the place [w] may point to in the
    parent's value, and the place [m] points to. *)
Notation world := (asm * option val * option maybe)%type.
Notation outcome := (verdict * world)%type.

(** [*na.w] and [*na.m]; [None]: the pointer is nil *)
Definition target (o : own) (wv : option val) : option val :=
  match o_w o with WNil => None | WOwn v => Some v | WParent => wv end.
Definition maybe_of (o : own) (mv : option maybe) : option maybe := if o_m o then mv else None.

(** [*na.w = v] *)
Definition store (v : val) (x : asm) (wv : option val) : asm * option val :=
  match o_w (a_own x) with
  | WNil => (x, wv)
  | WOwn _ => (on_own (set_w (WOwn v)) x, wv)
  | WParent => (x, Some v)
  end.

Definition kind_of (s : scalar) : option skind :=
  match s with SString _ => Some KString | SLink _ => Some KLink | SBytes _ => Some KBytes | SOther => None end.
Definition skind_eqb (a b : skind) : bool :=
  match a, b with KString, KString | KLink, KLink | KBytes, KBytes => true | _, _ => false end.

Definition is_midkey (st : mstate) : bool := match st with MidKey => true | _ => false end.

Section Step.
(** A representation assembler: its valueFinishTidy does not clear the child's [w]
    (1371-1400 against 604-635). *)
Context (repr : bool).

(** AssignNull: 530-544 and the like; a scalar's has no case for midvalue but panics too *)
Definition assign_null (x : asm) (wv : option val) (mv : option maybe) : outcome :=
  match maybe_of (a_own x) mv with
  | Some MAbsent => (ERR, (x, wv, mv))
  | _ => (PANIC, (x, wv, mv))
  end.

(** *** Scalars: String 4258-4319, GpgSig 2741-2802, Link 2946-3007, Commit_Link 1936-2000,
    Tree_Link 8515-8576, Blob 143-199 *)
Definition act_scalar (k : skind) (m : meth) (x : asm) (wv : option val) (mv : option maybe) : outcome :=
  let put (v : val) :=
    match maybe_of (a_own x) mv with
    | None | Some MValue | Some MNull => (PANIC, (x, wv, mv))
    | Some _ =>
        match target (a_own x) wv with
        | None => (PANIC, (x, wv, mv))
        | Some _ => let '(x1, wv1) := store v x wv in (OK, (x1, wv1, Some MValue))
        end
    end in
  match m with
  | Assign s => match kind_of s with
                | Some k' => if skind_eqb k k' then put (VScalar s) else (ERR, (x, wv, mv))
                | None => (ERR, (x, wv, mv))
                end
  | AssignTyped v => put v
  | AssignNull => assign_null x wv mv
  | _ => (ERR, (x, wv, mv))                     (* wrong kind, or no such method *)
  end.

(** *** Structs *)

(** Which field a key names: the switch of AssembleEntry and KeyAssembler.AssignString *)
Fixpoint field_index (fs : list field) (k : bytes) : option nat :=
  match fs with
  | [] => None
  | f :: r => if beqb (f_name f) k then Some 0 else option_map S (field_index r k)
  end.

Definition mem_nat (i : nat) (l : list nat) : bool := existsb (Nat.eqb i) l.
Definition kind_at (fs : list field) (i : nat) : fkind :=
  match nth_error fs i with Some f => f_kind f | None => Required end.
Definition slots (v : option val) : list (maybe * val) := match v with Some (VStruct sl) => sl | _ => [] end.
Definition slot_at (v : option val) (i : nat) : maybe * val := nth i (slots v) (MAbsent, VNil).
Definition set_slot (i : nat) (s : maybe * val) (v : option val) : val := VStruct (upd i (fun _ => s) (slots v)).

(** valueFinishTidy (604-692 / 1371-1454 and the like): [None] if the value is not finished *)
Definition struct_tidy (fs : list field) (x : asm) (wv : option val) : option (asm * option val) :=
  let o := a_own x in
  let i := o_f o in
  let v := target o wv in
  match kind_at fs i with
  | Required =>
      match o_cm o with
      | MValue =>
          let x1 := if repr then x else on_child i (on_own (set_w WNil)) x in
          Some (on_own (fun o => set_st Initial (set_cm MAbsent o)) x1, wv)
      | _ => None
      end
  | OptionalInline =>
      match fst (slot_at v i) with
      | MValue => Some (on_own (set_st Initial) x, wv)
      | _ => None
      end
  | OptionalPointer =>
      match fst (slot_at v i) with
      | MValue =>
          let p := match nth_error (a_ch x) i with
                   | Some c => match o_w (a_own c) with WOwn u => u | _ => VNil end
                   | None => VNil
                   end in
          let '(x1, wv1) := store (set_slot i (MValue, p) v) x wv in
          Some (on_own (set_st Initial) x1, wv1)
      | _ => None
      end
  end.

(** ma.ca_x.w = &ma.w.x; ma.ca_x.m = ... (AssembleValue 838-874, AssembleEntry 710-800):
    a nil [ma.w] panics. *)
Definition struct_start (fs : list field) (i : nat) (x : asm) (wv : option val) (mv : option maybe) : outcome :=
  match target (a_own x) wv with
  | None => (PANIC, (x, wv, mv))
  | Some v =>
      let w := match kind_at fs i with
               | OptionalPointer => match snd (slot_at (Some v) i) with VNil => WNil | u => WOwn u end
               | _ => WParent
               end in
      (OK, (on_child i (on_own (fun o => set_m (set_w w o))) x, wv, mv))
  end.

(** The first switch of AssembleEntry, AssembleKey and Finish (694-707, 803-816, 876-889) *)
Definition struct_ready (fs : list field) (x : asm) (wv : option val) : option (asm * option val) :=
  match o_st (a_own x) with
  | Initial => Some (x, wv)
  | MidValue => struct_tidy fs x wv
  | _ => None
  end.

Definition sufficient (fs : list field) (s : list nat) : bool :=
  forallb (fun i => match kind_at fs i with Required => mem_nat i s | _ => true end) (seq 0 (length fs)).

(** Commit 515-939 / 1282-1710, PersonInfo 3233-3540 / 3762-4066, Tag 5148-5482 / 5720-6050,
    TreeEntry 7648-7901 / 8091-8343 *)
Definition act_struct (fs : list field) (m : meth) (x : asm) (wv : option val) (mv : option maybe) : outcome :=
  match m with
  | BeginMap =>
      match maybe_of (a_own x) mv with
      | Some MAbsent =>
          let x1 := match target (a_own x) wv with
                    | None => on_own (set_w (WOwn (zero (TStruct fs)))) x
                    | Some _ => x
                    end in
          (OK, (x1, wv, Some MMid))
      | _ => (PANIC, (x, wv, mv))
      end
  | AssignNull => assign_null x wv mv
  | AssignTyped v =>
      match maybe_of (a_own x) mv with
      | Some MAbsent =>
          let '(x1, wv1) := match target (a_own x) wv with
                            | None => (on_own (set_w (WOwn v)) x, wv)
                            | Some _ => store v x wv
                            end in
          (OK, (x1, wv1, Some MValue))
      | _ => (PANIC, (x, wv, mv))
      end
  | BeginList _ | Assign _ => (ERR, (x, wv, mv))
  | AssembleEntry k =>
      match struct_ready fs x wv with
      | None => (PANIC, (x, wv, mv))
      | Some (x1, wv1) =>
          match field_index fs k with
          | None => (ERR, (x1, wv1, mv))
          | Some i =>
              if mem_nat i (o_s (a_own x1)) then (ERR, (x1, wv1, mv))
              else struct_start fs i
                     (on_own (fun o => set_f i (set_st MidValue (set_s (i :: o_s o) o))) x1) wv1 mv
          end
      end
  | AssembleKey =>
      match struct_ready fs x wv with
      | None => (PANIC, (x, wv, mv))
      | Some (x1, wv1) => (OK, (on_own (set_st MidKey) x1, wv1, mv))
      end
  | KeyAssign k =>
      if is_midkey (o_st (a_own x)) then
        match field_index fs k with
        | None => (ERR, (x, wv, mv))
        | Some i =>
            if mem_nat i (o_s (a_own x)) then (ERR, (x, wv, mv))
            else (OK, (on_own (fun o => set_f i (set_st ExpectValue (set_s (i :: o_s o) o))) x, wv, mv))
        end
      else (PANIC, (x, wv, mv))
  | AssembleValue =>
      match o_st (a_own x) with
      | ExpectValue => struct_start fs (o_f (a_own x)) (on_own (set_st MidValue) x) wv mv
      | _ => (PANIC, (x, wv, mv))
      end
  | Finish =>
      match struct_ready fs x wv with
      | None => (PANIC, (x, wv, mv))
      | Some (x1, wv1) =>
          if sufficient fs (o_s (a_own x1)) then
            match maybe_of (a_own x1) mv with
            | None => (PANIC, (on_own (set_st Finished) x1, wv1, mv))
            | Some _ => (OK, (on_own (set_st Finished) x1, wv1, Some MValue))
            end
          else (ERR, (x1, wv1, mv))
      end
  end.

(** *** Lists: Commit_Link_List 2220-2350 / 2478-2608, String_List 4537-4667 / 4795-4925,
    Tag_List 6320-6450 / 6578-6708 *)
Definition elems (v : option val) : list val := match v with Some (VList l) => l | _ => [] end.

(** valueFinishTidy clears [va.w] in both twins, then resets [va] *)
Definition list_ready (x : asm) : option asm :=
  match o_st (a_own x) with
  | Initial => Some x
  | MidValue =>
      match o_cm (a_own x) with
      | MValue => Some (on_own (fun o => set_st Initial (set_cm MAbsent o))
                         (on_child 0 (fun c => reset (on_own (set_w WNil) c)) x))
      | _ => None
      end
  | _ => None
  end.

Definition act_list (e : ty) (m : meth) (x : asm) (wv : option val) (mv : option maybe) : outcome :=
  match m with
  | BeginList hint =>
      match maybe_of (a_own x) mv with
      | Some MAbsent =>
          if (0 <? hint)%Z then
            match target (a_own x) wv with
            | None => (PANIC, (x, wv, Some MMid))
            | Some _ => let '(x1, wv1) := store (VList []) x wv in (OK, (x1, wv1, Some MMid))
            end
          else (OK, (x, wv, Some MMid))
      | _ => (PANIC, (x, wv, mv))
      end
  | AssignNull => assign_null x wv mv
  | AssignTyped v =>
      match maybe_of (a_own x) mv with
      | Some MAbsent =>
          match target (a_own x) wv with
          | None => (PANIC, (x, wv, mv))
          | Some _ => let '(x1, wv1) := store v x wv in (OK, (x1, wv1, Some MValue))
          end
      | _ => (PANIC, (x, wv, mv))
      end
  | AssembleValue =>
      match list_ready x with
      | None => (PANIC, (x, wv, mv))
      | Some x1 =>
          match target (a_own x1) wv with
          | None => (PANIC, (x1, wv, mv))
          | Some v =>
              let '(x2, wv1) := store (VList (elems (Some v) ++ [zero e])) x1 wv in
              (OK, (on_child 0 (on_own (fun o => set_m (set_w WParent o))) (on_own (set_st MidValue) x2), wv1, mv))
          end
      end
  | Finish =>
      match list_ready x with
      | None => (PANIC, (x, wv, mv))
      | Some x1 =>
          match maybe_of (a_own x1) mv with
          | None => (PANIC, (on_own (set_st Finished) x1, wv, mv))
          | Some _ => (OK, (on_own (set_st Finished) x1, wv, Some MValue))
          end
      end
  | _ => (ERR, (x, wv, mv))
  end.

(** *** Tree: 6916-7113 / 7250-7447 *)
Definition tree_of (v : option val) : list (bytes * val) * option (list bytes) :=
  match v with Some (VTree t m) => (t, m) | _ => ([], None) end.
Definition mem_bytes (k : bytes) (l : list bytes) : bool := existsb (beqb k) l.
Definition has_key (k : bytes) (m : option (list bytes)) : bool :=
  match m with Some l => mem_bytes k l | None => false end.

Definition tree_ready (x : asm) : option asm :=
  match o_st (a_own x) with
  | Initial => Some x
  | MidValue =>
      match o_cm (a_own x) with
      | MValue => Some (on_own (fun o => set_st Initial (set_cm MAbsent o))
                         (on_child 1 (fun c => reset (on_own (set_w WNil) c)) x))
      | _ => None
      end
  | _ => None
  end.

Definition act_tree (e : ty) (m : meth) (x : asm) (wv : option val) (mv : option maybe) : outcome :=
  let start_value x := on_child 1 (on_own (fun o => set_m (set_w WParent o))) x in
  match m with
  | BeginMap =>
      match maybe_of (a_own x) mv with
      | Some MAbsent =>
          match target (a_own x) wv with
          | None => (PANIC, (x, wv, Some MMid))
          | Some _ => let '(x1, wv1) := store (VTree [] (Some [])) x wv in (OK, (x1, wv1, Some MMid))
          end
      | _ => (PANIC, (x, wv, mv))
      end
  | AssignNull => assign_null x wv mv
  | AssignTyped v =>
      match maybe_of (a_own x) mv with
      | Some MAbsent =>
          match target (a_own x) wv with
          | None => (PANIC, (x, wv, mv))
          | Some _ => let '(x1, wv1) := store v x wv in (OK, (x1, wv1, Some MValue))
          end
      | _ => (PANIC, (x, wv, mv))
      end
  | AssembleEntry k =>
      match tree_ready x with
      | None => (PANIC, (x, wv, mv))
      | Some x1 =>
          match target (a_own x1) wv with
          | None => (PANIC, (x1, wv, mv))
          | Some v =>
              let '(t, keys) := tree_of (Some v) in
              if has_key k keys then (ERR, (x1, wv, mv))
              else match keys with
                   | None =>              (* assignment to an entry of a nil map *)
                       let '(x2, wv1) := store (VTree (t ++ [(k, zero e)]) None) x1 wv in
                       (PANIC, (on_own (set_st MidValue) x2, wv1, mv))
                   | Some l =>
                       let '(x2, wv1) := store (VTree (t ++ [(k, zero e)]) (Some (k :: l))) x1 wv in
                       (OK, (start_value (on_own (set_st MidValue) x2), wv1, mv))
                   end
          end
      end
  | AssembleKey =>
      match tree_ready x with
      | None => (PANIC, (x, wv, mv))
      | Some x1 =>
          match target (a_own x1) wv with
          | None => (PANIC, (x1, wv, mv))
          | Some v =>
              let '(t, keys) := tree_of (Some v) in
              let '(x2, wv1) := store (VTree (t ++ [([], zero e)]) keys) x1 wv in
              (OK, (on_child 0 (on_own (fun o => set_m (set_w WParent o))) (on_own (set_st MidKey) x2), wv1, mv))
          end
      end
  | AssembleValue =>
      match o_st (a_own x) with
      | MidKey =>                          (* keyFinishTidy *)
          match o_cm (a_own x) with
          | MValue =>
              let x1 := on_child 0 (on_own (set_w WNil)) x in
              match target (a_own x1) wv with
              | None => (PANIC, (x1, wv, mv))
              | Some v =>
                  let '(t, keys) := tree_of (Some v) in
                  let x2 := on_own (fun o => set_st ExpectValue (set_cm MAbsent o)) x1 in
                  match t, keys with
                  | [], _ => (PANIC, (x1, wv, mv))      (* [&ma.w.t[len(ma.w.t)-1]] of no entries *)
                  | _, None => (PANIC, (x2, wv, mv))
                  | _, Some l =>
                      let '(x3, wv1) := store (VTree t (Some (fst (last t ([], VNil)) :: l))) x2 wv in
                      (OK, (start_value (on_own (set_st MidValue) x3), wv1, mv))
                  end
              end
          | _ => (PANIC, (x, wv, mv))
          end
      | ExpectValue => (OK, (on_own (set_st MidValue) x, wv, mv))
      | _ => (PANIC, (x, wv, mv))
      end
  | Finish =>
      match tree_ready x with
      | None => (PANIC, (x, wv, mv))
      | Some x1 =>
          match maybe_of (a_own x1) mv with
          | None => (PANIC, (on_own (set_st Finished) x1, wv, mv))
          | Some _ => (OK, (on_own (set_st Finished) x1, wv, Some MValue))
          end
      end
  | _ => (ERR, (x, wv, mv))
  end.

Definition act (t : ty) : meth -> asm -> option val -> option maybe -> outcome :=
  match t with
  | TScalar k => act_scalar k
  | TList e => act_list e
  | TTree e => act_tree e
  | TStruct fs => act_struct fs
  end.

(** *** Calls on a child assembler *)

Definition set_last {X} (g : X -> X) (l : list X) : list X :=
  match rev l with [] => [] | x :: r => rev (g x :: r) end.

(** What child [i] points to when its [w] is "in the parent's value", and its [m] *)
Definition child_type (t : ty) (i : nat) : option ty :=
  match t, i with
  | TList e, O => Some e
  | TTree _, O => Some (TScalar KString)
  | TTree e, S O => Some e
  | TStruct fs, _ => option_map f_type (nth_error fs i)
  | _, _ => None
  end.
Definition child_value (t : ty) (i : nat) (v : option val) : option val :=
  match t, v with
  | TStruct _, Some (VStruct sl) => option_map snd (nth_error sl i)
  | TList _, Some (VList l) => match rev l with [] => None | x :: _ => Some x end
  | TTree _, Some (VTree l _) =>
      match rev l with
      | [] => None
      | (k, x) :: _ => match i with O => Some (VScalar (SString k)) | _ => Some x end
      end
  | _, _ => None
  end.
Definition child_maybe (t : ty) (i : nat) (x : asm) (v : option val) : option maybe :=
  match t with
  | TStruct fs =>
      match kind_at fs i with
      | Required => Some (o_cm (a_own x))
      | _ => match v with Some (VStruct sl) => option_map fst (nth_error sl i) | _ => None end
      end
  | _ => Some (o_cm (a_own x))
  end.

(** The child's writes *)
Definition put_value (t : ty) (i : nat) (u : val) (v : val) : val :=
  match t, v with
  | TStruct _, VStruct sl => VStruct (upd i (fun s => (fst s, u)) sl)
  | TList _, VList l => VList (set_last (fun _ => u) l)
  | TTree _, VTree l m =>
      VTree (set_last (fun e => match i with
                                | O => (match u with VScalar (SString k) => k | _ => fst e end, snd e)
                                | _ => (fst e, u)
                                end) l) m
  | _, _ => v
  end.
Definition slot_maybe (t : ty) (i : nat) : bool :=
  match t with
  | TStruct fs => match kind_at fs i with Required => false | _ => true end
  | _ => false
  end.
Definition put_maybe (i : nat) (m : maybe) (v : val) : val :=
  match v with VStruct sl => VStruct (upd i (fun s => (m, snd s)) sl) | _ => v end.

(** [store] when there may be nothing to write *)
Definition store_opt (v : option val) (x : asm) (wv : option val) : asm * option val :=
  match v with Some v => store v x wv | None => (x, wv) end.

Fixpoint call (t : ty) (path : list nat) (m : meth) (x : asm) (wv : option val) (mv : option maybe) : outcome :=
  match path with
  | [] => act t m x wv mv
  | i :: p =>
      match child_type t i, nth_error (a_ch x) i with
      | Some tc, Some c =>
          let v := target (a_own x) wv in
          let '(r, (c1, cw, cm)) := call tc p m c (child_value t i v) (child_maybe t i x v) in
          let x1 := on_child i (fun _ => c1) x in
          let v1 := match v, cw with Some v, Some u => Some (put_value t i u v) | _, _ => v end in
          let v2 := match v1, cm with
                    | Some v, Some k => Some (if slot_maybe t i then put_maybe i k v else v)
                    | _, _ => v1
                    end in
          let x2 := match cm with
                    | Some k => if slot_maybe t i then x1 else on_own (set_cm k) x1
                    | None => x1
                    end in
          let '(x3, wv1) := store_opt v2 x2 wv in
          (r, (x3, wv1, mv))
      | _, _ => (ERR, (x, wv, mv))
      end
  end.
End Step.

(** NewBuilder and Reset (446-466 and the like): a builder is an assembler whose [w] and
    [m] point to places of its own *)
Definition new_builder (t : ty) : world := (on_own (fun o => set_m (set_w WParent o)) (asm0 t), Some (zero t), Some MAbsent).
Definition step (repr : bool) (t : ty) (w : world) (c : list nat * meth) : outcome :=
  let '(x, wv, mv) := w in call repr t (fst c) (snd c) x wv mv.

(** A client that recovers from panics and goes on *)
Fixpoint run (repr : bool) (t : ty) (w : world) (cs : list (list nat * meth)) : list verdict * world :=
  match cs with
  | [] => ([], w)
  | c :: r => let '(v, w1) := step repr t w c in let '(vs, w2) := run repr t w1 r in (v :: vs, w2)
  end.

(** Build (457-462 and the like): panics unless [*nb.m] is Maybe_Value *)
Definition build (w : world) : option val :=
  let '(x, wv, mv) := w in
  match mv with Some MValue => target (a_own x) wv | _ => None end.

(** ** The schema of gen/gen.go:21-66 *)
Definition t_string := TScalar KString.
Definition t_link := TScalar KLink.
Definition t_blob := TScalar KBytes.
Definition required (n : bytes) (t : ty) : field := (n, Required, t).
Definition t_person := TStruct [required (bs "date") t_string; required (bs "timezone") t_string; required (bs "email") t_string; required (bs "name") t_string].
Definition t_tag := TStruct [required (bs "object") t_link; required (bs "type") t_string; required (bs "tag") t_string; required (bs "tagger") t_person; required (bs "message") t_string].
Definition t_commit := TStruct
  [required (bs "tree") t_link; required (bs "parents") (TList t_link); required (bs "message") t_string;
   (bs "author", OptionalPointer, t_person); (bs "committer", OptionalPointer, t_person);
   (bs "encoding", OptionalInline, t_string); (bs "signature", OptionalInline, t_string);
   required (bs "mergetag") (TList t_tag); required (bs "other") (TList t_string)].
Definition t_entry := TStruct [required (bs "mode") t_string; required (bs "hash") t_link].
Definition t_tree := TTree t_entry.
