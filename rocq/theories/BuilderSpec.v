(** What a builder should do, without its pointers and flags: the phases a client goes
    through, and the documented order of the calls. *)
From Verif Require Import Base Builder.

(** ** Values *)

(** The field of a finished struct: a value, or nothing in an optional field *)
Definition zero_slot (f : field) : maybe * val :=
  (MAbsent, match f_kind f with OptionalPointer => VNil | _ => zero (f_type f) end).
Definition done_slot (f : field) (v : val) : maybe * val :=
  (match f_kind f with Required => MAbsent | _ => MValue end, v).
Definition slot_of (fg : field * option val) : maybe * val :=
  match snd fg with Some v => done_slot (fst fg) v | None => zero_slot (fst fg) end.

(** The Go value of a struct with the given fields, of a tree with the given entries *)
Definition struct_value (fs : list field) (got : list (option val)) : val := VStruct (map slot_of (combine fs got)).
Definition tree_value (es : list (bytes * val)) : val := VTree es (Some (rev (map fst es))).

(** ** The phases of a builder *)
Inductive bst :=
| Fresh                                       (* nothing done yet *)
| Full (v : val) (by_finish : bool)           (* finished, by Finish or by one assignment *)
| SReady (got : list (option val))            (* a struct between fields *)
| SKey (got : list (option val))              (* AssembleKey called *)
| SWant (got : list (option val)) (i : nat)   (* the key of field i given *)
| SIn (got : list (option val)) (i : nat) (b : bst)     (* field i being built *)
| LReady (got : list val) | LIn (got : list val) (b : bst)
| TReady (got : list (bytes * val)) | TKey (got : list (bytes * val)) (b : bst)
| TIn (got : list (bytes * val)) (k : bytes) (b : bst).

(** A finished child counts as soon as the parent is used again. *)
Definition settle (b : bst) : option bst :=
  match b with
  | SReady got => Some (SReady got)
  | SIn got i (Full v _) => Some (SReady (upd i (fun _ => Some v) got))
  | LReady got => Some (LReady got)
  | LIn got (Full v _) => Some (LReady (got ++ [v]))
  | TReady got => Some (TReady got)
  | TIn got k (Full v _) => Some (TReady (got ++ [(k, v)]))
  | _ => None
  end.

Definition has {X} (i : nat) (got : list (option X)) : bool :=
  match nth_error got i with Some (Some _) => true | _ => false end.
Definition complete (fs : list field) (got : list (option val)) : bool :=
  forallb (fun fg => match f_kind (fst fg), snd fg with Required, None => false | _, _ => true end) (combine fs got).

(** Assigning a whole value, for every type: only to a fresh builder *)
Definition spec_assign (b : bst) (v : val) : verdict * bst :=
  match b with Fresh => (OK, Full v false) | _ => (PANIC, b) end.
Definition spec_null (b : bst) : verdict * bst :=
  match b with Fresh => (ERR, b) | _ => (PANIC, b) end.

Definition spec_act (t : ty) (m : meth) (b : bst) : verdict * bst :=
  match t, m with
  | _, AssignTyped v => spec_assign b v
  | _, AssignNull => spec_null b
  | TScalar k, Assign s =>
      match kind_of s with
      | Some k' => if skind_eqb k k' then spec_assign b (VScalar s) else (ERR, b)
      | None => (ERR, b)
      end
  | TStruct fs, BeginMap => match b with Fresh => (OK, SReady (map (fun _ => None) fs)) | _ => (PANIC, b) end
  | TList _, BeginList _ => match b with Fresh => (OK, LReady []) | _ => (PANIC, b) end
  | TTree _, BeginMap => match b with Fresh => (OK, TReady []) | _ => (PANIC, b) end
  | TStruct fs, AssembleKey =>
      match settle b with Some (SReady got) => (OK, SKey got) | _ => (PANIC, b) end
  | TStruct fs, KeyAssign k =>
      match b with
      | SKey got => match field_index fs k with
                    | Some i => if has i got then (ERR, b) else (OK, SWant got i)
                    | None => (ERR, b)
                    end
      | _ => (PANIC, b)
      end
  | TStruct fs, AssembleValue => match b with SWant got i => (OK, SIn got i Fresh) | _ => (PANIC, b) end
  | TStruct fs, AssembleEntry k =>
      match settle b with
      | Some (SReady got) =>
          match field_index fs k with
          | Some i => if has i got then (ERR, SReady got) else (OK, SIn got i Fresh)
          | None => (ERR, SReady got)
          end
      | _ => (PANIC, b)
      end
  | TStruct fs, Finish =>
      match settle b with
      | Some (SReady got) => if complete fs got then (OK, Full (struct_value fs got) true) else (ERR, SReady got)
      | _ => (PANIC, b)
      end
  | TList _, AssembleValue => match settle b with Some (LReady got) => (OK, LIn got Fresh) | _ => (PANIC, b) end
  | TList _, Finish => match settle b with Some (LReady got) => (OK, Full (VList got) true) | _ => (PANIC, b) end
  | TTree _, AssembleEntry k =>
      match settle b with
      | Some (TReady got) => if mem_bytes k (map fst got) then (ERR, TReady got) else (OK, TIn got k Fresh)
      | _ => (PANIC, b)
      end
  | TTree _, AssembleKey => match settle b with Some (TReady got) => (OK, TKey got Fresh) | _ => (PANIC, b) end
  | TTree _, AssembleValue =>
      match b with TKey got (Full (VScalar (SString k)) _) => (OK, TIn got k Fresh) | _ => (PANIC, b) end
  | TTree _, Finish => match settle b with Some (TReady got) => (OK, Full (tree_value got) true) | _ => (PANIC, b) end
  | _, _ => (ERR, b)
  end.

(** A call on the child the parent has handed out last *)
Fixpoint spec (t : ty) (path : list nat) (m : meth) (b : bst) : verdict * bst :=
  match path with
  | [] => spec_act t m b
  | i :: p =>
      match child_type t i with
      | None => (ERR, b)
      | Some tc =>
          match b with
          | SIn got j c => if i =? j then let '(r, c1) := spec tc p m c in (r, SIn got j c1) else (ERR, b)
          | LIn got c => let '(r, c1) := spec tc p m c in (r, LIn got c1)
          | TKey got c => if i =? 0 then let '(r, c1) := spec tc p m c in (r, TKey got c1) else (ERR, b)
          | TIn got k c => if i =? 1 then let '(r, c1) := spec tc p m c in (r, TIn got k c1) else (ERR, b)
          | _ => (ERR, b)
          end
      end
  end.

Fixpoint spec_run (t : ty) (b : bst) (cs : list (list nat * meth)) : list verdict * bst :=
  match cs with
  | [] => ([], b)
  | c :: r => let '(v, b1) := spec t (fst c) (snd c) b in let '(vs, b2) := spec_run t b1 r in (v :: vs, b2)
  end.

(** ** The handles a client holds

    The root and, below an assembler, the child it has handed out and not taken back.
    The methods of a map or list assembler come with the handle that BeginMap or
    BeginList returned for this value.  AssignTyped takes a node of the right type. *)
Definition right_type (t : ty) (v : val) : Prop :=
  match t with TScalar k => exists s, v = VScalar s /\ kind_of s = Some k | _ => v <> VNil end.

Definition begun (b : bst) : Prop :=
  match b with Fresh | Full _ false => False | _ => True end.

Definition held_here (t : ty) (m : meth) (b : bst) : Prop :=
  match m with
  | BeginMap | BeginList _ | AssignNull | Assign _ => True
  | AssignTyped v => right_type t v
  | KeyAssign _ => (exists fs, t = TStruct fs) /\ begun b
  | AssembleKey | AssembleEntry _ => ((exists fs, t = TStruct fs) \/ (exists e, t = TTree e)) /\ begun b
  | AssembleValue | Finish => (forall k, t <> TScalar k) /\ begun b
  end.

Fixpoint held (t : ty) (path : list nat) (m : meth) (b : bst) : Prop :=
  match path with
  | [] => held_here t m b
  | i :: p =>
      match child_type t i with
      | None => False
      | Some tc =>
          match b with
          | SIn _ j c => i = j /\ held tc p m c
          | LIn _ c => held tc p m c
          | TKey _ c => i = 0 /\ held tc p m c
          | TIn _ _ c => i = 1 /\ held tc p m c
          | _ => False
          end
      end
  end.

Fixpoint all_held (t : ty) (b : bst) (cs : list (list nat * meth)) : Prop :=
  match cs with
  | [] => True
  | c :: r => held t (fst c) (snd c) b /\ all_held t (snd (spec t (fst c) (snd c) b)) r
  end.

(** ** The documented order

    Begin; for each field or entry the key, then the value; Finish.  A value may also be
    assigned whole.  [documented t v cs]: the calls [cs] build [v]. *)
Definition below (i : nat) (cs : list (list nat * meth)) : list (list nat * meth) := map (fun c => (i :: fst c, snd c)) cs.
Definition here (m : meth) : list nat * meth := ([], m).

(** The two ways to give a struct's key and a tree's key *)
Inductive struct_key (k : bytes) : list (list nat * meth) -> Prop :=
| by_entry : struct_key k [here (AssembleEntry k)]
| by_key : struct_key k [here AssembleKey; here (KeyAssign k); here AssembleValue].
Inductive tree_key (k : bytes) : list (list nat * meth) -> Prop :=
| tree_by_entry : tree_key k [here (AssembleEntry k)]
| tree_by_key : tree_key k [here AssembleKey; ([0], Assign (SString k)); here AssembleValue]
| tree_by_node : tree_key k [here AssembleKey; ([0], AssignTyped (VScalar (SString k))); here AssembleValue].

(** [dup]: a tree's AssembleKey may repeat a key. *)
Inductive documented (dup : bool) : ty -> val -> list (list nat * meth) -> Prop :=
| d_scalar k s : kind_of s = Some k -> documented dup (TScalar k) (VScalar s) [here (Assign s)]
| d_whole t v : right_type t v -> documented dup t v [here (AssignTyped v)]
| d_struct fs got cs :
    d_fields dup fs (map (fun _ => None) fs) got cs -> complete fs got = true ->
    documented dup (TStruct fs) (struct_value fs got) (here BeginMap :: cs ++ [here Finish])
| d_list e hint vs cs : d_elems dup e [] vs cs -> documented dup (TList e) (VList vs) (here (BeginList hint) :: cs ++ [here Finish])
| d_tree e es cs : d_entries dup e [] es cs -> documented dup (TTree e) (tree_value es) (here BeginMap :: cs ++ [here Finish])
(** from the fields [got] to the fields [got'], in any order, each once *)
with d_fields (dup : bool) : list field -> list (option val) -> list (option val) -> list (list nat * meth) -> Prop :=
| d_fields_nil fs got : d_fields dup fs got got []
| d_fields_cons fs got got' i f k v kc vc rest :
    nth_error fs i = Some f -> field_index fs k = Some i -> has i got = false ->
    struct_key k kc -> documented dup (f_type f) v vc ->
    d_fields dup fs (upd i (fun _ => Some v) got) got' rest ->
    d_fields dup fs got got' (kc ++ below i vc ++ rest)
with d_elems (dup : bool) : ty -> list val -> list val -> list (list nat * meth) -> Prop :=
| d_elems_nil e vs : d_elems dup e vs vs []
| d_elems_cons e vs vs' v vc rest : documented dup e v vc -> d_elems dup e (vs ++ [v]) vs' rest ->
    d_elems dup e vs vs' (here AssembleValue :: below 0 vc ++ rest)
with d_entries (dup : bool) : ty -> list (bytes * val) -> list (bytes * val) -> list (list nat * meth) -> Prop :=
| d_entries_nil e es : d_entries dup e es es []
| d_entries_cons e es es' k v kc vc rest :
    (In k (map fst es) -> dup = true /\ length kc = 3) -> tree_key k kc -> documented dup e v vc ->
    d_entries dup e (es ++ [(k, v)]) es' rest ->
    d_entries dup e es es' (kc ++ below 1 vc ++ rest).

(** The calls that succeeded *)
Definition accepted {X} (cs : list X) (vs : list verdict) : list X :=
  map fst (filter (fun cv => match snd cv with OK => true | _ => false end) (combine cs vs)).
