(** The generated assemblers as one program: the tables of Protos.v (the parts), FieldBits.v (the bits of fields), Wiring.v (the cases
    of fields) and Code.v (the bodies of methods) put together and run.

    A call names an assembler by the way to it from the builder, as in Builder.v; which assembler that is, the tables of parts tell.
    Where pointers lead (the value a part writes to, the flag it sets) is as in Builder.v.  [None]: something the states of
    Builder.v have no place for. *)
From Coq Require Import NArith.
From Verif Require Import Base GoStr Types Methods Protos FieldBits Wiring Code.
From Verif Require Builder.
From Coq Require Import String.
Local Open Scope string_scope.
Local Open Scope list_scope.

(** The method of Go for a call; [o] for what is neither string, link nor bytes: AssignBool, AssignInt or AssignFloat.  A key is given
    to the key assembler of a struct (AssembleKey, ipldsch_satisfaction.go:803-820 and the like, is the same pointer, converted). *)
Definition method_of (o : string) (a : gotype) (m : Builder.meth) : gotype * string :=
  match m with
  | Builder.BeginMap => (a, "BeginMap")
  | Builder.BeginList _ => (a, "BeginList")
  | Builder.AssignNull => (a, "AssignNull")
  | Builder.Assign (Builder.SString _) => (a, "AssignString")
  | Builder.Assign (Builder.SLink _) => (a, "AssignLink")
  | Builder.Assign (Builder.SBytes _) => (a, "AssignBytes")
  | Builder.Assign Builder.SOther => (a, o)
  | Builder.AssignTyped _ => (a, "AssignNode")
  | Builder.AssembleKey => (a, "AssembleKey")
  | Builder.KeyAssign _ => (key_view a true, "AssignString")
  | Builder.AssembleValue => (a, "AssembleValue")
  | Builder.AssembleEntry _ => (a, "AssembleEntry")
  | Builder.Finish => (a, "Finish")
  end.
(** The argument of BeginList ([sizeHint], 2220 and the like); other methods have none *)
Definition hint_of (m : Builder.meth) : Z := match m with Builder.BeginList h => h | _ => 0%Z end.

(** [ma.s] ([s int], ipldsch_satisfaction.go:472 and the like) as the list of the fields whose bits are set, and back: Builder.v keeps the list *)
Definition bits (l : list nat) : num := fold_right (fun i s => N.lor (N.shiftl 1 (N.of_nat i)) s) 0%N l.
(** The field whose bit [s] has and [l] has not: after [ma.s += fieldBit__...] (714 and the like) *)
Definition new_bit (l : list nat) (s : num) : nat := N.to_nat (N.log2 (s - bits l)).
Definition noted (s : num) (x : Builder.asm) : Builder.asm :=
  Builder.on_own (fun o => Builder.set_s (new_bit (Builder.o_s o) s :: Builder.o_s o) o) x.

(** The statements of a case of Wiring.v; [Builder.ERR] of [execs] is none of theirs *)
Definition run_case (a : gotype) (l : option (list stmt)) (x : Builder.asm) (wv : option Builder.val) (mv : option Builder.maybe) :
  option (Builder.verdict * (Builder.asm * option Builder.val * option Builder.maybe)) :=
  match l with
  | None => None
  | Some l => match execs a l x wv with
              | (Builder.ERR, _, _) => None
              | (v, x', wv') => Some (v, (x', wv', mv))
              end
  end.
(** The switch of AssembleEntry (709-801 and the like), of AssignString of a key (945-1019) and of AssembleValue (835-874) *)
Definition run_cases (a self : gotype) (m : Builder.meth) (x : Builder.asm) (wv : option Builder.val) (mv : option Builder.maybe) :
  option (Builder.verdict * (Builder.asm * option Builder.val * option Builder.maybe)) :=
  match m with
  | Builder.AssembleEntry k =>
      match mark self (bits (Builder.o_s (Builder.a_own x))) k with
      | Ok s => run_case a (entry_stmts self k) (noted s x) wv mv
      | _ => Some (Builder.ERR, (x, wv, mv))
      end
  | Builder.KeyAssign k =>
      match mark self (bits (Builder.o_s (Builder.a_own x))) k with
      | Ok s => run_case a (key_stmts self k) (noted s x) wv mv
      | _ => Some (Builder.ERR, (x, wv, mv))
      end
  | Builder.AssembleValue => run_case a (value_stmts self (Builder.o_f (Builder.a_own x))) x wv mv
  | _ => None
  end.

(** A call of a method of an assembler (the methods of ipldsch_satisfaction.go:503-1030 and the like).  Go does not compile a call of a method that is not there; Builder.v answers it with an error. *)
Definition code_act (tyof : tyname -> Builder.ty) (o : string) (a : gotype) (m : Builder.meth)
  (x : Builder.asm) (wv : option Builder.val) (mv : option Builder.maybe) :
  option (Builder.verdict * (Builder.asm * option Builder.val * option Builder.maybe)) :=
  let '(self, n) := method_of o a m in
  match body self n with
  | None => Some (Builder.ERR, (x, wv, mv))
  | Some _ =>
      match run_method tyof self a n m (hint_of m) x wv mv with
      | Stops v w => Some (v, w)
      | Hands (x1, wv1, mv1) => run_cases a self m x1 wv1 mv1
      | _ => None
      end
  end.

(** A call of an assembler that is reached through the parts [path]; the pointers are as in [Builder.call].
    Parts are the fields [ca_*], [va] and [ka] (468-484 and the like) *)
Fixpoint code_call (tyof : tyname -> Builder.ty) (o : string) (a : gotype) (path : list nat) (m : Builder.meth)
  (x : Builder.asm) (wv : option Builder.val) (mv : option Builder.maybe) :
  option (Builder.verdict * (Builder.asm * option Builder.val * option Builder.maybe)) :=
  match path with
  | [] => code_act tyof o a m x wv mv
  | i :: path =>
      match nth_error (parts_of a) i, nth_error (Builder.a_ch x) i with
      | Some p, Some c =>
          match part a p with
          | None => None
          | Some b =>
              let t := tyof (snd a) in
              let v := Builder.target (Builder.a_own x) wv in
              match code_call tyof o b path m c (Builder.child_value t i v) (Builder.child_maybe t i x v) with
              | None => None
              | Some (r, (c1, cw, cm)) =>
                  let x1 := Builder.on_child i (fun _ => c1) x in
                  let v1 := match v, cw with Some v, Some u => Some (Builder.put_value t i u v) | _, _ => v end in
                  let v2 := match v1, cm with
                            | Some v, Some k => Some (if Builder.slot_maybe t i then Builder.put_maybe i k v else v)
                            | _, _ => v1
                            end in
                  let x2 := match cm with
                            | Some k => if Builder.slot_maybe t i then x1 else Builder.on_own (Builder.set_cm k) x1
                            | None => x1
                            end in
                  let '(x3, wv1) := Builder.store_opt v2 x2 wv in
                  Some (r, (x3, wv1, mv))
              end
          end
      | _, _ => Some (Builder.ERR, (x, wv, mv))
      end
  end.

(** Calls one after the other; a client may recover from a panic and go on *)
Fixpoint code_run (tyof : tyname -> Builder.ty) (o : string) (a : gotype) (w : Builder.asm * option Builder.val * option Builder.maybe)
  (cs : list (list nat * Builder.meth)) : option (list Builder.verdict * (Builder.asm * option Builder.val * option Builder.maybe)) :=
  match cs with
  | [] => Some ([], w)
  | c :: cs =>
      let '(x, wv, mv) := w in
      match code_call tyof o a (fst c) (snd c) x wv mv with
      | None => None
      | Some (v, w1) => match code_run tyof o a w1 cs with
                        | None => None
                        | Some (vs, w2) => Some (v :: vs, w2)
                        end
      end
  end.
