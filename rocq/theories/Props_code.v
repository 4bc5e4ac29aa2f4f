(** C79: the bodies of all methods of all generated assemblers do what the model of builders (Builder.v) says, for which C37, C50, C53 and
    C55 are proved: each of the 20 assemblers has its own copy of the code, and each copy is run here on an arbitrary state. *)
From Verif Require Import Base GoStr Types Methods MethodsSpec Protos ProtosSpec Wiring Code Props_protos Props_wiring.
From Verif Require Builder BuilderFacts.
From Coq Require Import Lia String.
Local Open Scope list_scope.
Import ListNotations.

(** The methods of Go that are a call of Builder.v.  AssignNode: of a node of the assembler's own type *)
Definition go_names (m : Builder.meth) : list string :=
  match m with
  | Builder.BeginMap => ["BeginMap"]
  | Builder.BeginList _ => ["BeginList"]
  | Builder.AssignNull => ["AssignNull"]
  | Builder.Assign (Builder.SString _) => ["AssignString"]
  | Builder.Assign (Builder.SLink _) => ["AssignLink"]
  | Builder.Assign (Builder.SBytes _) => ["AssignBytes"]
  | Builder.Assign Builder.SOther => ["AssignBool"; "AssignInt"; "AssignFloat"]
  | Builder.AssignTyped _ => ["AssignNode"]
  | Builder.AssembleKey => ["AssembleKey"]
  | Builder.KeyAssign _ => []
  | Builder.AssembleValue => ["AssembleValue"]
  | Builder.AssembleEntry _ => ["AssembleEntry"]
  | Builder.Finish => ["Finish"]
  end%string.
Definition hinted (m : Builder.meth) (h : Z) : Prop := match m with Builder.BeginList k => h = k | _ => True end.
Definition runs (r : bool) (t : tyname) := run_method states_of (the_assembler r t) (the_assembler r t).
Definition ends (o : Builder.verdict * (Builder.asm * option Builder.val * option Builder.maybe)) : flow := Stops (fst o) (snd o).

(** Every assembler has the methods of its kind. *)
Definition has (t : tyname) (m : Builder.meth) : bool :=
  match m with
  | Builder.AssembleKey | Builder.AssembleEntry _ => match schema_kind t with KMap => true | _ => false end
  | Builder.AssembleValue | Builder.Finish => match schema_kind t with KMap | KList => true | _ => false end
  | Builder.KeyAssign _ => false
  | _ => true
  end.
Theorem methods_are_there : forall r t m n, In n (go_names m) -> (has t m = true <-> body (the_assembler r t) n <> None).
Proof.
  intros r t m n I. destruct m as [| | |[]| | | | | |]; cbn in I; repeat (destruct I as [I|I]; [subst n|]); try contradiction;
    destruct t, r; vm_compute; split; congruence.
Qed.
Print Assumptions methods_are_there.

(** Strings, links, bytes *)
Theorem scalar_methods_are_their_lines : forall r t m n h x wv mv, recursive (schema_kind t) = false ->
  In n (go_names m) -> has t m = true ->
  runs r t n m h x wv mv = ends (Builder.act r (states_of t) m x wv mv).
Proof.
  intros r t m n h x wv mv K I H. assert (R : the_assembler r t = the_assembler false t) by (unfold the_assembler, seen; rewrite K; now destruct r).
  unfold runs. rewrite R. clear R.
  destruct x as [[w b st s f cm] ch].
  destruct t; try discriminate K; clear K;
    (destruct m as [| | |[]| | | | | |]; try discriminate H; cbn in I; repeat (destruct I as [I|I]; [subst n|]); try contradiction);
    try reflexivity;
    unfold run_method, Builder.maybe_of, ends; cbn -[Builder.target];
    unfold Builder.assign_null, Builder.maybe_of; cbn -[Builder.target];
    (destruct b; [destruct mv as [[]|]|]; cbn -[Builder.target]; try reflexivity);
    (destruct w; try destruct wv; reflexivity).
Qed.
Print Assumptions scalar_methods_are_their_lines.

(** The states an assembler can be in: a list has no key states, and the parts whose reset() does nothing have nothing to reset. *)
Definition settled (a : gotype) (x : Builder.asm) : Prop :=
  forall p i c y, part_no a p = Some i -> part a p = Some c -> resets_nothing c = true -> nth_error (Builder.a_ch x) i = Some y -> Builder.reset y = y.
Definition list_state (x : Builder.asm) : Prop :=
  match Builder.o_st (Builder.a_own x) with Builder.Initial | Builder.MidValue | Builder.Finished => True | _ => False end.

Lemma reset_own : forall g y, Builder.reset y = y ->
  Builder.o_st (g (Builder.a_own y)) = Builder.o_st (Builder.a_own y) -> Builder.o_s (g (Builder.a_own y)) = Builder.o_s (Builder.a_own y) ->
  Builder.reset (Builder.on_own g y) = Builder.on_own g y.
Proof.
  intros g [o ch] R S T. cbn in *. inversion R. f_equal; [|now rewrite H1]. rewrite H0, H1 in *.
  destruct (g o) as [w b st s f cm]; cbn in *. subst. unfold Builder.set_s, Builder.set_st in H0. destruct o; cbn in *. now inversion H0; subst.
Qed.


Definition elem_of (t : tyname) : tyname := match t with TCommit_Link_List => TCommit_Link | TString_List => TString | _ => TTag end.
Lemma list_tidying : forall r t m x wv mv h, schema_kind t = KList -> settled (the_assembler r t) x ->
  tidying states_of (the_assembler r t) m Tidy x wv mv h =
  match Builder.o_cm (Builder.a_own x) with
  | Builder.MValue => Goes (Builder.on_own (fun o => Builder.set_st Builder.Initial (Builder.set_cm Builder.MAbsent o))
                       (Builder.on_child 0 (fun c => Builder.reset (Builder.on_own (Builder.set_w Builder.WNil) c)) x), wv, mv) h
  | _ => Stops Builder.PANIC (x, wv, mv)
  end.
Proof.
  intros r t m x wv mv h K SE.
  assert (V : forall y, nth_error (Builder.a_ch x) 0 = Some y -> resets_nothing (the_assembler r (elem_of t)) = true -> Builder.reset y = y).
  { intros y N R. eapply (SE "va"%string 0); [| |exact R|exact N]; destruct t; try discriminate K; destruct r; reflexivity. }
  clear SE. destruct x as [[w b st s f cm] ch]. cbn [Builder.a_ch Builder.a_own Builder.o_cm] in *.
  assert (E : forall y c, ch = y :: c -> resets_nothing (the_assembler r (elem_of t)) = true ->
            Builder.reset (Builder.on_own (Builder.set_w Builder.WNil) y) = Builder.on_own (Builder.set_w Builder.WNil) y).
  { intros y c -> Q. apply reset_own; [now apply V| |]; destruct y as [[]]; reflexivity. } clear V.
  destruct t; try discriminate K; destruct r, cm; try reflexivity; (destruct ch as [|y ch]; [reflexivity|]);
    try specialize (E y ch eq_refl eq_refl); cbn -[Builder.reset Builder.on_own]; try rewrite E; reflexivity.
Qed.
Definition list_switch : stm :=
  OnState [(Builder.Initial, []); (Builder.MidValue, [Tidy]); (Builder.Finished, [Panicking])].
Definition begun_switch : stm := OnM [([M Builder.MValue; M Builder.MNull], [Panicking]); ([M Builder.MMid], [Panicking])].
Definition null_switch : stm :=
  OnM [([AllowNull], [PutM Builder.MNull; Return]); ([M Builder.MAbsent], [Refuse]); ([M Builder.MValue; M Builder.MNull], [Panicking]);
       ([M Builder.MMid], [Panicking])].
Definition list_body (t : tyname) (m : Builder.meth) : list stm :=
  match m with
  | Builder.BeginList _ => [begun_switch; L (PutM Builder.MMid); L FixHint; L (MakeIfHint (elem_of t)); L Return]
  | Builder.AssignNull => [null_switch; L Panicking]
  | Builder.AssignTyped _ => [L (IsNode t); begun_switch; L CopyNode; L (PutM Builder.MValue); L Return]
  | Builder.AssembleValue => [list_switch; L (AppendElem (elem_of t)); L (PutState Builder.MidValue); L TakeRow; L (PointRow "va"); L (PartM "va"); L (ReturnPart "va")]
  | Builder.Finish => [list_switch; L (PutState Builder.Finished); L (PutM Builder.MValue); L Return]
  | _ => [L Refuse]
  end.
Lemma list_bodies : forall r t m n, schema_kind t = KList -> In n (go_names m) -> has t m = true ->
  body (the_assembler r t) n = Some (list_body t m).
Proof.
  intros r t m n K I H. destruct t; try discriminate K;
    (destruct m as [|hint| |[]| | | | | |]; try discriminate H; cbn in I; repeat (destruct I as [I|I]; [subst n|]); try contradiction);
    destruct r; vm_compute; reflexivity.
Qed.
Lemma list_parts : forall r t, schema_kind t = KList -> part_no (the_assembler r t) "va" = Some 0 /\
  part_type (the_assembler r t) "va" = Some (elem_of t) /\ states_of t = Builder.TList (states_of (elem_of t)).
Proof. intros r t K. destruct t; try discriminate K; destruct r; repeat split; vm_compute; reflexivity. Qed.
Lemma tyname_eqb_refl : forall t, tyname_eqb t t = true.
Proof. intros t. unfold tyname_eqb. destruct (tyname_eq_dec t t); congruence. Qed.
Lemma app_cons_not_nil : forall X Y (l : list X) z (a b : Y), match l ++ [z] with [] => a | _ :: _ => b end = b.
Proof. now intros X Y [|]. Qed.

(** Lists *)
Theorem list_methods_are_their_lines : forall r t m n h x wv mv, schema_kind t = KList ->
  In n (go_names m) -> has t m = true -> hinted m h -> list_state x -> settled (the_assembler r t) x ->
  runs r t n m h x wv mv = ends (Builder.act r (states_of t) m x wv mv).
Proof.
  intros r t m n h x wv mv K I H HH LS SE.
  pose proof (fun m wv mv h => list_tidying r t m x wv mv h K SE) as TD. clear SE.
  unfold runs, run_method. rewrite (list_bodies r t m n K I H). destruct (list_parts r t K) as (P0 & P1 & P2). rewrite P2. clear P2 I.
  assert (A : snd (the_assembler r t) = t) by reflexivity.
  assert (Q := tyname_eqb_refl). remember (the_assembler r t) as a eqn:EA. clear EA.
  destruct x as [[w b st s f cm] ch]. unfold list_state in LS. cbn [Builder.a_own Builder.o_st] in LS.
  Ltac go := cbn -[elem_of states_of Builder.target part_no part_type tyname_eqb tidying Builder.reset Builder.zero Z.ltb].
  destruct m as [|hint| |[]| | | | | |]; try (cbn in H; rewrite K in H; discriminate H); try reflexivity; cbn in HH; try subst h;
    unfold ends; go; unfold Builder.assign_null, Builder.maybe_of; go; rewrite ?P0, ?P1, ?A, ?Q; go.
  - destruct b; [destruct mv as [[]|]|]; go; try reflexivity. rewrite ?P1, ?Q. go.
    destruct (hint <? 0)%Z eqn:E1, (0 <? hint)%Z eqn:E2; try (apply Z.ltb_lt in E1; apply Z.ltb_lt in E2; lia); go; rewrite ?E2; go;
      try reflexivity; destruct w; try destruct wv; reflexivity.
  - destruct b; [destruct mv as [[]|]|]; reflexivity.
  - destruct b; [destruct mv as [[]|]|]; go; try reflexivity; destruct w; try destruct wv; reflexivity.
  - destruct st; try contradiction LS; go; rewrite ?TD; clear TD; go; try (destruct cm; go; try reflexivity);
      rewrite ?P1, ?Q; go; destruct w as [| |v]; try destruct wv as [v|]; cbn -[elem_of states_of part_no part_type Builder.reset Builder.zero]; try reflexivity.
    all: rewrite ?app_cons_not_nil; cbn -[elem_of states_of part_no part_type Builder.reset Builder.zero]; rewrite ?app_cons_not_nil;
      destruct ch as [|[[] c] ch]; reflexivity.
  - destruct st; try contradiction LS; go; rewrite ?TD; clear TD; go; try (destruct cm; go; try reflexivity);
      unfold Builder.maybe_of; cbn -[elem_of states_of Builder.reset]; (destruct b; [destruct mv|]; reflexivity).
Qed.
Print Assumptions list_methods_are_their_lines.

Definition entry_switch : stm :=
  OnState [(Builder.Initial, []); (Builder.MidKey, [Panicking]); (Builder.ExpectValue, [Panicking]); (Builder.MidValue, [Tidy]);
           (Builder.Finished, [Panicking])].
Definition tree_body (m : Builder.meth) : list stm :=
  match m with
  | Builder.BeginMap => [begun_switch; L (PutM Builder.MMid); L FixHint; L MakeMap; L MakeSlice; L Return]
  | Builder.AssignNull => [null_switch; L Panicking]
  | Builder.AssignTyped _ => [L (IsNode TTree); begun_switch; L CopyNode; L (PutM Builder.MValue); L Return]
  | Builder.AssembleEntry _ =>
      [entry_switch; L KeyString; L RepeatedTest; L AppendKey; L TakeLast; L (PutState Builder.MidValue); L MapKey; L (PointEntry "va");
       L (PartM "va"); L (ReturnPart "va")]
  | Builder.AssembleKey =>
      [entry_switch; L AppendNone; L (PutState Builder.MidKey); L (PartM "ka"); L (PointKey "ka"); L (ReturnPart "ka")]
  | Builder.AssembleValue =>
      [OnState [(Builder.Initial, [Panicking]); (Builder.MidKey, [KeyTidy]); (Builder.ExpectValue, []); (Builder.MidValue, [Panicking]);
                (Builder.Finished, [Panicking])]; L (PutState Builder.MidValue); L (ReturnPart "va")]
  | Builder.Finish => [entry_switch; L (PutState Builder.Finished); L (PutM Builder.MValue); L Return]
  | _ => [L Refuse]
  end.
Lemma tree_bodies : forall r m n, In n (go_names m) -> body (the_assembler r TTree) n = Some (tree_body m).
Proof.
  intros r m n I.
  (destruct m as [|hint| |[]| | | | | |]; cbn in I; repeat (destruct I as [I|I]; [subst n|]); try contradiction);
    destruct r; vm_compute; reflexivity.
Qed.
Lemma tree_parts : forall r, part_no (the_assembler r TTree) "va" = Some 1 /\ part_no (the_assembler r TTree) "ka" = Some 0 /\
  part_type (the_assembler r TTree) "va" = Some TTreeEntry /\ states_of TTree = Builder.TTree (states_of TTreeEntry).
Proof. intros r. destruct r; repeat split; vm_compute; reflexivity. Qed.
Lemma tree_tidying : forall r m x wv mv h,
  tidying states_of (the_assembler r TTree) m Tidy x wv mv h =
  match Builder.o_cm (Builder.a_own x) with
  | Builder.MValue => Goes (Builder.on_own (fun o => Builder.set_st Builder.Initial (Builder.set_cm Builder.MAbsent o))
                       (Builder.on_child 1 (fun c => Builder.reset (Builder.on_own (Builder.set_w Builder.WNil) c)) x), wv, mv) h
  | _ => Stops Builder.PANIC (x, wv, mv)
  end.
Proof.
  intros r m [[w b st s f cm] ch] wv mv h. destruct r, cm; try reflexivity; (destruct ch as [|y [|z ch]]; reflexivity).
Qed.
Lemma tree_key_tidying : forall r m x wv mv h,
  tidying states_of (the_assembler r TTree) m KeyTidy x wv mv h =
  match Builder.o_cm (Builder.a_own x) with
  | Builder.MValue =>
      let x1 := Builder.on_child 0 (Builder.on_own (Builder.set_w Builder.WNil)) x in
      match Builder.target (Builder.a_own x) wv with
      | None => Stops Builder.PANIC (x1, wv, mv)
      | Some v =>
          let '(t, keys) := Builder.tree_of (Some v) in
          let x2 := Builder.on_own (fun o => Builder.set_st Builder.ExpectValue (Builder.set_cm Builder.MAbsent o)) x1 in
          match t, keys with
          | [], _ => Stops Builder.PANIC (x1, wv, mv)
          | _, None => Stops Builder.PANIC (x2, wv, mv)
          | _, Some l =>
              let '(x3, wv1) := Builder.store (Builder.VTree t (Some (fst (last t ([], Builder.VNil)) :: l))) x2 wv in
              Goes (Builder.on_child 1 (Builder.on_own (fun o => Builder.set_m (Builder.set_w Builder.WParent o))) x3, wv1, mv) h
          end
      end
  | _ => Stops Builder.PANIC (x, wv, mv)
  end.
Proof.
  intros r m [[w b st s f cm] ch] wv mv h. destruct r, cm; try reflexivity;
    (destruct w as [| |v]; try destruct wv as [v|]; try reflexivity; destruct v as [| |[|e l] [m'|]| |]; try reflexivity;
     destruct ch as [|y [|[[] c] ch]]; reflexivity).
Qed.

(** Trees *)
Theorem tree_methods_are_their_lines : forall r m n h x wv mv, In n (go_names m) ->
  runs r TTree n m h x wv mv = ends (Builder.act r (states_of TTree) m x wv mv).
Proof.
  intros r m n h x wv mv I.
  pose proof (fun m wv mv h => tree_tidying r m x wv mv h) as TD. pose proof (fun m wv mv h => tree_key_tidying r m x wv mv h) as KD.
  unfold runs, run_method. rewrite (tree_bodies r m n I). destruct (tree_parts r) as (P0 & P1 & P2 & P3). rewrite P3. clear P3 I.
  assert (A : snd (the_assembler r TTree) = TTree) by reflexivity.
  assert (Q := tyname_eqb_refl). remember (the_assembler r TTree) as a eqn:EA. clear EA.
  destruct x as [[w b st s f cm] ch].
  Ltac gt := cbn -[states_of Builder.target part_no part_type tyname_eqb tidying Builder.reset Builder.zero Z.ltb Builder.has_key last].
  Ltac gw := cbn -[states_of part_no part_type tyname_eqb tidying Builder.reset Builder.zero Z.ltb Builder.has_key last].
  destruct m as [|hint| |[]| | | | | |]; try reflexivity;
    unfold ends; gt; unfold Builder.assign_null, Builder.maybe_of; gt; rewrite ?P0, ?P1, ?P2, ?A, ?Q; gt.
  - destruct b; [destruct mv as [[]|]|]; gt; try reflexivity.
    destruct (h <? 0)%Z eqn:E; gt; destruct w as [| |v]; try destruct wv as [v|]; gw; rewrite ?E; gw; try reflexivity.
  - destruct b; [destruct mv as [[]|]|]; reflexivity.
  - destruct b; [destruct mv as [[]|]|]; gt; try reflexivity; destruct w; try destruct wv; reflexivity.
  - destruct st; gt; rewrite ?TD; clear TD KD; gt; try reflexivity; try (destruct cm; gt; try reflexivity);
      destruct w as [| |v]; try destruct wv as [v|]; gw; rewrite ?P0, ?P1, ?P2, ?A, ?Q; gw; try reflexivity.
    all: destruct v as [| |[|e l] keys| |]; gw; rewrite ?P0, ?P1, ?P2; gw; destruct ch as [|[[] c] [|z ch]]; reflexivity.
  - destruct st; gt; rewrite ?KD; clear TD KD; gt; rewrite ?P0, ?P1, ?P2; gt; try reflexivity; destruct cm; gt; try reflexivity;
      destruct w as [| |v]; try destruct wv as [v|]; gw; try reflexivity; destruct v as [| |[|e l] [keys|]| |]; gw; rewrite ?P0; try reflexivity;
      destruct ch as [|y [|[[] c] ch]]; reflexivity.
  - destruct st; gt; rewrite ?TD; clear TD KD; gt; try reflexivity; try (destruct cm; gt; try reflexivity);
      destruct w as [| |v]; try destruct wv as [v|]; gw; rewrite ?P0, ?P1, ?P2, ?A, ?Q; gw; try reflexivity;
      destruct v as [| |t [keys|]| |]; gw; change (Builder.has_key k None) with false;
      try match goal with |- context [Builder.has_key k (Some ?l)] => destruct (Builder.has_key k (Some l)) end; gw; try reflexivity;
      try (destruct t as [|e t]); gw; rewrite ?P0; gw; try reflexivity; destruct ch as [|y [|[[] c] ch]]; reflexivity.
  - destruct st; gt; rewrite ?TD; clear TD KD; gt; try reflexivity; try (destruct cm; gt; try reflexivity);
      unfold Builder.maybe_of; gw; (destruct b; [destruct mv|]; reflexivity).
Qed.
Print Assumptions tree_methods_are_their_lines.

Definition struct_body (r : bool) (t : tyname) (m : Builder.meth) : list stm :=
  match m with
  | Builder.BeginMap => [begun_switch; L (PutM Builder.MMid); L (NewIfNil t); L Return]
  | Builder.AssignNull => [null_switch; L Panicking]
  | Builder.AssignTyped _ => [L (IsNode t); begun_switch; L AdoptIfNil; L CopyNode; L (PutM Builder.MValue); L Return]
  | Builder.AssembleKey => [entry_switch; L (PutState Builder.MidKey); L (ReturnKey (if r then ReprKey else Key, t))]
  | Builder.AssembleEntry _ => [entry_switch; L KeyCases]
  | Builder.AssembleValue =>
      [OnState [(Builder.Initial, [Panicking]); (Builder.MidKey, [Panicking]); (Builder.ExpectValue, []); (Builder.MidValue, [Panicking]);
                (Builder.Finished, [Panicking])]; L (PutState Builder.MidValue); L FieldCases]
  | Builder.Finish => [entry_switch; L (Sufficient t); L (PutState Builder.Finished); L (PutM Builder.MValue); L Return]
  | _ => [L Refuse]
  end.
Lemma struct_bodies : forall r t m n, is_struct t = true -> In n (go_names m) ->
  body (the_assembler r t) n = Some (struct_body r t m).
Proof.
  intros r t m n K I. destruct t; try discriminate K;
    (destruct m as [|hint| |[]| | | | | |]; cbn in I; repeat (destruct I as [I|I]; [subst n|]); try contradiction);
    destruct r; vm_compute; reflexivity.
Qed.
Lemma struct_states : forall t, is_struct t = true -> states_of t = Builder.TStruct (fields_in_builder t).
Proof. intros t K. destruct t; try discriminate K; reflexivity. Qed.
Lemma struct_tidying : forall r t m x wv mv h, is_struct t = true -> shaped t x ->
  tidying states_of (the_assembler r t) m Tidy x wv mv h =
  match Builder.struct_tidy r (fields_in_builder t) x wv with
  | Some (x1, wv1) => Goes (x1, wv1, mv) h
  | None => Stops Builder.PANIC (x, wv, mv)
  end.
Proof.
  intros r t m x wv mv h S [F _]. unfold tidying. rewrite (tidying_is_its_lines r t x wv S F).
  destruct t; try discriminate S; destruct r; cbn -[Builder.struct_tidy]; destruct (Builder.struct_tidy _ _ _ _) as [[]|]; reflexivity.
Qed.
Definition fields_are_next (m : Builder.meth) : bool := match m with Builder.AssembleEntry _ | Builder.AssembleValue => true | _ => false end.

(** Structs, but for AssembleEntry and AssembleValue, *)
Theorem struct_methods_are_their_lines : forall r t m n h x wv mv, is_struct t = true -> In n (go_names m) -> fields_are_next m = false ->
  shaped t x ->
  runs r t n m h x wv mv = ends (Builder.act r (states_of t) m x wv mv).
Proof.
  intros r t m n h x wv mv S I N SH.
  pose proof (fun m wv mv h => struct_tidying r t m x wv mv h S SH) as TD. clear SH.
  unfold runs, run_method. rewrite (struct_bodies r t m n S I), (struct_states t S).
  assert (B : Builder.act r (Builder.TStruct (fields_in_builder t)) m = Builder.act_struct r (fields_in_builder t) m) by reflexivity. rewrite B. clear B.
  pose proof (struct_states t S) as ST.
  assert (A : snd (the_assembler r t) = t) by reflexivity.
  assert (KV : gotype_eqb (if r then ReprKey else Key, t) (FieldBits.key_view (the_assembler r t) true) = true) by (clear - S; destruct t; try discriminate S; destruct r; reflexivity).
  assert (Q := tyname_eqb_refl). remember (the_assembler r t) as a eqn:EA. clear EA.
  Ltac gs := cbn -[states_of fields_in_builder Builder.target tyname_eqb gotype_eqb FieldBits.key_view tidying Builder.zero Builder.sufficient Builder.struct_tidy].
  destruct x as [[w b st s f cm] ch].
  destruct m as [|hint| |[]| | |k| |k|]; try discriminate N; try contradiction I; try reflexivity;
    unfold ends; gs; unfold Builder.assign_null, Builder.maybe_of; gs; rewrite ?A, ?Q, ?ST, ?KV; gs.
  - destruct b; [destruct mv as [[]|]|]; gs; try reflexivity; destruct w; try destruct wv; reflexivity.
  - destruct b; [destruct mv as [[]|]|]; reflexivity.
  - destruct b; [destruct mv as [[]|]|]; gs; try reflexivity; destruct w; try destruct wv; reflexivity.
  - destruct st; gs; rewrite ?TD; clear TD; gs; rewrite ?KV; try reflexivity.
    destruct (Builder.struct_tidy _ _ _ _) as [[x1 wv1]|]; gs; try reflexivity; rewrite ?A, ?Q, ?KV; reflexivity.
  - destruct st; gs; rewrite ?TD; clear TD; gs; try reflexivity.
    + destruct (Builder.sufficient _ _); gs; try reflexivity. unfold Builder.maybe_of; gs. destruct b; [destruct mv|]; reflexivity.
    + destruct (Builder.struct_tidy _ _ _ _) as [[[o1 c1] wv1]|]; gs; try reflexivity; rewrite ?A, ?Q, ?ST; gs.
      destruct (Builder.sufficient _ _); gs; try reflexivity. unfold Builder.maybe_of; gs.
      destruct (Builder.o_m o1); [destruct mv|]; reflexivity.
Qed.
Print Assumptions struct_methods_are_their_lines.
(** which come to the cases for the fields when the state allows it and panic otherwise; what the cases do is in C78. *)
Theorem struct_methods_come_to_their_cases : forall r t h x wv mv, is_struct t = true -> shaped t x ->
  (forall k, exists rd, ready (the_assembler r t) x wv = Some rd /\
     runs r t "AssembleEntry" (Builder.AssembleEntry k) h x wv mv =
     match rd with Some (x1, wv1) => Hands (x1, wv1, mv) | None => Stops Builder.PANIC (x, wv, mv) end) /\
  runs r t "AssembleValue" Builder.AssembleValue h x wv mv =
    (if mstate_eqb (Builder.o_st (Builder.a_own x)) Builder.ExpectValue then Hands (Builder.on_own (Builder.set_st Builder.MidValue) x, wv, mv)
     else Stops Builder.PANIC (x, wv, mv)) /\
  (forall k, run_method states_of (if r then ReprKey else Key, t) (the_assembler r t) "AssignString" (Builder.KeyAssign k) h x wv mv =
    if Builder.is_midkey (Builder.o_st (Builder.a_own x)) then Hands (x, wv, mv) else Stops Builder.PANIC (x, wv, mv)).
Proof.
  intros r t h x wv mv S SH.
  pose proof (fun m wv mv h => struct_tidying r t m x wv mv h S SH) as TD. destruct SH as [F _].
  split; [|split].
  - intros k. exists (Builder.struct_ready r (fields_in_builder t) x wv). split; [now apply readying|].
    unfold runs, run_method. rewrite (struct_bodies r t (Builder.AssembleEntry k) _ S (or_introl eq_refl)).
    destruct x as [[w b st s f cm] ch]. unfold Builder.struct_ready. destruct st; gs; rewrite ?TD; gs; try reflexivity.
    destruct (Builder.struct_tidy _ _ _ _) as [[x1 wv1]|]; reflexivity.
  - unfold runs, run_method. rewrite (struct_bodies r t Builder.AssembleValue _ S (or_introl eq_refl)).
    destruct x as [[w b st s f cm] ch]. destruct st; reflexivity.
  - intros k. unfold run_method.
    assert (B : body (if r then ReprKey else Key, t) "AssignString" = Some [L KeyGuard; L KeyCases])
      by (destruct t; try discriminate S; destruct r; vm_compute; reflexivity).
    rewrite B. destruct x as [[w b st s f cm] ch]. destruct st; reflexivity.
Qed.
Print Assumptions struct_methods_come_to_their_cases.

(** ** The states that can be reached

    Scalars never leave the state they begin in, lists are never in a key state, [f] is always a field, there are as many parts as
    fields. *)
Inductive formed : Builder.ty -> Builder.asm -> Prop :=
| formed_scalar k o : Builder.o_st o = Builder.Initial -> Builder.o_s o = [] -> formed (Builder.TScalar k) (Builder.A o [])
| formed_list e o c : Builder.o_st o <> Builder.MidKey -> Builder.o_st o <> Builder.ExpectValue -> Builder.o_s o = [] ->
    formed e c -> formed (Builder.TList e) (Builder.A o [c])
| formed_tree e o k c : Builder.o_s o = [] -> formed (Builder.TScalar Builder.KString) k -> formed e c ->
    formed (Builder.TTree e) (Builder.A o [k; c])
| formed_struct fs o ch : Builder.o_f o <= pred (List.length fs) -> List.length ch = List.length fs ->
    (forall i f c, nth_error fs i = Some f -> nth_error ch i = Some c -> formed (Builder.f_type f) c) ->
    formed (Builder.TStruct fs) (Builder.A o ch).

(** The assembler at a path of parts, with its type *)
Fixpoint part_at (t : Builder.ty) (x : Builder.asm) (path : list nat) : option (Builder.ty * Builder.asm) :=
  match path with
  | [] => Some (t, x)
  | i :: path => match Builder.child_type t i, nth_error (Builder.a_ch x) i with
                 | Some tc, Some c => part_at tc c path
                 | _, _ => None
                 end
  end.

Lemma formed_own : forall t g o ch, formed t (Builder.A o ch) ->
  Builder.o_st (g o) = Builder.o_st o -> Builder.o_s (g o) = Builder.o_s o -> Builder.o_f (g o) = Builder.o_f o -> formed t (Builder.A (g o) ch).
Proof.
  intros t g o ch F E1 E2 E3. inversion F; subst; constructor; try (rewrite ?E1, ?E2, ?E3; assumption); assumption.
Qed.
Lemma formed_on_own : forall t g x, formed t x ->
  Builder.o_st (g (Builder.a_own x)) = Builder.o_st (Builder.a_own x) -> Builder.o_s (g (Builder.a_own x)) = Builder.o_s (Builder.a_own x) ->
  Builder.o_f (g (Builder.a_own x)) = Builder.o_f (Builder.a_own x) -> formed t (Builder.on_own g x).
Proof. intros t g [o ch] F E1 E2 E3. now apply formed_own. Qed.
Lemma formed_child : forall t x i c, formed t x -> forall tc, Builder.child_type t i = Some tc -> nth_error (Builder.a_ch x) i = Some c -> formed tc c.
Proof.
  intros t x i c F tc T N. inversion F; subst; cbn in T, N.
  - destruct i; discriminate.
  - destruct i as [|i]; [|discriminate]. inversion T; inversion N; now subst.
  - destruct i as [|[|i]]; try discriminate; inversion T; inversion N; now subst.
  - destruct (nth_error fs i) as [f|] eqn:E; [|discriminate]. inversion T; subst. eauto.
Qed.
Lemma formed_child_type : forall t x i c, formed t x -> nth_error (Builder.a_ch x) i = Some c -> exists tc, Builder.child_type t i = Some tc.
Proof.
  intros t x i c F N. inversion F; subst; cbn in N |- *.
  - destruct i; discriminate.
  - destruct i as [|i]; [eauto|destruct i; discriminate].
  - destruct i as [|[|i]]; [eauto|eauto|destruct i; discriminate].
  - assert (i < List.length ch) by (apply nth_error_Some; congruence). destruct (nth_error fs i) eqn:E; [cbn; eauto|].
    apply nth_error_None in E. lia.
Qed.
Lemma formed_on_child : forall t x i g, formed t x ->
  (forall tc c, Builder.child_type t i = Some tc -> nth_error (Builder.a_ch x) i = Some c -> formed tc c -> formed tc (g c)) ->
  formed t (Builder.on_child i g x).
Proof.
  intros t x i g F G. inversion F; subst; cbn [Builder.on_child].
  - replace (Builder.upd i g []) with (@nil Builder.asm) by (destruct i; reflexivity). assumption.
  - destruct i as [|i]; cbn [Builder.upd].
    + constructor; try assumption. apply G; [reflexivity|reflexivity|assumption].
    + replace (Builder.upd i g []) with (@nil Builder.asm) by (destruct i; reflexivity). assumption.
  - destruct i as [|[|i]]; cbn [Builder.upd].
    + constructor; try assumption. apply G; [reflexivity|reflexivity|assumption].
    + constructor; try assumption. apply G; [reflexivity|reflexivity|assumption].
    + replace (Builder.upd i g []) with (@nil Builder.asm) by (destruct i; reflexivity). assumption.
  - constructor; [assumption|now rewrite upd_len|]. intros j f c E N. destruct (Nat.eq_dec i j) as [<-|D].
    + rewrite upd_same in N. destruct (nth_error ch i) as [c0|] eqn:E0; [|discriminate]. inversion N; subst.
      apply G; [cbn; now rewrite E|exact E0|eauto].
    + rewrite upd_other in N by exact D. eauto.
Qed.
Lemma formed_reset : forall t x, formed t x -> formed t (Builder.reset x).
Proof.
  intros t x F. induction F; cbn [Builder.reset map].
  - now constructor.
  - constructor; try assumption; cbn; congruence.
  - constructor; try assumption; reflexivity.
  - constructor; [exact H|now rewrite map_length|]. intros i f c E N. rewrite nth_error_map in N.
    destruct (nth_error ch i) eqn:E0; [|discriminate]. inversion N; subst. eauto.
Qed.
Lemma formed_state : forall t st x, formed t x -> (match t with Builder.TScalar _ => False | Builder.TList _ => st <> Builder.MidKey /\ st <> Builder.ExpectValue | _ => True end) ->
  formed t (Builder.on_own (Builder.set_st st) x).
Proof. intros t st x F G. inversion F; subst; cbn [Builder.on_own]; try contradiction; constructor; try assumption; cbn; tauto. Qed.
Lemma formed_store : forall t v x wv x' wv', Builder.store v x wv = (x', wv') -> formed t x -> formed t x'.
Proof.
  intros t v x wv x' wv' E H. unfold Builder.store in E. destruct (Builder.o_w (Builder.a_own x)); inversion E; subst; try exact H.
  now apply formed_on_own.
Qed.
Lemma formed_w : forall t w x, formed t x -> formed t (Builder.on_own (Builder.set_w w) x).
Proof. intros. now apply formed_on_own. Qed.
Lemma formed_mw : forall t w x, formed t x -> formed t (Builder.on_own (fun o => Builder.set_m (Builder.set_w w o)) x).
Proof. intros. now apply formed_on_own. Qed.
Lemma formed_cm : forall t c x, formed t x -> formed t (Builder.on_own (Builder.set_cm c) x).
Proof. intros. now apply formed_on_own. Qed.
Lemma formed_asm0 : forall t, formed t (Builder.asm0 t).
Proof.
  induction t as [k|e IH|e IH|fs IH] using BuilderFacts.ty_induct; cbn [Builder.asm0].
  - now constructor.
  - constructor; try assumption; try reflexivity; cbn; discriminate.
  - constructor; try assumption; try reflexivity. now constructor.
  - change (formed (Builder.TStruct fs) (Builder.asm0 (Builder.TStruct fs))). rewrite BuilderFacts.asm0_struct.
    constructor; [apply Nat.le_0_l|now rewrite map_length|]. intros i f c E N. rewrite nth_error_map, E in N. inversion N; subst.
    apply IH. eapply nth_error_In; eassumption.
Qed.
Lemma formed_index : forall fs k i, Builder.field_index fs k = Some i -> i <= pred (List.length fs).
Proof.
  intros fs k i H. destruct (field_index_nth _ _ _ H) as (f & E & _). assert (i < List.length fs) by (apply nth_error_Some; congruence). lia.
Qed.
Lemma formed_set_f : forall fs g x, formed (Builder.TStruct fs) x -> Builder.o_f (g (Builder.a_own x)) <= pred (List.length fs) ->
  formed (Builder.TStruct fs) (Builder.on_own g x).
Proof. intros fs g x F G. inversion F; subst. constructor; assumption. Qed.
Lemma formed_tidy : forall r fs x wv x' wv', Builder.struct_tidy r fs x wv = Some (x', wv') -> formed (Builder.TStruct fs) x -> formed (Builder.TStruct fs) x'.
Proof.
  intros r fs x wv x' wv' E H. unfold Builder.struct_tidy in E.
  destruct (Builder.kind_at _ _).
  - destruct (Builder.o_cm _); inversion E; subst. apply formed_set_f.
    + destruct r; [exact H|]. apply formed_on_child; [exact H|]. intros. now apply formed_w.
    + inversion H; subst. destruct r; assumption.
  - destruct (fst _); inversion E; subst. apply formed_set_f; [exact H|]. inversion H; subst. assumption.
  - destruct (fst _); try discriminate E. destruct (Builder.store _ x wv) as [x1 wv1] eqn:T. inversion E; subst.
    assert (F1 : formed (Builder.TStruct fs) x1) by (eapply formed_store; eassumption).
    apply formed_set_f; [exact F1|]. inversion F1; subst. assumption.
Qed.
Lemma formed_ready : forall r fs x wv x' wv', Builder.struct_ready r fs x wv = Some (x', wv') -> formed (Builder.TStruct fs) x -> formed (Builder.TStruct fs) x'.
Proof.
  intros r fs x wv x' wv' E H. unfold Builder.struct_ready in E. destruct (Builder.o_st _); try discriminate E.
  - inversion E; subst; exact H.
  - eapply formed_tidy; eassumption.
Qed.
Lemma formed_start : forall fs i x wv mv v x' wv' mv', Builder.struct_start fs i x wv mv = (v, (x', wv', mv')) ->
  formed (Builder.TStruct fs) x -> formed (Builder.TStruct fs) x'.
Proof.
  intros fs i x wv mv v x' wv' mv' E H. unfold Builder.struct_start in E. destruct (Builder.target _ _); inversion E; subst; [|exact H].
  apply formed_on_child; [exact H|]. intros. now apply formed_mw.
Qed.
Lemma formed_list_ready : forall e x x', Builder.list_ready x = Some x' -> formed (Builder.TList e) x -> formed (Builder.TList e) x'.
Proof.
  intros e x x' E H. unfold Builder.list_ready in E. destruct (Builder.o_st _); try discriminate E; [inversion E; subst; exact H|].
  destruct (Builder.o_cm _); inversion E; subst.
  assert (F : formed (Builder.TList e) (Builder.on_child 0 (fun c => Builder.reset (Builder.on_own (Builder.set_w Builder.WNil) c)) x))
    by (apply formed_on_child; [exact H|intros; apply formed_reset; now apply formed_w]).
  inversion F; subst. cbn [Builder.on_own]. constructor; try assumption; cbn; congruence.
Qed.
Lemma formed_tree_ready : forall e x x', Builder.tree_ready x = Some x' -> formed (Builder.TTree e) x -> formed (Builder.TTree e) x'.
Proof.
  intros e x x' E H. unfold Builder.tree_ready in E. destruct (Builder.o_st _); try discriminate E; [inversion E; subst; exact H|].
  destruct (Builder.o_cm _); inversion E; subst.
  assert (F : formed (Builder.TTree e) (Builder.on_child 1 (fun c => Builder.reset (Builder.on_own (Builder.set_w Builder.WNil) c)) x))
    by (apply formed_on_child; [exact H|intros; apply formed_reset; now apply formed_w]).
  inversion F; subst. cbn [Builder.on_own]. constructor; try assumption; reflexivity.
Qed.
Lemma formed_start_child : forall t i x, formed t x -> formed t (Builder.on_child i (Builder.on_own (fun o => Builder.set_m (Builder.set_w Builder.WParent o))) x).
Proof. intros. apply formed_on_child; [assumption|]. intros. now apply formed_mw. Qed.
Lemma formed_act : forall r t m x wv mv v x' wv' mv', Builder.act r t m x wv mv = (v, (x', wv', mv')) -> formed t x -> formed t x'.
Proof.
  intros r [k|e|e|fs] m x wv mv v x' wv' mv' E H; cbn [Builder.act] in E.
  - unfold Builder.act_scalar, Builder.assign_null in E.
    repeat match type of E with
      | context [match ?b with _ => _ end] => lazymatch b with context [match _ with _ => _ end] => fail | _ => destruct b eqn:? end
      end; inversion E; subst; eauto using formed_store, formed_w.
  - unfold Builder.act_list, Builder.assign_null in E.
    repeat match type of E with
      | context [match ?b with _ => _ end] => lazymatch b with context [match _ with _ => _ end] => fail | _ => destruct b eqn:? end
      end; inversion E; subst; eauto using formed_store.
    + apply formed_start_child, formed_state; [|split; discriminate]. eauto using formed_store, formed_list_ready.
    + eauto using formed_list_ready.
    + apply formed_state; [|split; discriminate]. eauto using formed_list_ready.
    + apply formed_state; [|split; discriminate]. eauto using formed_list_ready.
  - assert (K : forall g x, formed (Builder.TTree e) x -> Builder.o_s (g (Builder.a_own x)) = Builder.o_s (Builder.a_own x) -> formed (Builder.TTree e) (Builder.on_own g x)).
    { intros g y F G. inversion F; subst. cbn [Builder.on_own]. constructor; try assumption. cbn in G. congruence. }
    assert (W : forall x, formed (Builder.TTree e) x -> formed (Builder.TTree e) (Builder.on_child 0 (Builder.on_own (Builder.set_w Builder.WNil)) x))
      by (intros; apply formed_on_child; [assumption|intros; now apply formed_w]).
    unfold Builder.act_tree, Builder.assign_null in E.
    repeat match type of E with
      | context [match ?b with _ => _ end] => lazymatch b with context [match _ with _ => _ end] => fail | _ => destruct b eqn:? end
      end; inversion E; subst;
      repeat first [apply formed_start_child | apply K; [|reflexivity] | apply W]; eauto 6 using formed_store, formed_tree_ready.
    all: try (eapply formed_store; [eassumption|]; repeat first [apply K; [|reflexivity] | apply W]; eauto using formed_tree_ready).
  - assert (K : forall st x, formed (Builder.TStruct fs) x -> formed (Builder.TStruct fs) (Builder.on_own (Builder.set_st st) x))
      by (intros; apply formed_state; trivial).
    unfold Builder.act_struct, Builder.assign_null in E.
    repeat match type of E with
      | context [match ?b with _ => _ end] => lazymatch b with context [match _ with _ => _ end] => fail | _ => destruct b eqn:? end
      end; try (inversion E; subst); eauto using formed_store, formed_ready, formed_w.
    + apply formed_set_f; [exact H|]. cbn. eapply formed_index; eassumption.
    + eapply formed_start; [eassumption|]. now apply K.
    + eapply formed_start; [eassumption|]. apply formed_set_f; [eauto using formed_ready|]. cbn. eapply formed_index; eassumption.
Qed.
Lemma formed_call : forall r path t m x wv mv v x' wv' mv', Builder.call r t path m x wv mv = (v, (x', wv', mv')) -> formed t x -> formed t x'.
Proof.
  induction path as [|i path IH]; intros t m x wv mv v x' wv' mv' E H; cbn [Builder.call] in E; [eapply formed_act; eassumption|].
  destruct (Builder.child_type t i) as [tc|] eqn:T; [|inversion E; subst; exact H].
  destruct (nth_error (Builder.a_ch x) i) as [c|] eqn:N; [|inversion E; subst; exact H].
  destruct (Builder.call r tc path m c _ _) as [r1 [[c1 cw] cm]] eqn:C.
  match type of E with (let '(_, _) := Builder.store_opt ?v2 ?x2 _ in _) = _ => assert (F : formed t x2); [|destruct (Builder.store_opt v2 x2 wv) as [x3 wv1] eqn:S] end.
  - assert (F1 : formed t (Builder.on_child i (fun _ => c1) x)).
    { apply formed_on_child; [exact H|]. intros tc0 c0 T0 N0 F0. rewrite T in T0. inversion T0; subst tc0.
      rewrite N in N0. inversion N0; subst c0. eapply IH; eassumption. }
    destruct cm; [|exact F1]. destruct (Builder.slot_maybe t i); [exact F1|now apply formed_cm].
  - inversion E; subst. unfold Builder.store_opt in S.
    match type of S with (match ?o with _ => _ end) = _ => destruct o end; [eapply formed_store; eassumption|inversion S; subst; exact F].
Qed.
Lemma formed_run : forall r t cs w, formed t (fst (fst w)) -> formed t (fst (fst (snd (Builder.run r t w cs)))).
Proof.
  induction cs as [|c cs IH]; intros w H; [exact H|]. cbn [Builder.run]. unfold Builder.step. destruct w as [[x wv] mv].
  destruct (Builder.call r t (fst c) (snd c) x wv mv) as [v w1] eqn:E.
  assert (F : formed t (fst (fst w1))) by (destruct w1 as [[x1 wv1] mv1]; eapply formed_call; eassumption).
  specialize (IH w1 F). destruct (Builder.run r t w1 cs) as [vs w2]. exact IH.
Qed.
Lemma formed_part : forall path t x tc c, formed t x -> part_at t x path = Some (tc, c) -> formed tc c.
Proof.
  induction path as [|i path IH]; intros t x tc c F E; cbn in E; [inversion E; now subst|].
  destruct (Builder.child_type t i) eqn:T; [|discriminate]. destruct (nth_error _ i) eqn:N; [|discriminate].
  eapply IH; [|exact E]. eapply formed_child; eassumption.
Qed.
(** Every assembler of every builder, after any calls *)
Theorem reached_assemblers_are_formed : forall r t cs path tc c,
  part_at t (fst (fst (snd (Builder.run r t (Builder.new_builder t) cs)))) path = Some (tc, c) -> formed tc c.
Proof.
  intros r t cs path tc c E. eapply formed_part; [|exact E]. apply formed_run. cbn. apply formed_mw, formed_asm0.
Qed.
Print Assumptions reached_assemblers_are_formed.

(** They meet the hypotheses of the theorems above. *)
Lemma formed_scalars_reset : forall k x, formed (Builder.TScalar k) x -> Builder.reset x = x.
Proof. intros k x F. inversion F; subst. destruct o as [w b st s f cm]; cbn in *. now subst. Qed.
Lemma lists_have_rows : forall r t, schema_kind t = KList -> parts_of (the_assembler r t) = ["va"%string].
Proof. intros r t K. destruct t; try discriminate K; destruct r; vm_compute; reflexivity. Qed.
Lemma only_place : forall l s p i, l = [s] -> place_in l p = Some i -> p = s.
Proof. intros l s p i -> P. cbn [place_in] in P. destruct (String.eqb s p) eqn:Q; [now apply String.eqb_eq in Q|discriminate P]. Qed.
Lemma part_no_is : forall a p, part_no a p = place_in (parts_of a) p.
Proof. reflexivity. Qed.
Lemma list_part_name : forall r t p i, schema_kind t = KList -> part_no (the_assembler r t) p = Some i -> p = "va"%string.
Proof. intros r t p i K P. rewrite part_no_is in P. rewrite (lists_have_rows r t K) in P. exact (only_place _ _ _ _ eq_refl P). Qed.
Lemma rows_reset : forall r t, schema_kind t = KList ->
  match part (the_assembler r t) "va" with Some c => resets_nothing c | None => true end = match t with TTag_List => false | _ => true end.
Proof. intros r t K. destruct t; try discriminate K; destruct r; vm_compute; reflexivity. Qed.
Lemma formed_struct_shaped : forall t x, is_struct t = true -> formed (states_of t) x -> shaped t x.
Proof. intros t x K F. destruct t; try discriminate K; inversion F; subst; split; cbn in *; lia. Qed.
Lemma formed_list_state : forall t x, schema_kind t = KList -> formed (states_of t) x -> list_state x.
Proof.
  intros t x K F. destruct t; try discriminate K; inversion F; subst; unfold list_state; cbn; destruct (Builder.o_st o); try exact I; contradiction.
Qed.
Lemma formed_row : forall t x y, schema_kind t = KList -> formed (states_of t) x -> nth_error (Builder.a_ch x) 0 = Some y ->
  t = TTag_List \/ Builder.reset y = y.
Proof.
  intros t x y K F N. destruct t; try discriminate K; [right|right|now left]; inversion F; subst; cbn in N; inversion N; subst;
    eapply formed_scalars_reset; eassumption.
Qed.
Theorem formed_assemblers_are_covered : forall r t x, formed (states_of t) x ->
  (schema_kind t = KList -> list_state x /\ settled (the_assembler r t) x) /\ (is_struct t = true -> shaped t x).
Proof.
  intros r t x F. split; intros K; [split|now apply formed_struct_shaped].
  - now apply (formed_list_state t).
  - intros p i c y P Q R N. pose proof (list_part_name r t p i K P); subst p. destruct (list_parts r t K) as (P0 & _). rewrite P0 in P.
    assert (i = 0) by congruence. subst i. destruct (formed_row t x y K F N) as [Z|Z]; [|exact Z].
    pose proof (rows_reset r t K) as W. rewrite Q, R, Z in W. discriminate W.
Qed.
Print Assumptions formed_assemblers_are_covered.

(** So all calls of all assemblers of a builder do what their lines say, whatever was called before. *)
Theorem reached_methods_are_their_lines : forall r t cs path u x m n h wv mv,
  part_at (states_of t) (fst (fst (snd (Builder.run r (states_of t) (Builder.new_builder (states_of t)) cs)))) path = Some (states_of u, x) ->
  In n (go_names m) -> has u m = true -> hinted m h -> (is_struct u = true -> fields_are_next m = false) ->
  runs r u n m h x wv mv = ends (Builder.act r (states_of u) m x wv mv).
Proof.
  intros r t cs path u x m n h wv mv E I H HH N. apply reached_assemblers_are_formed in E.
  destruct (formed_assemblers_are_covered r u x E) as [L S].
  destruct (schema_kind u) eqn:K.
  all: try (apply scalar_methods_are_their_lines; [now rewrite K|assumption|assumption]).
  - destruct (is_struct u) eqn:Z; [apply struct_methods_are_their_lines; auto|].
    destruct u; try discriminate K; try discriminate Z. now apply tree_methods_are_their_lines.
  - destruct (L eq_refl). now apply list_methods_are_their_lines.
Qed.
Print Assumptions reached_methods_are_their_lines.

(** ** Resets

    What reset leaves.  Those of structs are in C78. *)
Theorem resets_are_their_lines : forall r t x, is_struct t = false -> formed (states_of t) x ->
  run_reset states_of (the_assembler r t) x = Goes (Builder.reset x, None, None) 0%Z.
Proof.
  intros r t x S F. assert (B : run_reset states_of (the_assembler r t) x =
    match schema_kind t with
    | KList => Goes (Builder.on_child 0 (match t with TTag_List => Builder.reset | _ => fun c => c end)
                      (Builder.on_own (Builder.set_st Builder.Initial) x), None, None) 0%Z
    | KMap => Goes (Builder.on_child 1 Builder.reset (Builder.on_own (Builder.set_st Builder.Initial) x), None, None) 0%Z
    | _ => Goes (x, None, None) 0%Z
    end).
  { destruct x as [o ch]. destruct t; try discriminate S; destruct r; try reflexivity.
    all: try (inversion F; subst; reflexivity). }
  rewrite B. clear B. destruct t; try discriminate S; cbn [schema_kind]; try (now rewrite (formed_scalars_reset _ _ F)).
  all: inversion F; subst; destruct o as [w b st s f cm]; cbn in *; subst.
  all: repeat match goal with H : formed _ ?c |- _ => match c with Builder.A _ _ => fail 1 | _ => unfold Builder.t_link, Builder.t_string in H; apply formed_scalars_reset in H end end.
  all: unfold Builder.set_st, Builder.set_s; cbn; congruence.
Qed.
Print Assumptions resets_are_their_lines.

(** ** Keys of structs

    Key assemblers refuse everything but strings, and nothing changes. *)
Theorem key_assemblers_refuse : forall (r : bool) t m n h x wv mv, is_struct t = true ->
  In n (go_names m) -> match m with Builder.BeginMap | Builder.BeginList _ | Builder.AssignNull => true
                       | Builder.Assign (Builder.SString _) => false | Builder.Assign _ => true | _ => false end = true ->
  run_method states_of (if r then ReprKey else Key, t) (the_assembler r t) n m h x wv mv = Stops Builder.ERR (x, wv, mv).
Proof.
  intros r t m n h x wv mv S I K.
  assert (B : body (if r then ReprKey else Key, t) n = Some [L Refuse]).
  { destruct m as [| | |[]| | | | | |]; try discriminate K; cbn in I; repeat (destruct I as [I|I]; [subst n|]); try contradiction;
      destruct t; try discriminate S; destruct r; vm_compute; reflexivity. }
  unfold run_method. rewrite B. reflexivity.
Qed.
Print Assumptions key_assemblers_refuse.

(** A list of parents in the middle of a commit is reached. *)
Definition a_run : list (list nat * Builder.meth) :=
  [([], Builder.BeginMap); ([], Builder.AssembleEntry (bs "parents")); ([1], Builder.BeginList 1); ([1], Builder.AssembleValue)].
Example reached_methods_are_their_lines_meets_its_hypotheses :
  exists x, part_at (states_of TCommit) (fst (fst (snd (Builder.run false (states_of TCommit) (Builder.new_builder (states_of TCommit)) a_run)))) [1]
            = Some (states_of TCommit_Link_List, x) /\
    Builder.o_st (Builder.a_own x) = Builder.MidValue /\
    In "AssembleValue"%string (go_names Builder.AssembleValue) /\ has TCommit_Link_List Builder.AssembleValue = true.
Proof. eexists. split; [vm_compute; reflexivity|]. split; [reflexivity|]. split; [now left|reflexivity]. Qed.
Example bodies_run :
  match Builder.new_builder (states_of TTree) with
  | (x, wv, mv) =>
      match runs true TTree "BeginMap" Builder.BeginMap 0 x wv mv with
      | Stops Builder.OK (x1, wv1, mv1) =>
          match runs true TTree "AssembleEntry" (Builder.AssembleEntry (bs "a")) 0 x1 wv1 mv1 with
          | Stops Builder.OK (x2, wv2, _) =>
              Builder.o_st (Builder.a_own x2) = Builder.MidValue /\
              wv2 = Some (Builder.VTree [(bs "a", Builder.zero (states_of TTreeEntry))] (Some [bs "a"]))
          | _ => False
          end
      | _ => False
      end
  end.
Proof. vm_compute. split; reflexivity. Qed.
Example key_assemblers_refuse_meets_its_hypotheses :
  is_struct TTag = true /\ In "AssignInt"%string (go_names (Builder.Assign Builder.SOther)) /\ body (ReprKey, TTag) "AssignInt" <> None.
Proof. split; [reflexivity|]. split; [right; now left|]. vm_compute. discriminate. Qed.
Example resets_are_their_lines_meets_its_hypotheses :
  exists x, part_at (states_of TCommit) (fst (fst (snd (Builder.run false (states_of TCommit) (Builder.new_builder (states_of TCommit)) a_run)))) [1]
            = Some (states_of TCommit_Link_List, x) /\ Builder.reset x <> x.
Proof. eexists. split; [vm_compute; reflexivity|]. cbn. discriminate. Qed.
