(** C78: the assemblers of structs, line by line.  The 8 assemblers of structs are generated apart, 40 cases in each of
    AssembleEntry, AssembleValue, AssignString of the keys and valueFinishTidy.  Here: whatever state the assembler is in, the lines
    of each of these cases do to it what the one function for all structs of Builder.v does, for which C37 and C53 are proved. *)
From Verif Require Import Base GoStr Types Methods MethodsSpec Protos ProtosSpec Wiring Props_protos.
From Verif Require Builder.
From Coq Require Import Lia String.
Local Open Scope list_scope.
Import ListNotations.

(** The fields of Builder.v *)
Definition fields_in_builder (t : tyname) : list Builder.field := match states_of t with Builder.TStruct fs => fs | _ => [] end.
(** The bit of the field and no other *)
Definition marked (i : nat) (x : Builder.asm) : Builder.asm := Builder.on_own (fun o => Builder.set_s (i :: Builder.o_s o) o) x.
(** The switch on [state] that AssembleEntry, AssembleKey and Finish begin with, with the lines of valueFinishTidy *)
Definition ready (a : gotype) (x : Builder.asm) (wv : option Builder.val) : option (option (Builder.asm * option Builder.val)) :=
  match Builder.o_st (Builder.a_own x) with
  | Builder.Initial => Some (Some (x, wv))
  | Builder.MidValue => tidy a x wv
  | _ => Some None
  end.

(** The structs have the fields of Builder.v, in this order, and a part for each. *)
Theorem structs_have_the_fields_of_the_builders : forall t, is_struct t = true ->
  map snd (fields_of t) = map Builder.f_kind (fields_in_builder t) /\
  forall r, parts_of (the_assembler r t) = map (fun f => append "ca_" (fst f)) (fields_of t).
Proof. intros t S; destruct t; try discriminate S; split; [reflexivity| intros []; reflexivity |reflexivity| intros []; reflexivity
  |reflexivity| intros []; reflexivity|reflexivity| intros []; reflexivity]. Qed.
Print Assumptions structs_have_the_fields_of_the_builders.

Lemma upd_on_own : forall i g h l,
  Builder.upd i (Builder.on_own g) (Builder.upd i (Builder.on_own h) l) = Builder.upd i (Builder.on_own (fun o => g (h o))) l.
Proof. induction i; intros g h [|[o ch] l]; cbn; try reflexivity. f_equal. apply IHi. Qed.
Lemma field_index_nth : forall fs k i, Builder.field_index fs k = Some i -> exists f, nth_error fs i = Some f /\ Builder.f_name f = k.
Proof.
  induction fs as [|f fs IH]; intros k i H; [discriminate|]. cbn in H. destruct (beqb (Builder.f_name f) k) eqn:B.
  - inversion H; subst. exists f. split; [reflexivity|]. now apply Props_protos.beqb_eq.
  - destruct (Builder.field_index fs k) eqn:E; [|discriminate]. inversion H; subst. cbn. now apply IH.
Qed.


Ltac each f L := first [exfalso; cbn in L; lia | destruct f as [|f]; [clear L|each f L]].
Ltac run := cbn -[Builder.slot_at Builder.upd Builder.set_slot nth_error].

(** valueFinishTidy.  [f] is the number of a field in every state but the first; there it is 0, a field as well. *)
Theorem tidying_is_its_lines : forall r t x wv, is_struct t = true -> Builder.o_f (Builder.a_own x) < List.length (fields_of t) ->
  tidy (the_assembler r t) x wv = Some (Builder.struct_tidy r (fields_in_builder t) x wv).
Proof.
  intros r t [o ch] wv S L. destruct o as [w m st s f cm]. unfold Builder.a_own, Builder.o_f in L.
  destruct t; try discriminate S; each f L;
    (destruct r, cm; unfold tidy, Builder.struct_tidy; run; try reflexivity;
     match goal with |- context [fst (Builder.slot_at ?v ?i)] => destruct (fst (Builder.slot_at v i)) eqn:E end; try reflexivity;
     destruct w; try destruct wv as [v|]; try discriminate E; unfold Builder.target, Builder.o_w in E; run; rewrite ?E; reflexivity).
Qed.
Print Assumptions tidying_is_its_lines.

Ltac run' := cbn -[Builder.slot_at Builder.upd Builder.set_slot Builder.target].
Lemma starting : forall r t i, is_struct t = true -> i < List.length (fields_of t) ->
  forall x wv mv l, value_stmts (the_assembler r t) i = Some (SetState Builder.MidValue :: l) ->
  (let '(v, x', wv') := execs (the_assembler r t) l x wv in (v, (x', wv', mv))) = Builder.struct_start (fields_in_builder t) i x wv mv.
Proof.
  intros r t i S L [o ch] wv mv l E. unfold Builder.struct_start.
  destruct t; try discriminate S; each i L; destruct r; vm_compute in E; inversion E; subst l; clear E;
    unfold execs, exec; run'; destruct (Builder.target o wv) eqn:T; try reflexivity; run'; rewrite ?T; run'; rewrite ?upd_on_own;
    reflexivity.
Qed.

Lemma value_stmts_some : forall r t i, is_struct t = true -> i < List.length (fields_of t) ->
  exists l, value_stmts (the_assembler r t) i = Some (SetState Builder.MidValue :: l).
Proof. intros r t i S L. destruct t; try discriminate S; each i L; destruct r; eexists; reflexivity. Qed.

(** AssembleValue *)
Theorem assembling_a_value_is_its_lines : forall r t x, is_struct t = true -> Builder.o_f (Builder.a_own x) < List.length (fields_of t) ->
  exists l, value_stmts (the_assembler r t) (Builder.o_f (Builder.a_own x)) = Some l /\
  forall wv mv, Builder.act_struct r (fields_in_builder t) Builder.AssembleValue x wv mv =
    match Builder.o_st (Builder.a_own x) with
    | Builder.ExpectValue => let '(v, x', wv') := execs (the_assembler r t) l x wv in (v, (x', wv', mv))
    | _ => (Builder.PANIC, (x, wv, mv))
    end.
Proof.
  intros r t x S L. destruct (value_stmts_some r t _ S L) as (l & E). exists (SetState Builder.MidValue :: l). split; [exact E|].
  intros wv mv. cbn [Builder.act_struct]. destruct (Builder.o_st (Builder.a_own x)); try reflexivity.
  cbn [execs exec]. now rewrite (starting r t _ S L _ wv mv l E).
Qed.
Print Assumptions assembling_a_value_is_its_lines.

Lemma fields_len : forall t, is_struct t = true -> List.length (fields_of t) = List.length (fields_in_builder t).
Proof. intros t S; destruct t; try discriminate S; reflexivity. Qed.
Lemma index_bound : forall t k i, is_struct t = true -> Builder.field_index (fields_in_builder t) k = Some i -> i < List.length (fields_of t).
Proof.
  intros t k i S H. rewrite fields_len by exact S. destruct (field_index_nth _ _ _ H) as (f & E & _). apply nth_error_Some. congruence.
Qed.
(** The lines of AssembleEntry are those of AssembleValue with [ma.f = i] after the first. *)
Lemma entry_stmts_some : forall r t k i, is_struct t = true -> Builder.field_index (fields_in_builder t) k = Some i ->
  exists l, value_stmts (the_assembler r t) i = Some (SetState Builder.MidValue :: l) /\
            entry_stmts (the_assembler r t) k = Some (SetState Builder.MidValue :: SetF i :: l).
Proof.
  intros r t k i S H. pose proof (index_bound t k i S H) as L. destruct (field_index_nth _ _ _ H) as (f & E & <-). clear H.
  destruct t; try discriminate S; each i L; inversion E; subst f; destruct r; eexists; split; reflexivity.
Qed.
Lemma readying : forall r t x wv, is_struct t = true -> Builder.o_f (Builder.a_own x) < List.length (fields_of t) ->
  ready (the_assembler r t) x wv = Some (Builder.struct_ready r (fields_in_builder t) x wv).
Proof.
  intros r t x wv S L. unfold ready, Builder.struct_ready. destruct (Builder.o_st (Builder.a_own x)); try reflexivity.
  now apply tidying_is_its_lines.
Qed.

(** AssembleEntry: there are lines for the names of the fields and for no other key; the bit is set before them. *)
Theorem assembling_an_entry_is_its_lines : forall r t x k wv mv, is_struct t = true ->
  Builder.o_f (Builder.a_own x) < List.length (fields_of t) ->
  exists rd, ready (the_assembler r t) x wv = Some rd /\
  Builder.act_struct r (fields_in_builder t) (Builder.AssembleEntry k) x wv mv =
    match rd with
    | None => (Builder.PANIC, (x, wv, mv))
    | Some (x1, wv1) =>
        match entry_stmts (the_assembler r t) k, Builder.field_index (fields_in_builder t) k with
        | Some l, Some i =>
            if Builder.mem_nat i (Builder.o_s (Builder.a_own x1)) then (Builder.ERR, (x1, wv1, mv))
            else let '(v, x', wv') := execs (the_assembler r t) l (marked i x1) wv1 in (v, (x', wv', mv))
        | _, _ => (Builder.ERR, (x1, wv1, mv))
        end
    end.
Proof.
  intros r t x k wv mv S L. exists (Builder.struct_ready r (fields_in_builder t) x wv). split; [now apply readying|].
  cbn [Builder.act_struct]. destruct (Builder.struct_ready r (fields_in_builder t) x wv) as [[x1 wv1]|]; [|reflexivity].
  destruct (Builder.field_index (fields_in_builder t) k) as [i|] eqn:F; [|now destruct (entry_stmts (the_assembler r t) k)].
  destruct (entry_stmts_some r t k i S F) as (l & E & ->). destruct (Builder.mem_nat _ _); [reflexivity|].
  cbn [execs exec]. rewrite (starting r t i S (index_bound t k i S F) _ wv1 mv l E). destruct x1; reflexivity.
Qed.
Print Assumptions assembling_an_entry_is_its_lines.

(** AssignString of the key assembler *)
Theorem assigning_a_key_is_its_lines : forall r t x k wv mv, is_struct t = true ->
  Builder.act_struct r (fields_in_builder t) (Builder.KeyAssign k) x wv mv =
  if Builder.is_midkey (Builder.o_st (Builder.a_own x)) then
    match key_stmts (if r then ReprKey else Key, t) k, Builder.field_index (fields_in_builder t) k with
    | Some l, Some i =>
        if Builder.mem_nat i (Builder.o_s (Builder.a_own x)) then (Builder.ERR, (x, wv, mv))
        else let '(v, x', wv') := execs (the_assembler r t) l (marked i x) wv in (v, (x', wv', mv))
    | _, _ => (Builder.ERR, (x, wv, mv))
    end
  else (Builder.PANIC, (x, wv, mv)).
Proof.
  intros r t x k wv mv S. cbn [Builder.act_struct]. destruct (Builder.is_midkey _); [|reflexivity].
  destruct (Builder.field_index (fields_in_builder t) k) as [i|] eqn:F; [|now destruct (key_stmts _ k)].
  assert (Q : key_stmts (if r then ReprKey else Key, t) k = Some [SetState Builder.ExpectValue; SetF i]).
  { pose proof (index_bound t k i S F) as L. destruct (field_index_nth _ _ _ F) as (f & E & <-). clear F.
    destruct t; try discriminate S; each i L; inversion E; subst f; destruct r; reflexivity. }
  rewrite Q. destruct (Builder.mem_nat _ _); [reflexivity|]. destruct x as [o ch]; reflexivity.
Qed.
Print Assumptions assigning_a_key_is_its_lines.

(** There are lines for the fields of the schema, and only for them; AssignString of a key and AssembleEntry note the number of
    the field that AssembleValue and valueFinishTidy then look at. *)
Theorem lines_are_for_the_fields : forall r t k, is_struct t = true ->
  ((exists u, under t k u) <-> exists l, entry_stmts (the_assembler r t) k = Some l) /\
  ((exists u, under t k u) <-> exists l, key_stmts (if r then ReprKey else Key, t) k = Some l).
Proof.
  intros r t k S. assert (B : (exists u, under t k u) <-> exists u, below t k = Some u)
    by (split; intros (u & U); exists u; now apply below_under). rewrite B. clear B.
  destruct t; try discriminate S; destruct r; lazy -[beqb bs iff];
    repeat match goal with |- context [beqb (bs ?x) ?k] => destruct (beqb (bs x) k) end;
    (split; split; intros (u & U); try discriminate U; eexists; reflexivity).
Qed.
Print Assumptions lines_are_for_the_fields.

(** reset *)
Theorem resetting_is_its_lines : forall r t x, is_struct t = true -> List.length (Builder.a_ch x) = List.length (fields_of t) ->
  reset_struct (the_assembler r t) x = Some (Builder.reset x).
Proof.
  intros r t [o ch] S L. unfold Builder.a_ch in L.
  destruct t; try discriminate S; cbn in L; repeat (destruct ch as [|? ch]; try discriminate L); destruct r; reflexivity.
Qed.
Print Assumptions resetting_is_its_lines.

(** The states these are about: a new assembler is in one of them, and every call leaves it in one. *)
Definition shaped (t : tyname) (x : Builder.asm) : Prop :=
  Builder.o_f (Builder.a_own x) < List.length (fields_of t) /\ List.length (Builder.a_ch x) = List.length (fields_of t).
Theorem new_assemblers_are_shaped : forall t, is_struct t = true -> shaped t (Builder.asm0 (states_of t)).
Proof. intros t S; destruct t; try discriminate S; split; cbn; lia. Qed.
Print Assumptions new_assemblers_are_shaped.

Lemma upd_len : forall X i (g : X -> X) l, List.length (Builder.upd i g l) = List.length l.
Proof. induction i; intros g [|x l]; cbn; try reflexivity. f_equal. apply IHi. Qed.
Lemma shaped_own : forall t g x, shaped t x -> (Builder.o_f (g (Builder.a_own x)) = Builder.o_f (Builder.a_own x) \/
  Builder.o_f (g (Builder.a_own x)) < List.length (fields_of t)) -> shaped t (Builder.on_own g x).
Proof. intros t g [o ch] [F C] G; split; cbn in *; [destruct G as [->|]; assumption|exact C]. Qed.
Lemma shaped_child : forall t i g x, shaped t x -> shaped t (Builder.on_child i g x).
Proof. intros t i g [o ch] [F C]; split; cbn in *; rewrite ?upd_len; assumption. Qed.
Lemma shaped_store : forall t v x wv x' wv', Builder.store v x wv = (x', wv') -> shaped t x -> shaped t x'.
Proof.
  intros t v x wv x' wv' E H. unfold Builder.store in E. destruct (Builder.o_w (Builder.a_own x)); inversion E; subst; try exact H.
  apply shaped_own; [exact H|now left].
Qed.
Lemma shaped_tidy : forall r t fs x wv x' wv', Builder.struct_tidy r fs x wv = Some (x', wv') -> shaped t x -> shaped t x'.
Proof.
  intros r t fs x wv x' wv' E H. unfold Builder.struct_tidy in E.
  destruct (Builder.kind_at _ _).
  - destruct (Builder.o_cm _); inversion E; subst. apply shaped_own; [|now left]. destruct r; [exact H|now apply shaped_child].
  - destruct (fst _); inversion E; subst. apply shaped_own; [exact H|now left].
  - destruct (fst _); try discriminate E. destruct (Builder.store _ x wv) as [x1 wv1] eqn:T. inversion E; subst.
    apply shaped_own; [|now left]. eapply shaped_store; eassumption.
Qed.
Lemma shaped_ready : forall r t fs x wv x' wv', Builder.struct_ready r fs x wv = Some (x', wv') -> shaped t x -> shaped t x'.
Proof.
  intros r t fs x wv x' wv' E H. unfold Builder.struct_ready in E. destruct (Builder.o_st _); try discriminate E.
  - inversion E; subst; exact H.
  - eapply shaped_tidy; eassumption.
Qed.
Lemma shaped_start : forall t fs i x wv mv v x' wv' mv', Builder.struct_start fs i x wv mv = (v, (x', wv', mv')) -> shaped t x -> shaped t x'.
Proof.
  intros t fs i x wv mv v x' wv' mv' E H. unfold Builder.struct_start in E. destruct (Builder.target _ _); inversion E; subst; [|exact H].
  now apply shaped_child.
Qed.
Theorem calls_leave_assemblers_shaped : forall r t m x wv mv v x' wv' mv', is_struct t = true ->
  Builder.act_struct r (fields_in_builder t) m x wv mv = (v, (x', wv', mv')) -> shaped t x -> shaped t x'.
Proof.
  intros r t m x wv mv v x' wv' mv' S E H. destruct m; cbn [Builder.act_struct] in E.
  all: try (inversion E; subst; exact H).
  - destruct (Builder.maybe_of _ _) as [[]|]; inversion E; subst; try exact H. destruct (Builder.target _ _); [exact H|].
    apply shaped_own; [exact H|now left].
  - unfold Builder.assign_null in E. destruct (Builder.maybe_of _ _) as [[]|]; inversion E; subst; exact H.
  - destruct (Builder.maybe_of _ _) as [[]|]; try (inversion E; subst; exact H).
    destruct (Builder.target _ _).
    + destruct (Builder.store _ _ _) eqn:T. inversion E; subst. eapply shaped_store; eassumption.
    + inversion E; subst. apply shaped_own; [exact H|now left].
  - destruct (Builder.struct_ready _ _ _ _) as [[x1 wv1]|] eqn:R; inversion E; subst; [|exact H].
    apply shaped_own; [|now left]. eapply shaped_ready; eassumption.
  - destruct (Builder.is_midkey _); [|inversion E; subst; exact H].
    destruct (Builder.field_index _ _) as [i|] eqn:F; [|inversion E; subst; exact H].
    destruct (Builder.mem_nat _ _); inversion E; subst; [exact H|].
    apply shaped_own; [exact H|right; cbn; eapply index_bound; eassumption].
  - destruct (Builder.o_st _); try (inversion E; subst; exact H). eapply shaped_start; [exact E|]. apply shaped_own; [exact H|now left].
  - destruct (Builder.struct_ready _ _ _ _) as [[x1 wv1]|] eqn:R; [|inversion E; subst; exact H].
    assert (H1 : shaped t x1) by (eapply shaped_ready; eassumption).
    destruct (Builder.field_index _ _) as [i|] eqn:F; [|inversion E; subst; exact H1].
    destruct (Builder.mem_nat _ _); [inversion E; subst; exact H1|]. eapply shaped_start; [exact E|].
    apply shaped_own; [exact H1|right; cbn; eapply index_bound; eassumption].
  - destruct (Builder.struct_ready _ _ _ _) as [[x1 wv1]|] eqn:R; [|inversion E; subst; exact H].
    assert (H1 : shaped t x1) by (eapply shaped_ready; eassumption).
    destruct (Builder.sufficient _ _); [|inversion E; subst; exact H1].
    destruct (Builder.maybe_of _ _); inversion E; subst; (apply shaped_own; [exact H1|now left]).
Qed.
Print Assumptions calls_leave_assemblers_shaped.

(** Said without Builder.v's functions: AssembleEntry of a field notes the field and touches only the part of that field, which it
    points into the struct, or at what the optional field has already; without a struct it panics. *)
Lemma upd_other : forall X i j (g : X -> X) l, i <> j -> nth_error (Builder.upd i g l) j = nth_error l j.
Proof. induction i; intros j g [|x l] D; destruct j; cbn; try reflexivity; try congruence. apply IHi. congruence. Qed.
Lemma upd_same : forall X i (g : X -> X) l, nth_error (Builder.upd i g l) i = option_map g (nth_error l i).
Proof. induction i; intros g [|x l]; cbn; try reflexivity. apply IHi. Qed.
Theorem one_part_is_touched : forall r t k i x wv l v x' wv', is_struct t = true ->
  nth_error (map fst (fields t)) i = Some k -> entry_stmts (the_assembler r t) k = Some l ->
  execs (the_assembler r t) l x wv = (v, x', wv') ->
  wv' = wv /\ Builder.o_f (Builder.a_own x') = i /\ Builder.o_st (Builder.a_own x') = Builder.MidValue /\
  Builder.o_w (Builder.a_own x') = Builder.o_w (Builder.a_own x) /\
  (forall j, j <> i -> nth_error (Builder.a_ch x') j = nth_error (Builder.a_ch x) j) /\
  match Builder.target (Builder.a_own x) wv with
  | None => v = Builder.PANIC
  | Some str => v = Builder.OK /\
      forall c', nth_error (Builder.a_ch x') i = Some c' -> exists c, nth_error (Builder.a_ch x) i = Some c /\
        Builder.a_ch c' = Builder.a_ch c /\ Builder.o_m (Builder.a_own c') = true /\
        Builder.o_w (Builder.a_own c') =
          match option_map snd (nth_error (fields_of t) i), Builder.slot_at (Some str) i with
          | Some Builder.OptionalPointer, (_, Builder.VNil) => Builder.WNil
          | Some Builder.OptionalPointer, (_, u) => Builder.WOwn u
          | _, _ => Builder.WParent
          end
  end.
Proof.
  intros r t k i x wv l v x' wv' S K E X.
  assert (F : Builder.field_index (fields_in_builder t) k = Some i /\ i < List.length (fields_of t)).
  { assert (L : i < List.length (map fst (fields t))) by (apply nth_error_Some; congruence).
    destruct t; try discriminate S; each i L; inversion K; subst k; split; try reflexivity; cbn; lia. }
  destruct F as (F & L). destruct (entry_stmts_some r t k i S F) as (l' & V & E'). rewrite E in E'. inversion E'; subst l; clear E'.
  cbn [execs exec] in X.
  pose proof (starting r t i S L (Builder.on_own (Builder.set_f i) (Builder.on_own (Builder.set_st Builder.MidValue) x)) wv (Some Builder.MAbsent) l' V) as Q.
  rewrite X in Q. unfold Builder.struct_start in Q. destruct x as [o ch]. cbn [Builder.a_own Builder.on_own Builder.a_ch] in Q |- *.
  change (Builder.target (Builder.set_f i (Builder.set_st Builder.MidValue o)) wv) with (Builder.target o wv) in Q.
  destruct (Builder.target o wv) as [str|] eqn:T; inversion Q; subst; clear Q.
  - cbn [Builder.on_child Builder.a_own Builder.a_ch]. repeat split; try reflexivity.
    + intros j D. apply upd_other. congruence.
    + intros c' N. rewrite upd_same in N. destruct (nth_error ch i) as [[oc cc]|] eqn:C; [|discriminate N]. inversion N; subst c'; clear N.
      exists (Builder.A oc cc). repeat split; try reflexivity. cbn [Builder.on_own Builder.a_own Builder.set_m Builder.set_w Builder.o_w].
      assert (KK : option_map snd (nth_error (fields_of t) i) = Some (Builder.kind_at (fields_in_builder t) i))
        by (clear -S L; destruct t; try discriminate S; each i L; reflexivity).
      rewrite KK. destruct (Builder.kind_at _ _); try reflexivity; destruct (Builder.slot_at (Some str) i) as [mm []]; reflexivity.
  - repeat split; reflexivity.
Qed.
Print Assumptions one_part_is_touched.

(** A commit's author: the part gets the pointer and the place of the field's own Maybe, and keeps a value that is there. *)
Example author_lines : entry_stmts (Assembler, TCommit) (bs "author") =
    Some [SetState Builder.MidValue; SetF 3; SetW "ca_author" (InField "author"); SetM "ca_author" (FieldM "author")].
Proof. reflexivity. Qed.
(** A name of a person, begun and finished: BeginMap has been called, then AssembleEntry "name", the value, and the lines again *)
Definition person_begun : Builder.asm :=
  Builder.on_own (fun o => Builder.set_m (Builder.set_w (Builder.WOwn (Builder.zero Builder.t_person)) o)) (Builder.asm0 Builder.t_person).
Example person_is_shaped : shaped TPersonInfo person_begun.
Proof. split; cbn; lia. Qed.
Example name_entry : exists l, entry_stmts (Assembler, TPersonInfo) (bs "name") = Some l /\
  let '(v, x, _) := execs (Assembler, TPersonInfo) l (marked 3 person_begun) None in
  v = Builder.OK /\ Builder.o_f (Builder.a_own x) = 3 /\ Builder.o_st (Builder.a_own x) = Builder.MidValue /\
  (exists c, nth_error (Builder.a_ch x) 3 = Some c /\ Builder.o_w (Builder.a_own c) = Builder.WParent) /\
  tidy (Assembler, TPersonInfo) x None = Some None /\
  exists y, tidy (Assembler, TPersonInfo) (Builder.on_own (Builder.set_cm Builder.MValue) x) None = Some (Some (y, None)) /\
            Builder.o_st (Builder.a_own y) = Builder.Initial.
Proof. eexists; split; [reflexivity|]. cbn. repeat split; try reflexivity; eexists; split; reflexivity. Qed.
(** With no struct to point into, the lines panic after [state] and [f] are set. *)
Example name_entry_without_struct : exists l, entry_stmts (Assembler, TPersonInfo) (bs "name") = Some l /\
  let '(v, x, _) := execs (Assembler, TPersonInfo) l (Builder.asm0 Builder.t_person) None in
  v = Builder.PANIC /\ Builder.o_f (Builder.a_own x) = 3 /\ Builder.o_st (Builder.a_own x) = Builder.MidValue.
Proof. eexists; split; [reflexivity|]. cbn. repeat split. Qed.
