(** C80: the generated assemblers, run from their own lines, are the builders of Builder.v: whatever is called. *)
From Coq Require Import NArith.
From Verif Require Import Base GoStr Types Methods MethodsSpec Protos ProtosSpec FieldBits FieldBitsSpec Wiring Code Machine Props_protos Props_fieldbits Props_wiring Props_code.
From Verif Require Builder BuilderFacts BuilderSpec Props_builder.
From Coq Require Import Lia String.
Local Open Scope list_scope.
Import ListNotations.

(** *** Bits *)
Lemma bits_alike : forall l, alike (bits l) l.
Proof.
  intros l i. induction l as [|j l IH]; [destruct i; reflexivity|]. cbn [bits fold_right Builder.mem_nat existsb].
  rewrite N.lor_spec. change (fold_right _ 0%N l) with (bits l). rewrite IH. f_equal.
  rewrite N.shiftl_1_l. destruct (Nat.eqb_spec i j) as [->|D]; [apply N.pow2_bits_true|]. apply N.pow2_bits_false. lia.
Qed.
Lemma bits_step : forall l i s, alike s (i :: l) -> Builder.mem_nat i l = false -> new_bit l s = i.
Proof.
  intros l i s A M. unfold new_bit. assert (E : s = (bits l + 2 ^ N.of_nat i)%N).
  { assert (Z : N.land (bits l) (2 ^ N.of_nat i) = 0%N).
    { apply N.bits_inj. intros n. rewrite N.land_spec, N.bits_0. destruct (N.eq_dec (N.of_nat i) n) as [<-|D].
      - rewrite (bits_alike l i), M. reflexivity.
      - rewrite (N.pow2_bits_false _ _ D). apply andb_false_r. }
    rewrite (N.add_nocarry_lxor _ _ Z). apply N.bits_inj. intros n. rewrite N.lxor_spec. rewrite <- (N2Nat.id n). rewrite (A (N.to_nat n)), (bits_alike l).
    cbn [Builder.mem_nat existsb]. destruct (Nat.eqb_spec (N.to_nat n) i) as [<-|D].
    - rewrite N.pow2_bits_true. unfold Builder.mem_nat in M |- *. rewrite M. reflexivity.
    - rewrite N.pow2_bits_false by lia. fold (Builder.mem_nat (N.to_nat n) l). now rewrite xorb_false_r. }
  rewrite E. replace (bits l + 2 ^ N.of_nat i - bits l)%N with (2 ^ N.of_nat i)%N by lia. rewrite N.log2_pow2 by lia. apply Nat2N.id.
Qed.

(** *** One call *)
Definition others : list string := ["AssignBool"; "AssignInt"; "AssignFloat"]%string.
Lemma methods_named : forall o a m, In o others -> match m with Builder.KeyAssign _ => True | _ => exists n, method_of o a m = (a, n) /\ In n (go_names m) end.
Proof. intros o a m I. destruct m as [| | |[]| | | | | |]; cbn; try exact Logic.I; eexists; (split; [reflexivity|]); try (now left). exact I. Qed.
Lemma hints : forall m, hinted m (hint_of m).
Proof. destruct m; cbn; trivial. Qed.
Lemma formed_methods : forall r u x m n h wv mv, formed (states_of u) x ->
  In n (go_names m) -> has u m = true -> hinted m h -> (is_struct u = true -> fields_are_next m = false) ->
  runs r u n m h x wv mv = ends (Builder.act r (states_of u) m x wv mv).
Proof.
  intros r u x m n h wv mv E I H HH N.
  destruct (formed_assemblers_are_covered r u x E) as [L S].
  destruct (schema_kind u) eqn:K.
  all: try (apply scalar_methods_are_their_lines; [now rewrite K|assumption|assumption]).
  - destruct (is_struct u) eqn:Z; [apply struct_methods_are_their_lines; auto|].
    destruct u; try discriminate K; try discriminate Z. now apply tree_methods_are_their_lines.
  - destruct (L eq_refl). now apply list_methods_are_their_lines.
Qed.
Lemma missing_methods : forall r t m x wv mv, has t m = false -> (is_struct t = true -> match m with Builder.KeyAssign _ => False | _ => True end) ->
  Builder.act r (states_of t) m x wv mv = (Builder.ERR, (x, wv, mv)).
Proof. intros r t m x wv mv H S. destruct t, m; try discriminate H; try reflexivity; destruct (S eq_refl). Qed.
Lemma key_bodies : forall r t, body (key_view (the_assembler r t) true) "AssignString" = if is_struct t then Some [L KeyGuard; L KeyCases] else None.
Proof. intros r t. destruct t, r; vm_compute; reflexivity. Qed.
Lemma the_key : forall r t, is_struct t = true -> key_view (the_assembler r t) true = (if r then ReprKey else Key, t).
Proof. intros r t S. destruct t; try discriminate S; destruct r; reflexivity. Qed.
Lemma the_plain : forall r t, key_view (the_assembler r t) false = the_assembler r t.
Proof. reflexivity. Qed.

Lemma cases_never_refuse : forall a l x wv, fst (fst (execs a l x wv)) <> Builder.ERR -> forall mv,
  run_case a (Some l) x wv mv = Some (let '(v, x', wv') := execs a l x wv in (v, (x', wv', mv))).
Proof. intros a l x wv N mv. unfold run_case. destruct (execs a l x wv) as [[[] x'] wv']; try reflexivity. now destruct N. Qed.
Lemma starts_never_refuse : forall fs i x wv mv, fst (Builder.struct_start fs i x wv mv) <> Builder.ERR.
Proof. intros. unfold Builder.struct_start. destruct (Builder.target _ _); discriminate. Qed.
Lemma run_start : forall r t i, is_struct t = true -> i < List.length (fields_of t) -> forall x wv mv l ls,
  value_stmts (the_assembler r t) i = Some (SetState Builder.MidValue :: l) ->
  (forall x wv, execs (the_assembler r t) ls x wv = execs (the_assembler r t) l x wv) ->
  run_case (the_assembler r t) (Some ls) x wv mv = Some (Builder.struct_start (fields_in_builder t) i x wv mv).
Proof.
  intros r t i S L x wv mv l ls E LS. rewrite <- (starting r t i S L x wv mv l E), cases_never_refuse; [now rewrite LS|].
  rewrite LS. pose proof (starts_never_refuse (fields_in_builder t) i x wv mv) as NR. rewrite <- (starting r t i S L x wv mv l E) in NR.
  now destruct (execs _ l x wv) as [[v' x'] wv'].
Qed.
Lemma run_state : forall a st l x wv mv, run_case a (Some (SetState st :: l)) x wv mv = run_case a (Some l) (Builder.on_own (Builder.set_st st) x) wv mv.
Proof. reflexivity. Qed.
Lemma run_f : forall a n l x wv mv, run_case a (Some (SetF n :: l)) x wv mv = run_case a (Some l) (Builder.on_own (Builder.set_f n) x) wv mv.
Proof. reflexivity. Qed.

Lemma code_of_entry : forall r t k x wv mv o, is_struct t = true -> shaped t x ->
  code_act states_of o (the_assembler r t) (Builder.AssembleEntry k) x wv mv = Some (Builder.act r (states_of t) (Builder.AssembleEntry k) x wv mv).
Proof.
  intros r t k x wv mv o S SH. destruct (struct_methods_come_to_their_cases r t 0%Z x wv mv S SH) as (A & _ & _).
  destruct (A k) as (rd & RD & RUN). clear A. rewrite (readying r t x wv S (proj1 SH)) in RD. inversion RD; subst rd. clear RD.
  unfold code_act. cbn [method_of].
  assert (B : body (the_assembler r t) "AssembleEntry" <> None) by (apply (methods_are_there r t (Builder.AssembleEntry k)); [now left|destruct t; try discriminate S; reflexivity]).
  destruct (body (the_assembler r t) "AssembleEntry") eqn:BE; [|congruence]. clear B.
  unfold runs in RUN. unfold hint_of. rewrite RUN. rewrite (struct_states t S). cbn [Builder.act Builder.act_struct].
  destruct (Builder.struct_ready r (fields_in_builder t) x wv) as [[x1 wv1]|]; [|reflexivity]. cbn [run_cases].
  destruct (bits_are_the_lists_of_the_builders r false t (fields_in_builder t) (bits (Builder.o_s (Builder.a_own x1))) (Builder.o_s (Builder.a_own x1)) k (struct_states t S) (bits_alike _)) as [MK _].
  rewrite the_plain in MK.
  destruct (Builder.field_index (fields_in_builder t) k) as [i|] eqn:F; [|now rewrite MK].
  destruct (Builder.mem_nat i (Builder.o_s (Builder.a_own x1))) eqn:MM; [now rewrite MK|].
  destruct MK as (s' & MK & AL). rewrite MK.
  assert (NT : noted s' x1 = marked i x1).
  { unfold noted, marked. destruct x1 as [ow ch]. cbn [Builder.on_own Builder.a_own] in *. now rewrite (bits_step _ _ _ AL MM). }
  rewrite NT. destruct (entry_stmts_some r t k i S F) as (ls & E & ->).
  rewrite run_state, run_f.
  rewrite (run_start r t i S (index_bound t k i S F) _ wv1 mv ls ls E) by reflexivity. destruct x1; reflexivity.
Qed.
Lemma code_of_value : forall r t x wv mv o, is_struct t = true -> shaped t x ->
  code_act states_of o (the_assembler r t) Builder.AssembleValue x wv mv = Some (Builder.act r (states_of t) Builder.AssembleValue x wv mv).
Proof.
  intros r t x wv mv o S SH. destruct (struct_methods_come_to_their_cases r t 0%Z x wv mv S SH) as (_ & RUN & _).
  unfold code_act. cbn [method_of].
  assert (B : body (the_assembler r t) "AssembleValue" <> None) by (apply (methods_are_there r t Builder.AssembleValue); [now left|destruct t; try discriminate S; reflexivity]).
  destruct (body (the_assembler r t) "AssembleValue") eqn:BE; [|congruence]. clear B.
  unfold runs in RUN. unfold hint_of. rewrite RUN. rewrite (struct_states t S). cbn [Builder.act Builder.act_struct].
  destruct (Builder.o_st (Builder.a_own x)) eqn:ST; cbn [mstate_eqb]; try reflexivity. cbn [run_cases].
  destruct (value_stmts_some r t (Builder.o_f (Builder.a_own x)) S (proj1 SH)) as (ls & E).
  replace (Builder.o_f (Builder.a_own (Builder.on_own (Builder.set_st Builder.MidValue) x))) with (Builder.o_f (Builder.a_own x)) by (now destruct x).
  rewrite E.
  rewrite run_state.
  rewrite (run_start r t (Builder.o_f (Builder.a_own x)) S (proj1 SH) _ wv mv ls ls E) by reflexivity. destruct x; reflexivity.
Qed.
Lemma code_of_key : forall r t k x wv mv o, is_struct t = true -> shaped t x ->
  code_act states_of o (the_assembler r t) (Builder.KeyAssign k) x wv mv = Some (Builder.act r (states_of t) (Builder.KeyAssign k) x wv mv).
Proof.
  intros r t k x wv mv o S SH. destruct (struct_methods_come_to_their_cases r t 0%Z x wv mv S SH) as (_ & _ & RUN). specialize (RUN k).
  unfold code_act. cbn [method_of]. rewrite (key_bodies r t), S. rewrite <- (the_key r t S) in RUN. unfold hint_of. rewrite RUN.
  rewrite (struct_states t S). cbn [Builder.act]. rewrite (assigning_a_key_is_its_lines r t x k wv mv S).
  destruct (Builder.is_midkey (Builder.o_st (Builder.a_own x))); [|reflexivity]. cbn [run_cases].
  destruct (bits_are_the_lists_of_the_builders r true t (fields_in_builder t) (bits (Builder.o_s (Builder.a_own x))) (Builder.o_s (Builder.a_own x)) k (struct_states t S) (bits_alike _)) as [MK _].
  rewrite <- (the_key r t S).
  destruct (Builder.field_index (fields_in_builder t) k) as [i|] eqn:F; [|rewrite MK; now destruct (key_stmts _ k)].
  assert (KS : exists n, key_stmts (key_view (the_assembler r t) true) k = Some [SetState Builder.ExpectValue; SetF n]).
  { rewrite (the_key r t S). destruct (field_index_nth _ _ _ F) as (f & E & <-). pose proof (index_bound t _ i S F) as LB. clear F MK RUN.
    destruct t; try discriminate S; each i LB; inversion E; subst f; destruct r; eexists; reflexivity. }
  destruct KS as (n & KS). rewrite KS.
  destruct (Builder.mem_nat i (Builder.o_s (Builder.a_own x))) eqn:MM; [now rewrite MK|].
  destruct MK as (s' & MK & AL). rewrite MK.
  assert (NT : noted s' x = marked i x).
  { unfold noted, marked. destruct x as [ow ch]. cbn [Builder.on_own Builder.a_own] in *. now rewrite (bits_step _ _ _ AL MM). }
  rewrite NT. reflexivity.
Qed.
Theorem a_call_is_its_lines : forall r t m x wv mv o, In o others -> formed (states_of t) x ->
  code_act states_of o (the_assembler r t) m x wv mv = Some (Builder.act r (states_of t) m x wv mv).
Proof.
  intros r t m x wv mv o O F.
  destruct (is_struct t) eqn:S.
  - pose proof (proj2 (formed_assemblers_are_covered r t x F) S) as SH.
    destruct (fields_are_next m) eqn:FN.
    { destruct m; try discriminate FN; [now apply code_of_value|now apply code_of_entry]. }
    destruct m; try discriminate FN.
    7: now apply code_of_key.
    all: match goal with |- code_act _ _ _ ?m _ _ _ = _ => destruct (methods_named o (the_assembler r t) m O) as (nm & NM & IN) end.
    all: unfold code_act; rewrite NM.
    all: match goal with |- context [run_method _ _ _ _ ?m _ _ _ _] => assert (H : has t m = true) by (destruct t; try discriminate S; reflexivity);
         pose proof (proj1 (methods_are_there r t m nm IN) H) as B;
         pose proof (formed_methods r t x m nm (hint_of m) wv mv F IN H (hints m) (fun _ => eq_refl)) as R end.
    all: destruct (body (the_assembler r t) nm) eqn:BE; [|congruence]; unfold runs in R; rewrite R; unfold ends; now destruct (Builder.act _ _ _ _ _ _).
  - destruct (has t m) eqn:H.
    + assert (K : match m with Builder.KeyAssign _ => False | _ => True end) by (destruct m; try exact I; discriminate H).
      assert (NM : exists n, method_of o (the_assembler r t) m = (the_assembler r t, n) /\ In n (go_names m)) by (pose proof (methods_named o (the_assembler r t) m O); destruct m; try assumption; contradiction).
      destruct NM as (nm & NM & IN). unfold code_act. rewrite NM.
      pose proof (proj1 (methods_are_there r t m nm IN) H) as B.
      pose proof (formed_methods r t x m nm (hint_of m) wv mv F IN H (hints m) (fun E => match eq_true_false_abs _ E S with end)) as R.
      destruct (body (the_assembler r t) nm) eqn:BE; [|congruence]; unfold runs in R; rewrite R; unfold ends; now destruct (Builder.act _ _ _ _ _ _).
    + rewrite missing_methods by (first [assumption|congruence]).
      destruct m; try (match goal with |- code_act _ _ _ ?m _ _ _ = _ => destruct (methods_named o (the_assembler r t) m O) as (nm & NM & IN) end;
        unfold code_act; rewrite NM;
        match goal with |- context [run_method _ _ _ _ ?m _ _ _ _] => pose proof (proj2 (methods_are_there r t m nm IN)) as B end;
        destruct (body (the_assembler r t) nm); [rewrite B in H by discriminate; discriminate H|reflexivity]).
      unfold code_act. cbn [method_of]. rewrite (key_bodies r t), S. reflexivity.
Qed.
Print Assumptions a_call_is_its_lines.

(** *** Calls along the parts *)
Lemma parts_tell : forall r t i,
  match nth_error (parts_of (the_assembler r t)) i with
  | Some p => exists u, part (the_assembler r t) p = Some (the_assembler r u) /\ Builder.child_type (states_of t) i = Some (states_of u)
  | None => Builder.child_type (states_of t) i = None
  end.
Proof.
  intros r t i.
  assert (E : exists l, parts_of (the_assembler r t) = l /\ List.length l <= 9) by (eexists; split; [reflexivity|destruct t, r; vm_compute; lia]).
  destruct (Nat.lt_ge_cases i 9) as [B|B].
  - do 9 (destruct i as [|i]; [destruct t, r; vm_compute; first [reflexivity | match goal with
      |- exists u, Some (_, ?T) = _ /\ _ => exists T; split; reflexivity end]|]). lia.
  - destruct E as (l & <- & LL). destruct (nth_error (parts_of (the_assembler r t)) i) eqn:N.
    + assert (i < List.length (parts_of (the_assembler r t))) by (apply nth_error_Some; congruence). lia.
    + clear N LL. destruct t; cbn; try (destruct i as [|[|i]]; [lia|lia|reflexivity]);
        do 9 (destruct i as [|i]; [lia|]); destruct i; reflexivity.
Qed.
Theorem calls_are_their_lines : forall o path r t m x wv mv, In o others -> formed (states_of t) x ->
  code_call states_of o (the_assembler r t) path m x wv mv = Some (Builder.call r (states_of t) path m x wv mv).
Proof.
  intros o. induction path as [|i path IH]; intros r t m x wv mv O F; cbn [code_call Builder.call]; [now apply a_call_is_its_lines|].
  pose proof (parts_tell r t i) as P. destruct (nth_error (parts_of (the_assembler r t)) i) as [p|].
  - destruct P as (u & P & T). rewrite T. destruct (nth_error (Builder.a_ch x) i) as [c|] eqn:N; [|reflexivity].
    rewrite P. assert (FC : formed (states_of u) c) by (eapply formed_child; eassumption).
    change (snd (the_assembler r t)) with t. rewrite IH by assumption.
    destruct (Builder.call r (states_of u) path m c _ _) as [v [[c1 cw] cm]].
    match goal with |- context [Builder.store_opt ?a ?b ?c] => destruct (Builder.store_opt a b c) end. reflexivity.
  - rewrite P. reflexivity.
Qed.
Print Assumptions calls_are_their_lines.
(** A new builder, of either view of any type, and any calls on it and on what it gives: the lines of the generated code are never in a
    state without a place in Builder.v, and give the verdicts, the value and the state that Builder.v gives. *)
Theorem the_code_is_the_builder : forall o r t cs, In o others ->
  code_run states_of o (the_assembler r t) (Builder.new_builder (states_of t)) cs =
  Some (Builder.run r (states_of t) (Builder.new_builder (states_of t)) cs).
Proof.
  intros o r t cs O. assert (F : formed (states_of t) (fst (fst (Builder.new_builder (states_of t))))) by (cbn; apply formed_mw, formed_asm0).
  revert F. generalize (Builder.new_builder (states_of t)) as w.
  induction cs as [|c cs IH]; intros [[x wv] mv] F; [reflexivity|]. cbn [code_run Builder.run]. unfold Builder.step. cbn [fst] in F.
  rewrite calls_are_their_lines by assumption.
  destruct (Builder.call r (states_of t) (fst c) (snd c) x wv mv) as [v w1] eqn:E.
  assert (F1 : formed (states_of t) (fst (fst w1))) by (destruct w1 as [[x1 wv1] mv1]; eapply formed_call; eassumption).
  rewrite (IH w1 F1). now destruct (Builder.run r (states_of t) w1 cs).
Qed.
Print Assumptions the_code_is_the_builder.
Example the_code_is_the_builder_meets_its_hypotheses : In "AssignInt"%string others.
Proof. right. now left. Qed.
(** A person of a commit, by the lines: an entry twice is refused, a wrong kind is refused, and the value comes out *)
Definition a_person : list (list nat * Builder.meth) :=
  [([], Builder.BeginMap); ([], Builder.AssembleKey); ([], Builder.KeyAssign (bs "email")); ([], Builder.AssembleValue);
   ([2], Builder.Assign Builder.SOther); ([2], Builder.Assign (Builder.SString (bs "a@b"))); ([], Builder.AssembleEntry (bs "email"));
   ([], Builder.Finish); ([], Builder.AssembleEntry (bs "name")); ([3], Builder.Assign (Builder.SString (bs "A")));
   ([], Builder.AssembleEntry (bs "date")); ([0], Builder.Assign (Builder.SString (bs "1")));
   ([], Builder.AssembleEntry (bs "timezone")); ([1], Builder.Assign (Builder.SString (bs "+0000"))); ([], Builder.Finish)].
Example the_code_builds_a_person :
  match code_run states_of "AssignInt" (the_assembler false TPersonInfo) (Builder.new_builder (states_of TPersonInfo)) a_person with
  | Some (vs, w) => vs = [Builder.OK; Builder.OK; Builder.OK; Builder.OK; Builder.ERR; Builder.OK; Builder.ERR; Builder.ERR; Builder.OK; Builder.OK;
                          Builder.OK; Builder.OK; Builder.OK; Builder.OK; Builder.OK] /\ 
                     Builder.build w = Some (Builder.VStruct (map (fun s => (Builder.MAbsent, Builder.VScalar (Builder.SString s))) [bs "1"; bs "+0000"; bs "a@b"; bs "A"]))
  | None => False
  end.
Proof. vm_compute. repeat split; reflexivity. Qed.

(** *** What follows for the lines themselves (C37) *)
Lemma types_have_pointers : forall t, BuilderFacts.pointers_to_structs (states_of t).
Proof. intros t. destruct t; cbn; repeat split; trivial; intros D; try discriminate D; eexists; reflexivity. Qed.
Theorem documented_calls_on_the_code : forall o r dup t v cs, In o others -> BuilderSpec.documented dup (states_of t) v cs ->
  exists w, code_run states_of o (the_assembler r t) (Builder.new_builder (states_of t)) cs = Some (map (fun _ => Builder.OK) cs, w) /\
            Builder.build w = Some v.
Proof.
  intros o r dup t v cs O D. destruct (Props_builder.documented_calls_build_the_value r dup (states_of t) v cs (types_have_pointers t) D) as (w & E & B).
  exists w. rewrite the_code_is_the_builder by assumption. now rewrite E.
Qed.
Print Assumptions documented_calls_on_the_code.
Theorem only_documented_calls_build_on_the_code : forall o r t v cs vs w, In o others -> BuilderSpec.all_held (states_of t) BuilderSpec.Fresh cs ->
  code_run states_of o (the_assembler r t) (Builder.new_builder (states_of t)) cs = Some (vs, w) -> Builder.build w = Some v ->
  BuilderSpec.documented true (states_of t) v (BuilderSpec.accepted cs vs).
Proof.
  intros o r t v cs vs w O H E B. rewrite the_code_is_the_builder in E by assumption. injection E as E.
  exact (Props_builder.only_documented_calls_build r (states_of t) v cs vs w (types_have_pointers t) H E B).
Qed.
Print Assumptions only_documented_calls_build_on_the_code.
Example documented_calls_on_the_code_meets_its_hypotheses :
  In "AssignBool"%string others /\ BuilderSpec.documented false (states_of TPersonInfo) Props_builder.some_person Props_builder.person_calls.
Proof. split; [now left|exact Props_builder.person_calls_documented]. Qed.
Example only_documented_calls_build_on_the_code_meets_its_hypotheses :
  BuilderSpec.all_held (states_of TPersonInfo) BuilderSpec.Fresh Props_builder.clumsy_person_calls /\
  exists vs w v, code_run states_of "AssignBool" (the_assembler true TPersonInfo) (Builder.new_builder (states_of TPersonInfo))
                   Props_builder.clumsy_person_calls = Some (vs, w) /\ Builder.build w = Some v.
Proof. split; [exact Props_builder.clumsy_calls_held|do 3 eexists; split; vm_compute; reflexivity]. Qed.

(** *** The test of Finish on the number *)
Definition keys_at (t : tyname) (l : list nat) : list bytes := flat_map (fun j => match nth_error (names t) j with Some k => [k] | None => [] end) l.
Lemma names_apart : forall t, is_struct t = true -> NoDup (names t).
Proof. intros t S. destruct t; try discriminate S; vm_compute; repeat constructor; cbn; intuition discriminate. Qed.
Lemma keys_taken : forall t l i k, is_struct t = true -> nth_error (names t) i = Some k -> taken (keys_at t l) k = Builder.mem_nat i l.
Proof.
  intros t l i k S N. induction l as [|j l IH]; [reflexivity|]. cbn [keys_at flat_map]. change (flat_map _ l) with (keys_at t l).
  unfold taken in *. rewrite existsb_app. rewrite IH. cbn [Builder.mem_nat existsb]. f_equal.
  destruct (Nat.eqb_spec i j) as [<-|D].
  - rewrite N. cbn. now rewrite beqb_refl.
  - destruct (nth_error (names t) j) as [k'|] eqn:J; [|reflexivity]. cbn. rewrite orb_false_r. destruct (beqb k k') eqn:B; [|reflexivity].
    apply beqb_eq in B. subst k'. exfalso. apply D. apply (proj1 (NoDup_nth_error (names t)) (names_apart t S)); [apply nth_error_Some; congruence|congruence].
Qed.
Theorem the_bits_are_enough : forall r t l, is_struct t = true ->
  (finish (the_assembler r t) (bits l) = Ok tt <->
   match states_of t with Builder.TStruct fs => Builder.sufficient fs l = true | _ => False end).
Proof.
  intros r t l S. rewrite (finish_tells r t (bits l) (keys_at t l) S).
  2:{ intros i k N. rewrite (keys_taken t l i k S N). apply bits_alike. }
  pose proof (fun i k => keys_taken t l i k S) as K. unfold verdict.
  destruct t; try discriminate S; clear S.
  - replace (FieldBitsSpec.required TCommit) with [bs "tree"; bs "parents"; bs "message"; bs "mergetag"; bs "other"] by (vm_compute; reflexivity).
    cbn [filter]. rewrite (K 0 (bs "tree") eq_refl), (K 1 (bs "parents") eq_refl), (K 2 (bs "message") eq_refl), (K 7 (bs "mergetag") eq_refl), (K 8 (bs "other") eq_refl).
    unfold Builder.sufficient; cbn -[Builder.mem_nat].
    destruct (Builder.mem_nat 0 l), (Builder.mem_nat 1 l), (Builder.mem_nat 2 l), (Builder.mem_nat 7 l), (Builder.mem_nat 8 l); cbn; split; intros; congruence.
  - replace (FieldBitsSpec.required TPersonInfo) with [bs "date"; bs "timezone"; bs "email"; bs "name"] by (vm_compute; reflexivity).
    cbn [filter]. rewrite (K 0 (bs "date") eq_refl), (K 1 (bs "timezone") eq_refl), (K 2 (bs "email") eq_refl), (K 3 (bs "name") eq_refl).
    unfold Builder.sufficient; cbn -[Builder.mem_nat].
    destruct (Builder.mem_nat 0 l), (Builder.mem_nat 1 l), (Builder.mem_nat 2 l), (Builder.mem_nat 3 l); cbn; split; intros; congruence.
  - replace (FieldBitsSpec.required TTag) with [bs "object"; bs "type"; bs "tag"; bs "tagger"; bs "message"] by (vm_compute; reflexivity).
    cbn [filter]. rewrite (K 0 (bs "object") eq_refl), (K 1 (bs "type") eq_refl), (K 2 (bs "tag") eq_refl), (K 3 (bs "tagger") eq_refl), (K 4 (bs "message") eq_refl).
    unfold Builder.sufficient; cbn -[Builder.mem_nat].
    destruct (Builder.mem_nat 0 l), (Builder.mem_nat 1 l), (Builder.mem_nat 2 l), (Builder.mem_nat 3 l), (Builder.mem_nat 4 l); cbn; split; intros; congruence.
  - replace (FieldBitsSpec.required TTreeEntry) with [bs "mode"; bs "hash"] by (vm_compute; reflexivity).
    cbn [filter]. rewrite (K 0 (bs "mode") eq_refl), (K 1 (bs "hash") eq_refl).
    unfold Builder.sufficient; cbn -[Builder.mem_nat].
    destruct (Builder.mem_nat 0 l), (Builder.mem_nat 1 l); cbn; split; intros; congruence.
Qed.
Print Assumptions the_bits_are_enough.
Example the_bits_are_enough_meets_its_hypotheses :
  is_struct TTreeEntry = true /\ finish (the_assembler true TTreeEntry) (bits [1; 0]) = Ok tt /\ finish (the_assembler true TTreeEntry) (bits [1]) <> Ok tt.
Proof. split; [reflexivity|]. split; vm_compute; [reflexivity|discriminate]. Qed.

(** A call that panics changes nothing *)
Theorem panics_on_the_code_change_nothing : forall o r t cs c vs x wv mv w1, In o others ->
  BuilderSpec.all_held (states_of t) BuilderSpec.Fresh (cs ++ [c]) ->
  code_run states_of o (the_assembler r t) (Builder.new_builder (states_of t)) cs = Some (vs, (x, wv, mv)) ->
  code_call states_of o (the_assembler r t) (fst c) (snd c) x wv mv = Some (Builder.PANIC, w1) -> w1 = (x, wv, mv).
Proof.
  intros o r t cs c vs x wv mv w1 O H E S. rewrite the_code_is_the_builder in E by assumption. injection E as E.
  assert (F : formed (states_of t) x).
  { pose proof (formed_run r (states_of t) cs (Builder.new_builder (states_of t))) as F. rewrite E in F. apply F. cbn. apply formed_mw, formed_asm0. }
  rewrite calls_are_their_lines in S by assumption. injection S as S.
  exact (Props_builder.panics_change_nothing r (states_of t) cs c vs (x, wv, mv) w1 (types_have_pointers t) H E S).
Qed.
Print Assumptions panics_on_the_code_change_nothing.
Example panics_on_the_code_change_nothing_meets_its_hypotheses :
  BuilderSpec.all_held (states_of TPersonInfo) BuilderSpec.Fresh ([([], Builder.BeginMap)] ++ [([], Builder.BeginMap)]) /\
  match code_run states_of "AssignInt" (the_assembler false TPersonInfo) (Builder.new_builder (states_of TPersonInfo)) [([], Builder.BeginMap)] with
  | Some (_, (x, wv, mv)) =>
      option_map fst (code_call states_of "AssignInt" (the_assembler false TPersonInfo) [] Builder.BeginMap x wv mv) = Some Builder.PANIC
  | None => False
  end.
Proof. split; [vm_compute; Props_builder.holding|vm_compute; reflexivity]. Qed.

(** A call that is refused leaves no trace: whatever follows goes as it would have gone without it *)
Lemma code_runs_on : forall o r t cs w, In o others -> formed (states_of t) (fst (fst w)) ->
  code_run states_of o (the_assembler r t) w cs = Some (Builder.run r (states_of t) w cs).
Proof.
  intros o r t. induction cs as [|c cs IH]; intros [[x wv] mv] O F; [reflexivity|]. cbn [code_run Builder.run]. unfold Builder.step. cbn [fst] in F.
  rewrite calls_are_their_lines by assumption.
  destruct (Builder.call r (states_of t) (fst c) (snd c) x wv mv) as [v w1] eqn:E.
  assert (F1 : formed (states_of t) (fst (fst w1))) by (destruct w1 as [[x1 wv1] mv1]; eapply formed_call; eassumption).
  rewrite (IH w1 O F1). now destruct (Builder.run r (states_of t) w1 cs).
Qed.
Theorem refusals_on_the_code_leave_no_trace : forall o r t cs c rest vs x wv mv v w1, In o others ->
  BuilderSpec.all_held (states_of t) BuilderSpec.Fresh (cs ++ c :: rest) ->
  code_run states_of o (the_assembler r t) (Builder.new_builder (states_of t)) cs = Some (vs, (x, wv, mv)) ->
  code_call states_of o (the_assembler r t) (fst c) (snd c) x wv mv = Some (v, w1) -> v <> Builder.OK ->
  exists vs' with_it without_it,
    code_run states_of o (the_assembler r t) w1 rest = Some (vs', with_it) /\
    code_run states_of o (the_assembler r t) (x, wv, mv) rest = Some (vs', without_it) /\
    Builder.build with_it = Builder.build without_it.
Proof.
  intros o r t cs c rest vs x wv mv v w1 O H E S NO. rewrite the_code_is_the_builder in E by assumption. injection E as E.
  assert (F : formed (states_of t) x).
  { pose proof (formed_run r (states_of t) cs (Builder.new_builder (states_of t))) as F. rewrite E in F. apply F. cbn. apply formed_mw, formed_asm0. }
  rewrite calls_are_their_lines in S by assumption. injection S as S.
  assert (F1 : formed (states_of t) (fst (fst w1))) by (destruct w1 as [[x1 wv1] mv1]; eapply formed_call; eassumption).
  destruct (Props_builder.refused_calls_leave_no_trace r (states_of t) cs c rest vs (x, wv, mv) v w1 (types_have_pointers t) H E S NO) as (_ & V & B).
  rewrite (code_runs_on o r t rest w1 O F1), (code_runs_on o r t rest (x, wv, mv) O F).
  destruct (Builder.run r (states_of t) w1 rest) as [v1 wa], (Builder.run r (states_of t) (x, wv, mv) rest) as [v2 wb]. cbn [fst snd] in V, B. subst v2.
  exists v1, wa, wb. auto.
Qed.
Print Assumptions refusals_on_the_code_leave_no_trace.
Example refusals_on_the_code_leave_no_trace_meets_its_hypotheses :
  BuilderSpec.all_held (states_of TPersonInfo) BuilderSpec.Fresh ([([], Builder.BeginMap)] ++ ([], Builder.AssembleEntry (bs "nobody")) :: [([], Builder.AssembleEntry (bs "name"))]) /\
  match code_run states_of "AssignInt" (the_assembler true TPersonInfo) (Builder.new_builder (states_of TPersonInfo)) [([], Builder.BeginMap)] with
  | Some (_, (x, wv, mv)) =>
      option_map fst (code_call states_of "AssignInt" (the_assembler true TPersonInfo) [] (Builder.AssembleEntry (bs "nobody")) x wv mv) = Some Builder.ERR
  | None => False
  end.
Proof. split; [vm_compute; Props_builder.holding|vm_compute; reflexivity]. Qed.
