(** Facts about builders that are given one node after the other. *)
From Verif Require Import Base GoStr Cid Types Nodes Builder AssignCalls.

Lemma upd_same {X} i (l : list X) (g : X -> X) : (forall x, nth_error l i = Some x -> g x = x) -> upd i g l = l.
Proof.
  revert i. induction l as [|x l IH]; intros [|i] H; cbn in *; auto.
  - now rewrite H.
  - now rewrite IH.
Qed.
Lemma upd_length {X} i (g : X -> X) l : length (upd i g l) = length l.
Proof. revert i. induction l; intros [|i]; cbn; auto. Qed.
Lemma upd_nth {X} i (g : X -> X) l : nth_error (upd i g l) i = option_map g (nth_error l i).
Proof. revert i. induction l; intros [|i]; cbn; auto. Qed.

(** ** Structs *)
Section Struct.
Context (repr : bool) (fs : list field).

Definition held_pointer (u : val) : wref := match u with VNil => WNil | u => WOwn u end.
Definition optional (i : nat) : Prop := kind_at fs i <> Required.

(** A builder whose value is [v] and that no call on its value has reached, although calls may
    have begun a field.  [Q]: the fields behind pointers that may have been begun. *)
Inductive idle (Q : nat -> Prop) (v : val) (m : maybe) : world -> Prop :=
| idle_intro st s f ch :
    length ch = length fs -> m = MAbsent \/ m = MValue ->
    match st with
    | Initial | MidKey => Forall optional s
    | MidValue => kind_at fs f = Required \/
                  Forall optional s /\
                  (kind_at fs f = OptionalPointer -> Q f /\ exists c, nth_error ch f = Some c /\ o_w (a_own c) = held_pointer (snd (slot_at (Some v) f)))
    | _ => False
    end ->
    idle Q v m (A (mkO WParent true st s f MAbsent) ch, Some v, Some m).

Lemma idle_more (Q R : nat -> Prop) v m w : (forall i, Q i -> R i) -> idle Q v m w -> idle R v m w.
Proof.
  intros I H. destruct H as [st s f ch L M H]. constructor; auto.
  destruct st; auto. destruct H as [H|[F H]]; [now left|]. right; split; auto. intros K. destruct (H K) as [q C]. auto.
Qed.

Lemma idle_assign v v1 m w : idle (fun _ => False) v m w -> m = MAbsent ->
  let '(x, wv, mv) := w in act_struct repr fs (AssignTyped v1) x wv mv = (OK, (x, Some v1, Some MValue)) /\
  idle (fun _ => False) v1 MValue (x, Some v1, Some MValue).
Proof.
  intros H ->. destruct H as [st s f ch L M H]. split; [reflexivity|]. constructor; auto.
  destruct st; auto. destruct H as [H|[F H]]; [now left|]. right; split; auto. intros K. now destruct (H K).
Qed.

Lemma set_slot_same i x sl : nth i sl (MAbsent, VNil) = (MValue, x) -> set_slot i (MValue, x) (Some (VStruct sl)) = VStruct sl.
Proof.
  intros E. unfold set_slot, slots. f_equal. apply upd_same. intros y Hy.
  now rewrite <- E, (nth_error_nth _ _ _ Hy).
Qed.

(** [struct_ready] leaves the value alone. *)
Lemma idle_ready Q v m w : idle Q v m w -> (exists sl, v = VStruct sl) ->
  let '(x, wv, mv) := w in
  match struct_ready repr fs x wv with
  | None => True
  | Some (x1, wv1) => wv1 = Some v /\ exists s f ch, x1 = A (mkO WParent true Initial s f MAbsent) ch /\ length ch = length fs /\ Forall optional s
  end.
Proof.
  intros H [sl ->]. destruct H as [st s f ch L M H]. unfold struct_ready. cbn [a_own o_st].
  destruct st; auto.
  - split; auto. exists s, f, ch. auto.
  - unfold struct_tidy. cbn [a_own o_f o_cm target o_w]. destruct (kind_at fs f) eqn:K; auto.
    + destruct H as [H|[F H]]; [congruence|]. destruct (fst (slot_at (Some (VStruct sl)) f)) eqn:E; auto.
      split; auto. exists s, f, ch. auto.
    + destruct H as [H|[F H]]; [congruence|]. destruct (H eq_refl) as (q & c & Hc & Wc).
      destruct (fst (slot_at (Some (VStruct sl)) f)) eqn:E; auto. cbn [a_ch]. rewrite Hc, Wc.
      assert (match held_pointer (snd (slot_at (Some (VStruct sl)) f)) with WOwn u => u | _ => VNil end = snd (slot_at (Some (VStruct sl)) f)) as ->
        by (now destruct (snd (slot_at (Some (VStruct sl)) f))).
      rewrite set_slot_same; [|unfold slot_at, slots in *; destruct (nth f sl (MAbsent, VNil)); cbn in *; now subst].
      cbn. split; auto. exists s, f, ch. auto.
Qed.

(** The child's value is put back where it was. *)
Lemma put_value_same i u v : (exists sl, v = VStruct sl) -> child_value (TStruct fs) i (Some v) = Some u -> put_value (TStruct fs) i u v = v.
Proof.
  intros [sl ->]. cbn. intros E. f_equal. apply upd_same. intros [m x] Hx. rewrite Hx in E. cbn in *. now injection E as ->.
Qed.
Lemma put_maybe_same i k v : (exists sl, v = VStruct sl) -> slot_maybe (TStruct fs) i = true ->
  forall x, child_maybe (TStruct fs) i x (Some v) = Some k -> put_maybe i k v = v.
Proof.
  intros [sl ->] S x. cbn in S |- *. destruct (kind_at fs i); try discriminate;
    intros E; f_equal; apply upd_same; intros [m y] Hy; rewrite Hy in E; cbn in *; now injection E as ->.
Qed.

(** A call on a child that changes neither the child's value nor its state in the parent
    changes no more than the child. *)
Lemma call_child i p m v mv o ch c r c1 tc :
  o_w o = WParent -> (exists sl, v = VStruct sl) ->
  child_type (TStruct fs) i = Some tc -> nth_error ch i = Some c ->
  call repr tc p m c (child_value (TStruct fs) i (Some v)) (child_maybe (TStruct fs) i (A o ch) (Some v))
    = (r, (c1, child_value (TStruct fs) i (Some v), child_maybe (TStruct fs) i (A o ch) (Some v))) ->
  call repr (TStruct fs) (i :: p) m (A o ch) (Some v) mv = (r, (A o (upd i (fun _ => c1) ch), Some v, mv)).
Proof.
  intros W V T C E. cbn [call]. cbn [a_ch a_own]. rewrite T, C.
  assert (target o (Some v) = Some v) as Tg by (unfold target; now rewrite W). rewrite Tg, E.
  assert (match child_value (TStruct fs) i (Some v) with Some u => Some (put_value (TStruct fs) i u v) | None => Some v end = Some v) as ->.
  { destruct (child_value (TStruct fs) i (Some v)) eqn:Ev; auto. f_equal. now apply put_value_same. }
  cbn [on_child]. destruct (child_maybe (TStruct fs) i (A o ch) (Some v)) as [k|] eqn:Em.
  - destruct (slot_maybe (TStruct fs) i) eqn:S.
    + rewrite (put_maybe_same i k v V S _ Em). cbn [store_opt]. unfold store. cbn [a_own]. now rewrite W.
    + cbn [on_own store_opt]. unfold store. cbn [a_own set_cm o_w]. rewrite W.
      cbn in S, Em. destruct (kind_at fs i); try discriminate. cbn in Em. injection Em as <-. unfold set_cm. rewrite W.
      destruct o; cbn in *. now subst.
  - cbn [store_opt]. unfold store. cbn [a_own]. now rewrite W.
Qed.
End Struct.

(** A struct all of whose fields are required. *)
Definition all_required (fs : list field) : Prop := forall i, kind_at fs i = Required.

(** AssembleKey on such a struct changes no value. *)
Lemma key_required repr fs x wv mv : all_required fs ->
  exists r x1, act_struct repr fs AssembleKey x wv mv = (r, (x1, wv, mv)) /\ o_w (a_own x1) = o_w (a_own x) /\
    (r = OK \/ r = PANIC /\ x1 = x).
Proof.
  intros R. cbn. unfold struct_ready. destruct x as [o ch]. cbn [a_own]. destruct (o_st o) eqn:S.
  - eexists OK, _. repeat split; auto.
  - eexists PANIC, _. repeat split; auto.
  - eexists PANIC, _. repeat split; auto.
  - unfold struct_tidy. cbn [a_own]. rewrite R. destruct (o_cm o).
    + eexists PANIC, _. repeat split; auto.
    + eexists PANIC, _. repeat split; auto.
    + destruct repr; eexists OK, _; repeat split; auto.
    + eexists PANIC, _. repeat split; auto.
  - eexists PANIC, _. repeat split; auto.
Qed.
(** A key that is no field is refused. *)
Lemma unknown_key repr fs k x wv mv : field_index fs k = None ->
  exists r, act_struct repr fs (KeyAssign k) x wv mv = (r, (x, wv, mv)) /\ r <> OK.
Proof.
  intros N. cbn. rewrite N. destruct (is_midkey (o_st (a_own x))); eexists; split; try reflexivity; discriminate.
Qed.

Section Foreign.
Context (repr : bool) (fs : list field).

(** Calls for a value that the field does not take: it fails at once, or begins a map with a
    key that is no field. *)
Definition hopeless (i : nat) (l : list action) : Prop :=
  l = [Fail] \/
  exists pf k r, option_map f_type (nth_error fs i) = Some (TStruct pf) /\ all_required pf /\ field_index pf k = None /\
    l = Do [] AssembleKey :: Do [] (KeyAssign k) :: r.

Lemma field_index_lt (l : list field) k i : field_index l k = Some i -> i < length l.
Proof.
  revert i. induction l as [|f l IH]; cbn; intros i; [discriminate|].
  destruct (beqb (f_name f) k); [intros E; injection E as <-; lia|].
  destruct (field_index l k) as [j|]; cbn; [|discriminate]. intros E; injection E as <-. specialize (IH j eq_refl). lia.
Qed.

(** The calls below field [i] after it was begun. *)
Lemma hopeless_exec Q v m i l rest s ch r w1 :
  (exists sl, v = VStruct sl) -> hopeless i l -> length ch = length fs -> (m = MAbsent \/ m = MValue) -> i < length fs ->
  kind_at fs i = Required \/ Forall (optional fs) s ->
  (kind_at fs i = OptionalPointer -> Q i /\ exists c, nth_error ch i = Some c /\ o_w (a_own c) = held_pointer (snd (slot_at (Some v) i))) ->
  exec repr (TStruct fs) (A (mkO WParent true MidValue s i MAbsent) ch, Some v, Some m) (inside i l ++ rest) = (r, w1) ->
  r <> OK /\ idle fs Q v m w1 /\ exists ch1, w1 = (A (mkO WParent true MidValue s i MAbsent) ch1, Some v, Some m).
Proof.
  intros V H L M Li S P E.
  assert (I : forall ch', length ch' = length fs ->
    (kind_at fs i = OptionalPointer -> Q i /\ exists c, nth_error ch' i = Some c /\ o_w (a_own c) = held_pointer (snd (slot_at (Some v) i))) ->
    idle fs Q v m (A (mkO WParent true MidValue s i MAbsent) ch', Some v, Some m)).
  { intros ch' L' P'. constructor; auto. destruct S as [S|S]; [now left|now right]. }
  destruct H as [->|(pf & k & r0 & Ty & R & N & ->)].
  - cbn in E. injection E as <- <-. split; [discriminate|]. split; [now apply I|now exists ch].
  - cbn [inside map under app exec] in E. unfold step in E. cbn [fst snd] in E.
    destruct (nth_error ch i) as [c|] eqn:C; [|apply nth_error_None in C; lia].
    assert (child_type (TStruct fs) i = Some (TStruct pf)) as CT by exact Ty.
    set (o := mkO WParent true MidValue s i MAbsent) in *.
    destruct (key_required repr pf c (child_value (TStruct fs) i (Some v)) (child_maybe (TStruct fs) i (A o ch) (Some v)) R) as (r1 & c1 & E1 & W1 & D1).
    assert (I1 : idle fs Q v m (A o (upd i (fun _ => c1) ch), Some v, Some m)).
    { apply I; [now rewrite upd_length|]. intros K. destruct (P K) as (q & c0 & C0 & W0). split; auto.
      exists c1. split; [rewrite upd_nth, C; reflexivity|]. rewrite W1. congruence. }
    rewrite (call_child repr fs i [] AssembleKey v (Some m) o ch c r1 c1 (TStruct pf) eq_refl V CT C E1) in E.
    destruct D1 as [->|[-> _]]; [|injection E as <- <-; split; [discriminate|]; split; [exact I1|eexists; reflexivity]].
    set (ch1 := upd i (fun _ => c1) ch) in *.
    assert (C1 : nth_error ch1 i = Some c1) by (unfold ch1; now rewrite upd_nth, C).
    destruct (unknown_key repr pf k c1 (child_value (TStruct fs) i (Some v)) (child_maybe (TStruct fs) i (A o ch1) (Some v)) N) as (r2 & E2 & D2).
    rewrite (call_child repr fs i [] (KeyAssign k) v (Some m) o ch1 c1 r2 c1 (TStruct pf) eq_refl V CT C1 E2) in E.
    assert (upd i (fun _ => c1) ch1 = ch1) as U by (apply upd_same; intros x Hx; congruence). rewrite U in E.
    destruct r2; [congruence| |]; injection E as <- <-; (split; [discriminate|]; split; [exact I1|eexists; reflexivity]).
Qed.

(** A map whose first value is hopeless: refused, and the value stays. *)
Lemma foreign_exec Q v m child k u rest w r w1 :
  (exists sl, v = VStruct sl) -> idle fs Q v m w ->
  (forall i, field_index fs k = Some i -> hopeless i (child i u) /\ (kind_at fs i = OptionalPointer -> Q i)) ->
  exec repr (TStruct fs) w (field_calls fs child (NString k, u) ++ rest) = (r, w1) ->
  r <> OK /\ idle fs Q v m w1 /\
  (w = new_builder (TStruct fs) ->
   exists st s f ch, w1 = (A (mkO WParent true st s f MAbsent) ch, Some v, Some m) /\
     match field_index fs k with None => st = MidKey | Some i => st = MidValue /\ f = i end).
Proof.
  intros V I H E. pose proof (idle_ready repr fs Q v m w I V) as Rd.
  assert (M : m = MAbsent \/ m = MValue) by (now destruct I).
  destruct w as [[x wv] mv]. assert (mv = Some m) as -> by (now inversion I).
  cbn [field_calls fst snd as_string app exec] in E. unfold step in E at 1. cbn [fst snd call act act_struct] in E.
  destruct (struct_ready repr fs x wv) as [[x1 wv1]|] eqn:Sr.
  2: { injection E as <- <-. split; [discriminate|]. split; [exact I|]. intros N. injection N as -> -> _. discriminate Sr. }
  destruct Rd as (-> & s & f & ch & -> & L & F). cbn [on_own] in E. unfold set_st in E. cbn [o_w o_m o_s o_f o_cm] in E.
  assert (Ns : (x, wv, Some m) = new_builder (TStruct fs) -> s = []).
  { intros N. injection N as -> -> _. unfold struct_ready in Sr. cbn in Sr. injection Sr as <- _ _. reflexivity. }
  unfold step in E at 1. cbn [fst snd call act act_struct a_own o_st is_midkey o_s] in E.
  destruct (field_index fs k) as [i|] eqn:X.
  2: { injection E as <- <-. split; [discriminate|]. split; [now constructor|]. intros _. now exists MidKey, s, f, ch. }
  destruct (mem_nat i s) eqn:Mi.
  { injection E as <- <-. split; [discriminate|]. split; [now constructor|]. intros N. rewrite (Ns N) in Mi. discriminate. }
  cbn [on_own] in E. unfold set_st, set_s, set_f in E. cbn [o_w o_m o_s o_f o_cm] in E.
  unfold step in E at 1. cbn [fst snd call act act_struct a_own o_st o_f] in E. unfold struct_start in E.
  cbn [on_own] in E. unfold set_st in E. cbn [a_own target o_w o_m o_s o_f o_cm on_child] in E.
  destruct (H i eq_refl) as [Hh Hq]. pose proof (field_index_lt fs k i X) as Li.
  eapply hopeless_exec with (Q := Q) in E; eauto.
  - destruct E as (r1 & I1 & ch1 & ->). split; auto. split; auto. intros _. now exists MidValue, (i :: s), i, ch1.
  - now rewrite upd_length.
  - destruct (kind_at fs i) eqn:K; [now left| |]; right; constructor; auto; unfold optional; congruence.
  - intros K. split; auto. destruct (nth_error ch i) as [c|] eqn:C; [|apply nth_error_None in C; lia].
    rewrite K. exists (on_own (fun o => set_m (set_w (match snd (slot_at (Some v) i) with VNil => WNil | u => WOwn u end) o)) c).
    rewrite upd_nth, C. split; [reflexivity|]. destruct c. cbn [on_own set_m set_w a_own o_w]. unfold set_m, set_w, held_pointer. cbn [o_w]. now destruct (snd (slot_at (Some v) i)).
Qed.

(** A map with no entries: a required field is missing. *)
Lemma empty_exec Q v m w r w1 :
  (exists sl, v = VStruct sl) -> idle fs Q v m w -> (exists i, i < length fs /\ kind_at fs i = Required) ->
  exec repr (TStruct fs) w [Do [] Finish] = (r, w1) -> r <> OK /\ idle fs Q v m w1.
Proof.
  intros V I (i & Li & Ki) E. pose proof (idle_ready repr fs Q v m w I V) as Rd.
  assert (M : m = MAbsent \/ m = MValue) by (now destruct I).
  destruct w as [[x wv] mv]. assert (mv = Some m) as -> by (now inversion I).
  cbn [exec] in E. unfold step in E. cbn [fst snd call act act_struct] in E.
  destruct (struct_ready repr fs x wv) as [[x1 wv1]|].
  2: { injection E as <- <-. split; [discriminate|exact I]. }
  destruct Rd as (-> & s & f & ch & -> & L & F). cbn [a_own o_s] in E.
  assert (sufficient fs s = false) as Sf.
  { unfold sufficient. apply Bool.not_true_iff_false. intros T. rewrite forallb_forall in T.
    specialize (T i ltac:(apply in_seq; lia)). rewrite Ki in T. unfold mem_nat in T.
    apply existsb_exists in T as (j & Hj & Ej). apply Nat.eqb_eq in Ej. subst j.
    rewrite Forall_forall in F. now apply F in Hj. }
  rewrite Sf in E. injection E as <- <-. split; [discriminate|]. now constructor.
Qed.

(** Its own type, and bytes *)
Lemma full_exec Q v v1 w : idle fs Q v MValue w -> exec repr (TStruct fs) w [Do [] (AssignTyped v1)] = (PANIC, w).
Proof. intros I. destruct I. reflexivity. Qed.
Lemma scalar_step Q v m w s : idle fs Q v m w -> step repr (TStruct fs) w ([], Assign s) = (ERR, w).
Proof. intros I. destruct I. reflexivity. Qed.
End Foreign.

(** A new builder is idle. *)
Lemma new_idle fs Q : idle fs Q (zero (TStruct fs)) MAbsent (new_builder (TStruct fs)).
Proof.
  unfold new_builder. cbn [asm0 on_own own0 set_w set_m o_w o_m o_st o_s o_f o_cm].
  match goal with |- idle _ _ _ _ (A _ ?c, _, _) => assert (length c = length fs) as L end.
  { induction fs as [|f l IH]; [reflexivity|]. cbn [length]. now f_equal. }
  apply (idle_intro fs Q _ MAbsent Initial [] 0); auto.
Qed.
