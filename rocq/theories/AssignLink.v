(** From the loops of calls to the functions of Assemble.v. *)
From Verif Require Import Base GoStr Cid Types Nodes Builder BuilderSpec BuilderFacts AssignCalls AssignFacts AssignLoops.
From Verif Require Assemble.

(** Equal but for the text of the error *)
Definition like {X} (f : X -> val) (r : res X) (r' : res val) : Prop :=
  match r with
  | Ok x => r' = Ok (f x)
  | Err _ => exists e, r' = Err e
  | Panic => r' = Panic
  | OutOfFuel => r' = OutOfFuel
  end.
Lemma like_map {X} (f : X -> val) r : like f r (map_res f r).
Proof. destruct r; cbn; eauto. Qed.
Lemma gives_like repr {X} (f : X -> val) nil t l r r' : gives repr nil t l r' -> like f r r' -> gives repr nil t l (map_res f r).
Proof.
  intros H L x wv mv R T. specialize (H x wv mv R T). destruct (exec repr t (x, wv, mv) l) as [v [[x1 wv1] mv1]].
  destruct r; cbn in *; [now subst|now destruct L as [? ->]|now subst|now subst].
Qed.

(** ** Structs *)
Lemma index_from names k : forall i, Assemble.field_index k names i = option_map (fun j => i + j) (Assemble.field_index k names 0).
Proof.
  induction names as [|n names IH]; intros i; cbn [Assemble.field_index]; [reflexivity|].
  destruct (beqb k n); [cbn; f_equal; lia|]. rewrite (IH (S i)), (IH 1). destruct (Assemble.field_index k names 0); cbn; [f_equal; lia|reflexivity].
Qed.
Lemma index_same fs k : Assemble.field_index k (map f_name fs) 0 = field_index fs k.
Proof.
  induction fs as [|f fs IH]; [reflexivity|]. cbn [map Assemble.field_index field_index].
  destruct (beqb_spec k (f_name f)) as [<-|N]; destruct (beqb_spec (f_name f) k) as [E|E]; try congruence; try (now rewrite beqb_refl in *).
  rewrite index_from, IH. reflexivity.
Qed.

Lemma slots_upd fs : forall got i f u, nth_error fs i = Some f -> length got = length fs ->
  map slot_of (combine fs (upd i (fun _ => Some u) got)) = upd i (fun _ => done_slot f u) (map slot_of (combine fs got)).
Proof.
  induction fs as [|g fs IH]; intros [|o got] i f u E L; try discriminate; [destruct i; discriminate|].
  destruct i as [|i]; cbn in *; [now injection E as ->|]. f_equal. apply IH; [assumption|lia].
Qed.

Section Struct.
Context {W : Type} (fs : list field) (slots : W -> list (maybe * val)) (set : nat -> node -> W -> res W) (res : nat -> node -> Base.res val).
Hypothesis Hset : forall i f v w, nth_error fs i = Some f ->
  match res i v with
  | Ok u => exists w', set i v w = Ok w' /\ slots w' = upd i (fun _ => done_slot f u) (slots w)
  | Err _ => exists e, set i v w = Err e
  | Panic => set i v w = Panic
  | OutOfFuel => set i v w = OutOfFuel
  end.

Lemma loop_same kvs : forall seen w got, length got = length fs -> (forall j, In j seen <-> has j got = true) ->
  slots w = map slot_of (combine fs got) ->
  match Assemble.struct_loop (map f_name fs) set kvs seen w with
  | Ok (seen', w') => exists got', fields_res fs res kvs got = Ok got' /\ length got' = length fs /\
      (forall j, In j seen' <-> has j got' = true) /\ slots w' = map slot_of (combine fs got')
  | Err _ => exists e, fields_res fs res kvs got = Err e
  | Panic => fields_res fs res kvs got = Panic
  | OutOfFuel => fields_res fs res kvs got = OutOfFuel
  end.
Proof.
  induction kvs as [|[k v] kvs IH]; intros seen w got L Hs Hw; cbn [Assemble.struct_loop fields_res]; [eauto|].
  destruct (as_string k) as [s|e| |] eqn:Es; cbn [bind]; try (destruct k; discriminate Es); [|eauto].
  rewrite index_same. destruct (field_index fs s) as [i|] eqn:Ei; [|eauto].
  assert (Em : existsb (Nat.eqb i) seen = has i got).
  { apply eq_true_iff_eq. rewrite <- Hs. apply mem_nat_iff. }
  rewrite Em. destruct (has i got) eqn:G; [eauto|].
  destruct (field_index_nth _ _ _ Ei) as (f & Ef & _). pose proof (Hset i f v w Ef) as K.
  destruct (res i v) as [u|e| |]; cbn [bind].
  - destruct K as (w' & -> & Sw). cbn [bind]. apply IH.
    + now rewrite upd_length.
    + intros j. cbn [In]. rewrite Hs, (has_upd i j u got) by (rewrite L; eapply nth_lt; eassumption). intuition.
    + rewrite Sw, Hw. symmetry. now apply slots_upd.
  - destruct K as (e' & ->). cbn [bind]. eauto.
  - rewrite K. reflexivity.
  - rewrite K. reflexivity.
Qed.

Definition required_at : list nat := filter (fun i => match kind_at fs i with Required => true | _ => false end) (seq 0 (length fs)).

Lemma missing_complete seen got : length got = length fs -> (forall j, In j seen <-> has j got = true) ->
  match Assemble.missing_fields (map f_name fs) required_at seen with [] => true | _ => false end = complete fs got.
Proof.
  intros L Hs. apply eq_true_iff_eq. rewrite (complete_iff fs got L). unfold Assemble.missing_fields.
  assert (E : forall (l : list nat), match map (fun i => nth i (map f_name fs) []) l with [] => true | _ => false end = true <-> l = []) by (intros []; cbn; split; congruence).
  rewrite E. split.
  - intros N j f Ej K. apply Hs. destruct (existsb (Nat.eqb j) seen) eqn:X; [now apply mem_nat_iff|].
    assert (In j []); [|contradiction]. rewrite <- N. apply filter_In. split; [|now rewrite X].
    apply filter_In. split; [|now rewrite (kind_at_nth _ _ _ Ej), K]. apply in_seq. apply nth_lt in Ej. lia.
  - intros A. destruct (filter _ required_at) as [|j l] eqn:F; [reflexivity|]. exfalso.
    assert (I : In j (j :: l)) by (now left). rewrite <- F in I. apply filter_In in I as [I X]. apply filter_In in I as [I K].
    apply in_seq in I. destruct (nth_len fs j ltac:(lia)) as [f Ef]. rewrite (kind_at_nth _ _ _ Ef) in K.
    destruct (f_kind f) eqn:Kf; try discriminate. specialize (A j f Ef Kf). apply Hs in A.
    apply mem_nat_iff in A. unfold mem_nat in A. rewrite A in X. discriminate.
Qed.

Lemma struct_like kvs w0 : slots w0 = map slot_of (combine fs (map (fun _ => None) fs)) ->
  like (fun w => VStruct (slots w)) (Assemble.struct_assign (map f_name fs) required_at set kvs w0) (struct_res fs res None (Some kvs)).
Proof.
  intros Z. unfold Assemble.struct_assign, struct_res.
  pose proof (loop_same kvs [] w0 (map (fun _ => None) fs)) as K. rewrite map_length in K. specialize (K eq_refl).
  assert (H0 : forall j, In j [] <-> has j (map (fun _ : field => @None val) fs) = true).
  { intros j. split; [contradiction|]. unfold has. rewrite nth_error_map. destruct (nth_error fs j); discriminate. }
  specialize (K H0 Z). destruct (Assemble.struct_loop _ set kvs [] w0) as [[seen w]|e| |]; cbn [bind].
  - destruct K as (got & -> & L & Hs & Sw). cbn [bind]. rewrite <- (missing_complete seen got L Hs).
    destruct (Assemble.missing_fields _ _ _); cbn; [unfold struct_value; now rewrite Sw|eauto].
  - destruct K as (e' & ->). cbn. eauto.
  - rewrite K. reflexivity.
  - rewrite K. reflexivity.
Qed.
End Struct.

(** ** The types *)
Lemma link_gives repr nil own v : (forall l, own v = Some l -> as_link v = Ok l) -> gives repr nil t_link (any_link_calls own v) (map_res link_val (as_link v)).
Proof.
  intros H. unfold any_link_calls. destruct (is_null v) eqn:N; [destruct v; try discriminate; apply null_gives; [exact Logic.I|reflexivity]|].
  destruct (own v) as [l|].
  - rewrite (H l eq_refl). apply typed_gives; [exact Logic.I|]. exists (SLink l). split; reflexivity.
  - destruct (as_link v) as [l|e| |] eqn:E; [now apply scalar_gives|apply fail_gives|destruct v; discriminate E|destruct v; discriminate E].
Qed.
Lemma text_gives repr nil own v : (forall l, own v = Some l -> as_string v = Ok l) -> gives repr nil t_string (text_calls own v) (map_res text_val (as_string v)).
Proof.
  intros H. unfold text_calls. destruct (is_null v) eqn:N; [destruct v; try discriminate; apply null_gives; [exact Logic.I|reflexivity]|].
  destruct (own v) as [l|].
  - rewrite (H l eq_refl). apply typed_gives; [exact Logic.I|]. exists (SString l). split; reflexivity.
  - destruct (as_string v) as [l|e| |] eqn:E; [now apply scalar_gives|apply fail_gives|destruct v; discriminate E|destruct v; discriminate E].
Qed.
Lemma blob_gives repr nil v : gives repr nil t_blob (blob_calls v) (map_res (fun s => VScalar (SBytes s)) (as_bytes v)).
Proof.
  unfold blob_calls. destruct v; cbn [is_null as_bytes map_res bind]; try (apply fail_gives);
    try (apply null_gives; [exact Logic.I|reflexivity]); try (apply scalar_gives; reflexivity).
  apply typed_gives; [exact Logic.I|]. exists (SBytes s). split; reflexivity.
Qed.

Lemma schema_pointers : pointers_to_structs t_person /\ pointers_to_structs t_tag /\ pointers_to_structs t_commit /\ pointers_to_structs t_entry.
Proof. cbn. repeat match goal with |- _ /\ _ => split | |- True => exact Logic.I | |- _ -> _ => intros ?; try discriminate; eexists; reflexivity end. Qed.

Ltac same_link u := let l := fresh in let H := fresh in intros l H; destruct u; try discriminate H; injection H as <-; reflexivity.
Ltac own_ok := let u := fresh in let E := fresh in intros u E; injection E as <-; discriminate.

(** The slots of each value *)
Definition slots_val (v : val) : list (maybe * val) := match v with VStruct sl => sl | _ => [] end.

Ltac set_field := match goal with E : nth_error _ ?i = Some ?f |- _ =>
  repeat (destruct i as [|i]; [cbn in E; injection E as <-|]); [..|destruct i; discriminate] end.
Ltac by_reader r := destruct r eqn:?; cbn [bind map_res]; [eexists; split; reflexivity|eexists; reflexivity|try reflexivity|try reflexivity].

Lemma as_string_err v : match as_string v with Ok _ | Err _ => True | _ => False end.
Proof. destruct v; exact Logic.I. Qed.
Lemma as_link_err v : match as_link v with Ok _ | Err _ => True | _ => False end.
Proof. destruct v; exact Logic.I. Qed.

Lemma person_gives repr v : gives repr false t_person (person_calls v) (map_res person_val (Assemble.assign_person false v)).
Proof.
  destruct schema_pointers as (P & _).
  pose (rs := fun (i : nat) (v : node) => map_res text_val (as_string v)).
  assert (G : gives repr false t_person (person_calls v) (struct_res (fields_of t_person) rs (match v with NPerson p => Some (person_val p) | _ => None end) (map_entries v))).
  { apply (struct_gives repr (fields_of t_person) (fun _ => string_calls) rs P) with (own := fun v => match v with NPerson p => Some (person_val p) | _ => None end).
    - intros i f u E. set_field; apply string_gives.
    - destruct v; try discriminate. own_ok.
    - destruct v; try discriminate; reflexivity. }
  assert (L : forall kvs, like person_val (Assemble.struct_assign person_fields [0; 1; 2; 3] Assemble.set_person kvs zero_person) (struct_res (fields_of t_person) rs None (Some kvs))).
  { intros kvs. apply (struct_like (fields_of t_person) (fun p => slots_val (person_val p)) Assemble.set_person rs); [|reflexivity].
    intros i f u w E. unfold rs, Assemble.set_person, Assemble.assign_string. pose proof (as_string_err u) as A.
    destruct (as_string u) as [s|e| |]; try contradiction; cbn [map_res bind]; [|eauto].
    set_field; (eexists; split; [reflexivity|]); reflexivity. }
  apply (gives_like repr person_val false _ _ _ _ G). unfold Assemble.assign_person.
  destruct v; cbn [map_entries]; try apply L; cbn; eauto.
Qed.

Lemma nil_person_gives repr v : gives repr true t_person (person_calls v) (map_res person_val (Assemble.assign_person true v)).
Proof.
  destruct schema_pointers as (P & _).
  assert (G : gives repr true t_person (person_calls v) (nil_res (fields_of t_person) (match v with NPerson p => Some (person_val p) | _ => None end) (map_entries v))).
  { apply (nil_gives repr (fields_of t_person) (fun v => match v with NPerson p => Some (person_val p) | _ => None end)).
    - exact P.
    - reflexivity.
    - destruct v; try discriminate. own_ok.
    - destruct v; try discriminate; reflexivity. }
  assert (L : forall kvs, like person_val (Assemble.struct_assign person_fields [0; 1; 2; 3] (fun _ _ _ => Panic) kvs zero_person) (nil_res (fields_of t_person) None (Some kvs))).
  { intros [|[k u] kvs]; [cbn; eauto|]. unfold Assemble.struct_assign. cbn [Assemble.struct_loop nil_res].
    pose proof (as_string_err k) as A. destruct (as_string k) as [s|e| |]; try contradiction; cbn [bind]; [|cbn; eauto].
    change person_fields with (map f_name (fields_of t_person)). rewrite index_same.
    destruct (field_index (fields_of t_person) s); cbn [existsb bind like]; eauto. }
  apply (gives_like repr person_val true _ _ _ _ G). unfold Assemble.assign_person.
  destruct v; cbn [map_entries]; try apply L; cbn; eauto.
Qed.

Lemma items_like {X} (f : X -> val) (one : node -> res X) (res : node -> Base.res val) l : (forall v, res v = map_res f (one v)) ->
  like (fun l => VList (map f l)) (Assemble.assign_items one l) (map_res VList (items_res res l)).
Proof.
  intros H. induction l as [|v l IH]; cbn [Assemble.assign_items items_res]; [reflexivity|].
  rewrite H. destruct (one v); cbn [map_res bind]; try (cbn; eauto; fail).
  destruct (Assemble.assign_items one l); cbn [bind like] in *; destruct (items_res res l); cbn in *; try congruence; try (destruct IH; congruence); eauto.
Qed.

Lemma list_like repr {X} (f : X -> val) e child (one : node -> res X) own v :
  pointers_to_structs (TList e) -> (forall v, gives repr false e (child v) (map_res f (one v))) ->
  (forall u, own v = Some u -> exists l, u = VList (map f l)) -> (is_null v = true -> own v = None) ->
  forall r, match own v with Some u => exists l, r = Ok l /\ u = VList (map f l) | None => r = Assemble.assign_list one v end ->
  gives repr false (TList e) (list_calls own child v) (map_res (fun l => VList (map f l)) r).
Proof.
  intros P H O N r R. eapply gives_like.
  - apply (list_gives repr e child (fun v => map_res f (one v)) P H own v); [|exact N].
    intros u E. destruct (O u E) as [l ->]. discriminate.
  - unfold list_res. destruct (own v) as [u|].
    + destruct R as (l & -> & ->). reflexivity.
    + subst r. unfold Assemble.assign_list. destruct (list_items v) as [l|]; [|cbn; eauto]. now apply items_like.
Qed.

Definition tag_child (i : nat) : node -> list action := match i with 0 => link_calls | 3 => person_calls | _ => string_calls end.
Definition tag_rs (i : nat) (v : node) : res val :=
  match i with
  | 0 => map_res link_val (as_link v)
  | 3 => map_res person_val (Assemble.assign_person false v)
  | _ => map_res text_val (as_string v)
  end.
Lemma tag_child_gives repr i f v : nth_error (fields_of t_tag) i = Some f ->
  gives repr (is_pointer (f_kind f)) (f_type f) (tag_child i v) (tag_rs i v).
Proof. intros E. set_field; try apply string_gives; [apply link_gives; same_link v|apply person_gives]. Qed.
Lemma tag_like kvs : like tag_val (Assemble.struct_assign tag_fields [0; 1; 2; 3; 4] Assemble.set_tag kvs zero_tag) (struct_res (fields_of t_tag) tag_rs None (Some kvs)).
Proof.
  apply (struct_like (fields_of t_tag) (fun p => slots_val (tag_val p)) Assemble.set_tag tag_rs); [|reflexivity].
  intros i f u w E. unfold tag_rs, Assemble.set_tag, Assemble.assign_string, Assemble.assign_link. set_field.
  - destruct (as_link u); cbn [map_res bind]; [eexists; split; reflexivity|eauto|reflexivity|reflexivity].
  - destruct (as_string u); cbn [map_res bind]; [eexists; split; reflexivity|eauto|reflexivity|reflexivity].
  - destruct (as_string u); cbn [map_res bind]; [eexists; split; reflexivity|eauto|reflexivity|reflexivity].
  - destruct (Assemble.assign_person false u); cbn [map_res bind]; [eexists; split; reflexivity|eauto|reflexivity|reflexivity].
  - destruct (as_string u); cbn [map_res bind]; [eexists; split; reflexivity|eauto|reflexivity|reflexivity].
Qed.
Lemma tag_gives repr v : gives repr false t_tag (tag_calls v) (map_res tag_val (Assemble.assign_tag v)).
Proof.
  destruct schema_pointers as (_ & P & _).
  assert (G : gives repr false t_tag (tag_calls v) (struct_res (fields_of t_tag) tag_rs (match v with NTag p => Some (tag_val p) | _ => None end) (map_entries v))).
  { apply (struct_gives repr (fields_of t_tag) tag_child tag_rs P) with (own := fun v => match v with NTag p => Some (tag_val p) | _ => None end).
    - intros i f u E. now apply tag_child_gives.
    - destruct v; try discriminate. own_ok.
    - destruct v; try discriminate; reflexivity. }
  apply (gives_like repr tag_val false _ _ _ _ G). unfold Assemble.assign_tag.
  destruct v; cbn [map_entries]; try apply tag_like; cbn; eauto.
Qed.

Lemma entry_gives repr v : gives repr false t_entry (entry_calls v) (map_res entry_val (Assemble.assign_entry v)).
Proof.
  destruct schema_pointers as (_ & _ & _ & P).
  pose (rs := fun (i : nat) (v : node) => match i with 0 => map_res text_val (as_string v) | _ => map_res link_val (as_link v) end).
  assert (G : gives repr false t_entry (entry_calls v) (struct_res (fields_of t_entry) rs (match v with NEntry p => Some (entry_val p) | _ => None end) (map_entries v))).
  { apply (struct_gives repr (fields_of t_entry) (fun i => match i with 0 => string_calls | _ => link_calls end) rs P) with (own := fun v => match v with NEntry p => Some (entry_val p) | _ => None end).
    - intros i f u E. set_field; [apply string_gives|apply link_gives; same_link u].
    - destruct v; try discriminate. own_ok.
    - destruct v; try discriminate; reflexivity. }
  assert (L : forall kvs, like entry_val (Assemble.struct_assign entry_fields [0; 1] Assemble.set_entry kvs zero_entry) (struct_res (fields_of t_entry) rs None (Some kvs))).
  { intros kvs. apply (struct_like (fields_of t_entry) (fun p => slots_val (entry_val p)) Assemble.set_entry rs); [|reflexivity].
    intros i f u w E. unfold rs, Assemble.set_entry, Assemble.assign_string, Assemble.assign_link. pose proof (as_string_err u) as A. pose proof (as_link_err u) as B.
    set_field.
    - destruct (as_string u) as [s|e| |]; try contradiction; cbn [map_res bind]; [eexists; split; reflexivity|eauto].
    - destruct (as_link u) as [s|e| |]; try contradiction; cbn [map_res bind]; [eexists; split; reflexivity|eauto]. }
  apply (gives_like repr entry_val false _ _ _ _ G). unfold Assemble.assign_entry.
  destruct v; cbn [map_entries]; try apply L; cbn; eauto.
Qed.

Lemma links_gives repr v : gives repr false (TList t_link) (commit_links_calls v) (map_res (fun l => VList (map link_val l)) (Assemble.assign_link_list v)).
Proof.
  apply (list_like repr link_val t_link commit_link_calls as_link); try exact Logic.I.
  - intros u. apply link_gives. same_link u.
  - destruct v; try discriminate. intros u [= <-]. eauto.
  - destruct v; try discriminate; reflexivity.
  - destruct v; cbn; eauto.
Qed.
Lemma strings_gives repr v : gives repr false (TList t_string) (strings_calls v) (map_res (fun l => VList (map text_val l)) (Assemble.assign_string_list v)).
Proof.
  apply (list_like repr text_val t_string string_calls as_string); try exact Logic.I.
  - intros u. apply string_gives.
  - destruct v; try discriminate. intros u [= <-]. eauto.
  - destruct v; try discriminate; reflexivity.
  - destruct v; cbn; eauto.
Qed.
Lemma tags_gives repr v : gives repr false (TList t_tag) (tags_calls v) (map_res (fun l => VList (map tag_val l)) (Assemble.assign_tag_list v)).
Proof.
  apply (list_like repr tag_val t_tag tag_calls Assemble.assign_tag); [apply schema_pointers|..].
  - intros u. apply tag_gives.
  - destruct v; try discriminate. intros u [= <-]. eauto.
  - destruct v; try discriminate; reflexivity.
  - destruct v; cbn; eauto.
Qed.

Definition commit_child (i : nat) : node -> list action :=
  match i with
  | 0 => tree_link_calls | 1 => commit_links_calls | 2 => string_calls
  | 3 | 4 => person_calls
  | 5 => string_calls | 6 => gpgsig_calls | 7 => tags_calls | _ => strings_calls
  end.
Definition commit_rs (i : nat) (v : node) : res val :=
  match i with
  | 0 => map_res link_val (as_link v)
  | 1 => map_res (fun l => VList (map link_val l)) (Assemble.assign_link_list v)
  | 3 | 4 => map_res person_val (Assemble.assign_person true v)
  | 7 => map_res (fun l => VList (map tag_val l)) (Assemble.assign_tag_list v)
  | 8 => map_res (fun l => VList (map text_val l)) (Assemble.assign_string_list v)
  | _ => map_res text_val (as_string v)
  end.
Lemma commit_child_gives repr i f v : nth_error (fields_of t_commit) i = Some f ->
  gives repr (is_pointer (f_kind f)) (f_type f) (commit_child i v) (commit_rs i v).
Proof.
  intros E. set_field.
  - apply link_gives. same_link v.
  - apply links_gives.
  - apply string_gives.
  - apply nil_person_gives.
  - apply nil_person_gives.
  - apply string_gives.
  - apply text_gives. same_link v.
  - apply tags_gives.
  - apply strings_gives.
Qed.
Lemma commit_like kvs : like commit_val (Assemble.struct_assign commit_fields [0; 1; 2; 7; 8] Assemble.set_commit kvs zero_commit) (struct_res (fields_of t_commit) commit_rs None (Some kvs)).
Proof.
  apply (struct_like (fields_of t_commit) (fun p => slots_val (commit_val p)) Assemble.set_commit commit_rs); [|reflexivity].
  intros i f u w E. unfold commit_rs, Assemble.set_commit, Assemble.assign_string, Assemble.assign_link. set_field.
  - destruct (as_link u); cbn [map_res bind]; [eexists; split; reflexivity|eauto|reflexivity|reflexivity].
  - destruct (Assemble.assign_link_list u); cbn [map_res bind]; [eexists; split; reflexivity|eauto|reflexivity|reflexivity].
  - destruct (as_string u); cbn [map_res bind]; [eexists; split; reflexivity|eauto|reflexivity|reflexivity].
  - destruct (Assemble.assign_person true u); cbn [map_res bind]; [eexists; split; reflexivity|eauto|reflexivity|reflexivity].
  - destruct (Assemble.assign_person true u); cbn [map_res bind]; [eexists; split; reflexivity|eauto|reflexivity|reflexivity].
  - destruct (as_string u); cbn [map_res bind]; [eexists; split; reflexivity|eauto|reflexivity|reflexivity].
  - destruct (as_string u); cbn [map_res bind]; [eexists; split; reflexivity|eauto|reflexivity|reflexivity].
  - destruct (Assemble.assign_tag_list u); cbn [map_res bind]; [eexists; split; reflexivity|eauto|reflexivity|reflexivity].
  - destruct (Assemble.assign_string_list u); cbn [map_res bind]; [eexists; split; reflexivity|eauto|reflexivity|reflexivity].
Qed.
Lemma commit_gives repr v : gives repr false t_commit (commit_calls v) (map_res commit_val (Assemble.assign_commit v)).
Proof.
  destruct schema_pointers as (_ & _ & P & _).
  assert (G : gives repr false t_commit (commit_calls v) (struct_res (fields_of t_commit) commit_rs (match v with NCommit p => Some (commit_val p) | _ => None end) (map_entries v))).
  { apply (struct_gives repr (fields_of t_commit) commit_child commit_rs P) with (own := fun v => match v with NCommit p => Some (commit_val p) | _ => None end).
    - intros i f u E. now apply commit_child_gives.
    - destruct v; try discriminate. own_ok.
    - destruct v; try discriminate; reflexivity. }
  apply (gives_like repr commit_val false _ _ _ _ G). unfold Assemble.assign_commit.
  destruct v; cbn [map_entries]; try apply commit_like; cbn; eauto.
Qed.
