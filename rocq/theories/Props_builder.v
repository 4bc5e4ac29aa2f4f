(** C37: builders, call by call.

    [t] ranges over every schema of scalars, lists, trees and structs, [repr] over the
    type-level and the representation builders, [cs] over every sequence of calls. *)
From Verif Require Import Base Cid Builder BuilderSpec BuilderFacts BuilderRuns.

Ltac phases E repr t cs P H :=
  let N := fresh "N" in pose proof (new_run repr t cs P H) as N; rewrite E in N.

(** The documented order succeeds at every call and builds the value *)
Theorem documented_calls_build_the_value repr dup t v cs : pointers_to_structs t -> documented dup t v cs ->
  exists w, run repr t (new_builder t) cs = (map (fun _ => OK) cs, w) /\ build w = Some v.
Proof.
  intros P D. destruct (documented_accepted dup t v cs D) as (fin & Ha & Es).
  pose proof (new_run repr t cs P Ha) as N. destruct (run repr t (new_builder t) cs) as [vs w]. rewrite Es in N. cbn [fst snd content] in N.
  destruct N as (-> & N & _). eauto.
Qed.
Print Assumptions documented_calls_build_the_value.

(** The other way round: whatever a client calls on the handles it holds, and however
    many calls were refused, if there is a value in the end then the calls that succeeded
    are the documented ones for that value. *)
Theorem only_documented_calls_build repr t v cs vs w : pointers_to_structs t -> all_held t Fresh cs ->
  run repr t (new_builder t) cs = (vs, w) -> build w = Some v -> documented true t v (accepted cs vs).
Proof.
  intros P H E B. phases E repr t cs P H. destruct N as (-> & N & _). rewrite B in N.
  pose proof (built_run t cs Fresh [] H eq_refl) as K. cbn [app] in K.
  destruct (snd (spec_run t Fresh cs)); try discriminate. cbn [content] in N. injection N as <-. exact K.
Qed.
Print Assumptions only_documented_calls_build.

(** Every answer, OK, error or panic, is the one of the phase the builder is in. *)
Theorem answers_follow_the_phases repr t cs : pointers_to_structs t -> all_held t Fresh cs ->
  fst (run repr t (new_builder t) cs) = fst (spec_run t Fresh cs).
Proof.
  intros P H. pose proof (new_run repr t cs P H) as N. destruct (run repr t (new_builder t) cs) as [vs w]. apply N.
Qed.
Print Assumptions answers_follow_the_phases.

(** Calls that panic leave the builder exactly as it was. *)
Theorem panics_change_nothing repr t cs c vs w w1 : pointers_to_structs t -> all_held t Fresh (cs ++ [c]) ->
  run repr t (new_builder t) cs = (vs, w) -> step repr t w c = (PANIC, w1) -> w1 = w.
Proof.
  intros P H E S. apply all_held_app in H as [H [Hc _]]. phases E repr t cs P H. destruct N as (_ & _ & R).
  destruct w as [[x wv] mv]. destruct c as [p m]. unfold step in S. cbn [fst snd] in *.
  pose proof (call_follows repr p t m x wv mv _ P R Hc) as F. rewrite S in F. destruct w1 as [[x1 wv1] mv1]. cbn [follows] in F.
  now apply F.
Qed.
Print Assumptions panics_change_nothing.

(** Calls that are refused, by an error or a panic, leave no trace: the calls after them
    get the same answers and build the same value as if the refused call had not been made. *)
Theorem refused_calls_leave_no_trace repr t cs c rest vs w r w1 : pointers_to_structs t ->
  all_held t Fresh (cs ++ c :: rest) ->
  run repr t (new_builder t) cs = (vs, w) -> step repr t w c = (r, w1) -> r <> OK ->
  all_held t Fresh (cs ++ rest) /\
  fst (run repr t w1 rest) = fst (run repr t w rest) /\
  build (snd (run repr t w1 rest)) = build (snd (run repr t w rest)).
Proof.
  intros P H E S Nr. apply all_held_app in H as [H [Hc Hr]]. phases E repr t cs P H. destruct N as (_ & _ & R).
  destruct w as [[x wv] mv]. destruct c as [p m]. unfold step in S. cbn [fst snd] in *.
  pose proof (call_follows repr p t m x wv mv _ P R Hc) as F. rewrite S in F. destruct w1 as [[x1 wv1] mv1].
  set (b := snd (spec_run t Fresh cs)) in *.
  destruct (spec t p m b) as [r' b1] eqn:Es. cbn [follows fst snd] in F, Hr. destruct F as (-> & R1 & _).
  pose proof (rejected_same p t m b r' b1 Es Nr) as Sb.
  destruct (same_run t rest b b1 Sb Hr) as (S1 & S2 & S3).
  split; [apply all_held_app; split; assumption|].
  pose proof (run_follows repr t P rest b x wv mv R S1) as F1. pose proof (run_follows repr t P rest b1 x1 wv1 mv1 R1 Hr) as F2.
  destruct (run repr t (x, wv, mv) rest) as [us1 [[y1 wy1] my1]]. destruct (run repr t (x1, wv1, mv1) rest) as [us2 [[y2 wy2] my2]].
  cbn [fst snd]. destruct F1 as [-> F1]. destruct F2 as [-> F2]. split; [congruence|].
  rewrite (rep_build repr t _ _ _ _ F1), (rep_build repr t _ _ _ _ F2). congruence.
Qed.
Print Assumptions refused_calls_leave_no_trace.

(** A finished builder refuses every call and keeps its value. *)
Theorem finished_builders_refuse_everything repr t cs rest vs w v : pointers_to_structs t ->
  all_held t Fresh (cs ++ rest) -> run repr t (new_builder t) cs = (vs, w) -> build w = Some v ->
  Forall (fun r => r <> OK) (fst (run repr t w rest)) /\ build (snd (run repr t w rest)) = Some v.
Proof.
  intros P H E B. apply all_held_app in H as [H Hr]. phases E repr t cs P H. destruct N as (_ & N & R). rewrite B in N.
  destruct w as [[x wv] mv]. destruct (snd (spec_run t Fresh cs)) as [|u fin| | | | | | | | |]; try discriminate.
  cbn [content] in N. injection N as <-.
  destruct (full_run t v fin rest Hr) as [F1 F2]. pose proof (run_follows repr t P rest _ x wv mv R Hr) as F.
  destruct (run repr t (x, wv, mv) rest) as [us [[x1 wv1] mv1]]. cbn [fst snd] in *. destruct F as [-> F]. split; [assumption|].
  rewrite (rep_build repr t _ _ _ _ F), F2. reflexivity.
Qed.
Print Assumptions finished_builders_refuse_everything.

(** ** The schema *)
Lemma schema_points_to_structs :
  pointers_to_structs t_commit /\ pointers_to_structs t_tag /\ pointers_to_structs t_tree /\ pointers_to_structs t_person.
Proof. cbn. unfold f_kind. cbn. repeat split; try discriminate; eexists; reflexivity. Qed.

Definition a_link : scalar := SLink (LCid (bs "some hash")).
Definition str (s : bytes) : meth := Assign (SString s).
Definition person_calls : list (list nat * meth) :=
  [here BeginMap;
   here (AssembleEntry (bs "name")); ([3], str (bs "A"));
   here AssembleKey; here (KeyAssign (bs "email")); here AssembleValue; ([2], str (bs "a@b"));
   here (AssembleEntry (bs "date")); ([0], str (bs "12"));
   here (AssembleEntry (bs "timezone")); ([1], str (bs "+0000")); here Finish].
Definition some_person : val :=
  VStruct [(MAbsent, VScalar (SString (bs "12"))); (MAbsent, VScalar (SString (bs "+0000")));
           (MAbsent, VScalar (SString (bs "a@b"))); (MAbsent, VScalar (SString (bs "A")))].
Definition tag_calls : list (list nat * meth) :=
  [here BeginMap; here (AssembleEntry (bs "object")); ([0], Assign a_link);
   here (AssembleEntry (bs "type")); ([1], str (bs "commit"));
   here (AssembleEntry (bs "tag")); ([2], str (bs "v1"));
   here (AssembleEntry (bs "tagger"))] ++ below 3 person_calls ++
  [here (AssembleEntry (bs "message")); ([4], str (bs "m")); here Finish].
Definition a_tag (m : bytes) : val :=
  VStruct [(MAbsent, VScalar a_link); (MAbsent, VScalar (SString (bs "commit"))); (MAbsent, VScalar (SString (bs "v1")));
           (MAbsent, some_person); (MAbsent, VScalar (SString m))].

(** Running shows the hypotheses can be met: a tag with its tagger field by field *)
Lemma by_entry_field (dup : bool) fs got got' i f v vc rest :
  nth_error fs i = Some f -> field_index fs (f_name f) = Some i -> has i got = false -> documented dup (f_type f) v vc ->
  d_fields dup fs (upd i (fun _ => Some v) got) got' rest ->
  d_fields dup fs got got' (here (AssembleEntry (f_name f)) :: below i vc ++ rest).
Proof. intros. now apply (d_fields_cons dup fs got got' i f (f_name f) v [here (AssembleEntry (f_name f))] vc rest); try assumption; constructor. Qed.
Lemma by_key_field (dup : bool) fs got got' i f v vc rest :
  nth_error fs i = Some f -> field_index fs (f_name f) = Some i -> has i got = false -> documented dup (f_type f) v vc ->
  d_fields dup fs (upd i (fun _ => Some v) got) got' rest ->
  d_fields dup fs got got' (here AssembleKey :: here (KeyAssign (f_name f)) :: here AssembleValue :: below i vc ++ rest).
Proof.
  intros. now apply (d_fields_cons dup fs got got' i f (f_name f) v [here AssembleKey; here (KeyAssign (f_name f)); here AssembleValue] vc rest); try assumption; constructor.
Qed.

Example person_calls_documented : documented false t_person some_person person_calls.
Proof.
  change some_person with (struct_value [required (bs "date") t_string; required (bs "timezone") t_string; required (bs "email") t_string; required (bs "name") t_string]
    [Some (VScalar (SString (bs "12"))); Some (VScalar (SString (bs "+0000"))); Some (VScalar (SString (bs "a@b"))); Some (VScalar (SString (bs "A")))]).
  apply (d_struct false _ _ [here (AssembleEntry (bs "name")); ([3], str (bs "A"));
   here AssembleKey; here (KeyAssign (bs "email")); here AssembleValue; ([2], str (bs "a@b"));
   here (AssembleEntry (bs "date")); ([0], str (bs "12"));
   here (AssembleEntry (bs "timezone")); ([1], str (bs "+0000"))]); [|reflexivity].
  apply (by_entry_field false _ _ _ 3 (required (bs "name") t_string) (VScalar (SString (bs "A"))) [here (str (bs "A"))]); try reflexivity; [now constructor|].
  apply (by_key_field false _ _ _ 2 (required (bs "email") t_string) (VScalar (SString (bs "a@b"))) [here (str (bs "a@b"))]); try reflexivity; [now constructor|].
  apply (by_entry_field false _ _ _ 0 (required (bs "date") t_string) (VScalar (SString (bs "12"))) [here (str (bs "12"))]); try reflexivity; [now constructor|].
  apply (by_entry_field false _ _ _ 1 (required (bs "timezone") t_string) (VScalar (SString (bs "+0000"))) [here (str (bs "+0000"))]); try reflexivity; [now constructor|].
  apply d_fields_nil.
Qed.
Example tag_calls_build : let '(vs, w) := run false t_tag (new_builder t_tag) tag_calls in
  vs = map (fun _ => OK) tag_calls /\ build w = Some (a_tag (bs "m")).
Proof. vm_compute. split; reflexivity. Qed.

(** Refused calls in between: an unknown field, a second BeginMap, a field twice, a value
    without a key, a string for a link, a Finish too early, calls after the end *)
Definition clumsy_person_calls : list (list nat * meth) :=
  [here (BeginList 0); here BeginMap; here BeginMap; here AssembleValue; here (AssembleEntry (bs "nobody"));
   here (AssembleEntry (bs "name")); here Finish; ([3], Assign a_link); ([3], str (bs "A")); ([3], str (bs "B"));
   here AssembleKey; here AssembleKey; here (KeyAssign (bs "name")); here (KeyAssign (bs "email")); here AssembleValue; ([2], str (bs "a@b"));
   here (AssembleEntry (bs "date")); ([0], str (bs "12")); here (AssembleEntry (bs "date")); here Finish;
   here (AssembleEntry (bs "timezone")); ([1], str (bs "+0000")); here Finish;
   here Finish; here (AssembleEntry (bs "name")); here BeginMap; here (AssignTyped (VStruct []))].
Ltac holding := repeat first
  [ exact I | reflexivity | discriminate | apply conj | intros; discriminate
  | left; eexists; reflexivity | right; eexists; reflexivity | eexists; reflexivity ].
Example clumsy_calls_held : all_held t_person Fresh clumsy_person_calls.
Proof. vm_compute. holding. Qed.
Example clumsy_calls_build : let '(vs, w) := run true t_person (new_builder t_person) clumsy_person_calls in
  vs = [ERR; OK; PANIC; PANIC; ERR; OK; PANIC; ERR; OK; PANIC; OK; PANIC; ERR; OK; OK; OK; OK; OK; ERR; ERR; OK; OK; OK; PANIC; PANIC; PANIC; PANIC] /\
  build w = Some some_person /\ accepted clumsy_person_calls vs = person_calls.
Proof. vm_compute. repeat split. Qed.

(** Trees and lists *)
Definition entry_calls : list (list nat * meth) :=
  [here BeginMap; here (AssembleEntry (bs "mode")); ([0], str (bs "100644")); here (AssembleEntry (bs "hash")); ([1], Assign a_link); here Finish].
Definition tree_calls : list (list nat * meth) :=
  [here BeginMap; here (AssembleEntry (bs "a"))] ++ below 1 entry_calls ++ [here (AssembleEntry (bs "a")); here AssembleKey; here AssembleValue; ([0], str (bs "b")); here AssembleValue]
  ++ below 1 entry_calls ++ [here Finish; here (AssembleEntry (bs "c"))].
Definition an_entry : val := VStruct [(MAbsent, VScalar (SString (bs "100644"))); (MAbsent, VScalar a_link)].
Example tree_calls_held : all_held t_tree Fresh tree_calls.
Proof. vm_compute. holding. Qed.
Example tree_calls_build : let '(vs, w) := run false t_tree (new_builder t_tree) tree_calls in
  accepted tree_calls vs = [here BeginMap; here (AssembleEntry (bs "a"))] ++ below 1 entry_calls ++ [here AssembleKey; ([0], str (bs "b")); here AssembleValue] ++ below 1 entry_calls ++ [here Finish] /\
  build w = Some (tree_value [(bs "a", an_entry); (bs "b", an_entry)]).
Proof. vm_compute. repeat split. Qed.

(** ** What is not so

    AssignNode of a map of another type does not call BeginMap and does not look at
    [*na.m] (5196-5233): on a builder that holds a whole value it starts afresh.  The
    calls it makes, one by one: *)
Definition generic_tag (m : bytes) : list (list nat * meth) :=
  [here AssembleKey; here (KeyAssign (bs "object")); here AssembleValue; ([0], Assign a_link);
   here AssembleKey; here (KeyAssign (bs "type")); here AssembleValue; ([1], str (bs "commit"));
   here AssembleKey; here (KeyAssign (bs "tag")); here AssembleValue; ([2], str (bs "v1"));
   here AssembleKey; here (KeyAssign (bs "tagger")); here AssembleValue; ([3], AssignTyped some_person);
   here AssembleKey; here (KeyAssign (bs "message")); here AssembleValue; ([4], str m); here Finish].

Theorem finished_builders_refuse_everything_refuted : forall repr : bool, exists v v1 w w1, v <> v1 /\
  run repr t_tag (new_builder t_tag) [here (AssignTyped v)] = ([OK], w) /\ build w = Some v /\
  run repr t_tag w (generic_tag (bs "other")) = (map (fun _ => OK) (generic_tag (bs "other")), w1) /\ build w1 = Some v1.
Proof.
  intros repr. exists (a_tag (bs "m")), (a_tag (bs "other")). destruct repr; do 2 eexists; (split; [discriminate|]);
    (split; [vm_compute; reflexivity|]); (split; [vm_compute; reflexivity|]); (split; [vm_compute; reflexivity|]); vm_compute; reflexivity.
Qed.
Print Assumptions finished_builders_refuse_everything_refuted.

(** In the middle of a struct the same AssignNode does not panic but goes on from there:
    the struct is a mix of both. *)
Definition rest_of_person : list (list nat * meth) :=
  [here AssembleKey; here (KeyAssign (bs "email")); here AssembleValue; ([2], str (bs "a@b"));
   here AssembleKey; here (KeyAssign (bs "date")); here AssembleValue; ([0], str (bs "12"));
   here AssembleKey; here (KeyAssign (bs "timezone")); here AssembleValue; ([1], str (bs "+0000")); here Finish].
Theorem assign_in_the_middle_panics_refuted : forall repr : bool, exists w,
  run repr t_person (new_builder t_person) ([here BeginMap; here (AssembleEntry (bs "name")); ([3], str (bs "A"))] ++ rest_of_person)
    = (map (fun _ => OK) ([1; 2; 3] ++ map (fun _ => 0) rest_of_person), w) /\ build w = Some some_person.
Proof. intros []; eexists; (split; [vm_compute; reflexivity|]); vm_compute; reflexivity. Qed.
Print Assumptions assign_in_the_middle_panics_refuted.

(** A tree's AssembleKey takes a key it has already: keyFinishTidy (7002-7016) does not
    look it up. Both entries are in the tree. *)
Theorem tree_keys_are_unique_refuted : forall repr : bool, exists w,
  run repr t_tree (new_builder t_tree)
    ([here BeginMap; here (AssembleEntry (bs "a"))] ++ below 1 entry_calls ++
     [here AssembleKey; ([0], str (bs "a")); here AssembleValue] ++ below 1 entry_calls ++ [here Finish])
    = (repeat OK 18, w) /\ build w = Some (tree_value [(bs "a", an_entry); (bs "a", an_entry)]).
Proof. intros []; eexists; (split; [vm_compute; reflexivity|]); vm_compute; reflexivity. Qed.
Print Assumptions tree_keys_are_unique_refuted.

(** A handle kept too long.  The handle of a finished tagger still points to the parent's
    [cm]: assigning to it while the message is being built makes the parent believe the
    message is there.  The tag is built without one. *)
Theorem required_fields_are_given_refuted : exists cs w,
  cs = [here BeginMap; here (AssembleEntry (bs "object")); ([0], Assign a_link);
        here (AssembleEntry (bs "type")); ([1], str (bs "commit"));
        here (AssembleEntry (bs "tag")); ([2], str (bs "v1"));
        here (AssembleEntry (bs "tagger")); ([3], AssignTyped some_person);
        here (AssembleEntry (bs "message")); ([3], AssignTyped (VStruct [])); here Finish] /\
  run false t_tag (new_builder t_tag) cs = (map (fun _ => OK) cs, w) /\ build w = Some (a_tag []).
Proof. do 2 eexists. split; [reflexivity|]. split; [vm_compute; reflexivity|]. vm_compute. reflexivity. Qed.
Print Assumptions required_fields_are_given_refuted.

(** In a representation builder even the handle of a finished string still points to the
    field (5801-5849 do not clear [w]): a later assignment to it overwrites the field, and
    ends the field in work. *)
Theorem finished_fields_stay_refuted : exists cs w,
  cs = [here BeginMap; here (AssembleEntry (bs "object")); ([0], Assign a_link);
        here (AssembleEntry (bs "type")); ([1], str (bs "commit"));
        here (AssembleEntry (bs "tag")); ([2], str (bs "v1"));
        here (AssembleEntry (bs "tagger")); ([3], AssignTyped some_person);
        here (AssembleEntry (bs "message")); ([1], str (bs "tree")); here Finish] /\
  run true t_tag (new_builder t_tag) cs = (map (fun _ => OK) cs, w) /\
  build w = Some (VStruct [(MAbsent, VScalar a_link); (MAbsent, VScalar (SString (bs "tree"))); (MAbsent, VScalar (SString (bs "v1")));
                           (MAbsent, some_person); (MAbsent, VScalar (SString []))]).
Proof. do 2 eexists. split; [reflexivity|]. split; [vm_compute; reflexivity|]. vm_compute. reflexivity. Qed.
Print Assumptions finished_fields_stay_refuted.

(** The type-level builder panics at the same call, and nothing changes. *)
Example stale_string_panics : let '(vs, w) := run false t_tag (new_builder t_tag)
   [here BeginMap; here (AssembleEntry (bs "object")); ([0], Assign a_link);
    here (AssembleEntry (bs "type")); ([1], str (bs "commit")); here (AssembleEntry (bs "message")); ([1], str (bs "tree"))] in
  last vs OK = PANIC.
Proof. vm_compute. reflexivity. Qed.
