(** C36: what the builders of persons, tree entries, tags and commits accept.
    StructSpec.v says when a node holds such a value. *)
From Verif Require Import Base GoStr Cid Types Nodes Assemble Spec StructSpec StructFacts.
From Coq Require Import Permutation.

(** ** Exactly the complete maps without unknown or repeated keys are accepted *)
Theorem persons_are_built_from_their_fields : forall v p, assign_person false v = Ok p <-> holds_person p v.
Proof. exact assign_person_iff. Qed.
Print Assumptions persons_are_built_from_their_fields.

Theorem entries_are_built_from_their_fields : forall v e, assign_entry v = Ok e <-> holds_entry e v.
Proof. exact assign_entry_iff. Qed.
Print Assumptions entries_are_built_from_their_fields.

Theorem tags_are_built_from_their_fields : forall v t,
  build_node BTag v = Ok (NTag t) <-> holds_tag t v.
Proof.
  intros v t. rewrite <- assign_tag_iff. cbn [build_node]. rewrite map_res_ok. split; [intros (x & -> & E); congruence|eauto].
Qed.
Print Assumptions tags_are_built_from_their_fields.

(** A typed commit is copied even when optional fields are absent. *)
Theorem commits_are_built_from_their_fields : forall v c,
  build_node BCommit v = Ok (NCommit c) <-> v = NCommit c \/ holds_commit c v.
Proof.
  intros v t. rewrite <- assign_commit_iff. cbn [build_node]. rewrite map_res_ok. split; [intros (x & -> & E); congruence|eauto].
Qed.
Print Assumptions commits_are_built_from_their_fields.

(** A tag, out of order, from generic nodes. *)
Definition ex_person_map : node :=
  NGenMap [ (NGenString (bs "name"), NGenString (bs "A")); (NGenString (bs "date"), NGenString (bs "1"));
            (NGenString (bs "email"), NGenString (bs "a@b")); (NGenString (bs "timezone"), NGenString (bs "+0100")) ].
Definition ex_tag_map : node :=
  NGenMap [ (NGenString (bs "message"), NGenString (bs "hello")); (NGenString (bs "object"), NGenLink (git_link (repeat x07 20)));
            (NGenString (bs "tagger"), ex_person_map); (NGenString (bs "type"), NGenString (bs "commit")); (NGenString (bs "tag"), NGenString (bs "v1")) ].
Definition ex_built_tag : tag :=
  {| t_object := git_link (repeat x07 20); t_type := bs "commit"; t_tag := bs "v1";
     t_tagger := {| p_date := bs "1"; p_timezone := bs "+0100"; p_email := bs "a@b"; p_name := bs "A" |}; t_message := bs "hello" |}.
Example tags_are_built_applies : holds_tag ex_built_tag ex_tag_map /\ holds_person (t_tagger ex_built_tag) ex_person_map.
Proof. split; [apply assign_tag_iff|apply assign_person_iff]; vm_compute; reflexivity. Qed.
Example commits_are_built_applies :
  let p := {| p_date := bs "1"; p_timezone := bs "+0100"; p_email := bs "a@b"; p_name := bs "A" |} in
  let c := {| c_tree := git_link (repeat x07 20); c_parents := [git_link (repeat x08 20)]; c_message := bs "m"; c_author := Some p; c_committer := None;
              c_encoding := Some (bs "latin1"); c_signature := None; c_mergetag := [ex_built_tag]; c_other := [bs "x"; bs "y"] |} in
  holds_commit c
    (NGenMap [ (NGenString (bs "other"), NGenList [NGenString (bs "x"); NGenString (bs "y")]); (NGenString (bs "mergetag"), NGenList [ex_tag_map]);
               (NGenString (bs "author"), NPerson p); (NGenString (bs "encoding"), NGenString (bs "latin1")); (NGenString (bs "message"), NGenString (bs "m"));
               (NGenString (bs "parents"), NGenList [NGenLink (git_link (repeat x08 20))]); (NGenString (bs "tree"), NGenLink (git_link (repeat x07 20))) ]).
Proof.
  intros p c. match goal with |- holds_commit _ ?v => assert (assign_commit v = Ok c) as H by (vm_compute; reflexivity) end.
  apply assign_commit_iff in H as [H|H]; [discriminate H|exact H].
Qed.

(** The same, said of the keys: when is any value built at all? *)
Lemma made_keys fs kvs : made_of fs (NGenMap kvs) ->
  (forall k v, In (k, v) kvs -> exists s P, is_text k s /\ In (s, P) fs /\ P v) /\
  (forall s P, In (s, P) fs -> exists k v, In (k, v) kvs /\ is_text k s /\ P v) /\
  length kvs = length fs.
Proof.
  intros (kvs1 & kvs' & E & Pm & F). injection E as <-. split; [|split].
  - intros k v I. apply (Permutation_in _ (Permutation_sym Pm)) in I. clear - F I. induction F as [|[s P] [k' v'] fs l [H1 H2] F IH]; [destruct I|].
    destruct I as [I|I]; [injection I as -> ->; exists s, P; cbn in *; auto|]. destruct (IH I) as (s' & P' & A & B & C). exists s', P'. auto with datatypes.
  - intros s P I. assert (exists k v, In (k, v) kvs' /\ is_text k s /\ P v) as (k & v & A & B).
    { clear - F I. induction F as [|[s' P'] [k' v'] fs l [H1 H2] F IH]; [destruct I|].
      destruct I as [I|I]; [injection I as -> ->; exists k', v'; cbn in *; auto|]. destruct (IH I) as (k & v & A & B). exists k, v. auto with datatypes. }
    exists k, v. split; [now apply (Permutation_in _ Pm)|exact B].
  - apply Permutation_length in Pm. rewrite <- Pm. clear - F. induction F; cbn; congruence.
Qed.

(** An accepted tag has exactly the five keys, each once. *)
Theorem accepted_tags_are_complete : forall kvs n, build_node BTag (NGenMap kvs) = Ok n ->
  length kvs = 5 /\
  (forall k v, In (k, v) kvs -> exists s, is_text k s /\ In s [bs "object"; bs "type"; bs "tag"; bs "tagger"; bs "message"]) /\
  (forall s, In s [bs "object"; bs "type"; bs "tag"; bs "tagger"; bs "message"] -> exists k v, In (k, v) kvs /\ is_text k s).
Proof.
  intros kvs n E. cbn [build_node] in E. apply map_res_ok in E as (t & E & ->). apply assign_tag_iff in E. unfold holds_tag in E.
  apply made_keys in E as (A & B & C). split; [exact C|]. split.
  - intros k v I. destruct (A k v I) as (s & P & T & J & _). exists s. split; [exact T|].
    apply (in_map fst) in J. exact J.
  - intros s I. cbn [In] in I. decompose [or] I; try contradiction; subst s;
      [destruct (B (bs "object") (fun x => is_link x (t_object t))) as (k & v & X & Y & _)
      |destruct (B (bs "type") (fun x => is_text x (t_type t))) as (k & v & X & Y & _)
      |destruct (B (bs "tag") (fun x => is_text x (t_tag t))) as (k & v & X & Y & _)
      |destruct (B (bs "tagger") (holds_person (t_tagger t))) as (k & v & X & Y & _)
      |destruct (B (bs "message") (fun x => is_text x (t_message t))) as (k & v & X & Y & _)]; cbn [In]; eauto 12.
Qed.
Print Assumptions accepted_tags_are_complete.
Example accepted_tags_applies : exists kvs n, ex_tag_map = NGenMap kvs /\ build_node BTag (NGenMap kvs) = Ok n.
Proof. do 2 eexists. split; [reflexivity|]. vm_compute. reflexivity. Qed.

(** ** The order of the pairs does not matter *)
Lemma made_of_perm fs kvs kvs' : Permutation kvs kvs' -> made_of fs (NGenMap kvs) -> made_of fs (NGenMap kvs').
Proof. intros P (a & b & E & Q & F). injection E as <-. exists kvs', b. split; [reflexivity|]. split; [now transitivity kvs|exact F]. Qed.

Theorem order_of_fields_is_irrelevant : forall kvs kvs', Permutation kvs kvs' ->
  (forall p, assign_person false (NGenMap kvs) = Ok p -> assign_person false (NGenMap kvs') = Ok p) /\
  (forall e, assign_entry (NGenMap kvs) = Ok e -> assign_entry (NGenMap kvs') = Ok e) /\
  (forall n, build_node BTag (NGenMap kvs) = Ok n -> build_node BTag (NGenMap kvs') = Ok n) /\
  (forall n, build_node BCommit (NGenMap kvs) = Ok n -> build_node BCommit (NGenMap kvs') = Ok n).
Proof.
  intros kvs kvs' P. split; [|split; [|split]].
  - intros p. rewrite !assign_person_iff. now apply made_of_perm.
  - intros p. rewrite !assign_entry_iff. now apply made_of_perm.
  - intros n. cbn [build_node]. rewrite !map_res_ok. intros (t & E & ->). exists t. split; [|reflexivity]. revert E. rewrite !assign_tag_iff. now apply made_of_perm.
  - intros n. cbn [build_node]. rewrite !map_res_ok. intros (t & E & ->). exists t. split; [|reflexivity]. revert E. rewrite !assign_commit_iff.
    intros [E|E]; [discriminate E|]. right. now apply (made_of_perm _ kvs kvs').
Qed.
Print Assumptions order_of_fields_is_irrelevant.
Example order_of_fields_applies : exists kvs kvs' n, Permutation kvs kvs' /\ kvs <> kvs' /\ build_node BTag (NGenMap kvs) = Ok n.
Proof.
  exists (match ex_tag_map with NGenMap kvs => kvs | _ => [] end), (rev (match ex_tag_map with NGenMap kvs => kvs | _ => [] end)).
  eexists. split; [apply Permutation_rev|]. split; [discriminate|]. vm_compute. reflexivity.
Qed.

(** ** Everything else is an error, not a panic, except for authors and committers *)
Definition bad {A} (r : res A) : Prop := r = Panic \/ r = OutOfFuel.
Lemma as_string_safe v : ~ bad (as_string v).
Proof. unfold bad. destruct v; cbn; intuition discriminate. Qed.
Lemma as_link_safe v : ~ bad (as_link v).
Proof. unfold bad. destruct v; cbn; intuition discriminate. Qed.
Lemma bind_bad {A C} (r : res A) (k : A -> res C) : bad (bind r k) -> bad r \/ exists a, r = Ok a /\ bad (k a).
Proof. unfold bad. destruct r; cbn; intros H; [right; eauto|destruct H; discriminate|auto|auto]. Qed.

Section Safe.
Context {W : Type} (fields : list bytes) (set : nat -> node -> W -> res W).
Lemma struct_loop_bad kvs : forall seen w, bad (struct_loop fields set kvs seen w) ->
  exists k v i w', In (k, v) kvs /\ (exists s, as_string k = Ok s /\ nth_error fields i = Some s) /\ bad (set i v w').
Proof.
  induction kvs as [|[k v] kvs IH]; intros seen w H; cbn [struct_loop] in H; [destruct H; discriminate|].
  apply bind_bad in H as [H|(s & E & H)]; [now apply as_string_safe in H|].
  destruct (field_index s fields 0) as [i|] eqn:Fi; [|destruct H; discriminate].
  destruct (existsb (Nat.eqb i) seen); [destruct H; discriminate|].
  apply bind_bad in H as [H|(w' & E' & H)].
  - exists k, v, i, w. split; [now left|]. split; [|exact H]. exists s. split; [exact E|]. apply field_index_iff in Fi as [_ Fi]. now rewrite Nat.sub_0_r in Fi.
  - destruct (IH _ _ H) as (k' & v' & i' & w'' & I & Q). exists k', v', i', w''. auto with datatypes.
Qed.
Lemma struct_assign_bad required kvs w : bad (struct_assign fields required set kvs w) ->
  exists k v i w', In (k, v) kvs /\ (exists s, as_string k = Ok s /\ nth_error fields i = Some s) /\ bad (set i v w').
Proof.
  unfold struct_assign. intros H. apply bind_bad in H as [H|([seen w'] & E & H)]; [now apply struct_loop_bad in H|].
  destruct (missing_fields fields required seen); destruct H; discriminate.
Qed.
End Safe.

Lemma assign_items_bad {A} (f : node -> res A) l : (forall v, ~ bad (f v)) -> ~ bad (assign_items f l).
Proof.
  intros H. induction l as [|v l IH]; cbn [assign_items]; [intros [E|E]; discriminate|].
  intros B. apply bind_bad in B as [B|(a & _ & B)]; [now apply H in B|]. apply bind_bad in B as [B|(a' & _ & B)]; [auto|]. destruct B; discriminate.
Qed.
Lemma assign_list_bad {A} (f : node -> res A) v : (forall v, ~ bad (f v)) -> ~ bad (assign_list f v).
Proof. intros H. unfold assign_list. destruct (list_items v); [now apply assign_items_bad|]. intros [E|E]; discriminate. Qed.

Lemma nth_bound {A} (l : list A) i s : nth_error l i = Some s -> i < length l.
Proof. intros H. apply nth_error_Some. congruence. Qed.

Lemma person_safe v : ~ bad (assign_person false v).
Proof.
  assert (forall kvs, ~ bad (struct_assign person_fields [0; 1; 2; 3] set_person kvs zero_person)) as K.
  { intros kvs B. apply struct_assign_bad in B as (k & u & i & w & _ & (s & _ & Hi) & B). apply nth_bound in Hi. unfold set_person in B.
    apply bind_bad in B as [B|(a & _ & B)]; [now apply as_string_safe in B|].
    destruct i as [|[|[|[|i]]]]; try (exfalso; cbn in Hi; lia); destruct B; discriminate. }
  destruct v; cbn [assign_person]; try (intros [E|E]; discriminate E); cbn [map_entries]; try (intros [E|E]; discriminate E); apply K.
Qed.
Lemma entry_safe v : ~ bad (assign_entry v).
Proof.
  assert (forall kvs, ~ bad (struct_assign entry_fields [0; 1] set_entry kvs zero_entry)) as K.
  { intros kvs B. apply struct_assign_bad in B as (k & u & i & w & _ & (s & _ & Hi) & B). apply nth_bound in Hi. unfold set_entry, assign_string, assign_link in B.
    destruct i as [|[|i]]; try (exfalso; cbn in Hi; lia); apply bind_bad in B as [B|(a & _ & B)];
      try (now apply as_string_safe in B); try (now apply as_link_safe in B); destruct B; discriminate. }
  destruct v; cbn [assign_entry]; try (intros [E|E]; discriminate E); cbn [map_entries]; try (intros [E|E]; discriminate E); apply K.
Qed.
Lemma tag_safe v : ~ bad (assign_tag v).
Proof.
  assert (forall kvs, ~ bad (struct_assign tag_fields [0; 1; 2; 3; 4] set_tag kvs zero_tag)) as K.
  { intros kvs B. apply struct_assign_bad in B as (k & u & i & w & _ & (s & _ & Hi) & B). apply nth_bound in Hi. unfold set_tag, assign_string, assign_link in B.
    destruct i as [|[|[|[|[|i]]]]]; try (exfalso; cbn in Hi; lia); apply bind_bad in B as [B|(a & _ & B)];
      try (now apply as_string_safe in B); try (now apply as_link_safe in B); try (now apply person_safe in B); destruct B; discriminate. }
  destruct v; cbn [assign_tag]; try (intros [E|E]; discriminate E); cbn [map_entries]; try (intros [E|E]; discriminate E); apply K.
Qed.

Theorem struct_builders_do_not_panic : forall v,
  (exists p, assign_person false v = Ok p) \/ (exists e, assign_person false v = Err e).
Proof. intros v. pose proof (person_safe v) as N. unfold bad in N. destruct (assign_person false v); eauto; exfalso; auto. Qed.
Print Assumptions struct_builders_do_not_panic.

Theorem entry_and_tag_builders_do_not_panic : forall v,
  ((exists x, assign_entry v = Ok x) \/ (exists e, assign_entry v = Err e)) /\
  ((exists n, build_node BTag v = Ok n) \/ (exists e, build_node BTag v = Err e)).
Proof.
  intros v. pose proof (entry_safe v) as N. pose proof (tag_safe v) as N'. unfold bad in N, N'. cbn [build_node]. split.
  - destruct (assign_entry v); eauto; exfalso; auto.
  - destruct (assign_tag v); cbn [map_res bind]; eauto; exfalso; auto.
Qed.
Print Assumptions entry_and_tag_builders_do_not_panic.

(** The commit builder panics only when the author or the committer is a map that is not
    the library's own PersonInfo node ... *)
Theorem commit_builder_panics_only_for_persons : forall v,
  (exists n, build_node BCommit v = Ok n) \/ (exists e, build_node BCommit v = Err e) \/
  (build_node BCommit v = Panic /\
   exists kvs k x kvs', map_entries v = Some kvs /\ In (k, x) kvs /\ (is_text k (bs "author") \/ is_text k (bs "committer")) /\
     map_entries x = Some kvs' /\ kvs' <> [] /\ forall p, x <> NPerson p).
Proof.
  intros v.
  assert (forall kvs, bad (struct_assign Nodes.commit_fields [0; 1; 2; 7; 8] set_commit kvs zero_commit) ->
    exists k x kvs', In (k, x) kvs /\ (is_text k (bs "author") \/ is_text k (bs "committer")) /\
      map_entries x = Some kvs' /\ kvs' <> [] /\ forall p, x <> NPerson p) as K.
  { intros kvs B. apply struct_assign_bad in B as (k & u & i & w & I & (s & Ek & Hi) & B).
    assert (bad (assign_person true u) -> exists kvs', map_entries u = Some kvs' /\ kvs' <> [] /\ forall p, u <> NPerson p) as P.
    { intros P. assert (forall p, u <> NPerson p) as N by (intros p ->; destruct P; discriminate).
      destruct (map_entries u) as [[|e l]|] eqn:M.
      - exfalso. destruct u; cbn [assign_person] in P; rewrite ?M in P; try (destruct P; discriminate).
      - eexists. split; [reflexivity|]. split; [discriminate|exact N].
      - exfalso. destruct u; cbn [assign_person] in P; rewrite ?M in P; destruct P; discriminate. }
    pose proof (nth_bound _ _ _ Hi) as L. unfold set_commit, assign_string, assign_link in B.
    destruct i as [|[|[|[|[|[|[|[|[|i]]]]]]]]]; try (exfalso; cbn in L; lia); apply bind_bad in B as [B|(a & _ & B)]; try (destruct B; discriminate);
      try (now apply as_string_safe in B); try (now apply as_link_safe in B).
    - exfalso. unfold assign_link_list in B. destruct u; try (destruct B; discriminate); now apply assign_list_bad in B; [|intros; apply as_link_safe].
    - destruct (P B) as (kvs' & P'). injection Hi as <-. exists k, u, kvs'. split; [exact I|]. split; [left; now apply is_text_iff|exact P'].
    - destruct (P B) as (kvs' & P'). injection Hi as <-. exists k, u, kvs'. split; [exact I|]. split; [right; now apply is_text_iff|exact P'].
    - exfalso. unfold assign_tag_list in B. destruct u; try (destruct B; discriminate); now apply assign_list_bad in B; [|intros; apply tag_safe].
    - exfalso. unfold assign_string_list in B. destruct u; try (destruct B; discriminate); now apply assign_list_bad in B; [|intros; apply as_string_safe]. }
  assert (forall kvs, struct_assign Nodes.commit_fields [0; 1; 2; 7; 8] set_commit kvs zero_commit <> OutOfFuel) as NF.
  { intros kvs E. unfold struct_assign in E.
    assert (forall seen w, struct_loop Nodes.commit_fields set_commit kvs seen w <> OutOfFuel) as NL.
    { clear E K. induction kvs as [|[k u] kvs IH]; intros seen w E; cbn [struct_loop] in E; [discriminate|].
      destruct (as_string k) eqn:Ek; cbn [bind] in E; try discriminate E; [|destruct k; discriminate Ek].
      destruct (field_index a Nodes.commit_fields 0) as [i|]; [|discriminate E].
      destruct (existsb (Nat.eqb i) seen); [discriminate E|].
      destruct (set_commit i u w) eqn:Es; cbn [bind] in E; try discriminate E; [now apply IH in E|]. clear E IH.
      unfold set_commit, assign_string, assign_link in Es.
      assert (forall v, as_string v <> OutOfFuel) as N1 by (intros []; discriminate).
      assert (forall v, as_link v <> OutOfFuel) as N2 by (intros []; discriminate).
      assert (forall v, assign_person true v <> OutOfFuel) as N3.
      { assert (forall l, struct_assign person_fields [0; 1; 2; 3] (fun _ _ _ => Panic) l zero_person <> OutOfFuel) as N0.
        { intros [|[k0 v0] l]; unfold struct_assign; [discriminate|]. cbn [struct_loop].
          destruct (as_string k0) eqn:E0; cbn [bind]; try discriminate; [|exfalso; now apply N1 in E0].
          destruct (field_index a0 person_fields 0); discriminate. }
        intros v0. destruct v0; cbn [assign_person]; try discriminate; cbn [map_entries]; try discriminate; apply N0. }
      assert (forall v, assign_link_list v <> OutOfFuel) as N4.
      { intros v0 X. assert (~ bad (assign_link_list v0)) as Y; [|now apply Y; right].
        unfold assign_link_list. destruct v0; try (apply assign_list_bad; intros; apply as_link_safe). intros [Q|Q]; discriminate Q. }
      assert (forall v, assign_string_list v <> OutOfFuel) as N5.
      { intros v0 X. assert (~ bad (assign_string_list v0)) as Y; [|now apply Y; right].
        unfold assign_string_list. destruct v0; try (apply assign_list_bad; intros; apply as_string_safe). intros [Q|Q]; discriminate Q. }
      assert (forall v, assign_tag_list v <> OutOfFuel) as N6.
      { intros v0 X. assert (~ bad (assign_tag_list v0)) as Y; [|now apply Y; right].
        unfold assign_tag_list. destruct v0; try (apply assign_list_bad; intros; apply tag_safe). intros [Q|Q]; discriminate Q. }
      destruct i as [|[|[|[|[|[|[|[|[|i]]]]]]]]]; try discriminate Es;
        match type of Es with bind ?r _ = _ => destruct r eqn:Er; cbn [bind] in Es; try discriminate Es; clear Es end;
        [now apply N2 in Er|now apply N4 in Er|now apply N1 in Er|now apply N3 in Er|now apply N3 in Er|now apply N1 in Er|now apply N1 in Er|now apply N6 in Er|now apply N5 in Er]. }
    destruct (struct_loop Nodes.commit_fields set_commit kvs [] zero_commit) as [[seen w]| | |] eqn:El; cbn [bind] in E; try discriminate E; [|now apply NL in El].
    destruct (missing_fields Nodes.commit_fields [0; 1; 2; 7; 8] seen); discriminate E. }
  assert (forall kvs, map_entries v = Some kvs -> let r := map_res NCommit (struct_assign Nodes.commit_fields [0; 1; 2; 7; 8] set_commit kvs zero_commit) in
    (exists n, r = Ok n) \/ (exists e, r = Err e) \/
    (r = Panic /\ exists kvs k x kvs', map_entries v = Some kvs /\ In (k, x) kvs /\ (is_text k (bs "author") \/ is_text k (bs "committer")) /\
     map_entries x = Some kvs' /\ kvs' <> [] /\ forall p, x <> NPerson p)) as T.
  { intros kvs M r. unfold r. clear r. specialize (K kvs). specialize (NF kvs).
    destruct (struct_assign Nodes.commit_fields [0; 1; 2; 7; 8] set_commit kvs zero_commit); cbn [map_res bind]; eauto; [|congruence].
    right. right. split; [reflexivity|]. destruct K as (k & x & kvs' & Q); [now left|]. exists kvs, k, x, kvs'. auto. }
  cbn [build_node]. destruct v; cbn [assign_commit]; try (right; left; eexists; reflexivity); try (apply T; reflexivity).
  left. eexists. reflexivity.
Qed.
Print Assumptions commit_builder_panics_only_for_persons.

(** ... and does so for any such map, even one that holds a person. *)
Theorem commit_builder_panics_refuted : forall p x rest who,
  who = bs "author" \/ who = bs "committer" -> holds_person p x -> x <> NPerson p ->
  build_node BCommit (NGenMap ((NGenString who, x) :: rest)) = Panic.
Proof.
  intros p x rest who Hw Hp N.
  assert (assign_person true x = Panic) as Px.
  { assert (forall q, x <> NPerson q) as N'.
    { intros q ->. apply assign_person_iff in Hp. cbn in Hp. congruence. }
    destruct Hp as (kvs & kvs' & M & P & F).
    assert (struct_assign person_fields [0; 1; 2; 3] (fun _ _ _ => Panic) kvs zero_person = Panic) as E.
    { destruct kvs as [|[k u] kvs]; [apply Permutation_sym, Permutation_nil in P; subst; inversion F|].
      assert (exists s, as_string k = Ok s /\ In s person_fields) as (s & Ek & I).
      { assert (In (k, u) kvs') as I by (apply (Permutation_in _ (Permutation_sym P)); now left).
        do 4 (destruct kvs' as [|? kvs']; [inversion F|]; inversion F as [|? ? ? ? [X1 _] F']; subst; clear F; rename F' into F;
          destruct I as [->|I]; [eexists; split; [apply is_text_iff, X1|cbn [fst]; cbn [In person_fields]; auto 10]|clear X1]). inversion F; subst. destruct I. }
      unfold struct_assign. cbn [struct_loop]. rewrite Ek. cbn [bind].
      destruct (field_index s person_fields 0) eqn:Fi; [reflexivity|]. exfalso. clear - I Fi.
      cbn [In person_fields] in I. decompose [or] I; try contradiction; subst s; discriminate Fi. }
    destruct x; cbn [assign_person]; try discriminate M; try (rewrite M; exact E). now specialize (N' p0). }
  cbn [build_node assign_commit map_entries]. unfold struct_assign. cbn [struct_loop as_string bind].
  destruct Hw as [-> | ->].
  - change (field_index (bs "author") Nodes.commit_fields 0) with (Some 3). cbn [existsb set_commit]. rewrite Px. reflexivity.
  - change (field_index (bs "committer") Nodes.commit_fields 0) with (Some 4). cbn [existsb set_commit]. rewrite Px. reflexivity.
Qed.
Print Assumptions commit_builder_panics_refuted.
Example commit_builder_panics_applies : holds_person (t_tagger ex_built_tag) ex_person_map /\ ex_person_map <> NPerson (t_tagger ex_built_tag).
Proof. split; [apply assign_person_iff; vm_compute; reflexivity|discriminate]. Qed.
