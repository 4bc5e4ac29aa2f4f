(** C76: nodes and assemblers tell their prototypes by the schema, and assemblers hand out the assemblers of what the
    schema puts there; only structs cannot tell the prototypes of their values. *)
From Verif Require Import Base GoStr Cid Types Nodes Methods MethodsSpec Protos ProtosSpec Props_roundtrip.
From Verif Require Builder.
From Coq Require Import String.
Local Open Scope list_scope.

(** ** Lemmas *)

Lemma beqb_eq : forall a b, beqb a b = true <-> a = b.
Proof. intros a b. destruct (beqb_spec a b); split; intros; try congruence. Qed.


Definition name_of (t : tyname) (k : bytes) : option tyname :=
  match find (fun x => beqb (fst x) k) (fields t) with Some x => Some (snd x) | None => None end.
Definition below (t : tyname) (s : bytes) : option tyname :=
  match t with
  | TTree => Some TTreeEntry
  | TCommit_Link_List => Some TCommit_Link
  | TString_List => Some TString
  | TTag_List => Some TTag
  | _ => name_of t s
  end.

Lemma find_field : forall (l : list (bytes * tyname)) s u,
  NoDup (map fst l) -> (In (s, u) l <-> find (fun x => beqb (fst x) s) l = Some (s, u)).
Proof.
  induction l as [|[k w] l IH]; cbn; intros s u D; [split; [tauto|discriminate]|].
  inversion_clear D. destruct (beqb k s) eqn:E.
  - apply beqb_eq in E. subst k. split.
    + intros [Q|Q]; [now inversion Q|]. exfalso. apply H. change s with (fst (s, u)). now apply in_map.
    + intros Q. inversion Q. now left.
  - rewrite <- IH by assumption. split; [|tauto]. intros [Q|Q]; [|exact Q]. inversion Q; subst. now rewrite (proj2 (beqb_eq _ _) eq_refl) in E.
Qed.
Lemma fields_distinct : forall t, NoDup (map fst (fields t)).
Proof. destruct t; repeat constructor; cbn; intros H; decompose [or] H; try discriminate; assumption. Qed.

Lemma below_under : forall t s u, under t s u <-> below t s = Some u.
Proof.
  intros t s u. split.
  - intros H. inversion H; subst; try reflexivity.
    assert (N : name_of t s = Some u) by (unfold name_of; now rewrite (proj1 (find_field _ _ _ (fields_distinct t)) H0)).
    destruct t; try exact N; destruct H0.
  - intros H. destruct t; try (cbn in H; inversion H; subst; constructor; fail);
      constructor; apply find_field; try apply fields_distinct; revert H; unfold below, name_of;
      match goal with |- context [find ?f ?l] => destruct (find f l) as [[k w]|] eqn:E end; intros H; try discriminate;
      inversion H; subst; apply find_some in E as [_ E']; apply beqb_eq in E'; cbn in E'; now subst.
Qed.

Lemma resolve_assembler : forall r t, resolve (the_assembler r t) = the_assembler r t.
Proof. destruct r, t; reflexivity. Qed.

(** ** One step down *)
Lemma entry_below : forall r t k, schema_kind t = KMap ->
  match below t k with
  | Some u => exists f p, assemble_entry (the_assembler r t) k = Ok (f, (p, the_assembler r u))
  | None => assemble_entry (the_assembler r t) k = Err (EInvalidKey k)
  end.
Proof.
  intros r t k M; destruct r, t; try discriminate M; lazy -[beqb bs];
    repeat match goal with |- context [beqb (bs ?x) ?k] => destruct (beqb (bs x) k); [do 2 eexists; reflexivity|] end;
    try reflexivity; do 2 eexists; reflexivity.
Qed.
Lemma value_below : forall r t k f, schema_kind t = KList ->
  exists u p, below t k = Some u /\ assemble_value (the_assembler r t) f = Ok (p, the_assembler r u).
Proof. intros r t k f M; destruct r, t; try discriminate M; do 2 eexists; split; reflexivity. Qed.

Definition is_map (k : kind) : bool := match k with KMap => true | _ => false end.
Lemma has_entries_map : forall r t, has_entries (the_assembler r t) = is_map (schema_kind t).
Proof. destruct r, t; reflexivity. Qed.

Lemma scalar_below : forall t s, recursive (schema_kind t) = false -> below t s = None.
Proof. destruct t; cbn; intros s H; try discriminate H; reflexivity. Qed.

Lemma step_down : forall r t s,
  match below t s with
  | Some u => exists p, (if has_entries (resolve (the_assembler r t)) then map_res snd (assemble_entry (the_assembler r t) s)
               else assemble_value (the_assembler r t) 0) = Ok (p, the_assembler r u)
  | None => exists e, (if has_entries (resolve (the_assembler r t)) then map_res snd (assemble_entry (the_assembler r t) s)
               else assemble_value (the_assembler r t) 0) = Err e
  end.
Proof.
  intros r t s. rewrite resolve_assembler, has_entries_map.
  destruct (recursive (schema_kind t)) eqn:R.
  - destruct (schema_kind t) eqn:K; try discriminate R.
    + pose proof (entry_below r t s K) as H. destruct (below t s) as [u|].
      * destruct H as (f & p & H). exists p. cbn [is_map]. now rewrite H.
      * cbn [is_map]. rewrite H. eexists; reflexivity.
    + destruct (value_below r t s 0 K) as (u & p & -> & H). exists p. exact H.
  - rewrite scalar_below by exact R. destruct t; try discriminate R; destruct r; eexists; reflexivity.
Qed.

(** The number of a field in the schema; which part belongs to it *)
Fixpoint position (l : list (bytes * tyname)) (k : bytes) : option nat :=
  match l with
  | [] => None
  | (k', _) :: l => if beqb k' k then Some 0 else option_map S (position l k)
  end.
Definition number_of (t : tyname) (k : bytes) : option nat := position (fields t) k.
Definition part_number (t : tyname) (p : string) : option nat :=
  option_map snd (find (fun x => String.eqb (fst x) p) (combine (match t with
    | TCommit => ["ca_tree"; "ca_parents"; "ca_message"; "ca_author"; "ca_committer"; "ca_encoding"; "ca_signature"; "ca_mergetag"; "ca_other"]
    | TPersonInfo => ["ca_date"; "ca_timezone"; "ca_email"; "ca_name"]
    | TTag => ["ca_object"; "ca_typ"; "ca_tag"; "ca_tagger"; "ca_message"]
    | TTreeEntry => ["ca_mode"; "ca_hash"]
    | _ => []
    end)%string (seq 0 9))).
Lemma entry_number : forall r t k f p c, is_struct t = true -> assemble_entry (the_assembler r t) k = Ok (f, (p, c)) ->
  number_of t k = Some f /\ part_number t p = Some f.
Proof.
  intros r t k f p c S E. destruct t; try discriminate S; destruct r; revert E; lazy -[beqb bs number_of part_number];
    repeat match goal with |- context [beqb (bs ?x) k] => destruct (beqb_spec (bs x) k); [intros E; inversion E; subst; split; reflexivity|] end;
    discriminate.
Qed.
Lemma distinct_numbers : forall t k k' g h, k <> k' -> number_of t k = Some g -> number_of t k' = Some h -> g <> h.
Proof.
  intros t k k' g h D. unfold number_of. generalize (fields t). intros l; revert g h.
  induction l as [|[x u] l IH]; intros g h; cbn; [discriminate|].
  destruct (beqb_spec x k), (beqb_spec x k'); subst; try congruence.
  - intros G; inversion G. destruct (position l k'); cbn; intros H; inversion H. discriminate.
  - intros G H; inversion H. destruct (position l k); cbn in G; inversion G. discriminate.
  - destruct (position l k) as [a|], (position l k') as [b|]; cbn; intros G H; inversion G; inversion H.
    specialize (IH a b eq_refl eq_refl). congruence.
Qed.

(** ** The theorems *)

(** A prototype tells one way to see one type; its builder has the assembler for that way to see it, which tells the same
    prototype; what it builds is a node of the type. *)
Theorem builders_are_of_their_prototypes : forall r t,
  new_builder (the_proto r t) = Some (the_assembler r t) /\
  prototype (the_assembler r t) = Some (the_proto r t) /\
  prototype (the_node r t) = Some (the_proto r t) /\
  builds (the_proto r t) = Some (the_node false t).
Proof. destruct r, t; repeat split; reflexivity. Qed.
Print Assumptions builders_are_of_their_prototypes.

(** Every node of the library tells the prototype of its type, seen the way the node shows it. *)
Theorem nodes_tell_their_prototype : forall n a, receiver n = Some a ->
  exists r t, a = the_node r t /\ node_prototype n = Some (the_proto r t) /\
    receiver (representation n) = Some (the_node true t) /\ node_prototype (representation n) = Some (the_proto true t).
Proof.
  intros n a H. destruct n; cbn in H; inversion H; subst;
    match goal with
    | |- exists r t, (ReprNode, ?u) = _ /\ _ => exists true, u
    | |- exists r t, (_, ?u) = _ /\ _ => exists false, u
    end; repeat split; reflexivity.
Qed.
Print Assumptions nodes_tell_their_prototype.

(** A prototype of a representation builds a node that tells another prototype. *)
Theorem built_nodes_tell_the_prototype_refuted :
  ~ (forall p a, builds p = Some a -> prototype a = Some p).
Proof. intros H. specialize (H (P true TCommit) (Node, TCommit) eq_refl). discriminate H. Qed.
Print Assumptions built_nodes_tell_the_prototype_refuted.

(** Going down in an assembler leads to the assembler of what the schema has there, seen the same way; where the schema
    has nothing there is an error.  For every path. *)
Theorem assemblers_follow_the_schema : forall path r t,
  (exists u, down t path u /\ assembler_at (the_assembler r t) path = Ok (the_assembler r u)) \/
  ((forall u, ~ down t path u) /\ exists e, assembler_at (the_assembler r t) path = Err e).
Proof.
  induction path as [|s path IH]; intros r t.
  - left. exists t. split; [constructor|]. cbn [assembler_at]. now rewrite resolve_assembler.
  - cbn [assembler_at]. pose proof (step_down r t s) as H. destruct (below t s) as [u|] eqn:B.
    + destruct H as [p ->]. cbn [bind snd]. destruct (IH r u) as [(v & D & E)|(N & E)].
      * left. exists v. split; [econstructor; [apply below_under; exact B|exact D]|exact E].
      * right. split; [|exact E]. intros v D. inversion D as [|t' s' u' path' v' U D']; subst.
        apply below_under in U. rewrite B in U. inversion U; subst. exact (N v D').
    + right. destruct H as [e ->]. split; [|now exists e]. intros v D. inversion D; subst.
      apply below_under in H2. congruence.
Qed.
Print Assumptions assemblers_follow_the_schema.

(** One step down in a node *)
Lemma node_step : forall n r t s c, receiver n = Some (the_node r t) -> lookup_by_segment n s = Ok c ->
  c = NAbsent \/ exists u, below t s = Some u /\ receiver c = Some (the_node r u).
Proof.
  assert (B : forall a b, beqb a b = beqb b a).
  { intros a b. destruct (beqb a b) eqn:E, (beqb b a) eqn:F; try reflexivity;
      [apply beqb_eq in E; subst; rewrite (proj2 (beqb_eq _ _) eq_refl) in F; discriminate
      |apply beqb_eq in F; subst; rewrite (proj2 (beqb_eq _ _) eq_refl) in E; discriminate]. }
  intros n r t s c H L.
  destruct n; cbn in H; try discriminate H;
    (assert (T : exists r' t', the_node r t = the_node r' t') by eauto);
    match type of H with Some (_, ?u) = _ => assert (t = u) by (inversion H; reflexivity); subst t end;
    destruct r; cbn in H; try discriminate H;
    unfold lookup_by_segment in L; cbn [node_kind] in L; try discriminate L;
    unfold lookup_by_string in L;
    try (match type of L with (let* _ := _ in _) = _ =>
           destruct (atoi s); try discriminate L; cbn [bind lookup_by_index] in L;
           match type of L with map_res _ ?x = _ => destruct x; try discriminate L; inversion L; subst end;
           right; eexists; split; reflexivity end);
    try (match type of L with match assoc ?a ?b with _ => _ end = _ => destruct (assoc a b); try discriminate L; inversion L; subst;
           right; eexists; split; reflexivity end);
    unfold below, name_of; cbn [fields find fst snd];
    repeat match type of L with (if beqb s ?x then _ else _) = _ =>
      rewrite (B x s); destruct (beqb s x);
      [repeat match type of L with match ?o with _ => _ end = _ => destruct o end; try discriminate L;
       inversion L; subst; unfold opt_node; repeat match goal with |- context [match ?o with Some _ => _ | None => _ end] => destruct o end;
       solve [now left|right; eexists; split; reflexivity]|] end;
    discriminate L.
Qed.
Lemma absent_stays : forall path c, node_at NAbsent path = Ok c -> c = NAbsent.
Proof. destruct path; cbn; intros c H; [now inversion H|discriminate H]. Qed.

(** Going down in a node leads to nodes of the types that the schema has there, seen the same way (or to the absent value
    of an optional field). *)
Theorem nodes_follow_the_schema : forall path n r t c,
  receiver n = Some (the_node r t) -> node_at n path = Ok c -> c <> NAbsent ->
  exists u, down t path u /\ receiver c = Some (the_node r u).
Proof.
  induction path as [|s path IH]; intros n r t c R N A.
  - inversion N; subst. exists t. split; [constructor|exact R].
  - cbn [node_at] in N. destruct (lookup_by_segment n s) as [d| | |] eqn:L; try discriminate N. cbn [bind] in N.
    destruct (node_step _ _ _ _ _ R L) as [->|(u & B & Q)].
    + now apply absent_stays in N.
    + destruct (IH _ _ _ _ Q N A) as (v & D & W). exists v. split; [|exact W].
      econstructor; [apply below_under; exact B|exact D].
Qed.
Print Assumptions nodes_follow_the_schema.

(** So the node at the end of a path tells the prototype that the assembler tells at the end of the same path, in a
    builder of the prototype of the node at its beginning: it could be built there. *)
Theorem parts_tell_the_prototype_of_their_assembler : forall path n c p,
  node_at n path = Ok c -> c <> NAbsent -> node_prototype n = Some p ->
  exists a b q, new_builder p = Some a /\ assembler_at a path = Ok b /\ prototype b = Some q /\ node_prototype c = Some q.
Proof.
  intros path n c p N A Q. unfold node_prototype in Q. destruct (receiver n) as [g|] eqn:R; [|discriminate Q].
  destruct (nodes_tell_their_prototype n g R) as (r & t & -> & Q' & _).
  destruct (builders_are_of_their_prototypes r t) as (W & _ & X & _).
  rewrite X in Q. inversion Q; subst p.
  destruct (nodes_follow_the_schema _ _ _ _ _ R N A) as (u & D & Rc).
  destruct (assemblers_follow_the_schema path r t) as [(v & D' & E)|(No & _)]; [|now destruct (No u)].
  assert (u = v).
  { clear -D D'. revert v D'. induction D; intros w D'; inversion D'; subst; [reflexivity|].
    apply below_under in H, H3. rewrite H in H3. inversion H3; subst. now apply IHD. }
  subst v. destruct (builders_are_of_their_prototypes r u) as (_ & Y & Z & _).
  exists (the_assembler r t), (the_assembler r u), (the_proto r u). repeat split; try assumption.
  unfold node_prototype. now rewrite Rc.
Qed.
Print Assumptions parts_tell_the_prototype_of_their_assembler.

(** An entry by AssembleEntry, and by AssembleKey, AssignString and AssembleValue: the same assembler, the same field, the
    same refusal. *)
Theorem both_ways_to_an_entry_agree : forall r t k,
  let a := the_assembler r t in
  assemble_entry a k =
  (let* ka := assemble_key a in let* f := key_assign ka k in let* c := assemble_value a f in Ok (f, c)).
Proof.
  intros r t k a; subst a; destruct r, t; lazy -[beqb bs];
    repeat match goal with |- context [beqb (bs ?x) ?k] => destruct (beqb (bs x) k); [reflexivity|] end; reflexivity.
Qed.
Print Assumptions both_ways_to_an_entry_agree.

(** Each field of a struct has an assembler of its own, whichever way one comes to it. *)
Theorem each_field_has_its_assembler : forall r t k k' f f' p p' c c', is_struct t = true ->
  assemble_entry (the_assembler r t) k = Ok (f, (p, c)) -> assemble_entry (the_assembler r t) k' = Ok (f', (p', c')) ->
  k <> k' -> p <> p' /\ f <> f'.
Proof.
  intros r t k k' f f' p p' c c' S E E' D.
  assert (Q : forall g h, number_of t k = Some g -> number_of t k' = Some h -> g <> h).
  { intros g h G H. eapply distinct_numbers; [exact D|exact G|exact H]. }
  destruct (entry_number r t k f p c S E) as (G & P), (entry_number r t k' f' p' c' S E') as (H & P').
  specialize (Q _ _ G H). split; [|exact Q]. intros ->. apply Q. rewrite P in P'. now inversion P'.
Qed.
Print Assumptions each_field_has_its_assembler.

(** Keys are strings: the assemblers of keys tell so, KeyPrototype tells so, and so do the keys of nodes.  A struct has its own
    type for them, a second one for its representation. *)
Theorem keys_are_strings : forall r t, schema_kind t = KMap ->
  key_prototype (the_assembler r t) = Ok (the_proto r TString) /\
  exists ka, assemble_key (the_assembler r t) = Ok ka /\ prototype ka = Some (the_proto r TString) /\
             ka = (if is_struct t then (if r then ReprKey else Key, t) else the_assembler r TString).
Proof. intros r t M; destruct r, t; try discriminate M; split; try reflexivity; eexists; repeat split; reflexivity. Qed.
Print Assumptions keys_are_strings.
Theorem keys_of_nodes_are_strings : forall n a kvs k v, receiver n = Some a -> map_entries n = Some kvs -> In (k, v) kvs ->
  node_prototype k = Some (the_proto false TString).
Proof.
  intros n a kvs k v R M I. destruct n; cbn in R; try discriminate R; cbn in M; try discriminate M; inversion M; subst; clear M.
  all: try (apply in_map_iff in I as ([x y] & E & _); inversion E; subst; reflexivity).
  all: rewrite ?in_app_iff in I; cbn [In] in I; rewrite ?in_app_iff in I;
    repeat match type of I with _ \/ _ => destruct I as [I|I] end;
    try contradiction;
    repeat match type of I with
    | In _ (match ?o with _ => _ end) => destruct o
    | In _ (_ :: _) => destruct I as [I|I]
    | In _ [] => destruct I
    end; try (inversion I; subst; reflexivity).
  all: cbn [In] in I; rewrite ?in_app_iff in I; cbn [In] in I;
    repeat (match type of I with
    | _ \/ _ => destruct I as [I|I]
    | False => destruct I
    | In _ (match ?o with _ => _ end) => destruct o; cbn [In] in I
    end); try (inversion I; subst; reflexivity).
Qed.
Print Assumptions keys_of_nodes_are_strings.

(** Lists and trees tell the prototype of what they hold. *)
Theorem lists_and_trees_tell_value_prototypes : forall r t s u, under t s u -> is_struct t = false ->
  value_prototype (the_assembler r t) = Ok (the_proto r u) /\
  exists b, assembler_at (the_assembler r t) [s] = Ok b /\ prototype b = Some (the_proto r u).
Proof.
  intros r t s u U S. apply below_under in U. destruct t; try discriminate S; cbn in U; try discriminate U; inversion U; subst;
    destruct r; split; try reflexivity; eexists; split; reflexivity.
Qed.
Print Assumptions lists_and_trees_tell_value_prototypes.

(** Structs do not: they panic for each of their fields, and for every other key. *)
Theorem structs_panic_on_value_prototype : forall r t, is_struct t = true -> value_prototype (the_assembler r t) = Panic.
Proof. intros r t S; destruct t; try discriminate S; destruct r; reflexivity. Qed.
Print Assumptions structs_panic_on_value_prototype.
Theorem value_prototypes_are_told_refuted :
  ~ (forall r t s u, under t s u -> value_prototype (the_assembler r t) = Ok (the_proto r u)).
Proof.
  intros H. specialize (H false TCommit (bs "tree") TTree_Link). discriminate H. constructor. now left.
Qed.
Print Assumptions value_prototypes_are_told_refuted.

(** The assemblers here are those of the builders with states (Builder.v, C37, C53): the same keys, the same numbers for
    the fields, the same types of what is inside. *)
Definition states_of (t : tyname) : Builder.ty :=
  match t with
  | TBlob => Builder.t_blob
  | TString | TGpgSig => Builder.t_string
  | TLink | TCommit_Link | TTree_Link => Builder.t_link
  | TCommit_Link_List => Builder.TList Builder.t_link
  | TString_List => Builder.TList Builder.t_string
  | TTag_List => Builder.TList Builder.t_tag
  | TPersonInfo => Builder.t_person
  | TTag => Builder.t_tag
  | TCommit => Builder.t_commit
  | TTreeEntry => Builder.t_entry
  | TTree => Builder.t_tree
  end.
Theorem the_builders_are_these : forall r t k,
  match states_of t with
  | Builder.TStruct fs =>
      match Builder.field_index fs k with
      | Some i => exists u, under t k u /\ (exists p, assemble_entry (the_assembler r t) k = Ok (i, (p, the_assembler r u))) /\
                            Builder.child_type (states_of t) i = Some (states_of u)
      | None => assemble_entry (the_assembler r t) k = Err (EInvalidKey k)
      end
  | Builder.TTree e => exists u, under t k u /\ (exists p, assemble_entry (the_assembler r t) k = Ok (0, (p, the_assembler r u))) /\ e = states_of u
  | Builder.TList e => exists u, under t k u /\ (exists p, assemble_value (the_assembler r t) 0 = Ok (p, the_assembler r u)) /\ e = states_of u
  | Builder.TScalar _ => assemble_entry (the_assembler r t) k = Err EWrongKind /\ assemble_value (the_assembler r t) 0 = Err EWrongKind
  end.
Proof.
  intros r t k. destruct t; cbn [states_of Builder.t_blob Builder.t_string Builder.t_link Builder.t_tree];
    try (destruct r; split; reflexivity);
    try (eexists; split; [constructor|split; destruct r; try (eexists; reflexivity); reflexivity]);
    unfold Builder.t_commit, Builder.t_tag, Builder.t_person, Builder.t_entry, Builder.required;
    cbn [Builder.field_index Builder.f_name fst snd].
  all: repeat match goal with r : bool, k : bytes |- context [beqb (bs ?x) ?k] =>
      destruct (beqb_spec (bs x) k);
      [subst k; cbn [option_map]; eexists; split; [apply below_under; reflexivity|split; destruct r; try (eexists; reflexivity); reflexivity]|] end.
  all: cbn [option_map];
    match goal with |- assemble_entry (the_assembler ?r ?t) ?k = _ => pose proof (entry_below r t k eq_refl) as E end;
    unfold below, name_of in E; cbn [fields find fst snd] in E; rewrite !beqb_neq in E by assumption; exact E.
Qed.
Print Assumptions the_builders_are_these.

(** ** Examples: the hypotheses are met *)
Definition a_tag : tag :=
  {| t_object := LCid (bs "o"); t_type := bs "commit"; t_tag := bs "v1"; t_tagger := sample_person; t_message := bs "x" |}.
Definition a_commit : commit :=
  {| c_tree := LCid (bs "t"); c_parents := [LCid (bs "p")]; c_message := bs "m"; c_author := Some sample_person; c_committer := None;
     c_encoding := None; c_signature := Some (bs "sig"); c_mergetag := [a_tag]; c_other := [] |}.
Example a_path_through_a_commit :
  node_at (NCommitR a_commit) [bs "mergetag"; bs "0"; bs "tagger"; bs "email"] = Ok (NString (p_email sample_person)) /\
  node_at (NCommitR a_commit) [bs "mergetag"; bs "0"; bs "tagger"] = Ok (NPersonR sample_person) /\
  node_prototype (NCommitR a_commit) = Some (P true TCommit) /\
  assembler_at (ReprAssembler, TCommit) [bs "mergetag"; bs "0"; bs "tagger"] = Ok (ReprAssembler, TPersonInfo).
Proof. repeat split. Qed.
Example paths_that_end : down TCommit [bs "mergetag"; bs "7"; bs "tagger"; bs "email"] TString /\
  assembler_at (Assembler, TCommit) [bs "tree"; bs "x"] = Err EWrongKind.
Proof. split; [|reflexivity]. repeat (econstructor; [solve [apply below_under; reflexivity]|]). constructor. Qed.
Example an_entry_of_a_tree : under TTree (bs "README") TTreeEntry /\ is_struct TTree = false /\
  receiver (NTree ({| tr_t := []; tr_m := [] |})) = Some (Node, TTree).
Proof. split; [apply under_key|split; reflexivity]. Qed.
Example a_key_of_a_commit : exists kvs, map_entries (NCommitR a_commit) = Some kvs /\ In (NString (bs "signature"), NGpgSig (bs "sig")) kvs.
Proof. eexists. split; [reflexivity|]. cbn. tauto. Qed.
Example two_fields_of_a_commit :
  assemble_entry (Assembler, TCommit) (bs "author") = Ok (3, ("ca_author"%string, (Assembler, TPersonInfo))) /\
  assemble_entry (Assembler, TCommit) (bs "committer") = Ok (4, ("ca_committer"%string, (Assembler, TPersonInfo))).
Proof. split; reflexivity. Qed.
