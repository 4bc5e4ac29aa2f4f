(** C75: calls that are of the wrong kind are refused, with an error that tells the type, the method and the kinds. *)
From Verif Require Import Base GoStr Cid Types Nodes Methods MethodsSpec Props_roundtrip.
From Verif Require Builder.
From Coq Require Import Lia String.

(** ** Nodes: a method answers exactly when the kind has it *)
Definition refused (x : reply) : Prop := exists w, x = Refused w.
Theorem methods_answer_by_kind : forall n r t a, receiver n = Some (r, t) ->
  if has (node_kind n) (asks a)
  then ~ refused (answer n a) /\ answer n a <> NoMethod
  else exists w, answer n a = Refused w /\ tells w (full_name r t) (asks a) (node_kind n).
Proof.
  intros n r t a E. unfold answer. rewrite E.
  destruct n; try discriminate E; injection E as <- <-; destruct a;
    match goal with |- context [refuses ?r ?t ?m] => let v := eval vm_compute in (refuses r t m) in replace (refuses r t m) with v by (vm_compute; reflexivity) end;
    cbn [has node_kind asks own_answer];
    first [ split; [intros [w Q]; discriminate Q|discriminate]
          | eexists; split; [reflexivity|]; repeat split; try discriminate; cbn; intros k' I; repeat (destruct I as [<-|I]; [reflexivity|]); destruct I ].
Qed.
Print Assumptions methods_answer_by_kind.

(** Whose name it is: the representation of a map or list is of the same type and has the name with .Repr, the map or list itself has
    the name without; scalars are their own representation and have the name without. *)
Theorem representations_have_their_name : forall n r t, receiver n = Some (r, t) ->
  let name := ("ipldgit." ++ schema_name t)%string in
  (recursive (schema_kind t) = true -> exists r', receiver (representation n) = Some (r', t) /\ full_name r' t = (name ++ ".Repr")%string) /\
  (recursive (schema_kind t) = true -> representation n <> n -> full_name r t = name) /\
  (recursive (schema_kind t) = false -> representation n = n /\ full_name r t = name).
Proof.
  intros n r t E name. destruct n; try discriminate E; injection E as <- <-;
    (split; [intros K; try discriminate K; eexists; split; reflexivity|split; [intros K D; try discriminate K; try (now destruct D); reflexivity|]]);
    intros K; try discriminate K; split; reflexivity.
Qed.
Print Assumptions representations_have_their_name.
Example representations_have_their_name_applies :
  receiver (representation (NTree zero_tree)) = Some (ReprNode, TTree) /\ representation (NTree zero_tree) <> NTree zero_tree /\
  full_name ReprNode TTree = "ipldgit.Tree.Repr"%string.
Proof. split; [reflexivity|]. split; [discriminate|reflexivity]. Qed.

(** What is asked of the right kind is given. *)
Theorem scalars_answer : forall n r t, receiver n = Some (r, t) ->
  (node_kind n = KString -> exists s, answer n AskString = GotBytes (Ok s)) /\
  (node_kind n = KBytes -> exists s, answer n AskBytes = GotBytes (Ok s)) /\
  (node_kind n = KLink -> exists l, answer n AskLink = GotLink (Ok l)).
Proof. intros n r t E. destruct n; try discriminate E; repeat split; intros K; try discriminate K; eexists; reflexivity. Qed.
Print Assumptions scalars_answer.

(** The refusals are the errors of the wrong kind of the model of the nodes. *)
Theorem refusals_are_wrong_kinds : forall n a w, answer n a = Refused w ->
  own_answer n a = GotNode (Err EWrongKind) \/ own_answer n a = GotBytes (Err EWrongKind) \/ own_answer n a = GotLink (Err EWrongKind) \/
  a = AskBool \/ a = AskInt \/ a = AskFloat.
Proof.
  intros n a w E. destruct (receiver n) as [[r t]|] eqn:Q; [|unfold answer in E; rewrite Q in E; destruct a; discriminate E].
  pose proof (methods_answer_by_kind n r t a Q) as M. rewrite E in M. clear E.
  destruct (has (node_kind n) (asks a)) eqn:H; [destruct M as [M _]; destruct M; now exists w|]. clear M.
  destruct n; try discriminate Q; destruct a; try discriminate H; auto 10; left; reflexivity.
Qed.
Print Assumptions refusals_are_wrong_kinds.

(** ** Iterators and lengths *)
Theorem only_maps_and_lists_are_walked : forall n r t, receiver n = Some (r, t) ->
  (map_iterator n <> None <-> node_kind n = KMap) /\ (list_iterator n <> None <-> node_kind n = KList) /\
  (node_length n = -1 <-> recursive (node_kind n) = false)%Z /\ is_null n = false /\ is_absent n = false /\ node_kind n = schema_kind t.
Proof.
  intros n r t E. destruct n; try discriminate E; injection E as <- <-; cbn [map_iterator list_iterator node_kind node_length recursive is_null is_absent schema_kind]; repeat split; intros; try discriminate; try congruence; try lia.
  all: exfalso; repeat match goal with H : context [match ?o with None => _ | Some _ => _ end] |- _ => destruct o end; lia.
Qed.
Print Assumptions only_maps_and_lists_are_walked.

(** Asked for its index a commit is refused, a person for its bytes; a list by a name; not a list by an index. *)
Example methods_apply :
  answer (NCommitR zero_commit) (AskLookupByIndex 0) = Refused (W "ipldgit.Commit.Repr" LookupByIndex [KList] KMap) /\
  answer (NPerson zero_person) AskBytes = Refused (W "ipldgit.PersonInfo" AsBytes [KBytes] KMap) /\
  answer (NStringList [bs "a"]) (AskLookupByString (bs "0")) = Refused (W "ipldgit.String_List" LookupByString [KMap] KList) /\
  answer (NStringList [bs "a"]) (AskLookupBySegment (bs "0")) = GotNode (Ok (NString (bs "a"))) /\
  answer (NGpgSig (bs "s")) AskString = GotBytes (Ok (bs "s")).
Proof. repeat split; vm_compute; reflexivity. Qed.

(** ** Assemblers: everything but what the kind takes is refused; the error of AssignNull is right in all but
    the assemblers of representations *)
Definition misnamed (r : role) (m : method) : bool :=
  match r, m with ReprAssembler, AssignNull => true | _, _ => false end.
Theorem assemblers_refuse_by_name : forall r t m,
  assembler_exists r t = true -> assembler_method m = true -> m <> AssignNode ->
  if has (takes r t) m then refuses r t m = None
  else exists w, refuses r t m = Some w /\ wk_method w = m /\ wk_actual w = takes r t /\
    (misnamed r m = false -> tells w (full_name r t) m (takes r t)).
Proof.
  intros r t m X A D. destruct r, t; try discriminate X; destruct m; try discriminate A; try (now destruct D);
    match goal with |- context [refuses ?r ?t ?m] => let v := eval vm_compute in (refuses r t m) in replace (refuses r t m) with v by (vm_compute; reflexivity) end;
    cbn [has takes schema_kind];
    first [ reflexivity
          | eexists; split; [reflexivity|]; split; [reflexivity|]; split; [reflexivity|]; intros M;
            first [discriminate M | repeat split; try discriminate; cbn; intros k' I; repeat (destruct I as [<-|I]; [reflexivity|]); destruct I] ].
Qed.
Print Assumptions assemblers_refuse_by_name.
Example assemblers_apply :
  refuses Assembler TTree AssignString = Some (W "ipldgit.Tree" AssignString [KString] KMap) /\
  refuses ReprKey TTag AssignNull = Some (W "ipldgit.Tag.Repr.KeyAssembler" AssignNull [KNull] KString) /\
  refuses ReprAssembler TTag BeginMap = None.
Proof. repeat split; vm_compute; reflexivity. Qed.

(** ** The name in the error of AssignNull: no type has it *)
Theorem null_refusals_name_no_type_refuted : forall t, recursive (schema_kind t) = true ->
  exists w, refuses ReprAssembler t AssignNull = Some w /\ wk_type w = (full_name ReprAssembler t ++ ".Repr")%string /\
  forall r' t', full_name r' t' <> wk_type w.
Proof.
  intros t H. destruct t; try discriminate H;
    (eexists; split; [vm_compute; reflexivity|]; split; [reflexivity|]; intros r' t' Q; destruct r', t'; vm_compute in Q; discriminate Q).
Qed.
Print Assumptions null_refusals_name_no_type_refuted.
Example null_refusals_apply : refuses ReprAssembler TCommit AssignNull = Some (W "ipldgit.Commit.Repr.Repr" AssignNull [KNull] KMap).
Proof. vm_compute. reflexivity. Qed.

(** ** AssignNode *)
Theorem maps_and_lists_refuse_other_kinds : forall r t v,
  r = Assembler \/ r = ReprAssembler -> recursive (schema_kind t) = true ->
  (node_kind v = schema_kind t -> assign_node_refuses r t v = None) /\
  (node_kind v <> schema_kind t ->
     assign_node_refuses r t v = Some (W (full_name r t) AssignNode [schema_kind t] (node_kind v))).
Proof.
  intros r t v R H. unfold assign_node_refuses.
  destruct R as [-> | ->]; destruct t; try discriminate H;
    match goal with |- context [find ?f node_refusals] => let v := eval vm_compute in (find f node_refusals) in replace (find f node_refusals) with v by (vm_compute; reflexivity) end;
    cbn [n_right n_name n_method schema_kind]; (split; [intros ->; reflexivity|]); destruct (node_kind v); intros D; try reflexivity; now destruct D.
Qed.
Print Assumptions maps_and_lists_refuse_other_kinds.
(** Scalars, and the keys of structs, give the error of the node they were given: it tells the node's type. *)
Definition reads (k : kind) : method := match k with KBytes => AsBytes | KLink => AsLink | _ => AsString end.
Theorem scalars_pass_on_the_refusal : forall r t v rv tv,
  assembler_exists r t = true -> recursive (takes r t) = false -> receiver v = Some (rv, tv) ->
  (node_kind v = takes r t -> assign_node_refuses r t v = None) /\
  (node_kind v <> takes r t -> exists w, assign_node_refuses r t v = Some w /\ tells w (full_name rv tv) (reads (takes r t)) (node_kind v)).
Proof.
  intros r t v rv tv X H E. unfold assign_node_refuses.
  match goal with |- context [find ?f node_refusals] => assert (find f node_refusals = None) as -> by (destruct r, t; try discriminate X; try discriminate H; vm_compute; reflexivity) end.
  match goal with |- context [answer v ?a] => set (q := a) end.
  assert (asks q = reads (takes r t)) as Q by (destruct r, t; try discriminate X; try discriminate H; reflexivity).
  assert (has (node_kind v) (reads (takes r t)) = true <-> node_kind v = takes r t) as K.
  { assert (takes r t = KBytes \/ takes r t = KString \/ takes r t = KLink) as [-> | [-> | ->]] by (destruct r, t; try discriminate X; try discriminate H; auto);
      destruct (node_kind v); cbn; split; congruence. }
  pose proof (methods_answer_by_kind v rv tv q E) as M. rewrite Q in M. split; intros D.
  - apply K in D. rewrite D in M. destruct M as [M _]. destruct (answer v q); try reflexivity. destruct M. eexists; reflexivity.
  - destruct (has (node_kind v) (reads (takes r t))); [now destruct D; apply K|]. destruct M as (w & -> & T). exists w. auto.
Qed.
Print Assumptions scalars_pass_on_the_refusal.
Example assign_node_applies :
  assign_node_refuses ReprAssembler TTag (NString (bs "x")) = Some (W "ipldgit.Tag.Repr" AssignNode [KMap] KString) /\
  assign_node_refuses ReprAssembler TTag (NGenMap []) = None /\
  assign_node_refuses Key TCommit (NBlob (bs "x")) = Some (W "ipldgit.Blob" AsString [KString] KBytes) /\
  assign_node_refuses Assembler TBlob (NBlob (bs "x")) = None.
Proof. repeat split; vm_compute; reflexivity. Qed.

(** ** A refused call changes nothing: the assembler can go on as if it had not been made *)
Definition builder_kind (t : Builder.ty) : kind :=
  match t with
  | Builder.TScalar Builder.KString => KString
  | Builder.TScalar Builder.KLink => KLink
  | Builder.TScalar Builder.KBytes => KBytes
  | Builder.TList _ => KList
  | Builder.TTree _ | Builder.TStruct _ => KMap
  end.
Definition builder_method (m : Builder.meth) : option (list method) :=
  match m with
  | Builder.BeginMap => Some [BeginMap]
  | Builder.BeginList _ => Some [BeginList]
  | Builder.Assign (Builder.SString _) => Some [AssignString]
  | Builder.Assign (Builder.SBytes _) => Some [AssignBytes]
  | Builder.Assign (Builder.SLink _) => Some [AssignLink]
  | Builder.Assign Builder.SOther => Some [AssignBool; AssignInt; AssignFloat]
  | _ => None
  end.
Theorem refused_calls_change_nothing : forall repr t m ms x wv mv,
  builder_method m = Some ms -> (forall m', In m' ms -> has (builder_kind t) m' = false) ->
  Builder.act repr t m x wv mv = (Builder.ERR, (x, wv, mv)).
Proof.
  intros repr t m ms x wv mv E H. destruct m as [| |  | [] | | | | | | ]; try discriminate E; injection E as <-; pose proof (H _ (or_introl eq_refl)) as D;
    destruct t as [[]| | | ]; try discriminate D; reflexivity.
Qed.
Print Assumptions refused_calls_change_nothing.
