(** C68: decoding again and again with the same builder. *)
From Verif Require Import Base GoStr Cid Types Nodes Reader Person Assemble Decode DecodeAny Props_any.
From Verif Require Import Builder AssignCalls ReuseFacts.
From Verif Require Import Reuse.

(** ** Specification *)

(** The objects among what the readers held: the others could not be parsed. *)
Fixpoint objects (ps : list (res node)) : list node :=
  match ps with
  | [] => []
  | Ok n :: r => n :: objects r
  | _ :: r => objects r
  end.

(** Objects of the builder's own type, and their Go values *)
Definition is_own (k : object_type) (n : node) : bool :=
  match k, n with
  | TyBlob, NBlob _ | TyCommit, NCommit _ | TyTag, NTag _ | TyTree, NTree _ => true
  | _, _ => false
  end.
Definition go_value (n : node) : val :=
  match n with
  | NBlob b => VScalar (SBytes b)
  | NCommit c => commit_val c
  | NTag t => tag_val t
  | NTree t => tree_val t
  | _ => VNil
  end.

(** What Decode may answer: the error there is in the object; success for the first object
    of the builder's type, a panic for all others of its type, never success for an object
    of another type. *)
Fixpoint answers (k : object_type) (full : bool) (ps : list (res node)) (vs : list (res unit)) : Prop :=
  match ps, vs with
  | [], [] => True
  | p :: ps, v :: vs =>
      match p with
      | Ok n =>
          if is_own k n then v = (if full then Panic else Ok tt) /\ answers k true ps vs
          else v <> Ok tt /\ answers k full ps vs
      | Err e => v = Err e /\ answers k full ps vs
      | Panic => v = Panic /\ answers k full ps vs
      | OutOfFuel => v = OutOfFuel /\ answers k full ps vs
      end
  | _, _ => False
  end.

(** The first object of the builder's type, and what came before and after it *)
Fixpoint around (k : object_type) (ns : list node) : option (list node * node * list node) :=
  match ns with
  | [] => None
  | n :: r =>
      if is_own k n then Some ([], n, r)
      else match around k r with Some (b, o, a) => Some (n :: b, o, a) | None => None end
  end.

(** Trees: a commit or a tag leaves an entry without a mode and without a hash. *)
Definition left_entry (n : node) : option bytes :=
  match n with NCommit _ => Some (bs "tree") | NTag _ => Some (bs "object") | _ => None end.
Fixpoint first_left (ns : list node) : option bytes :=
  match ns with
  | [] => None
  | n :: r => match left_entry n with Some k => Some k | None => first_left r end
  end.
Definition tree_with (t : tree) (extra : option bytes) : val :=
  match extra with
  | None => tree_val t
  | Some k => tree_val {| tr_t := tr_t t ++ [(k, zero_entry)]; tr_m := (k, zero_entry) :: tr_m t |}
  end.
Definition built_tree (ns : list node) : option val :=
  match around TyTree ns with
  | Some (before, NTree t, after) =>
      Some (tree_with t (match first_left before with Some _ => None | None => first_left after end))
  | _ => None
  end.

(** Commits: the first tag or tree that is not empty counts, if it came before the commit.  If
    it is a tree whose first entry has the name "author" or "committer", then the next tag or
    tree after the commit makes that person of the commit a nil pointer. *)
Inductive role := Author | Committer.
Definition opens (n : node) : bool :=
  match n with NTag _ => true | NTree t => match tr_t t with [] => false | _ => true end | _ => false end.
Definition opened (n : node) : option role :=
  match n with
  | NTree t =>
      match tr_t t with
      | (k, _) :: _ => if beqb k (bs "author") then Some Author else if beqb k (bs "committer") then Some Committer else None
      | [] => None
      end
  | _ => None
  end.
Fixpoint first_opened (ns : list node) : option role :=
  match ns with
  | [] => None
  | n :: r => if opens n then opened n else first_opened r
  end.
Definition is_map (n : node) : bool := match n with NTag _ | NTree _ => true | _ => false end.
Definition nil_person (o : option person) : maybe * val := match o with Some _ => (MValue, VNil) | None => (MAbsent, VNil) end.
Definition commit_without (c : commit) (lost : option role) : val :=
  VStruct [(MAbsent, link_val (c_tree c)); (MAbsent, VList (map link_val (c_parents c))); (MAbsent, text_val (c_message c));
           match lost with Some Author => nil_person (c_author c) | _ => pointer_val person_val (c_author c) end;
           match lost with Some Committer => nil_person (c_committer c) | _ => pointer_val person_val (c_committer c) end;
           inline_val (c_encoding c); inline_val (c_signature c);
           (MAbsent, VList (map tag_val (c_mergetag c))); (MAbsent, VList (map text_val (c_other c)))].
Definition built_commit (ns : list node) : option val :=
  match around TyCommit ns with
  | Some (before, NCommit c, after) => Some (commit_without c (if existsb is_map after then first_opened before else None))
  | _ => None
  end.

(** Tags and blobs: the first one. *)
Definition built_first (k : object_type) (ns : list node) : option val :=
  match around k ns with Some (_, n, _) => Some (go_value n) | None => None end.

Definition built (k : object_type) : list node -> option val :=
  match k with
  | TyTree => built_tree
  | TyCommit => built_commit
  | TyTag | TyBlob => built_first k
  end.

(** ** The proof: what [Decode] does, seen from the parsed objects *)

Definition object (n : node) : Prop :=
  match n with NBlob _ | NTree _ | NCommit _ | NTag _ => True | _ => False end.
Lemma parsed_object S V (ops : rdops S V) s n : parse_object ops s = Ok n -> object n.
Proof.
  unfold parse_object. intros E. apply bind_ok in E as ([typ s1] & _ & E).
  destruct (beqb typ (bs "tree")). { unfold decode_tree in E. apply bind_ok in E as ([z s2] & _ & E). apply bind_ok in E as (t & _ & E). injection E as <-. exact I. }
  destruct (beqb typ (bs "commit")). { unfold decode_commit in E. apply bind_ok in E as ([z s2] & _ & E). apply bind_ok in E as (t & _ & E). injection E as <-. exact I. }
  destruct (beqb typ (bs "blob")).
  { apply bind_ok in E as ([m s9] & D & E). injection E as <-. unfold decode_blob in D. apply bind_ok in D as ([z s2] & _ & D).
    destruct (z <? 0)%Z; [discriminate|]. apply bind_ok in D as ([[body [e|]] s3] & _ & D); [discriminate|].
    destruct (negb _); [now destruct (length body =? 0)|]. injection D as <- _. exact I. }
  destruct (beqb typ (bs "tag")).
  { unfold decode_tag, decode_tag_printing in E. apply bind_ok in E as ([m s9] & D & E). injection E as <-. apply bind_ok in D as ([[x [e|]] s2] & _ & D); [discriminate|].
    apply bind_ok in D as ([t pr] & _ & D). injection D as <- _. exact I. }
  discriminate.
Qed.

Definition give {A} (na : assembler A) (p : res node) (a : A) : res unit * A :=
  match p with
  | Ok n => hand_over na n a
  | Err e => (Err e, a)
  | Panic => (Panic, a)
  | OutOfFuel => (OutOfFuel, a)
  end.
Fixpoint give_all {A} (na : assembler A) (ps : list (res node)) (a : A) : list (res unit) * A :=
  match ps with
  | [] => ([], a)
  | p :: r => let '(v, a1) := give na p a in let '(vs, a2) := give_all na r a1 in (v :: vs, a2)
  end.
Lemma decode_all_give S V (ops : rdops S V) repr k ss w :
  decode_all ops repr k ss w = give_all (builder_assembler repr k) (map (parse_object ops) ss) w.
Proof.
  revert w. induction ss as [|s r IH]; intros w; [reflexivity|]. cbn [decode_all map give_all].
  rewrite decoding_is_parsing_and_one_call. fold (give (builder_assembler repr k) (parse_object ops s) w).
  destruct (give (builder_assembler repr k) (parse_object ops s) w) as [v w1]. now rewrite IH.
Qed.

(** A builder that behaves like a machine with the states [St] *)
Section Machine.
Context (repr : bool) (k : object_type) (St : Type) (sp : St -> node -> St) (full : St -> bool) (R : St -> world -> Prop).
Hypothesis full_step : forall s n, full (sp s n) = full s || is_own k n.
Hypothesis sim : forall s w n v w1, object n -> R s w -> hand_over (builder_assembler repr k) n w = (v, w1) ->
  R (sp s n) w1 /\ (if is_own k n then v = (if full s then Panic else Ok tt) else v <> Ok tt).

Lemma machine ps : (forall n, In (Ok n) ps -> object n) -> forall s w vs w1, R s w ->
  give_all (builder_assembler repr k) ps w = (vs, w1) ->
  answers k (full s) ps vs /\ R (fold_left sp (objects ps) s) w1.
Proof.
  induction ps as [|p ps IH]; intros O s w vs w1 H E.
  - injection E as <- <-. split; [exact I|exact H].
  - cbn [give_all] in E. destruct (give _ p w) as [v wa] eqn:G. destruct (give_all _ ps wa) as [vs1 wb] eqn:G1. injection E as <- <-.
    assert (O1 : forall n, In (Ok n) ps -> object n) by (intros n Hn; apply O; now right).
    destruct p as [n|e| |]; cbn [give] in G; cbn [objects answers fold_left].
    + destruct (sim s w n v wa (O n (or_introl eq_refl)) H G) as [H1 A].
      destruct (IH O1 _ _ _ _ H1 G1) as [A1 H2]. rewrite full_step in A1. split; [|exact H2].
      destruct (is_own k n); split; auto; [now rewrite Bool.orb_true_r in A1|now rewrite Bool.orb_false_r in A1].
    + injection G as <- <-. destruct (IH O1 _ _ _ _ H G1). auto.
    + injection G as <- <-. destruct (IH O1 _ _ _ _ H G1). auto.
    + injection G as <- <-. destruct (IH O1 _ _ _ _ H G1). auto.
Qed.
End Machine.

(** Where the first object is *)
Lemma around_some k ns b n a : around k ns = Some (b, n, a) -> ns = b ++ n :: a /\ (forall x, In x b -> is_own k x = false) /\ is_own k n = true.
Proof.
  revert b. induction ns as [|x r IH]; cbn; intros b E; [discriminate|].
  destruct (is_own k x) eqn:O.
  - injection E as <- <- <-. repeat split; auto. intros y [].
  - destruct (around k r) as [[[b1 n1] a1]|]; [|discriminate]. injection E as <- <- <-.
    destruct (IH _ eq_refl) as (-> & H & H1). repeat split; auto. intros y [<-|Hy]; auto.
Qed.
Lemma around_none k ns : around k ns = None -> forall x, In x ns -> is_own k x = false.
Proof.
  induction ns as [|x r IH]; cbn; intros E; [intros y []|].
  destruct (is_own k x) eqn:O; [discriminate|]. destruct (around k r) as [[[b1 n1] a1]|]; [discriminate|].
  intros y [<-|Hy]; auto.
Qed.

(** *** Foreign maps for a struct *)
Definition foreign_calls (fs : list field) (child : nat -> node -> list action) (l : list action) : Prop :=
  l = [Do [] Finish] \/
  exists k u rest, l = field_calls fs child (NString k, u) ++ rest /\
    forall i, field_index fs k = Some i -> hopeless fs i (child i u).

Lemma foreign_struct repr fs (Q : nat -> Prop) child l v m w r w1 :
  foreign_calls fs child l -> (forall i, kind_at fs i = OptionalPointer -> Q i) -> (exists i, i < length fs /\ kind_at fs i = Required) ->
  (exists sl, v = VStruct sl) -> idle fs Q v m w -> exec repr (TStruct fs) w l = (r, w1) ->
  r <> OK /\ idle fs Q v m w1.
Proof.
  intros [->|(k & u & rest & -> & H)] P M V I E.
  - eapply empty_exec; eauto.
  - eapply foreign_exec in E; eauto. destruct E as (A & B & _). auto.
Qed.

Definition tag_child (i : nat) : node -> list action := match i with 0 => link_calls | 3 => person_calls | _ => string_calls end.
Definition commit_child (i : nat) : node -> list action :=
  match i with
  | 0 => tree_link_calls | 1 => commit_links_calls | 2 => string_calls
  | 3 | 4 => person_calls
  | 5 => string_calls | 6 => gpgsig_calls | 7 => tags_calls | _ => strings_calls
  end.
Lemma person_required : all_required (fields_of t_person).
Proof. intros i. do 4 (destruct i; [reflexivity|]). now destruct i. Qed.
Lemma tag_required i : kind_at (fields_of t_tag) i = Required.
Proof. do 5 (destruct i; [reflexivity|]). now destruct i. Qed.

Lemma person_hopeless fs i e : option_map f_type (nth_error fs i) = Some t_person -> hopeless fs i (person_calls (NEntry e)).
Proof. intros T. right. exists (fields_of t_person), (bs "mode"). eexists. split; [exact T|]. split; [apply person_required|]. split; reflexivity. Qed.

Lemma tag_foreign n : object n -> is_own TyTag n = false -> (forall b, n <> NBlob b) -> foreign_calls (fields_of t_tag) tag_child (tag_calls n).
Proof.
  destruct n; intros O N B; try contradiction; try discriminate; try (exfalso; eapply B; reflexivity).
  - right. eexists (bs "tree"), NNull, _. split; [reflexivity|]. intros i X. discriminate.
  - unfold tag_calls, struct_calls. cbn [is_null map_entries]. destruct (tr_t t) as [|[k e] r]; [now left|].
    right. eexists k, (NEntry e), _. split; [cbn [map fields_calls flat_map]; rewrite <- app_assoc; reflexivity|].
    intros i X. apply field_index_lt in X. cbn [length fields_of t_tag] in X.
    destruct i as [|[|[|[|[|i]]]]]; try lia; try (left; reflexivity). now apply person_hopeless.
Qed.

Lemma commit_foreign n : object n -> is_own TyCommit n = false -> (forall b, n <> NBlob b) -> foreign_calls (fields_of t_commit) commit_child (commit_calls n).
Proof.
  destruct n; intros O N B; try contradiction; try discriminate; try (exfalso; eapply B; reflexivity).
  - right. eexists (bs "object"), NNull, _. split; [reflexivity|]. intros i X. discriminate.
  - unfold commit_calls, struct_calls. cbn [is_null map_entries]. destruct (tr_t t) as [|[k e] r]; [now left|].
    right. eexists k, (NEntry e), _. split; [cbn [map fields_calls flat_map]; rewrite <- app_assoc; reflexivity|].
    intros i X. apply field_index_lt in X. cbn [length fields_of t_commit] in X.
    destruct i as [|[|[|[|[|[|[|[|[|i]]]]]]]]]; try lia; try (left; reflexivity); now apply person_hopeless.
Qed.

(** *** Tags *)
Definition first_step (k : object_type) (s : option node) (n : node) : option node :=
  match s with Some _ => s | None => if is_own k n then Some n else None end.
Definition has (s : option node) : bool := match s with Some _ => true | None => false end.
Lemma first_full k s n : has (first_step k s n) = has s || is_own k n.
Proof. destruct s; cbn; auto. now destruct (is_own k n). Qed.
Lemma first_fold k ns : option_map go_value (fold_left (first_step k) ns None) = built_first k ns.
Proof.
  unfold built_first.
  assert (K : forall l n, fold_left (first_step k) l (Some n) = Some n) by (induction l; cbn; auto).
  induction ns as [|n r IH]; [reflexivity|]. cbn. destruct (is_own k n); [now rewrite K|].
  rewrite IH. now destruct (around k r) as [[[b o] a]|].
Qed.

Definition tag_rel (s : option node) (w : world) : Prop :=
  match s with
  | None => idle (fields_of t_tag) (fun _ => False) (zero t_tag) MAbsent w
  | Some n => (exists t, n = NTag t) /\ idle (fields_of t_tag) (fun _ => False) (go_value n) MValue w
  end.
Lemma tag_sim repr s w n v w1 : object n -> tag_rel s w -> hand_over (builder_assembler repr TyTag) n w = (v, w1) ->
  tag_rel (first_step TyTag s n) w1 /\ (if is_own TyTag n then v = (if has s then Panic else Ok tt) else v <> Ok tt).
Proof.
  intros O H E.
  assert (F : forall l u m, (exists sl, u = VStruct sl) -> foreign_calls (fields_of t_tag) tag_child l ->
    idle (fields_of t_tag) (fun _ => False) u m w ->
    (let '(r, w1) := exec repr (TStruct (fields_of t_tag)) w l in (told r, w1)) = (v, w1) ->
    idle (fields_of t_tag) (fun _ => False) u m w1 /\ v <> Ok tt).
  { intros l u m U Fl Il El. destruct (exec repr _ w l) as [r w2] eqn:X. injection El as <- <-.
    destruct (foreign_struct repr _ _ _ _ _ _ _ _ _ Fl ltac:(intros i; rewrite tag_required; discriminate) ltac:(exists 0; split; [cbn; lia|reflexivity]) U Il X).
    split; auto. now destruct r. }
  assert (C : (exists b, n = NBlob b) \/ (exists t, n = NTag t) \/ foreign_calls (fields_of t_tag) tag_child (tag_calls n) /\ is_own TyTag n = false /\ (forall b, n <> NBlob b)).
  { destruct n; try contradiction; eauto; right; right; (split; [apply tag_foreign|]; repeat split; congruence). }
  destruct C as [[b ->]|[[t ->]|(Fl & N & B)]].
  - cbn [is_own first_step] in *. cbn [hand_over builder_assembler asm_bytes type_of] in E.
    destruct s as [o|]; cbn in H.
    + destruct H as [Ho H]. rewrite (scalar_step repr (fields_of t_tag) _ _ _ _ (SBytes b) H : step repr t_tag _ _ = _) in E. injection E as <- <-. split; [now split|discriminate].
    + rewrite (scalar_step repr (fields_of t_tag) _ _ _ _ (SBytes b) H : step repr t_tag _ _ = _) in E. injection E as <- <-. split; [exact H|discriminate].
  - cbn [is_own]. cbn [hand_over builder_assembler asm_node type_of calls_of] in E. change (tag_calls (NTag t)) with [Do [] (AssignTyped (tag_val t))] in E.
    destruct s as [o|]; cbn [first_step is_own has].
    + destruct H as [Ho H]. rewrite (full_exec repr (fields_of t_tag) _ _ _ _ H : exec repr t_tag _ _ = _) in E. injection E as <- <-. split; [now split|reflexivity].
    + cbn in H. pose proof (idle_assign repr (fields_of t_tag) _ (tag_val t) _ w H eq_refl) as A. destruct w as [[x wv] mv].
      cbn [exec] in E. unfold step in E. cbn [fst snd call] in E. change (act repr t_tag) with (act_struct repr (fields_of t_tag)) in E.
      destruct A as [A A1]. rewrite A in E. injection E as <- <-. split; [|reflexivity]. split; [now exists t|exact A1].
  - rewrite N. assert (E1 : (let '(r, w1) := exec repr (TStruct (fields_of t_tag)) w (tag_calls n) in (told r, w1)) = (v, w1)).
    { destruct n; try contradiction; try exact E. now destruct (B s0). }
    unfold first_step. rewrite N. destruct s as [o|]; cbn in H |- *.
    + destruct H as [[t ->] H]. destruct (F _ _ _ ltac:(eexists; reflexivity) Fl H E1). split; auto. split; eauto.
    + destruct (F _ _ _ ltac:(eexists; reflexivity) Fl H E1). auto.
Qed.

(** *** Blobs *)
Definition blob_rel (s : option node) (w : world) : Prop :=
  match s with
  | None => w = new_builder t_blob
  | Some n => (exists b, n = NBlob b) /\ exists x, w = (x, Some (go_value n), Some MValue) /\ o_w (a_own x) = WParent /\ o_m (a_own x) = true
  end.
Lemma blob_sim repr s w n v w1 : object n -> blob_rel s w -> hand_over (builder_assembler repr TyBlob) n w = (v, w1) ->
  blob_rel (first_step TyBlob s n) w1 /\ (if is_own TyBlob n then v = (if has s then Panic else Ok tt) else v <> Ok tt).
Proof.
  intros O H E.
  assert (C : (exists b, n = NBlob b) \/ is_own TyBlob n = false /\ (Err EWrongKind, w) = (v, w1)).
  { destruct n; try contradiction; eauto; right; (split; [reflexivity|exact E]). }
  destruct C as [[b ->]|[N E1]].
  - cbn [is_own first_step hand_over builder_assembler asm_bytes] in *. destruct s as [o|]; cbn [first_step is_own has blob_rel] in *.
    + destruct H as (Ho & x & -> & Wx & Mx). unfold step in E. cbn [fst snd call act type_of] in E. unfold t_blob, act, act_scalar in E. cbn [kind_of skind_eqb] in E.
      unfold maybe_of in E. rewrite Mx in E. injection E as <- <-. split; [|reflexivity]. split; [exact Ho|]. now exists x.
    + subst w. cbn in E. injection E as <- <-. split; [|reflexivity]. split; [now exists b|]. eexists. repeat split.
  - injection E1 as <- <-. rewrite N. split; [|discriminate]. unfold first_step. rewrite N. now destruct s.
Qed.

(** *** Trees *)
Inductive tree_state := TEmpty (used : bool) | TFull (t : tree) (extra : option bytes) (used : bool).
Definition tree_step (s : tree_state) (n : node) : tree_state :=
  match s, n with
  | TEmpty u, NTree t => TFull t None u
  | TEmpty false, (NCommit _ | NTag _) => TEmpty true
  | TFull t None false, (NCommit _ | NTag _) => TFull t (left_entry n) true
  | s, _ => s
  end.
Definition tree_has (s : tree_state) : bool := match s with TEmpty _ => false | TFull _ _ _ => true end.
Definition tree_world (u : bool) (v : val) (m : maybe) (w : world) : Prop :=
  exists st s f c0 c1, w = (A (mkO WParent true st s f MAbsent) [A c0 []; c1], Some v, Some m) /\
    (if u then st = ExpectValue \/ st = MidValue else st = Initial).
Definition tree_rel (s : tree_state) (w : world) : Prop :=
  match s with
  | TEmpty u => exists v, tree_world u v MAbsent w /\ (u = false -> v = zero t_tree)
  | TFull t extra u => tree_world u (tree_with t extra) MValue w /\ (u = false -> extra = None)
  end.
Lemma tree_full s n : tree_has (tree_step s n) = tree_has s || is_own TyTree n.
Proof. destruct s as [[]|t [l|] []]; destruct n; reflexivity. Qed.

Lemma tree_used_key repr v m w rest r w1 : tree_world true v m w -> exec repr t_tree w (Do [] AssembleKey :: rest) = (r, w1) -> r = PANIC /\ w1 = w.
Proof.
  intros (st & s & f & c0 & c1 & -> & S) E. cbn in E. unfold tree_ready in E. cbn in E.
  destruct S as [-> | ->]; cbn in E; injection E as <- <-; auto.
Qed.

Lemma snoc_match {X Y} (l : list X) x (a b : Y) : match l ++ [x] with [] => a | _ :: _ => b end = b.
Proof. now destruct l. Qed.
Lemma set_last_snoc {X} (g : X -> X) l x : set_last g (l ++ [x]) = l ++ [g x].
Proof. unfold set_last. rewrite rev_app_distr. cbn [rev app]. now rewrite rev_involutive. Qed.

(** The first commit or tag that a tree builder gets *)
Lemma tree_fresh_key repr t keys m w k u rest r w1 : tree_world false (VTree t keys) m w -> entry_calls u = [Fail] ->
  exec repr t_tree w (tree_entry_calls (NString k, u) ++ rest) = (r, w1) ->
  r <> OK /\
  match keys with
  | Some l => tree_world true (VTree (t ++ [(k, zero t_entry)]) (Some (k :: l))) m w1
  | None => exists v1, tree_world true v1 m w1
  end.
Proof.
  intros (st & s & f & c0 & c1 & -> & ->) U E. unfold tree_entry_calls in E. cbn [fst snd] in E. rewrite U in E.
  change (string_calls (NString k)) with [Do [] (AssignTyped (text_val k))] in E.
  cbn in E. unfold tree_ready in E. cbn in E. rewrite rev_app_distr in E. cbn in E.
  rewrite set_last_snoc in E. cbn [snd] in E. rewrite snoc_match in E.
  destruct keys as [l|].
  - rewrite last_last in E. injection E as <- <-. split; [discriminate|].
    eexists MidValue, _, _, _, _. split; [reflexivity|]. now right.
  - injection E as <- <-. split; [discriminate|]. eexists. eexists ExpectValue, _, _, _, _. split; [reflexivity|]. now left.
Qed.

Lemma tree_foreign n : object n -> is_own TyTree n = false -> (forall b, n <> NBlob b) ->
  exists k u rest, left_entry n = Some k /\ tree_calls n = tree_entry_calls (NString k, u) ++ rest /\ entry_calls u = [Fail].
Proof.
  destruct n; intros O N B; try contradiction; try discriminate; try (exfalso; eapply B; reflexivity).
  - eexists (bs "object"), (NLink (Types.t_object t)), _. split; [reflexivity|].
    split; [unfold tree_calls; cbn [is_null map_entries flat_map]; rewrite <- app_assoc; reflexivity|reflexivity].
  - eexists (bs "tree"), (NTreeLink (c_tree c)), _. split; [reflexivity|].
    split; [unfold tree_calls; cbn [is_null map_entries flat_map]; rewrite <- app_assoc; reflexivity|reflexivity].
Qed.

Lemma tree_sim repr s w n v w1 : object n -> tree_rel s w -> hand_over (builder_assembler repr TyTree) n w = (v, w1) ->
  tree_rel (tree_step s n) w1 /\ (if is_own TyTree n then v = (if tree_has s then Panic else Ok tt) else v <> Ok tt).
Proof.
  intros O H E.
  assert (C : (exists b, n = NBlob b) \/ (exists t, n = NTree t) \/
    (exists k u rest, left_entry n = Some k /\ (let '(r, w1) := exec repr t_tree w (tree_entry_calls (NString k, u) ++ rest) in (told r, w1)) = (v, w1) /\ entry_calls u = [Fail]) /\
    is_own TyTree n = false /\ (forall s, tree_step s n = match s with TEmpty _ => TEmpty true | TFull t None false => TFull t (left_entry n) true | s => s end)).
  { destruct n; try contradiction; eauto; right; right.
    - destruct (tree_foreign (NTag t) O eq_refl ltac:(congruence)) as (k & u & rest & L & Q & U).
      split; [|split; [reflexivity|intros [[]|? [] []]; reflexivity]]. exists k, u, rest. split; auto. split; auto. rewrite <- Q. exact E.
    - destruct (tree_foreign (NCommit c) O eq_refl ltac:(congruence)) as (k & u & rest & L & Q & U).
      split; [|split; [reflexivity|intros [[]|? [] []]; reflexivity]]. exists k, u, rest. split; auto. split; auto. rewrite <- Q. exact E. }
  destruct C as [[b ->]|[[t ->]|((k & u & rest & L & E1 & U) & N & T)]].
  - assert (w1 = w /\ v = Err EWrongKind) as [-> ->].
    { destruct w as [[x wv] mv]. cbn in E. injection E as <- <-. auto. }
    split; [|discriminate]. now destruct s as [[]|t [l|] []].
  - cbn [is_own]. destruct s as [us|t0 l us]; cbn [tree_has].
    + destruct H as (v0 & (st & s & f & c0 & c1 & -> & S) & _). cbn in E. injection E as <- <-. split; [|reflexivity].
      assert (tree_rel (TFull t None us) (A (mkO WParent true st s f MAbsent) [A c0 []; c1], Some (tree_val t), Some MValue)) as G.
      { split; auto. now exists st, s, f, c0, c1. }
      destruct us; exact G.
    + destruct H as (W & G). pose proof W as (st & s & f & c0 & c1 & -> & S). cbn in E. injection E as <- <-. split; [|reflexivity].
      destruct l; destruct us; split; auto.
  - rewrite N, T. destruct (exec repr t_tree w _) as [r w2] eqn:X. injection E1 as <- <-. destruct s as [[]|t0 l []]; cbn [tree_rel] in H.
    + destruct H as (v0 & W & G). apply (tree_used_key repr _ _ _ _ _ _ W) in X as [-> ->]. split; [|discriminate]. exists v0. auto.
    + destruct H as (v0 & W & G). rewrite (G eq_refl) in W. destruct (tree_fresh_key repr [] None _ _ _ _ _ _ _ W U X) as [Y (v1 & W1)]. split; [|now destruct r].
      exists v1. split; auto. discriminate.
    + destruct H as (W & G). apply (tree_used_key repr _ _ _ _ _ _ W) in X as [-> ->]. split; [|discriminate]. now destruct l.
    + destruct H as (W & G). rewrite (G eq_refl) in W |- *. destruct (tree_fresh_key repr _ _ _ _ _ _ _ _ _ W U X) as [Y W1]. split; [|now destruct r].
      split; [|discriminate]. rewrite L. unfold tree_with, tree_val. cbn [tr_t tr_m]. rewrite map_app. exact W1.
Qed.

Lemma tree_fold ns : (match fold_left tree_step ns (TEmpty false) with TFull t extra _ => Some (tree_with t extra) | TEmpty _ => None end) = built_tree ns.
Proof.
  assert (Bf : forall b u, (forall x, In x b -> is_own TyTree x = false) -> fold_left tree_step b (TEmpty u) = TEmpty (match first_left b with Some _ => true | None => u end)).
  { induction b as [|x b IH]; intros u H; [reflexivity|]. cbn [fold_left first_left].
    assert (Hx := H x (or_introl eq_refl)). specialize (fun u => IH u (fun y Hy => H y (or_intror Hy))).
    destruct x; try discriminate; destruct u; cbn [tree_step left_entry]; rewrite ?IH; try reflexivity; now destruct (first_left b). }
  assert (Af : forall a t e, fold_left tree_step a (TFull t e true) = TFull t e true).
  { induction a as [|x a IH]; intros t e; [reflexivity|]. cbn [fold_left]. destruct e; destruct x; apply IH. }
  assert (Ag : forall a t, exists u, fold_left tree_step a (TFull t None false) = TFull t (first_left a) u).
  { induction a as [|x a IH]; intros t; [now exists false|]. cbn [fold_left first_left].
    destruct x; cbn [tree_step left_entry]; rewrite ?Af; eauto. }
  unfold built_tree. destruct (around TyTree ns) as [[[b n] a]|] eqn:X.
  - apply around_some in X as (-> & H & O). destruct n; try discriminate. rewrite fold_left_app, Bf by auto. cbn [fold_left tree_step].
    destruct (first_left b).
    + now rewrite Af.
    + destruct (Ag a t) as [u ->]. reflexivity.
  - pose proof (around_none _ _ X) as H. now rewrite Bf.
Qed.

(** *** Commits *)
Definition cfs := fields_of t_commit.
Definition place (r : role) : nat := match r with Author => 3 | Committer => 4 end.

(** A builder in which [author] or [committer] was begun while there was no such person *)
Definition pending (r : role) (v : val) (m : maybe) (w : world) : Prop :=
  exists s ch c, w = (A (mkO WParent true MidValue s (place r) MAbsent) ch, Some v, Some m) /\
    length ch = length cfs /\ Forall (optional cfs) s /\ nth_error ch (place r) = Some c /\ o_w (a_own c) = WNil.
(** A builder that takes no key any more *)
Definition stuck (w : world) : Prop :=
  idle cfs (fun _ => False) (zero t_commit) MAbsent w /\ let '(x, _, _) := w in o_st (a_own x) <> Initial.

Inductive commit_state := CNew | CUsed (p : option role) | CFull (p : option role) (lost : option role) (c : commit).
Definition commit_step (s : commit_state) (n : node) : commit_state :=
  match s, n with
  | CNew, NCommit c => CFull None None c
  | CNew, n => if opens n then CUsed (opened n) else CNew
  | CUsed p, NCommit c => CFull p None c
  | CFull (Some r) None c, n => if is_map n then CFull None (Some r) c else CFull (Some r) None c
  | s, _ => s
  end.
Definition commit_has (s : commit_state) : bool := match s with CFull _ _ _ => true | _ => false end.
Definition commit_rel (s : commit_state) (w : world) : Prop :=
  match s with
  | CNew => w = new_builder t_commit
  | CUsed None => stuck w
  | CUsed (Some r) => pending r (zero t_commit) MAbsent w
  | CFull None lost c => idle cfs (fun _ => True) (commit_without c lost) MValue w
  | CFull (Some r) None c => pending r (commit_val c) MValue w
  | CFull (Some _) (Some _) _ => False
  end.
Lemma commit_full s n : commit_has (commit_step s n) = commit_has s || is_own TyCommit n.
Proof. destruct s as [|[]|[] [] c]; destruct n; try reflexivity. cbn. now destruct (tr_t t) as [|[]]. Qed.

Lemma commit_opens n : object n -> is_own TyCommit n = false -> (forall b, n <> NBlob b) ->
  is_map n = true /\
  ((opens n = false /\ commit_calls n = [Do [] Finish]) \/
   (opens n = true /\ exists k u rest, commit_calls n = field_calls cfs commit_child (NString k, u) ++ rest /\
      (forall i, field_index cfs k = Some i -> hopeless cfs i (commit_child i u)) /\
      match opened n with
      | Some r => field_index cfs k = Some (place r)
      | None => forall i, field_index cfs k = Some i -> kind_at cfs i <> OptionalPointer
      end)).
Proof.
  destruct n; intros O N B; try contradiction; try discriminate; try (exfalso; eapply B; reflexivity); (split; [reflexivity|]).
  - right. split; [reflexivity|]. eexists (bs "object"), NNull, _. split; [reflexivity|]. split; intros i X; discriminate.
  - unfold commit_calls, struct_calls. cbn [is_null map_entries opens opened]. destruct (tr_t t) as [|[k e] r]; [now left|].
    right. split; [reflexivity|]. eexists k, (NEntry e), _. split; [cbn [map fields_calls flat_map]; rewrite <- app_assoc; reflexivity|].
    split.
    + intros i X. apply field_index_lt in X. unfold cfs in X. cbn [length fields_of t_commit] in X.
      destruct i as [|[|[|[|[|[|[|[|[|i]]]]]]]]]; try lia; try (left; reflexivity); now apply person_hopeless.
    + destruct (beqb_spec k (bs "author")) as [->|Na]; [reflexivity|]. destruct (beqb_spec k (bs "committer")) as [->|Nc]; [reflexivity|].
      intros i X. unfold cfs, fields_of, t_commit in X. cbn [field_index f_name fst required] in X.
      repeat (match type of X with context [beqb ?a k] => destruct (beqb_spec a k); cbn [option_map] in X end;
              [first [congruence | injection X as <-; intros Z; vm_compute in Z; discriminate Z]|]).
      discriminate.
Qed.

(** Calls that begin with a key or with the end see the rest of the builder through
    [struct_ready] only. *)
Definition keyed (l : list action) : Prop := exists r, l = Do [] AssembleKey :: r \/ l = Do [] Finish :: r.
Lemma exec_none repr fs x wv mv l : keyed l -> struct_ready repr fs x wv = None -> exec repr (TStruct fs) (x, wv, mv) l = (PANIC, (x, wv, mv)).
Proof.
  intros [r [-> | ->]] E; cbn [exec]; unfold step; cbn [fst snd call act act_struct]; rewrite E; reflexivity.
Qed.
Lemma exec_ready repr fs x wv mv l x1 wv1 : keyed l -> struct_ready repr fs x wv = Some (x1, wv1) -> o_st (a_own x1) = Initial ->
  exec repr (TStruct fs) (x, wv, mv) l = exec repr (TStruct fs) (x1, wv1, mv) l.
Proof.
  intros K E S. assert (E1 : struct_ready repr fs x1 wv1 = Some (x1, wv1)) by (unfold struct_ready; now rewrite S).
  destruct K as [r [-> | ->]]; cbn [exec]; unfold step; cbn [fst snd call act act_struct]; rewrite E, E1; reflexivity.
Qed.
Lemma foreign_keyed fs child l : foreign_calls fs child l -> keyed l.
Proof. intros [->|(k & u & rest & -> & _)]; eexists; [right|left]; reflexivity. Qed.

Lemma stuck_exec repr w l : stuck w -> keyed l -> exec repr t_commit w l = (PANIC, w).
Proof.
  intros [I S] K. destruct I as [st s f ch L M H]. cbn in S. apply (exec_none repr cfs); [exact K|]. unfold struct_ready. cbn [a_own o_st].
  destruct st; try reflexivity; [now destruct S|]. unfold struct_tidy. cbn [a_own o_f o_cm target o_w].
  destruct (kind_at cfs f) eqn:Kf; [reflexivity| |].
  - do 9 (destruct f as [|f]; [try discriminate; reflexivity|]). now destruct f.
  - destruct H as [H|[_ H]]; [congruence|]. now destruct (H eq_refl).
Qed.
Lemma pending_exec repr r w l : pending r (zero t_commit) MAbsent w -> keyed l -> exec repr t_commit w l = (PANIC, w).
Proof.
  intros (s & ch & c & -> & _) K. apply exec_none; [exact K|]. destruct r; reflexivity.
Qed.

Lemma commit_without_none c : commit_without c None = commit_val c.
Proof. reflexivity. Qed.
Lemma commit_struct c l : exists sl, commit_without c l = VStruct sl.
Proof. eexists; reflexivity. Qed.
Lemma some_required : exists i, i < length cfs /\ kind_at cfs i = Required.
Proof. exists 0. split; [cbn; lia|reflexivity]. Qed.

(** The next map after a commit that has such a person *)
Lemma pending_lost repr r c w l v w1 : pending r (commit_val c) MValue w -> foreign_calls cfs commit_child l ->
  exec repr t_commit w l = (v, w1) -> v <> OK /\ idle cfs (fun _ => True) (commit_without c (Some r)) MValue w1.
Proof.
  intros (s & ch & d & -> & L & F & Hd & Wd) Fl E.
  assert (G : forall w, idle cfs (fun _ => True) (commit_without c (Some r)) MValue w -> exec repr t_commit w l = (v, w1) ->
    v <> OK /\ idle cfs (fun _ => True) (commit_without c (Some r)) MValue w1).
  { intros w I X. exact (foreign_struct repr cfs (fun _ => True) _ _ _ _ _ _ _ Fl (fun _ _ => Logic.I) some_required (commit_struct _ _) I X). }
  destruct (match r with Author => c_author c | Committer => c_committer c end) as [p|] eqn:P.
  - rewrite (exec_ready repr cfs _ _ _ l (A (mkO WParent true Initial s (place r) MAbsent) ch) (Some (commit_without c (Some r))) (foreign_keyed _ _ _ Fl)) in E; [|destruct r|reflexivity].
    + apply (G _) in E; auto. constructor; auto.
    + unfold struct_ready, struct_tidy. cbn [a_own o_st o_f o_cm target o_w place]. cbn [place] in Hd.
      change (kind_at cfs 3) with OptionalPointer. unfold slot_at, slots, commit_val. rewrite P. cbn [nth fst pointer_val].
      cbn [a_ch]. rewrite Hd, Wd. unfold commit_without. rewrite P. reflexivity.
    + unfold struct_ready, struct_tidy. cbn [a_own o_st o_f o_cm target o_w place]. cbn [place] in Hd.
      change (kind_at cfs 4) with OptionalPointer. unfold slot_at, slots, commit_val. rewrite P. cbn [nth fst pointer_val].
      cbn [a_ch]. rewrite Hd, Wd. unfold commit_without. rewrite P. reflexivity.
  - assert (commit_without c (Some r) = commit_val c) as Q by (destruct r; unfold commit_without, commit_val; rewrite P; reflexivity).
    apply (G _) in E; auto. rewrite Q. constructor; auto. right. split; auto. intros _. split; auto. exists d. split; auto.
    rewrite Wd. destruct r; unfold slot_at, slots, commit_val; cbn [place nth]; rewrite P; reflexivity.
Qed.

Lemma commit_sim repr s w n v w1 : object n -> commit_rel s w -> hand_over (builder_assembler repr TyCommit) n w = (v, w1) ->
  commit_rel (commit_step s n) w1 /\ (if is_own TyCommit n then v = (if commit_has s then Panic else Ok tt) else v <> Ok tt).
Proof.
  intros O H E.
  assert (C : (exists b, n = NBlob b) \/ (exists c, n = NCommit c) \/
     ((let '(r, w1) := exec repr t_commit w (commit_calls n) in (told r, w1)) = (v, w1) /\ is_own TyCommit n = false /\ (forall b, n <> NBlob b))).
  { destruct n; try contradiction; eauto; right; right; (split; [exact E|]; split; [reflexivity|congruence]). }
  destruct C as [[b ->]|[[c ->]|(E1 & N & B)]].
  - assert (w1 = w /\ v = Err EWrongKind) as [-> ->].
    { destruct w as [[x wv] mv]. cbn in E. injection E as <- <-. auto. }
    split; [|discriminate]. destruct s as [|p|[r|] [l|] c]; exact H.
  - cbn [is_own]. cbn [hand_over builder_assembler asm_node type_of calls_of] in E. change (commit_calls (NCommit c)) with [Do [] (AssignTyped (commit_val c))] in E.
    destruct s as [|[r|]|[r|] [l|] d]; cbn [commit_rel commit_step commit_has is_map] in *.
    + subst w. pose proof (idle_assign repr cfs _ (commit_val c) _ _ (new_idle cfs _) eq_refl) as A. change (new_builder (TStruct cfs)) with (new_builder t_commit) in A.
      destruct (new_builder t_commit) as [[x wv] mv]. cbn [exec] in E. unfold step in E. cbn [fst snd call] in E. change (act repr t_commit) with (act_struct repr cfs) in E.
      destruct A as [A A1]. rewrite A in E. injection E as <- <-. split; [|reflexivity]. eapply idle_more; [|exact A1]. auto.
    + destruct H as (s & ch & d & -> & L & F & Hd & Wd). cbn in E. injection E as <- <-. split; [|reflexivity]. exists s, ch, d. auto.
    + destruct H as [H _]. pose proof (idle_assign repr cfs _ (commit_val c) _ _ H eq_refl) as A.
      destruct w as [[x wv] mv]. cbn [exec] in E. unfold step in E. cbn [fst snd call] in E. change (act repr t_commit) with (act_struct repr cfs) in E.
      destruct A as [A A1]. rewrite A in E. injection E as <- <-. split; [|reflexivity]. eapply idle_more; [|exact A1]. auto.
    + contradiction.
    + destruct H as (s & ch & e & -> & L & F & Hd & Wd). cbn in E. injection E as <- <-. split; [|reflexivity]. exists s, ch, e. auto 10.
    + rewrite (full_exec repr cfs _ _ _ _ H : exec repr t_commit _ _ = _) in E. injection E as <- <-. auto.
    + rewrite (full_exec repr cfs _ _ _ _ H : exec repr t_commit _ _ = _) in E. injection E as <- <-. auto.
  - rewrite N. destruct (exec repr t_commit w _) as [r w2] eqn:X. injection E1 as <- <-.
    destruct (commit_opens n O N B) as [Mp D]. pose proof (commit_foreign n O N B) as Fl. pose proof (foreign_keyed _ _ _ Fl) as K.
    assert (T : forall s, commit_step s n = match s with CNew => if opens n then CUsed (opened n) else CNew | CFull (Some r) None c => CFull None (Some r) c | s => s end).
    { intros s0. destruct n; try discriminate; destruct s0 as [|[]|[] [] ?]; reflexivity. }
    rewrite T. destruct s as [|[p|]|[p|] [l|] d]; cbn [commit_rel] in H.
    + subst w. destruct D as [[-> D]|[-> (k & u & rest & D & Hh & Hp)]].
      * rewrite D in X. cbn in X. injection X as <- <-. split; [reflexivity|discriminate].
      * rewrite D in X.
        destruct (foreign_exec repr cfs (fun i => field_index cfs k = Some i) (zero t_commit) MAbsent commit_child k u rest (new_builder t_commit) r w2
                    ltac:(eexists; reflexivity) (new_idle cfs _) ltac:(intros i Hi; split; [now apply Hh|auto]) X) as (R & Id & Sh).
        split; [|now destruct r]. destruct (Sh eq_refl) as (st & s & f & ch & -> & Y). cbn [commit_rel].
        inversion Id as [st0 s0 f0 ch0 L M Hi]. subst. destruct (opened n) as [p|].
        -- rewrite Hp in Y. destruct Y as [-> ->]. assert (kind_at cfs (place p) = OptionalPointer) as Kp by (now destruct p).
           destruct Hi as [Hi|[F Hi]]; [congruence|]. destruct (Hi Kp) as (_ & c & Hc & Wc).
           exists s, ch, c. repeat split; auto. rewrite Wc. now destruct p.
        -- split; [|cbn [a_own o_st]; destruct (field_index cfs k) as [j|]; [destruct Y as [-> _]|rewrite Y]; discriminate].
           destruct (field_index cfs k) as [i|].
           ++ destruct Y as [-> ->]. constructor; auto. destruct Hi as [Hi|[F Hi]]; [now left|]. right. split; auto. intros Kp. now destruct (Hp i eq_refl).
           ++ subst st. constructor; auto.
    + rewrite (pending_exec repr p w _ H K) in X. injection X as <- <-. split; [exact H|discriminate].
    + rewrite (stuck_exec repr w _ H K) in X. injection X as <- <-. split; [exact H|discriminate].
    + contradiction.
    + destruct (pending_lost repr p d w _ r w2 H Fl X) as [R I]. split; [exact I|now destruct r].
    + destruct (foreign_struct repr cfs (fun _ => True) _ _ _ _ _ _ _ Fl (fun _ _ => Logic.I) some_required (commit_struct _ _) H X). split; [auto|now destruct r].
    + destruct (foreign_struct repr cfs (fun _ => True) _ _ _ _ _ _ _ Fl (fun _ _ => Logic.I) some_required (commit_struct _ _) H X). split; [auto|now destruct r].
Qed.

Lemma commit_fold ns :
  match fold_left commit_step ns CNew with
  | CFull (Some _) (Some _) _ => False
  | CFull _ lost c => Some (commit_without c lost) = built_commit ns
  | _ => built_commit ns = None
  end.
Proof.
  assert (Us : forall b p, (forall x, In x b -> is_own TyCommit x = false) -> fold_left commit_step b (CUsed p) = CUsed p).
  { induction b as [|x b IH]; intros p H; [reflexivity|]. cbn [fold_left].
    assert (Hx := H x (or_introl eq_refl)). destruct x; try discriminate; apply IH; intros y Hy; apply H; now right. }
  assert (Bf : forall b, (forall x, In x b -> is_own TyCommit x = false) ->
    fold_left commit_step b CNew = if existsb opens b then CUsed (first_opened b) else CNew).
  { induction b as [|x b IH]; intros H; [reflexivity|]. cbn [fold_left existsb first_opened].
    assert (Hx := H x (or_introl eq_refl)). assert (Hb : forall y, In y b -> is_own TyCommit y = false) by (intros y Hy; apply H; now right).
    replace (commit_step CNew x) with (if opens x then CUsed (opened x) else CNew) by (destruct x; try discriminate; reflexivity).
    destruct (opens x); cbn [orb]; [now apply Us|now apply IH]. }
  assert (Fo : forall b, existsb opens b = false -> first_opened b = None).
  { induction b as [|x b IH]; [reflexivity|]. cbn. destruct (opens x); [discriminate|exact IH]. }
  assert (Af : forall a l c, fold_left commit_step a (CFull None l c) = CFull None l c).
  { induction a as [|x a IH]; intros l c; [reflexivity|]. cbn [fold_left]. destruct x; apply IH. }
  assert (Ag : forall a r c, fold_left commit_step a (CFull (Some r) None c) = if existsb is_map a then CFull None (Some r) c else CFull (Some r) None c).
  { induction a as [|x a IH]; intros r c; [reflexivity|]. cbn [fold_left existsb].
    replace (commit_step (CFull (Some r) None c) x) with (if is_map x then CFull None (Some r) c else CFull (Some r) None c) by reflexivity.
    destruct (is_map x); cbn [orb]; [apply Af|apply IH]. }
  unfold built_commit. destruct (around TyCommit ns) as [[[b n] a]|] eqn:X.
  - apply around_some in X as (-> & H & O). destruct n; try discriminate. rewrite fold_left_app, Bf by auto. cbn [fold_left].
    destruct (existsb opens b) eqn:Eo; cbn [commit_step].
    + destruct (first_opened b) as [r|].
      * rewrite Ag. now destruct (existsb is_map a).
      * rewrite Af. now destruct (existsb is_map a).
    + rewrite Af, Fo by auto. now destruct (existsb is_map a).
  - pose proof (around_none _ _ X) as H. rewrite Bf by auto. now destruct (existsb opens ns).
Qed.

(** ** The theorem

    Whatever the readers and whatever they hold, in the typed and in the representation view. *)
Theorem decoding_again_and_again : forall S V (ops : rdops S V) repr k ss vs w,
  decode_all ops repr k ss (new_builder (type_of k)) = (vs, w) ->
  answers k false (map (parse_object ops) ss) vs /\
  build w = built k (objects (map (parse_object ops) ss)).
Proof.
  intros S V ops repr k ss vs w E. rewrite decode_all_give in E.
  assert (O : forall n, In (Ok n) (map (parse_object ops) ss) -> object n).
  { intros n Hn. apply in_map_iff in Hn as (s & Hs & _). now apply parsed_object in Hs. }
  destruct k.
  - destruct (machine repr TyBlob _ (first_step TyBlob) has blob_rel (first_full TyBlob) (blob_sim repr) _ O None _ _ _ eq_refl E) as [A R].
    split; [exact A|]. cbn [built]. rewrite <- first_fold. destruct (fold_left _ _ _) as [n|]; cbn in R |- *.
    + destruct R as (_ & x & -> & W & _). cbn. unfold target. now rewrite W.
    + now subst w.
  - destruct (machine repr TyCommit _ commit_step commit_has commit_rel commit_full (commit_sim repr) _ O CNew _ _ _ eq_refl E) as [A R].
    split; [exact A|]. cbn [built]. pose proof (commit_fold (objects (map (parse_object ops) ss))) as F.
    destruct (fold_left _ _ _) as [|[r|]|[r|] [l|] c]; cbn [commit_rel] in R; first [contradiction | rewrite F | rewrite <- F].
    + now subst w.
    + destruct R as (s & ch & d & -> & _). reflexivity.
    + destruct R as [I _]. now destruct I.
    + destruct R as (s & ch & d & -> & _). reflexivity.
    + now destruct R.
    + now destruct R.
  - destruct (machine repr TyTag _ (first_step TyTag) has tag_rel (first_full TyTag) (tag_sim repr) _ O None _ _ _ (new_idle _ _) E) as [A R].
    split; [exact A|]. cbn [built]. rewrite <- first_fold. destruct (fold_left _ _ _) as [n|]; cbn in R |- *.
    + destruct R as [_ R]. now destruct R.
    + now destruct R.
  - assert (N : tree_rel (TEmpty false) (new_builder t_tree)).
    { exists (zero t_tree). split; auto. eexists Initial, _, _, _, _. split; reflexivity. }
    destruct (machine repr TyTree _ tree_step tree_has tree_rel tree_full (tree_sim repr) _ O (TEmpty false) _ _ _ N E) as [A R].
    split; [exact A|]. cbn [built]. rewrite <- tree_fold. destruct (fold_left _ _ _) as [u|t e u]; cbn in R |- *.
    + destruct R as (v0 & (st & s & f & c0 & c1 & -> & _) & _). reflexivity.
    + destruct R as ((st & s & f & c0 & c1 & -> & _) & _). reflexivity.
Qed.
Print Assumptions decoding_again_and_again.

(** *** Tags and blobs stay what they are. *)
Lemma decode_all_app S V (ops : rdops S V) repr k a b w :
  decode_all ops repr k (a ++ b) w =
  let '(va, w1) := decode_all ops repr k a w in let '(vb, w2) := decode_all ops repr k b w1 in (va ++ vb, w2).
Proof.
  revert w. induction a as [|s a IH]; intros w; cbn [app decode_all]; [now destruct (decode_all ops repr k b w)|].
  destruct (decode_any ops (builder_assembler repr k) s w) as [v w1]. rewrite IH.
  destruct (decode_all ops repr k a w1) as [va w2]. now destruct (decode_all ops repr k b w2).
Qed.
Lemma objects_app a b : objects (a ++ b) = objects a ++ objects b.
Proof. induction a as [|[n|e| |] a IH]; cbn; auto. now rewrite IH. Qed.
Lemma around_app k a b x : around k a = Some x -> around k (a ++ b) = Some (fst x, snd x ++ b).
Proof.
  revert x. induction a as [|n a IH]; cbn; intros x E; [discriminate|]. destruct (is_own k n).
  - now injection E as <-.
  - destruct (around k a) as [[[c o] d]|]; [|discriminate]. rewrite (IH _ eq_refl). cbn. now injection E as <-.
Qed.

Theorem a_held_tag_or_blob_stays : forall S V (ops : rdops S V) repr k ss vs w more vs1 w1 x,
  k = TyTag \/ k = TyBlob ->
  decode_all ops repr k ss (new_builder (type_of k)) = (vs, w) -> build w = Some x ->
  decode_all ops repr k more w = (vs1, w1) ->
  build w1 = Some x /\ Forall (fun v => v <> Ok tt) vs1.
Proof.
  intros S V ops repr k ss vs w more vs1 w1 x K E B E1.
  assert (built k (objects (map (parse_object ops) ss)) = Some x) as B0.
  { destruct (decoding_again_and_again _ _ _ _ _ _ _ _ E) as [_ B0]. congruence. }
  assert (decode_all ops repr k (ss ++ more) (new_builder (type_of k)) = (vs ++ vs1, w1)) as E2.
  { rewrite decode_all_app, E, E1. reflexivity. }
  destruct (decoding_again_and_again _ _ _ _ _ _ _ _ E) as [A0 _].
  destruct (decoding_again_and_again _ _ _ _ _ _ _ _ E2) as [A B2]. rewrite map_app in A, B2. rewrite objects_app in B2.
  assert (exists y, around k (objects (map (parse_object ops) ss)) = Some y) as [y Y].
  { destruct K as [-> | ->]; cbn [built] in B0; unfold built_first in B0; destruct (around _ _); try discriminate; eauto. }
  split.
  - rewrite B2. destruct K as [-> | ->]; cbn [built] in *; unfold built_first in *; rewrite (around_app _ _ _ _ Y), Y in *; destruct y as [[b o] a]; exact B0.
  - clear B B0 B2 E E1 E2.
    assert (T : forall ps us, answers k true ps us -> Forall (fun v => v <> Ok tt) us).
    { induction ps as [|p ps IH]; intros [|u us] H; try contradiction; auto. cbn in H. destruct p as [n|e| |].
      - destruct (is_own k n); destruct H as [H H1]; [subst u|]; constructor; auto; discriminate.
      - destruct H as [-> H]. constructor; auto; discriminate.
      - destruct H as [-> H]. constructor; auto; discriminate.
      - destruct H as [-> H]. constructor; auto; discriminate. }
    assert (U : forall ps us f, answers k f ps us -> forall qs ts y, around k (objects ps) = Some y -> answers k f (ps ++ qs) (us ++ ts) -> answers k true qs ts).
    { induction ps as [|p ps IH]; intros us f H qs ts z Z H1; [discriminate|]. destruct us as [|u us]; [contradiction|]. cbn in H, H1. destruct p as [n|e| |]; cbn [objects around] in Z.
      - destruct (is_own k n) eqn:On.
        + destruct H as [_ H], H1 as [_ H1]. clear - H H1. revert us H H1. induction ps as [|p ps IH]; intros [|u us] H H1; try contradiction; auto.
          cbn in H, H1. destruct p as [n|e| |]; [destruct (is_own k n)| | |]; destruct H as [_ H], H1 as [_ H1]; eauto.
        + destruct (around k (objects ps)) as [q|] eqn:Q; [|discriminate]. destruct H as [_ H], H1 as [_ H1]. eapply IH; eauto.
      - destruct H as [_ H], H1 as [_ H1]. eapply IH; eauto.
      - destruct H as [_ H], H1 as [_ H1]. eapply IH; eauto.
      - destruct H as [_ H], H1 as [_ H1]. eapply IH; eauto. }
    eapply T, (U _ _ _ A0); eauto.
Qed.
Print Assumptions a_held_tag_or_blob_stays.

(** *** Trees and commits do not. *)
Definition hash20 : bytes := repeat x61 20.
Definition a_tree (names : list bytes) : stream :=
  mk (bs "tree 1" ++ [NUL] ++ concat (map (fun n => bs "100644 " ++ n ++ [NUL] ++ hash20) names)) EEOF.
Definition a_commit : stream :=
  mk (bs "commit 1" ++ [NUL] ++ bs "tree " ++ hex_encode hash20 ++ [NL] ++ bs "author A <a> 1 2" ++ [NL] ++ bs "committer A <a> 1 2" ++ [NL; NL] ++ bs "hi") EEOF.
Definition a_tag : stream := mk (bs "tag 1" ++ [NUL] ++ bs "tag v1") EEOF.
Definition a_blob : stream := mk (bs "blob 2" ++ [NUL] ++ bs "hi") EEOF.
Definition decoded (repr : bool) (k : object_type) (ss : list stream) : list (res unit) * option val :=
  let '(vs, w) := decode_all (stream_ops 64) repr k ss (new_builder (type_of k)) in (vs, build w).

Theorem a_held_tree_stays_refuted : ~ (forall repr ss s x,
  snd (decoded repr TyTree ss) = Some x -> snd (decoded repr TyTree (ss ++ [s])) = Some x).
Proof. intros H. specialize (H false [a_tree [bs "a"]] a_commit). vm_compute in H. specialize (H _ eq_refl). discriminate. Qed.
Print Assumptions a_held_tree_stays_refuted.

Theorem a_held_commit_stays_refuted : ~ (forall repr ss s x,
  snd (decoded repr TyCommit ss) = Some x -> snd (decoded repr TyCommit (ss ++ [s])) = Some x).
Proof. intros H. specialize (H true [a_tree [bs "author"]; a_commit] a_tag). vm_compute in H. specialize (H _ eq_refl). discriminate. Qed.
Print Assumptions a_held_commit_stays_refuted.

(** The values above in the terms of the specification *)
Example spoiled_tree : exists t,
  parse_object (stream_ops 64) (a_tree [bs "a"]) = Ok (NTree t) /\
  decoded false TyTree [a_blob; a_tree [bs "a"]; a_commit; a_tag; a_tree [bs "b"]]
    = ([Err EWrongKind; Ok tt; Err EWrongKind; Panic; Panic],
       Some (tree_val {| tr_t := tr_t t ++ [(bs "tree", zero_entry)]; tr_m := (bs "tree", zero_entry) :: tr_m t |})) /\
  decoded true TyTree [a_tag; a_tree [bs "a"]; a_tag; a_commit] = ([Panic; Ok tt; Panic; Panic], Some (tree_val t)).
Proof. eexists. split; [vm_compute; reflexivity|]. split; vm_compute; reflexivity. Qed.
Example spoiled_commit : exists c,
  parse_object (stream_ops 64) a_commit = Ok (NCommit c) /\
  decoded false TyCommit [a_tree [bs "author"]; a_commit; a_tree []; a_commit]
    = ([Err EWrongKind; Ok tt; Err EWrongKind; Panic], Some (commit_without c (Some Author))) /\
  decoded true TyCommit [a_tree [bs "committer"]; a_tree [bs "author"]; a_commit; a_tag]
    = ([Err EWrongKind; Panic; Ok tt; Err EWrongKind], Some (commit_without c (Some Committer))) /\
  decoded true TyCommit [a_commit; a_tree [bs "author"]; a_tag] = ([Ok tt; Err EWrongKind; Err EWrongKind], Some (commit_val c)) /\
  commit_without c (Some Author) <> commit_val c.
Proof. eexists. split; [vm_compute; reflexivity|]. repeat split; try (vm_compute; reflexivity). vm_compute. discriminate. Qed.
Example kept_tag : exists t,
  parse_object (stream_ops 64) a_tag = Ok (NTag t) /\
  decoded true TyTag [a_tree [bs "tagger"]; mk (bs "blob 9") EEOF; a_tag; a_commit; a_tree []; a_tag]
    = ([Err EWrongKind; Err EEOF; Ok tt; Panic; Panic; Panic], Some (tag_val t)).
Proof. eexists. split; vm_compute; reflexivity. Qed.
