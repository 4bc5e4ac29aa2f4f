(** C60: the generated code and the schema it is generated from. *)
From Verif Require Import Base GoStr Cid Types Nodes NodeSpec NodeFacts Reader Person Assemble Decode Schema StructSpec SchemaSpec Spec StructFacts Props_struct Props_decode.
From Verif Require Builder.
From Coq Require Import Permutation.

(** ** Specification: the type of a typed node, and the links it holds. *)
Definition type_of (n : node) : option bytes :=
  match n with
  | NBlob _ => Some (bs "Blob") | NString _ => Some (bs "String") | NGpgSig _ => Some (bs "GpgSig")
  | NLink _ => Some (bs "Link") | NTreeLink _ => Some (bs "Tree_Link") | NCommitLink _ => Some (bs "Commit_Link")
  | NPerson _ => Some (bs "PersonInfo") | NTag _ => Some (bs "Tag") | NTagList _ => Some (bs "Tag_List")
  | NStringList _ => Some (bs "String_List") | NCommitLinkList _ => Some (bs "Commit_Link_List")
  | NCommit _ => Some (bs "Commit") | NEntry _ => Some (bs "TreeEntry") | NTree _ => Some (bs "Tree")
  | _ => None
  end.
Definition links_in (n : node) : list link :=
  match n with
  | NLink l | NTreeLink l | NCommitLink l => [l]
  | NTag t => [t_object t]
  | NTagList l => map t_object l
  | NCommitLinkList l => l
  | NCommit c => c_tree c :: c_parents c ++ map t_object (c_mergetag c)
  | NEntry e => [e_hash e]
  | NTree t => map (fun ke => e_hash (snd ke)) (tr_t t)
  | _ => []
  end.
Definition distinct_names (n : node) : Prop := match n with NTree t => NoDup (map fst (tr_t t)) | _ => True end.

(** ** Looking into the schema *)
Lemma at_most_one {A} (l : list (bytes * A)) T D D' : NoDup (map fst l) -> In (T, D) l -> In (T, D') l -> D = D'.
Proof.
  induction l as [|[k x] l IH]; [easy|]. cbn [map fst]. intros N. inversion N as [|? ? N1 N2]. subst.
  intros [E|H] [E'|H'].
  - congruence.
  - injection E as -> ->. destruct N1. change T with (fst (T, D')). now apply in_map.
  - injection E' as -> ->. destruct N1. change T with (fst (T, D)). now apply in_map.
  - auto.
Qed.
Lemma names_nodup : NoDup (map fst git_schema).
Proof. apply Checks.nodupb_ok. vm_compute. reflexivity. Qed.
Lemma one_def T D D' : In (T, D) git_schema -> In (T, D') git_schema -> D = D'.
Proof. apply at_most_one, names_nodup. Qed.

Ltac here := unfold git_schema; repeat first [left; reflexivity | right].

Section Inv.
Context (good : link -> Prop) (lv : level).
Notation conf := (conforms git_schema good lv).
Lemma inv_string T n : In (T, DString) git_schema -> conf T n <-> exists s, is_text n s.
Proof.
  intros I. split.
  - intros C. inversion C; subst; try (match goal with H : In (T, _) git_schema |- _ => pose proof (one_def _ _ _ I H) as X; discriminate X end). eauto.
  - intros [s H]. now apply cf_string with s.
Qed.
Lemma inv_bytes T n : In (T, DBytes) git_schema -> conf T n <-> exists s, as_bytes n = Ok s.
Proof.
  intros I. split.
  - intros C. inversion C; subst; try (match goal with H : In (T, _) git_schema |- _ => pose proof (one_def _ _ _ I H) as X; discriminate X end). eauto.
  - intros [s H]. now apply cf_bytes with s.
Qed.
Lemma inv_link T g n : In (T, DLink g) git_schema -> conf T n <-> exists l, is_link n l /\ good l.
Proof.
  intros I. split.
  - intros C. inversion C; subst; try (match goal with H : In (T, _) git_schema |- _ => pose proof (one_def _ _ _ I H) as X; discriminate X end). eauto.
  - intros (l & H & G). now apply cf_link with l g.
Qed.
Lemma not_null T n : or_null git_schema good lv false T n <-> conf T n.
Proof. split; [intros H; now inversion H|now constructor]. Qed.
Lemma inv_list T e n : In (T, DList e false) git_schema -> conf T n <-> exists items, list_items n = Some items /\ Forall (conf e) items.
Proof.
  intros I. split.
  - intros C. inversion C; subst; try (match goal with H : In (T, _) git_schema |- _ => pose proof (one_def _ _ _ I H) as X; discriminate X end).
    match goal with H : In (T, DList _ _) git_schema |- _ => pose proof (one_def _ _ _ I H) as X end. inversion X. subst.
    exists (map snd items). split; [now apply lists_list_items|]. apply Forall_map. eapply Forall_impl; [|eassumption]. intros a. apply not_null.
  - intros (items & H & F). apply cf_list with e false (numbered items); auto; [now apply list_items_lists|].
    apply Forall_map. rewrite numbered_items. eapply Forall_impl; [|exact F]. intros a. apply not_null.
Qed.
Lemma inv_map T k e n : In (T, DMap k e false) git_schema -> conf T n <->
  exists kvs names, map_entries n = Some kvs /\ Forall2 (fun kv name => is_text (fst kv) name) kvs names /\ NoDup names /\
    Forall (fun kv => conf k (fst kv)) kvs /\ Forall (fun kv => conf e (snd kv)) kvs.
Proof.
  intros I. split.
  - intros C. inversion C; subst; try (match goal with H : In (T, _) git_schema |- _ => pose proof (one_def _ _ _ I H) as X; discriminate X end).
    match goal with H : In (T, DMap _ _ _) git_schema |- _ => pose proof (one_def _ _ _ I H) as X end. inversion X. subst.
    exists kvs, names. split; [now apply map_entries_yields|]. do 3 (split; [assumption|]). eapply Forall_impl; [|eassumption]. intros a. apply not_null.
  - intros (kvs & names & H & F & N & K & V). apply cf_map with k e false kvs names; auto; [now apply map_entries_yields|]. eapply Forall_impl; [|exact V]. intros a. apply not_null.
Qed.
Definition is_member (f : field_def) (kv : node * node) : Prop :=
  is_text (fst kv) (fd_name f) /\ (conf (fd_type f) (snd kv) \/ lv = Typed /\ fd_optional f = true /\ snd kv = NAbsent).
Lemma inv_struct T fs n : In (T, DStruct fs) git_schema -> (forall f, In f fs -> fd_nullable f = false) -> conf T n <->
  exists gs kvs kvs', map_entries n = Some kvs /\ (match lv with Typed => gs = fs | Representation => selection fs gs end) /\
    Permutation kvs' kvs /\ Forall2 is_member gs kvs'.
Proof.
  intros I NN.
  assert (forall gs, (match lv with Typed => gs = fs | Representation => selection fs gs end) -> forall f, In f gs -> fd_nullable f = false) as NG.
  { intros gs S f Hf. apply NN. destruct lv; [now subst|]. clear -S Hf. induction S; [easy|destruct Hf; [now left|right; auto]|right; auto]. }
  assert (forall gs kvs, (forall f, In f gs -> fd_nullable f = false) ->
    Forall2 (fun f kv => is_text (fst kv) (fd_name f) /\ field_value git_schema good lv f (snd kv)) gs kvs <-> Forall2 is_member gs kvs) as Eq.
  { induction gs as [|f gs IH]; intros kvs Hg; split; intros F; inversion F as [|? ? ? ? [A B] F']; subst; constructor.
    - split; [assumption|]. inversion B as [? ? O|? L Op]; subst; [left|right; auto]. rewrite (Hg f (or_introl eq_refl)) in O. now apply not_null.
    - apply IH; auto. intros; apply Hg; now right.
    - split; [assumption|]. destruct B as [B|(L & O & ->)]; [apply fv_value|now apply fv_absent]. rewrite (Hg f (or_introl eq_refl)). now apply not_null.
    - apply IH; auto. intros; apply Hg; now right. }
  split.
  - intros C. inversion C; subst; try (match goal with H : In (T, _) git_schema |- _ => pose proof (one_def _ _ _ I H) as X; discriminate X end).
    match goal with H : In (T, DStruct _) git_schema |- _ => pose proof (one_def _ _ _ I H) as X end. inversion X. subst.
    exists gs, kvs, kvs'. split; [now apply map_entries_yields|]. do 2 (split; [assumption|]). apply Eq; [now apply NG|assumption].
  - intros (gs & kvs & kvs' & M & S & P & F). apply cf_struct with fs gs kvs kvs'; auto; [now apply map_entries_yields|]. apply Eq; [now apply NG|assumption].
Qed.
End Inv.

(** ** Nodes of the package *)
Lemma selection_required fs gs f : selection fs gs -> In f fs -> fd_optional f = false -> In f gs.
Proof. induction 1 as [|g fs gs S IH|g fs gs O S IH]; intros H R; [easy|destruct H as [->|H]; [now left|right; auto]|destruct H as [->|H]; [congruence|auto]]. Qed.
Lemma selection_all fs : selection fs fs.
Proof. induction fs; now constructor. Qed.
Lemma member_in good lv gs kvs kvs' f : Permutation kvs' kvs -> Forall2 (is_member good lv) gs kvs' -> In f gs ->
  exists kv, In kv kvs /\ is_member good lv f kv.
Proof.
  intros P F Hf. assert (exists kv, In kv kvs' /\ is_member good lv f kv) as (kv & I & M).
  { clear P. induction F as [|g kv gs kvs' M F IH]; [easy|]. destruct Hf as [->|Hf]; [exists kv; split; [now left|assumption]|].
    destruct (IH Hf) as (kv' & I & M'). exists kv'. split; [now right|assumption]. }
  exists kv. split; [eapply Permutation_in; eauto|assumption].
Qed.
Lemma all_required lv fs gs f : (match lv with Typed => gs = fs | Representation => selection fs gs end) -> In f fs -> fd_optional f = false -> In f gs.
Proof. destruct lv; [now intros ->|apply selection_required]. Qed.
Lemma everything lv fs : match lv with Typed => fs = fs | Representation => selection fs fs end.
Proof. destruct lv; [reflexivity|apply selection_all]. Qed.
Ltac nonnull := let f := fresh in let H := fresh in intros f H; repeat (destruct H as [<-|H]; [reflexivity|]); destruct H.

Section Nodes.
Context (good : link -> Prop) (lv : level).
Notation conf := (conforms git_schema good lv).
Lemma string_conf s : conf (bs "String") (NString s).
Proof. apply inv_string; [here|]. exists s. constructor. Qed.
Lemma gpgsig_conf s : conf (bs "GpgSig") (NGpgSig s).
Proof. apply inv_string; [here|]. exists s. constructor. Qed.
Lemma link_conf l : conf (bs "Link") (NLink l) <-> good l.
Proof. rewrite (inv_link good lv (bs "Link") None); [|here]. split; [intros (k & H & G); now inversion H; subst|intros G; exists l; split; [constructor|assumption]]. Qed.
Lemma tree_link_conf l : conf (bs "Tree_Link") (NTreeLink l) <-> good l.
Proof. rewrite (inv_link good lv (bs "Tree_Link") (Some (bs "Tree"))); [|here]. split; [intros (k & H & G); now inversion H; subst|intros G; exists l; split; [constructor|assumption]]. Qed.
Lemma commit_link_conf l : conf (bs "Commit_Link") (NCommitLink l) <-> good l.
Proof. rewrite (inv_link good lv (bs "Commit_Link") (Some (bs "Commit"))); [|here]. split; [intros (k & H & G); now inversion H; subst|intros G; exists l; split; [constructor|assumption]]. Qed.

Lemma struct_all T fs n kvs : In (T, DStruct fs) git_schema -> (forall f, In f fs -> fd_nullable f = false) -> map_entries n = Some kvs ->
  Forall2 (is_member good lv) fs kvs -> conf T n.
Proof. intros I N M F. apply (inv_struct good lv T fs); auto. exists fs, kvs, kvs. split; [assumption|]. split; [apply everything|]. now split. Qed.
Lemma person_conf p : conf (bs "PersonInfo") (NPerson p) /\ conf (bs "PersonInfo") (NPersonR p).
Proof.
  split; (eapply struct_all; [here|nonnull|reflexivity|]); repeat constructor; cbn [fst snd fd_name]; try constructor; apply string_conf.
Qed.
Lemma entry_conf e n : n = NEntry e \/ n = NEntryR e -> conf (bs "TreeEntry") n <-> good (e_hash e).
Proof.
  intros N. assert (map_entries n = Some [(NString (bs "mode"), NString (e_mode e)); (NString (bs "hash"), NLink (e_hash e))]) as M by (destruct N as [-> | ->]; reflexivity).
  split.
  - intros C. apply (inv_struct good lv (bs "TreeEntry") [spawn_field (bs "mode") (bs "String") false false; spawn_field (bs "hash") (bs "Link") false false]) in C; [|here|nonnull].
    destruct C as (gs & kvs & kvs' & M' & S & P & F). rewrite M in M'. injection M' as <-.
    destruct (member_in good lv gs _ kvs' (spawn_field (bs "hash") (bs "Link") false false) P F) as (kv & I & K & V).
    { eapply all_required; [exact S|right; now left|reflexivity]. }
    destruct I as [<-|[<-|[]]]; cbn [fst snd] in *; [exfalso; inversion K|]. destruct V as [V|(_ & X & _)]; [now apply link_conf in V|discriminate X].
  - intros G. eapply struct_all; [here|nonnull|exact M|]. constructor; [split; [constructor|left; apply string_conf]|]. constructor; [split; [constructor|left; now apply link_conf]|constructor].
Qed.
Definition tag_defs := [ spawn_field (bs "object") (bs "Link") false false; spawn_field (bs "type") (bs "String") false false;
  spawn_field (bs "tag") (bs "String") false false; spawn_field (bs "tagger") (bs "PersonInfo") false false; spawn_field (bs "message") (bs "String") false false ].
Lemma tag_conf t n : n = NTag t \/ n = NTagR t -> conf (bs "Tag") n <-> good (t_object t).
Proof.
  intros N. destruct (person_conf (t_tagger t)) as [P1 P2].
  assert (exists pn, map_entries n = Some [(NString (bs "object"), NLink (t_object t)); (NString (bs "type"), NString (t_type t)); (NString (bs "tag"), NString (t_tag t)); (NString (bs "tagger"), pn); (NString (bs "message"), NString (t_message t))] /\ conf (bs "PersonInfo") pn) as (pn & M & Cp)
    by (destruct N as [-> | ->]; [exists (NPerson (t_tagger t))|exists (NPersonR (t_tagger t))]; split; auto; reflexivity).
  split.
  - intros C. apply (inv_struct good lv (bs "Tag") tag_defs) in C; [|here|nonnull].
    destruct C as (gs & kvs & kvs' & M' & S & P & F). rewrite M in M'. injection M' as <-.
    destruct (member_in good lv gs _ kvs' (spawn_field (bs "object") (bs "Link") false false) P F) as (kv & I & K & V).
    { eapply all_required; [exact S|now left|reflexivity]. }
    destruct I as [<-|[<-|[<-|[<-|[<-|[]]]]]]; cbn [fst snd] in *; try (exfalso; inversion K; fail). destruct V as [V|(_ & X & _)]; [now apply link_conf in V|discriminate X].
  - intros G. eapply (struct_all (bs "Tag") tag_defs); [here|nonnull|exact M|].
    constructor; [split; [constructor|left; now apply link_conf]|]. do 2 (constructor; [split; [constructor|left; apply string_conf]|]).
    constructor; [split; [constructor|left; exact Cp]|]. constructor; [split; [constructor|left; apply string_conf]|constructor].
Qed.
Lemma Forall_map_iff {A B} (f : A -> B) (P : B -> Prop) l : Forall P (map f l) <-> Forall (fun x => P (f x)) l.
Proof. apply Forall_map. Qed.
Lemma list_conf {A} T e (f : A -> node) (P : A -> Prop) n l : In (T, DList e false) git_schema -> list_items n = Some (map f l) ->
  (forall x, conf e (f x) <-> P x) -> conf T n <-> Forall P l.
Proof.
  intros I L E. rewrite (inv_list good lv T e); [|assumption]. rewrite L. split.
  - intros (items & X & F). injection X as <-. apply (Forall_map_iff f) in F. eapply Forall_impl; [|exact F]. intros a. apply E.
  - intros F. eexists. split; [reflexivity|]. apply Forall_map_iff. eapply Forall_impl; [|exact F]. intros a. apply E.
Qed.
Lemma strings_conf l n : n = NStringList l \/ n = NStringListR l -> conf (bs "String_List") n.
Proof.
  intros N. apply (list_conf _ (bs "String") NString (fun _ => True) n l); [here|destruct N as [-> | ->]; reflexivity|intros x; split; auto; intros _; apply string_conf|]. now apply Forall_forall.
Qed.
Lemma links_conf l n : n = NCommitLinkList l \/ n = NCommitLinkListR l -> conf (bs "Commit_Link_List") n <-> Forall good l.
Proof. intros N. apply (list_conf _ (bs "Commit_Link") NCommitLink good n l); [here|destruct N as [-> | ->]; reflexivity|apply commit_link_conf]. Qed.
Lemma tags_conf l n : n = NTagList l \/ n = NTagListR l -> conf (bs "Tag_List") n <-> Forall (fun t => good (t_object t)) l.
Proof.
  intros [-> | ->]; [apply (list_conf _ (bs "Tag") NTag _ _ l)|apply (list_conf _ (bs "Tag") NTagR _ _ l)]; try here; try reflexivity; intros x; apply tag_conf; auto.
Qed.
Lemma tree_conf t n : n = NTree t \/ n = NTreeR t -> conf (bs "Tree") n <-> NoDup (map fst (tr_t t)) /\ Forall (fun ke => good (e_hash (snd ke))) (tr_t t).
Proof.
  intros N. rewrite (inv_map good lv (bs "Tree") (bs "String") (bs "TreeEntry")); [|here].
  assert (exists f, (forall e, f e = NEntry e \/ f e = NEntryR e) /\ map_entries n = Some (map (fun ke => (NString (fst ke), f (snd ke))) (tr_t t))) as (f & Hf & M)
    by (destruct N as [-> | ->]; [exists NEntry|exists NEntryR]; split; auto).
  rewrite M. split.
  - intros (kvs & names & X & F & ND & _ & V). injection X as <-. split.
    + enough (names = map fst (tr_t t)) as <- by assumption. clear -F. revert names F. induction (tr_t t) as [|[k e] l IH]; intros names F; inversion F as [|? ? ? ? K F']; subst; [reflexivity|].
      cbn [fst map] in *. inversion K; subst. f_equal. now apply IH.
    + apply (Forall_map_iff (fun ke => (NString (fst ke), f (snd ke)))) in V. eapply Forall_impl; [|exact V]. intros [k e]. cbn [snd]. now apply entry_conf.
  - intros [ND V]. exists (map (fun ke => (NString (fst ke), f (snd ke))) (tr_t t)), (map fst (tr_t t)). split; [reflexivity|].
    split; [clear; induction (tr_t t); constructor; [constructor|assumption]|]. split; [assumption|].
    split; apply Forall_map_iff; [apply Forall_forall; intros; apply string_conf|]. eapply Forall_impl; [|exact V]. intros [k e]. cbn [snd]. now apply entry_conf.
Qed.
End Nodes.

Definition f_tree := spawn_field (bs "tree") (bs "Tree_Link") false false.
Definition f_parents := spawn_field (bs "parents") (bs "Commit_Link_List") false false.
Definition f_message := spawn_field (bs "message") (bs "String") false false.
Definition f_author := spawn_field (bs "author") (bs "PersonInfo") true false.
Definition f_committer := spawn_field (bs "committer") (bs "PersonInfo") true false.
Definition f_encoding := spawn_field (bs "encoding") (bs "String") true false.
Definition f_signature := spawn_field (bs "signature") (bs "GpgSig") true false.
Definition f_mergetag := spawn_field (bs "mergetag") (bs "Tag_List") false false.
Definition f_other := spawn_field (bs "other") (bs "String_List") false false.
Definition commit_defs := [f_tree; f_parents; f_message; f_author; f_committer; f_encoding; f_signature; f_mergetag; f_other].
Definition there {A} (o : option A) (f : field_def) : list field_def := match o with Some _ => [f] | None => [] end.
Definition commit_selection c := [f_tree; f_parents; f_message] ++ there (c_author c) f_author ++ there (c_committer c) f_committer
  ++ there (c_encoding c) f_encoding ++ there (c_signature c) f_signature ++ [f_mergetag; f_other].
Lemma skip_or_take {A} (o : option A) f fs gs : fd_optional f = true -> selection fs gs -> selection (f :: fs) (there o f ++ gs).
Proof. intros O S. destruct o; [now apply sel_take|now apply sel_skip]. Qed.
Lemma commit_selected c : selection commit_defs (commit_selection c).
Proof.
  unfold commit_defs, commit_selection. do 3 apply sel_take. do 4 (apply skip_or_take; [reflexivity|]). do 2 apply sel_take. constructor.
Qed.
Definition commit_good (good : link -> Prop) (c : commit) : Prop :=
  good (c_tree c) /\ Forall good (c_parents c) /\ Forall (fun t => good (t_object t)) (c_mergetag c).

Lemma commit_conf_need good lv c n : (lv = Typed /\ n = NCommit c) \/ (lv = Representation /\ n = NCommitR c) ->
  conforms git_schema good lv (bs "Commit") n -> commit_good good c.
Proof.
  intros N C. apply (inv_struct good lv (bs "Commit") commit_defs) in C; [|here|nonnull].
  destruct C as (gs & kvs & kvs' & M & S & P & F).
  assert (forall f, In f [f_tree; f_parents; f_mergetag] -> exists kv, In kv kvs /\ is_member good lv f kv) as G.
  { intros f Hf. apply (member_in good lv gs kvs kvs' f P F). eapply all_required; [exact S| |].
    - destruct Hf as [<-|[<-|[<-|[]]]]; unfold commit_defs; cbn [In]; auto 12.
    - destruct Hf as [<-|[<-|[<-|[]]]]; reflexivity. }
  assert (forall k v, In (k, v) kvs -> (is_text k (bs "tree") -> v = NTreeLink (c_tree c)) /\
    (is_text k (bs "parents") -> v = NCommitLinkList (c_parents c) \/ v = NCommitLinkListR (c_parents c)) /\
    (is_text k (bs "mergetag") -> v = NTagList (c_mergetag c) \/ v = NTagListR (c_mergetag c))) as V.
  { intros k v H. destruct N as [[-> ->]|[-> ->]]; cbn [map_entries] in M; injection M as <-.
    - repeat (destruct H as [H|H]; [injection H as <- <-; repeat split; intros T; first [auto; fail|exfalso; inversion T]|]). destruct H.
    - destruct (c_author c), (c_committer c), (c_encoding c), (c_signature c); cbn [In app] in H;
      repeat match type of H with _ \/ _ => destruct H as [H|H] end; try contradiction;
      injection H as <- <-; repeat split; intros T; first [auto; fail|exfalso; inversion T]. }
  split; [|split].
  - destruct (G f_tree) as ([k v] & I & K & W); [now left|]. cbn [fst snd] in *. destruct (V _ _ I) as [V1 _]. rewrite (V1 K) in W.
    destruct W as [W|(_ & X & _)]; [now apply tree_link_conf in W|discriminate X].
  - destruct (G f_parents) as ([k v] & I & K & W); [right; now left|]. cbn [fst snd] in *. destruct (V _ _ I) as (_ & V1 & _).
    destruct W as [W|(_ & X & _)]; [|discriminate X]. now apply (links_conf good lv (c_parents c) v (V1 K)).
  - destruct (G f_mergetag) as ([k v] & I & K & W); [right; right; now left|]. cbn [fst snd] in *. destruct (V _ _ I) as (_ & _ & V1).
    destruct W as [W|(_ & X & _)]; [|discriminate X]. now apply (tags_conf good lv (c_mergetag c) v (V1 K)).
Qed.
Lemma commit_conf_typed good c : conforms git_schema good Typed (bs "Commit") (NCommit c) <-> commit_good good c.
Proof.
  split; [apply commit_conf_need; auto|]. intros (G1 & G2 & G3).
  eapply (struct_all good Typed (bs "Commit") commit_defs); [here|nonnull|reflexivity|].
  assert (forall p, conforms git_schema good Typed (bs "PersonInfo") (NPerson p)) as Cp by (intros p; apply person_conf).
  repeat (constructor; [split; [constructor|]|]); cbn [snd fd_type].
  - left. now apply tree_link_conf.
  - left. now apply (links_conf good Typed (c_parents c) _ (or_introl eq_refl)).
  - left. apply string_conf.
  - destruct (c_author c); [left; apply Cp|right; auto].
  - destruct (c_committer c); [left; apply Cp|right; auto].
  - destruct (c_encoding c); [left; apply string_conf|right; auto].
  - destruct (c_signature c); [left; apply gpgsig_conf|right; auto].
  - left. now apply (tags_conf good Typed (c_mergetag c) _ (or_introl eq_refl)).
  - left. now apply (strings_conf good Typed (c_other c) _ (or_introl eq_refl)).
  - constructor.
Qed.
Lemma commit_conf_repr good c : conforms git_schema good Representation (bs "Commit") (NCommitR c) <-> commit_good good c.
Proof.
  split; [apply commit_conf_need; auto|]. intros (G1 & G2 & G3).
  apply (inv_struct good Representation (bs "Commit") commit_defs); [here|nonnull|].
  exists (commit_selection c). eexists. eexists. split; [reflexivity|]. split; [apply commit_selected|]. split; [apply Permutation_refl|].
  assert (forall p, conforms git_schema good Representation (bs "PersonInfo") (NPersonR p)) as Cp by (intros p; apply person_conf).
  unfold commit_selection. apply Forall2_app; [|repeat apply Forall2_app].
  - repeat (constructor; [split; [constructor|left]|]); cbn [snd fd_type]; [now apply tree_link_conf|now apply (links_conf good Representation (c_parents c) _ (or_intror eq_refl))|apply string_conf|constructor].
  - destruct (c_author c); repeat constructor. apply Cp.
  - destruct (c_committer c); repeat constructor. apply Cp.
  - destruct (c_encoding c); repeat constructor. apply string_conf.
  - destruct (c_signature c); repeat constructor. apply gpgsig_conf.
  - repeat (constructor; [split; [constructor|left]|]); cbn [snd fd_type]; [now apply (tags_conf good Representation (c_mergetag c) _ (or_intror eq_refl))|now apply (strings_conf good Representation (c_other c) _ (or_intror eq_refl))|constructor].
Qed.

(** Every typed node conforms to its type, and its representation does, exactly when its links
    are links and, for a tree, its names are distinct. *)
Theorem generated_nodes_conform : forall good n T, type_of n = Some T ->
  (conforms git_schema good Typed T n <-> (forall l, In l (links_in n) -> good l) /\ distinct_names n) /\
  (conforms git_schema good Representation T (representation n) <-> (forall l, In l (links_in n) -> good l) /\ distinct_names n).
Proof.
  intros good n T H.
  assert (forall P : Prop, P -> (P <-> (forall l, In l (@nil link) -> good l) /\ True)) as E0 by (intros P HP; split; [intros _; split; [intros l []|exact Logic.I]|auto]).
  assert (forall l : link, good l <-> (forall k, In k [l] -> good k) /\ True) as E1
    by (intros l; split; [intros G; split; [intros k [<-|[]]; exact G|exact Logic.I]|intros [G _]; apply G; now left]).
  assert (forall A (f : A -> link) l, Forall (fun x => good (f x)) l <-> forall k, In k (map f l) -> good k) as E2
    by (intros A f l; rewrite <- (Forall_map_iff f); apply Forall_forall).
  destruct n; cbn [type_of] in H; try discriminate H; (assert (forall A (x y : A), Some x = Some y -> x = y) as Inj by congruence); apply Inj in H; subst T; cbn [representation links_in distinct_names].
  - assert (forall lv, conforms git_schema good lv (bs "Blob") (NBlob s)) as C by (intros lv; apply inv_bytes; [here|exists s; reflexivity]). split; now apply E0.
  - split; apply E0, string_conf.
  - split; apply E0, gpgsig_conf.
  - split; rewrite link_conf; apply E1.
  - split; rewrite tree_link_conf; apply E1.
  - split; rewrite commit_link_conf; apply E1.
  - split; apply E0, person_conf.
  - split; rewrite (tag_conf good _ t); auto.
  - split; rewrite (tags_conf good _ l); auto; rewrite E2; tauto.
  - split; apply E0, (strings_conf good _ l); auto.
  - split; rewrite (links_conf good _ l); auto; rewrite Forall_forall; tauto.
  - assert (commit_good good c <-> (forall l, In l (c_tree c :: c_parents c ++ map t_object (c_mergetag c)) -> good l) /\ True) as E.
    { unfold commit_good. rewrite (E2 _ t_object), Forall_forall. cbn [In]. setoid_rewrite in_app_iff. split.
      - intros (G1 & G2 & G3). split; [|exact Logic.I]. intros l [<-|[I|I]]; auto.
      - intros [G _]. auto 10. }
    split; [rewrite commit_conf_typed|rewrite commit_conf_repr]; exact E.
  - split; rewrite (entry_conf good _ e); auto.
  - split; rewrite (tree_conf good _ t); auto; rewrite E2; tauto.
Qed.
Print Assumptions generated_nodes_conform.

(** ** Builders *)
Definition any (_ : link) : Prop := True.
(** The data conforms to the type, as a representation. *)
Definition fits_schema (T : bytes) (v : node) : Prop := conforms git_schema any Representation T v.

Lemma text_fits T v : In (T, DString) git_schema -> fits_schema T v <-> exists s, is_text v s.
Proof. apply inv_string. Qed.
Lemma link_fits T g v : In (T, DLink g) git_schema -> fits_schema T v <-> exists l, is_link v l.
Proof. intros I. unfold fits_schema. rewrite (inv_link any Representation T g); [|assumption]. unfold any. firstorder. Qed.
Lemma all_required_selected fs gs : selection fs gs -> (forall f, In f fs -> fd_optional f = false) -> gs = fs.
Proof. induction 1 as [|f fs gs S IH|f fs gs O S IH]; intros R; [reflexivity|rewrite IH; [reflexivity|intros; apply R; now right]|]. rewrite (R f) in O; [discriminate|now left]. Qed.
(** A struct without optional fields. *)
Lemma struct_fits T fs v : In (T, DStruct fs) git_schema -> (forall f, In f fs -> fd_nullable f = false) -> (forall f, In f fs -> fd_optional f = false) ->
  fits_schema T v <-> exists kvs kvs', map_entries v = Some kvs /\ Permutation kvs' kvs /\
    Forall2 (fun f kv => is_text (fst kv) (fd_name f) /\ fits_schema (fd_type f) (snd kv)) fs kvs'.
Proof.
  intros I N R. unfold fits_schema. rewrite (inv_struct any Representation T fs); [|assumption|assumption]. split.
  - intros (gs & kvs & kvs' & M & S & P & F). apply all_required_selected in S; [subst gs|assumption]. exists kvs, kvs'. split; [assumption|]. split; [assumption|].
    eapply Forall2_impl_in; [|exact F]. intros f kv _ [K [V|(X & _)]]; [now split|discriminate X].
  - intros (kvs & kvs' & M & P & F). exists fs, kvs, kvs'. split; [assumption|]. split; [apply selection_all|]. split; [assumption|].
    eapply Forall2_impl_in; [|exact F]. intros f kv _ [K V]. split; [assumption|now left].
Qed.
Lemma f2_nil {A B} (P : A -> B -> Prop) m : Forall2 P [] m <-> m = [].
Proof. split; [intros F; now inversion F|intros ->; constructor]. Qed.
Lemma f2_cons {A B} (P : A -> B -> Prop) a l m : Forall2 P (a :: l) m <-> exists b m', m = b :: m' /\ P a b /\ Forall2 P l m'.
Proof. split; [intros F; inversion F; subst; eauto|intros (b & m' & -> & H & F); now constructor]. Qed.
Lemma f2_app {A B} (P : A -> B -> Prop) l1 l2 m : Forall2 P (l1 ++ l2) m <-> exists m1 m2, m = m1 ++ m2 /\ Forall2 P l1 m1 /\ Forall2 P l2 m2.
Proof. split; [intros F; apply Forall2_app_inv_l in F as (m1 & m2 & F1 & F2 & E); eauto 6|intros (m1 & m2 & -> & F1 & F2); now apply Forall2_app]. Qed.

Lemma person_fits v : fits_schema (bs "PersonInfo") v <-> exists p, holds_person p v.
Proof.
  rewrite (struct_fits _ [ spawn_field (bs "date") (bs "String") false false; spawn_field (bs "timezone") (bs "String") false false;
        spawn_field (bs "email") (bs "String") false false; spawn_field (bs "name") (bs "String") false false ]); [|here|nonnull|nonnull].
  assert (forall x, fits_schema (bs "String") x <-> exists s, is_text x s) as E by (intros x; apply text_fits; here).
  split.
  - intros (kvs & kvs' & M & P & F). repeat (apply f2_cons in F as (? & ? & -> & (? & ?%E) & F)). apply f2_nil in F. subst.
    repeat match goal with H : exists s, is_text _ s |- _ => destruct H as [? H] end.
    eexists {| p_date := _; p_timezone := _; p_email := _; p_name := _ |}. eexists. eexists. split; [exact M|]. split; [exact P|].
    repeat (apply Forall2_cons; [split; eassumption|]). constructor.
  - intros (p & kvs & kvs' & M & P & F). exists kvs, kvs'. split; [assumption|]. split; [assumption|].
    repeat (apply f2_cons in F as (? & ? & -> & (? & ?) & F)). apply f2_nil in F. subst. cbn [fst snd] in *.
    repeat (apply Forall2_cons; [split; [assumption|apply E; eauto]|]). constructor.
Qed.
Lemma entry_fits v : fits_schema (bs "TreeEntry") v <-> exists e, holds_entry e v.
Proof.
  rewrite (struct_fits _ [ spawn_field (bs "mode") (bs "String") false false; spawn_field (bs "hash") (bs "Link") false false ]); [|here|nonnull|nonnull].
  assert (forall x, fits_schema (bs "String") x <-> exists s, is_text x s) as E by (intros x; apply text_fits; here).
  assert (forall x, fits_schema (bs "Link") x <-> exists s, is_link x s) as El by (intros x; apply (link_fits _ None); here).
  split.
  - intros (kvs & kvs' & M & P & F). apply f2_cons in F as (? & ? & -> & (? & [? ?]%E) & F). apply f2_cons in F as (? & ? & -> & (? & [? ?]%El) & F). apply f2_nil in F. subst.
    eexists {| e_mode := _; e_hash := _ |}. eexists. eexists. split; [exact M|]. split; [exact P|].
    repeat (apply Forall2_cons; [split; eassumption|]). constructor.
  - intros (p & kvs & kvs' & M & P & F). exists kvs, kvs'. split; [assumption|]. split; [assumption|].
    repeat (apply f2_cons in F as (? & ? & -> & (? & ?) & F)). apply f2_nil in F. subst. cbn [fst snd] in *.
    repeat (apply Forall2_cons; [split; [assumption|first [apply E; eauto; fail|apply El; eauto]]|]). constructor.
Qed.
Lemma tag_fits v : fits_schema (bs "Tag") v <-> exists t, holds_tag t v.
Proof.
  rewrite (struct_fits _ tag_defs); [|here|nonnull|nonnull].
  assert (forall x, fits_schema (bs "String") x <-> exists s, is_text x s) as E by (intros x; apply text_fits; here).
  assert (forall x, fits_schema (bs "Link") x <-> exists s, is_link x s) as El by (intros x; apply (link_fits _ None); here).
  split.
  - intros (kvs & kvs' & M & P & F). unfold tag_defs in F. apply f2_cons in F as (? & ? & -> & (? & [? ?]%El) & F). do 2 apply f2_cons in F as (? & ? & -> & (? & [? ?]%E) & F).
    apply f2_cons in F as (? & ? & -> & (? & [? ?]%person_fits) & F). apply f2_cons in F as (? & ? & -> & (? & [? ?]%E) & F). apply f2_nil in F. subst.
    eexists {| t_object := _; t_type := _; t_tag := _; t_tagger := _; t_message := _ |}. eexists. eexists. split; [exact M|]. split; [exact P|].
    repeat (apply Forall2_cons; [split; eassumption|]). constructor.
  - intros (p & kvs & kvs' & M & P & F). exists kvs, kvs'. split; [assumption|]. split; [assumption|].
    repeat (apply f2_cons in F as (? & ? & -> & (? & ?) & F)). apply f2_nil in F. subst. cbn [fst snd] in *.
    repeat (apply Forall2_cons; [split; [assumption|first [apply E; eauto; fail|apply El; eauto; fail|apply person_fits; eauto]]|]). constructor.
Qed.
Lemma list_fits {A} T e (P : A -> node -> Prop) v : In (T, DList e false) git_schema -> (forall x, fits_schema e x <-> exists a, P a x) ->
  fits_schema T v <-> exists l, list_of P l v.
Proof.
  intros I E. unfold fits_schema. rewrite (inv_list any Representation T e); [|assumption]. unfold list_of. split.
  - intros (items & L & F). enough (exists l, Forall2 P l items) as [l F'] by eauto. clear L.
    induction F as [|x items H F [l IH]]; [exists []; constructor|]. apply E in H as [a H]. exists (a :: l). now constructor.
  - intros (l & items & L & F). exists items. split; [assumption|]. clear L. induction F; constructor; [apply E; eauto|assumption].
Qed.

(** The builders of the types other than Commit and Tree accept exactly the data that fits the
    schema. *)
Theorem builders_accept_what_fits : forall v,
  ((exists s, assign_string v = Ok s) <-> fits_schema (bs "String") v) /\
  ((exists s, assign_string v = Ok s) <-> fits_schema (bs "GpgSig") v) /\
  ((exists l, assign_link v = Ok l) <-> fits_schema (bs "Link") v) /\
  ((exists l, assign_link v = Ok l) <-> fits_schema (bs "Tree_Link") v) /\
  ((exists l, assign_link v = Ok l) <-> fits_schema (bs "Commit_Link") v) /\
  ((exists l, assign_string_list v = Ok l) <-> fits_schema (bs "String_List") v) /\
  ((exists l, assign_link_list v = Ok l) <-> fits_schema (bs "Commit_Link_List") v) /\
  ((exists l, assign_tag_list v = Ok l) <-> fits_schema (bs "Tag_List") v) /\
  ((exists p, assign_person false v = Ok p) <-> fits_schema (bs "PersonInfo") v) /\
  ((exists e, assign_entry v = Ok e) <-> fits_schema (bs "TreeEntry") v) /\
  ((exists n, build_node BTag v = Ok n) <-> fits_schema (bs "Tag") v) /\
  ((exists n, build_node BBlob v = Ok n) <-> fits_schema (bs "Blob") v).
Proof.
  intros v.
  assert (forall A (P Q : A -> Prop), (forall a, P a <-> Q a) -> ((exists a, P a) <-> exists a, Q a)) as Ex by (intros A P Q H; split; intros [a Ha]; exists a; now apply H).
  assert (forall x, fits_schema (bs "String") x <-> exists s, is_text x s) as E by (intros x; apply text_fits; here).
  assert (forall x, fits_schema (bs "Commit_Link") x <-> exists s, is_link x s) as El by (intros x; apply (link_fits _ (Some (bs "Commit"))); here).
  split; [rewrite E; apply Ex; intros s; symmetry; apply is_text_iff|].
  split; [rewrite text_fits by here; apply Ex; intros s; symmetry; apply is_text_iff|].
  split; [rewrite (link_fits _ None) by here; apply Ex; intros s; symmetry; apply is_link_iff|].
  split; [rewrite (link_fits _ (Some (bs "Tree"))) by here; apply Ex; intros s; symmetry; apply is_link_iff|].
  split; [rewrite El; apply Ex; intros s; symmetry; apply is_link_iff|].
  split; [rewrite (list_fits _ _ (fun s x => is_text x s) v) by (first [solve [here]|exact E]); apply Ex; intros l; apply assign_string_list_iff|].
  split; [rewrite (list_fits _ _ (fun s x => is_link x s) v) by (first [solve [here]|exact El]); apply Ex; intros l; apply assign_link_list_iff|].
  split; [rewrite (list_fits _ _ holds_tag v) by (first [solve [here]|exact tag_fits]); apply Ex; intros l; apply assign_tag_list_iff|].
  split; [rewrite person_fits; apply Ex; intros p; apply assign_person_iff|].
  split; [rewrite entry_fits; apply Ex; intros p; apply assign_entry_iff|].
  split.
  - rewrite tag_fits. cbn [build_node]. split.
    + intros [n H]. apply map_res_ok in H as (t & H & _). exists t. now apply assign_tag_iff.
    + intros [t H]. exists (NTag t). apply map_res_ok. exists t. split; [now apply assign_tag_iff|reflexivity].
  - unfold fits_schema. rewrite inv_bytes by here. cbn [build_node]. split.
    + intros [n H]. apply map_res_ok in H as (t & H & _). eauto.
    + intros [t H]. exists (NBlob t). apply map_res_ok. eauto.
Qed.
Print Assumptions builders_accept_what_fits.

(** *** Commits *)
(** What a commit's map is made of when the author and committer may be any person data. *)
Definition commit_data (c : commit) (v : node) : Prop :=
  made_of ([ (bs "tree", fun x => is_link x (c_tree c));
             (bs "parents", list_of (fun l x => is_link x l) (c_parents c));
             (bs "message", fun x => is_text x (c_message c)) ]
           ++ when (c_author c) (fun p => (bs "author", holds_person p))
           ++ when (c_committer c) (fun p => (bs "committer", holds_person p))
           ++ when (c_encoding c) (fun e => (bs "encoding", fun x => is_text x e))
           ++ when (c_signature c) (fun s => (bs "signature", fun x => is_text x s))
           ++ [ (bs "mergetag", list_of holds_tag (c_mergetag c));
                (bs "other", list_of (fun s x => is_text x s) (c_other c)) ]) v.

Lemma need_step {M : field_def -> node * node -> Prop} f fs gs kvs : fd_optional f = false -> selection (f :: fs) gs -> Forall2 M gs kvs ->
  exists kv gs' kvs', kvs = kv :: kvs' /\ M f kv /\ selection fs gs' /\ Forall2 M gs' kvs'.
Proof. intros O S F. inversion S; subst; [|congruence]. apply f2_cons in F as (kv & kvs' & -> & H & F). eauto 8. Qed.
Lemma opt_step {M : field_def -> node * node -> Prop} f fs gs kvs : selection (f :: fs) gs -> Forall2 M gs kvs ->
  exists here gs' kvs', kvs = here ++ kvs' /\ (here = [] \/ exists kv, here = [kv] /\ M f kv) /\ selection fs gs' /\ Forall2 M gs' kvs'.
Proof.
  intros S F. inversion S; subst.
  - apply f2_cons in F as (kv & kvs' & -> & H & F). exists [kv], gs0, kvs'. eauto 8.
  - exists [], gs, kvs. auto 8.
Qed.
Lemma opt_field {A} (h : list (node * node)) (name : bytes) (T : bytes) (P : A -> node -> Prop) :
  (forall x, fits_schema T x <-> exists a, P a x) ->
  (h = [] \/ exists kv, h = [kv] /\ is_text (fst kv) name /\ fits_schema T (snd kv)) ->
  exists o : option A, Forall2 is_field (when o (fun a => (name, P a))) h.
Proof.
  intros E [->|(kv & -> & K & V)]; [exists None; constructor|]. apply E in V as [a V]. exists (Some a). constructor; [now split|constructor].
Qed.
Lemma strip_member f kv : is_member any Representation f kv -> is_text (fst kv) (fd_name f) /\ fits_schema (fd_type f) (snd kv).
Proof. intros [K [V|(X & _)]]; [now split|discriminate X]. Qed.
Lemma commit_fits v : fits_schema (bs "Commit") v <-> exists c, commit_data c v.
Proof.
  assert (forall x, fits_schema (bs "String") x <-> exists s, is_text x s) as Es by (intros x; apply text_fits; here).
  assert (forall x, fits_schema (bs "GpgSig") x <-> exists s, is_text x s) as Eg by (intros x; apply text_fits; here).
  assert (forall x, fits_schema (bs "Tree_Link") x <-> exists s, is_link x s) as Et by (intros x; apply (link_fits _ (Some (bs "Tree"))); here).
  assert (forall x, fits_schema (bs "Commit_Link") x <-> exists s, is_link x s) as Ec by (intros x; apply (link_fits _ (Some (bs "Commit"))); here).
  assert (forall x, fits_schema (bs "Commit_Link_List") x <-> exists l, list_of (fun l x => is_link x l) l x) as Ep by (intros x; apply (list_fits _ (bs "Commit_Link")); [here|exact Ec]).
  assert (forall x, fits_schema (bs "String_List") x <-> exists l, list_of (fun l x => is_text x l) l x) as Eo by (intros x; apply (list_fits _ (bs "String")); [here|exact Es]).
  assert (forall x, fits_schema (bs "Tag_List") x <-> exists l, list_of holds_tag l x) as Em by (intros x; apply (list_fits _ (bs "Tag")); [here|exact tag_fits]).
  unfold fits_schema at 1. rewrite (inv_struct any Representation (bs "Commit") commit_defs); [|here|nonnull]. split.
  - intros (gs & kvs & kvs' & M & S & P & F).
    assert (Forall2 (fun f kv => is_text (fst kv) (fd_name f) /\ fits_schema (fd_type f) (snd kv)) gs kvs') as F' by (eapply Forall2_impl_in; [|exact F]; intros f kv _; apply strip_member).
    clear F. rename F' into F. unfold commit_defs in S.
    apply (need_step f_tree) with (2 := S) in F; [|reflexivity]. clear S gs. destruct F as (k1 & gs & r & -> & [K1 V1] & S & F).
    apply (need_step f_parents) with (2 := S) in F; [|reflexivity]. clear S gs. destruct F as (k2 & gs & r2 & -> & [K2 V2] & S & F).
    apply (need_step f_message) with (2 := S) in F; [|reflexivity]. clear S gs. destruct F as (k3 & gs & r3 & -> & [K3 V3] & S & F).
    apply (opt_step f_author) with (1 := S) in F. clear S gs. destruct F as (k4 & gs & r4 & -> & O4 & S & F).
    apply (opt_step f_committer) with (1 := S) in F. clear S gs. destruct F as (k5 & gs & r5 & -> & O5 & S & F).
    apply (opt_step f_encoding) with (1 := S) in F. clear S gs. destruct F as (k6 & gs & r6 & -> & O6 & S & F).
    apply (opt_step f_signature) with (1 := S) in F. clear S gs. destruct F as (k7 & gs & r7 & -> & O7 & S & F).
    apply (need_step f_mergetag) with (2 := S) in F; [|reflexivity]. clear S gs. destruct F as (k8 & gs & r8 & -> & [K8 V8] & S & F).
    apply (need_step f_other) with (2 := S) in F; [|reflexivity]. clear S gs. destruct F as (k9 & gs & r9 & -> & [K9 V9] & S & F).
    inversion S; subst. apply f2_nil in F. subst r9.
    apply Et in V1 as [x1 V1]. apply Ep in V2 as [x2 V2]. apply Es in V3 as [x3 V3]. apply Em in V8 as [x8 V8]. apply Eo in V9 as [x9 V9].
    destruct (opt_field k4 _ _ holds_person person_fits O4) as [x4 F4]. destruct (opt_field k5 _ _ holds_person person_fits O5) as [x5 F5].
    destruct (opt_field k6 _ _ (fun s x => is_text x s) Es O6) as [x6 F6]. destruct (opt_field k7 _ _ (fun s x => is_text x s) Eg O7) as [x7 F7].
    exists {| c_tree := x1; c_parents := x2; c_message := x3; c_author := x4; c_committer := x5; c_encoding := x6; c_signature := x7; c_mergetag := x8; c_other := x9 |}.
    eexists. eexists. split; [exact M|]. split; [exact P|]. cbn [c_tree c_parents c_message c_author c_committer c_encoding c_signature c_mergetag c_other].
    do 3 (constructor; [now split|]). repeat (apply Forall2_app; [assumption|]). do 2 (constructor; [now split|]). constructor.
  - intros (c & kvs & kvs' & M & P & F). exists (commit_selection c), kvs, kvs'. split; [assumption|]. split; [apply commit_selected|]. split; [assumption|].
    unfold commit_selection. apply f2_app in F as (m1 & r & -> & F1 & F).
    apply f2_app in F as (m2 & r2 & -> & F2 & F). apply f2_app in F as (m3 & r3 & -> & F3 & F). apply f2_app in F as (m4 & r4 & -> & F4 & F). apply f2_app in F as (m5 & m6 & -> & F5 & F).
    assert (forall A (o : option A) f (Q : A -> node -> Prop) m, (forall x, fits_schema (fd_type f) x <-> exists a, Q a x) ->
      Forall2 is_field (when o (fun a => (fd_name f, Q a))) m -> Forall2 (is_member any Representation) (there o f) m) as Opt.
    { intros A [a|] f Q m E H; cbn [when there] in *; [|apply f2_nil in H; subst; constructor].
      apply f2_cons in H as (kv & m' & -> & [K V] & H). apply f2_nil in H. subst. constructor; [|constructor]. split; [exact K|left]. apply E. eauto. }
    apply Forall2_app; [|apply Forall2_app; [|apply Forall2_app; [|apply Forall2_app; [|apply Forall2_app]]]].
    + repeat (apply f2_cons in F1 as (? & ? & -> & (? & ?) & F1)). apply f2_nil in F1. subst. cbn [fst snd] in *.
      repeat (constructor; [split; [assumption|left]|]); [apply Et; eauto|apply Ep; eauto|apply Es; eauto|constructor].
    + exact (Opt _ (c_author c) f_author _ _ person_fits F2).
    + exact (Opt _ (c_committer c) f_committer _ _ person_fits F3).
    + exact (Opt _ (c_encoding c) f_encoding (fun s x => is_text x s) _ Es F4).
    + exact (Opt _ (c_signature c) f_signature (fun s x => is_text x s) _ Eg F5).
    + repeat (apply f2_cons in F as (? & ? & -> & (? & ?) & F)). apply f2_nil in F. subst. cbn [fst snd] in *.
      repeat (constructor; [split; [assumption|left]|]); [apply Em; eauto|apply Eo; eauto|constructor].
Qed.

(** The author and committer of the data are PersonInfo nodes of this package. *)
Definition own_persons (v : node) : Prop :=
  forall kvs k x, map_entries v = Some kvs -> In (k, x) kvs -> is_text k (bs "author") \/ is_text k (bs "committer") -> exists p, x = NPerson p.

Lemma text_fun k s s' : is_text k s -> is_text k s' -> s = s'.
Proof. intros H H'. inversion H; subst; now inversion H'. Qed.
Lemma own_person p x q : holds_person p x -> x = NPerson q -> x = NPerson p.
Proof. intros H ->. apply assign_person_iff in H. cbn in H. congruence. Qed.
Lemma person_self p : holds_person p (NPerson p).
Proof. now apply assign_person_iff. Qed.

Lemma own_data c v : commit_data c v -> own_persons v -> holds_commit c v.
Proof.
  intros (kvs & kvs' & M & P & F) O. exists kvs, kvs'. split; [assumption|]. split; [assumption|].
  assert (forall kv, In kv kvs' -> is_text (fst kv) (bs "author") \/ is_text (fst kv) (bs "committer") -> exists p, snd kv = NPerson p) as O'
    by (intros [k x] I; apply (O kvs k x M); eapply Permutation_in; eauto). clear O P M kvs v.
  apply f2_app in F as (m1 & r & -> & F1 & F). apply f2_app in F as (m2 & r2 & -> & F2 & F). apply f2_app in F as (m3 & r3 & -> & F3 & F).
  apply Forall2_app; [assumption|]. apply Forall2_app; [|apply Forall2_app; [|assumption]].
  - destruct (c_author c) as [p|]; [|assumption]. apply f2_cons in F2 as (kv & m & -> & [K V] & F2). apply f2_nil in F2. subst m. constructor; [|constructor].
    split; [exact K|]. cbn [snd fst] in *. destruct (O' kv) as [q Eq]; [rewrite !in_app_iff; cbn [In]; auto|now left|]. exact (own_person _ _ _ V Eq).
  - destruct (c_committer c) as [p|]; [|assumption]. apply f2_cons in F3 as (kv & m & -> & [K V] & F3). apply f2_nil in F3. subst m. constructor; [|constructor].
    split; [exact K|]. cbn [snd fst] in *. destruct (O' kv) as [q Eq]; [rewrite !in_app_iff; cbn [In]; auto|now right|]. exact (own_person _ _ _ V Eq).
Qed.
Lemma data_own c v : holds_commit c v -> commit_data c v /\ own_persons v.
Proof.
  intros (kvs & kvs' & M & P & F). split.
  - exists kvs, kvs'. split; [assumption|]. split; [assumption|]. clear P M.
    apply f2_app in F as (m1 & r & -> & F1 & F). apply f2_app in F as (m2 & r2 & -> & F2 & F). apply f2_app in F as (m3 & r3 & -> & F3 & F).
    apply Forall2_app; [assumption|]. apply Forall2_app; [|apply Forall2_app; [|assumption]].
    + destruct (c_author c) as [p|]; [|assumption]. apply f2_cons in F2 as (kv & m & -> & [K V] & F2). constructor; [|assumption]. split; [exact K|]. cbn [snd] in *. rewrite V. apply person_self.
    + destruct (c_committer c) as [p|]; [|assumption]. apply f2_cons in F3 as (kv & m & -> & [K V] & F3). constructor; [|assumption]. split; [exact K|]. cbn [snd] in *. rewrite V. apply person_self.
  - intros kvs0 k x M0 I T. rewrite M in M0. injection M0 as <-. apply (Permutation_in _ (Permutation_sym P)) in I. clear P M kvs v.
    assert (forall fs m, Forall2 is_field fs m -> In (k, x) m -> exists s Q, In (s, Q) fs /\ is_text k s /\ Q x) as A.
    { induction 1 as [|[s Q] [k' x'] fs m [K V] F' IH]; [easy|]. intros [E|H]; [injection E as -> ->; exists s, Q; split; [now left|now split]|].
      destruct (IH H) as (s' & Q' & H' & R). exists s', Q'. split; [now right|exact R]. }
    destruct (A _ _ F I) as (s & Q & H & K & V). clear A F I.
    assert (s = bs "author" \/ s = bs "committer") as Hs by (destruct T as [T|T]; [left|right]; exact (text_fun _ _ _ K T)).
    rewrite !in_app_iff in H. cbn [In] in H.
    destruct H as [H|[H|[H|[H|[H|H]]]]].
    + destruct H as [H|[H|[H|[]]]]; apply (f_equal fst) in H; cbn [fst] in H; subst s; destruct Hs as [Hs|Hs]; discriminate Hs.
    + destruct (c_author c) as [p|]; [|destruct H]. destruct H as [H|[]]. inversion H; subst. now exists p.
    + destruct (c_committer c) as [p|]; [|destruct H]. destruct H as [H|[]]. inversion H; subst. now exists p.
    + destruct (c_encoding c) as [p|]; [|destruct H]. destruct H as [H|[]]. apply (f_equal fst) in H; cbn [fst] in H; subst s; destruct Hs as [Hs|Hs]; discriminate Hs.
    + destruct (c_signature c) as [p|]; [|destruct H]. destruct H as [H|[]]. apply (f_equal fst) in H; cbn [fst] in H; subst s; destruct Hs as [Hs|Hs]; discriminate Hs.
    + destruct H as [H|[H|[]]]; apply (f_equal fst) in H; cbn [fst] in H; subst s; destruct Hs as [Hs|Hs]; discriminate Hs.
Qed.

(** A person given as any other map: the builder of the author crashes. *)
Lemma foreign_person_panics p x : holds_person p x -> (forall q, x <> NPerson q) -> assign_person true x = Panic.
Proof.
  intros Hp N. destruct Hp as (kvs & kvs' & M & P & F).
  assert (struct_assign person_fields [0; 1; 2; 3] (fun _ _ _ => Panic) kvs zero_person = Panic) as E.
  { destruct kvs as [|[k u] kvs]; [apply Permutation_sym, Permutation_nil in P; subst; inversion F|].
    assert (In (k, u) kvs') as I by (apply (Permutation_in _ (Permutation_sym P)); now left).
    assert (exists s, as_string k = Ok s /\ In s person_fields) as (s & Ek & Is).
    { repeat (apply f2_cons in F as (? & ? & -> & (? & ?) & F)). apply f2_nil in F. subst. cbn [fst snd] in *.
      destruct I as [-> | [-> | [-> | [-> | []]]]]; cbn [fst] in *; eexists; (split; [apply is_text_iff; eassumption|unfold person_fields; cbn [In]; auto]). }
    unfold struct_assign. cbn [struct_loop]. rewrite Ek. cbn [bind].
    destruct (field_index s person_fields 0) eqn:Fi; [reflexivity|]. exfalso. clear - Is Fi.
    unfold person_fields in Is. cbn [In] in Is. decompose [or] Is; try contradiction; subst s; discriminate Fi. }
  destruct x; cbn [assign_person]; try discriminate M; try (rewrite M; exact E). now destruct (N p0).
Qed.

Definition sets (i : nat) (v : node) : Prop := forall w, exists w', set_commit i v w = Ok w'.
Definition crashes (i : nat) (v : node) : Prop := forall w, set_commit i v w = Panic.
Lemma loop_panics kvs : forall seen w,
  (forall k v, In (k, v) kvs -> exists name i, as_string k = Ok name /\ field_index name Nodes.commit_fields 0 = Some i /\ ~ In i seen /\ (sets i v \/ crashes i v)) ->
  NoDup (map (fun kv => as_string (fst kv)) kvs) ->
  (exists k v name i, In (k, v) kvs /\ as_string k = Ok name /\ field_index name Nodes.commit_fields 0 = Some i /\ crashes i v) ->
  struct_loop Nodes.commit_fields set_commit kvs seen w = Panic.
Proof.
  induction kvs as [|[k v] kvs IH]; intros seen w H ND (k0 & v0 & name0 & i0 & I0 & E0 & F0 & C0); [destruct I0|].
  destruct (H k v) as (name & i & Ek & Fi & Ns & SC); [now left|]. cbn [struct_loop]. rewrite Ek. cbn [bind]. rewrite Fi.
  replace (existsb (Nat.eqb i) seen) with false.
  2:{ symmetry. apply not_true_iff_false. intros X. apply existsb_exists in X as (j & Ij & Ej). apply Nat.eqb_eq in Ej. now subst. }
  destruct SC as [S|C]; [|now rewrite C]. destruct (S w) as [w' Ew]. rewrite Ew. cbn [bind].
  cbn [map fst] in ND. inversion ND as [|? ? N1 N2]. subst.
  apply IH; [|assumption|].
  - intros k1 v1 I1. destruct (H k1 v1) as (name1 & i1 & E1 & F1 & Ns1 & SC1); [now right|]. exists name1, i1. do 2 (split; [assumption|]). split; [|assumption].
    intros [<-|X]; [|contradiction]. apply N1. rewrite Ek. apply field_index_iff in Fi as [_ Fi]. apply field_index_iff in F1 as [_ F1]. rewrite Fi in F1. injection F1 as <-.
    rewrite <- E1. exact (in_map (fun kv : node * node => as_string (fst kv)) kvs (k1, v1) I1).
  - destruct I0 as [E|I0]; [|eauto 10]. injection E as -> ->. rewrite Ek in E0. injection E0 as <-. rewrite Fi in F0. injection F0 as <-.
    exfalso. rewrite (C0 w) in Ew. discriminate Ew.
Qed.

Lemma F2_In {A B} (P : A -> B -> Prop) l m b : Forall2 P l m -> In b m -> exists a, In a l /\ P a b.
Proof. induction 1 as [|x y l m H F IH]; [easy|]. intros [<-|I]; [exists x; split; [now left|assumption]|]. destruct (IH I) as (a & Ia & Pa). exists a. split; [now right|assumption]. Qed.
Lemma field_sets f v : In f commit_defs -> fits_schema (fd_type f) v ->
  exists i, field_index (fd_name f) Nodes.commit_fields 0 = Some i /\
    (sets i v \/ crashes i v /\ (fd_name f = bs "author" \/ fd_name f = bs "committer")) /\
    (fd_name f = bs "author" \/ fd_name f = bs "committer" -> sets i v -> exists p, v = NPerson p).
Proof.
  intros I V. destruct (builders_accept_what_fits v) as (Bs & Bg & _ & Bt & _ & Bo & Bp & Bm & _).
  assert (forall who i, (forall w, set_commit i v w = let* p := assign_person true v in set_commit i (NPerson p) w) -> (forall p w, exists w', set_commit i (NPerson p) w = Ok w') ->
     fits_schema (bs "PersonInfo") v -> who = bs "author" \/ who = bs "committer" ->
     (sets i v \/ crashes i v /\ (who = bs "author" \/ who = bs "committer")) /\ (who = bs "author" \/ who = bs "committer" -> sets i v -> exists p, v = NPerson p)) as Per.
  { intros who i E Eok Fp W. apply person_fits in Fp as [p Hp].
    assert ((exists q, v = NPerson q) \/ forall q, v <> NPerson q) as [[q Eq]|N] by (destruct v; eauto; right; discriminate).
    - split; [left|now exists q]. intros w. rewrite E, Eq. cbn [assign_person bind]. apply Eok.
    - split.
      + right. split; [|assumption]. intros w. rewrite E, (foreign_person_panics p v Hp N). reflexivity.
      + intros _ Hs. exfalso. destruct (Hs zero_commit) as [w' X]. rewrite E, (foreign_person_panics p v Hp N) in X. discriminate X. }
  unfold commit_defs in I. repeat (destruct I as [<-|I]); [..|destruct I]; cbn [fd_name fd_type f_tree f_parents f_message f_author f_committer f_encoding f_signature f_mergetag f_other spawn_field] in *.
  - apply Bt in V as [l E]. exists 0. split; [reflexivity|]. split; [left|intros [X|X]; discriminate X]. intros w. cbn [set_commit]. rewrite E. eexists. reflexivity.
  - apply Bp in V as [l E]. exists 1. split; [reflexivity|]. split; [left|intros [X|X]; discriminate X]. intros w. cbn [set_commit]. rewrite E. eexists. reflexivity.
  - apply Bs in V as [l E]. exists 2. split; [reflexivity|]. split; [left|intros [X|X]; discriminate X]. intros w. cbn [set_commit]. rewrite E. eexists. reflexivity.
  - exists 3. split; [reflexivity|]. apply Per; [reflexivity|intros p w; eexists; reflexivity|exact V|auto].
  - exists 4. split; [reflexivity|]. apply Per; [reflexivity|intros p w; eexists; reflexivity|exact V|auto].
  - apply Bs in V as [l E]. exists 5. split; [reflexivity|]. split; [left|intros [X|X]; discriminate X]. intros w. cbn [set_commit]. rewrite E. eexists. reflexivity.
  - apply Bg in V as [l E]. exists 6. split; [reflexivity|]. split; [left|intros [X|X]; discriminate X]. intros w. cbn [set_commit]. rewrite E. eexists. reflexivity.
  - apply Bm in V as [l E]. exists 7. split; [reflexivity|]. split; [left|intros [X|X]; discriminate X]. intros w. cbn [set_commit]. rewrite E. eexists. reflexivity.
  - apply Bo in V as [l E]. exists 8. split; [reflexivity|]. split; [left|intros [X|X]; discriminate X]. intros w. cbn [set_commit]. rewrite E. eexists. reflexivity.
Qed.
Lemma selection_in fs gs f : selection fs gs -> In f gs -> In f fs.
Proof. induction 1 as [|g fs gs S IH|g fs gs O S IH]; intros H; [easy|destruct H as [->|H]; [now left|right; auto]|right; auto]. Qed.
Lemma selection_nodup fs gs : selection fs gs -> NoDup (map fd_name fs) -> NoDup (map fd_name gs).
Proof.
  induction 1 as [|g fs gs S IH|g fs gs O S IH]; intros N; [constructor| |]; cbn [map] in N; inversion N as [|? ? N1 N2]; subst; [|auto].
  cbn [map]. constructor; [|auto]. intros X. apply in_map_iff in X as (f & E & I). apply N1. rewrite <- E. apply in_map. eapply selection_in; eauto.
Qed.
Lemma some_crash (kvs : list (node * node)) (C S : node * node -> Prop) : (forall kv, In kv kvs -> S kv \/ C kv) -> (forall kv, In kv kvs -> S kv) \/ exists kv, In kv kvs /\ C kv.
Proof.
  induction kvs as [|kv kvs IH]; intros H; [left; intros ? []|].
  destruct (H kv) as [X|X]; [now left| |right; exists kv; split; [now left|assumption]].
  destruct IH as [A|(kv' & I & Y)]; [intros ? ?; apply H; now right| |right; exists kv'; split; [now right|assumption]].
  left. intros ? [<-|I]; auto.
Qed.

Lemma fitting_commit_panics v : (forall c, v <> NCommit c) -> fits_schema (bs "Commit") v -> ~ own_persons v -> build_node BCommit v = Panic.
Proof.
  intros NC Fv NO. apply (inv_struct any Representation (bs "Commit") commit_defs) in Fv; [|here|nonnull].
  destruct Fv as (gs & kvs & kvs' & M & S & P & F).
  assert (forall kv, In kv kvs -> exists f, In f commit_defs /\ is_text (fst kv) (fd_name f) /\ fits_schema (fd_type f) (snd kv)) as A.
  { intros kv I. apply (Permutation_in _ (Permutation_sym P)) in I. destruct (F2_In _ _ _ _ F I) as (f & If & Mf). exists f. split; [eapply selection_in; eauto|]. now apply strip_member. }
  assert (forall kv, In kv kvs -> exists name i, as_string (fst kv) = Ok name /\ field_index name Nodes.commit_fields 0 = Some i /\
     (sets i (snd kv) \/ crashes i (snd kv)) /\ (name = bs "author" \/ name = bs "committer" -> sets i (snd kv) -> exists p, snd kv = NPerson p)) as B.
  { intros kv I. destruct (A kv I) as (f & If & K & V). destruct (field_sets f (snd kv) If V) as (i & Fi & SC & O). exists (fd_name f), i.
    split; [now apply is_text_iff|]. split; [assumption|]. split; [tauto|assumption]. }
  assert (struct_loop Nodes.commit_fields set_commit kvs [] zero_commit = Panic) as L.
  { apply loop_panics.
    - intros k v0 I. destruct (B _ I) as (name & i & E & Fi & SC & _). exists name, i. do 2 (split; [assumption|]). split; [intros []|assumption].
    - assert (map (fun kv : node * node => as_string (fst kv)) kvs' = map (fun f => Ok (fd_name f)) gs) as Ek.
      { clear - F. induction F as [|f kv gs kvs' [K _] F IH]; [reflexivity|]. cbn [map]. f_equal; [now apply is_text_iff|assumption]. }
      eapply Permutation_NoDup; [apply Permutation_map; exact P|]. rewrite Ek.
      assert (NoDup (map fd_name gs)) as N by (apply (selection_nodup commit_defs); [assumption|]; apply Checks.nodupb_ok; vm_compute; reflexivity).
      rewrite <- (map_map fd_name (@Ok bytes)). apply FinFun.Injective_map_NoDup; [|assumption]. intros a b. congruence.
    - destruct (some_crash kvs (fun kv => exists name i, as_string (fst kv) = Ok name /\ field_index name Nodes.commit_fields 0 = Some i /\ crashes i (snd kv))
        (fun kv => exists name i, as_string (fst kv) = Ok name /\ field_index name Nodes.commit_fields 0 = Some i /\ sets i (snd kv) /\
           (name = bs "author" \/ name = bs "committer" -> exists p, snd kv = NPerson p))) as [All|([k u] & I & name & i & E & Fi & C)].
      + intros kv I. destruct (B kv I) as (name & i & E & Fi & [Sx|C] & O); [left|right]; exists name, i; auto.
      + exfalso. apply NO. intros kvs0 k x M0 I T. rewrite M in M0. injection M0 as <-. destruct (All _ I) as (name & i & E & _ & _ & O). cbn [fst snd] in *.
        apply O. apply is_text_iff in E. destruct T as [T|T]; [left|right]; exact (text_fun _ _ _ E T).
      + exists k, u, name, i. auto. }
  cbn [build_node]. destruct v; try discriminate M; cbn [assign_commit]; try (now destruct (NC c)); rewrite M; unfold struct_assign; rewrite L; reflexivity.
Qed.

(** The builder of commits accepts the data that fits the schema if the author and committer are
    the library's own nodes, and crashes otherwise.  (A typed commit is taken as it is.) *)
Theorem commit_builder_and_the_schema : forall v, (forall c, v <> NCommit c) ->
  ((exists n, build_node BCommit v = Ok n) <-> fits_schema (bs "Commit") v /\ own_persons v) /\
  (fits_schema (bs "Commit") v -> ~ own_persons v -> build_node BCommit v = Panic).
Proof.
  intros v NC. split; [|apply (fitting_commit_panics v NC)]. cbn [build_node]. split.
  - intros [n H]. apply map_res_ok in H as (c & H & _). apply assign_commit_iff in H as [->|H]; [now destruct (NC c)|].
    apply data_own in H as [D O]. split; [apply commit_fits; eauto|assumption].
  - intros [D O]. apply commit_fits in D as [c D]. exists (NCommit c). apply map_res_ok. exists c. split; [|reflexivity]. apply assign_commit_iff. right. now apply own_data.
Qed.
Print Assumptions commit_builder_and_the_schema.

(** The builder of trees takes typed trees as they are and maps without entries, and crashes
    for all other data that fits the schema. *)
Theorem tree_builder_and_the_schema : forall v, fits_schema (bs "Tree") v ->
  (forall t, v = NTree t -> build_node BTree v = Ok (NTree t)) /\
  (map_entries v = Some [] -> build_node BTree v = Ok (NTree zero_tree) \/ exists t, v = NTree t) /\
  (map_entries v <> Some [] -> (forall t, v <> NTree t) -> build_node BTree v = Panic).
Proof.
  intros v Fv. apply (inv_map any Representation (bs "Tree") (bs "String") (bs "TreeEntry")) in Fv; [|here].
  destruct Fv as (kvs & names & M & Fn & _). split; [now intros t ->|]. split.
  - intros M0. destruct v; try discriminate M0; cbn [build_node assign_tree]; rewrite ?M0; auto. right. eauto.
  - intros N0 NT. destruct kvs as [|[k u] kvs]; [now rewrite M in N0|]. inversion Fn as [|? ? ? ? K ?]; subst. cbn [fst] in K. apply is_text_iff in K.
    destruct v; try discriminate M; cbn [build_node assign_tree]; try (now destruct (NT t)); rewrite M, K; reflexivity.
Qed.
Print Assumptions tree_builder_and_the_schema.

(** Data that fits the schema of a commit or tree can crash its builder. *)
Definition some_link := LCid (git_cid (repeat x00 20)).
Definition person_map := NGenMap [(NGenString (bs "name"), NGenString (bs "A")); (NGenString (bs "email"), NGenString (bs "a@b"));
  (NGenString (bs "date"), NGenString (bs "1")); (NGenString (bs "timezone"), NGenString (bs "+0000"))].
Definition commit_map (who : list (node * node)) := NGenMap (who ++
  [(NGenString (bs "other"), NGenList []); (NGenString (bs "mergetag"), NGenList []); (NGenString (bs "message"), NGenString (bs "m"));
   (NGenString (bs "tree"), NGenLink some_link); (NGenString (bs "parents"), NGenList [NGenLink some_link])]).
Definition tree_map := NGenMap [(NGenString (bs "a"), NGenMap [(NGenString (bs "hash"), NGenLink some_link); (NGenString (bs "mode"), NGenString (bs "100644"))])].

Lemma person_map_fits : fits_schema (bs "PersonInfo") person_map.
Proof. apply builders_accept_what_fits. eexists. vm_compute. reflexivity. Qed.
Lemma commit_map_fits : fits_schema (bs "Commit") (commit_map []) /\ fits_schema (bs "Commit") (commit_map [(NGenString (bs "author"), person_map)]).
Proof.
  assert (assign_person false person_map = Ok {| p_date := bs "1"; p_timezone := bs "+0000"; p_email := bs "a@b"; p_name := bs "A" |}) as Ep by (vm_compute; reflexivity).
  apply assign_person_iff in Ep.
  split; apply commit_fits.
  - exists {| c_tree := some_link; c_parents := [some_link]; c_message := bs "m"; c_author := None; c_committer := None; c_encoding := None; c_signature := None; c_mergetag := []; c_other := [] |}.
    eexists. exists [(NGenString (bs "tree"), NGenLink some_link); (NGenString (bs "parents"), NGenList [NGenLink some_link]); (NGenString (bs "message"), NGenString (bs "m")); (NGenString (bs "mergetag"), NGenList []); (NGenString (bs "other"), NGenList [])].
    split; [reflexivity|]. split.
    + cbn [app]. set (a := (NGenString (bs "tree"), _)). set (b := (NGenString (bs "parents"), _)). set (c := (NGenString (bs "message"), _)). set (d := (NGenString (bs "mergetag"), _)). set (e := (NGenString (bs "other"), _)).
      transitivity ([c; d; e] ++ [a; b]); [apply (Permutation_app_comm [a; b] [c; d; e])|]. apply (Permutation_app_tail [a; b] (l := [c; d; e]) (l' := [e; d; c])). apply (Permutation_rev [c; d; e]).
    + repeat (apply Forall2_cons; [split; [constructor|cbn [snd fst]; first [constructor; fail|eexists; split; [reflexivity|repeat constructor]]]|]). constructor.
  - exists {| c_tree := some_link; c_parents := [some_link]; c_message := bs "m"; c_author := Some {| p_date := bs "1"; p_timezone := bs "+0000"; p_email := bs "a@b"; p_name := bs "A" |}; c_committer := None; c_encoding := None; c_signature := None; c_mergetag := []; c_other := [] |}.
    eexists. exists [(NGenString (bs "tree"), NGenLink some_link); (NGenString (bs "parents"), NGenList [NGenLink some_link]); (NGenString (bs "message"), NGenString (bs "m")); (NGenString (bs "author"), person_map); (NGenString (bs "mergetag"), NGenList []); (NGenString (bs "other"), NGenList [])].
    split; [reflexivity|]. split.
    + cbn [app]. set (a := (NGenString (bs "tree"), _)). set (b := (NGenString (bs "parents"), _)). set (c := (NGenString (bs "message"), _)). set (f := (NGenString (bs "author"), _)). set (d := (NGenString (bs "mergetag"), _)). set (e := (NGenString (bs "other"), _)).
      transitivity ([c; f; d; e] ++ [a; b]); [apply (Permutation_app_comm [a; b] [c; f; d; e])|].
      apply (Permutation_app_tail [a; b] (l := [c; f; d; e]) (l' := [f; e; d; c])). transitivity (f :: [c; d; e]); [apply perm_swap|]. apply perm_skip. apply (Permutation_rev [c; d; e]).
    + do 3 (apply Forall2_cons; [split; [constructor|cbn [snd fst]; first [constructor; fail|eexists; split; [reflexivity|repeat constructor]]]|]).
      apply Forall2_cons; [split; [constructor|exact Ep]|].
      repeat (apply Forall2_cons; [split; [constructor|cbn [snd fst]; first [constructor; fail|eexists; split; [reflexivity|repeat constructor]]]|]). constructor.
Qed.
Lemma tree_map_fits : fits_schema (bs "Tree") tree_map.
Proof.
  apply (inv_map any Representation (bs "Tree") (bs "String") (bs "TreeEntry")); [here|].
  eexists. exists [bs "a"]. split; [reflexivity|]. split; [repeat constructor|]. split; [constructor; [intros []|constructor]|].
  split; (constructor; [|constructor]); cbn [fst snd].
  - apply inv_string; [here|]. eexists. constructor.
  - apply builders_accept_what_fits. eexists. vm_compute. reflexivity.
Qed.
Theorem data_that_fits_is_accepted_refuted :
  (exists v, fits_schema (bs "Commit") v /\ build_node BCommit v = Panic) /\
  (exists v, fits_schema (bs "Tree") v /\ build_node BTree v = Panic).
Proof.
  split.
  - exists (commit_map [(NGenString (bs "author"), person_map)]). split; [apply commit_map_fits|vm_compute; reflexivity].
  - exists tree_map. split; [apply tree_map_fits|vm_compute; reflexivity].
Qed.
Print Assumptions data_that_fits_is_accepted_refuted.

(** ** Decoded objects *)

(** What is decoded conforms to the schema; the links are git links if none is missing. *)
Theorem decoded_objects_conform : forall S V (ops : rdops S V) s n,
  parse_object ops s = Ok n ->
  exists T, type_of n = Some T /\
    conforms git_schema any Typed T n /\ fits_schema T (representation n) /\
    (conforms git_schema sha1_link Typed T n <-> ~ In LNil (links_in n)) /\
    (conforms git_schema sha1_link Representation T (representation n) <-> ~ In LNil (links_in n)).
Proof.
  intros S V ops s n H. pose proof (decoded_links_are_sha1 S V ops s n H) as L.
  assert (distinct_names n) as D by (destruct n; try exact Logic.I; exact (decoded_tree_names_are_distinct S V ops s t H)).
  assert (exists T, type_of n = Some T) as [T HT] by (destruct n; try contradiction; cbn [type_of]; eauto).
  exists T. split; [assumption|].
  destruct (generated_nodes_conform any n T HT) as [A1 A2]. split; [apply A1; unfold any; auto|]. split; [apply A2; unfold any; auto|].
  assert ((forall l, In l (links_in n) -> sha1_link l) /\ distinct_names n <-> ~ In LNil (links_in n)) as E.
  { split.
    - intros [G _] X. apply G in X. inversion X as (? & ? & ?). discriminate.
    - intros NN. split; [|assumption]. intros l I. assert (l <> LNil) as Nl by (now intros ->).
      destruct n; try contradiction; cbn [links_in] in I; try contradiction.
      + destruct I as [<-|[]]. destruct L; [contradiction|assumption].
      + destruct L as (L1 & L2 & L3). destruct I as [<-|I]; [destruct L1; [contradiction|assumption]|]. apply in_app_iff in I as [I|I]; [auto|]. apply in_map_iff in I as (t & <- & I). auto.
      + apply in_map_iff in I as ([k e] & <- & I). eapply L. exact I. }
  destruct (generated_nodes_conform sha1_link n T HT) as [B1 B2]. split; [rewrite B1|rewrite B2]; exact E.
Qed.
Print Assumptions decoded_objects_conform.

(** Not every decoded object has its links: a commit without a tree line, a tag without an
    object line.  Where a link should be there is nil. *)
Theorem decoded_objects_have_their_links_refuted :
  (exists c, parse_object (stream_ops 64) (mk (bs "commit 2" ++ [NUL; NL] ++ bs "m") EEOF) = Ok (NCommit c) /\ ~ conforms git_schema sha1_link Typed (bs "Commit") (NCommit c)) /\
  (exists t, parse_object (stream_ops 64) (mk (bs "tag 7" ++ [NUL] ++ bs "tag v1" ++ [NL]) EEOF) = Ok (NTag t) /\ ~ conforms git_schema sha1_link Typed (bs "Tag") (NTag t)).
Proof.
  split; (eexists; split; [vm_compute; reflexivity|]); intros C.
  - apply (generated_nodes_conform sha1_link) in C as [C _]; [|reflexivity]. destruct (C LNil) as (sha & _ & X); [now left|discriminate X].
  - apply (generated_nodes_conform sha1_link) in C as [C _]; [|reflexivity]. destruct (C LNil) as (sha & _ & X); [now left|discriminate X].
Qed.
Print Assumptions decoded_objects_have_their_links_refuted.

(** ** Order of fields *)

(** Iterating over a struct gives its fields in the order of the schema; the representation
    leaves out fields that are optional. *)
Theorem fields_come_in_schema_order : forall n T fs, type_of n = Some T -> In (T, DStruct fs) git_schema ->
  (exists kvs, yields n kvs /\ map (fun kv => as_string (fst kv)) kvs = map (fun f => Ok (fd_name f)) fs) /\
  (exists gs kvs, yields (representation n) kvs /\ selection fs gs /\ map (fun kv => as_string (fst kv)) kvs = map (fun f => Ok (fd_name f)) gs).
Proof.
  intros n T fs HT I. setoid_rewrite <- map_entries_yields.
  destruct n; cbn [type_of] in HT; try discriminate HT; (assert (forall A (x y : A), Some x = Some y -> x = y) as Inj by congruence); apply Inj in HT; subst T; clear Inj;
  match type of I with In (?N, _) _ =>
    let H := fresh in (assert (exists D, In (N, D) git_schema /\ match D with DStruct _ => True | _ => False end) as H by (exists (DStruct fs); split; [exact I|exact Logic.I])) end;
  try (exfalso; unfold git_schema in I; cbn [In] in I; repeat (destruct I as [I|I]; [try discriminate I|]); destruct I; fail).
  - assert (DStruct fs = DStruct [ spawn_field (bs "date") (bs "String") false false; spawn_field (bs "timezone") (bs "String") false false;
        spawn_field (bs "email") (bs "String") false false; spawn_field (bs "name") (bs "String") false false ]) as E by (apply (one_def (bs "PersonInfo")); [exact I|here]).
    injection E as ->. split; [eexists; split; reflexivity|]. eexists. eexists. split; [reflexivity|]. split; [apply selection_all|reflexivity].
  - assert (DStruct fs = DStruct tag_defs) as E by (apply (one_def (bs "Tag")); [exact I|here]).
    injection E as ->. split; [eexists; split; reflexivity|]. eexists. eexists. split; [reflexivity|]. split; [apply selection_all|reflexivity].
  - assert (DStruct fs = DStruct commit_defs) as E by (apply (one_def (bs "Commit")); [exact I|here]).
    injection E as ->. split; [eexists; split; reflexivity|]. exists (commit_selection c). eexists. split; [reflexivity|]. split; [apply commit_selected|].
    unfold commit_selection. destruct (c_author c), (c_committer c), (c_encoding c), (c_signature c); reflexivity.
  - assert (DStruct fs = DStruct [ spawn_field (bs "mode") (bs "String") false false; spawn_field (bs "hash") (bs "Link") false false ]) as E by (apply (one_def (bs "TreeEntry")); [exact I|here]).
    injection E as ->. split; [eexists; split; reflexivity|]. eexists. eexists. split; [reflexivity|]. split; [apply selection_all|reflexivity].
Qed.
Print Assumptions fields_come_in_schema_order.

(** ** The types of Builder.v *)

(** The type of the builder for a name of the schema.  Optional scalars are held in place,
    optional structs behind a pointer. *)
Fixpoint builder_type (fuel : nat) (sch : schema) (T : bytes) : option Builder.ty :=
  match fuel with
  | O => None
  | S f =>
      match assoc T sch with
      | Some DString => Some (Builder.TScalar Builder.KString)
      | Some DBytes => Some (Builder.TScalar Builder.KBytes)
      | Some (DLink _) => Some (Builder.TScalar Builder.KLink)
      | Some (DList e false) => option_map Builder.TList (builder_type f sch e)
      | Some (DMap _ e false) => option_map Builder.TTree (builder_type f sch e)
      | Some (DStruct fs) =>
          option_map Builder.TStruct
            (fold_right (fun fd acc =>
               match builder_type f sch (fd_type fd), acc with
               | Some t, Some l =>
                   Some ((fd_name fd, if fd_optional fd then match t with Builder.TScalar _ => Builder.OptionalInline | _ => Builder.OptionalPointer end else Builder.Required, t) :: l)
               | _, _ => None
               end) (Some []) fs)
      | _ => None
      end
  end.
(** The types for which Builder.v is instantiated are those of the schema, and every name the
    schema uses is defined (ts.ValidateGraph, gen.go:68-73). *)
Definition names_used (d : typedef) : list bytes :=
  match d with
  | DLink (Some t) => [t]
  | DList e _ => [e]
  | DMap k e _ => [k; e]
  | DStruct fs => map fd_type fs
  | _ => []
  end.
Theorem the_machine_follows_the_schema :
  (builder_type 5 git_schema (bs "PersonInfo") = Some Builder.t_person /\ builder_type 5 git_schema (bs "Tag") = Some Builder.t_tag /\
   builder_type 5 git_schema (bs "Commit") = Some Builder.t_commit /\ builder_type 5 git_schema (bs "TreeEntry") = Some Builder.t_entry /\
   builder_type 5 git_schema (bs "Tree") = Some Builder.t_tree /\ builder_type 5 git_schema (bs "Blob") = Some Builder.t_blob) /\
  (forall T d U, In (T, d) git_schema -> In U (names_used d) -> exists d', In (U, d') git_schema).
Proof.
  split.
  - split; [reflexivity|]. split; [reflexivity|]. split; [reflexivity|]. split; [reflexivity|]. split; reflexivity.
  - intros T d U I J.
    assert (existsb (beqb U) (map fst git_schema) = true) as X.
    { enough (forallb (fun td => forallb (fun u => existsb (beqb u) (map fst git_schema)) (names_used (snd td))) git_schema = true) as A.
      { rewrite forallb_forall in A. specialize (A _ I). rewrite forallb_forall in A. exact (A _ J). }
      vm_compute. reflexivity. }
    apply existsb_exists in X as (U' & IU & E). destruct (beqb_spec U U') as [<-|]; [|discriminate E]. apply in_map_iff in IU as ([U' d'] & <- & IU). eauto.
Qed.
Print Assumptions the_machine_follows_the_schema.

(** ** Examples *)
Example generated_nodes_conform_applies :
  let c := {| c_tree := some_link; c_parents := [some_link; some_link]; c_message := bs "m"; c_author := None; c_committer := Some zero_person;
              c_encoding := None; c_signature := Some (bs "s"); c_mergetag := [zero_tag]; c_other := [bs "x"] |} in
  conforms git_schema any Typed (bs "Commit") (NCommit c) /\ fits_schema (bs "Commit") (NCommitR c) /\
  ~ conforms git_schema sha1_link Typed (bs "Commit") (NCommit c) /\
  ~ fits_schema (bs "Commit") (NGenMap []) /\ ~ fits_schema (bs "Tree") (NTree {| tr_t := [(bs "a", zero_entry); (bs "a", zero_entry)]; tr_m := [] |}).
Proof.
  intros c. destruct (generated_nodes_conform any (NCommit c) _ eq_refl) as [E1 E2]. destruct (generated_nodes_conform sha1_link (NCommit c) _ eq_refl) as [E3 _].
  split; [apply E1; split; [easy|exact Logic.I]|]. split; [apply E2; split; [easy|exact Logic.I]|].
  split; [intros X; apply E3 in X as [X _]; destruct (X LNil) as (sha & _ & Y); [cbn; auto|discriminate Y]|].
  split.
  - intros X. assert (own_persons (NGenMap [])) as O by (intros kvs k x M I; injection M as <-; destruct I).
    destruct (commit_builder_and_the_schema (NGenMap []) ltac:(discriminate)) as [[_ K] _]. destruct (K (conj X O)) as [n Y]. vm_compute in Y. discriminate Y.
  - intros X. apply (tree_conf any Representation _ _ (or_introl eq_refl)) in X as [X _]. cbn in X. inversion X as [|? ? N _]. apply N. now left.
Qed.
Example builders_apply :
  fits_schema (bs "PersonInfo") person_map /\ fits_schema (bs "Commit") (commit_map []) /\ own_persons (commit_map []) /\
  fits_schema (bs "Commit") (commit_map [(NGenString (bs "author"), person_map)]) /\ ~ own_persons (commit_map [(NGenString (bs "author"), person_map)]) /\
  fits_schema (bs "Tree") tree_map /\ map_entries tree_map <> Some [].
Proof.
  split; [apply person_map_fits|]. split; [apply commit_map_fits|].
  split. { intros kvs k x M I T. injection M as <-. repeat (destruct I as [I|I]; [injection I as <- <-; destruct T as [T|T]; inversion T|]). destruct I. }
  split; [apply commit_map_fits|].
  split. { intros O. destruct (O _ _ _ eq_refl (or_introl eq_refl)) as [p X]; [left; constructor|discriminate X]. }
  split; [apply tree_map_fits|discriminate].
Qed.
Example decoded_objects_conform_applies :
  exists n, parse_object (stream_ops 64) (mk (bs "tree 28" ++ [NUL] ++ bs "100644 a" ++ [NUL] ++ repeat x41 20) EEOF) = Ok n /\ ~ In LNil (links_in n).
Proof. eexists. split; [vm_compute; reflexivity|]. cbn. intros [X|[]]. discriminate X. Qed.
