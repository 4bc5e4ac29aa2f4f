(** C58: Encode over any implementation of the node interface. *)
From Verif Require Import Base GoStr Cid Types Nodes Reader Person Assemble Decode Encode Foreign ForeignSpec Spec.

(** ** On the nodes of Types.v this is Encode.v *)
Lemma kind_map n : (node_kind n = KMap /\ exists kvs, map_entries n = Some kvs) \/ (node_kind n <> KMap /\ map_entries n = None).
Proof. destruct n; cbn; (left; split; [reflexivity|eauto]) || (right; split; [discriminate|reflexivity]). Qed.
Lemma kind_list n : (node_kind n = KList /\ exists l, list_items n = Some l) \/ (node_kind n <> KList /\ list_items n = None).
Proof. destruct n; cbn; (left; split; [reflexivity|eauto]) || (right; split; [discriminate|reflexivity]). Qed.

Lemma fstring_node v : fassign_string node_ops v = assign_string v.
Proof. now destruct v. Qed.
Lemma fgpgsig_node v : fassign_gpgsig node_ops v = assign_string v.
Proof. now destruct v. Qed.
Lemma flink_node v : fassign_link node_ops v = assign_link v.
Proof. now destruct v. Qed.
Lemma ftree_link_node v : fassign_tree_link node_ops v = assign_link v.
Proof. now destruct v. Qed.
Lemma fcommit_link_node v : fassign_commit_link node_ops v = assign_link v.
Proof. now destruct v. Qed.
Lemma fitems_node {A} (f g : node -> res A) l : (forall v, f v = g v) -> fassign_items f l None = assign_items g l.
Proof. intros H. induction l as [|v l IH]; [reflexivity|]. cbn [fassign_items assign_items]. now rewrite H, IH. Qed.
Lemma floop_node {W} fields (f g : nat -> node -> W -> res W) kvs : (forall i v w, f i v w = g i v w) ->
  forall seen w, fstruct_loop node_ops fields f kvs None seen w = struct_loop fields g kvs seen w.
Proof.
  intros H. induction kvs as [|[k v] kvs IH]; intros seen w; [reflexivity|]. cbn [fstruct_loop struct_loop node_ops o_string].
  destruct (as_string k) as [ks| | |]; try reflexivity. cbn [bind]. destruct (field_index ks fields 0); [|reflexivity].
  destruct (existsb _ seen); [reflexivity|]. rewrite H. destruct (g n v w); try reflexivity. cbn [bind]. apply IH.
Qed.
Lemma fstruct_node {W} (own : node -> option W) fields req f g (z : W) v : (forall i v w, f i v w = g i v w) -> (forall v, node_own v = None -> own v = None) ->
  fassign_struct node_ops own fields req f z v =
    match own v with
    | Some w => Ok w
    | None => match map_entries v with None => Err EWrongKind | Some kvs => struct_assign fields req g kvs z end
    end.
Proof.
  intros H Hn. unfold fassign_struct. cbn [node_ops o_null o_own o_kind o_map].
  destruct (is_null v) eqn:En; [destruct v; try discriminate En; now rewrite Hn|].
  replace (match node_own v with Some n => own n | None => None end) with (own v) by (destruct v; cbn [node_own]; try reflexivity; now apply Hn).
  destruct (own v); [reflexivity|]. destruct (kind_map v) as [[K [kvs M]]|[K M]]; rewrite M; cbn [option_map].
  - rewrite K. unfold struct_assign. now rewrite (floop_node fields f g kvs H).
  - destruct (node_kind v); congruence.
Qed.
Lemma flist_node {A} (own : node -> option (list A)) (f g : node -> res A) v : (forall v, f v = g v) -> (forall v, node_own v = None -> own v = None) ->
  fassign_list node_ops own f v = match own v with Some l => Ok l | None => assign_list g v end.
Proof.
  intros H Hn. unfold fassign_list, assign_list. cbn [node_ops o_null o_own o_kind o_list].
  destruct (is_null v) eqn:En; [destruct v; try discriminate En; now rewrite Hn|].
  replace (match node_own v with Some n => own n | None => None end) with (own v) by (destruct v; cbn [node_own]; try reflexivity; now apply Hn).
  destruct (own v); [reflexivity|]. destruct (kind_list v) as [[K [l M]]|[K M]]; rewrite M; cbn [option_map].
  - rewrite K. now apply fitems_node.
  - destruct (node_kind v); congruence.
Qed.
Lemma fperson_node b v : fassign_person node_ops b v = assign_person b v.
Proof.
  unfold fassign_person. rewrite (fstruct_node _ _ _ _ (if b then fun _ _ _ => Panic else set_person)); [now destruct v| |now intros []].
  intros i x w. destruct b; [reflexivity|]. unfold fset_person, set_person. now rewrite fstring_node.
Qed.
Lemma ftag_node v : fassign_tag node_ops v = assign_tag v.
Proof.
  unfold fassign_tag. rewrite (fstruct_node _ _ _ _ set_tag); [now destruct v| |now intros []].
  intros i x w. unfold fset_tag, set_tag. now rewrite flink_node, fstring_node, fperson_node.
Qed.
Lemma fcommit_node v : fassign_commit node_ops v = assign_commit v.
Proof.
  unfold fassign_commit. rewrite (fstruct_node _ _ _ _ set_commit); [now destruct v| |now intros []].
  intros i x w. unfold fset_commit, set_commit. rewrite ftree_link_node, fstring_node, fgpgsig_node, fperson_node.
  unfold fassign_link_list, fassign_string_list, fassign_tag_list.
  rewrite (flist_node _ _ assign_link) by (apply fcommit_link_node || now intros []).
  rewrite (flist_node _ _ assign_string) by (apply fstring_node || now intros []).
  rewrite (flist_node _ _ assign_tag) by (apply ftag_node || now intros []).
  unfold assign_link_list, assign_string_list, assign_tag_list. now destruct x.
Qed.
Lemma fentries_node kvs : ftree_entries_body node_ops kvs None = tree_entries_body kvs.
Proof. induction kvs as [|[k te] kvs IH]; [reflexivity|]. cbn [ftree_entries_body tree_entries_body]. now rewrite IH. Qed.
Lemma ftree_node n : fencode_tree node_ops n = encode_tree n.
Proof.
  unfold fencode_tree, encode_tree, tree_body. cbn [node_ops o_map]. destruct (map_entries n); [|reflexivity]. cbn [option_map]. now rewrite fentries_node.
Qed.
Lemma lookup_answers n k : (exists m, lookup_by_string n k = Ok m) \/ exists e, lookup_by_string n k = Err e.
Proof.
  destruct n; cbn [lookup_by_string]; eauto;
    try (repeat match goal with |- context [if ?b then _ else _] => destruct b end; eauto; fail).
  - induction kvs as [|[k' v] kvs IH]; cbn [gen_lookup]; [eauto|]. destruct (as_string k'); auto. destruct (beqb k a); eauto.
  - repeat match goal with |- context [if ?b then _ else _] => destruct b; eauto end;
      match goal with |- context [match ?o with _ => _ end] => destruct o; eauto end.
  - destruct (assoc k (tr_m t)); eauto.
  - destruct (assoc k (tr_m t)); eauto.
Qed.
Lemma ftag_enc_node n : fencode_tag node_ops n = encode_tag n.
Proof.
  unfold fencode_tag, encode_tag, tag_body. cbn [node_ops o_lookup o_link o_string o_null].
  destruct (lookup_by_string n (bs "object")) as [obj| | |]; try reflexivity. cbn [bind].
  destruct (as_link obj) as [l| | |]; try reflexivity. cbn [bind].
  destruct (lookup_by_string n (bs "type")) as [ty| | |]; try reflexivity. cbn [bind].
  destruct (as_string ty); try reflexivity. cbn [bind].
  destruct (lookup_by_string n (bs "tag")) as [tg| | |]; try reflexivity. cbn [bind].
  destruct (as_string tg); try reflexivity. cbn [bind].
  destruct (lookup_by_string n (bs "message")) as [ms| | |]; try reflexivity. cbn [bind].
  destruct (as_string ms); try reflexivity. cbn [bind].
  destruct (lookup_answers n (bs "tagger")) as [[tn ->]|[e ->]]; cbn [bind]; (destruct (link_sha l); try reflexivity); cbn [bind]; try reflexivity.
  change (o_null node_ops tn) with (is_null tn).
  destruct (is_null tn); [reflexivity|]. change (fassign_person _ false tn) with (fassign_person node_ops false tn). rewrite fperson_node. now destruct (assign_person false tn).
Qed.

Theorem encode_is_what_the_methods_say : forall n, fencode_node node_ops n = encode_node n.
Proof.
  intros n. unfold fencode_node, encode_node. cbn [node_ops o_type o_kind o_map o_string].
  assert (fencode_commit node_ops n = encode_commit n) as Ec by (unfold fencode_commit, encode_commit; now rewrite fcommit_node).
  pose proof (ftree_node n) as Et. pose proof (ftag_enc_node n) as Eg.
  assert (fencode_blob node_ops n = encode_blob n) as Eb by reflexivity.
  destruct n; cbn [node_otype]; auto; destruct (map_entries _) as [[|[k0 v0] kvs0]|] eqn:M; cbn [option_map node_kind]; auto; now rewrite Ec, Eg.
Qed.
Print Assumptions encode_is_what_the_methods_say.

(** ** Failing nodes *)
Section Failing.
Context {N1 N2 : Type} (o1 : nodeops N1) (o2 : nodeops N2) (R : N1 -> N2 -> Prop) (E : err -> Prop).
Context (H : behaves_like o1 o2 R E).

Lemma like_bind {A1 A2 B1 B2} (S : A1 -> A2 -> Prop) (T : B1 -> B2 -> Prop) r1 r2 f1 f2 :
  answers_like E S r1 r2 -> (forall a b, S a b -> answers_like E T (f1 a) (f2 b)) -> answers_like E T (bind r1 f1) (bind r2 f2).
Proof. intros L F. destruct L; cbn [bind]; auto; now constructor. Qed.
Lemma like_refl {A} (r : res A) : answers_like E eq r r.
Proof. destruct r; now constructor. Qed.

Lemma like_string a b : R a b -> answers_like E eq (fassign_string o1 a) (fassign_string o2 b).
Proof.
  intros Q. unfold fassign_string. rewrite (bl_null _ _ _ _ H _ _ Q), (bl_own _ _ _ _ H _ _ Q).
  destruct (o_null o1 a); [constructor|]. pose proof (bl_string _ _ _ _ H _ _ Q). destruct (o_own o1 a) as [[]|]; auto; now constructor.
Qed.
Lemma like_gpgsig a b : R a b -> answers_like E eq (fassign_gpgsig o1 a) (fassign_gpgsig o2 b).
Proof.
  intros Q. unfold fassign_gpgsig. rewrite (bl_null _ _ _ _ H _ _ Q), (bl_own _ _ _ _ H _ _ Q).
  destruct (o_null o1 a); [constructor|]. pose proof (bl_string _ _ _ _ H _ _ Q). destruct (o_own o1 a) as [[]|]; auto; now constructor.
Qed.
Lemma like_link a b : R a b -> answers_like E eq (fassign_link o1 a) (fassign_link o2 b).
Proof.
  intros Q. unfold fassign_link. rewrite (bl_null _ _ _ _ H _ _ Q), (bl_own _ _ _ _ H _ _ Q).
  destruct (o_null o1 a); [constructor|]. pose proof (bl_link _ _ _ _ H _ _ Q). destruct (o_own o1 a) as [[]|]; auto; now constructor.
Qed.
Lemma like_tree_link a b : R a b -> answers_like E eq (fassign_tree_link o1 a) (fassign_tree_link o2 b).
Proof.
  intros Q. unfold fassign_tree_link. rewrite (bl_null _ _ _ _ H _ _ Q), (bl_own _ _ _ _ H _ _ Q).
  destruct (o_null o1 a); [constructor|]. pose proof (bl_link _ _ _ _ H _ _ Q). destruct (o_own o1 a) as [[]|]; auto; now constructor.
Qed.
Lemma like_commit_link a b : R a b -> answers_like E eq (fassign_commit_link o1 a) (fassign_commit_link o2 b).
Proof.
  intros Q. unfold fassign_commit_link. rewrite (bl_null _ _ _ _ H _ _ Q), (bl_own _ _ _ _ H _ _ Q).
  destruct (o_null o1 a); [constructor|]. pose proof (bl_link _ _ _ _ H _ _ Q). destruct (o_own o1 a) as [[]|]; auto; now constructor.
Qed.

Lemma like_items {A} f1 f2 : (forall a b, R a b -> answers_like E (@eq A) (f1 a) (f2 b)) ->
  forall i j, iterates_like E R i j -> answers_like E eq (fassign_items f1 (fst i) (snd i)) (fassign_items f2 (fst j) (snd j)).
Proof.
  intros F i j L. induction L as [e|a b l l' e e' Q L IH|it e Q]; cbn [fst snd fassign_items] in *.
  - destruct e; now constructor.
  - eapply like_bind; [now apply F|]. intros x ? <-. eapply like_bind; [exact IH|]. intros xs ? <-. now constructor.
  - now constructor.
Qed.
Lemma like_list {A} own f1 f2 : (forall a b, R a b -> answers_like E (@eq A) (f1 a) (f2 b)) ->
  forall a b, R a b -> answers_like E eq (fassign_list o1 own f1 a) (fassign_list o2 own f2 b).
Proof.
  intros F a b Q. unfold fassign_list. rewrite (bl_null _ _ _ _ H _ _ Q), (bl_own _ _ _ _ H _ _ Q), (bl_kind _ _ _ _ H _ _ Q).
  destruct (o_null o1 a); [constructor|]. destruct (match o_own o1 a with Some n => own n | None => None end); [now constructor|].
  destruct (o_kind o1 a); try now constructor. pose proof (bl_list _ _ _ _ H _ _ Q) as L.
  destruct (o_list o1 a) as [[l e]|], (o_list o2 b) as [[l' e']|]; cbn in L; try contradiction; [|constructor].
  now apply (like_items f1 f2 F (l, e) (l', e')).
Qed.
Lemma like_loop {W} fields (f1 : nat -> N1 -> W -> res W) f2 :
  (forall i w a b, R a b -> answers_like E eq (f1 i a w) (f2 i b w)) ->
  forall x y, iterates_like E (both R) x y -> forall seen w,
  answers_like E eq (fstruct_loop o1 fields f1 (fst x) (snd x) seen w) (fstruct_loop o2 fields f2 (fst y) (snd y) seen w).
Proof.
  intros F x y L. induction L as [e|[k1 v1] [k2 v2] l l' e e' [Qk Qv] L IH|it e Q]; intros seen w; cbn [fst snd fstruct_loop] in *.
  - destruct e; now constructor.
  - eapply like_bind; [exact (bl_string _ _ _ _ H _ _ Qk)|]. intros ks ? <-. destruct (field_index ks fields 0); [|constructor].
    destruct (existsb _ seen); [constructor|]. eapply like_bind; [now apply F|]. intros w' ? <-. apply IH.
  - now constructor.
Qed.
Lemma like_struct {W} own fields req f1 f2 (z : W) :
  (forall i w a b, R a b -> answers_like E eq (f1 i a w) (f2 i b w)) ->
  forall a b, R a b -> answers_like E eq (fassign_struct o1 own fields req f1 z a) (fassign_struct o2 own fields req f2 z b).
Proof.
  intros F a b Q. unfold fassign_struct. rewrite (bl_null _ _ _ _ H _ _ Q), (bl_own _ _ _ _ H _ _ Q), (bl_kind _ _ _ _ H _ _ Q).
  destruct (o_null o1 a); [constructor|]. destruct (match o_own o1 a with Some n => own n | None => None end); [now constructor|].
  destruct (o_kind o1 a); try now constructor. pose proof (bl_map _ _ _ _ H _ _ Q) as L.
  destruct (o_map o1 a) as [[l e]|], (o_map o2 b) as [[l' e']|]; cbn in L; try contradiction; [|constructor].
  eapply like_bind; [apply (like_loop fields f1 f2 F (l, e) (l', e') L)|]. intros [seen w] ? <-. apply like_refl.
Qed.
Lemma like_person n a b : R a b -> answers_like E eq (fassign_person o1 n a) (fassign_person o2 n b).
Proof.
  apply like_struct. intros i w x y Q. destruct n; [constructor|]. unfold fset_person. eapply like_bind; [now apply like_string|]. intros s ? <-. apply like_refl.
Qed.
Lemma like_tag a b : R a b -> answers_like E eq (fassign_tag o1 a) (fassign_tag o2 b).
Proof.
  apply like_struct. intros i w x y Q. unfold fset_tag. pose proof (like_string x y Q). pose proof (like_link x y Q). pose proof (like_person false x y Q).
  destruct i as [|[|[|[|[|i]]]]]; try (eapply like_bind; [eassumption|]; intros s ? <-; apply like_refl). constructor.
Qed.
Lemma like_commit a b : R a b -> answers_like E eq (fassign_commit o1 a) (fassign_commit o2 b).
Proof.
  apply like_struct. intros i w x y Q. unfold fset_commit. pose proof (like_string x y Q). pose proof (like_tree_link x y Q). pose proof (like_gpgsig x y Q).
  pose proof (like_person true x y Q).
  assert (answers_like E eq (fassign_link_list o1 x) (fassign_link_list o2 y)) by (apply like_list; [apply like_commit_link|exact Q]).
  assert (answers_like E eq (fassign_string_list o1 x) (fassign_string_list o2 y)) by (apply like_list; [apply like_string|exact Q]).
  assert (answers_like E eq (fassign_tag_list o1 x) (fassign_tag_list o2 y)) by (apply like_list; [apply like_tag|exact Q]).
  destruct i as [|[|[|[|[|[|[|[|[|i]]]]]]]]]; try (eapply like_bind; [eassumption|]; intros s ? <-; apply like_refl). constructor.
Qed.

Lemma like_entry name a b : R a b -> answers_like E eq (ftree_entry_body o1 name a) (ftree_entry_body o2 name b).
Proof.
  intros Q. unfold ftree_entry_body. eapply like_bind; [exact (bl_lookup _ _ _ _ H _ _ _ Q)|]. intros m m' Qm.
  eapply like_bind; [exact (bl_string _ _ _ _ H _ _ Qm)|]. intros s ? <-. eapply like_bind; [exact (bl_lookup _ _ _ _ H _ _ _ Q)|]. intros h h' Qh.
  eapply like_bind; [exact (bl_link _ _ _ _ H _ _ Qh)|]. intros l ? <-. apply like_refl.
Qed.
Lemma like_entries x y : iterates_like E (both R) x y -> answers_like E eq (ftree_entries_body o1 (fst x) (snd x)) (ftree_entries_body o2 (fst y) (snd y)).
Proof.
  intros L. induction L as [e|[k1 v1] [k2 v2] l l' e e' [Qk Qv] L IH|it e Q]; cbn [fst snd ftree_entries_body] in *.
  - destruct e; now constructor.
  - eapply like_bind; [exact (bl_string _ _ _ _ H _ _ Qk)|]. intros s ? <-. eapply like_bind; [now apply like_entry|]. intros t ? <-.
    eapply like_bind; [exact IH|]. intros u ? <-. now constructor.
  - now constructor.
Qed.
Lemma like_tree a b : R a b -> answers_like E eq (fencode_tree o1 a) (fencode_tree o2 b).
Proof.
  intros Q. unfold fencode_tree. pose proof (bl_map _ _ _ _ H _ _ Q) as L.
  destruct (o_map o1 a) as [[l e]|], (o_map o2 b) as [[l' e']|]; cbn in L; try contradiction; [|constructor].
  eapply like_bind; [apply (like_entries (l, e) (l', e') L)|]. intros s ? <-. now constructor.
Qed.
Lemma like_blob a b : R a b -> answers_like E eq (fencode_blob o1 a) (fencode_blob o2 b).
Proof. intros Q. unfold fencode_blob. eapply like_bind; [exact (bl_bytes _ _ _ _ H _ _ Q)|]. intros s ? <-. now constructor. Qed.

(** The lookup of the tagger does not fail where it should not. *)
Definition tagger_found (a : N1) (b : N2) : Prop :=
  forall e, o_lookup o2 b (bs "tagger") = Err e -> exists e', o_lookup o1 a (bs "tagger") = Err e'.
Lemma like_tag_enc a b : R a b -> tagger_found a b ->
  answers_like E eq (fencode_tag o1 a) (fencode_tag o2 b).
Proof.
  intros Q T. unfold fencode_tag.
  eapply like_bind; [exact (bl_lookup _ _ _ _ H _ _ _ Q)|]. intros ob ob' Qo. eapply like_bind; [exact (bl_link _ _ _ _ H _ _ Qo)|]. intros l ? <-.
  eapply like_bind; [exact (bl_lookup _ _ _ _ H _ _ _ Q)|]. intros ty ty' Qt. eapply like_bind; [exact (bl_string _ _ _ _ H _ _ Qt)|]. intros ts ? <-.
  eapply like_bind; [exact (bl_lookup _ _ _ _ H _ _ _ Q)|]. intros tg tg' Qg. eapply like_bind; [exact (bl_string _ _ _ _ H _ _ Qg)|]. intros gs ? <-.
  eapply like_bind; [exact (bl_lookup _ _ _ _ H _ _ _ Q)|]. intros me me' Qm. eapply like_bind; [exact (bl_string _ _ _ _ H _ _ Qm)|]. intros ms ? <-.
  unfold tagger_found in T. pose proof (bl_lookup _ _ _ _ H _ _ (bs "tagger") Q) as Lt.
  apply (like_bind (fun x y => match x, y with Some x, Some y => R x y | None, None => True | _, _ => False end)).
  { destruct Lt as [m m' S|e| | |r e Ee]; try (constructor; auto; fail). destruct (T e eq_refl) as [e' Er]. rewrite Er. now constructor. }
  intros t t' Qtt. eapply like_bind; [apply like_refl|]. intros h ? <-. eapply like_bind; [|intros x ? <-; now constructor].
  destruct t as [t|], t' as [t'|]; try contradiction; [|now constructor].
  rewrite (bl_null _ _ _ _ H _ _ Qtt). destruct (o_null o1 t); [now constructor|].
  eapply like_bind; [now apply like_person|]. intros p ? <-. now constructor.
Qed.

Lemma wrap_commit a b : R a b -> fencode_commit o2 b = fencode_commit o1 a \/ exists e, E e /\ fencode_commit o2 b = Err (ENotCommit e).
Proof.
  intros Q. unfold fencode_commit. pose proof (like_commit a b Q) as L.
  destruct L as [x y <-|e| | |r e Ee]; auto. right. eauto.
Qed.
Lemma like_same {A} (r1 r2 : res A) : answers_like E eq r1 r2 -> r2 = r1 \/ exists e, E e /\ r2 = Err e.
Proof. intros [x y <-|e| | |r e Ee]; eauto. Qed.

Lemma failing_encode_node a b : R a b -> tagger_found a b ->
  fencode_node o2 b = fencode_node o1 a \/ exists e, E e /\ (fencode_node o2 b = Err e \/ fencode_node o2 b = Err (ENotCommit e)).
Proof.
  intros Q T. unfold fencode_node. rewrite (bl_type _ _ _ _ H _ _ Q), (bl_kind _ _ _ _ H _ _ Q).
  assert (forall r1 r2 : res encoded, answers_like E eq r1 r2 -> r2 = r1 \/ exists e, E e /\ (r2 = Err e \/ r2 = Err (ENotCommit e))) as W.
  { intros r1 r2 L. destruct (like_same _ _ L) as [X|(e & Ee & X)]; eauto. }
  assert (fencode_commit o2 b = fencode_commit o1 a \/ exists e, E e /\ (fencode_commit o2 b = Err e \/ fencode_commit o2 b = Err (ENotCommit e))) as Wc.
  { destruct (wrap_commit a b Q) as [X|(e & Ee & X)]; eauto. }
  pose proof (W _ _ (like_blob a b Q)) as Wb. pose proof (W _ _ (like_tree a b Q)) as Wt. pose proof (W _ _ (like_tag_enc a b Q T)) as Wg.
  destruct (o_type o1 a) as [[]|]; try assumption. destruct (o_kind o1 a); try assumption; try (left; reflexivity).
  pose proof (bl_map _ _ _ _ H _ _ Q) as L. destruct (o_map o1 a) as [i|], (o_map o2 b) as [j|]; cbn in L; try contradiction; [|now left].
  destruct L as [e|[k1 v1] [k2 v2] l l' e e' [Qk Qv] L|[l e0] e Ee]; [now left| |right; eauto].
  cbn [fst snd] in Qk. destruct (like_same _ _ (bl_string _ _ _ _ H _ _ Qk)) as [-> | (e1 & E1 & ->)]; [|right; eauto].
  destruct (o_string o1 k1) as [ks| | |]; try (now left). cbn [bind]. destruct (existsb _ _); assumption.
Qed.
End Failing.

(** A node whose methods fail, the lookup of the tagger aside, is either encoded exactly as
    the node it stands for, panics included, or an error of its methods is reported and
    nothing is written. *)
Theorem failing_nodes_are_reported : forall N1 N2 (o1 : nodeops N1) (o2 : nodeops N2) R E W (wr : writer W) a b w,
  behaves_like o1 o2 R E -> R a b -> tagger_found o1 o2 a b ->
  fencode o2 wr b w = fencode o1 wr a w \/
  exists e, E e /\ (fencode o2 wr b w = (Failed e, w) \/ fencode o2 wr b w = (Failed (ENotCommit e), w)).
Proof.
  intros N1 N2 o1 o2 R E W wr a b w H Q T. unfold fencode.
  destruct (failing_encode_node o1 o2 R E H a b Q T) as [-> | (e & Ee & [-> | ->])]; [now left|right; eauto..].
Qed.
Print Assumptions failing_nodes_are_reported.

(** Nodes of any two implementations that behave alike are encoded alike. *)
Theorem nodes_that_answer_alike_encode_alike : forall N1 N2 (o1 : nodeops N1) (o2 : nodeops N2) R W (wr : writer W) a b w,
  behaves_like o1 o2 R (fun _ => False) -> R a b ->
  fencode o2 wr b w = fencode o1 wr a w.
Proof.
  intros N1 N2 o1 o2 R W wr a b w H Q.
  destruct (failing_nodes_are_reported N1 N2 o1 o2 R (fun _ => False) W wr a b w H Q) as [-> | (e & [] & _)]; [|reflexivity].
  intros e He. pose proof (bl_lookup _ _ _ _ H _ _ (bs "tagger") Q) as L. rewrite He in L. inversion L as [|? X| | |? ? []]. eauto.
Qed.
Print Assumptions nodes_that_answer_alike_encode_alike.

(** Any implementation whose nodes behave like the nodes of Types.v is encoded like them. *)
Theorem other_implementations_encode_alike : forall N (ops : nodeops N) R W (wr : writer W) n b w,
  behaves_like node_ops ops R (fun _ => False) -> R n b ->
  fencode ops wr b w = encode wr n w.
Proof.
  intros N ops R W wr n b w H Q.
  rewrite (nodes_that_answer_alike_encode_alike node N node_ops ops R W wr n b w H Q).
  unfold fencode, encode. now rewrite encode_is_what_the_methods_say.
Qed.
Print Assumptions other_implementations_encode_alike.

(** A tag whose tagger cannot be looked up is written without the tagger. *)
Theorem failing_taggers_are_dropped : forall N (ops : nodeops N) n e typ body,
  o_lookup ops n (bs "tagger") = Err e -> o_type ops n = Some OTag ->
  fencode_node ops n = Ok (Framed typ body) ->
  typ = bs "tag" /\ exists obj l h ty t g s m msg,
    o_lookup ops n (bs "object") = Ok obj /\ o_link ops obj = Ok l /\ link_sha l = Ok h /\
    o_lookup ops n (bs "type") = Ok ty /\ o_string ops ty = Ok t /\
    o_lookup ops n (bs "tag") = Ok g /\ o_string ops g = Ok s /\
    o_lookup ops n (bs "message") = Ok m /\ o_string ops m = Ok msg /\
    body = unlines [bs "object " ++ hex_encode h; bs "type " ++ t; bs "tag " ++ s] ++ match msg with [] => [] | _ => [NL] ++ msg end.
Proof.
  intros N ops n e typ body Ht Ho En. unfold fencode_node in En. rewrite Ho in En. unfold fencode_tag in En. rewrite Ht in En.
  destruct (o_lookup ops n (bs "object")) as [obj| | |] eqn:X1; try discriminate En. cbn [bind] in En.
  destruct (o_link ops obj) as [l| | |] eqn:X2; try discriminate En. cbn [bind] in En.
  destruct (o_lookup ops n (bs "type")) as [ty| | |] eqn:X3; try discriminate En. cbn [bind] in En.
  destruct (o_string ops ty) as [t| | |] eqn:X4; try discriminate En. cbn [bind] in En.
  destruct (o_lookup ops n (bs "tag")) as [g| | |] eqn:X5; try discriminate En. cbn [bind] in En.
  destruct (o_string ops g) as [s| | |] eqn:X6; try discriminate En. cbn [bind] in En.
  destruct (o_lookup ops n (bs "message")) as [m| | |] eqn:X7; try discriminate En. cbn [bind] in En.
  destruct (o_string ops m) as [msg| | |] eqn:X8; try discriminate En. cbn [bind] in En.
  destruct (link_sha l) as [h| | |] eqn:X9; try discriminate En. cbn [bind] in En.
  assert (typ = bs "tag") as -> by congruence. split; [reflexivity|]. exists obj, l, h, ty, t, g, s, m, msg.
  do 9 (split; [first [reflexivity|assumption]|]).
  match type of En with Ok (Framed ?a ?b) = _ => assert (body = b) as -> by congruence end.
  unfold unlines. cbn [map concat]. rewrite app_nil_r, <- !app_assoc. do 9 f_equal. now destruct msg.
Qed.
Print Assumptions failing_taggers_are_dropped.

(** So not every failure is reported: the tag below loses its tagger, and what is written
    is read as a tag again. *)
Definition lost : node -> bytes -> res node := fun n k => if beqb k (bs "tagger") then Err (EOther 1) else lookup_by_string n k.
Definition lossy_ops : nodeops node :=
  {| o_type := node_otype; o_own := node_own; o_kind := node_kind; o_null := is_null;
     o_string := as_string; o_bytes := as_bytes; o_link := as_link; o_lookup := lost;
     o_map := fun n => option_map (fun kvs => (kvs, None)) (map_entries n);
     o_list := fun n => option_map (fun l => (l, None)) (list_items n) |}.
Lemma all_like {A} (same : A -> A -> Prop) E l e : (forall x, same x x) -> iterates_like E same (l, e) (l, e).
Proof. intros S. induction l; now constructor. Qed.
Lemma lossy_like : behaves_like node_ops lossy_ops eq (fun e => e = EOther 1).
Proof.
  split; try (intros a ? <-; try reflexivity; apply like_refl).
  - intros a ? k <-. cbn [node_ops lossy_ops o_lookup]. unfold lost. destruct (beqb k (bs "tagger")); [now constructor|apply like_refl].
  - intros a ? <-. cbn. destruct (map_entries a); cbn; [|exact I]. apply all_like. now split.
  - intros a ? <-. cbn. destruct (list_items a); cbn; [|exact I]. now apply all_like.
Qed.
Definition lossy_tag : tag :=
  {| t_object := git_link (repeat NUL 20); t_type := bs "commit"; t_tag := bs "v1";
     t_tagger := {| p_name := bs "T"; p_email := bs "t@u"; p_date := bs "2"; p_timezone := bs "+0" |}; t_message := bs "msg" |}.
Definition tagless : tag :=
  {| t_object := git_link (repeat NUL 20); t_type := bs "commit"; t_tag := bs "v1"; t_tagger := zero_person; t_message := bs "msg" |}.
Theorem every_failure_is_reported_refuted : exists N1 N2 (o1 : nodeops N1) (o2 : nodeops N2) R E a b x y,
  behaves_like o1 o2 R E /\ R a b /\
  fencode o1 buffer_writer a [] = (Done, x) /\ fencode o2 buffer_writer b [] = (Done, y) /\ x <> y /\
  parse_object (stream_ops 64) (mk y EEOF) = Ok (NTag tagless).
Proof.
  exists node, node, node_ops, lossy_ops, eq, (fun e => e = EOther 1), (NTag lossy_tag), (NTag lossy_tag).
  eexists. eexists. split; [apply lossy_like|]. split; [reflexivity|]. split; [vm_compute; reflexivity|]. split; [vm_compute; reflexivity|].
  split; [discriminate|]. vm_compute. reflexivity.
Qed.
Print Assumptions every_failure_is_reported_refuted.

(** ** Examples *)

(** A node that is a wrapper around another one: the numbers count the wrappers, and every
    iteration over more than two entries fails.  Iterating over the three entries of the
    tree fails. *)
Definition wrapped := (nat * node)%type.
Definition clip {A} (l : list A) : list A * option err := if 2 <? length l then (firstn 2 l, Some (EOther 7)) else (l, None).
Definition wrap_ops : nodeops wrapped :=
  {| o_type := fun _ => None; o_own := fun _ => None; o_kind := fun x => node_kind (snd x); o_null := fun x => is_null (snd x);
     o_string := fun x => as_string (snd x); o_bytes := fun x => as_bytes (snd x); o_link := fun x => as_link (snd x);
     o_lookup := fun x k => map_res (fun n => (S (fst x), n)) (lookup_by_string (snd x) k);
     o_map := fun x => option_map (fun kvs => clip (map (fun kv => ((S (fst x), fst kv), (S (fst x), snd kv))) kvs)) (map_entries (snd x));
     o_list := fun x => option_map (fun l => clip (map (fun v => (S (fst x), v)) l)) (list_items (snd x)) |}.
(** The same without types. *)
Definition plain_ops : nodeops node :=
  {| o_type := fun _ => None; o_own := fun _ => None; o_kind := node_kind; o_null := is_null;
     o_string := as_string; o_bytes := as_bytes; o_link := as_link; o_lookup := lookup_by_string;
     o_map := fun n => option_map (fun kvs => (kvs, None)) (map_entries n);
     o_list := fun n => option_map (fun l => (l, None)) (list_items n) |}.
Lemma clip_like {A B} (S1 : A -> B -> Prop) (f : A -> B) l : (forall a, S1 a (f a)) ->
  iterates_like (fun e => e = EOther 7) S1 (l, None) (clip (map f l)).
Proof.
  intros Hs. unfold clip. destruct l as [|a [|b [|c l]]]; cbn; repeat (constructor; auto).
Qed.
Lemma wrap_like : behaves_like plain_ops wrap_ops (fun n x => snd x = n) (fun e => e = EOther 7).
Proof.
  split; try (intros a [i b] <-; try reflexivity; apply like_refl).
  - intros a [i b] k <-. cbn. destruct (lookup_by_string b k); cbn; now constructor.
  - intros a [i b] <-. cbn. destruct (map_entries b); cbn; [|exact I]. apply clip_like. intros [x y]. now split.
  - intros a [i b] <-. cbn. destruct (list_items b); cbn; [|exact I]. now apply clip_like.
Qed.
Definition generic_tag : node :=
  NGenMap [(NGenString (bs "object"), NGenLink (git_link (repeat NUL 20))); (NGenString (bs "type"), NGenString (bs "commit"));
           (NGenString (bs "tag"), NGenString (bs "v1")); (NGenString (bs "message"), NGenString (bs "msg"))].
Example failing_nodes_apply :
  behaves_like plain_ops wrap_ops (fun n x => snd x = n) (fun e => e = EOther 7) /\
  tagger_found plain_ops wrap_ops generic_tag (0, generic_tag) /\
  fencode wrap_ops buffer_writer (0, generic_tag) [] = fencode plain_ops buffer_writer generic_tag [] /\
  fst (fencode plain_ops buffer_writer generic_tag []) = Done /\
  fencode wrap_ops buffer_writer (0, NCommitR zero_commit) [] = (Failed (ENotCommit (EOther 7)), []).
Proof.
  split; [apply wrap_like|]. split; [intros e _; exists ENotExists; reflexivity|]. split; [vm_compute; reflexivity|]. split; vm_compute; reflexivity.
Qed.
(** Generic maps read through another implementation of maps. *)
Definition other_ops : nodeops wrapped :=
  {| o_type := fun x => node_otype (snd x); o_own := fun x => node_own (snd x); o_kind := fun x => node_kind (snd x); o_null := fun x => is_null (snd x);
     o_string := fun x => as_string (snd x); o_bytes := fun x => as_bytes (snd x); o_link := fun x => as_link (snd x);
     o_lookup := fun x k => map_res (fun n => (S (fst x), n)) (lookup_by_string (snd x) k);
     o_map := fun x => option_map (fun kvs => (map (fun kv => ((S (fst x), fst kv), (S (fst x), snd kv))) kvs, None)) (map_entries (snd x));
     o_list := fun x => option_map (fun l => (map (fun v => (S (fst x), v)) l, None)) (list_items (snd x)) |}.
Lemma map_like {A B} (S1 : A -> B -> Prop) (f : A -> B) l : (forall a, S1 a (f a)) -> iterates_like (fun _ => False) S1 (l, None) (map f l, None).
Proof. intros Hs. induction l; cbn; now constructor. Qed.
Example other_implementations_apply :
  behaves_like node_ops other_ops (fun n x => snd x = n) (fun _ => False) /\
  fst (fencode other_ops buffer_writer (3, generic_tag) []) = Done.
Proof.
  split; [|vm_compute; reflexivity]. split; try (intros a [i b] <-; try reflexivity; apply like_refl).
  - intros a [i b] k <-. cbn. destruct (lookup_by_string b k); cbn; now constructor.
  - intros a [i b] <-. cbn. destruct (map_entries b); cbn; [|exact I]. apply map_like. intros [x y]. now split.
  - intros a [i b] <-. cbn. destruct (list_items b); cbn; [|exact I]. now apply map_like.
Qed.
Example failing_taggers_apply : exists body,
  o_lookup lossy_ops (NTag lossy_tag) (bs "tagger") = Err (EOther 1) /\ o_type lossy_ops (NTag lossy_tag) = Some OTag /\
  fencode_node lossy_ops (NTag lossy_tag) = Ok (Framed (bs "tag") body).
Proof. eexists. split; [reflexivity|]. split; [reflexivity|]. vm_compute. reflexivity. Qed.
