(** Facts about Moving.v: on nodes that stand still it is Foreign.v, with enough fuel. *)
From Verif Require Import Base GoStr Cid Types Nodes Person Assemble Encode Foreign Moving.
From Coq Require Import Lia.

Section Still.
Context {N : Type} (o : nodeops N).
Notation ops := (still o).
Notation st := (list (rest N)).

(** Iterators made before are as they were, perhaps but for one. *)
Definition keeps (s s' : st) : Prop := length s <= length s' /\ forall j, j < length s -> rest_of s' j = rest_of s j.
Definition keeps_but (i : nat) (s s' : st) : Prop :=
  length s <= length s' /\ forall j, j < length s -> j <> i -> rest_of s' j = rest_of s j.

Definition ends {A} (s : st) (r : res A) (x : res A * st) : Prop := fst x = r /\ keeps s (snd x).
Definition ends_but {A} (i : nat) (s : st) (r : res A) (x : res A * st) : Prop := fst x = r /\ keeps_but i s (snd x).

Lemma keeps_refl s : keeps s s.
Proof. split; auto. Qed.
Lemma keeps_trans a b c : keeps a b -> keeps b c -> keeps a c.
Proof. intros [L K] [L' K']. split; [lia|]. intros j J. rewrite K' by lia. now apply K. Qed.
Lemma but_refl i s : keeps_but i s s.
Proof. split; auto. Qed.
Lemma but_trans i a b c : keeps_but i a b -> keeps_but i b c -> keeps_but i a c.
Proof. intros [L K] [L' K']. split; [lia|]. intros j J D. rewrite K' by (auto; lia). now apply K. Qed.
Lemma keeps_weak i a b : keeps a b -> keeps_but i a b.
Proof. intros [L K]. split; auto. Qed.
Lemma keeps_new s r s' : keeps_but (length s) (s ++ [r]) s' -> keeps s s'.
Proof.
  intros [L K]. rewrite app_length in *. cbn in *. split; [lia|]. intros j J. rewrite K by lia. unfold rest_of. now rewrite app_nth1.
Qed.
Lemma rest_new (s : st) r : rest_of (s ++ [r]) (length s) = r.
Proof. unfold rest_of. now rewrite nth_middle. Qed.
Lemma put_length i (r : rest N) s : i < length s -> length (firstn i s ++ r :: skipn (S i) s) = length s.
Proof. intros L. rewrite app_length, firstn_length. cbn [length]. rewrite skipn_length. lia. Qed.
Lemma put_same i (r : rest N) s : i < length s -> rest_of (firstn i s ++ r :: skipn (S i) s) i = r.
Proof.
  intros L. unfold rest_of. rewrite app_nth2; rewrite firstn_length, Nat.min_l by lia; [|lia]. now rewrite Nat.sub_diag.
Qed.
Lemma put_other i (r : rest N) s j : i < length s -> j <> i -> rest_of (firstn i s ++ r :: skipn (S i) s) j = rest_of s j.
Proof.
  intros L D. unfold rest_of. rewrite <- (firstn_skipn i s) at 3. assert (length (firstn i s) = i) as Lf by (rewrite firstn_length; lia).
  destruct (Nat.lt_ge_cases j i) as [J|J].
  - rewrite !app_nth1 by lia. reflexivity.
  - rewrite !app_nth2 by lia. rewrite Lf. assert (exists x, skipn i s = x :: skipn (S i) s) as [x Ex].
    { clear - L. revert i L. induction s as [|a s IH]; intros i L; [cbn in L; lia|]. destruct i; [now exists a|]. cbn [skipn]. apply IH. cbn in L. lia. }
    rewrite Ex. destruct (j - i) as [|k] eqn:E; [lia|]. reflexivity.
Qed.
Lemma put_but i r s : i < length s -> keeps_but i s (firstn i s ++ r :: skipn (S i) s).
Proof. intros L. split; [now rewrite put_length|]. intros j J D. now apply put_other. Qed.

(** With enough fuel [g] answers [r] in every state. *)
Definition settles {A} (g : nat -> state_res st A) (r : res A) : Prop :=
  exists F, forall fuel, F <= fuel -> forall s, ends s r (g fuel s).

Lemma settles_const {A} (r : res A) : settles (fun _ s => (r, s)) r.
Proof. exists 0. intros fuel _ s. split; [reflexivity|apply keeps_refl]. Qed.
Lemma settles_bind {A B} (m : nat -> state_res st A) r (k : nat -> A -> state_res st B) k' :
  settles m r -> (forall a, r = Ok a -> settles (fun fuel => k fuel a) (k' a)) ->
  settles (fun fuel => sbind (m fuel) (k fuel)) (bind r k').
Proof.
  intros [F H] K. destruct r as [a| | |].
  - destruct (K a eq_refl) as [F' H']. exists (F + F'). intros fuel L s. destruct (H fuel ltac:(lia) s) as [E Q].
    unfold sbind. destruct (m fuel s) as [r' s1]. cbn in E, Q. subst r'. destruct (H' fuel ltac:(lia) s1) as [E' Q'].
    cbn [bind]. split; [exact E'|]. exact (keeps_trans _ _ _ Q Q').
  - exists F. intros fuel L s. destruct (H fuel L s) as [E' Q]. unfold sbind. destruct (m fuel s). cbn in E', Q. now subst.
  - exists F. intros fuel L s. destruct (H fuel L s) as [E' Q]. unfold sbind. destruct (m fuel s). cbn in E', Q. now subst.
  - exists F. intros fuel L s. destruct (H fuel L s) as [E' Q]. unfold sbind. destruct (m fuel s). cbn in E', Q. now subst.
Qed.
(** Methods do not change anything but iterators. *)
Lemma settles_ask {A B} (a : A) (m : nat -> state_res st A) (k : nat -> A -> state_res st B) r :
  (forall fuel s, m fuel s = (Ok a, s)) -> settles (fun fuel => k fuel a) r -> settles (fun fuel => sbind (m fuel) (k fuel)) r.
Proof.
  intros E [F H]. exists F. intros fuel L s. unfold sbind. rewrite E. now apply H.
Qed.

Lemma massign_settles {A} (own : node -> option A) (other : nat -> N -> state_res st A) v r :
  settles (fun fuel => other fuel v) r ->
  settles (fun fuel => massign ops own (other fuel) v)
    (if o_null o v then Err EWrongKind
     else match match o_own o v with Some n => own n | None => None end with Some a => Ok a | None => r end).
Proof.
  intros H. unfold massign.
  apply (settles_ask (o_null o v) (fun _ => total (m_null ops v))
           (fun fuel b => if b : bool then sfail (Err EWrongKind) else sbind (total (m_own ops v)) (fun x => match match x with Some n => own n | None => None end with Some a => sret a | None => other fuel v end)));
    [reflexivity|].
  destruct (o_null o v); [apply settles_const|].
  apply (settles_ask (o_own o v) (fun _ => total (m_own ops v)) (fun fuel x => match match x with Some n => own n | None => None end with Some a => sret a | None => other fuel v end)); [reflexivity|].
  destruct (match o_own o v with Some n => own n | None => None end); [apply (settles_const (Ok a))|exact H].
Qed.

Lemma sstring v : settles (fun _ => massign_string ops v) (fassign_string o v).
Proof.
  pose proof (massign_settles (fun n => match n with NString s => Some s | _ => None end) (fun _ => m_string ops) v _ (settles_const (o_string o v))) as H.
  unfold fassign_string. destruct (o_null o v); [exact H|]. now destruct (o_own o v) as [[]|].
Qed.
Lemma sgpgsig v : settles (fun _ => massign_gpgsig ops v) (fassign_gpgsig o v).
Proof.
  pose proof (massign_settles (fun n => match n with NGpgSig s => Some s | _ => None end) (fun _ => m_string ops) v _ (settles_const (o_string o v))) as H.
  unfold fassign_gpgsig. destruct (o_null o v); [exact H|]. now destruct (o_own o v) as [[]|].
Qed.
Lemma slink v : settles (fun _ => massign_link ops v) (fassign_link o v).
Proof.
  pose proof (massign_settles (fun n => match n with NLink s => Some s | _ => None end) (fun _ => m_link ops) v _ (settles_const (o_link o v))) as H.
  unfold fassign_link. destruct (o_null o v); [exact H|]. now destruct (o_own o v) as [[]|].
Qed.
Lemma stree_link v : settles (fun _ => massign_tree_link ops v) (fassign_tree_link o v).
Proof.
  pose proof (massign_settles (fun n => match n with NTreeLink s => Some s | _ => None end) (fun _ => m_link ops) v _ (settles_const (o_link o v))) as H.
  unfold fassign_tree_link. destruct (o_null o v); [exact H|]. now destruct (o_own o v) as [[]|].
Qed.
Lemma scommit_link v : settles (fun _ => massign_commit_link ops v) (fassign_commit_link o v).
Proof.
  pose proof (massign_settles (fun n => match n with NCommitLink s => Some s | _ => None end) (fun _ => m_link ops) v _ (settles_const (o_link o v))) as H.
  unfold fassign_commit_link. destruct (o_null o v); [exact H|]. now destruct (o_own o v) as [[]|].
Qed.

(** A loop, from a state in which its iterator has [l] to give *)
Lemma items_settle {A} (f : nat -> N -> state_res st A) h : (forall v, settles (fun fuel => f fuel v) (h v)) ->
  forall l e, exists F, forall fuel left, F <= fuel -> F <= left -> forall i s, i < length s -> rest_of s i = ([], l, e) ->
    ends_but i s (fassign_items h l e) (mitems ops (f fuel) left i s).
Proof.
  intros H l e. induction l as [|v l [F IH]].
  - exists 1. intros fuel left _ L i s Li R. destruct left as [|left]; [lia|]. cbn [mitems].
    unfold sbind, total. cbn [still m_done m_next_item]. rewrite R. destruct e; cbn [fst snd fassign_items]; [rewrite R|]; split; auto using but_refl.
  - destruct (H v) as [F1 H1]. exists (S (F + F1)). intros fuel left L L' i s Li R. destruct left as [|left]; [lia|]. cbn [mitems].
    unfold sbind at 1, total at 1. cbn [still m_done]. rewrite R. unfold sbind at 1. cbn [still m_next_item]. rewrite R.
    cbn beta iota. match goal with |- ends_but _ _ _ (sbind _ _ ?x) =>
      assert (@length (rest N) x = length s) as L1 by (now apply put_length); assert (rest_of x i = ([], l, e)) as R1 by (now apply put_same);
      assert (keeps_but i s x) as K1 by (now apply put_but); set (s1 := x) in * end. clearbody s1.
    destruct (H1 fuel ltac:(lia) s1) as [E [Kl K]]. cbn [fassign_items]. unfold sbind at 1. destruct (f fuel v s1) as [r s2]. cbn [fst snd] in *. subst r.
    assert (keeps_but i s s2) as K2 by (apply (but_trans _ _ s1); [exact K1|]; split; auto).
    destruct (h v) as [a| | |]; cbn [bind fst snd]; try (split; [reflexivity|exact K2]).
    specialize (IH fuel left ltac:(lia) ltac:(lia) i s2 ltac:(lia)). rewrite K in IH by lia. destruct (IH R1) as [E3 K3].
    unfold sbind. destruct (mitems ops (f fuel) left i s2) as [r s3]. cbn [fst snd] in *. subst r.
    destruct (fassign_items h l e); cbn [bind fst snd]; split; auto; eapply but_trans; eauto.
Qed.
Lemma list_settles {A} own (f : nat -> N -> state_res st A) h : (forall v, settles (fun fuel => f fuel v) (h v)) ->
  forall v, settles (fun fuel => massign_list ops fuel own (f fuel) v) (fassign_list o own h v).
Proof.
  intros H v. unfold massign_list, fassign_list.
  apply (massign_settles own (fun fuel => _)).
  apply (settles_ask (o_kind o v) (fun _ => total (m_kind ops v)) (fun fuel k => match k with KList => _ | _ => _ end)); [reflexivity|].
  destruct (o_kind o v); try apply (settles_const (Err EWrongKind)).
  destruct (o_list o v) as [[l e]|] eqn:El.
  - destruct (items_settle f h H l e) as [F IH]. exists F. intros fuel L s. unfold sbind, total. cbn [still m_list]. rewrite El.
    destruct (IH fuel fuel L L (length s) (s ++ [([], l, e)])) as [E K]; [rewrite app_length; cbn; lia|apply rest_new|].
    split; [exact E|]. exact (keeps_new _ _ _ K).
  - exists 0. intros fuel _ s. unfold sbind, total. cbn [still m_list]. rewrite El. split; [reflexivity|apply keeps_refl].
Qed.

Lemma loop_settles {W} fields (f : nat -> nat -> N -> W -> state_res st W) h : (forall i v w, settles (fun fuel => f fuel i v w) (h i v w)) ->
  forall l e seen w, exists F, forall fuel left, F <= fuel -> F <= left -> forall i s, i < length s -> rest_of s i = (l, [], e) ->
    ends_but i s (fstruct_loop o fields h l e seen w) (mstruct_loop ops fields (f fuel) left i seen w s).
Proof.
  intros H l e. induction l as [|[k v] l IH]; intros seen w.
  - exists 1. intros fuel left _ L i s Li R. destruct left as [|left]; [lia|]. cbn [mstruct_loop].
    unfold sbind, total. cbn [still m_done m_next_pair]. rewrite R. destruct e; cbn [fst snd fstruct_loop]; [rewrite R|]; split; auto using but_refl.
  - assert (exists F, forall fuel left, F <= fuel -> F <= left -> forall i s, i < length s -> rest_of s i = (l, [], e) ->
      ends_but i s (fstruct_loop o fields h ((k, v) :: l) e seen w) (sbind (m_string ops k) (fun ks => match field_index ks fields 0 with
           | None => sfail (Err (EInvalidKey ks))
           | Some j => if existsb (Nat.eqb j) seen then sfail (Err (ERepeatedKey ks))
                else sbind (f fuel j v w) (fun w' => mstruct_loop ops fields (f fuel) left i (j :: seen) w') end) s)) as [F HF].
    { cbn [fstruct_loop]. unfold sbind at 1. cbn [still m_string]. destruct (o_string o k) as [ks| | |]; cbn [bind];
        try (exists 0; intros; split; [reflexivity|apply but_refl]).
      destruct (field_index ks fields 0) as [j|]; [|exists 0; intros; split; [reflexivity|apply but_refl]].
      destruct (existsb (Nat.eqb j) seen); [exists 0; intros; split; [reflexivity|apply but_refl]|].
      destruct (H j v w) as [F1 H1]. destruct (h j v w) as [w'| | |] eqn:Ew.
      - destruct (IH (j :: seen) w') as [F2 H2]. exists (F1 + F2). intros fuel left L L' i s Li R.
        destruct (H1 fuel ltac:(lia) s) as [E [Kl K]]. unfold sbind. destruct (f fuel j v w s) as [r s2]. cbn [fst snd] in *. subst r.
        destruct (H2 fuel left ltac:(lia) ltac:(lia) i s2 ltac:(lia)) as [E3 K3]; [now rewrite K|]. cbn [bind]. split; [exact E3|].
        apply (but_trans _ _ s2); [|exact K3]. split; auto.
      - exists F1. intros fuel left L L' i s Li R. destruct (H1 fuel ltac:(lia) s) as [E K]. unfold sbind. destruct (f fuel j v w s) as [r s2]. cbn [fst snd] in *. subst r.
        split; [reflexivity|now apply keeps_weak].
      - exists F1. intros fuel left L L' i s Li R. destruct (H1 fuel ltac:(lia) s) as [E K]. unfold sbind. destruct (f fuel j v w s) as [r s2]. cbn [fst snd] in *. subst r.
        split; [reflexivity|now apply keeps_weak].
      - exists F1. intros fuel left L L' i s Li R. destruct (H1 fuel ltac:(lia) s) as [E K]. unfold sbind. destruct (f fuel j v w s) as [r s2]. cbn [fst snd] in *. subst r.
        split; [reflexivity|now apply keeps_weak]. }
    exists (S F). intros fuel left L L' i s Li R. destruct left as [|left]; [lia|]. cbn [mstruct_loop].
    unfold sbind at 1, total at 1. cbn [still m_done]. rewrite R. unfold sbind at 1. cbn [still m_next_pair]. rewrite R.
    cbn beta iota. match goal with |- ends_but _ _ _ (sbind _ _ ?x) =>
      assert (@length (rest N) x = length s) as L1 by (now apply put_length); assert (rest_of x i = (l, [], e)) as R1 by (now apply put_same);
      assert (keeps_but i s x) as K1 by (now apply put_but); set (s1 := x) in * end. clearbody s1.
    destruct (HF fuel left ltac:(lia) ltac:(lia) i s1 ltac:(lia) R1) as [E K]. split; [exact E|]. exact (but_trans _ _ _ _ K1 K).
Qed.
Lemma struct_settles {W} own fields req (f : nat -> nat -> N -> W -> state_res st W) h z : (forall i v w, settles (fun fuel => f fuel i v w) (h i v w)) ->
  forall v, settles (fun fuel => massign_struct ops fuel own fields req (f fuel) z v) (fassign_struct o own fields req h z v).
Proof.
  intros H v. unfold massign_struct, fassign_struct.
  apply (massign_settles own (fun fuel => _)).
  apply (settles_ask (o_kind o v) (fun _ => total (m_kind ops v)) (fun fuel k => match k with KMap => _ | _ => _ end)); [reflexivity|].
  destruct (o_kind o v); try apply (settles_const (Err EWrongKind)).
  destruct (o_map o v) as [[l e]|] eqn:El.
  - destruct (loop_settles fields f h H l e [] z) as [F IH]. exists F. intros fuel L s. unfold sbind at 1, total. cbn [still m_map]. rewrite El.
    destruct (IH fuel fuel L L (length s) (s ++ [(l, [], e)])) as [E K]; [rewrite app_length; cbn; lia|apply rest_new|].
    unfold sbind. destruct (mstruct_loop _ _ _ _ _ _ _ _) as [r s2]. cbn [fst snd] in *. subst r. apply keeps_new in K.
    destruct (fstruct_loop o fields h l e [] z) as [[seen w']| | |]; cbn [bind]; try (split; [reflexivity|exact K]).
    destruct (missing_fields fields req seen); (split; [reflexivity|exact K]).
  - exists 0. intros fuel _ s. unfold sbind, total. cbn [still m_map]. rewrite El. split; [reflexivity|apply keeps_refl].
Qed.

Lemma sperson b v : settles (fun fuel => massign_person ops fuel b v) (fassign_person o b v).
Proof.
  unfold massign_person, fassign_person.
  apply (struct_settles _ _ _ (fun _ => if b then fun _ _ _ => sfail Panic else mset_person ops)). intros i x w. destruct b; [apply (settles_const Panic)|].
  unfold mset_person, fset_person. apply (settles_bind (fun _ => massign_string ops x) _ (fun _ s => _)); [apply sstring|].
  intros s _. destruct i as [|[|[|[|i]]]]; match goal with |- settles _ ?r => apply (settles_const r) end.
Qed.
Ltac one H := apply (settles_bind (fun fuel => _) _ (fun fuel a => _)); [apply H|intros ? _; match goal with |- settles _ ?r => apply (settles_const r) end].
Lemma stag v : settles (fun fuel => massign_tag ops fuel v) (fassign_tag o v).
Proof.
  unfold massign_tag, fassign_tag. apply (struct_settles _ _ _ (fun fuel => mset_tag ops fuel)). intros i x w. unfold mset_tag, fset_tag.
  destruct i as [|[|[|[|[|i]]]]].
  - one slink.
  - one sstring.
  - one sstring.
  - one sperson.
  - one sstring.
  - apply (settles_const Panic).
Qed.
Lemma scommit v : settles (fun fuel => massign_commit ops fuel v) (fassign_commit o v).
Proof.
  unfold massign_commit, fassign_commit. apply (struct_settles _ _ _ (fun fuel => mset_commit ops fuel)). intros i x w. unfold mset_commit, fset_commit.
  assert (settles (fun fuel => massign_link_list ops fuel x) (fassign_link_list o x)) as S1 by (apply (list_settles _ (fun _ => massign_commit_link ops)), scommit_link).
  assert (settles (fun fuel => massign_string_list ops fuel x) (fassign_string_list o x)) as S2 by (apply (list_settles _ (fun _ => massign_string ops)), sstring).
  assert (settles (fun fuel => massign_tag_list ops fuel x) (fassign_tag_list o x)) as S3 by (apply (list_settles _ (fun fuel => massign_tag ops fuel)), stag).
  destruct i as [|[|[|[|[|[|[|[|[|i]]]]]]]]].
  - one stree_link.
  - one S1.
  - one sstring.
  - one sperson.
  - one sperson.
  - one sstring.
  - one sgpgsig.
  - one S3.
  - one S2.
  - apply (settles_const Panic).
Qed.

Lemma sentry name v : forall s, mtree_entry_body ops name v s = (ftree_entry_body o name v, s).
Proof.
  intros s. unfold mtree_entry_body, ftree_entry_body, sbind. cbn [still m_lookup m_string m_link].
  destruct (o_lookup o v (bs "mode")) as [m| | |]; try reflexivity. cbn [bind]. destruct (o_string o m); try reflexivity. cbn [bind].
  destruct (o_lookup o v (bs "hash")) as [h| | |]; try reflexivity. cbn [bind]. destruct (o_link o h) as [l| | |]; try reflexivity. cbn [bind].
  destruct l; try reflexivity. unfold sfail. now destruct (cid_to_sha c).
Qed.
Lemma entries_settle l e : forall left, length l < left -> forall i s, i < length s -> rest_of s i = (l, [], e) ->
    ends_but i s (ftree_entries_body o l e) (mtree_entries_body ops left i s).
Proof.
  induction l as [|[k v] l IH]; intros left L i s Li R; (destruct left as [|left]; [cbn in L; lia|]); cbn [mtree_entries_body].
  - unfold sbind, total. cbn [still m_done m_next_pair]. rewrite R. destruct e; cbn [fst snd ftree_entries_body]; [rewrite R|]; split; auto using but_refl.
  - unfold sbind at 1, total. cbn [still m_done]. rewrite R. unfold sbind at 1. cbn [still m_next_pair]. rewrite R.
    cbn beta iota. match goal with |- ends_but _ _ _ (sbind _ _ ?x) =>
      assert (@length (rest N) x = length s) as L1 by (now apply put_length); assert (rest_of x i = (l, [], e)) as R1 by (now apply put_same);
      assert (keeps_but i s x) as K1 by (now apply put_but); set (s1 := x) in * end. clearbody s1.
    unfold sbind at 1. cbn [still m_string ftree_entries_body]. destruct (o_string o k); cbn [bind]; try (split; [reflexivity|exact K1]).
    unfold sbind at 1. change (mtree_entry_body _ a v s1) with (mtree_entry_body ops a v s1). rewrite sentry. destruct (ftree_entry_body o a v); cbn [bind]; try (split; [reflexivity|exact K1]).
    destruct (IH left ltac:(cbn in L; lia) i s1 ltac:(lia) R1) as [E K]. unfold sbind.
    change (mtree_entries_body _ left i s1) with (mtree_entries_body ops left i s1).
    destruct (mtree_entries_body ops left i s1) as [r s2]. cbn [fst snd] in *. subst r.
    pose proof (but_trans _ _ _ _ K1 K). destruct (ftree_entries_body o l e); cbn [bind]; split; auto.
Qed.
Lemma stree n : settles (fun fuel => mencode_tree ops fuel n) (fencode_tree o n).
Proof.
  unfold mencode_tree, fencode_tree. destruct (o_map o n) as [[l e]|] eqn:El.
  - exists (S (length l)). intros fuel L s. unfold sbind at 1, total. cbn [still m_map]. rewrite El.
    destruct (entries_settle l e fuel ltac:(lia) (length s) (s ++ [(l, [], e)])) as [E K]; [rewrite app_length; cbn; lia|apply rest_new|].
    unfold sbind. change (mtree_entries_body _ fuel (length s)) with (mtree_entries_body ops fuel (length s)).
    destruct (mtree_entries_body ops _ _ _) as [r s2]. cbn [fst snd] in *. subst r. apply keeps_new in K.
    destruct (ftree_entries_body o l e); cbn [bind]; (split; [reflexivity|exact K]).
  - exists 0. intros fuel _ s. unfold sbind, total. cbn [still m_map]. rewrite El. split; [reflexivity|apply keeps_refl].
Qed.
Lemma stag_enc n : settles (fun fuel => mencode_tag ops fuel n) (fencode_tag o n).
Proof.
  unfold mencode_tag, fencode_tag. cbn [still m_lookup m_link m_string].
  apply (settles_bind (fun _ => _) _ (fun fuel a => _)); [apply (settles_const (o_lookup o n (bs "object")))|]. intros obj _.
  apply (settles_bind (fun _ => _) _ (fun fuel a => _)); [apply (settles_const (o_link o obj))|]. intros l _.
  apply (settles_bind (fun _ => _) _ (fun fuel a => _)); [apply (settles_const (o_lookup o n (bs "type")))|]. intros ty _.
  apply (settles_bind (fun _ => _) _ (fun fuel a => _)); [apply (settles_const (o_string o ty))|]. intros ts _.
  apply (settles_bind (fun _ => _) _ (fun fuel a => _)); [apply (settles_const (o_lookup o n (bs "tag")))|]. intros tg _.
  apply (settles_bind (fun _ => _) _ (fun fuel a => _)); [apply (settles_const (o_string o tg))|]. intros gs _.
  apply (settles_bind (fun _ => _) _ (fun fuel a => _)); [apply (settles_const (o_lookup o n (bs "message")))|]. intros me _.
  apply (settles_bind (fun _ => _) _ (fun fuel a => _)); [apply (settles_const (o_string o me))|]. intros ms _.
  apply (settles_bind (fun _ => _) _ (fun fuel a => _)).
  { exists 0. intros fuel _ s. unfold smap. cbn [still m_lookup]. destruct (o_lookup o n (bs "tagger")); (split; [reflexivity|apply keeps_refl]). }
  intros t _. apply (settles_bind (fun _ => _) _ (fun fuel a => _)); [apply (settles_const (link_sha l))|]. intros h _.
  apply (settles_bind (fun fuel => _) _ (fun fuel a => _)); [|intros line _; match goal with |- settles _ ?r => apply (settles_const r) end].
  destruct t as [tn|]; [|apply (settles_const (Ok []))].
  apply (settles_ask (o_null o tn) (fun _ => _) (fun fuel b => if b : bool then _ else _)); [reflexivity|].
  destruct (o_null o tn); [apply (settles_const (Ok []))|].
  apply (settles_bind (fun fuel => _) _ (fun fuel a => _)); [apply sperson|]. intros p _. match goal with |- settles _ ?r => apply (settles_const r) end.
Qed.
Lemma scommit_enc n : settles (fun fuel => mencode_commit ops fuel n) (fencode_commit o n).
Proof.
  destruct (scommit n) as [F H]. exists F. intros fuel L s. destruct (H fuel L s) as [E K]. unfold mencode_commit, fencode_commit, smap.
  destruct (massign_commit ops fuel n s) as [r s']. cbn [fst snd] in *. subst r. destruct (fassign_commit o n); (split; [reflexivity|exact K]).
Qed.
Lemma snode n : settles (fun fuel => mencode_node ops fuel n) (fencode_node o n).
Proof.
  unfold mencode_node, fencode_node.
  apply (settles_ask (o_type o n) (fun _ => _) (fun fuel b => match b with Some OBlob => _ | Some OCommit => _ | Some OTree => _ | Some OTag => _ | None => _ end)); [reflexivity|].
  assert (settles (fun _ => mencode_blob ops n) (fencode_blob o n)) as Sb.
  { unfold mencode_blob, fencode_blob. one (@settles_const bytes (o_bytes o n)). }
  destruct (o_type o n) as [[]|]; auto using scommit_enc, stree, stag_enc.
  apply (settles_ask (o_kind o n) (fun _ => _) (fun fuel b => match b with KBytes => _ | KList => _ | KMap => _ | _ => _ end)); [reflexivity|].
  destruct (o_kind o n); auto using stree; try apply (settles_const (Err EUnrecognizedNode)).
  destruct (stag_enc n) as [F1 H1], (scommit_enc n) as [F2 H2]. exists (F1 + F2). intros fuel L s.
  unfold sbind at 1, total. cbn [still m_map].
  destruct (o_map o n) as [[l e]|] eqn:El; [|split; [reflexivity|apply keeps_refl]].
  assert (keeps s (s ++ [(l, [], e)])) as K0 by (apply (keeps_new _ (l, [], e)), but_refl).
  unfold sbind at 1. cbn [still m_next_pair]. rewrite rest_new.
  destruct l as [|[k v] l]; [destruct e; (split; [reflexivity|exact K0])|].
  cbn beta iota. match goal with |- ends _ _ (sbind _ _ ?x) => assert (keeps s x) as K1; [|set (s1 := x) in *; clearbody s1] end.
  { apply (keeps_new _ ((k, v) :: l, [], e)). apply put_but. rewrite app_length. cbn. lia. }
  unfold sbind. cbn [still m_string]. destruct (o_string o k); cbn [bind]; try (split; [reflexivity|exact K1]).
  destruct (existsb (beqb a) _).
  - destruct (H1 fuel ltac:(lia) s1) as [E K]. split; [exact E|]. exact (keeps_trans _ _ _ K1 K).
  - destruct (H2 fuel ltac:(lia) s1) as [E K]. split; [exact E|]. exact (keeps_trans _ _ _ K1 K).
Qed.
End Still.
