(** C71: Encode over nodes whose answers change, and whose iterators need not end. *)
From Verif Require Import Base GoStr Cid Types Nodes Person Assemble Encode Spec Foreign Moving MovingSpec MovingFacts MovingWalk Props_roundtrip.
From Coq Require Import Lia.

(** ** Nodes that stand still are those of C58 *)
Theorem still_nodes_are_encoded_as_before : forall N (o : nodeops N) n,
  exists enough, forall fuel, enough <= fuel -> forall s, fst (mencode_node (still o) fuel n s) = fencode_node o n.
Proof. intros N o n. destruct (snode o n) as [F H]. exists F. intros fuel L s. apply (H fuel L s). Qed.
Print Assumptions still_nodes_are_encoded_as_before.

(** ** More rounds change nothing *)
Definition refines {S} A (m1 m2 : state_res S A) : Prop := forall s, fst (m1 s) <> OutOfFuel -> m2 s = m1 s.
Lemma refines_bind {S A B} (m1 m2 : state_res S A) (k1 k2 : A -> state_res S B) :
  refines A m1 m2 -> (forall a, refines B (k1 a) (k2 a)) -> refines B (sbind m1 k1) (sbind m2 k2).
Proof.
  intros H F s. unfold sbind. specialize (H s). destruct (m1 s) as [r s1]. cbn [fst] in H. destruct r; cbn [fst]; intros D;
    try (rewrite H by discriminate; auto; now apply F). now elim D.
Qed.
Lemma refines_refl {S A} (m : state_res S A) : refines A m m.
Proof. intros s _. reflexivity. Qed.
Lemma refines_kept {S N I} (o : movops S N I) f1 f2 : f1 <= f2 -> kept o o f1 f2 (@refines S).
Proof.
  intros L. constructor; intros; try apply refines_refl.
  - now apply refines_bind.
  - intros s. unfold smap. specialize (H0 s). destruct (m1 s) as [r s1]. cbn [fst] in *. intros D. rewrite H0; [reflexivity|]. intros ->. now apply D, H.
  - revert f2 L i. induction f1 as [|f1 IH]; intros f2 L i; [intros s D; now elim D|]. destruct f2 as [|f2]; [lia|]. cbn [mitems].
    apply refines_bind; [apply refines_refl|]. intros []; [apply refines_refl|]. apply refines_bind; [apply refines_refl|]. intros v.
    apply refines_bind; [apply H|]. intros a. apply refines_bind; [apply IH; lia|]. intros rs. apply refines_refl.
  - revert f2 L i seen w. induction f1 as [|f1 IH]; intros f2 L i seen w; [intros s D; now elim D|]. destruct f2 as [|f2]; [lia|]. cbn [mstruct_loop].
    apply refines_bind; [apply refines_refl|]. intros []; [apply refines_refl|]. apply refines_bind; [apply refines_refl|]. intros [k v].
    apply refines_bind; [apply refines_refl|]. intros ks. destruct (field_index ks fields 0); [|apply refines_refl].
    destruct (existsb _ seen); [apply refines_refl|]. apply refines_bind; [apply H|]. intros w'. apply IH. lia.
  - revert f2 L i. induction f1 as [|f1 IH]; intros f2 L i; [intros s D; now elim D|]. destruct f2 as [|f2]; [lia|]. cbn [mtree_entries_body].
    apply refines_bind; [apply refines_refl|]. intros []; [apply refines_refl|]. apply refines_bind; [apply refines_refl|]. intros [k v].
    apply refines_bind; [apply refines_refl|]. intros ks. apply refines_bind; [apply refines_refl|]. intros a.
    apply refines_bind; [apply IH; lia|]. intros b. apply refines_refl.
Qed.
Theorem more_rounds_change_nothing : forall S N I (o : movops S N I) fuel fuel' n s,
  fuel <= fuel' -> fst (mencode_node o fuel n s) <> OutOfFuel -> mencode_node o fuel' n s = mencode_node o fuel n s.
Proof. intros S N I o fuel fuel' n s L. apply (w_node o o fuel fuel' (@refines S) (refines_kept o fuel fuel' L) n s). Qed.
Print Assumptions more_rounds_change_nothing.

(** ** What is written is what some ordinary node is written as *)
Lemma sbind_ok {S A B} (m : state_res S A) (k : A -> state_res S B) s b s' :
  sbind m k s = (Ok b, s') -> exists a s1, m s = (Ok a, s1) /\ k a s1 = (Ok b, s').
Proof. unfold sbind. destruct (m s) as [[a| | |] s1]; try discriminate. eauto. Qed.
Lemma total_ok {S A} (m : S -> A * S) s a s' : total m s = (Ok a, s') -> m s = (a, s').
Proof. unfold total. destruct (m s). congruence. Qed.

Section Ours.
Context {S N I : Type} (o : movops S N I) (fuel : nat).
Notation writes x := (exists n, one_of_ours n /\ encode_node n = Ok x).

Lemma ours_blob n s x s' : mencode_blob o n s = (Ok x, s') -> writes x.
Proof.
  intros H. apply sbind_ok in H as (b & s1 & _ & H). injection H as <- _. exists (NBlob b). now split.
Qed.
Lemma ours_entries left : forall it s b s', mtree_entries_body o left it s = (Ok b, s') ->
  exists t, tree_body (NTree {| tr_t := t; tr_m := [] |}) = Ok b.
Proof.
  induction left as [|left IH]; intros it s b s' H; [discriminate|]. cbn [mtree_entries_body] in H.
  apply sbind_ok in H as ([] & s1 & _ & H). { injection H as <- _. now exists []. }
  apply sbind_ok in H as ([k v] & s2 & _ & H). apply sbind_ok in H as (name & s3 & _ & H).
  apply sbind_ok in H as (a & s4 & Ha & H). apply sbind_ok in H as (b' & s5 & Hb & H). injection H as <- _.
  destruct (IH _ _ _ _ Hb) as [t Et]. unfold mtree_entry_body in Ha.
  apply sbind_ok in Ha as (m & s6 & _ & Ha). apply sbind_ok in Ha as (ms & s7 & _ & Ha). apply sbind_ok in Ha as (h & s8 & _ & Ha).
  apply sbind_ok in Ha as (l & s9 & _ & Ha). destruct l as [|c|]; try discriminate Ha. apply sbind_ok in Ha as (sh & s10 & Hc & Ha).
  injection Ha as <- _. injection Hc as Hc _.
  exists ((name, {| e_mode := ms; e_hash := LCid c |}) :: t). unfold tree_body in *. cbn [map_entries tr_t map] in *.
  cbn [tree_entries_body as_string]. cbn [bind]. unfold tree_entry_body. cbn. rewrite Hc. cbn [bind]. now rewrite Et.
Qed.
Lemma ours_tree n s x s' : mencode_tree o fuel n s = (Ok x, s') -> writes x.
Proof.
  intros H. apply sbind_ok in H as ([it|] & s1 & _ & H); [|discriminate]. apply sbind_ok in H as (b & s2 & Hb & H). injection H as <- _.
  destruct (ours_entries _ _ _ _ _ Hb) as [t Et]. exists (NTree {| tr_t := t; tr_m := [] |}). split; [exact Logic.I|].
  cbn [encode_node]. unfold encode_tree. now rewrite Et.
Qed.
Lemma ours_commit n s x s' : mencode_commit o fuel n s = (Ok x, s') -> writes x.
Proof.
  unfold mencode_commit, smap. destruct (massign_commit o fuel n s) as [[c| | |] s1]; try discriminate. intros H. injection H as H _.
  exists (NCommit c). split; [exact Logic.I|]. cbn [encode_node]. unfold encode_commit. exact H.
Qed.
Lemma ours_tag n s x s' : mencode_tag o fuel n s = (Ok x, s') -> writes x.
Proof.
  intros H. unfold mencode_tag in H.
  apply sbind_ok in H as (ob & s1 & _ & H). apply sbind_ok in H as (l & s2 & _ & H). apply sbind_ok in H as (ty & s3 & _ & H).
  apply sbind_ok in H as (ts & s4 & _ & H). apply sbind_ok in H as (tg & s5 & _ & H). apply sbind_ok in H as (gs & s6 & _ & H).
  apply sbind_ok in H as (me & s7 & _ & H). apply sbind_ok in H as (ms & s8 & _ & H). apply sbind_ok in H as (t & s9 & _ & H).
  apply sbind_ok in H as (h & s10 & Hh & H). injection Hh as Hh _. apply sbind_ok in H as (line & s11 & Hl & H). injection H as <- _.
  assert (line = [] \/ exists p, line = bs "tagger " ++ git_string p ++ [NL]) as [-> | [p ->]].
  { destruct t as [t|]; [|left; now injection Hl]. apply sbind_ok in Hl as ([] & s12 & _ & Hl); [left; now injection Hl|].
    apply sbind_ok in Hl as (p & s13 & _ & Hl). right. exists p. now injection Hl. }
  - exists (NGenMap [(NGenString (bs "object"), NGenLink l); (NGenString (bs "type"), NGenString ts);
             (NGenString (bs "tag"), NGenString gs); (NGenString (bs "message"), NGenString ms)]).
    split; [now exists l, ts, gs, ms|]. cbn. unfold encode_tag, tag_body. cbn. rewrite Hh. reflexivity.
  - exists (NTag {| t_object := l; t_type := ts; t_tag := gs; t_tagger := p; t_message := ms |}).
    split; [exact Logic.I|]. cbn [encode_node]. unfold encode_tag, tag_body. cbn. rewrite Hh. reflexivity.
Qed.
Lemma ours_node n s x s' : mencode_node o fuel n s = (Ok x, s') -> writes x.
Proof.
  intros H. unfold mencode_node in H. apply sbind_ok in H as (ty & s1 & _ & H).
  destruct ty as [[]|]; eauto using ours_blob, ours_commit, ours_tree, ours_tag.
  apply sbind_ok in H as (kd & s2 & _ & H). destruct kd; try discriminate H; eauto using ours_blob, ours_tree.
  apply sbind_ok in H as ([it|] & s3 & _ & H); [|discriminate]. apply sbind_ok in H as ([k v] & s4 & _ & H).
  apply sbind_ok in H as (key & s5 & _ & H). destruct (existsb _ _); eauto using ours_tag, ours_commit.
Qed.
End Ours.

Theorem moving_nodes_write_ordinary_objects : forall S N I (o : movops S N I) fuel W (wr : writer W) n s w,
  match mencode o fuel wr n s w with
  | None => True                                         (* it goes on *)
  | Some (r, w') => (w' = w /\ r <> Done) \/ exists n', one_of_ours n' /\ encode wr n' w = (r, w')
  end.
Proof.
  intros S N I o fuel W wr n s w. unfold mencode. destruct (mencode_node o fuel n s) as [[x|e| |] s'] eqn:E; cbn [fst].
  - destruct (ours_node _ _ _ _ _ _ E) as (n' & O & En). destruct (write_encoded wr x w) as [r w'] eqn:Ew. right. exists n'. split; [exact O|].
    unfold encode. now rewrite En.
  - left. split; [reflexivity|discriminate].
  - left. split; [reflexivity|discriminate].
  - exact Logic.I.
Qed.
Print Assumptions moving_nodes_write_ordinary_objects.

(** ** It goes on only if an iterator does *)
Lemma part_app {A} (a b c : list A) : part_of a b -> part_of a (b ++ c).
Proof.
  intros H. induction H; cbn [app]; try (constructor; assumption). induction c; constructor; auto.
Qed.
Lemma part_app_l {A} (a b c : list A) : part_of a b -> part_of a (c ++ b).
Proof. intros H. induction c; cbn [app]; [exact H|now constructor]. Qed.
Lemma part_nil {A} (b : list A) : part_of [] b.
Proof. induction b; constructor; auto. Qed.

Section Endless.
Context {S N I : Type} (o : movops S N I) (fuel : nat) (R : methods_return o).
(** [m] adds to the record; if it does not end, an iterator gave [fuel] times; and without the record it is [m']. *)
Definition goes A (m : state_res (S * list I) A) (m' : state_res S A) : Prop :=
  forall s l, let '(r, (s', l')) := m (s, l) in
    m' s = (r, s') /\ exists d, l' = l ++ d /\ (r = OutOfFuel -> exists it, part_of (repeat it fuel) d).
Lemma goes_unwatched {A} (m : S -> A * S) : goes A (total (unwatched m)) (total m).
Proof. intros s l. unfold total, unwatched. cbn [fst snd]. destruct (m s) as [a s']. split; [reflexivity|]. exists []. split; [now rewrite app_nil_r|discriminate]. Qed.
Lemma goes_method {A} (m : state_res S A) : (forall s, fst (m s) <> OutOfFuel) -> goes A (unwatched m) m.
Proof.
  intros H s l. unfold unwatched. cbn [fst snd]. specialize (H s). destruct (m s) as [a s']. split; [reflexivity|]. exists []. split; [now rewrite app_nil_r|].
  intros ->. now elim H.
Qed.
Lemma goes_next {A} i (m : state_res S A) : (forall s, fst (m s) <> OutOfFuel) -> goes A (noted i m) m.
Proof.
  intros H s l. unfold noted. cbn [fst snd]. specialize (H s). destruct (m s) as [a s']. split; [reflexivity|].
  destruct a; [exists [i]|exists []..]; (split; [rewrite ?app_nil_r; reflexivity|]); try discriminate. now elim H.
Qed.
Lemma goes_bind {A B} m m' (k : A -> state_res (S * list I) B) k' : goes A m m' -> (forall a, goes B (k a) (k' a)) -> goes B (sbind m k) (sbind m' k').
Proof.
  intros H F s l. unfold sbind. specialize (H s l). destruct (m (s, l)) as [r [s1 l1]]. destruct H as (-> & d & -> & D).
  destruct r as [a| | |]; try (split; [reflexivity|]; exists d; split; [reflexivity|]; auto; discriminate).
  specialize (F a s1 (l ++ d)). destruct (k a (s1, l ++ d)) as [r [s2 l2]]. destruct F as (-> & d2 & -> & D2). split; [reflexivity|].
  exists (d ++ d2). split; [now rewrite app_assoc|]. intros Hr. destruct (D2 Hr) as [it P]. exists it. now apply part_app_l.
Qed.
Lemma goes_fail {A} (r : res A) : r <> OutOfFuel -> goes A (sfail r) (sfail r).
Proof. intros H s l. split; [reflexivity|]. exists []. split; [now rewrite app_nil_r|]. intros E. now elim H. Qed.

(** A loop that has [left] rounds left *)
Definition loops (it : I) left A (m : state_res (S * list I) A) (m' : state_res S A) : Prop :=
  forall s l, let '(r, (s', l')) := m (s, l) in
    m' s = (r, s') /\ exists d, l' = l ++ d /\ (r = OutOfFuel -> part_of (repeat it left) d \/ exists i, part_of (repeat i fuel) d).
Lemma loops_bind {A B} it left m m' (k : A -> state_res (S * list I) B) k' :
  goes A m m' -> (forall a, loops it left B (k a) (k' a)) -> loops it left B (sbind m k) (sbind m' k').
Proof.
  intros H F s l. unfold sbind. specialize (H s l). destruct (m (s, l)) as [r [s1 l1]]. destruct H as (-> & d & -> & D).
  destruct r as [a| | |]; try (split; [reflexivity|]; exists d; split; [reflexivity|]; auto; discriminate).
  specialize (F a s1 (l ++ d)). destruct (k a (s1, l ++ d)) as [r [s2 l2]]. destruct F as (-> & d2 & -> & D2). split; [reflexivity|].
  exists (d ++ d2). split; [now rewrite app_assoc|]. intros Hr. destruct (D2 Hr) as [P|[i P]]; [left|right; exists i]; now apply part_app_l.
Qed.
Lemma loops_then {A B} it left m m' (k : A -> state_res (S * list I) B) k' :
  loops it left A m m' -> (forall a, goes B (k a) (k' a)) -> loops it left B (sbind m k) (sbind m' k').
Proof.
  intros H F s l. unfold sbind. specialize (H s l). destruct (m (s, l)) as [r [s1 l1]]. destruct H as (-> & d & -> & D).
  destruct r as [a| | |]; try (split; [reflexivity|]; exists d; split; [reflexivity|]; auto; discriminate).
  specialize (F a s1 (l ++ d)). destruct (k a (s1, l ++ d)) as [r [s2 l2]]. destruct F as (-> & d2 & -> & D2). split; [reflexivity|].
  exists (d ++ d2). split; [now rewrite app_assoc|]. intros Hr. destruct (D2 Hr) as [i P]. right. exists i. now apply part_app_l.
Qed.
Lemma goes_loops {A} it left m m' : goes A m m' -> loops it left A m m'.
Proof. intros H s l. specialize (H s l). destruct (m (s, l)) as [r [s1 l1]]. destruct H as (-> & d & -> & D). split; [reflexivity|]. exists d. auto. Qed.
Lemma loops_next {A B} it left (m : state_res S A) (k : A -> state_res (S * list I) B) k' : (forall s, fst (m s) <> OutOfFuel) ->
  (forall a, loops it left B (k a) (k' a)) -> loops it (Datatypes.S left) B (sbind (noted it m) k) (sbind m k').
Proof.
  intros H F s l. unfold sbind, noted. cbn [fst snd]. specialize (H s). destruct (m s) as [r s1]. cbn [fst] in H.
  destruct r as [a| | |]; try (split; [reflexivity|]; exists []; rewrite app_nil_r; split; [reflexivity|discriminate]); [|now elim H].
  specialize (F a s1 (l ++ [it])). destruct (k a (s1, l ++ [it])) as [r [s2 l2]]. destruct F as (-> & d2 & -> & D2). split; [reflexivity|].
  exists (it :: d2). split; [now rewrite <- app_assoc|]. intros Hr. destruct (D2 Hr) as [P|[i P]]; [left; now constructor|right; exists i; now constructor].
Qed.
Lemma loops_out {A} it : loops it 0 A (sfail OutOfFuel) (sfail OutOfFuel).
Proof. intros s l. split; [reflexivity|]. exists []. split; [now rewrite app_nil_r|]. intros _. left. constructor. Qed.
Lemma loops_goes {A} it m m' : loops it fuel A m m' -> goes A m m'.
Proof.
  intros H s l. specialize (H s l). destruct (m (s, l)) as [r [s1 l1]]. destruct H as (-> & d & -> & D). split; [reflexivity|]. exists d. split; [reflexivity|].
  intros E. destruct (D E); eauto.
Qed.
Lemma goes_ret {A} (a : A) : goes A (sret a) (sret a).
Proof. apply (goes_fail (Ok a)). discriminate. Qed.

Lemma goes_kept : kept (watched o) o fuel fuel goes.
Proof.
  destruct R as (Rs & Rb & Rl & Rk & Rp & Ri). constructor; intros; try apply goes_unwatched; try (now apply goes_method).
  - now apply goes_fail.
  - now apply goes_bind.
  - intros s l. unfold smap. specialize (H0 s l). destruct (m1 (s, l)) as [r [s1 l1]]. destruct H0 as (-> & d & -> & D). split; [reflexivity|].
    exists d. split; [reflexivity|]. intros E. now apply D, H.
  - apply goes_next. apply Rp.
  - enough (forall left, loops i left _ (mitems (watched o) f left i) (mitems o g left i)) as X by exact (loops_goes i _ _ (X fuel)).
    intros left. induction left as [|left IH]; [apply loops_out|]. cbn [mitems].
    apply loops_bind; [apply goes_unwatched|]. intros []; [apply goes_loops, goes_ret|].
    apply loops_next; [apply Ri|]. intros v. apply loops_bind; [apply H|]. intros a. apply loops_then; [exact IH|]. intros rs. apply goes_ret.
  - enough (forall left seen w, loops i left _ (mstruct_loop (watched o) fields f left i seen w) (mstruct_loop o fields g left i seen w)) as X
      by exact (loops_goes i _ _ (X fuel seen w)).
    clear seen w. intros left. induction left as [|left IH]; intros seen w; [apply loops_out|]. cbn [mstruct_loop].
    apply loops_bind; [apply goes_unwatched|]. intros []; [apply goes_loops, goes_ret|].
    apply loops_next; [apply Rp|]. intros [k v]. apply loops_bind; [apply goes_method, Rs|]. intros ks.
    destruct (field_index ks fields 0); [|apply goes_loops, goes_fail; discriminate].
    destruct (existsb _ seen); [apply goes_loops, goes_fail; discriminate|]. apply loops_bind; [apply H|]. intros w'. apply IH.
  - enough (forall left, loops i left _ (mtree_entries_body (watched o) left i) (mtree_entries_body o left i)) as X by exact (loops_goes i _ _ (X fuel)).
    intros left. induction left as [|left IH]; [apply loops_out|]. cbn [mtree_entries_body].
    apply loops_bind; [apply goes_unwatched|]. intros []; [apply goes_loops, goes_ret|].
    apply loops_next; [apply Rp|]. intros [k v]. apply loops_bind; [apply goes_method, Rs|]. intros name. apply loops_bind; [apply H|]. intros a.
    apply loops_then; [exact IH|]. intros rs. apply goes_ret.
Qed.
End Endless.

(** If Encode is still at it when every loop has made [fuel] rounds, then one iterator has given
    [fuel] times, and what it gave was taken. *)
Theorem encode_goes_on_only_with_an_iterator : forall S N I (o : movops S N I) fuel n s,
  methods_return o -> fst (mencode_node o fuel n s) = OutOfFuel ->
  exists it s' given, mencode_node (watched o) fuel n (s, []) = (OutOfFuel, (s', given)) /\ part_of (repeat it fuel) given.
Proof.
  intros S N I o fuel n s R E. pose proof (w_node _ _ _ _ _ (goes_kept o fuel R) n s []) as G.
  destruct (mencode_node (watched o) fuel n (s, [])) as [r [s' l']]. destruct G as (G & d & -> & D). rewrite G in E. cbn in E. subst r.
  destruct (D eq_refl) as [it P]. now exists it, s', d.
Qed.
Print Assumptions encode_goes_on_only_with_an_iterator.

(** Encode need not end: a tree whose iterator gives the same entry for ever. *)
Definition endless : movops unit bool unit :=
  {| m_type := fun _ s => (Some OTree, s);
     m_own := fun _ s => (None, s);
     m_kind := fun _ s => (KMap, s);
     m_null := fun _ s => (false, s);
     m_string := fun _ s => (Ok (bs "100644"), s);
     m_bytes := fun _ s => (Err EWrongKind, s);
     m_link := fun _ s => (Ok (LCid (git_cid (repeat x00 20))), s);
     m_lookup := fun n _ s => (Ok n, s);
     m_map := fun _ s => (Some tt, s);
     m_list := fun _ s => (None, s);
     m_done := fun _ s => (false, s);
     m_next_pair := fun _ s => (Ok (true, true), s);
     m_next_item := fun _ s => (Err EOverread, s) |}.
Theorem encode_need_not_end : methods_return endless /\
  forall fuel W (wr : writer W) w, mencode endless fuel wr true tt w = None.
Proof.
  split; [repeat split; discriminate|]. intros fuel W wr w. unfold mencode.
  assert (forall left, fst (mtree_entries_body endless left tt tt) = OutOfFuel) as H.
  { induction left as [|left IH]; [reflexivity|]. cbn [mtree_entries_body]. unfold sbind, total. cbn [endless m_done m_next_pair m_string].
    replace (mtree_entry_body endless (bs "100644") true tt) with (Ok (bs "100644" ++ [SP] ++ bs "100644" ++ [NUL] ++ repeat x00 20), tt) by reflexivity.
    cbn beta iota. destruct (mtree_entries_body endless left tt tt) as [r []]. cbn in IH. now subst r. }
  unfold mencode_node, mencode_tree, sbind, total. cbn [endless m_type m_map]. specialize (H fuel).
  destruct (mtree_entries_body endless fuel tt tt) as [r []]. cbn in H. now subst r.
Qed.
Print Assumptions encode_need_not_end.
Example encode_goes_on_applies : fst (mencode_node endless 3 true tt) = OutOfFuel /\
  mencode_node (watched endless) 3 true (tt, []) = (OutOfFuel, (tt, [tt; tt; tt])).
Proof. now split. Qed.

(** A blob that is another one whenever it is asked; and a commit that shows a strange first key when
    it is asked what it is, and its fields when they are read. *)
Definition flickering : movops nat unit unit :=
  {| m_type := fun _ s => (if Nat.even s then Some OBlob else None, S s);
     m_own := fun _ s => (None, s);
     m_kind := fun _ s => (KBytes, S s);
     m_null := fun _ s => (false, s);
     m_string := fun _ s => (Err EWrongKind, s);
     m_bytes := fun _ s => (Ok (repeat x41 s), S s);
     m_link := fun _ s => (Err EWrongKind, s);
     m_lookup := fun _ _ s => (Err ENotExists, s);
     m_map := fun _ s => (None, s);
     m_list := fun _ s => (None, s);
     m_done := fun _ s => (true, s);
     m_next_pair := fun _ s => (Err EOverread, s);
     m_next_item := fun _ s => (Err EOverread, s) |}.
Definition commit_map : node := NGenMap match map_entries (NCommit (commit_value sample_commit)) with Some kvs => kvs | None => [] end.
Definition two_faced : movops (list (rest node)) node nat :=
  {| m_type := fun n s => (None, s);
     m_own := m_own (still node_ops);
     m_kind := m_kind (still node_ops);
     m_null := m_null (still node_ops);
     m_string := m_string (still node_ops);
     m_bytes := m_bytes (still node_ops);
     m_link := m_link (still node_ops);
     m_lookup := m_lookup (still node_ops);
     m_map := fun n s => match s with
                         | [] => (Some 0, [([(NGenString (bs "zzz"), NNull)], [], None)])
                         | _ => m_map (still node_ops) n s
                         end;
     m_list := m_list (still node_ops);
     m_done := m_done (still node_ops);
     m_next_pair := m_next_pair (still node_ops);
     m_next_item := m_next_item (still node_ops) |}.
Example moving_nodes_apply :
  mencode flickering 0 buffer_writer tt 2 [] = Some (Done, repeat x41 3) /\
  mencode flickering 0 buffer_writer tt 3 [] = Some (Done, repeat x41 5) /\
  mencode two_faced 10 buffer_writer commit_map [] [] =
    Some (encode buffer_writer (NCommit (commit_value sample_commit)) []).
Proof. repeat split; vm_compute; reflexivity. Qed.
Example still_nodes_apply : fst (mencode_node (still node_ops) 10 commit_map []) = encode_node (NCommit (commit_value sample_commit)).
Proof. vm_compute. reflexivity. Qed.
