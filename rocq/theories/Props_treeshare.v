(** C69: a tree given to a builder shares its map and its array with it.  TreeShare.v has
    the builder with its pointers, and what reading a tree is. *)
From Verif Require Import Base GoStr Cid Types Nodes Reader Assemble Decode HeaderSpec Spec TreeHeap TreeHeapFacts TreeShare TreeShareFacts.
From Verif Require Builder.
Import Builder (maybe(..), mstate(..), verdict(..)).

(** A new builder, calls that leave it unassigned, AssignNode of the tree [h], and any
    calls after that.  [late] is 1 if the tree arrived while the builder was in the middle of
    a key, and 0 otherwise.  The given tree keeps its names; it keeps its entries, except
    that a late one can lose the last; its lookups are those of the builder's tree; and
    they are what they were, except for the names the builder's tree has beyond it (and a
    late one's last). Trees on other arrays keep their entries. *)
Theorem what_a_given_tree_keeps : forall grow mem ms h before after vs1 b1 mem1 ms1 vs2 b2 mem2 ms2,
  nth 0 mem [] = [] -> is_tree mem ms h ->
  trun grow before (new_builder, mem, ms) = (vs1, (b1, mem1, ms1)) -> b_m b1 = MAbsent ->
  trun grow (CAssignTree h :: after) (b1, mem1, ms1) = (vs2, (b2, mem2, ms2)) ->
  let late := match b_st b1 with MidKey => 1 | _ => 0 end in
  let n := length (entries_of mem h) in
  nth_error vs2 0 = Some OK /\
  (late = 0 -> entries_of mem2 h = entries_of mem h) /\
  firstn (n - 1) (entries_of mem2 h) = firstn (n - 1) (entries_of mem h) /\
  map fst (entries_of mem2 h) = map fst (entries_of mem h) /\
  (forall k, find_in mem2 ms2 h k = find_in mem2 ms2 (b_hd b2) k) /\
  (forall k, ~ In k (skipn (n - late) (map fst (entries_of mem2 (b_hd b2)))) ->
     find_in mem2 ms2 h k = find_in mem ms h k) /\
  (forall h', is_tree mem ms h' -> sl_array (hd_t h') <> sl_array (hd_t h) ->
     entries_of mem2 h' = entries_of mem h').
Proof.
  intros grow mem ms h before after vs1 b1 mem1 ms1 vs2 b2 mem2 ms2 N T E1 A1 E2 late n.
  assert (P : 0 < length mem) by (destruct T; lia).
  pose proof (before_run grow mem ms P before (new_builder, mem, ms) (before_new mem ms N P)) as B. rewrite E1 in B. specialize (B A1). destruct B.
  cbn [trun tstep] in E2. rewrite A1 in E2.
  destruct (trun grow after _) as [vs w] eqn:E3 in E2. injection E2 as <- ->.
  assert (n = sl_len (hd_t h)) as En by (unfold n, entries_of; apply cells_length, T). clearbody n. subst n.
  assert (Tl : late <= 1) by (unfold late; destruct (b_st b1); lia).
  assert (G : given mem ms h (length mem1) late (TB h MValue (b_st b1) (b_cm b1) (b_ka b1) (b_va b1)) mem1 ms1).
  { split; cbn [b_hd b_m b_st b_cm b_ka b_va]; auto.
    - pose proof (proj1 (proj2 T)) as T2. pose proof (proj1 T) as T1.
      destruct (Nat.eq_dec (sl_len (hd_t h)) 0) as [Z|Z]; [lia|].
      assert (nth_error (sl_cells mem1 (hd_t h)) (sl_len (hd_t h) - 1) <> None) as Q.
      { rewrite load_cells by lia. rewrite y_old by (cbn; lia). rewrite <- load_cells by lia. apply nth_error_Some. rewrite cells_length by exact T2. lia. }
      apply nth_error_Some in Q. unfold sl_cells in Q. rewrite firstn_length in Q. unfold sl_cap. lia.
    - pose proof (proj1 T). lia.
    - intros i Hi. rewrite y_old; [reflexivity|]. exact (proj1 T).
    - intros i Hi. unfold names. rewrite nth_error_map, load_cells, y_old by (try exact (proj1 T); exact Hi). reflexivity.
    - intros p Ep. destruct (y_ka p Ep) as (Q1 & Q2 & Q3). auto.
    - rewrite y_va. discriminate.
    - intros Q Z. unfold late in Z. rewrite Q in Z. discriminate.
    - now rewrite y_maps.
    - intros j _. now rewrite y_maps.
    - intros i _. exists []. rewrite y_maps. split; [reflexivity|]. intros k p []. }
  pose proof (after_run grow mem ms h (length mem1) late T y_len Tl after (_, mem1, ms1) G) as G2. rewrite E3 in G2. clear G. cbn [snd after_ok] in G2.
  destruct G2.
  split; [reflexivity|]. split; [|split; [|split; [|split; [|split]]]].
  - intros Z. unfold entries_of. apply cells_same. intros i Hi. apply g_old; [exact (proj1 T)|]. cbn. lia.
  - unfold entries_of. apply ext_nth. intros i. destruct (Nat.lt_ge_cases i (sl_len (hd_t h) - 1)) as [Hi|Hi].
    + assert (FN : forall (l : list cell) n, i < n -> nth_error (firstn n l) i = nth_error l i).
      { clear. intros l n. revert i n. induction l as [|x l IH]; intros [|j] [|n] H; cbn; auto; try lia. apply IH. lia. }
      rewrite !FN, !load_cells by lia. apply g_old; [exact (proj1 T)|]. cbn. lia.
    + rewrite !nth_over; [reflexivity| |]; rewrite firstn_length; lia.
  - unfold entries_of. apply names_same. exact g_keys.
  - intros k. unfold find_in. rewrite g_map. reflexivity.
  - intros k Hk. unfold find_in. destruct (hd_m h) as [i|] eqn:Eh; [|reflexivity]. destruct (g_new i eq_refl) as (new & Nw & Ni). rewrite Nw.
    assert (Hl : forall p, In (k, p) new -> False).
    { intros p Hp. apply Hk. unfold entries_of. specialize (Ni k p Hp). unfold listed in Ni. destruct (b_st b2); try exact Ni. now apply in_skipn_removelast. }
    assert (As : assoc k (new ++ nth i ms []) = assoc k (nth i ms [])).
    { clear - Hl. induction new as [|[k1 p1] new IH]; [reflexivity|]. cbn [app assoc]. destruct (beqb_spec k k1) as [->|D].
      - destruct (Hl p1). now left.
      - apply IH. intros p Hp. apply (Hl p). now right. }
    rewrite As. destruct (assoc k (nth i ms [])) as [p|] eqn:Ep; [|reflexivity].
    destruct T as (T1 & T2 & T3). rewrite Eh in T3. destruct T3 as [T3 T4]. destruct (T4 k p Ep) as ((e & Lp) & Sp).
    rewrite g_old; [reflexivity|eapply load_lt; eauto|]. intros Ea. specialize (Sp Ea).
    destruct (Nat.lt_ge_cases (snd p) (sl_len (hd_t h) - late)) as [|Hge]; [assumption|]. exfalso. apply Hk.
    (* the name of the last entry *)
    apply (in_skipn_at _ _ (snd p)); [|exact Hge]. unfold entries_of. rewrite nth_error_map.
    assert (Hn : nth_error (map fst (sl_cells mem2 (hd_t (b_hd b2)))) (snd p) = Some k).
    { rewrite g_first by exact Sp. destruct p as [pa pi]. cbn [fst snd] in *. subst pa. now rewrite Lp. }
    rewrite nth_error_map in Hn. exact Hn.
  - intros h' T' Na. unfold entries_of. apply cells_same. intros i Hi. apply g_old; [exact (proj1 T')|]. cbn. intros; contradiction.
Qed.
Print Assumptions what_a_given_tree_keeps.

(** Every tree DecodeTree leaves is one that the theorem is about. *)
Lemma insert_nil grow t k e t' : 0 < length (ht_mem t) -> nth 0 (ht_mem t) [] = [] -> h_insert grow t k e = Ok t' ->
  0 < length (ht_mem t') /\ nth 0 (ht_mem t') [] = [].
Proof.
  intros P N E. unfold h_insert, h_assemble_entry in E. destruct (assoc k (ht_m t)); [discriminate|].
  destruct (h_append grow (ht_mem t) (ht_t t) (k, zero_entry)) as [mem s] eqn:A.
  assert (Q : nth 0 mem [] = [] /\ sl_array s <> 0 /\ 0 < length mem).
  { unfold h_append in A. destruct (Nat.ltb_spec (sl_len (ht_t t)) (sl_cap (ht_mem t) (ht_t t))) as [H|H]; injection A as <- <-; cbn.
    - assert (sl_array (ht_t t) <> 0). { intros Z. unfold sl_cap in H. rewrite Z, N in H. cbn in H. lia. }
      rewrite store_array, store_length by (cbn; lia). auto.
    - rewrite app_length. split; [|lia]. rewrite app_nth1 by lia. exact N. }
  destruct Q as (Q1 & Q2 & Q3). cbn [bind] in E. unfold h_assign_entry in E. cbn [ht_mem] in E.
  destruct (load mem (sl_array s, sl_len s - 1)) as [[k0 e0]|]; [|discriminate]. injection E as <-. cbn [ht_mem].
  rewrite store_array, store_length by (cbn; lia). auto.
Qed.

Theorem decoded_trees_can_be_given : forall S V (ops : rdops S V) grow s t,
  h_decode_tree ops grow s = Ok t ->
  nth 0 (ht_mem t) [] = [] /\ is_tree (ht_mem t) [ht_m t] (header_of t) /\
  (forall k, find_in (ht_mem t) [ht_m t] (header_of t) k =
             match h_lookup t k with Ok e => Some e | _ => None end).
Proof.
  intros S V ops grow s t E.
  assert (Nn : nth 0 (ht_mem t) [] = []).
  { unfold h_decode_tree in E. destruct (read_number ops s) as [[z s1]| | |]; try discriminate. cbn [bind] in E.
    assert (X : forall f h s1, 0 < length (ht_mem h) -> nth 0 (ht_mem h) [] = [] -> h_tree_loop ops grow f h s1 = Ok t -> nth 0 (ht_mem t) [] = []).
    { clear. induction f as [|f IH]; intros h s1 P N E; [discriminate|]. cbn [h_tree_loop] in E.
      destruct (decode_tree_entry ops s1) as [[[name e] s2]|x| |]; try discriminate.
      - destruct (h_insert grow h name e) as [h'| | |] eqn:Ei; try discriminate. destruct (insert_nil _ _ _ _ _ P N Ei) as [P' N']. exact (IH _ _ P' N' E).
      - destruct x; try discriminate. injection E as <-. exact N. }
    apply (X _ _ _) in E; auto. }
  pose proof (h_decode_tree_models ops grow s) as M. rewrite E in M.
  destruct (decode_tree ops BTree s) as [n| | |]; try contradiction. destruct M as (t0 & -> & M).
  split; [exact Nn|]. split.
  - split; [exact (mo_array _ _ M)|]. split; [exact (mo_len _ _ M)|]. cbn [header_of hd_m]. split; [cbn; lia|].
    intros k p Ep. cbn [nth] in Ep. pose proof (models_assoc t t0 k M) as A. rewrite Ep in A.
    destruct (assoc k (tr_m t0)) as [e|]; [|contradiction]. split; [now exists e|].
    apply (mo_spare _ _ M k). clear - Ep. induction (ht_m t) as [|[k1 p1] l IH]; [discriminate|]. cbn [assoc] in Ep.
    destruct (beqb_spec k k1) as [->|D]; [injection Ep as ->; now left|right; auto].
  - intros k. unfold find_in, h_lookup. cbn [header_of hd_m nth]. destruct (assoc k (ht_m t)) as [p|]; [|reflexivity].
    destruct (load (ht_mem t) p) as [[k0 e]|]; reflexivity.
Qed.
Print Assumptions decoded_trees_can_be_given.

(** ** What is not kept *)

(** Three entries in an array of four cells, which is how Go doubles an array. *)
Definition three : list (bytes * bytes * bytes) :=
  [(bs "100644", bs "a", repeat x00 20); (bs "100644", bs "b", repeat x01 20); (bs "40000", bs "c", repeat x02 20)].
Definition double (n : nat) : nat := n - 1.
Definition decoded_three : res htree :=
  h_decode_tree (stream_ops 64) double (mk (bs "99" ++ [NUL] ++ tree_text three) EEOF).
Definition some_entry : entry := {| e_mode := bs "120000"; e_hash := git_link (repeat x07 20) |}.

(** AssignNode of the tree and then of a map with a name the tree has: no call panics or
    fails, and looking that name up in the given tree, which nobody called, gives the new entry,
    while iterating over it still gives the old one. *)
Definition assign_a_map (k : bytes) (e : entry) : list tcall :=
  [CAssembleKey; CKey k; CAssembleValue; CValue e MValue; CFinish].
Theorem given_tree_keeps_its_lookups_refuted :
  ~ (forall grow s t k e b2 mem2 ms2 x,
       h_decode_tree (stream_ops 64) grow s = Ok t ->
       trun grow (CAssignTree (header_of t) :: assign_a_map k e) (new_builder, ht_mem t, [ht_m t]) =
         ([OK; OK; OK; OK; OK; OK], (b2, mem2, ms2)) ->
       find_in mem2 ms2 (header_of t) x = find_in (ht_mem t) [ht_m t] (header_of t) x).
Proof.
  intros X. specialize (X double (mk (bs "99" ++ [NUL] ++ tree_text three) EEOF)).
  fold decoded_three in X. destruct decoded_three as [t| | |] eqn:E; vm_compute in E; try discriminate. injection E as <-.
  specialize (X _ (bs "b") some_entry _ _ _ (bs "b") eq_refl eq_refl). vm_compute in X. discriminate X.
Qed.
Print Assumptions given_tree_keeps_its_lookups_refuted.

(** A builder that was asked for a key before it got the tree: finishing the entry
    overwrites the last entry of the given tree. *)
Definition late_calls (h : header) (k : bytes) (e : entry) : list tcall :=
  [CAssembleKey; CKey k; CAssignTree h; CAssembleValue; CValue e MValue].
Theorem given_tree_keeps_its_entries_refuted :
  ~ (forall grow s t k e b2 mem2 ms2,
       h_decode_tree (stream_ops 64) grow s = Ok t ->
       trun grow (late_calls (header_of t) k e) (new_builder, ht_mem t, [ht_m t]) =
         ([OK; OK; OK; OK; OK], (b2, mem2, ms2)) ->
       entries_of mem2 (header_of t) = entries_of (ht_mem t) (header_of t)).
Proof.
  intros X. specialize (X double (mk (bs "99" ++ [NUL] ++ tree_text three) EEOF)).
  fold decoded_three in X. destruct decoded_three as [t| | |] eqn:E; vm_compute in E; try discriminate. injection E as <-.
  specialize (X _ (bs "z") some_entry _ _ _ eq_refl eq_refl). vm_compute in X. discriminate X.
Qed.
Print Assumptions given_tree_keeps_its_entries_refuted.

(** Two builders given the same tree append to the same spare cell: the second changes
    what the first has built. *)
Definition add_entry (k : bytes) (e : entry) : list tcall := [CEntry k; CValue e MValue; CFinish].
Theorem two_builders_of_one_tree_refuted :
  ~ (forall grow s t k1 e1 k2 e2 b1 mem1 ms1 b2 mem2 ms2,
       h_decode_tree (stream_ops 64) grow s = Ok t ->
       trun grow (CAssignTree (header_of t) :: add_entry k1 e1) (new_builder, ht_mem t, [ht_m t]) =
         ([OK; OK; OK; OK], (b1, mem1, ms1)) ->
       trun grow (CAssignTree (header_of t) :: add_entry k2 e2) (new_builder, mem1, ms1) =
         ([OK; OK; OK; OK], (b2, mem2, ms2)) ->
       entries_of mem2 (b_hd b1) = entries_of mem1 (b_hd b1)).
Proof.
  intros X. specialize (X double (mk (bs "99" ++ [NUL] ++ tree_text three) EEOF)).
  fold decoded_three in X. destruct decoded_three as [t| | |] eqn:E; vm_compute in E; try discriminate. injection E as <-.
  specialize (X _ (bs "y") some_entry (bs "z") some_entry _ _ _ _ _ _ eq_refl eq_refl eq_refl). vm_compute in X. discriminate X.
Qed.
Print Assumptions two_builders_of_one_tree_refuted.

(** The hypotheses of [what_a_given_tree_keeps] hold, and nothing in it is empty: after
    an early and a late gift, the names beyond the given tree and what they look up. *)
Definition shown (w : list verdict * state) (h : header) : list verdict * list bytes * list bytes * list (option entry) :=
  let '(vs, (b, mem, ms)) := w in
  (vs, map fst (entries_of mem h), map fst (entries_of mem (b_hd b)), map (find_in mem ms h) [bs "a"; bs "b"; bs "c"; bs "d"]).
Example what_a_given_tree_keeps_applies :
  match decoded_three with
  | Ok t =>
      let h := header_of t in
      let old k := match h_lookup t k with Ok e => Some e | _ => None end in
      shown (trun double (CAssignTree h :: add_entry (bs "d") some_entry) (new_builder, ht_mem t, [ht_m t])) h =
        ([OK; OK; OK; OK], [bs "a"; bs "b"; bs "c"], [bs "a"; bs "b"; bs "c"; bs "d"],
         [old (bs "a"); old (bs "b"); old (bs "c"); Some some_entry]) /\
      shown (trun double (CAssignTree h :: assign_a_map (bs "b") some_entry) (new_builder, ht_mem t, [ht_m t])) h =
        ([OK; OK; OK; OK; OK; OK], [bs "a"; bs "b"; bs "c"], [bs "a"; bs "b"; bs "c"; bs "b"],
         [old (bs "a"); Some some_entry; old (bs "c"); None]) /\
      shown (trun double (late_calls h (bs "z") some_entry) (new_builder, ht_mem t, [ht_m t])) h =
        ([OK; OK; OK; OK; OK], [bs "a"; bs "b"; bs "c"], [bs "a"; bs "b"; bs "c"],
         [old (bs "a"); old (bs "b"); Some some_entry; None]) /\
      b_m (fst (fst (snd (trun double [CAssembleKey; CKey (bs "z")] (new_builder, ht_mem t, [ht_m t]))))) = MAbsent
  | _ => False
  end.
Proof. vm_compute. repeat split. Qed.

(** ** Other trees *)

(** A tree is apart from another if it has another array and another map, and its map points to none of the cells of
    the other's array. *)
Definition apart (ms : maps) (h g : header) : Prop :=
  sl_array (hd_t h) <> sl_array (hd_t g) /\
  match hd_m h with
  | None => True
  | Some i => hd_m g <> Some i /\ forall k p, assoc k (nth i ms []) = Some p -> fst p <> sl_array (hd_t g)
  end.

Section Untouched.
Variables (grow : nat -> nat) (mem0 : memory) (ms0 : maps) (ok_array ok_map : nat -> Prop).
Hypothesis some_array : 0 < length mem0.
Hypothesis new_arrays : forall a, length mem0 <= a -> ok_array a.
Hypothesis new_maps : forall i, length ms0 <= i -> ok_map i.
Definition allowed (h : header) : Prop :=
  (sl_array (hd_t h) = 0 \/ ok_array (sl_array (hd_t h))) /\ match hd_m h with None => True | Some i => ok_map i end.
Record kept (w : state) : Prop := Kept {
  k_mem : length mem0 <= length (snd (fst w));
  k_ms : length ms0 <= length (snd w);
  k_hd : allowed (b_hd (fst (fst w)));
  k_ka : forall p, b_ka (fst (fst w)) = Some p -> fst p = 0 \/ ok_array (fst p);
  k_va : forall p, b_va (fst (fst w)) = Some p -> fst p = 0 \/ ok_array (fst p);
  k_nil : nth 0 (snd (fst w)) [] = [];
  k_arrays : forall a, a < length mem0 -> ~ ok_array a -> nth a (snd (fst w)) [] = nth a mem0 [];
  k_maps : forall i, i < length ms0 -> ~ ok_map i -> nth i (snd w) [] = nth i ms0 [] }.
Lemma kept_store b mem ms p c0 c : kept (b, mem, ms) -> load mem p = Some c0 -> fst p = 0 \/ ok_array (fst p) -> kept (b, store mem p c, ms).
Proof.
  intros [A B C D E F G I] L P. cbn [fst snd] in *.
  assert (fst p <> 0) as Z.
  { intros Z. unfold load in L. destruct (nth_error mem (fst p)) as [a|] eqn:Q; [|discriminate]. rewrite Z in Q. rewrite nth_err, Q in F. subst a. destruct (snd p); discriminate L. }
  split; cbn [fst snd]; auto.
  - now rewrite store_length.
  - now rewrite store_array by exact Z.
  - intros a La Na. rewrite store_array; [now apply G|]. intros <-. destruct P; contradiction.
Qed.
Lemma kept_append b mem ms s c mem' s' : kept (b, mem, ms) -> sl_array s = 0 \/ ok_array (sl_array s) -> h_append grow mem s c = (mem', s') ->
  kept (b, mem', ms) /\ (sl_array s' = 0 \/ ok_array (sl_array s')).
Proof.
  intros K P A. unfold h_append in A. destruct (Nat.ltb_spec (sl_len s) (sl_cap mem s)) as [L|L]; injection A as <- <-; cbn [sl_array].
  - split; [|exact P]. destruct (nth_error (nth (sl_array s) mem []) (sl_len s)) as [c0|] eqn:Q; [|apply nth_error_None in Q; unfold sl_cap in L; lia].
    apply (kept_store b mem ms (sl_array s, sl_len s) c0 c K); [|exact P]. unfold load. cbn [fst snd]. rewrite nth_err in Q. destruct (nth_error mem (sl_array s)); [exact Q|destruct (sl_len s); discriminate Q].
  - destruct K as [A B C D E F G I]. cbn [fst snd] in *. split; [|right; apply new_arrays; lia]. split; cbn [fst snd]; auto.
    + rewrite app_length. lia.
    + rewrite app_nth1 by lia. exact F.
    + intros a La Na. rewrite app_nth1 by lia. now apply G.
Qed.
Lemma kept_builder b b' mem ms : kept (b, mem, ms) -> allowed (b_hd b') ->
  (forall p, b_ka b' = Some p -> b_ka b = Some p \/ fst p = 0 \/ ok_array (fst p)) ->
  (forall p, b_va b' = Some p -> b_va b = Some p \/ fst p = 0 \/ ok_array (fst p)) -> kept (b', mem, ms).
Proof.
  intros [A B C D E F G I] H Ka Va. cbn [fst snd] in *. split; cbn [fst snd]; auto.
  - intros p Q. destruct (Ka p Q); auto.
  - intros p Q. destruct (Va p Q); auto.
Qed.
Lemma kept_bind b mem ms i k p : kept (b, mem, ms) -> ok_map i -> kept (b, mem, bind_key ms i k p).
Proof.
  intros [A B C D E F G I] H. cbn [fst snd] in *. split; cbn [fst snd]; auto.
  - now rewrite bind_key_length.
  - intros j Lj Nj. rewrite bind_key_other; [now apply I|]. intros <-. contradiction.
Qed.
Lemma kept_go b b' mem ms : kept (b, mem, ms) -> go_on b = Some b' -> kept (b', mem, ms).
Proof.
  intros K E. unfold go_on in E. destruct (b_st b), (b_cm b); try discriminate E; injection E as <-; try exact K;
    (apply (kept_builder _ _ _ _ K); cbn; [exact (k_hd _ K)|auto|discriminate]).
Qed.
Lemma kept_step c w : kept w -> (forall h, c = CAssignTree h -> allowed h) -> kept (snd (tstep grow c w)).
Proof.
  intros K Hc. destruct w as [[b mem] ms]. cbn [tstep]. destruct c as [hint|h| |k| |k|e m| ].
  - destruct (b_m b); try exact K. cbn [snd]. destruct K as [A B C D E F G I]. cbn [fst snd] in *. split; cbn [fst snd b_hd b_ka b_va]; auto.
    + rewrite app_length. lia.
    + rewrite app_length. lia.
    + split; cbn; [right; now apply new_arrays|now apply new_maps].
    + rewrite app_nth1 by lia. exact F.
    + intros a La Na. rewrite app_nth1 by lia. now apply G.
    + intros i Li Ni. rewrite app_nth1 by lia. now apply I.
  - destruct (b_m b); try exact K. cbn [snd]. apply (kept_builder _ _ _ _ K); cbn; auto.
  - destruct (go_on b) as [b'|] eqn:Q; [|exact K]. pose proof (kept_go _ _ _ _ K Q) as K'. clear K Q b. destruct (h_append grow mem (hd_t (b_hd b')) zero_cell) as [mem' s] eqn:A.
    destruct (kept_append _ _ _ _ _ _ _ K' (proj1 (k_hd _ K')) A) as [K2 P2]. cbn [snd]. apply (kept_builder _ _ _ _ K2); cbn.
    + split; cbn; [exact P2|exact (proj2 (k_hd _ K'))].
    + intros p X. injection X as <-. right. exact P2.
    + auto.
  - destruct (b_ka b) as [p|] eqn:Q; [|exact K]. assert (fst p = 0 \/ ok_array (fst p)) as P by exact (k_ka _ K p Q).
    destruct (b_cm b); try exact K; (destruct (load mem p) as [[k0 e]|] eqn:L; [|exact K]); cbn [snd];
      (refine (kept_builder _ _ _ _ (kept_store _ _ _ _ _ (k, e) K L P) _ _ _); cbn; [exact (k_hd _ K)|rewrite Q; auto|auto]).
  - destruct (b_st b) eqn:St; try exact K.
    + destruct (b_cm b) eqn:Cm; try exact K.
      assert (forall st cm, kept (TB (b_hd b) (b_m b) st cm None (b_va b), mem, ms)) as X.
      { intros. apply (kept_builder _ _ _ _ K); cbn; [exact (k_hd _ K)|discriminate|auto]. }
      destruct (sl_len (hd_t (b_hd b))) eqn:Ln; [apply X|]. destruct (load mem (last_cell (hd_t (b_hd b)))) as [[k e]|]; [|apply X].
      destruct (hd_m (b_hd b)) as [i|] eqn:Hm; [|apply X]. cbn [snd]. apply kept_bind.
      * apply (kept_builder _ _ _ _ K); cbn; [exact (k_hd _ K)|discriminate|]. intros p E. injection E as <-. right. exact (proj1 (k_hd _ K)).
      * pose proof (proj2 (k_hd _ K)) as Y. cbn [fst] in Y. now rewrite Hm in Y.
    + cbn [snd]. apply (kept_builder _ _ _ _ K); cbn; auto. exact (k_hd _ K).
  - destruct (go_on b) as [b'|] eqn:Q; [|exact K]. pose proof (kept_go _ _ _ _ K Q) as K'. clear K Q b.
    destruct (match hd_m (b_hd b') with None => None | Some i => assoc k (nth i ms []) end); [exact K'|].
    destruct (h_append grow mem (hd_t (b_hd b')) (k, zero_entry)) as [mem' s] eqn:A.
    destruct (kept_append _ _ _ _ _ _ _ K' (proj1 (k_hd _ K')) A) as [K2 P2]. pose proof (proj2 (k_hd _ K')) as M. cbn [fst] in M.
    destruct (hd_m (b_hd b')) as [i|] eqn:Hm; cbn [snd].
    + apply kept_bind; [|exact M]. apply (kept_builder _ _ _ _ K2); cbn; [split; cbn; auto|auto|]. intros p X. injection X as <-. right. exact P2.
    + apply (kept_builder _ _ _ _ K2); cbn; [split; cbn; auto|auto|auto].
  - assert (forall mem', kept (b, mem', ms) -> kept (TB (b_hd b) (b_m b) (b_st b) m (b_ka b) (b_va b), mem', ms)) as X.
    { intros mem' K'. apply (kept_builder _ _ _ _ K'); cbn; auto. exact (k_hd _ K). }
    destruct (b_va b) as [p|] eqn:Q; [|apply X, K]. destruct (load mem p) as [[k0 e0]|] eqn:L; [|apply X, K]. cbn [snd]. apply X.
    apply (kept_store _ _ _ _ _ (k0, e) K L). exact (k_va _ K p Q).
  - destruct (go_on b) as [b'|] eqn:Q; [|exact K]. pose proof (kept_go _ _ _ _ K Q) as K'. cbn [snd]. apply (kept_builder _ _ _ _ K'); cbn; auto. exact (k_hd _ K').
Qed.
Lemma kept_run cs : forall w, kept w -> (forall h, In (CAssignTree h) cs -> allowed h) -> kept (snd (trun grow cs w)).
Proof.
  induction cs as [|c cs IH]; intros w K Hc; [exact K|]. cbn [trun]. pose proof (kept_step c w K) as K1. destruct (tstep grow c w) as [v w'].
  pose proof (IH w') as K2. destruct (trun grow cs w') as [vs w'']. cbn [snd] in *. apply K2.
  - apply K1. intros h ->. apply Hc. now left.
  - intros h Hh. apply Hc. now right.
Qed.
End Untouched.

(** Whatever is called on a new builder, a tree that is apart from those given to it stays as it was: for
    iteration and for lookups. *)
Theorem other_trees_stay : forall grow cs mem ms vs b mem' ms' h,
  nth 0 mem [] = [] -> is_tree mem ms h ->
  (forall g, In (CAssignTree g) cs -> apart ms h g) ->
  trun grow cs (new_builder, mem, ms) = (vs, (b, mem', ms')) ->
  entries_of mem' h = entries_of mem h /\ forall k, find_in mem' ms' h k = find_in mem ms h k.
Proof.
  intros grow cs mem ms vs b mem' ms' h N (T1 & T2 & T3) A E.
  set (oka := fun a => length mem <= a \/ exists g, In (CAssignTree g) cs /\ sl_array (hd_t g) = a).
  set (okm := fun i => length ms <= i \/ exists g, In (CAssignTree g) cs /\ hd_m g = Some i).
  assert (kept mem ms oka okm (b, mem', ms')) as K.
  { replace (b, mem', ms') with (snd (trun grow cs (new_builder, mem, ms))) by (now rewrite E). apply kept_run.
    - lia.
    - intros a Ha. now left.
    - intros i Hi. now left.
    - split; cbn [fst snd new_builder b_hd b_ka b_va]; auto; try discriminate. split; cbn; auto.
    - intros g Hg. split; [right; right; now exists g|]. destruct (hd_m g) as [i|] eqn:Q; [|exact I]. right. now exists g. }
  destruct K as [_ _ _ _ _ _ Ka Km]. cbn [fst snd] in *.
  assert (forall a, a < length mem -> (forall g, In (CAssignTree g) cs -> a <> sl_array (hd_t g)) -> nth a mem' [] = nth a mem []) as Sa.
  { intros a La D. apply Ka; [exact La|]. intros [Q|(g & Hg & Q)]; [lia|]. exact (D g Hg (eq_sym Q)). }
  split.
  - unfold entries_of, sl_cells. rewrite Sa; [reflexivity|exact T1|]. intros g Hg. exact (proj1 (A g Hg)).
  - intros k. unfold find_in. destruct (hd_m h) as [i|] eqn:Hm; [|reflexivity]. destruct T3 as [Li T3].
    rewrite (Km i Li).
    + destruct (assoc k (nth i ms [])) as [p|] eqn:Q; [|reflexivity]. destruct (T3 k p Q) as [[e L] _]. pose proof (load_lt _ _ _ L) as Lp.
      assert (load mem' p = load mem p) as ->; [|reflexivity].
      assert (nth (fst p) mem' [] = nth (fst p) mem []) as X.
      { apply Sa; [exact Lp|]. intros g Hg. destruct (A g Hg) as [_ Y]. rewrite Hm in Y. exact (proj2 Y k p Q). }
      rewrite !nth_err in X. unfold load in *. destruct (nth_error mem (fst p)) as [a|]; [|discriminate L].
      destruct (nth_error mem' (fst p)) as [a'|]; [now rewrite X|]. subst a. destruct (snd p); discriminate L.
    + intros [Q|(g & Hg & Q)]; [lia|]. destruct (A g Hg) as [_ Y]. rewrite Hm in Y. exact (proj1 Y Q).
Qed.
Print Assumptions other_trees_stay.
(** A decoded tree while a builder makes a tree with the same name, with room for one entry, and one more. *)
Example other_trees_stay_applies :
  exists t, decoded_three = Ok t /\
  let '(vs, (b, mem, ms)) := trun double [CBegin 1; CEntry (bs "b"); CValue some_entry MValue; CEntry (bs "q"); CValue some_entry MValue; CFinish] (new_builder, ht_mem t, [ht_m t]) in
  forallb (fun v => match v with OK => true | _ => false end) vs = true /\
  find_in mem ms (b_hd b) (bs "b") = Some some_entry /\
  find_in mem ms (header_of t) (bs "b") = Some {| e_mode := bs "100644"; e_hash := git_link (repeat x01 20) |}.
Proof. eexists. split; [vm_compute; reflexivity|]. vm_compute. auto. Qed.
