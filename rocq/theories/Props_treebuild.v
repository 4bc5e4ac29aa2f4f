(** C70: in a tree made with a builder, a lookup finds the last entry of the name. *)
From Verif Require Import Base GoStr Cid Types Nodes Reader Assemble Decode HeaderSpec Spec Invariants
  TreeHeap TreeHeapFacts TreeShare TreeShareFacts TreeAgreeFacts Props_nodes Props_treeshare.
From Verif Require Builder.
Import Builder (maybe(..), mstate(..), verdict(..)).

(** ** Specification: looking a name up gives the last entry that has it. *)
Definition reads_last (mem : memory) (ms : maps) (h : header) : Prop :=
  forall k,
    (forall e, find_in mem ms h k = Some e <->
       exists l1 l2, entries_of mem h = l1 ++ (k, e) :: l2 /\ ~ In k (map fst l2)) /\
    (find_in mem ms h k = None <-> ~ In k (map fst (entries_of mem h))).

Lemma last_assoc (l : list cell) k e :
  assoc k (rev l) = Some e <-> exists l1 l2, l = l1 ++ (k, e) :: l2 /\ ~ In k (map fst l2).
Proof.
  induction l as [|[k1 e1] l IH] using rev_ind.
  - cbn. split; [discriminate|]. intros (l1 & l2 & E & _). destruct l1; discriminate.
  - rewrite rev_app_distr. cbn [rev app assoc]. destruct (beqb_spec k k1) as [->|D].
    + split.
      * intros E. injection E as <-. exists l, []. split; [reflexivity|cbn; tauto].
      * intros (l1 & l2 & E & N). destruct l2 as [|x l2 _] using rev_ind.
        -- apply app_inj_tail in E as [_ E]. congruence.
        -- replace (l1 ++ (k1, e) :: l2 ++ [x]) with ((l1 ++ (k1, e) :: l2) ++ [x]) in E by now rewrite <- app_assoc.
           apply app_inj_tail in E as [_ <-]. contradiction N. rewrite map_app. apply in_or_app. right. now left.
    + rewrite IH. split.
      * intros (l1 & l2 & -> & N). exists l1, (l2 ++ [(k1, e1)]). split; [now rewrite <- app_assoc|].
        rewrite map_app. intros Hi. apply in_app_or in Hi as [Hi|[Hi|[]]]; [contradiction|]. cbn in Hi. congruence.
      * intros (l1 & l2 & E & N). destruct l2 as [|x l2 _] using rev_ind.
        -- apply app_inj_tail in E as [_ E]. congruence.
        -- replace (l1 ++ (k, e) :: l2 ++ [x]) with ((l1 ++ (k, e) :: l2) ++ [x]) in E by now rewrite <- app_assoc.
           apply app_inj_tail in E as [-> _]. exists l1, l2. split; [reflexivity|]. intros Hi. apply N. rewrite map_app. apply in_or_app. now left.
Qed.

Lemma assoc_none {A} k (l : list (bytes * A)) : assoc k l = None <-> ~ In k (map fst l).
Proof.
  induction l as [|[k1 e1] l IH]; cbn [assoc map fst In]; [tauto|]. destruct (beqb_spec k k1) as [->|D]; [split; [discriminate|tauto]|].
  rewrite IH. split; [intros N [E|E]; [congruence|contradiction]|tauto].
Qed.

Lemma reads_last_assoc mem ms h : reads_last mem ms h <-> forall k, find_in mem ms h k = assoc k (rev (entries_of mem h)).
Proof.
  split.
  - intros R k. destruct (R k) as [R1 R2]. destruct (assoc k (rev (entries_of mem h))) as [e|] eqn:E.
    + apply R1. now apply last_assoc.
    + apply R2. apply assoc_none in E. rewrite map_rev in E. intros Hi. apply E. now apply in_rev in Hi.
  - intros F k. rewrite F. split.
    + intros e. apply last_assoc.
    + rewrite assoc_none, map_rev. now rewrite <- in_rev.
Qed.

(** Any calls on a new builder, which may be given trees of which this is true: as soon
    as it has a map (after BeginMap, or from such a tree) it is true of the builder's tree,
    whenever no key is half finished. *)
Theorem lookup_finds_the_last : forall grow mem ms cs vs b mem' ms',
  nth 0 mem [] = [] -> 0 < length mem ->
  (forall h, In (CAssignTree h) cs -> is_tree mem ms h /\ reads_last mem ms h) ->
  trun grow cs (new_builder, mem, ms) = (vs, (b, mem', ms')) ->
  hd_m (b_hd b) <> None -> b_st b <> MidKey ->
  reads_last mem' ms' (b_hd b).
Proof.
  intros grow mem ms cs vs b mem' ms' N P T E Hm Hs.
  assert (X : forall cs w, before_ok mem ms w -> fine w ->
            (forall h, In (CAssignTree h) cs -> is_tree mem ms h /\ reads_last mem ms h) -> fine (snd (trun grow cs w))).
  { clear - P. induction cs as [|c cs IH]; intros w B F T; [exact F|]. cbn [trun].
    assert (F' : fine (snd (tstep grow c w))).
    { apply (fine_step grow mem ms); auto. intros h ->. destruct (T h (or_introl eq_refl)) as [T1 T2]. split; [exact T1|]. now apply reads_last_assoc. }
    pose proof (before_step grow mem ms P c w B) as B'. destruct (tstep grow c w) as [v w']. cbn [snd] in *.
    specialize (IH w' B' F' (fun h Hi => T h (or_intror Hi))). destruct (trun grow cs w') as [vs w'']. exact IH. }
  specialize (X cs (new_builder, mem, ms) (before_new mem ms N P) ltac:(intros i Q; discriminate Q) T). rewrite E in X. cbn [snd fine] in X.
  destruct (hd_m (b_hd b)) as [i|] eqn:Eh; [|contradiction]. destruct (X i eq_refl) as (pend & Ag).
  apply reads_last_assoc. intros k. unfold find_in. rewrite Eh. destruct Ag.
  assert (pend = false) as -> by (destruct pend; [destruct (a_pend eq_refl); contradiction|reflexivity]).
  specialize (a_find k). unfold found in a_find. rewrite a_find. unfold entries_of. cbn [held]. now rewrite all_cells by lia.
Qed.
Print Assumptions lookup_finds_the_last.

(** If AssembleKey is not used, and no given tree has a name twice, no name comes twice. *)
Theorem assemble_entry_keeps_names_apart : forall grow mem ms cs vs b mem' ms',
  nth 0 mem [] = [] -> 0 < length mem ->
  (forall h, In (CAssignTree h) cs -> is_tree mem ms h /\ reads_last mem ms h /\ NoDup (map fst (entries_of mem h))) ->
  ~ In CAssembleKey cs ->
  trun grow cs (new_builder, mem, ms) = (vs, (b, mem', ms')) ->
  hd_m (b_hd b) <> None ->
  NoDup (map fst (entries_of mem' (b_hd b))) /\ b_st b <> MidKey.
Proof.
  intros grow mem ms cs vs b mem' ms' N P T NK E Hm.
  set (apart := fun w : state => let '(b, mem', ms') := w in b_st b <> MidKey /\ (hd_m (b_hd b) <> None -> NoDup (map fst (entries_of mem' (b_hd b))))).
  assert (X : forall cs w, before_ok mem ms w -> fine w -> apart w ->
            (forall h, In (CAssignTree h) cs -> is_tree mem ms h /\ reads_last mem ms h /\ NoDup (map fst (entries_of mem h))) ->
            ~ In CAssembleKey cs -> apart (snd (trun grow cs w))).
  { clear - P. induction cs as [|c cs IH]; intros w B F A T NK; [exact A|]. cbn [trun].
    assert (F' : fine (snd (tstep grow c w))).
    { apply (fine_step grow mem ms); auto. intros h ->. destruct (T h (or_introl eq_refl)) as (T1 & T2 & _). split; [exact T1|]. now apply reads_last_assoc. }
    pose proof (before_step grow mem ms P c w B) as B'.
    assert (A' : apart (snd (tstep grow c w))).
    { clear IH F' B'. destruct w as [[b m] mm]. destruct A as [A1 A2]. destruct c as [hint|h| |k| |k|e x|]; cbn [tstep].
      - destruct (b_m b); try (split; [exact A1|exact A2]). cbn [snd apart b_st b_hd]. split; [exact A1|]. intros _. constructor.
      - destruct (b_m b) eqn:Em; try (split; [exact A1|exact A2]). cbn [snd apart b_st b_hd]. split; [exact A1|]. intros _.
        destruct (T h (or_introl eq_refl)) as (T1 & _ & T3). destruct (B Em). unfold entries_of. rewrite (cells_same mem); [exact T3|]. intros i _. apply y_old. exact (proj1 T1).
      - contradiction NK. now left.
      - destruct (b_ka b) as [p|] eqn:Ek; [|split; [exact A1|exact A2]].
        assert (Q : hd_m (b_hd b) = None). { destruct (hd_m (b_hd b)) as [i|] eqn:Eh; [|reflexivity]. destruct (F i Eh) as (pend & []). destruct (a_ka p Ek). contradiction. }
        destruct (b_cm b); try (split; [exact A1|exact A2]); (destruct (load m p) as [[k0 e0]|]; [|split; [exact A1|exact A2]]); cbn [snd apart b_st b_hd]; (split; [exact A1|]); intros; contradiction.
      - destruct (b_st b) eqn:Es, (b_cm b); try contradiction; try (cbn [snd apart b_st b_hd]; split; [congruence|exact A2]).
      - destruct (go_on b) as [b'|] eqn:G; [|split; [exact A1|exact A2]]. destruct (go_on_same _ _ G) as (Eh & _ & _ & Ei & _).
        destruct (match hd_m (b_hd b') with None => None | Some i => assoc k (nth i mm []) end) as [p|] eqn:Ex.
        { cbn [snd apart]. rewrite Eh, Ei. split; [discriminate|exact A2]. }
        destruct (h_append grow m (hd_t (b_hd b')) (k, zero_entry)) as [m' s] eqn:A.
        destruct (hd_m (b_hd b')) as [i|] eqn:Em; cbn [snd apart b_st b_hd hd_m].
        2: { split; [discriminate|]. intros Q. contradiction Q. reflexivity. }
        split; [discriminate|]. intros _. destruct (F i ltac:(rewrite <- Eh; exact Em)) as (pend & Ag).
        destruct (agree_go _ _ _ _ _ _ Ag G) as (Ag' & _). destruct (agree_append _ _ _ _ _ _ _ _ Ag' A) as (_ & _ & _ & A4 & _ & _ & A7).
        unfold entries_of. cbn [hd_t]. rewrite A4, map_app. cbn [map fst].
        assert (Nk : ~ In k (map fst (sl_cells m (hd_t (b_hd b'))))).
        { specialize (A7 k). unfold found in A7. rewrite Ex in A7. symmetry in A7. apply assoc_none in A7. rewrite map_rev in A7. intros Hi. apply A7. now apply in_rev in Hi. }
        assert (Nd : NoDup (map fst (sl_cells m (hd_t (b_hd b'))))) by (rewrite Eh; apply A2; rewrite <- Eh; congruence).
        apply NoDup_rev in Nd. rewrite <- (rev_involutive (_ ++ [k])). apply NoDup_rev. rewrite rev_app_distr. cbn. constructor; [now rewrite <- in_rev|exact Nd].
      - destruct (b_va b) as [p|]; [|split; [exact A1|exact A2]]. destruct (load m p) as [[k0 e0]|] eqn:El; [|split; [exact A1|exact A2]].
        cbn [snd apart b_st b_hd]. split; [exact A1|]. intros Q. unfold entries_of in *. rewrite (names_same m); [exact (A2 Q)|]. intros i _. eapply store_same_key; eauto.
      - destruct (go_on b) as [b'|] eqn:G; [|split; [exact A1|exact A2]]. destruct (go_on_same _ _ G) as (Eh & _). cbn [snd apart b_st b_hd]. rewrite Eh. split; [discriminate|exact A2]. }
    destruct (tstep grow c w) as [v w']. cbn [snd] in *.
    specialize (IH w' B' F' A' (fun h Hi => T h (or_intror Hi)) (fun Hi => NK (or_intror Hi))). destruct (trun grow cs w') as [vs w'']. exact IH. }
  assert (A0 : apart (new_builder, mem, ms)) by (split; [discriminate|intros Q; contradiction Q; reflexivity]).
  specialize (X cs (new_builder, mem, ms) (before_new mem ms N P) ltac:(intros i Q; discriminate Q) A0 T NK). rewrite E in X. destruct X as [X1 X2]. auto.
Qed.
Print Assumptions assemble_entry_keeps_names_apart.

(** The trees of DecodeTree are such trees. *)
Theorem decoded_trees_read_last : forall S V (ops : rdops S V) grow s t,
  h_decode_tree ops grow s = Ok t ->
  reads_last (ht_mem t) [ht_m t] (header_of t) /\ NoDup (map fst (entries_of (ht_mem t) (header_of t))).
Proof.
  intros S V ops grow s t E. destruct (decoded_trees_can_be_given _ _ _ _ _ _ E) as (_ & _ & Fi).
  pose proof (h_decode_tree_models ops grow s) as M. rewrite E in M.
  destruct (decode_tree ops BTree s) as [n| | |] eqn:D; try contradiction. destruct M as (t0 & -> & M). apply decode_tree_inv in D.
  assert (Ee : entries_of (ht_mem t) (header_of t) = tr_t t0) by exact (mo_table _ _ M).
  split; [|rewrite Ee; apply D].
  apply reads_last_assoc. intros k. rewrite Fi, Ee, (models_lookup _ _ _ M). destruct D as [D1 D2 _]. rewrite D1. destruct (assoc k (rev (tr_t t0))); reflexivity.
Qed.
Print Assumptions decoded_trees_read_last.

(** Without a map it is not so: an entry can be added, and the tree finished, before
    BeginMap, if a panic is recovered on the way; it is then iterated over, but never found. *)
Theorem finished_trees_read_last_refuted :
  ~ (forall grow cs vs b mem ms,
       trun grow cs (new_builder, [[]], []) = (vs, (b, mem, ms)) -> b_m b = MValue -> reads_last mem ms (b_hd b)).
Proof.
  intros X. specialize (X double [CEntry (bs "a"); CValue some_entry MValue; CFinish] _ _ _ _ eq_refl eq_refl).
  apply reads_last_assoc with (k := bs "a") in X. vm_compute in X. discriminate X.
Qed.
Print Assumptions finished_trees_read_last_refuted.

(** Keys may repeat, with AssembleKey: iteration then gives both entries, and lookup the later.
    In between, arrays of capacity 1, 2 and 4 were left behind. *)
Definition add_key (k : bytes) (e : entry) : list tcall := [CAssembleKey; CKey k; CAssembleValue; CValue e MValue].
Definition other_entry : entry := {| e_mode := bs "100755"; e_hash := git_link (repeat x09 20) |}.
Example lookup_finds_the_last_applies :
  let '(vs, (b, mem, ms)) :=
    trun double ([CBegin 1] ++ add_key (bs "a") some_entry ++ add_key (bs "b") some_entry ++ add_key (bs "a") other_entry ++ [CFinish])
      (new_builder, [[]], []) in
  forallb (fun v => match v with OK => true | _ => false end) vs = true /\ b_st b = Finished /\ b_m b = MValue /\
  entries_of mem (b_hd b) = [(bs "a", some_entry); (bs "b", some_entry); (bs "a", other_entry)] /\
  find_in mem ms (b_hd b) (bs "a") = Some other_entry /\ find_in mem ms (b_hd b) (bs "b") = Some some_entry /\
  find_in mem ms (b_hd b) (bs "c") = None.
Proof. vm_compute. repeat split. Qed.
Example assemble_entry_keeps_names_apart_applies :
  let '(vs, (b, mem, ms)) :=
    trun double ([CBegin 0; CEntry (bs "a"); CValue some_entry MValue; CEntry (bs "b"); CValue some_entry MValue; CEntry (bs "a"); CFinish])
      (new_builder, [[]], []) in
  vs = [OK; OK; OK; OK; OK; ERR; OK] /\ hd_m (b_hd b) <> None /\ entries_of mem (b_hd b) = [(bs "a", some_entry); (bs "b", some_entry)].
Proof. vm_compute. repeat split. discriminate. Qed.
