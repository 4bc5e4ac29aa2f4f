(** Whole runs of the phases of BuilderSpec.v. *)
From Verif Require Import Base Builder BuilderSpec BuilderFacts.

Notation calls := (list (list nat * meth)) (only parsing).

(** ** The machine follows the phases in every run *)
Lemma run_follows repr t : pointers_to_structs t -> forall cs b x wv mv, rep repr t x wv mv b -> all_held t b cs ->
  let '(vs, (x1, wv1, mv1)) := run repr t (x, wv, mv) cs in
  vs = fst (spec_run t b cs) /\ rep repr t x1 wv1 mv1 (snd (spec_run t b cs)).
Proof.
  intros P. induction cs as [|[p m] cs IH]; intros b x wv mv R H; cbn [run spec_run]; [auto|].
  destruct H as [Hh Ha]. cbn [fst snd] in *. unfold step. cbn [fst snd].
  pose proof (call_follows repr p t m x wv mv b P R Hh) as F.
  destruct (call repr t p m x wv mv) as [r [[x1 wv1] mv1]]. destruct (spec t p m b) as [r' b1]. cbn [follows fst snd] in F, Ha.
  destruct F as (-> & R1 & _). specialize (IH b1 x1 wv1 mv1 R1 Ha).
  destruct (run repr t (x1, wv1, mv1) cs) as [vs [[x2 wv2] mv2]]. destruct (spec_run t b1 cs) as [vs' b2]. cbn [fst snd] in *.
  destruct IH as [-> R2]. auto.
Qed.

Definition content (b : bst) : option val := match b with Full v _ => Some v | _ => None end.
Lemma rep_build repr t x wv mv b : rep repr t x wv mv b -> build (x, wv, mv) = content b.
Proof.
  intros R. pose proof (rep_maybe repr t x wv mv b R) as ->. cbn [build]. destruct b; try reflexivity.
  cbn [maybe_in content]. destruct R as (_ & _ & _ & T & _). exact T.
Qed.

Lemma new_run repr t cs : pointers_to_structs t -> all_held t Fresh cs ->
  let '(vs, w) := run repr t (new_builder t) cs in
  vs = fst (spec_run t Fresh cs) /\ build w = content (snd (spec_run t Fresh cs)) /\
  (let '(x, wv, mv) := w in rep repr t x wv mv (snd (spec_run t Fresh cs))).
Proof.
  intros P H. pose proof (new_builder_rep repr t) as R. destruct (new_builder t) as [[x wv] mv].
  pose proof (run_follows repr t P cs Fresh x wv mv R H) as F. destruct (run repr t (x, wv, mv) cs) as [vs [[x1 wv1] mv1]].
  destruct F as [F1 F2]. split; [assumption|]. split; [|assumption]. now apply rep_build with (repr := repr) (t := t).
Qed.

(** ** Runs in pieces *)
Lemma run_app repr t cs ds : forall w, run repr t w (cs ++ ds) =
  let '(vs, w1) := run repr t w cs in let '(us, w2) := run repr t w1 ds in (vs ++ us, w2).
Proof.
  induction cs as [|c cs IH]; intros w; cbn [run app]; [now destruct (run repr t w ds)|].
  destruct (step repr t w c) as [v w1]. rewrite IH. destruct (run repr t w1 cs) as [vs w2]. now destruct (run repr t w2 ds).
Qed.
Lemma spec_run_app t cs ds : forall b, spec_run t b (cs ++ ds) =
  let '(vs, b1) := spec_run t b cs in let '(us, b2) := spec_run t b1 ds in (vs ++ us, b2).
Proof.
  induction cs as [|c cs IH]; intros b; cbn [spec_run app]; [now destruct (spec_run t b ds)|].
  destruct (spec t (fst c) (snd c) b) as [v b1]. rewrite IH. destruct (spec_run t b1 cs) as [vs b2]. now destruct (spec_run t b2 ds).
Qed.
Lemma all_held_app t cs ds : forall b, all_held t b (cs ++ ds) <-> all_held t b cs /\ all_held t (snd (spec_run t b cs)) ds.
Proof.
  induction cs as [|c cs IH]; intros b; cbn [all_held spec_run app]; [cbn; tauto|].
  rewrite IH. destruct (spec t (fst c) (snd c) b) as [v b1]. cbn [snd].
  destruct (spec_run t b1 cs) as [vs b2] eqn:E. cbn [snd]. tauto.
Qed.

(** ** The documented order is accepted *)
Definition accepts (t : ty) (b : bst) (cs : calls) (b1 : bst) : Prop :=
  all_held t b cs /\ spec_run t b cs = (map (fun _ => OK) cs, b1).

Lemma accepts_nil t b : accepts t b [] b.
Proof. split; [exact I|reflexivity]. Qed.
Lemma accepts_cons t b c cs b1 b2 : held t (fst c) (snd c) b -> spec t (fst c) (snd c) b = (OK, b1) -> accepts t b1 cs b2 -> accepts t b (c :: cs) b2.
Proof.
  intros H E [A1 A2]. split.
  - cbn [all_held]. rewrite E. auto.
  - cbn [spec_run map]. now rewrite E, A2.
Qed.
Lemma accepts_app t b cs ds b1 b2 : accepts t b cs b1 -> accepts t b1 ds b2 -> accepts t b (cs ++ ds) b2.
Proof.
  intros [A1 A2] [B1 B2]. split.
  - apply all_held_app. rewrite A2. auto.
  - rewrite spec_run_app, A2, B2, map_app. reflexivity.
Qed.

Lemma accepts_below t tc i (wrap : bst -> bst) :
  (forall c p m, held tc p m c -> held t (i :: p) m (wrap c)) ->
  (forall c p m, spec t (i :: p) m (wrap c) = let '(r, c1) := spec tc p m c in (r, wrap c1)) ->
  forall cs c c1, accepts tc c cs c1 -> accepts t (wrap c) (below i cs) (wrap c1).
Proof.
  intros Hh Hs. induction cs as [|[p m] cs IH]; intros c c1 [A1 A2].
  - cbn in A2. injection A2 as <-. apply accepts_nil.
  - cbn [all_held spec_run map fst snd] in A1, A2. destruct A1 as [A1 A3].
    destruct (spec tc p m c) as [r c2] eqn:E. destruct (spec_run tc c2 cs) as [vs c3] eqn:F. injection A2 as -> -> ->. cbn [snd] in A3.
    cbn [below map]. eapply accepts_cons; cbn [fst snd]; [now apply Hh|rewrite Hs, E; reflexivity|].
    apply IH. split; assumption.
Qed.

Lemma struct_below fs i f got c cs c1 : nth_error fs i = Some f -> accepts (f_type f) c cs c1 ->
  accepts (TStruct fs) (SIn got i c) (below i cs) (SIn got i c1).
Proof.
  intros Ef. apply (accepts_below (TStruct fs) (f_type f) i (SIn got i)); intros b p m; cbn [held spec child_type]; rewrite Ef; cbn [option_map].
  - auto.
  - now rewrite Nat.eqb_refl.
Qed.
Lemma list_below e got c cs c1 : accepts e c cs c1 -> accepts (TList e) (LIn got c) (below 0 cs) (LIn got c1).
Proof. apply (accepts_below (TList e) e 0 (LIn got)); intros b p m; cbn [held spec child_type]; auto. Qed.
Lemma tree_below e got k c cs c1 : accepts e c cs c1 -> accepts (TTree e) (TIn got k c) (below 1 cs) (TIn got k c1).
Proof. apply (accepts_below (TTree e) e 1 (TIn got k)); intros b p m; cbn [held spec child_type]; auto. Qed.

(** Between two fields, entries or elements: ready, or the last child finished *)
Definition rests (b r : bst) : Prop := settle b = Some r.

Lemma struct_key_accepted fs b got i k kc : rests b (SReady got) -> field_index fs k = Some i -> has i got = false -> struct_key k kc ->
  accepts (TStruct fs) b kc (SIn got i Fresh).
Proof.
  intros R Ei G K. assert (B : begun b) by (destruct b; try discriminate R; exact I).
  assert (T : (exists fs0, TStruct fs = TStruct fs0) \/ (exists e, TStruct fs = TTree e)) by eauto.
  destruct K; unfold here.
  - eapply accepts_cons; cbn [fst snd held held_here spec]; [auto| |apply accepts_nil].
    cbn [spec_act]. rewrite R, Ei, G. reflexivity.
  - eapply accepts_cons; cbn [fst snd held held_here spec]; [auto|cbn [spec_act]; rewrite R; reflexivity|].
    eapply accepts_cons; cbn [fst snd held held_here spec]; [split; [eauto|exact I]|cbn [spec_act]; rewrite Ei, G; reflexivity|].
    eapply accepts_cons; cbn [fst snd held held_here spec]; [split; [discriminate|exact I]|reflexivity|]. apply accepts_nil.
Qed.
Lemma tree_key_accepted e b got k kc : rests b (TReady got) -> (In k (map fst got) -> length kc = 3) -> tree_key k kc ->
  accepts (TTree e) b kc (TIn got k Fresh).
Proof.
  intros R G K. assert (B : begun b) by (destruct b; try discriminate R; exact I).
  assert (T : (exists fs0, TTree e = TStruct fs0) \/ (exists e0, TTree e = TTree e0)) by eauto.
  destruct K; unfold here.
  - eapply accepts_cons; cbn [fst snd held held_here spec]; [auto| |apply accepts_nil].
    cbn [spec_act]. rewrite R. destruct (mem_bytes k (map fst got)) eqn:M; [|reflexivity].
    apply mem_bytes_iff in M. specialize (G M). discriminate.
  - eapply accepts_cons; cbn [fst snd held held_here spec]; [auto|cbn [spec_act]; rewrite R; reflexivity|].
    eapply accepts_cons; cbn [fst snd held held_here spec]; [cbn; auto|reflexivity|].
    eapply accepts_cons; cbn [fst snd held held_here spec]; [split; [discriminate|exact I]|reflexivity|]. apply accepts_nil.
  - eapply accepts_cons; cbn [fst snd held held_here spec]; [auto|cbn [spec_act]; rewrite R; reflexivity|].
    eapply accepts_cons; cbn [fst snd held held_here spec]; [cbn; eauto|reflexivity|].
    eapply accepts_cons; cbn [fst snd held held_here spec]; [split; [discriminate|exact I]|reflexivity|]. apply accepts_nil.
Qed.

Scheme documented_mut := Induction for documented Sort Prop
  with d_fields_mut := Induction for d_fields Sort Prop
  with d_elems_mut := Induction for d_elems Sort Prop
  with d_entries_mut := Induction for d_entries Sort Prop.

Lemma documented_accepted dup t v cs : documented dup t v cs -> exists fin, accepts t Fresh cs (Full v fin).
Proof.
  revert t v cs.
  apply (documented_mut dup
    (fun t v cs _ => exists fin, accepts t Fresh cs (Full v fin))
    (fun fs got got' cs _ => forall b, rests b (SReady got) -> exists b1, accepts (TStruct fs) b cs b1 /\ rests b1 (SReady got'))
    (fun e vs vs' cs _ => forall b, rests b (LReady vs) -> exists b1, accepts (TList e) b cs b1 /\ rests b1 (LReady vs'))
    (fun e es es' cs _ => forall b, rests b (TReady es) -> exists b1, accepts (TTree e) b cs b1 /\ rests b1 (TReady es'))).
  - intros k s K. exists false. eapply accepts_cons; [exact I| |apply accepts_nil]. cbn [here fst snd spec spec_act]. rewrite K.
    now rewrite (proj2 (skind_eqb_iff k k) eq_refl).
  - intros t v R. exists false. eapply accepts_cons; [exact R| |apply accepts_nil]. cbn [here fst snd spec spec_act]. now destruct t.
  - intros fs got cs _ IH C. exists true.
    destruct (IH (SReady (map (fun _ => None) fs)) eq_refl) as (b1 & A & R).
    eapply accepts_cons; [exact I|reflexivity|]. eapply accepts_app; [exact A|].
    eapply accepts_cons; [| |apply accepts_nil].
    + cbn. split; [discriminate|]. destruct b1; try discriminate R; exact I.
    + cbn [here fst snd spec spec_act]. rewrite R, C. reflexivity.
  - intros e hint vs cs _ IH. exists true.
    destruct (IH (LReady []) eq_refl) as (b1 & A & R).
    eapply accepts_cons; [exact I|reflexivity|]. eapply accepts_app; [exact A|].
    eapply accepts_cons; [| |apply accepts_nil].
    + cbn. split; [discriminate|]. destruct b1; try discriminate R; exact I.
    + cbn [here fst snd spec spec_act]. rewrite R. reflexivity.
  - intros e es cs _ IH. exists true.
    destruct (IH (TReady []) eq_refl) as (b1 & A & R).
    eapply accepts_cons; [exact I|reflexivity|]. eapply accepts_app; [exact A|].
    eapply accepts_cons; [| |apply accepts_nil].
    + cbn. split; [discriminate|]. destruct b1; try discriminate R; exact I.
    + cbn [here fst snd spec spec_act]. rewrite R. reflexivity.
  - intros fs got b R. exists b. split; [apply accepts_nil|exact R].
  - intros fs got got' i f k v kc vc rest Ef Ei G K _ [fin A] _ IH b R.
    destruct (IH (SIn got i (Full v fin)) eq_refl) as (b1 & B & R1). exists b1. split; [|exact R1].
    eapply accepts_app; [eapply struct_key_accepted; eassumption|]. eapply accepts_app; [|exact B].
    eapply struct_below; eassumption.
  - intros e vs b R. exists b. split; [apply accepts_nil|exact R].
  - intros e vs vs' v vc rest _ [fin A] _ IH b R.
    destruct (IH (LIn vs (Full v fin)) eq_refl) as (b1 & B & R1). exists b1. split; [|exact R1].
    eapply accepts_cons.
    + cbn. split; [discriminate|]. destruct b; try discriminate R; exact I.
    + cbn [here fst snd spec spec_act]. rewrite R. reflexivity.
    + eapply accepts_app; [|exact B]. now apply list_below.
  - intros e es b R. exists b. split; [apply accepts_nil|exact R].
  - intros e es es' k v kc vc rest G K _ [fin A] _ IH b R.
    destruct (IH (TIn es k (Full v fin)) eq_refl) as (b1 & B & R1). exists b1. split; [|exact R1].
    eapply accepts_app; [eapply tree_key_accepted; [eassumption| |eassumption]|].
    { intros Q. now apply G. }
    eapply accepts_app; [|exact B]. now apply tree_below.
Qed.

(** ** What is accepted is in the documented order *)
Lemma d_fields_snoc dup fs got got1 cs i f k v kc vc :
  d_fields dup fs got got1 cs -> nth_error fs i = Some f -> field_index fs k = Some i -> has i got1 = false ->
  struct_key k kc -> documented dup (f_type f) v vc -> d_fields dup fs got (upd i (fun _ => Some v) got1) (cs ++ kc ++ below i vc).
Proof.
  intros D Ef Ei. induction D as [fs got|fs got got' i0 f0 k0 v0 kc0 vc0 rest]; intros G K V.
  - cbn [app]. rewrite <- (app_nil_r (below i vc)). eapply d_fields_cons; try eassumption. apply d_fields_nil.
  - rewrite <- !app_assoc. eapply d_fields_cons; try eassumption. now apply IHD.
Qed.
Lemma d_elems_snoc dup e vs vs1 cs v vc : d_elems dup e vs vs1 cs -> documented dup e v vc ->
  d_elems dup e vs (vs1 ++ [v]) (cs ++ here AssembleValue :: below 0 vc).
Proof.
  intros D. induction D as [e vs|e vs vs' v0 vc0 rest]; intros V.
  - cbn [app]. rewrite <- (app_nil_r (below 0 vc)). eapply d_elems_cons; try eassumption. apply d_elems_nil.
  - cbn [app]. rewrite <- !app_assoc. eapply d_elems_cons; try eassumption. now apply IHD.
Qed.
Lemma d_entries_snoc dup e es es1 cs k v kc vc : d_entries dup e es es1 cs -> (In k (map fst es1) -> dup = true /\ length kc = 3) -> tree_key k kc ->
  documented dup e v vc -> d_entries dup e es (es1 ++ [(k, v)]) (cs ++ kc ++ below 1 vc).
Proof.
  intros D. induction D as [e es|e es es' k0 v0 kc0 vc0 rest]; intros G K V.
  - cbn [app]. rewrite <- (app_nil_r (below 1 vc)). eapply d_entries_cons; try eassumption. apply d_entries_nil.
  - rewrite <- !app_assoc. eapply d_entries_cons; try eassumption. now apply IHD.
Qed.

(** The accepted calls [cs] that lead to the phase [b] *)
Fixpoint built (t : ty) (b : bst) (cs : calls) {struct b} : Prop :=
  match b with
  | Fresh => cs = []
  | Full v _ => documented true t v cs
  | SReady got => exists fs ds, t = TStruct fs /\ cs = here BeginMap :: ds /\ d_fields true fs (map (fun _ => None) fs) got ds
  | SKey got => exists fs ds, t = TStruct fs /\ cs = here BeginMap :: ds ++ [here AssembleKey] /\ d_fields true fs (map (fun _ => None) fs) got ds
  | SWant got i => exists fs ds k, t = TStruct fs /\ cs = here BeginMap :: ds ++ [here AssembleKey; here (KeyAssign k)] /\
      d_fields true fs (map (fun _ => None) fs) got ds /\ field_index fs k = Some i /\ has i got = false
  | SIn got i c => exists fs ds f k kc vc, t = TStruct fs /\ cs = here BeginMap :: ds ++ kc ++ below i vc /\
      d_fields true fs (map (fun _ => None) fs) got ds /\ nth_error fs i = Some f /\ field_index fs k = Some i /\ has i got = false /\
      struct_key k kc /\ built (f_type f) c vc
  | LReady got => exists e h ds, t = TList e /\ cs = here (BeginList h) :: ds /\ d_elems true e [] got ds
  | LIn got c => exists e h ds vc, t = TList e /\ cs = here (BeginList h) :: ds ++ here AssembleValue :: below 0 vc /\
      d_elems true e [] got ds /\ built e c vc
  | TReady got => exists e ds, t = TTree e /\ cs = here BeginMap :: ds /\ d_entries true e [] got ds
  | TKey got c => exists e ds kc, t = TTree e /\ cs = here BeginMap :: ds ++ here AssembleKey :: below 0 kc /\
      d_entries true e [] got ds /\ built (TScalar KString) c kc
  | TIn got k c => exists e ds kc vc, t = TTree e /\ cs = here BeginMap :: ds ++ kc ++ below 1 vc /\
      d_entries true e [] got ds /\ (In k (map fst got) -> length kc = 3) /\ tree_key k kc /\ built e c vc
  end.

Lemma settle_built t b b1 cs : settle b = Some b1 -> built t b cs -> built t b1 cs.
Proof.
  intros R H. destruct b as [|v fin|got|got|got i|got i c|got|got c|got|got c|got n c]; cbn [settle] in R; try discriminate.
  - injection R as <-. exact H.
  - destruct c; try discriminate. injection R as <-. destruct H as (fs & ds & f & k & kc & vc & -> & -> & D & Ef & Ei & G & K & V).
    cbn [built] in *. exists fs, (ds ++ kc ++ below i vc). split; [reflexivity|]. split; [reflexivity|]. eapply d_fields_snoc; eassumption.
  - injection R as <-. exact H.
  - destruct c; try discriminate. injection R as <-. destruct H as (e & h & ds & vc & -> & -> & D & V).
    cbn [built] in *. exists e, h. eexists. split; [reflexivity|]. split; [reflexivity|]. now apply d_elems_snoc.
  - injection R as <-. exact H.
  - destruct c; try discriminate. injection R as <-. destruct H as (e & ds & kc & vc & -> & -> & D & G & K & V).
    cbn [built] in *. exists e. eexists. split; [reflexivity|]. split; [reflexivity|]. apply d_entries_snoc; auto.
Qed.

Lemma below_app i cs ds : below i (cs ++ ds) = below i cs ++ below i ds.
Proof. apply map_app. Qed.

(** A phase after a refused call is the same or settled; after an accepted call the call
    is added to the history. *)
Lemma built_step p : forall t m b r b1 cs, held t p m b -> built t b cs -> spec t p m b = (r, b1) ->
  built t b1 (match r with OK => cs ++ [(p, m)] | _ => cs end).
Proof.
  induction p as [|i p IH]; intros t m b r b1 cs Hh H E.
  - cbn [spec held] in *.
    assert (Assign_case : forall v, spec_assign b v = (r, b1) -> documented true t v [([], m)] ->
              built t b1 (match r with OK => cs ++ [([], m)] | _ => cs end)).
    { intros v Ea D. destruct b; cbn [spec_assign] in Ea; injection Ea as <- <-; try exact H.
      cbn [built] in H. subst cs. exact D. }
    destruct t as [k|e|e|fs]; destruct m; cbn [spec_act] in E;
      try (injection E as <- <-; exact H);
      try (destruct b; cbn [spec_null] in E; injection E as <- <-; exact H);
      try (apply (Assign_case v E); apply d_whole; exact Hh).
    + (* scalar Assign *)
      destruct (kind_of s) as [k'|] eqn:K; [|injection E as <- <-; exact H].
      destruct (skind_eqb k k') eqn:Q; [|injection E as <- <-; exact H]. apply skind_eqb_iff in Q. subst k'.
      apply (Assign_case _ E). now apply d_scalar.
    + (* BeginList *)
      destruct b; injection E as <- <-; try exact H. cbn [built] in *. subst cs. exists e, hint, []. split; [reflexivity|].
      split; [reflexivity|]. apply d_elems_nil.
    + (* list AssembleValue *)
      destruct (settle b) as [[| | | | | |got| | | |]|] eqn:R; injection E as <- <-; try exact H.
      apply (settle_built _ _ _ _ R) in H. destruct H as (e' & h & ds & T & -> & D). injection T as <-. cbn [built].
      exists e, h, ds, []. split; [reflexivity|]. split; [reflexivity|]. split; [assumption|reflexivity].
    + (* list Finish *)
      destruct (settle b) as [[| | | | | |got| | | |]|] eqn:R; injection E as <- <-; try exact H.
      apply (settle_built _ _ _ _ R) in H. destruct H as (e' & h & ds & T & -> & D). injection T as <-. cbn [built].
      now apply (d_list true e h).
    + (* tree BeginMap *)
      destruct b; injection E as <- <-; try exact H. cbn [built] in *. subst cs. exists e, []. split; [reflexivity|].
      split; [reflexivity|]. apply d_entries_nil.
    + (* tree AssembleKey *)
      destruct (settle b) as [[| | | | | | | |got| |]|] eqn:R; injection E as <- <-; try exact H.
      apply (settle_built _ _ _ _ R) in H. destruct H as (e' & ds & T & -> & D). injection T as <-. cbn [built].
      exists e, ds, []. split; [reflexivity|]. split; [reflexivity|]. split; [assumption|reflexivity].
    + (* tree AssembleValue *)
      destruct b as [|v fin|got|got|got i|got i c|got|got c|got|got c|got n c]; try (injection E as <- <-; exact H).
      destruct c as [|v fin| | | | | | | | |]; try (injection E as <- <-; exact H).
      destruct v as [[k| | |]| | | |]; try (injection E as <- <-; exact H). injection E as <- <-.
      destruct H as (e' & ds & kc & T & -> & D & V). injection T as <-. cbn [built] in *.
      exists e, ds, (here AssembleKey :: below 0 kc ++ [here AssembleValue]), []. split; [reflexivity|].
      split; [cbn [below map]; rewrite app_nil_r; cbn [app]; now rewrite <- app_assoc|]. split; [assumption|].
      assert (K : kc = [here (Assign (SString k))] \/ kc = [here (AssignTyped (VScalar (SString k)))]).
      { inversion V; subst; [left; reflexivity|right; reflexivity]. }
      destruct K as [-> | ->]; (split; [reflexivity|]); (split; [|reflexivity]).
      * apply tree_by_key.
      * apply tree_by_node.
    + (* tree AssembleEntry *)
      destruct (settle b) as [[| | | | | | | |got| |]|] eqn:R; try (injection E as <- <-; exact H).
      apply (settle_built _ _ _ _ R) in H. destruct (mem_bytes k (map fst got)) eqn:M; injection E as <- <-; [exact H|].
      destruct H as (e' & ds & T & -> & D). injection T as <-. cbn [built].
      exists e, ds, [here (AssembleEntry k)], []. split; [reflexivity|]. split; [reflexivity|]. split; [assumption|].
      split; [|split; [apply tree_by_entry|reflexivity]]. intros Q. apply mem_bytes_iff in Q. congruence.
    + (* tree Finish *)
      destruct (settle b) as [[| | | | | | | |got| |]|] eqn:R; injection E as <- <-; try exact H.
      apply (settle_built _ _ _ _ R) in H. destruct H as (e' & ds & T & -> & D). injection T as <-. cbn [built].
      now apply (d_tree true e).
    + (* struct BeginMap *)
      destruct b; injection E as <- <-; try exact H. cbn [built] in *. subst cs. exists fs, []. split; [reflexivity|].
      split; [reflexivity|]. apply d_fields_nil.
    + (* struct AssembleKey *)
      destruct (settle b) as [[| |got| | | | | | | |]|] eqn:R; injection E as <- <-; try exact H.
      apply (settle_built _ _ _ _ R) in H. destruct H as (fs' & ds & T & -> & D). injection T as <-. cbn [built].
      exists fs, ds. auto.
    + (* KeyAssign *)
      destruct b; try (injection E as <- <-; exact H).
      destruct (field_index fs k) as [i|] eqn:Ei; [|injection E as <- <-; exact H].
      destruct (has i got) eqn:G; injection E as <- <-; [exact H|].
      destruct H as (fs' & ds & T & -> & D). injection T as <-. cbn [built].
      exists fs, ds, k. split; [reflexivity|]. split; [cbn [app]; now rewrite <- app_assoc|]. auto.
    + (* struct AssembleValue *)
      destruct b; try (injection E as <- <-; exact H). injection E as <- <-.
      destruct H as (fs' & ds & k & T & -> & D & Ei & G). injection T as <-. cbn [built].
      destruct (field_index_nth _ _ _ Ei) as (f & Ef & _).
      exists fs, ds, f, k, [here AssembleKey; here (KeyAssign k); here AssembleValue], []. split; [reflexivity|].
      split; [cbn [app below map]; now rewrite <- app_assoc|]. repeat (split; [assumption|]). split; [apply by_key|reflexivity].
    + (* struct AssembleEntry *)
      destruct (settle b) as [[| |got| | | | | | | |]|] eqn:R; try (injection E as <- <-; exact H).
      apply (settle_built _ _ _ _ R) in H.
      destruct (field_index fs k) as [i|] eqn:Ei; [|injection E as <- <-; exact H].
      destruct (has i got) eqn:G; injection E as <- <-; [exact H|].
      destruct H as (fs' & ds & T & -> & D). injection T as <-. cbn [built].
      destruct (field_index_nth _ _ _ Ei) as (f & Ef & _).
      exists fs, ds, f, k, [here (AssembleEntry k)], []. split; [reflexivity|]. split; [reflexivity|]. repeat (split; [assumption|]).
      split; [apply by_entry|reflexivity].
    + (* struct Finish *)
      destruct (settle b) as [[| |got| | | | | | | |]|] eqn:R; try (injection E as <- <-; exact H).
      apply (settle_built _ _ _ _ R) in H.
      destruct (complete fs got) eqn:C; injection E as <- <-; [|exact H].
      destruct H as (fs' & ds & T & -> & D). injection T as <-. cbn [built]. now apply d_struct.
  - cbn [spec held] in *. destruct (child_type t i) as [tc|] eqn:Ec; [|contradiction].
    assert (Snoc : forall r0 vc, match r0 with OK => below i vc ++ [(i :: p, m)] | _ => below i vc end = below i (match r0 with OK => vc ++ [(p, m)] | _ => vc end)).
    { intros [] vc; [|reflexivity..]. rewrite below_app. reflexivity. }
    destruct b as [|v fin|got|got|got j|got j c|got|got c|got|got c|got n c]; try contradiction.
    + destruct Hh as [<- Hh]. rewrite Nat.eqb_refl in E. destruct (spec tc p m c) as [r' c'] eqn:Es. injection E as <- <-.
      destruct H as (fs & ds & f & k & kc & vc & -> & -> & D & Ef & Ei & G & K & V).
      cbn [child_type] in Ec. rewrite Ef in Ec. injection Ec as <-.
      specialize (IH _ _ _ _ _ _ Hh V Es). cbn [built].
      exists fs, ds, f, k, kc. eexists. split; [reflexivity|]. split; [|repeat (split; [eassumption|]); exact IH].
      rewrite <- Snoc. destruct r'; try reflexivity. cbn [app]. now rewrite <- !app_assoc.
    + destruct (spec tc p m c) as [r' c'] eqn:Es. injection E as <- <-.
      destruct H as (e & h & ds & vc & -> & -> & D & V). destruct i as [|i]; [|discriminate]. injection Ec as <-.
      specialize (IH _ _ _ _ _ _ Hh V Es). cbn [built].
      exists e, h, ds. eexists. split; [reflexivity|]. split; [|split; [eassumption|]; exact IH].
      rewrite <- Snoc. destruct r'; try reflexivity. cbn [app]. now rewrite <- !app_assoc.
    + destruct Hh as [-> Hh]. cbn [Nat.eqb] in E. destruct (spec tc p m c) as [r' c'] eqn:Es. injection E as <- <-.
      destruct H as (e & ds & kc & -> & -> & D & V). injection Ec as <-.
      specialize (IH _ _ _ _ _ _ Hh V Es). cbn [built].
      exists e, ds. eexists. split; [reflexivity|]. split; [|split; [eassumption|]; exact IH].
      rewrite <- Snoc. destruct r'; try reflexivity. cbn [app]. now rewrite <- !app_assoc.
    + destruct Hh as [-> Hh]. cbn [Nat.eqb] in E. destruct (spec tc p m c) as [r' c'] eqn:Es. injection E as <- <-.
      destruct H as (e & ds & kc & vc & -> & -> & D & G & K & V). injection Ec as <-.
      specialize (IH _ _ _ _ _ _ Hh V Es). cbn [built].
      exists e, ds, kc. eexists. split; [reflexivity|]. split; [|repeat (split; [eassumption|]); exact IH].
      rewrite <- Snoc. destruct r'; try reflexivity. cbn [app]. now rewrite <- !app_assoc.
Qed.

Lemma accepted_cons {X} (c : X) cs r vs : accepted (c :: cs) (r :: vs) = match r with OK => c :: accepted cs vs | _ => accepted cs vs end.
Proof. unfold accepted. cbn [combine filter snd map]. destruct r; reflexivity. Qed.

Lemma built_run t : forall cs b h, all_held t b cs -> built t b h ->
  built t (snd (spec_run t b cs)) (h ++ accepted cs (fst (spec_run t b cs))).
Proof.
  induction cs as [|[p m] cs IH]; intros b h Ha H; cbn [spec_run].
  - cbn [fst snd]. unfold accepted. cbn. now rewrite app_nil_r.
  - destruct Ha as [Hh Ha]. cbn [fst snd] in *. destruct (spec t p m b) as [r b1] eqn:E. cbn [snd] in Ha.
    pose proof (built_step p t m b r b1 h Hh H E) as H1. specialize (IH b1 _ Ha H1).
    destruct (spec_run t b1 cs) as [vs b2]. cbn [fst snd] in *. rewrite accepted_cons. destruct r; [|exact IH..].
    now rewrite <- app_assoc in IH.
Qed.

(** ** Refused calls *)

(** Phases that differ at most in having counted a finished child *)
Inductive same : bst -> bst -> Prop :=
| same_refl b : same b b
| same_settled b b1 : settle b = Some b1 -> same b b1
| same_field got i c c1 : same c c1 -> same (SIn got i c) (SIn got i c1)
| same_elem got c c1 : same c c1 -> same (LIn got c) (LIn got c1)
| same_key got c c1 : same c c1 -> same (TKey got c) (TKey got c1)
| same_entry got k c c1 : same c c1 -> same (TIn got k c) (TIn got k c1).

Lemma same_full v fin c : same (Full v fin) c -> c = Full v fin.
Proof. intros H. inversion H; subst; [reflexivity|discriminate]. Qed.
Lemma same_to_full v fin c : same c (Full v fin) -> c = Full v fin.
Proof.
  intros H. inversion H as [|b b1 R| | | |]; subst; [reflexivity|]. destruct c; try discriminate; destruct c; discriminate.
Qed.
Lemma same_content b b1 : same b b1 -> content b = content b1.
Proof.
  intros H. inversion H as [|b0 b2 R| | | |]; subst; try reflexivity.
  destruct b; try discriminate; cbn [settle] in R; try (injection R as <-; reflexivity); destruct b; try discriminate; injection R as <-; reflexivity.
Qed.

Lemma settle_settled b b1 : settle b = Some b1 -> settle b1 = Some b1.
Proof.
  destruct b; try discriminate; cbn [settle]; try (intros [= <-]; reflexivity); destruct b; try discriminate; intros [= <-]; reflexivity.
Qed.
Lemma same_settle b b1 : same b b1 -> settle b = settle b1.
Proof.
  intros H. destruct H as [b|b b1 R|got i c c1 H|got c c1 H|got c c1 H|got k c c1 H]; [reflexivity| | | |reflexivity|].
  - now rewrite (settle_settled _ _ R).
  - destruct c; try (apply same_full in H; now subst); destruct c1; try reflexivity; apply same_to_full in H; discriminate.
  - destruct c; try (apply same_full in H; now subst); destruct c1; try reflexivity; apply same_to_full in H; discriminate.
  - destruct c; try (apply same_full in H; now subst); destruct c1; try reflexivity; apply same_to_full in H; discriminate.
Qed.

Lemma rejected_same p : forall t m b r b1, spec t p m b = (r, b1) -> r <> OK -> same b b1.
Proof.
  induction p as [|i p IH]; intros t m b r b1 E N.
  - cbn [spec] in E.
    assert (As : forall v, spec_assign b v = (r, b1) -> same b b1).
    { intros v Ea. destruct b; cbn [spec_assign] in Ea; injection Ea as <- <-; try apply same_refl; congruence. }
    destruct t; destruct m; cbn [spec_act] in E; try (injection E as <- <-; apply same_refl);
      try (now apply As in E); try (destruct b; injection E as <- <-; try apply same_refl; congruence).
    + destruct (kind_of s) as [k'|]; [destruct (skind_eqb k k')|]; [now apply As in E|injection E as <- <-; apply same_refl..].
    + destruct (settle b) as [[| | | | | |got| | | |]|]; injection E as <- <-; try apply same_refl; congruence.
    + destruct (settle b) as [[| | | | | |got| | | |]|]; injection E as <- <-; try apply same_refl; congruence.
    + destruct (settle b) as [[| | | | | | | |got| |]|]; injection E as <- <-; try apply same_refl; congruence.
    + destruct b; try (injection E as <- <-; apply same_refl). destruct b; try (injection E as <- <-; apply same_refl).
      destruct v as [[]| | | |]; injection E as <- <-; try apply same_refl; congruence.
    + destruct (settle b) as [[| | | | | | | |got| |]|] eqn:R; try (injection E as <- <-; apply same_refl).
      destruct (mem_bytes k (map fst got)); injection E as <- <-; [now apply same_settled|congruence].
    + destruct (settle b) as [[| | | | | | | |got| |]|]; injection E as <- <-; try apply same_refl; congruence.
    + destruct (settle b) as [[| |got| | | | | | | |]|]; injection E as <- <-; try apply same_refl; congruence.
    + destruct b; try (injection E as <- <-; apply same_refl). destruct (field_index fields k) as [i|]; [destruct (has i got)|];
        injection E as <- <-; try apply same_refl; congruence.
    + destruct (settle b) as [[| |got| | | | | | | |]|] eqn:R; try (injection E as <- <-; apply same_refl).
      destruct (field_index fields k) as [i|]; [destruct (has i got)|]; injection E as <- <-; try (now apply same_settled); congruence.
    + destruct (settle b) as [[| |got| | | | | | | |]|] eqn:R; try (injection E as <- <-; apply same_refl).
      destruct (complete fields got); injection E as <- <-; [congruence|now apply same_settled].
  - cbn [spec] in E. destruct (child_type t i) as [tc|]; [|injection E as <- <-; apply same_refl].
    destruct b as [|v fin|got|got|got j|got j c|got|got c|got|got c|got n c]; try (injection E as <- <-; apply same_refl).
    + destruct (i =? j); [|injection E as <- <-; apply same_refl]. destruct (spec tc p m c) as [r' c'] eqn:Es. injection E as <- <-.
      apply same_field. eapply IH; eassumption.
    + destruct (spec tc p m c) as [r' c'] eqn:Es. injection E as <- <-. apply same_elem. eapply IH; eassumption.
    + destruct (i =? 0); [|injection E as <- <-; apply same_refl]. destruct (spec tc p m c) as [r' c'] eqn:Es. injection E as <- <-.
      apply same_key. eapply IH; eassumption.
    + destruct (i =? 1); [|injection E as <- <-; apply same_refl]. destruct (spec tc p m c) as [r' c'] eqn:Es. injection E as <- <-.
      apply same_entry. eapply IH; eassumption.
Qed.

Lemma same_begun b b1 : same b b1 -> begun b1 -> begun b.
Proof.
  intros H. destruct H as [b|b b1 R| | | |]; auto; try (intros _; exact I).
  intros _. destruct b; try discriminate; exact I.
Qed.
Lemma same_held_here t m b b1 : same b b1 -> held_here t m b1 -> held_here t m b.
Proof. intros H. pose proof (same_begun _ _ H). destruct m; cbn [held_here]; intuition. Qed.

(** Phases other than Fresh, SKey, SWant and TKey meet the methods through [settle]. *)
Lemma same_step p : forall t m b b1, same b b1 -> held t p m b1 ->
  held t p m b /\ fst (spec t p m b) = fst (spec t p m b1) /\ same (snd (spec t p m b)) (snd (spec t p m b1)).
Proof.
  induction p as [|i p IH]; intros t m b b1 H Hh.
  - cbn [held spec] in *. split; [eapply same_held_here; eassumption|].
    pose proof (same_settle _ _ H) as Q.
    assert (Dec : b = b1 \/ (b <> Fresh /\ b1 <> Fresh /\ (forall g, b <> SKey g) /\ (forall g, b1 <> SKey g) /\
                    (forall g i, b <> SWant g i) /\ (forall g i, b1 <> SWant g i) /\
                    ((exists g c c1, b = TKey g c /\ b1 = TKey g c1 /\ same c c1) \/ (forall g c, b <> TKey g c) /\ (forall g c, b1 <> TKey g c)))).
    { destruct H as [b|b b1 R| | |got c c1 H|]; [left; reflexivity|right..]; try (repeat split; try discriminate; right; split; discriminate).
      - destruct b; try discriminate R; cbn [settle] in R;
          try (injection R as <-; repeat split; try discriminate; right; split; discriminate);
          destruct b; try discriminate R; injection R as <-; repeat split; try discriminate; right; split; discriminate.
      - repeat split; try discriminate. left. exists got, c, c1. auto. }
    destruct Dec as [-> | (D1 & D2 & D3 & D4 & D5 & D6 & D7)]; [split; [reflexivity|apply same_refl]|].
    assert (As : forall v, fst (spec_assign b v) = fst (spec_assign b1 v) /\ same (snd (spec_assign b v)) (snd (spec_assign b1 v))).
    { intros v. destruct b; try congruence; destruct b1; try congruence; cbn [spec_assign fst snd]; auto. }
    assert (Nu : fst (spec_null b) = fst (spec_null b1) /\ same (snd (spec_null b)) (snd (spec_null b1))).
    { destruct b; try congruence; destruct b1; try congruence; cbn [spec_null fst snd]; auto. }
    assert (Be : forall g, fst (match b with Fresh => (OK, g) | _ => (PANIC, b) end) = fst (match b1 with Fresh => (OK, g) | _ => (PANIC, b1) end) /\
                   same (snd (match b with Fresh => (OK, g) | _ => (PANIC, b) end)) (snd (match b1 with Fresh => (OK, g) | _ => (PANIC, b1) end))).
    { intros g. destruct b; try congruence; destruct b1; try congruence; cbn [fst snd]; auto. }
    destruct t; destruct m; cbn [spec_act]; try (cbn [fst snd]; split; [reflexivity|exact H]); try exact Nu; try apply As; try apply Be.
    + destruct (kind_of s) as [k'|]; [destruct (skind_eqb k k')|]; [apply As|cbn [fst snd]; auto..].
    + rewrite <- Q. destruct (settle b) as [[| | | | | |got| | | |]|]; cbn [fst snd]; auto using same_refl.
    + rewrite <- Q. destruct (settle b) as [[| | | | | |got| | | |]|]; cbn [fst snd]; auto using same_refl.
    + rewrite <- Q. destruct (settle b) as [[| | | | | | | |got| |]|]; cbn [fst snd]; auto using same_refl.
    + destruct D7 as [(g & c & c1 & -> & -> & Sc)|[D7 D8]].
      * destruct c as [|v fin| | | | | | | | |]; try (apply same_full in Sc; subst c1; split; [reflexivity|apply same_refl]);
          destruct c1 as [|v' fin'| | | | | | | | |]; try (apply same_to_full in Sc; discriminate);
          cbn [fst snd]; split; try reflexivity; exact H.
      * destruct b; try congruence; destruct b1; try congruence; cbn [fst snd]; auto.
        all: match goal with |- context [TKey ?g ?c] => exfalso; (now apply (D7 g c)) || (now apply (D8 g c)) end.
    + rewrite <- Q. destruct (settle b) as [[| | | | | | | |got| |]|]; try (cbn [fst snd]; auto; fail).
      destruct (mem_bytes k (map fst got)); cbn [fst snd]; auto using same_refl.
    + rewrite <- Q. destruct (settle b) as [[| | | | | | | |got| |]|]; cbn [fst snd]; auto using same_refl.
    + rewrite <- Q. destruct (settle b) as [[| |got| | | | | | | |]|]; cbn [fst snd]; auto using same_refl.
    + destruct b; try congruence; destruct b1; try congruence; cbn [fst snd]; auto.
      all: match goal with |- context [SKey ?g] => exfalso; (now apply (D3 g)) || (now apply (D4 g)) end.
    + destruct b; try congruence; destruct b1; try congruence; cbn [fst snd]; auto.
      all: match goal with |- context [SWant ?g ?c] => exfalso; (now apply (D5 g c)) || (now apply (D6 g c)) end.
    + rewrite <- Q. destruct (settle b) as [[| |got| | | | | | | |]|]; try (cbn [fst snd]; auto; fail).
      destruct (field_index fields k) as [i|]; [destruct (has i got)|]; cbn [fst snd]; auto using same_refl.
    + rewrite <- Q. destruct (settle b) as [[| |got| | | | | | | |]|]; try (cbn [fst snd]; auto; fail).
      destruct (complete fields got); cbn [fst snd]; auto using same_refl.
  - cbn [held spec] in *. destruct (child_type t i) as [tc|]; [|contradiction].
    destruct H as [b|b b1 R|got j c c1 H|got c c1 H|got c c1 H|got k c c1 H].
    + split; [exact Hh|]. split; [reflexivity|apply same_refl].
    + exfalso. destruct b; try discriminate R; cbn [settle] in R; try (injection R as <-; contradiction);
        destruct b; try discriminate R; injection R as <-; contradiction.
    + destruct Hh as [<- Hh]. rewrite Nat.eqb_refl. destruct (IH tc m c c1 H Hh) as (I1 & I2 & I3).
      destruct (spec tc p m c), (spec tc p m c1). cbn [fst snd] in *. auto using same_field.
    + destruct (IH tc m c c1 H Hh) as (I1 & I2 & I3).
      destruct (spec tc p m c), (spec tc p m c1). cbn [fst snd] in *. auto using same_elem.
    + destruct Hh as [-> Hh]. cbn [Nat.eqb]. destruct (IH tc m c c1 H Hh) as (I1 & I2 & I3).
      destruct (spec tc p m c), (spec tc p m c1). cbn [fst snd] in *. auto using same_key.
    + destruct Hh as [-> Hh]. cbn [Nat.eqb]. destruct (IH tc m c c1 H Hh) as (I1 & I2 & I3).
      destruct (spec tc p m c), (spec tc p m c1). cbn [fst snd] in *. auto using same_entry.
Qed.

Lemma same_run t : forall cs b b1, same b b1 -> all_held t b1 cs ->
  all_held t b cs /\ fst (spec_run t b cs) = fst (spec_run t b1 cs) /\ content (snd (spec_run t b cs)) = content (snd (spec_run t b1 cs)).
Proof.
  induction cs as [|[p m] cs IH]; intros b b1 H Ha; cbn [all_held spec_run fst snd] in *.
  - split; [exact I|]. split; [reflexivity|now apply same_content].
  - destruct Ha as [Hh Ha]. destruct (same_step p t m b b1 H Hh) as (S1 & S2 & S3).
    destruct (spec t p m b) as [r c]. destruct (spec t p m b1) as [r1 c1]. cbn [fst snd] in *. subst r1.
    destruct (IH c c1 S3 Ha) as (I1 & I2 & I3). destruct (spec_run t c cs), (spec_run t c1 cs). cbn [fst snd] in *. subst. auto.
Qed.

(** ** A finished builder *)
Lemma full_step t p m v fin : held t p m (Full v fin) -> fst (spec t p m (Full v fin)) <> OK /\ snd (spec t p m (Full v fin)) = Full v fin.
Proof.
  intros H. destruct p as [|i p]; cbn [held spec] in *; [|destruct (child_type t i); contradiction].
  destruct t, m; cbn [spec_act spec_assign spec_null settle fst snd]; try (split; [discriminate|reflexivity]).
  destruct (kind_of s) as [k'|]; [destruct (skind_eqb k k')|]; cbn [spec_assign fst snd]; (split; [discriminate|reflexivity]).
Qed.
Lemma full_run t v fin : forall cs, all_held t (Full v fin) cs ->
  Forall (fun r => r <> OK) (fst (spec_run t (Full v fin) cs)) /\ snd (spec_run t (Full v fin) cs) = Full v fin.
Proof.
  induction cs as [|[p m] cs IH]; intros Ha; cbn [all_held spec_run fst snd] in *; [auto|].
  destruct Ha as [Hh Ha]. destruct (full_step t p m v fin Hh) as [F1 F2].
  destruct (spec t p m (Full v fin)) as [r b]. cbn [fst snd] in *. subst b. destruct (IH Ha) as [I1 I2].
  destruct (spec_run t (Full v fin) cs). cbn [fst snd] in *. auto.
Qed.
