(** AssignNode of the struct builders accepts exactly the nodes of StructSpec.v. *)
From Verif Require Import Base GoStr Cid Types Nodes Assemble StructSpec.
From Coq Require Import Permutation.

Lemma is_text_iff v s : is_text v s <-> as_string v = Ok s.
Proof. split; [now intros []|]. destruct v; cbn; try discriminate; intros E; injection E as ->; constructor. Qed.
Lemma is_link_iff v l : is_link v l <-> as_link v = Ok l.
Proof. split; [now intros []|]. destruct v; cbn; try discriminate; intros E; injection E as ->; constructor. Qed.

Lemma field_index_iff fs k : forall i j, field_index k fs i = Some j -> i <= j /\ nth_error fs (j - i) = Some k.
Proof.
  induction fs as [|f fs IH]; intros i j; cbn; [discriminate|]. destruct (beqb_spec k f) as [->|N].
  - intros E; injection E as ->. split; [lia|]. now rewrite Nat.sub_diag.
  - intros E. apply IH in E as [L E]. split; [lia|]. replace (j - i) with (S (j - S i)) by lia. exact E.
Qed.
Lemma field_index_nth fs k : NoDup fs -> forall i j, nth_error fs j = Some k -> field_index k fs i = Some (i + j).
Proof.
  induction fs as [|f fs IH]; intros ND i j E; [destruct j; discriminate|]. cbn. inversion_clear ND as [|? ? NI ND'].
  destruct j as [|j].
  - injection E as ->. rewrite beqb_refl. f_equal; lia.
  - cbn in E. rewrite beqb_neq by (intros ->; apply NI; eapply nth_error_In; eauto). rewrite (IH ND' _ j) by exact E. f_equal; lia.
Qed.

Lemma Forall2_perm {A B} (P : A -> B -> Prop) l l' : Permutation l l' -> forall m, Forall2 P l m -> exists m', Permutation m m' /\ Forall2 P l' m'.
Proof.
  induction 1 as [|x l l' H IH|x y l|l l' l'' H1 IH1 H2 IH2]; intros m F.
  - inversion_clear F. exists []. auto.
  - inversion_clear F as [|? b ? m0 Pb F0]. destruct (IH _ F0) as (m' & Pm & F'). exists (b :: m'). auto.
  - inversion_clear F as [|? b ? m0 Pb F0]. inversion_clear F0 as [|? b' ? m1 Pb' F1]. exists (b' :: b :: m1). split; [constructor|]. auto.
  - destruct (IH1 _ F) as (m' & P1 & F1). destruct (IH2 _ F1) as (m'' & P2 & F2). exists m''. split; [now transitivity m'|exact F2].
Qed.
Lemma Forall2_flip {A B} (P : A -> B -> Prop) l m : Forall2 P l m -> Forall2 (fun b a => P a b) m l.
Proof. induction 1; constructor; auto. Qed.
Lemma Forall2_impl_in {A B} (P Q : A -> B -> Prop) l m : (forall a b, In a l -> P a b -> Q a b) -> Forall2 P l m -> Forall2 Q l m.
Proof. intros H F. induction F; constructor; [apply H; auto; now left|]. apply IHF. intros; apply H; auto. now right. Qed.

Section Struct.
Context {W X : Type}.
Variables (fields : list bytes) (conv : nat -> node -> res X) (put : nat -> X -> W -> W) (required : list nat).
Definition setter (i : nat) (v : node) (w : W) : res W := let* x := conv i v in Ok (put i x w).

Definition matches (kv : node * node) (it : nat * X) : Prop :=
  (exists k, as_string (fst kv) = Ok k /\ field_index k fields 0 = Some (fst it)) /\ conv (fst it) (snd kv) = Ok (snd it).
Definition puts (items : list (nat * X)) (w : W) : W := fold_left (fun w it => put (fst it) (snd it) w) items w.

Lemma struct_loop_iff kvs : forall seen w seen' w',
  struct_loop fields setter kvs seen w = Ok (seen', w') <->
  exists items, Forall2 matches kvs items /\ NoDup (map fst items) /\ (forall i, In i (map fst items) -> ~ In i seen) /\
    seen' = rev (map fst items) ++ seen /\ w' = puts items w.
Proof.
  induction kvs as [|[k v] kvs IH]; intros seen w seen' w'; cbn [struct_loop].
  - split.
    + intros E; injection E as <- <-. exists []. repeat split; auto; constructor.
    + intros (items & F & _ & _ & -> & ->). inversion_clear F. reflexivity.
  - split.
    + intros E. apply bind_ok in E as (ks & Ek & E). destruct (field_index ks fields 0) as [i|] eqn:Ei; [|discriminate].
      destruct (existsb (Nat.eqb i) seen) eqn:Es; [discriminate|]. apply bind_ok in E as (w1 & Ew & E).
      unfold setter in Ew. apply bind_ok in Ew as (x & Ex & Ew). injection Ew as <-.
      apply IH in E as (items & F & ND & Ns & -> & ->). exists ((i, x) :: items).
      split; [constructor; [split; cbn; eauto|exact F]|]. cbn [map fst rev puts fold_left snd].
      split; [constructor; [intros I; apply (Ns i I); now left|exact ND]|].
      split; [|split; [now rewrite <- app_assoc|reflexivity]].
      intros j [<-|I]; [|intros J; apply (Ns j I); now right]. intros J.
      assert (existsb (Nat.eqb i) seen = true) by (apply existsb_exists; exists i; split; [exact J|apply Nat.eqb_refl]). congruence.
    + intros (items & F & ND & Ns & -> & ->). destruct items as [|[i x] items']; [inversion F|]. inversion_clear F as [|? ? ? ? [(ks & Ek & Ei) Ec] F']. cbn [fst snd] in *.
      rewrite Ek. cbn [bind]. rewrite Ei. cbn [map fst rev] in *. inversion_clear ND as [|? ? NI ND'].
      destruct (existsb (Nat.eqb i) seen) eqn:Es.
      { apply existsb_exists in Es as (j & J & Ej). apply Nat.eqb_eq in Ej as <-. destruct (Ns i (or_introl eq_refl) J). }
      unfold setter at 1. rewrite Ec. cbn [bind]. apply IH. exists items'. split; [exact F'|]. split; [exact ND'|].
      split; [|split; [now rewrite <- app_assoc|reflexivity]]. intros j I [<-|J]; [contradiction|]. apply (Ns j); [now right|exact J].
Qed.

Lemma missing_none seen : missing_fields fields required seen = [] <-> forall i, In i required -> In i seen.
Proof.
  unfold missing_fields. split.
  - intros E i I. apply map_eq_nil in E. destruct (existsb (Nat.eqb i) seen) eqn:Es.
    + apply existsb_exists in Es as (j & J & Ej). now apply Nat.eqb_eq in Ej as <-.
    + assert (In i (filter (fun i => negb (existsb (Nat.eqb i) seen)) required)) as K by (apply filter_In; rewrite Es; auto).
      rewrite E in K. destruct K.
  - intros H. replace (filter _ required) with (@nil nat); [reflexivity|]. symmetry. induction required as [|i r IH]; [reflexivity|]. cbn [filter].
    assert (existsb (Nat.eqb i) seen = true) as -> by (apply existsb_exists; exists i; split; [apply H; now left|apply Nat.eqb_refl]).
    cbn. apply IH. intros j J. apply H. now right.
Qed.

Lemma struct_assign_iff kvs w w' :
  struct_assign fields required setter kvs w = Ok w' <->
  exists items, Forall2 matches kvs items /\ NoDup (map fst items) /\ incl required (map fst items) /\ w' = puts items w.
Proof.
  unfold struct_assign. split.
  - intros E. apply bind_ok in E as ([seen w1] & E & E1). apply struct_loop_iff in E as (items & F & ND & _ & -> & ->).
    destruct (missing_fields fields required _) eqn:Em; [|discriminate]. injection E1 as <-.
    exists items. split; [exact F|]. split; [exact ND|]. split; [|reflexivity]. intros i I.
    pose proof (proj1 (missing_none _) Em i I) as J. rewrite app_nil_r in J. now apply in_rev.
  - intros (items & F & ND & R & ->).
    assert (struct_loop fields setter kvs [] w = Ok (rev (map fst items) ++ [], puts items w)) as ->.
    { apply struct_loop_iff. exists items. auto. }
    cbn [bind]. rewrite (proj2 (missing_none _)); [reflexivity|]. intros i I. rewrite app_nil_r. apply -> in_rev. now apply R.
Qed.

(** Fields: [get] reads a field, [put] changes it alone, and a value is determined by its fields. *)
Variables (get : nat -> W -> option X) (w0 : W).
Hypothesis get_put : forall i j v x w, i < length fields -> j < length fields -> conv j v = Ok x -> get i (put j x w) = if i =? j then Some x else get i w.
Hypothesis get_zero : forall i, i < length fields -> get i w0 = None \/ In i required.
Hypothesis get_ext : forall w w', (forall i, i < length fields -> get i w = get i w') -> w = w'.
Hypothesis get_required : forall i w, In i required -> get i w <> None.
Hypothesis fields_distinct : NoDup fields.
Hypothesis required_fields : forall i, In i required -> i < length fields.

Lemma get_puts items : (forall i, In i (map fst items) -> i < length fields) -> (forall i x, In (i, x) items -> exists v, conv i v = Ok x) ->
  NoDup (map fst items) ->
  forall w i, i < length fields -> get i (puts items w) =
    match find (fun it => fst it =? i) items with Some it => Some (snd it) | None => get i w end.
Proof.
  induction items as [|[j x] items IH]; intros L T ND w i Hi; [reflexivity|]. cbn [map fst] in *. inversion_clear ND as [|? ? NI ND'].
  destruct (T j x (or_introl eq_refl)) as [v Ev].
  change (puts ((j, x) :: items) w) with (puts items (put j x w)). rewrite IH by (auto with datatypes; intros; apply T; now right). cbn [find fst].
  destruct (Nat.eqb_spec j i) as [->|N].
  - assert (find (fun it => fst it =? i) items = None) as ->.
    { destruct (find _ items) as [[k y]|] eqn:Ef; [exfalso|reflexivity]. apply find_some in Ef as [I E]. apply Nat.eqb_eq in E. cbn in E. subst k.
      apply NI. apply in_map_iff. now exists (i, y). }
    rewrite (get_put _ _ v) by auto with datatypes. now rewrite Nat.eqb_refl.
  - destruct (find _ items); [reflexivity|]. rewrite (get_put _ _ v) by auto with datatypes. destruct (Nat.eqb_spec i j); [congruence|reflexivity].
Qed.

(** The fields a value has, in order. *)
Definition items_of (w : W) : list (nat * X) :=
  flat_map (fun i => match get i w with Some x => [(i, x)] | None => [] end) (seq 0 (length fields)).
Lemma in_items_of w i x : In (i, x) (items_of w) <-> i < length fields /\ get i w = Some x.
Proof.
  unfold items_of. rewrite in_flat_map. split.
  - intros (j & I & J). apply in_seq in I. destruct (get j w) eqn:E; [|destruct J]. destruct J as [J|[]]. injection J as -> ->. split; [lia|exact E].
  - intros [L E]. exists i. split; [apply in_seq; lia|]. rewrite E. now left.
Qed.
Lemma items_of_nodup w : NoDup (map fst (items_of w)).
Proof.
  unfold items_of. assert (forall l, NoDup l -> NoDup (map fst (flat_map (fun i => match get i w with Some x => [(i, x)] | None => [] end) l))) as H.
  { induction l as [|i l IH]; intros ND; [constructor|]. inversion_clear ND as [|? ? NI ND']. cbn [flat_map]. rewrite map_app.
    destruct (get i w); cbn [map app fst]; [|auto]. constructor; [|auto]. intros I. apply in_map_iff in I as ([j x'] & <- & I).
    apply in_flat_map in I as (k & I & J). destruct (get k w); [|destruct J]. destruct J as [J|[]]. injection J as -> ->. contradiction. }
  apply H, seq_NoDup.
Qed.

Lemma NoDup_fst {A C} (l : list (A * C)) : NoDup (map fst l) -> NoDup l.
Proof. induction l as [|x l IH]; intros ND; [constructor|]. inversion_clear ND as [|? ? NI ND']. constructor; [|auto]. intros I. apply NI. now apply in_map. Qed.

Lemma struct_iff kvs w' :
  struct_assign fields required setter kvs w0 = Ok w' <->
  exists kvs', Permutation kvs' kvs /\
    Forall2 (fun it kv => (exists k, as_string (fst kv) = Ok k /\ nth_error fields (fst it) = Some k) /\ conv (fst it) (snd kv) = Ok (snd it))
      (items_of w') kvs'.
Proof.
  rewrite struct_assign_iff. split.
  - intros (items & F & ND & R & ->).
    assert (forall i, In i (map fst items) -> i < length fields) as L.
    { intros i I. clear - F I. induction F as [|kv it kvs items M F IH]; [destruct I|]. destruct I as [<-|I]; [|auto].
      destruct M as [(k & _ & E) _]. apply field_index_iff in E as [_ E]. apply nth_error_Some. rewrite Nat.sub_0_r in E. congruence. }
    assert (forall i x, In (i, x) items -> exists v, conv i v = Ok x) as T.
    { intros i x I. clear - F I. induction F as [|kv it kvs items M F IH]; [destruct I|]. destruct I as [->|I]; [|auto].
      destruct M as [_ E]. eauto. }
    assert (Permutation items (items_of (puts items w0))) as P.
    { apply NoDup_Permutation; [now apply NoDup_fst|apply NoDup_fst, items_of_nodup|]. intros [i x]. rewrite in_items_of. split.
      - intros I. assert (i < length fields) as Li by (apply L, in_map_iff; now exists (i, x)). split; [exact Li|].
        rewrite get_puts by auto. destruct (find (fun it => fst it =? i) items) as [[j y]|] eqn:Ef.
        + apply find_some in Ef as [J E]. cbn in E. apply Nat.eqb_eq in E as ->. cbn [snd]. f_equal.
          clear - I J ND. induction items as [|[k z] items IH]; [destruct I|]. cbn [map fst] in ND. inversion_clear ND as [|? ? NI ND'].
          destruct I as [I|I], J as [J|J]; [congruence| | |auto].
          * injection I as -> ->. exfalso. apply NI. apply in_map_iff. now exists (i, y).
          * injection J as -> ->. exfalso. apply NI. apply in_map_iff. now exists (i, x).
        + exfalso. pose proof (find_none _ _ Ef _ I) as E. cbn in E. rewrite Nat.eqb_refl in E. discriminate.
      - intros [Li E]. rewrite get_puts in E by auto. destruct (find (fun it => fst it =? i) items) as [[j y]|] eqn:Ef.
        + apply find_some in Ef as [J Ej]. cbn in Ej. apply Nat.eqb_eq in Ej as ->. cbn in E. injection E as ->. exact J.
        + exfalso. destruct (get_zero i Li) as [Z|Q]; [congruence|]. apply R in Q. apply in_map_iff in Q as ([k z] & Q & I). cbn in Q. subst k.
          pose proof (find_none _ _ Ef _ I) as E'. cbn in E'. rewrite Nat.eqb_refl in E'. discriminate. }
    apply Forall2_flip in F. destruct (Forall2_perm _ _ _ P _ F) as (kvs' & Pk & F'). exists kvs'. split; [now symmetry|].
    eapply Forall2_impl_in; [|exact F']. intros it kv _ [(k & E1 & E2) E3]. split; [|exact E3]. exists k. split; [exact E1|].
    apply field_index_iff in E2 as [_ E2]. now rewrite Nat.sub_0_r in E2.
  - intros (kvs' & P & F). destruct (Forall2_perm _ _ _ P _ (Forall2_flip _ _ _ F)) as (items & Pi & F'). exists items.
    split; [|split; [|split]].
    + eapply Forall2_impl_in; [|exact F']. intros kv it _ [(k & E1 & E2) E3]. split; [|exact E3]. exists k. split; [exact E1|].
      now apply (field_index_nth fields k fields_distinct 0).
    + apply (Permutation_NoDup (Permutation_map fst Pi)), items_of_nodup.
    + intros i I. apply (Permutation_in _ (Permutation_map fst Pi)). destruct (get i w') as [x|] eqn:E; [|destruct (get_required i w' I E)].
      apply in_map_iff. exists (i, x). split; [reflexivity|]. apply in_items_of. auto.
    + apply get_ext. intros i Li. rewrite get_puts; auto.
      2:{ intros j J. apply (Permutation_in _ (Permutation_sym (Permutation_map fst Pi))) in J. apply in_map_iff in J as ([k x] & <- & J). now apply in_items_of in J. }
      2:{ intros j x J. clear - F' J. induction F' as [|kv it l items M F IH]; [destruct J|]. destruct J as [->|J]; [|auto].
          destruct M as [_ E]. eauto. }
      2:{ apply (Permutation_NoDup (Permutation_map fst Pi)), items_of_nodup. }
      destruct (find (fun it => fst it =? i) items) as [[j y]|] eqn:Ef.
      * apply find_some in Ef as [J Ej]. cbn in Ej. apply Nat.eqb_eq in Ej as ->. apply (Permutation_in _ (Permutation_sym Pi)) in J. now apply in_items_of in J.
      * destruct (get i w') as [x|] eqn:E.
        -- exfalso. assert (In (i, x) items) as I by (apply (Permutation_in _ Pi), in_items_of; auto).
           pose proof (find_none _ _ Ef _ I) as E'. cbn in E'. rewrite Nat.eqb_refl in E'. discriminate.
        -- destruct (get_zero i Li) as [Z|Q]; [congruence|]. destruct (get_required i w' Q E).
Qed.
End Struct.

(** ** The four structs *)
Inductive fval := FText (s : bytes) | FLink (l : link) | FPerson (p : person) | FLinks (l : list link) | FTags (l : list tag) | FTexts (l : list bytes).

Lemma struct_assign_ext {W} fields required (f g : nat -> node -> W -> res W) kvs w :
  (forall i v w, i < length fields -> f i v w = g i v w) -> struct_assign fields required f kvs w = struct_assign fields required g kvs w.
Proof.
  intros H. unfold struct_assign. enough (forall seen w, struct_loop fields f kvs seen w = struct_loop fields g kvs seen w) as -> by reflexivity.
  induction kvs as [|[k v] kvs IH]; intros seen w1; [reflexivity|]. cbn [struct_loop]. destruct (as_string k); try reflexivity. cbn [bind].
  destruct (field_index a fields 0) as [i|] eqn:Ei; [|reflexivity]. destruct (existsb _ _); [reflexivity|].
  rewrite H; [destruct (g i v w1); cbn [bind]; auto|]. apply field_index_iff in Ei as [_ Ei]. apply nth_error_Some. rewrite Nat.sub_0_r in Ei. congruence.
Qed.

Lemma map_res_ok {A C} (f : A -> C) r y : map_res f r = Ok y <-> exists x, r = Ok x /\ y = f x.
Proof.
  unfold map_res. split; [intros E; apply bind_ok in E as (x & -> & E); injection E as <-; eauto|]. intros (x & -> & ->). reflexivity.
Qed.

Lemma Forall2_equiv {A A' C} (P : A -> C -> Prop) (Q : A' -> C -> Prop) l l' :
  Forall2 (fun a a' => forall c, P a c <-> Q a' c) l l' -> forall m, Forall2 P l m <-> Forall2 Q l' m.
Proof.
  induction 1 as [|a a' l l' H F IH]; intros m; split; intros X; inversion_clear X; constructor; try (now apply H); now apply IH.
Qed.

(** One field: its number and value against its name and meaning. *)
Lemma one_field fields conv (i : nat) (x : fval) (k : bytes) (M : node -> Prop) :
  nth_error fields i = Some k -> (forall v, conv i v = Ok x <-> M v) ->
  forall kv : node * node,
    ((exists k, as_string (fst kv) = Ok k /\ nth_error fields (fst (i, x)) = Some k) /\ conv (fst (i, x)) (snd kv) = Ok (snd (i, x))) <->
    is_field (k, M) kv.
Proof.
  intros E H kv. cbn [fst snd]. unfold is_field. cbn [fst snd]. rewrite H, is_text_iff, E. split.
  - intros [(k' & A & B) C]. split; [congruence|exact C].
  - intros [A C]. split; [|exact C]. eauto.
Qed.

Lemma text_conv v s : map_res FText (as_string v) = Ok (FText s) <-> is_text v s.
Proof. rewrite map_res_ok, is_text_iff. split; [intros (x & -> & E); congruence|eauto]. Qed.
Lemma link_conv v l : map_res FLink (as_link v) = Ok (FLink l) <-> is_link v l.
Proof. rewrite map_res_ok, is_link_iff. split; [intros (x & -> & E); congruence|eauto]. Qed.

(** *** Persons *)
Definition person_put (i : nat) (x : fval) (p : person) : person :=
  match x, i with
  | FText s, 0 => {| p_date := s; p_timezone := p_timezone p; p_email := p_email p; p_name := p_name p |}
  | FText s, 1 => {| p_date := p_date p; p_timezone := s; p_email := p_email p; p_name := p_name p |}
  | FText s, 2 => {| p_date := p_date p; p_timezone := p_timezone p; p_email := s; p_name := p_name p |}
  | FText s, 3 => {| p_date := p_date p; p_timezone := p_timezone p; p_email := p_email p; p_name := s |}
  | _, _ => p
  end.
Definition person_get (i : nat) (p : person) : option fval :=
  match i with 0 => Some (FText (p_date p)) | 1 => Some (FText (p_timezone p)) | 2 => Some (FText (p_email p)) | 3 => Some (FText (p_name p)) | _ => None end.
Definition person_conv (i : nat) (v : node) : res fval := map_res FText (as_string v).

Lemma person_struct kvs p :
  struct_assign person_fields [0; 1; 2; 3] set_person kvs zero_person = Ok p <->
  exists kvs', Permutation kvs' kvs /\
    Forall2 is_field [ (bs "date", fun x => is_text x (p_date p)); (bs "timezone", fun x => is_text x (p_timezone p));
            (bs "email", fun x => is_text x (p_email p)); (bs "name", fun x => is_text x (p_name p)) ] kvs'.
Proof.
  rewrite (struct_assign_ext _ _ set_person (setter person_conv person_put)).
  2:{ intros i v w Hi. unfold setter, person_conv, set_person, assign_string. destruct (as_string v); try reflexivity. cbn [bind map_res].
      do 4 (destruct i as [|i]; [reflexivity|]). exfalso; cbn in Hi; lia. }
  rewrite (struct_iff person_fields person_conv person_put [0; 1; 2; 3] person_get zero_person).
  - assert (forall m, Forall2 (fun (it : nat * fval) (kv : node * node) => (exists k, as_string (fst kv) = Ok k /\ nth_error person_fields (fst it) = Some k) /\
        person_conv (fst it) (snd kv) = Ok (snd it)) (items_of person_fields person_get p) m <->
      Forall2 is_field [ (bs "date", fun x => is_text x (p_date p)); (bs "timezone", fun x => is_text x (p_timezone p));
            (bs "email", fun x => is_text x (p_email p)); (bs "name", fun x => is_text x (p_name p)) ] m) as H.
    { apply Forall2_equiv. change (items_of person_fields person_get p) with [(0, FText (p_date p)); (1, FText (p_timezone p)); (2, FText (p_email p)); (3, FText (p_name p))].
      do 4 (constructor; [apply one_field; [reflexivity|intros v; apply text_conv]|]). constructor. }
    split; intros (kvs' & P & F); exists kvs'; (split; [exact P|]); now apply H.
  - intros i j v x w Hi Hj E. apply map_res_ok in E as (s & _ & ->).
    do 4 (destruct i as [|i]; [do 4 (destruct j as [|j]; [reflexivity|]); exfalso; cbn in Hj; lia|]). exfalso; cbn in Hi; lia.
  - intros i Hi. right. do 4 (destruct i as [|i]; [cbn; auto|]). exfalso; cbn in Hi; lia.
  - intros [a b c d] [a' b' c' d'] H. pose proof (H 0 ltac:(cbn; lia)) as H0. pose proof (H 1 ltac:(cbn; lia)) as H1.
    pose proof (H 2 ltac:(cbn; lia)) as H2. pose proof (H 3 ltac:(cbn; lia)) as H3. cbn in *. congruence.
  - intros i w I. cbn in I. decompose [or] I; try contradiction; subst i; discriminate.
  - repeat constructor; cbn; intuition discriminate.
  - intros i I. cbn in I. decompose [or] I; try contradiction; subst i; cbn; lia.
Qed.

Lemma assign_person_iff v p : assign_person false v = Ok p <-> holds_person p v.
Proof.
  assert (forall kvs, map_entries v = Some kvs ->
    (struct_assign person_fields [0; 1; 2; 3] set_person kvs zero_person = Ok p <-> holds_person p v)) as K.
  { intros kvs E. rewrite person_struct. unfold holds_person, made_of. split.
    - intros (kvs' & P & F). exists kvs, kvs'. auto.
    - intros (kvs1 & kvs' & E1 & P & F). assert (kvs1 = kvs) as -> by congruence. exists kvs'. auto. }
  assert (forall q, v = NPerson q -> (Ok q = Ok p <-> holds_person p v)) as T.
  { intros q ->. rewrite <- (K _ eq_refl). destruct q. cbn. reflexivity. }
  destruct v; try (apply T; reflexivity);
    try (cbn [assign_person]; rewrite <- (K _ eq_refl); reflexivity);
    (cbn [assign_person map_entries]; split; [discriminate|]; intros (? & ? & X & _); discriminate X).
Qed.

Lemma person_conv_iff v p : map_res FPerson (assign_person false v) = Ok (FPerson p) <-> holds_person p v.
Proof. rewrite map_res_ok, <- assign_person_iff. split; [intros (x & -> & E); congruence|eauto]. Qed.

(** *** Tree entries *)
Definition entry_put (i : nat) (x : fval) (e : entry) : entry :=
  match x, i with
  | FText s, 0 => {| e_mode := s; e_hash := e_hash e |}
  | FLink l, 1 => {| e_mode := e_mode e; e_hash := l |}
  | _, _ => e
  end.
Definition entry_get (i : nat) (e : entry) : option fval :=
  match i with 0 => Some (FText (e_mode e)) | 1 => Some (FLink (e_hash e)) | _ => None end.
Definition entry_conv (i : nat) (v : node) : res fval :=
  match i with 0 => map_res FText (as_string v) | _ => map_res FLink (as_link v) end.

Lemma assign_entry_iff v e : assign_entry v = Ok e <-> holds_entry e v.
Proof.
  assert (forall kvs, struct_assign entry_fields [0; 1] set_entry kvs zero_entry = Ok e <->
    exists kvs', Permutation kvs' kvs /\
      Forall2 is_field [ (bs "mode", fun x => is_text x (e_mode e)); (bs "hash", fun x => is_link x (e_hash e)) ] kvs') as X.
  { intros kvs. rewrite (struct_assign_ext _ _ set_entry (setter entry_conv entry_put)).
    2:{ intros i u w Hi. unfold setter, entry_conv, set_entry, assign_string, assign_link.
        destruct i as [|[|i]]; [destruct (as_string u); reflexivity|destruct (as_link u); reflexivity|]. exfalso; cbn in Hi; lia. }
    rewrite (struct_iff entry_fields entry_conv entry_put [0; 1] entry_get zero_entry).
    - assert (forall m, Forall2 (fun (it : nat * fval) (kv : node * node) => (exists k, as_string (fst kv) = Ok k /\ nth_error entry_fields (fst it) = Some k) /\
          entry_conv (fst it) (snd kv) = Ok (snd it)) (items_of entry_fields entry_get e) m <->
        Forall2 is_field [ (bs "mode", fun x => is_text x (e_mode e)); (bs "hash", fun x => is_link x (e_hash e)) ] m) as H.
      { apply Forall2_equiv. change (items_of entry_fields entry_get e) with [(0, FText (e_mode e)); (1, FLink (e_hash e))].
        constructor; [apply one_field; [reflexivity|intros u; apply text_conv]|].
        constructor; [apply one_field; [reflexivity|intros u; apply link_conv]|]. constructor. }
      split; intros (kvs' & P & F); exists kvs'; (split; [exact P|]); now apply H.
    - intros i j u x w Hi Hj E. destruct i as [|[|i]], j as [|[|j]]; try (exfalso; cbn in Hi, Hj; lia); apply map_res_ok in E as (s & _ & ->); reflexivity.
    - intros i Hi. right. destruct i as [|[|i]]; [cbn; auto..|]. exfalso; cbn in Hi; lia.
    - intros [a b] [a' b'] H. pose proof (H 0 ltac:(cbn; lia)) as H0. pose proof (H 1 ltac:(cbn; lia)) as H1. cbn in *. congruence.
    - intros i w I. cbn in I. decompose [or] I; try contradiction; subst i; discriminate.
    - repeat constructor; cbn; intuition discriminate.
    - intros i I. cbn in I. decompose [or] I; try contradiction; subst i; cbn; lia. }
  assert (forall kvs, map_entries v = Some kvs -> (struct_assign entry_fields [0; 1] set_entry kvs zero_entry = Ok e <-> holds_entry e v)) as K.
  { intros kvs E. rewrite X. unfold holds_entry, made_of. split.
    - intros (kvs' & P & F). exists kvs, kvs'. auto.
    - intros (kvs1 & kvs' & E1 & P & F). assert (kvs1 = kvs) as -> by congruence. exists kvs'. auto. }
  assert (forall q, v = NEntry q -> (Ok q = Ok e <-> holds_entry e v)) as T.
  { intros q ->. rewrite <- (K _ eq_refl). destruct q. cbn. reflexivity. }
  destruct v; try (apply T; reflexivity);
    try (cbn [assign_entry]; rewrite <- (K _ eq_refl); reflexivity);
    (cbn [assign_entry map_entries]; split; [discriminate|]; intros (? & ? & Y & _); discriminate Y).
Qed.

(** *** Tags *)
Definition tag_put (i : nat) (x : fval) (t : tag) : tag :=
  match x, i with
  | FLink l, 0 => {| t_object := l; t_type := t_type t; t_tag := t_tag t; t_tagger := t_tagger t; t_message := t_message t |}
  | FText s, 1 => {| t_object := t_object t; t_type := s; t_tag := t_tag t; t_tagger := t_tagger t; t_message := t_message t |}
  | FText s, 2 => {| t_object := t_object t; t_type := t_type t; t_tag := s; t_tagger := t_tagger t; t_message := t_message t |}
  | FPerson p, 3 => {| t_object := t_object t; t_type := t_type t; t_tag := t_tag t; t_tagger := p; t_message := t_message t |}
  | FText s, 4 => {| t_object := t_object t; t_type := t_type t; t_tag := t_tag t; t_tagger := t_tagger t; t_message := s |}
  | _, _ => t
  end.
Definition tag_get (i : nat) (t : tag) : option fval :=
  match i with
  | 0 => Some (FLink (t_object t)) | 1 => Some (FText (t_type t)) | 2 => Some (FText (t_tag t))
  | 3 => Some (FPerson (t_tagger t)) | 4 => Some (FText (t_message t)) | _ => None
  end.
Definition tag_conv (i : nat) (v : node) : res fval :=
  match i with 0 => map_res FLink (as_link v) | 3 => map_res FPerson (assign_person false v) | _ => map_res FText (as_string v) end.

Lemma assign_tag_iff v t : assign_tag v = Ok t <-> holds_tag t v.
Proof.
  assert (forall kvs, struct_assign tag_fields [0; 1; 2; 3; 4] set_tag kvs zero_tag = Ok t <->
    exists kvs', Permutation kvs' kvs /\
      Forall2 is_field [ (bs "object", fun x => is_link x (t_object t)); (bs "type", fun x => is_text x (t_type t));
            (bs "tag", fun x => is_text x (t_tag t)); (bs "tagger", holds_person (t_tagger t));
            (bs "message", fun x => is_text x (t_message t)) ] kvs') as X.
  { intros kvs. rewrite (struct_assign_ext _ _ set_tag (setter tag_conv tag_put)).
    2:{ intros i u w Hi. unfold setter, tag_conv, set_tag, assign_string, assign_link.
        destruct i as [|[|[|[|[|i]]]]]; try (exfalso; cbn in Hi; lia);
          [destruct (as_link u)|destruct (as_string u)|destruct (as_string u)|destruct (assign_person false u)|destruct (as_string u)]; reflexivity. }
    rewrite (struct_iff tag_fields tag_conv tag_put [0; 1; 2; 3; 4] tag_get zero_tag).
    - assert (forall m, Forall2 (fun (it : nat * fval) (kv : node * node) => (exists k, as_string (fst kv) = Ok k /\ nth_error tag_fields (fst it) = Some k) /\
          tag_conv (fst it) (snd kv) = Ok (snd it)) (items_of tag_fields tag_get t) m <->
        Forall2 is_field [ (bs "object", fun x => is_link x (t_object t)); (bs "type", fun x => is_text x (t_type t));
            (bs "tag", fun x => is_text x (t_tag t)); (bs "tagger", holds_person (t_tagger t));
            (bs "message", fun x => is_text x (t_message t)) ] m) as H.
      { apply Forall2_equiv.
        change (items_of tag_fields tag_get t) with [(0, FLink (t_object t)); (1, FText (t_type t)); (2, FText (t_tag t)); (3, FPerson (t_tagger t)); (4, FText (t_message t))].
        constructor; [apply one_field; [reflexivity|intros u; apply link_conv]|].
        constructor; [apply one_field; [reflexivity|intros u; apply text_conv]|].
        constructor; [apply one_field; [reflexivity|intros u; apply text_conv]|].
        constructor; [apply one_field; [reflexivity|intros u; apply person_conv_iff]|].
        constructor; [apply one_field; [reflexivity|intros u; apply text_conv]|]. constructor. }
      split; intros (kvs' & P & F); exists kvs'; (split; [exact P|]); now apply H.
    - intros i j u x w Hi Hj E. destruct i as [|[|[|[|[|i]]]]], j as [|[|[|[|[|j]]]]]; try (exfalso; cbn in Hi, Hj; lia);
        apply map_res_ok in E as (s & _ & ->); reflexivity.
    - intros i Hi. right. destruct i as [|[|[|[|[|i]]]]]; [cbn; auto 10..|]. exfalso; cbn in Hi; lia.
    - intros [a b c d e] [a' b' c' d' e'] H. pose proof (H 0 ltac:(cbn; lia)) as H0. pose proof (H 1 ltac:(cbn; lia)) as H1.
      pose proof (H 2 ltac:(cbn; lia)) as H2. pose proof (H 3 ltac:(cbn; lia)) as H3. pose proof (H 4 ltac:(cbn; lia)) as H4. cbn in *. congruence.
    - intros i w I. cbn in I. decompose [or] I; try contradiction; subst i; discriminate.
    - repeat constructor; cbn; intuition discriminate.
    - intros i I. cbn in I. decompose [or] I; try contradiction; subst i; cbn; lia. }
  assert (forall kvs, map_entries v = Some kvs -> (struct_assign tag_fields [0; 1; 2; 3; 4] set_tag kvs zero_tag = Ok t <-> holds_tag t v)) as K.
  { intros kvs E. rewrite X. unfold holds_tag, made_of. split.
    - intros (kvs' & P & F). exists kvs, kvs'. auto.
    - intros (kvs1 & kvs' & E1 & P & F). assert (kvs1 = kvs) as -> by congruence. exists kvs'. auto. }
  assert (forall q, v = NTag q -> (Ok q = Ok t <-> holds_tag t v)) as T.
  { intros q ->. rewrite <- (K _ eq_refl). destruct q. cbn. reflexivity. }
  destruct v; try (apply T; reflexivity);
    try (cbn [assign_tag]; rewrite <- (K _ eq_refl); reflexivity);
    (cbn [assign_tag map_entries]; split; [discriminate|]; intros (? & ? & Y & _); discriminate Y).
Qed.

(** *** Lists *)
Lemma assign_items_iff {A} (f : node -> res A) (P : A -> node -> Prop) : (forall v a, f v = Ok a <-> P a v) ->
  forall items l, assign_items f items = Ok l <-> Forall2 P l items.
Proof.
  intros H. induction items as [|v items IH]; intros l; cbn [assign_items].
  - split; [intros E; injection E as <-; constructor|]. intros F. inversion F. reflexivity.
  - split.
    + intros E. apply bind_ok in E as (a & Ea & E). apply bind_ok in E as (r & Er & E). injection E as <-. constructor; [now apply H|now apply IH].
    + intros F. destruct l as [|a l]; inversion_clear F as [|? ? ? ? Pa F']. apply H in Pa. rewrite Pa. cbn [bind]. apply IH in F'. rewrite F'. reflexivity.
Qed.
Lemma assign_list_iff {A} (f : node -> res A) (P : A -> node -> Prop) : (forall v a, f v = Ok a <-> P a v) ->
  forall v l, assign_list f v = Ok l <-> list_of P l v.
Proof.
  intros H v l. unfold assign_list, list_of. destruct (list_items v) as [items|].
  - rewrite (assign_items_iff f P H). split; [eauto|]. intros (i & E & F). congruence.
  - split; [discriminate|]. intros (i & E & _). discriminate E.
Qed.

Lemma Forall2_map_self {A} (P : A -> node -> Prop) (g : A -> node) : (forall a b, P a (g b) <-> a = b) ->
  forall l m, Forall2 P l (map g m) <-> l = m.
Proof.
  intros H l. induction l as [|a l IH]; intros [|b m]; cbn [map]; split; intros X; try discriminate; try (inversion X; fail); try constructor.
  - inversion_clear X as [|? ? ? ? Pa F]. apply H in Pa as ->. apply IH in F as ->. reflexivity.
  - injection X as -> ->. now apply H.
  - injection X as -> ->. now apply IH.
Qed.

Lemma assign_link_list_iff v l : assign_link_list v = Ok l <-> list_of (fun l x => is_link x l) l v.
Proof.
  assert (forall m, v = NCommitLinkList m -> (Ok m = Ok l <-> list_of (fun l x => is_link x l) l v)) as T.
  { intros m ->. unfold list_of. cbn [list_items]. split.
    - intros E. injection E as ->. exists (map NCommitLink l). split; [reflexivity|]. apply Forall2_map_self; [|reflexivity].
      intros a b. split; [intros X; now inversion X|]. intros ->. constructor.
    - intros (i & E & F). injection E as <-. f_equal. symmetry. revert F. apply Forall2_map_self.
      intros a b. split; [intros X; now inversion X|]. intros ->. constructor. }
  destruct v; try (apply T; reflexivity); cbn [assign_link_list]; apply assign_list_iff; intros u a; symmetry; apply is_link_iff.
Qed.
Lemma assign_string_list_iff v l : assign_string_list v = Ok l <-> list_of (fun s x => is_text x s) l v.
Proof.
  assert (forall m, v = NStringList m -> (Ok m = Ok l <-> list_of (fun s x => is_text x s) l v)) as T.
  { intros m ->. unfold list_of. cbn [list_items]. split.
    - intros E. injection E as ->. exists (map NString l). split; [reflexivity|]. apply Forall2_map_self; [|reflexivity].
      intros a b. split; [intros X; now inversion X|]. intros ->. constructor.
    - intros (i & E & F). injection E as <-. f_equal. symmetry. revert F. apply Forall2_map_self.
      intros a b. split; [intros X; now inversion X|]. intros ->. constructor. }
  destruct v; try (apply T; reflexivity); cbn [assign_string_list]; apply assign_list_iff; intros u a; symmetry; apply is_text_iff.
Qed.
Lemma assign_tag_list_iff v l : assign_tag_list v = Ok l <-> list_of holds_tag l v.
Proof.
  assert (forall a b, holds_tag a (NTag b) <-> a = b) as Q.
  { intros a b. rewrite <- assign_tag_iff. cbn [assign_tag]. split; congruence. }
  assert (forall m, v = NTagList m -> (Ok m = Ok l <-> list_of holds_tag l v)) as T.
  { intros m ->. unfold list_of. cbn [list_items]. split.
    - intros E. injection E as ->. exists (map NTag l). split; [reflexivity|]. now apply Forall2_map_self.
    - intros (i & E & F). injection E as <-. f_equal. symmetry. revert F. now apply Forall2_map_self. }
  destruct v; try (apply T; reflexivity); cbn [assign_tag_list]; apply assign_list_iff; intros u a; apply assign_tag_iff.
Qed.

(** *** Commits *)
Lemma assign_person_nil v p : assign_person true v = Ok p <-> v = NPerson p.
Proof.
  assert (forall kvs, struct_assign person_fields [0; 1; 2; 3] (fun _ _ _ => Panic) kvs zero_person <> Ok p) as N.
  { intros kvs. unfold struct_assign. destruct kvs as [|[k u] kvs]; [discriminate|]. cbn [struct_loop].
    destruct (as_string k); cbn [bind]; try discriminate. destruct (field_index a person_fields 0); discriminate. }
  split; [|intros ->; reflexivity]. intros E.
  destruct v; cbn [assign_person] in E; try discriminate E; try (injection E as ->; reflexivity);
    cbn [map_entries] in E; try discriminate E; exfalso; exact (N _ E).
Qed.

Definition commit_put (i : nat) (x : fval) (c : commit) : commit :=
  match x, i with
  | FLink l, 0 => {| c_tree := l; c_parents := c_parents c; c_message := c_message c; c_author := c_author c; c_committer := c_committer c; c_encoding := c_encoding c; c_signature := c_signature c; c_mergetag := c_mergetag c; c_other := c_other c |}
  | FLinks l, 1 => {| c_tree := c_tree c; c_parents := l; c_message := c_message c; c_author := c_author c; c_committer := c_committer c; c_encoding := c_encoding c; c_signature := c_signature c; c_mergetag := c_mergetag c; c_other := c_other c |}
  | FText s, 2 => {| c_tree := c_tree c; c_parents := c_parents c; c_message := s; c_author := c_author c; c_committer := c_committer c; c_encoding := c_encoding c; c_signature := c_signature c; c_mergetag := c_mergetag c; c_other := c_other c |}
  | FPerson p, 3 => {| c_tree := c_tree c; c_parents := c_parents c; c_message := c_message c; c_author := Some p; c_committer := c_committer c; c_encoding := c_encoding c; c_signature := c_signature c; c_mergetag := c_mergetag c; c_other := c_other c |}
  | FPerson p, 4 => {| c_tree := c_tree c; c_parents := c_parents c; c_message := c_message c; c_author := c_author c; c_committer := Some p; c_encoding := c_encoding c; c_signature := c_signature c; c_mergetag := c_mergetag c; c_other := c_other c |}
  | FText s, 5 => {| c_tree := c_tree c; c_parents := c_parents c; c_message := c_message c; c_author := c_author c; c_committer := c_committer c; c_encoding := Some s; c_signature := c_signature c; c_mergetag := c_mergetag c; c_other := c_other c |}
  | FText s, 6 => {| c_tree := c_tree c; c_parents := c_parents c; c_message := c_message c; c_author := c_author c; c_committer := c_committer c; c_encoding := c_encoding c; c_signature := Some s; c_mergetag := c_mergetag c; c_other := c_other c |}
  | FTags l, 7 => {| c_tree := c_tree c; c_parents := c_parents c; c_message := c_message c; c_author := c_author c; c_committer := c_committer c; c_encoding := c_encoding c; c_signature := c_signature c; c_mergetag := l; c_other := c_other c |}
  | FTexts l, 8 => {| c_tree := c_tree c; c_parents := c_parents c; c_message := c_message c; c_author := c_author c; c_committer := c_committer c; c_encoding := c_encoding c; c_signature := c_signature c; c_mergetag := c_mergetag c; c_other := l |}
  | _, _ => c
  end.
Definition commit_get (i : nat) (c : commit) : option fval :=
  match i with
  | 0 => Some (FLink (c_tree c)) | 1 => Some (FLinks (c_parents c)) | 2 => Some (FText (c_message c))
  | 3 => option_map FPerson (c_author c) | 4 => option_map FPerson (c_committer c)
  | 5 => option_map FText (c_encoding c) | 6 => option_map FText (c_signature c)
  | 7 => Some (FTags (c_mergetag c)) | 8 => Some (FTexts (c_other c)) | _ => None
  end.
Definition commit_conv (i : nat) (v : node) : res fval :=
  match i with
  | 0 => map_res FLink (as_link v)
  | 1 => map_res FLinks (assign_link_list v)
  | 3 | 4 => map_res FPerson (assign_person true v)
  | 7 => map_res FTags (assign_tag_list v)
  | 8 => map_res FTexts (assign_string_list v)
  | _ => map_res FText (as_string v)
  end.

Lemma conv_gen {A} (F : A -> fval) (f : node -> res A) (P : A -> node -> Prop) :
  (forall a b, F a = F b -> a = b) -> (forall v a, f v = Ok a <-> P a v) ->
  forall v a, map_res F (f v) = Ok (F a) <-> P a v.
Proof. intros I H v a. rewrite map_res_ok, <- H. split; [intros (x & -> & E); f_equal; symmetry; auto|eauto]. Qed.

Lemma commit_struct kvs c :
  struct_assign Nodes.commit_fields [0; 1; 2; 7; 8] set_commit kvs zero_commit = Ok c <->
  exists kvs', Permutation kvs' kvs /\ Forall2 is_field
    ([ (bs "tree", fun x => is_link x (c_tree c));
             (bs "parents", list_of (fun l x => is_link x l) (c_parents c));
             (bs "message", fun x => is_text x (c_message c)) ]
           ++ when (c_author c) (fun p => (bs "author", fun x => x = NPerson p))
           ++ when (c_committer c) (fun p => (bs "committer", fun x => x = NPerson p))
           ++ when (c_encoding c) (fun e => (bs "encoding", fun x => is_text x e))
           ++ when (c_signature c) (fun s => (bs "signature", fun x => is_text x s))
           ++ [ (bs "mergetag", list_of holds_tag (c_mergetag c));
                (bs "other", list_of (fun s x => is_text x s) (c_other c)) ]) kvs'.
Proof.
  rewrite (struct_assign_ext _ _ set_commit (setter commit_conv commit_put)).
  2:{ intros i u w Hi. unfold setter, commit_conv, set_commit, assign_string, assign_link.
      destruct i as [|[|[|[|[|[|[|[|[|i]]]]]]]]]; try (exfalso; cbn in Hi; lia);
        [destruct (as_link u)|destruct (assign_link_list u)|destruct (as_string u)|destruct (assign_person true u)|destruct (assign_person true u)
        |destruct (as_string u)|destruct (as_string u)|destruct (assign_tag_list u)|destruct (assign_string_list u)]; reflexivity. }
  rewrite (struct_iff Nodes.commit_fields commit_conv commit_put [0; 1; 2; 7; 8] commit_get zero_commit).
  - assert (forall m, Forall2 (fun (it : nat * fval) (kv : node * node) => (exists k, as_string (fst kv) = Ok k /\ nth_error Nodes.commit_fields (fst it) = Some k) /\
        commit_conv (fst it) (snd kv) = Ok (snd it)) (items_of Nodes.commit_fields commit_get c) m <->
      Forall2 is_field ([ (bs "tree", fun x => is_link x (c_tree c));
             (bs "parents", list_of (fun l x => is_link x l) (c_parents c));
             (bs "message", fun x => is_text x (c_message c)) ]
           ++ when (c_author c) (fun p => (bs "author", fun x => x = NPerson p))
           ++ when (c_committer c) (fun p => (bs "committer", fun x => x = NPerson p))
           ++ when (c_encoding c) (fun e => (bs "encoding", fun x => is_text x e))
           ++ when (c_signature c) (fun s => (bs "signature", fun x => is_text x s))
           ++ [ (bs "mergetag", list_of holds_tag (c_mergetag c));
                (bs "other", list_of (fun s x => is_text x s) (c_other c)) ]) m) as H.
    { apply Forall2_equiv.
      change (items_of Nodes.commit_fields commit_get c) with
        ([(0, FLink (c_tree c)); (1, FLinks (c_parents c)); (2, FText (c_message c))]
         ++ match option_map FPerson (c_author c) with Some x => [(3, x)] | None => [] end
         ++ match option_map FPerson (c_committer c) with Some x => [(4, x)] | None => [] end
         ++ match option_map FText (c_encoding c) with Some x => [(5, x)] | None => [] end
         ++ match option_map FText (c_signature c) with Some x => [(6, x)] | None => [] end
         ++ [(7, FTags (c_mergetag c)); (8, FTexts (c_other c))]).
      apply Forall2_app; [|apply Forall2_app; [|apply Forall2_app; [|apply Forall2_app; [|apply Forall2_app]]]].
      - constructor; [apply one_field; [reflexivity|intros u; apply link_conv]|].
        constructor; [apply one_field; [reflexivity|intros u; apply (conv_gen FLinks assign_link_list (list_of (fun l x => is_link x l))); [congruence|exact assign_link_list_iff]]|].
        constructor; [apply one_field; [reflexivity|intros u; apply text_conv]|]. constructor.
      - destruct (c_author c); [|constructor]. constructor; [|constructor]. apply one_field; [reflexivity|].
        intros u. apply (conv_gen FPerson (assign_person true) (fun p x => x = NPerson p)); [congruence|exact assign_person_nil].
      - destruct (c_committer c); [|constructor]. constructor; [|constructor]. apply one_field; [reflexivity|].
        intros u. apply (conv_gen FPerson (assign_person true) (fun p x => x = NPerson p)); [congruence|exact assign_person_nil].
      - destruct (c_encoding c); [|constructor]. constructor; [|constructor]. apply one_field; [reflexivity|intros u; apply text_conv].
      - destruct (c_signature c); [|constructor]. constructor; [|constructor]. apply one_field; [reflexivity|intros u; apply text_conv].
      - constructor; [apply one_field; [reflexivity|intros u; apply (conv_gen FTags assign_tag_list (list_of holds_tag)); [congruence|exact assign_tag_list_iff]]|].
        constructor; [apply one_field; [reflexivity|intros u; apply (conv_gen FTexts assign_string_list (list_of (fun s x => is_text x s))); [congruence|exact assign_string_list_iff]]|].
        constructor. }
    split; intros (kvs' & P & F); exists kvs'; (split; [exact P|]); now apply H.
  - intros i j u x w Hi Hj E.
    destruct j as [|[|[|[|[|[|[|[|[|j]]]]]]]]]; try (exfalso; cbn in Hi, Hj; lia); apply map_res_ok in E as (s & _ & ->);
    destruct i as [|[|[|[|[|[|[|[|[|i]]]]]]]]]; try (exfalso; cbn in Hi, Hj; lia); reflexivity.
  - intros i Hi. destruct i as [|[|[|[|[|[|[|[|[|i]]]]]]]]]; try (left; reflexivity); try (right; cbn; now auto 10).
  - intros [a b c0 d e f g h i] [a' b' c' d' e' f' g' h' i'] H.
    pose proof (H 0 ltac:(cbn; lia)) as H0. pose proof (H 1 ltac:(cbn; lia)) as H1. pose proof (H 2 ltac:(cbn; lia)) as H2.
    pose proof (H 3 ltac:(cbn; lia)) as H3. pose proof (H 4 ltac:(cbn; lia)) as H4. pose proof (H 5 ltac:(cbn; lia)) as H5.
    pose proof (H 6 ltac:(cbn; lia)) as H6. pose proof (H 7 ltac:(cbn; lia)) as H7. pose proof (H 8 ltac:(cbn; lia)) as H8.
    clear H. cbn in *. assert (d = d') as -> by (destruct d, d'; cbn in H3; congruence). assert (e = e') as -> by (destruct e, e'; cbn in H4; congruence).
    assert (f = f') as -> by (destruct f, f'; cbn in H5; congruence). assert (g = g') as -> by (destruct g, g'; cbn in H6; congruence). congruence.
  - intros i w I. cbn in I. decompose [or] I; try contradiction; subst i; discriminate.
  - repeat constructor; cbn; intuition discriminate.
  - intros i I. cbn in I. decompose [or] I; try contradiction; subst i; cbn; lia.
Qed.

Lemma assign_commit_iff v c : assign_commit v = Ok c <-> v = NCommit c \/ holds_commit c v.
Proof.
  assert (forall kvs, map_entries v = Some kvs -> (struct_assign Nodes.commit_fields [0; 1; 2; 7; 8] set_commit kvs zero_commit = Ok c <-> holds_commit c v)) as K.
  { intros kvs E. rewrite commit_struct. unfold holds_commit, made_of. split.
    - intros (kvs' & P & F). exists kvs, kvs'. auto.
    - intros (kvs1 & kvs' & E1 & P & F). assert (kvs1 = kvs) as -> by congruence. exists kvs'. auto. }
  assert (forall q, v = NCommit q -> (Ok q = Ok c <-> v = NCommit c \/ holds_commit c v)) as T.
  { intros q ->. split; [intros E; left; congruence|]. intros [E|E]; [congruence|]. apply (K _ eq_refl) in E.
    destruct q as [tr ps m a cm en sg mt ot]. cbn [c_tree c_parents c_message c_author c_committer c_encoding c_signature c_mergetag c_other] in E.
    destruct a as [a|]; [|discriminate E]. destruct cm as [cm|]; [|discriminate E]. destruct en as [en|]; [|discriminate E]. destruct sg as [sg|]; [|discriminate E].
    exact E. }
  destruct v; try (apply T; reflexivity);
    try (cbn [assign_commit]; rewrite (K _ eq_refl); split; [auto|]; intros [X|X]; [discriminate X|exact X]);
    (cbn [assign_commit map_entries]; split; [discriminate|]; intros [X|(? & ? & Y & _)]; [discriminate X|discriminate Y]).
Qed.
