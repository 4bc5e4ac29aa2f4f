(** The machine of Builder.v follows the phases of BuilderSpec.v. *)
From Verif Require Import Base Builder BuilderSpec.

Lemma snoc_match {X Y} (l : list X) x (a b : Y) : match l ++ [x] with [] => a | _ :: _ => b end = b.
Proof. now destruct l. Qed.

(** ** Lists *)
Lemma nth_upd {X} (g : X -> X) l : forall i j, nth_error (upd i g l) j = if i =? j then option_map g (nth_error l j) else nth_error l j.
Proof.
  induction l as [|x l IH]; intros [|i] [|j]; cbn; auto; try (destruct (i =? j); reflexivity).
Qed.
Lemma upd_length {X} (g : X -> X) l : forall i, length (upd i g l) = length l.
Proof. induction l as [|x l IH]; intros [|i]; cbn; auto. Qed.
Lemma nth_upd_same {X} (g : X -> X) l i x : nth_error l i = Some x -> nth_error (upd i g l) i = Some (g x).
Proof. intros H. now rewrite nth_upd, Nat.eqb_refl, H. Qed.
Lemma nth_upd_other {X} (g : X -> X) l i j : i <> j -> nth_error (upd i g l) j = nth_error l j.
Proof. intros H. rewrite nth_upd. now destruct (Nat.eqb_spec i j). Qed.
Lemma nth_ext_eq {X} (l l' : list X) : (forall i, nth_error l i = nth_error l' i) -> l = l'.
Proof.
  revert l'; induction l as [|x l IH]; intros [|y l'] H; auto; try (specialize (H 0); discriminate).
  pose proof (H 0) as H0. injection H0 as ->. f_equal. apply IH. intros i. exact (H (S i)).
Qed.
Lemma nth_len {X} (l : list X) i : i < length l -> exists x, nth_error l i = Some x.
Proof. intros H. destruct (nth_error l i) eqn:E; [eauto|]. apply nth_error_None in E. lia. Qed.
Lemma nth_lt {X} (l : list X) i x : nth_error l i = Some x -> i < length l.
Proof. intros H. apply nth_error_Some. congruence. Qed.
Lemma set_last_snoc {X} (g : X -> X) l x : set_last g (l ++ [x]) = l ++ [g x].
Proof. unfold set_last. rewrite rev_app_distr. cbn. now rewrite rev_involutive. Qed.
Lemma nth_default {X} (l : list X) i d x : nth_error l i = Some x -> nth i l d = x.
Proof. revert i; induction l; intros [|i]; cbn; try discriminate; [congruence|auto]. Qed.
Lemma mem_nat_iff i l : mem_nat i l = true <-> In i l.
Proof.
  unfold mem_nat. rewrite existsb_exists. split; [intros (x & H & E); apply Nat.eqb_eq in E; now subst|].
  intros H. exists i. split; [assumption|apply Nat.eqb_refl].
Qed.
Lemma mem_bytes_iff k l : mem_bytes k l = true <-> In k l.
Proof.
  unfold mem_bytes. rewrite existsb_exists. split.
  - intros (x & H & E). destruct (beqb_spec k x); [now subst|discriminate].
  - intros H. exists k. split; [assumption|apply beqb_refl].
Qed.
Lemma skind_eqb_iff a b : skind_eqb a b = true <-> a = b.
Proof. destruct a, b; cbn; split; congruence. Qed.
Lemma upd_same {X} i (g : X -> X) l x : nth_error l i = Some x -> g x = x -> upd i g l = l.
Proof.
  revert i; induction l as [|y l IH]; intros [|i] H E; cbn in *; try discriminate; [congruence|].
  f_equal. eapply IH; eassumption.
Qed.

Lemma upd_ext_at {X} i (g h : X -> X) l x : nth_error l i = Some x -> g x = h x -> upd i g l = upd i h l.
Proof.
  revert i; induction l as [|y l IH]; intros [|i] H E; cbn in *; try discriminate; [congruence|].
  f_equal. eapply IH; eassumption.
Qed.
Lemma upd_upd {X} i (g h : X -> X) l : upd i g (upd i h l) = upd i (fun x => g (h x)) l.
Proof. revert i; induction l as [|y l IH]; intros [|i]; cbn; f_equal; auto. Qed.

(** ** Types *)
Section TyInd.
Variable P : ty -> Prop.
Hypothesis Hs : forall k, P (TScalar k).
Hypothesis Hl : forall e, P e -> P (TList e).
Hypothesis Ht : forall e, P e -> P (TTree e).
Hypothesis Hst : forall fs, (forall f, In f fs -> P (f_type f)) -> P (TStruct fs).
Fixpoint ty_induct (t : ty) : P t :=
  match t with
  | TScalar k => Hs k
  | TList e => Hl e (ty_induct e)
  | TTree e => Ht e (ty_induct e)
  | TStruct fs => Hst fs ((fix go (fs : list field) : forall f, In f fs -> P (f_type f) :=
      match fs with
      | [] => fun f F => match F with end
      | g :: r => fun f F => match F with
                  | or_introl E => match E in _ = f' return P (f_type f') with eq_refl => ty_induct (snd g) end
                  | or_intror F' => go r f F'
                  end
      end) fs)
  end.
End TyInd.

Lemma zero_struct fs : zero (TStruct fs) = VStruct (map zero_slot fs).
Proof. cbn [zero]. f_equal. Qed.
Lemma asm0_struct fs : asm0 (TStruct fs) = A own0 (map (fun f => asm0 (f_type f)) fs).
Proof. cbn [asm0]. f_equal. Qed.

(** Pointers only to structs, as in the schema *)
Fixpoint pointers_to_structs (t : ty) : Prop :=
  match t with
  | TScalar _ => True
  | TList e | TTree e => pointers_to_structs e
  | TStruct fs => (fix go (fs : list field) : Prop := match fs with
      | [] => True
      | f :: r => (snd (fst f) = OptionalPointer -> exists g, snd f = TStruct g) /\ pointers_to_structs (snd f) /\ go r
      end) fs
  end.
Lemma pointers_struct fs : pointers_to_structs (TStruct fs) ->
  forall f, In f fs -> (f_kind f = OptionalPointer -> exists g, f_type f = TStruct g) /\ pointers_to_structs (f_type f).
Proof.
  cbn [pointers_to_structs]. induction fs as [|g fs IH]; intros H f F; [contradiction|].
  destruct H as (H1 & H2 & H3). destruct F as [<-|F]; [split; assumption|now apply IH].
Qed.

Section Rep.
Context (repr : bool).

Definition nilw (c : asm) : Prop := repr = false -> o_w (a_own c) = WNil.

(** An assembler that is not in use: nothing pending in [cm], no child in use; if
    [fresh], ready for a new value. *)
Fixpoint idle (fresh : bool) (t : ty) (x : asm) {struct t} : Prop :=
  match t with
  | TScalar _ => True
  | TList e => (o_cm (a_own x) = MAbsent /\ (fresh = true -> o_st (a_own x) = Initial /\ o_s (a_own x) = [])) /\
               exists c, a_ch x = [c] /\ nilw c /\ idle fresh e c
  | TTree e => (o_cm (a_own x) = MAbsent /\ (fresh = true -> o_st (a_own x) = Initial /\ o_s (a_own x) = [])) /\
               exists k c, a_ch x = [k; c] /\ nilw k /\ nilw c /\ idle fresh e c
  | TStruct fs => (o_cm (a_own x) = MAbsent /\ (fresh = true -> o_st (a_own x) = Initial /\ o_s (a_own x) = [])) /\
     (fix go (fs : list field) (ch : list asm) : Prop := match fs, ch with
      | [], [] => True
      | f :: fs', c :: ch' => (snd (fst f) = Required -> nilw c) /\ idle fresh (snd f) c /\ go fs' ch'
      | _, _ => False
      end) fs (a_ch x)
  end.

Lemma idle_struct fresh fs x : idle fresh (TStruct fs) x <->
  (o_cm (a_own x) = MAbsent /\ (fresh = true -> o_st (a_own x) = Initial /\ o_s (a_own x) = [])) /\
  length (a_ch x) = length fs /\
  forall j f c, nth_error fs j = Some f -> nth_error (a_ch x) j = Some c ->
    (f_kind f = Required -> nilw c) /\ idle fresh (f_type f) c.
Proof.
  cbn [idle]. apply and_iff_compat_l. generalize (a_ch x) as ch. clear x.
  induction fs as [|f fs IH]; intros [|c ch]; cbn [length].
  - split; [intros _; split; [reflexivity|intros [|j] f c; discriminate]|auto].
  - split; [contradiction|intros [H _]; discriminate].
  - split; [contradiction|intros [H _]; discriminate].
  - split.
    + intros (H1 & H2 & H3). apply IH in H3 as [L H3]. split; [congruence|].
      intros [|j] g d Ef Ec; cbn in Ef, Ec; [|eapply H3; eassumption]. injection Ef as <-. injection Ec as <-. split; assumption.
    + intros [L H]. split; [apply (H 0 f c); reflexivity|]. split; [apply (H 0 f c); reflexivity|].
      apply IH. split; [congruence|]. intros j g d Ef Ec. exact (H (S j) g d Ef Ec).
Qed.

Lemma idle_old t : forall x, idle true t x -> idle false t x.
Proof.
  induction t as [k|e IH|e IH|fs IH] using ty_induct; intros x H.
  - exact I.
  - destruct H as ((H1 & _) & c & H2 & H3 & H4). split; [split; [assumption|discriminate]|]. exists c. auto.
  - destruct H as ((H1 & _) & k & c & H2 & H3 & H4 & H6). split; [split; [assumption|discriminate]|].
    exists k, c. auto.
  - apply idle_struct in H as ((H1 & _) & L & H). apply idle_struct. split; [split; [assumption|discriminate]|]. split; [assumption|].
    intros j f c Ef Ec. destruct (H j f c Ef Ec). split; [assumption|]. apply IH; [eapply nth_error_In; eassumption|assumption].
Qed.

Lemma reset_own x : a_own (reset x) = set_s [] (set_st Initial (a_own x)).
Proof. now destruct x. Qed.
Lemma reset_ch x : a_ch (reset x) = map reset (a_ch x).
Proof. now destruct x. Qed.
Lemma nilw_reset c : nilw c -> nilw (reset c).
Proof. unfold nilw. rewrite reset_own. auto. Qed.

Lemma idle_reset b t : forall x, idle b t x -> idle true t (reset x).
Proof.
  induction t as [k|e IH|e IH|fs IH] using ty_induct; intros x H.
  - exact I.
  - destruct H as ((H1 & _) & c & H2 & H3 & H4). cbn [idle]. rewrite reset_own, reset_ch, H2. cbn [map].
    split; [split; [assumption|split; reflexivity]|]. exists (reset c). split; [reflexivity|]. split; [now apply nilw_reset|auto].
  - destruct H as ((H1 & _) & k & c & H2 & H3 & H4 & H6). cbn [idle]. rewrite reset_own, reset_ch, H2. cbn [map].
    split; [split; [assumption|split; reflexivity]|]. exists (reset k), (reset c). split; [reflexivity|].
    split; [now apply nilw_reset|]. split; [now apply nilw_reset|]. auto.
  - apply idle_struct in H as ((H1 & _) & L & H). apply idle_struct. rewrite reset_own, reset_ch, map_length.
    split; [split; [assumption|split; reflexivity]|]. split; [assumption|].
    intros j f c Ef Ec. rewrite nth_error_map in Ec. destruct (nth_error (a_ch x) j) as [d|] eqn:Ed; [|discriminate].
    injection Ec as <-. destruct (H j f d Ef Ed). split; [intros K; apply nilw_reset; auto|].
    apply IH; [eapply nth_error_In; eassumption|assumption].
Qed.

Lemma idle_asm0 t : idle true t (asm0 t).
Proof.
  induction t as [k|e IH|e IH|fs IH] using ty_induct.
  - exact I.
  - cbn [idle asm0 a_own a_ch]. split; [repeat split|]. exists (asm0 e). split; [reflexivity|]. split; [destruct e; intros _; reflexivity|assumption].
  - cbn [idle asm0 a_own a_ch]. split; [repeat split|]. exists (A own0 []), (asm0 e). split; [reflexivity|].
    split; [intros _; reflexivity|]. split; [destruct e; intros _; reflexivity|]. assumption.
  - apply idle_struct. rewrite asm0_struct. cbn [a_own a_ch]. rewrite map_length. repeat split.
    + intros _ _. rewrite nth_error_map, H in H0. injection H0 as <-. destruct (f_type f); reflexivity.
    + rewrite nth_error_map, H in H0. injection H0 as <-. apply IH. eapply nth_error_In. eassumption.
Qed.

(** [idle] looks at [cm], [state], [s] and the children only. *)
Lemma idle_same b t x y : idle b t x -> a_ch y = a_ch x -> o_cm (a_own y) = o_cm (a_own x) ->
  o_st (a_own y) = o_st (a_own x) -> o_s (a_own y) = o_s (a_own x) -> idle b t y.
Proof. intros H E1 E2 E3 E4. destruct t; cbn [idle] in *; rewrite ?E1, ?E2, ?E3, ?E4; exact H. Qed.

(** ** Representation *)
Definition field_rep (f : field) (c : asm) (s : maybe * val) (g : option val) : Prop :=
  (f_kind f = Required -> nilw c) /\
  match g with
  | None => s = zero_slot f /\ idle true (f_type f) c
  | Some v => s = done_slot f v /\ idle false (f_type f) c
  end.

(** A struct in the middle: [marked] has its bit set without a value yet, [skip] is the
    field in work. *)
Definition struct_rep (fs : list field) (x : asm) (wv : option val) (mv : option maybe)
  (st : mstate) (got : list (option val)) (marked skip : option nat) (sl : list (maybe * val)) : Prop :=
  mv = Some MMid /\ o_st (a_own x) = st /\ target (a_own x) wv = Some (VStruct sl) /\
  length (a_ch x) = length fs /\ length sl = length fs /\ length got = length fs /\
  (forall j, In j (o_s (a_own x)) <-> has j got = true \/ marked = Some j) /\
  (forall j f c s g, skip <> Some j -> nth_error fs j = Some f -> nth_error (a_ch x) j = Some c ->
     nth_error sl j = Some s -> nth_error got j = Some g -> field_rep f c s g).

Fixpoint rep (t : ty) (x : asm) (wv : option val) (mv : option maybe) (b : bst) {struct b} : Prop :=
  o_m (a_own x) = true /\
  match b with
  | Fresh => mv = Some MAbsent /\ idle true t x /\
             (target (a_own x) wv = Some (zero t) \/ (o_w (a_own x) = WNil /\ exists fs, t = TStruct fs))
  | Full v fin => mv = Some MValue /\ idle false t x /\ target (a_own x) wv = Some v /\
                  (fin = true -> o_st (a_own x) = Finished)
  | SReady got => exists fs sl, t = TStruct fs /\ struct_rep fs x wv mv Initial got None None sl /\ o_cm (a_own x) = MAbsent
  | SKey got => exists fs sl, t = TStruct fs /\ struct_rep fs x wv mv MidKey got None None sl /\ o_cm (a_own x) = MAbsent
  | SWant got i => exists fs sl, t = TStruct fs /\ struct_rep fs x wv mv ExpectValue got (Some i) None sl /\
                     o_cm (a_own x) = MAbsent /\ o_f (a_own x) = i /\ i < length fs /\ has i got = false
  | SIn got i c =>
      exists fs sl f y s, t = TStruct fs /\ struct_rep fs x wv mv MidValue got (Some i) (Some i) sl /\
        o_f (a_own x) = i /\ has i got = false /\
        nth_error fs i = Some f /\ nth_error (a_ch x) i = Some y /\ nth_error sl i = Some s /\
        match f_kind f with
        | Required => fst s = MAbsent /\ o_w (a_own y) = WParent /\ rep (f_type f) y (Some (snd s)) (Some (o_cm (a_own x))) c
        | OptionalInline => o_cm (a_own x) = MAbsent /\ o_w (a_own y) = WParent /\ rep (f_type f) y (Some (snd s)) (Some (fst s)) c
        | OptionalPointer => o_cm (a_own x) = MAbsent /\ o_w (a_own y) <> WParent /\ snd s = VNil /\
                             rep (f_type f) y (Some (snd s)) (Some (fst s)) c
        end
  | LReady got => exists e y, t = TList e /\ mv = Some MMid /\ o_st (a_own x) = Initial /\ o_cm (a_own x) = MAbsent /\
      target (a_own x) wv = Some (VList got) /\ a_ch x = [y] /\ nilw y /\ idle true e y
  | LIn got c => exists e y u, t = TList e /\ mv = Some MMid /\ o_st (a_own x) = MidValue /\
      target (a_own x) wv = Some (VList (got ++ [u])) /\ a_ch x = [y] /\ o_w (a_own y) = WParent /\
      rep e y (Some u) (Some (o_cm (a_own x))) c
  | TReady got => exists e k y, t = TTree e /\ mv = Some MMid /\ o_st (a_own x) = Initial /\ o_cm (a_own x) = MAbsent /\
      target (a_own x) wv = Some (tree_value got) /\ a_ch x = [k; y] /\ nilw k /\ nilw y /\ idle true e y
  | TKey got c => exists e k y n, t = TTree e /\ mv = Some MMid /\ o_st (a_own x) = MidKey /\
      target (a_own x) wv = Some (VTree (got ++ [(n, zero e)]) (Some (rev (map fst got)))) /\
      a_ch x = [k; y] /\ nilw y /\ idle true e y /\ o_w (a_own k) = WParent /\
      rep (TScalar KString) k (Some (VScalar (SString n))) (Some (o_cm (a_own x))) c
  | TIn got n c => exists e k y u, t = TTree e /\ mv = Some MMid /\ o_st (a_own x) = MidValue /\
      target (a_own x) wv = Some (VTree (got ++ [(n, u)]) (Some (rev (map fst (got ++ [(n, u)]))))) /\
      a_ch x = [k; y] /\ nilw k /\ o_w (a_own y) = WParent /\
      rep e y (Some u) (Some (o_cm (a_own x))) c
  end.

Lemma new_builder_rep t : let '(x, wv, mv) := new_builder t in rep t x wv mv Fresh.
Proof.
  unfold new_builder. cbn [rep]. split; [destruct (asm0 t); reflexivity|]. split; [reflexivity|]. split.
  - eapply idle_same; [apply idle_asm0|..]; destruct (asm0 t); reflexivity.
  - left. destruct (asm0 t). reflexivity.
Qed.

(** ** Writes *)
Lemma own_on g x : a_own (on_own g x) = g (a_own x).
Proof. now destruct x. Qed.
Lemma ch_on g x : a_ch (on_own g x) = a_ch x.
Proof. now destruct x. Qed.
Lemma own_child i g x : a_own (on_child i g x) = a_own x.
Proof. now destruct x. Qed.
Lemma ch_child i g x : a_ch (on_child i g x) = upd i g (a_ch x).
Proof. now destruct x. Qed.

(** A write changes [w] at most *)
Lemma store_some v x wv v0 : target (a_own x) wv = Some v0 ->
  exists y wv1, store v x wv = (y, wv1) /\ target (a_own y) wv1 = Some v /\ a_ch y = a_ch x /\
    o_m (a_own y) = o_m (a_own x) /\ o_st (a_own y) = o_st (a_own x) /\ o_s (a_own y) = o_s (a_own x) /\
    o_f (a_own y) = o_f (a_own x) /\ o_cm (a_own y) = o_cm (a_own x).
Proof.
  destruct x as [o ch]. unfold target, store. cbn [a_own]. destruct (o_w o) eqn:E; intros H; [discriminate|..].
  - do 2 eexists. split; [reflexivity|]. cbn [a_own a_ch]. rewrite E. repeat split.
  - do 2 eexists. split; [reflexivity|]. cbn. repeat split.
Qed.
Lemma store_back x wv v : target (a_own x) wv = Some v -> store v x wv = (x, wv).
Proof.
  destruct x as [[w m st s f cm] ch]. unfold target, store. cbn. destruct w; intros H; try discriminate; [now subst|now injection H as ->].
Qed.

Lemma rep_m t x wv mv b : rep t x wv mv b -> o_m (a_own x) = true.
Proof. destruct b; cbn [rep]; intros [H _]; exact H. Qed.
Definition maybe_in (b : bst) : maybe := match b with Fresh => MAbsent | Full _ _ => MValue | _ => MMid end.
Lemma rep_maybe t x wv mv b : rep t x wv mv b -> mv = Some (maybe_in b).
Proof.
  destruct b; cbn [rep maybe_in]; intros [_ H].
  - tauto.
  - tauto.
  - destruct H as (fs & sl & _ & (H & _) & _). exact H.
  - destruct H as (fs & sl & _ & (H & _) & _). exact H.
  - destruct H as (fs & sl & _ & (H & _) & _). exact H.
  - destruct H as (fs & sl & f & y & s & _ & (H & _) & _). exact H.
  - destruct H as (e & y & _ & H & _). exact H.
  - destruct H as (e & y & u & _ & H & _). exact H.
  - destruct H as (e & k & y & _ & H & _). exact H.
  - destruct H as (e & k & y & n & _ & H & _). exact H.
  - destruct H as (e & kk & y & u & _ & H & _). exact H.
Qed.
Lemma rep_maybe_of t x wv mv b : rep t x wv mv b -> maybe_of (a_own x) mv = Some (maybe_in b).
Proof. intros H. unfold maybe_of. rewrite (rep_m _ _ _ _ _ H). eapply rep_maybe. eassumption. Qed.

(** ** One call on the assembler itself *)
Definition follows (t : ty) (w : world) (o : outcome) (s : verdict * bst) : Prop :=
  let '(r, (x1, wv1, mv1)) := o in
  r = fst s /\ rep t x1 wv1 mv1 (snd s) /\ (r = PANIC -> (x1, wv1, mv1) = w).

Lemma follows_same t x wv mv b r : rep t x wv mv b -> follows t (x, wv, mv) (r, (x, wv, mv)) (r, b).
Proof. intros H. cbn. auto. Qed.

Lemma full_rep t x v y wv1 fin : o_m (a_own x) = true -> idle false t x ->
  a_ch y = a_ch x -> o_m (a_own y) = o_m (a_own x) -> o_st (a_own y) = o_st (a_own x) -> o_s (a_own y) = o_s (a_own x) ->
  o_cm (a_own y) = o_cm (a_own x) -> target (a_own y) wv1 = Some v -> (fin = true -> o_st (a_own y) = Finished) ->
  rep t y wv1 (Some MValue) (Full v fin).
Proof.
  intros. cbn [rep]. split; [congruence|]. split; [reflexivity|]. split; [|split; assumption].
  eapply idle_same; eassumption.
Qed.

Lemma null_follows t x wv mv b : rep t x wv mv b -> follows t (x, wv, mv) (assign_null x wv mv) (spec_null b).
Proof.
  intros H. unfold assign_null. rewrite (rep_maybe_of _ _ _ _ _ H). destruct b; cbn [maybe_in spec_null]; now apply follows_same.
Qed.

(** Assigning a whole value, in the two shapes of the code *)
Lemma put_follows t x wv mv b v : rep t x wv mv b -> (forall fs, t <> TStruct fs) ->
  follows t (x, wv, mv)
    match maybe_of (a_own x) mv with
    | Some MAbsent =>
        match target (a_own x) wv with
        | None => (PANIC, (x, wv, mv))
        | Some _ => let '(x1, wv1) := store v x wv in (OK, (x1, wv1, Some MValue))
        end
    | _ => (PANIC, (x, wv, mv))
    end (spec_assign b v).
Proof.
  intros H N. rewrite (rep_maybe_of _ _ _ _ _ H). destruct b; cbn [maybe_in spec_assign]; try now apply follows_same.
  destruct H as (Hm & _ & Hi & [Ht|[_ [fs Q]]]); [|now apply N in Q]. rewrite Ht.
  destruct (store_some v x wv _ Ht) as (y & wv1 & -> & T & C & M & St & Ss & F & Cm).
  cbn [follows fst snd]. split; [reflexivity|]. split; [|discriminate].
  eapply full_rep; try eassumption; [now apply idle_old|discriminate].
Qed.

Lemma scalar_follows k m x wv mv b : rep (TScalar k) x wv mv b -> held_here (TScalar k) m b ->
  follows (TScalar k) (x, wv, mv) (act_scalar k m x wv mv) (spec_act (TScalar k) m b).
Proof.
  intros H Hh.
  assert (B : maybe_in b <> MMid).
  { destruct b; cbn [maybe_in]; try discriminate; cbn [rep] in H; exfalso; decompose [ex and] H; discriminate. }
  assert (P : forall v, follows (TScalar k) (x, wv, mv)
    match maybe_of (a_own x) mv with
    | None | Some MValue | Some MNull => (PANIC, (x, wv, mv))
    | Some _ =>
        match target (a_own x) wv with
        | None => (PANIC, (x, wv, mv))
        | Some _ => let '(x1, wv1) := store v x wv in (OK, (x1, wv1, Some MValue))
        end
    end (spec_assign b v)).
  { intros v. pose proof (put_follows (TScalar k) x wv mv b v H ltac:(discriminate)) as P.
    rewrite (rep_maybe_of _ _ _ _ _ H) in *. destruct b; cbn [maybe_in] in *; try exact P; congruence. }
  destruct m; cbn [act_scalar spec_act]; try (now apply follows_same).
  - now apply null_follows.
  - destruct (kind_of s) as [k'|]; [|now apply follows_same]. destruct (skind_eqb k k'); [apply P|now apply follows_same].
  - apply P.
Qed.

(** ** Lists *)
Ltac wrong_phase H := exfalso; cbn [rep] in H; decompose [ex and] H; discriminate.

Lemma list_settles e x wv mv b : rep (TList e) x wv mv b -> begun b ->
  match settle b with
  | Some (LReady got) => exists x1, list_ready x = Some x1 /\ rep (TList e) x1 wv mv (LReady got)
  | _ => list_ready x = None
  end.
Proof.
  intros H Hb. unfold list_ready. destruct b as [|v fin|got|got|got i|got i c|got|got c|got|got c|got n c];
    cbn [begun] in Hb; try contradiction; try (wrong_phase H).
  - destruct H as (_ & _ & _ & _ & F). destruct fin; [|contradiction]. cbn [settle]. now rewrite (F eq_refl).
  - cbn [settle]. pose proof H as (_ & e' & y & _ & _ & S1 & _). rewrite S1. exists x. split; [reflexivity|exact H].
  - pose proof H as (Hm & e' & y & u & T & Hv & S1 & Tg & C & W & R).
    rewrite S1. pose proof (rep_maybe _ _ _ _ _ R) as Q. injection Q as Q. rewrite Q.
    destruct c; cbn [maybe_in settle]; try reflexivity.
    eexists. split; [reflexivity|]. injection T as <-. destruct R as (_ & _ & Ri & Rt & _).
    assert (u = v) as -> by (unfold target in Rt; rewrite W in Rt; congruence).
    cbn [rep]. rewrite own_on, own_child, ch_on, ch_child, C.
    split; [assumption|]. do 2 eexists. split; [reflexivity|]. split; [assumption|]. split; [reflexivity|]. split; [reflexivity|].
    split; [exact Tg|]. split; [reflexivity|]. split.
    + apply nilw_reset. intros _. destruct y. reflexivity.
    + eapply idle_reset. eapply idle_same; [exact Ri|..]; destruct y; reflexivity.
Qed.

Lemma list_follows e m x wv mv b : rep (TList e) x wv mv b -> held_here (TList e) m b ->
  follows (TList e) (x, wv, mv) (act_list e m x wv mv) (spec_act (TList e) m b).
Proof.
  intros H Hh. destruct m; cbn [act_list spec_act]; try (now apply follows_same).
  - (* BeginList *)
    rewrite (rep_maybe_of _ _ _ _ _ H). destruct b; cbn [maybe_in]; try (now apply follows_same).
    destruct H as (Hm & _ & Hi & [Ht|[_ [fs Q]]]); [|discriminate].
    destruct Hi as ((I1 & I2) & c & I3 & I4 & I5). destruct (I2 eq_refl) as [I6 I7].
    destruct (0 <? hint)%Z.
    + rewrite Ht. destruct (store_some (VList []) x wv _ Ht) as (y & wv1 & -> & T & C & M & St & Ss & F & Cm).
      cbn [follows fst snd]. split; [reflexivity|]. split; [|discriminate].
      cbn [rep]. split; [congruence|]. exists e, c. rewrite St, Cm, C. auto 10.
    + cbn [follows fst snd]. split; [reflexivity|]. split; [|discriminate].
      cbn [rep]. split; [congruence|]. exists e, c. auto 10.
  - now apply null_follows.
  - now apply put_follows.
  - (* AssembleValue *)
    destruct Hh as [_ Hb]. pose proof (list_settles e x wv mv b H Hb) as L.
    destruct (settle b) as [[| | | | | |got| | | |]|]; try (rewrite L; now apply follows_same).
    destruct L as (x1 & -> & R). destruct R as (Hm & e' & y & T & Hv & S1 & S2 & Tg & C & N & I1). injection T as <-.
    rewrite Tg. destruct (store_some (VList (elems (Some (VList got)) ++ [zero e])) x1 wv _ Tg) as (z & wv1 & -> & T & Cz & M & St & Ss & F & Cm).
    cbn [follows fst snd]. split; [reflexivity|]. split; [|discriminate].
    cbn [rep]. rewrite own_child, own_on, ch_child, ch_on, Cz, C. cbn [o_m set_st upd].
    split; [congruence|]. do 3 eexists. split; [reflexivity|]. split; [assumption|]. split; [reflexivity|].
    split; [exact T|]. split; [reflexivity|]. rewrite own_on. split; [reflexivity|].
    split; [reflexivity|]. split; [cbn; congruence|]. split; [|left; reflexivity].
    eapply idle_same; [exact I1|..]; destruct y; reflexivity.
  - (* Finish *)
    destruct Hh as [_ Hb]. pose proof (list_settles e x wv mv b H Hb) as L.
    destruct (settle b) as [[| | | | | |got| | | |]|]; try (rewrite L; now apply follows_same).
    destruct L as (x1 & -> & R). rewrite (rep_maybe_of _ _ _ _ _ R).
    destruct R as (Hm & e' & y & T & Hv & S1 & S2 & Tg & C & N & I1). injection T as <-. cbn [maybe_in].
    cbn [follows fst snd]. split; [reflexivity|]. split; [|discriminate].
    cbn [rep]. rewrite own_on. split; [assumption|]. split; [reflexivity|]. split; [|split; [exact Tg|reflexivity]].
    cbn [idle]. rewrite own_on, ch_on. split; [split; [assumption|discriminate]|]. exists y. split; [assumption|]. split; [assumption|]. now apply idle_old.
Qed.

(** ** Trees *)
Lemma tree_settles e x wv mv b : rep (TTree e) x wv mv b -> begun b ->
  match settle b with
  | Some (TReady got) => exists x1, tree_ready x = Some x1 /\ rep (TTree e) x1 wv mv (TReady got)
  | _ => tree_ready x = None
  end.
Proof.
  intros H Hb. unfold tree_ready. destruct b as [|v fin|got|got|got i|got i c|got|got c|got|got c|got n c];
    cbn [begun] in Hb; try contradiction; try (wrong_phase H).
  - destruct H as (_ & _ & _ & _ & F). destruct fin; [|contradiction]. cbn [settle]. now rewrite (F eq_refl).
  - cbn [settle]. pose proof H as (_ & e' & k & y & _ & _ & S1 & _). rewrite S1. exists x. split; [reflexivity|exact H].
  - cbn [settle]. pose proof H as (_ & e' & k & y & n & _ & _ & S1 & _). now rewrite S1.
  - pose proof H as (Hm & e' & k & y & u & T & Hv & S1 & Tg & C & N & W & R).
    rewrite S1. pose proof (rep_maybe _ _ _ _ _ R) as Q. injection Q as Q. rewrite Q.
    destruct c; cbn [maybe_in settle]; try reflexivity.
    eexists. split; [reflexivity|]. injection T as <-. destruct R as (_ & _ & Ri & Rt & _).
    assert (u = v) as -> by (unfold target in Rt; rewrite W in Rt; congruence).
    cbn [rep]. rewrite own_on, own_child, ch_on, ch_child, C.
    split; [assumption|]. do 3 eexists. split; [reflexivity|]. split; [assumption|]. split; [reflexivity|]. split; [reflexivity|].
    split; [exact Tg|]. split; [reflexivity|]. split; [assumption|]. split.
    + apply nilw_reset. intros _. destruct y. reflexivity.
    + eapply idle_reset. eapply idle_same; [exact Ri|..]; destruct y; reflexivity.
Qed.

Lemma mem_bytes_rev k l : mem_bytes k (rev l) = mem_bytes k l.
Proof.
  destruct (mem_bytes k l) eqn:E.
  - apply mem_bytes_iff. apply mem_bytes_iff in E. now apply -> in_rev.
  - destruct (mem_bytes k (rev l)) eqn:F; [|reflexivity]. apply mem_bytes_iff in F. apply in_rev in F. apply mem_bytes_iff in F. congruence.
Qed.

Lemma tree_follows e m x wv mv b : rep (TTree e) x wv mv b -> held_here (TTree e) m b ->
  follows (TTree e) (x, wv, mv) (act_tree e m x wv mv) (spec_act (TTree e) m b).
Proof.
  intros H Hh. destruct m; cbn [act_tree spec_act]; try (now apply follows_same).
  - (* BeginMap *)
    rewrite (rep_maybe_of _ _ _ _ _ H). destruct b; cbn [maybe_in]; try (now apply follows_same).
    destruct H as (Hm & _ & Hi & [Ht|[_ [fs Q]]]); [|discriminate].
    destruct Hi as ((I1 & I2) & k & c & I3 & I4 & I5 & I6). destruct (I2 eq_refl) as [I7 I8].
    rewrite Ht. destruct (store_some (VTree [] (Some [])) x wv _ Ht) as (y & wv1 & -> & T & C & M & St & Ss & F & Cm).
    cbn [follows fst snd]. split; [reflexivity|]. split; [|discriminate].
    cbn [rep]. split; [congruence|]. exists e, k, c. rewrite St, Cm, C. repeat (split; [assumption || reflexivity|]). assumption.
  - now apply null_follows.
  - now apply put_follows.
  - (* AssembleKey *)
    destruct Hh as [_ Hb]. pose proof (tree_settles e x wv mv b H Hb) as L.
    destruct (settle b) as [[| | | | | | | |got| |]|]; try (rewrite L; now apply follows_same).
    destruct L as (x1 & -> & R). destruct R as (Hm & e' & k & y & T & Hv & S1 & S2 & Tg & C & N & N' & I1). injection T as <-.
    rewrite Tg. cbn [tree_of tree_value].
    destruct (store_some (VTree (got ++ [([], zero e)]) (Some (rev (map fst got)))) x1 wv _ Tg) as (z & wv1 & -> & T & Cz & M & St & Ss & F & Cm).
    cbn [follows fst snd]. split; [reflexivity|]. split; [|discriminate].
    cbn [rep]. rewrite own_child, own_on, ch_child, ch_on, Cz, C. cbn [o_m set_st upd].
    split; [congruence|]. do 4 eexists. split; [reflexivity|]. split; [assumption|]. split; [reflexivity|].
    split; [exact T|]. split; [reflexivity|]. split; [assumption|]. split; [assumption|]. rewrite own_on. split; [reflexivity|].
    split; [reflexivity|]. split; [cbn; congruence|]. split; [exact I|left; reflexivity].
  - (* AssembleValue *)
    destruct Hh as [_ Hb]. destruct b as [|v fin|got|got|got i|got i c|got|got c|got|got c|got n c];
      cbn [begun] in Hb; try contradiction; try (wrong_phase H).
    + pose proof H as (_ & _ & _ & _ & F). destruct fin; [|contradiction]. rewrite (F eq_refl). now apply follows_same.
    + pose proof H as (_ & e' & k & y & _ & _ & S1 & _). rewrite S1. now apply follows_same.
    + pose proof H as (Hm & e' & k & y & n & T & Hv & S1 & Tg & C & N & I1 & W & R). rewrite S1. injection T as <-.
      pose proof (rep_maybe _ _ _ _ _ R) as Q. injection Q as Q. rewrite Q.
      destruct c; cbn [maybe_in]; try (now apply follows_same).
      destruct R as (_ & _ & _ & Rt & _). unfold target in Rt at 1. rewrite W in Rt. injection Rt as <-.
      rewrite own_child, Tg. cbn [tree_of].
      set (x2 := on_own _ _).
      assert (Tg2 : target (a_own x2) wv = Some (VTree (got ++ [(n, zero e)]) (Some (rev (map fst got))))).
      { unfold x2. rewrite own_on, own_child. exact Tg. }
      rewrite snoc_match, last_last. cbn [fst].
      destruct (store_some (VTree (got ++ [(n, zero e)]) (Some (n :: rev (map fst got)))) x2 wv _ Tg2) as (z & wv1 & -> & T & Cz & M & St & Ss & F & Cm).
      unfold x2 in *. rewrite own_on, own_child in *. rewrite ch_on, ch_child, C in Cz. cbn [upd] in Cz.
      cbn [follows fst snd]. split; [reflexivity|]. split; [|discriminate].
      cbn [rep]. rewrite own_child, own_on, ch_child, ch_on, Cz. cbn [o_m set_st upd].
      split; [rewrite M; exact Hm|]. do 4 eexists. split; [reflexivity|]. split; [assumption|]. split; [reflexivity|].
      split; [rewrite map_app, rev_app_distr; exact T|]. split; [reflexivity|]. split; [intros _; destruct k; reflexivity|].
      rewrite own_on. split; [reflexivity|]. split; [reflexivity|]. split; [cbn; rewrite Cm; reflexivity|]. split; [|left; reflexivity].
      eapply idle_same; [exact I1|..]; destruct y; reflexivity.
    + pose proof H as (_ & e' & k & y & u & _ & _ & S1 & _). rewrite S1. now apply follows_same.
  - (* AssembleEntry *)
    destruct Hh as [_ Hb]. pose proof (tree_settles e x wv mv b H Hb) as L.
    destruct (settle b) as [[| | | | | | | |got| |]|]; try (rewrite L; now apply follows_same).
    destruct L as (x1 & -> & R). pose proof R as (Hm & e' & kk & y & T & Hv & S1 & S2 & Tg & C & N & N' & I1). injection T as <-.
    rewrite Tg. cbn [tree_of tree_value has_key]. rewrite mem_bytes_rev.
    destruct (mem_bytes k (map fst got)).
    { cbn [follows fst snd]. split; [reflexivity|]. split; [exact R|discriminate]. }
    destruct (store_some (VTree (got ++ [(k, zero e)]) (Some (k :: rev (map fst got)))) x1 wv _ Tg) as (z & wv1 & -> & T & Cz & M & St & Ss & F & Cm).
    cbn [follows fst snd]. split; [reflexivity|]. split; [|discriminate].
    cbn [rep]. rewrite own_child, own_on, ch_child, ch_on, Cz, C. cbn [o_m set_st upd].
    split; [congruence|]. do 4 eexists. split; [reflexivity|]. split; [assumption|]. split; [reflexivity|].
    split; [rewrite map_app, rev_app_distr; exact T|]. split; [reflexivity|]. split; [assumption|].
    rewrite own_on. split; [reflexivity|]. split; [reflexivity|]. split; [cbn; congruence|]. split; [|left; reflexivity].
    eapply idle_same; [exact I1|..]; destruct y; reflexivity.
  - (* Finish *)
    destruct Hh as [_ Hb]. pose proof (tree_settles e x wv mv b H Hb) as L.
    destruct (settle b) as [[| | | | | | | |got| |]|]; try (rewrite L; now apply follows_same).
    destruct L as (x1 & -> & R). rewrite (rep_maybe_of _ _ _ _ _ R).
    destruct R as (Hm & e' & k & y & T & Hv & S1 & S2 & Tg & C & N & N' & I1). injection T as <-. cbn [maybe_in].
    cbn [follows fst snd]. split; [reflexivity|]. split; [|discriminate].
    cbn [rep]. rewrite own_on. split; [assumption|]. split; [reflexivity|]. split; [|split; [exact Tg|reflexivity]].
    cbn [idle]. rewrite own_on, ch_on. split; [split; [assumption|discriminate]|]. exists k, y. repeat (split; [assumption|]). now apply idle_old.
Qed.

(** ** Structs *)
Lemma field_index_nth fs k i : field_index fs k = Some i -> exists f, nth_error fs i = Some f /\ f_name f = k.
Proof.
  revert i; induction fs as [|f fs IH]; intros i; cbn [field_index]; [discriminate|].
  destruct (beqb_spec (f_name f) k) as [E|E].
  - intros [= <-]. exists f. auto.
  - destruct (field_index fs k) as [j|]; cbn; [|discriminate]. intros [= <-]. exact (IH j eq_refl).
Qed.
Lemma kind_at_nth fs i f : nth_error fs i = Some f -> kind_at fs i = f_kind f.
Proof. unfold kind_at. now intros ->. Qed.

Lemma has_false_nth {X} i (got : list (option X)) : has i got = false -> i < length got -> nth_error got i = Some None.
Proof.
  unfold has. intros H L. destruct (nth_len got i L) as [[v|] E]; rewrite E in *; [discriminate|reflexivity].
Qed.
Lemma has_upd {X} i j (v : X) got : i < length got -> has j (upd i (fun _ => Some v) got) = true <-> (has j got = true \/ j = i).
Proof.
  intros L. unfold has. rewrite nth_upd. destruct (Nat.eqb_spec i j) as [<-|N].
  - destruct (nth_len got i L) as [o E]. rewrite E. cbn. intuition.
  - split; [auto|]. intros [H|H]; [exact H|congruence].
Qed.

Lemma complete_iff fs : forall got, length got = length fs ->
  (complete fs got = true <-> forall j f, nth_error fs j = Some f -> f_kind f = Required -> has j got = true).
Proof.
  unfold complete. induction fs as [|f fs IH]; intros [|g got] L; try discriminate.
  - cbn. split; [intros _ [|j] f; discriminate|reflexivity].
  - cbn [combine forallb fst snd]. rewrite andb_true_iff, IH; [|now injection L]. split.
    + intros [H1 H2] [|j] f' E R; cbn in E.
      * injection E as <-. rewrite R in H1. now destruct g.
      * exact (H2 j f' E R).
    + intros H. split.
      * destruct (f_kind f) eqn:K; try reflexivity. specialize (H 0 f eq_refl K). now destruct g.
      * intros j f' E R. exact (H (S j) f' E R).
Qed.
Lemma sufficient_iff fs s : sufficient fs s = true <-> forall j f, nth_error fs j = Some f -> f_kind f = Required -> In j s.
Proof.
  unfold sufficient. rewrite forallb_forall. split.
  - intros H j f E R. specialize (H j). rewrite (kind_at_nth _ _ _ E), R in H. apply mem_nat_iff, H.
    apply in_seq. split; [lia|]. cbn. apply nth_error_Some. congruence.
  - intros H j Hj. apply in_seq in Hj. destruct (nth_len fs j ltac:(lia)) as [f E]. rewrite (kind_at_nth _ _ _ E).
    destruct (f_kind f) eqn:K; try reflexivity. apply mem_nat_iff. eauto.
Qed.
Lemma sufficient_complete fs s got : length got = length fs -> (forall j, In j s <-> has j got = true) ->
  sufficient fs s = complete fs got.
Proof.
  intros L H. apply eq_true_iff_eq. rewrite sufficient_iff, (complete_iff fs got L). split; intros A j f E R.
  - apply H. eauto.
  - apply H. eauto.
Qed.

(** From the fields one by one to the whole value *)
Lemma fields_value fs : forall ch sl got, length ch = length fs -> length sl = length fs -> length got = length fs ->
  (forall j f c s g, nth_error fs j = Some f -> nth_error ch j = Some c -> nth_error sl j = Some s -> nth_error got j = Some g -> field_rep f c s g) ->
  sl = map slot_of (combine fs got).
Proof.
  induction fs as [|f fs IH]; intros [|c ch] [|s sl] [|g got] L1 L2 L3 H; try discriminate; [reflexivity|].
  cbn [combine map]. f_equal.
  - destruct (H 0 f c s g eq_refl eq_refl eq_refl eq_refl) as [_ D]. unfold slot_of. cbn [fst snd]. destruct g; apply D.
  - apply (IH ch); try (cbn in *; lia). intros j. exact (H (S j)).
Qed.

Lemma struct_settles fs x wv mv b : rep (TStruct fs) x wv mv b -> begun b ->
  match settle b with
  | Some (SReady got) => exists x1 wv1, struct_ready repr fs x wv = Some (x1, wv1) /\ rep (TStruct fs) x1 wv1 mv (SReady got)
  | _ => struct_ready repr fs x wv = None
  end.
Proof.
  intros H Hb. unfold struct_ready. destruct b as [|v fin|got|got|got i|got i c|got|got c|got|got c|got n c];
    cbn [begun] in Hb; try contradiction; try (wrong_phase H).
  - destruct H as (_ & _ & _ & _ & F). destruct fin; [|contradiction]. cbn [settle]. now rewrite (F eq_refl).
  - cbn [settle]. pose proof H as (_ & fs' & sl & T & (_ & S1 & _) & _). rewrite S1. do 2 eexists. split; [reflexivity|exact H].
  - cbn [settle]. pose proof H as (_ & fs' & sl & T & (_ & S1 & _) & _). now rewrite S1.
  - cbn [settle]. pose proof H as (_ & fs' & sl & T & (_ & S1 & _) & _). now rewrite S1.
  - destruct H as (Hm & fs' & sl & f & y & s & T & (Hv & S1 & Tg & L1 & L2 & L3 & Hs & Hf) & F & G & Ef & Ey & Es & R).
    injection T as <-. rewrite S1. unfold struct_tidy. rewrite F, (kind_at_nth _ _ _ Ef), Tg.
    assert (Li : i < length got) by (rewrite L3; eapply nth_lt; eassumption).
    assert (Hs' : forall v j, In j (o_s (a_own x)) <-> has j (upd i (fun _ => Some v) got) = true \/ None = Some j).
    { intros v j. rewrite Hs, (has_upd i j v got Li). intuition congruence. }
    unfold slot_at. cbn [slots]. rewrite (nth_default _ _ (MAbsent, VNil) _ Es).
    destruct (f_kind f) eqn:K.
    + destruct R as (A1 & W & R). pose proof (rep_maybe _ _ _ _ _ R) as Q. injection Q as Q. rewrite Q.
      destruct c; cbn [maybe_in settle]; try reflexivity. destruct R as (_ & _ & Ri & Rt & _).
      unfold target in Rt. rewrite W in Rt. injection Rt as Rt.
      do 2 eexists. split; [reflexivity|].
      set (x1 := if repr then x else _).
      assert (E1 : a_own x1 = a_own x) by (unfold x1; destruct repr; [reflexivity|apply own_child]).
      assert (E2 : length (a_ch x1) = length fs) by (unfold x1; destruct repr; [assumption|rewrite ch_child, upd_length; assumption]).
      cbn [rep]. rewrite own_on, E1. split; [assumption|]. exists fs, sl. split; [reflexivity|]. split; [|reflexivity].
      unfold struct_rep. rewrite own_on, ch_on, E1, upd_length.
      split; [assumption|]. split; [reflexivity|]. split; [exact Tg|]. repeat (split; [assumption|]). split; [exact (Hs' v)|].
      intros j f' c' s' g' _ F1 F2 F3 F4. rewrite nth_upd in F4.
      destruct (Nat.eqb_spec i j) as [<-|N].
      * rewrite Ef in F1. injection F1 as <-. rewrite Es in F3. injection F3 as <-.
        destruct (nth_len got i Li) as [og Eg]. rewrite Eg in F4. cbn in F4. injection F4 as <-.
        unfold x1 in F2. unfold field_rep, done_slot. rewrite K. destruct s as [sa sb]. cbn [fst snd] in *. subst.
        unfold nilw. destruct repr.
        -- rewrite Ey in F2. injection F2 as <-. split; [discriminate|]. split; [reflexivity|assumption].
        -- rewrite ch_child in F2. rewrite (nth_upd_same _ _ _ _ Ey) in F2. injection F2 as <-. split; [rewrite own_on; reflexivity|].
           split; [reflexivity|]. eapply idle_same; [exact Ri|..]; destruct y; reflexivity.
      * assert (F2' : nth_error (a_ch x) j = Some c').
        { unfold x1 in F2. destruct repr; [assumption|]. now rewrite ch_child, nth_upd_other in F2. }
        eapply Hf; try eassumption. congruence.
    + destruct R as (A1 & W & R). pose proof (rep_maybe _ _ _ _ _ R) as Q. injection Q as Q. rewrite Q.
      destruct c; cbn [maybe_in settle]; try reflexivity. destruct R as (_ & _ & Ri & Rt & _).
      unfold target in Rt. rewrite W in Rt. injection Rt as Rt.
      do 2 eexists. split; [reflexivity|].
      cbn [rep]. rewrite own_on. split; [assumption|]. exists fs, sl. split; [reflexivity|]. split; [|exact A1].
      unfold struct_rep. rewrite own_on, ch_on, upd_length.
      split; [assumption|]. split; [reflexivity|]. split; [exact Tg|]. repeat (split; [assumption|]). split; [exact (Hs' v)|].
      intros j f' c' s' g' _ F1 F2 F3 F4. rewrite nth_upd in F4.
      destruct (Nat.eqb_spec i j) as [<-|N].
      * rewrite Ef in F1. injection F1 as <-. rewrite Es in F3. injection F3 as <-. rewrite Ey in F2. injection F2 as <-.
        destruct (nth_len got i Li) as [og Eg]. rewrite Eg in F4. cbn in F4. injection F4 as <-.
        unfold field_rep, done_slot. rewrite K. destruct s as [sa sb]. cbn [fst snd] in *. subst.
        split; [discriminate|]. split; [reflexivity|assumption].
      * eapply Hf; try eassumption. congruence.
    + destruct R as (A1 & W & Vn & R). pose proof (rep_maybe _ _ _ _ _ R) as Q. injection Q as Q. rewrite Q.
      destruct c; cbn [maybe_in settle]; try reflexivity. destruct R as (_ & _ & Ri & Rt & _).
      rewrite Ey. unfold target in Rt. destruct (o_w (a_own y)) as [| |u] eqn:Wy; [discriminate|congruence|]. injection Rt as ->.
      unfold set_slot. cbn [slots].
      destruct (store_some (VStruct (upd i (fun _ => (MValue, v)) sl)) x wv _ Tg) as (z & wv1 & -> & T & Cz & M & St & Ss & Fz & Cm).
      do 2 eexists. split; [reflexivity|].
      cbn [rep]. rewrite own_on. split; [cbn; congruence|]. exists fs, (upd i (fun _ => (MValue, v)) sl). split; [reflexivity|].
      split; [|cbn; congruence].
      unfold struct_rep. rewrite own_on, ch_on, !upd_length. cbn [o_s o_st set_st]. rewrite Ss, Cz.
      split; [assumption|]. split; [reflexivity|]. split; [exact T|]. repeat (split; [assumption|]). split; [exact (Hs' v)|].
      intros j f' c' s' g' _ F1 F2 F3 F4. rewrite nth_upd in F3. rewrite nth_upd in F4.
      destruct (Nat.eqb_spec i j) as [<-|N].
      * rewrite Ef in F1. injection F1 as <-. rewrite Es in F3. cbn in F3. injection F3 as <-. rewrite Ey in F2. injection F2 as <-.
        destruct (nth_len got i Li) as [og Eg]. rewrite Eg in F4. cbn in F4. injection F4 as <-.
        unfold field_rep, done_slot. rewrite K.
        split; [discriminate|]. split; [reflexivity|assumption].
      * eapply Hf; try eassumption. congruence.
Qed.

(** Starting field [i]: AssembleEntry and AssembleValue end alike *)
Lemma start_follows fs got i x wv mv w0 sl :
  pointers_to_structs (TStruct fs) -> o_m (a_own x) = true -> i < length fs -> has i got = false ->
  o_f (a_own x) = i -> o_cm (a_own x) = MAbsent -> struct_rep fs x wv mv MidValue got (Some i) None sl ->
  follows (TStruct fs) w0 (struct_start fs i x wv mv) (OK, SIn got i Fresh).
Proof.
  intros P Hm Li G F Cm0 (Hv & S1 & Tg & L1 & L2 & L3 & Hs & Hf). unfold struct_start. rewrite Tg.
  destruct (nth_len fs i Li) as [f Ef]. destruct (nth_len (a_ch x) i ltac:(lia)) as [y Ey]. destruct (nth_len sl i ltac:(lia)) as [s Es].
  pose proof (has_false_nth i got G ltac:(lia)) as Eg.
  destruct (Hf i f y s None ltac:(discriminate) Ef Ey Es Eg) as (_ & Z & Iy).
  destruct (pointers_struct fs P f (nth_error_In _ _ Ef)) as [Pf _].
  rewrite (kind_at_nth _ _ _ Ef). unfold slot_at. cbn [slots]. rewrite (nth_default _ _ (MAbsent, VNil) _ Es).
  set (w := match f_kind f with OptionalPointer => _ | _ => _ end).
  cbn [follows fst snd]. split; [reflexivity|]. split; [|discriminate].
  cbn [rep]. rewrite own_child. split; [assumption|].
  exists fs, sl, f, (on_own (fun o => set_m (set_w w o)) y), s. split; [reflexivity|]. split; [|split; [assumption|]; split; [assumption|]; split; [assumption|]].
  - unfold struct_rep. rewrite own_child, ch_child, upd_length. repeat (split; [assumption|]).
    intros j f' c' s' g' Nj F1 F2 F3 F4. rewrite nth_upd_other in F2 by congruence. eapply Hf; try eassumption. discriminate.
  - rewrite ch_child, (nth_upd_same _ _ _ _ Ey). split; [reflexivity|]. split; [assumption|].
    rewrite own_on. cbn [o_m o_w set_m set_w]. subst s. unfold zero_slot in *. unfold w in *. clear w.
    destruct (f_kind f) eqn:K; cbn [fst snd].
    + split; [reflexivity|]. split; [reflexivity|]. split; [reflexivity|]. split; [congruence|]. split; [|left; reflexivity].
      eapply idle_same; [exact Iy|..]; destruct y; reflexivity.
    + split; [assumption|]. split; [reflexivity|]. split; [reflexivity|]. split; [reflexivity|]. split; [|left; reflexivity].
      eapply idle_same; [exact Iy|..]; destruct y; reflexivity.
    + split; [assumption|]. split; [discriminate|]. split; [reflexivity|]. split; [reflexivity|]. split; [reflexivity|]. split; [|right; split; [reflexivity|auto]].
      eapply idle_same; [exact Iy|..]; destruct y; reflexivity.
Qed.

Lemma struct_follows fs m x wv mv b : pointers_to_structs (TStruct fs) ->
  rep (TStruct fs) x wv mv b -> held_here (TStruct fs) m b ->
  follows (TStruct fs) (x, wv, mv) (act_struct repr fs m x wv mv) (spec_act (TStruct fs) m b).
Proof.
  intros P H Hh. destruct m; cbn [act_struct spec_act]; try (now apply follows_same).
  - (* BeginMap *)
    rewrite (rep_maybe_of _ _ _ _ _ H). destruct b; cbn [maybe_in]; try (now apply follows_same).
    destruct H as (Hm & _ & Hi & Ht).
    set (x1 := match target _ _ with Some _ => x | None => _ end).
    assert (E : target (a_own x1) wv = Some (zero (TStruct fs)) /\ a_ch x1 = a_ch x /\ o_m (a_own x1) = true /\
       o_st (a_own x1) = o_st (a_own x) /\ o_s (a_own x1) = o_s (a_own x) /\ o_cm (a_own x1) = o_cm (a_own x)).
    { unfold x1. destruct Ht as [Ht|[Ht _]].
      - rewrite Ht. auto 10.
      - unfold target. rewrite Ht. rewrite own_on, ch_on. cbn. auto 10. }
    clearbody x1. destruct E as (E1 & E2 & E3 & E4 & E5 & E6).
    apply idle_struct in Hi as ((I1 & I2) & L & I3). destruct (I2 eq_refl) as [I4 I5].
    cbn [follows fst snd]. split; [reflexivity|]. split; [|discriminate].
    cbn [rep]. split; [assumption|]. exists fs, (map zero_slot fs). split; [reflexivity|]. split; [|congruence].
    unfold struct_rep. rewrite E2, E4, E5, !map_length. split; [reflexivity|]. split; [assumption|].
    split; [rewrite E1; f_equal; apply zero_struct|]. repeat (split; [assumption || reflexivity|]). split.
    + intros j. rewrite I5. split; [contradiction|]. intros [Q|Q]; [|discriminate]. unfold has in Q. rewrite nth_error_map in Q.
      destruct (nth_error fs j); discriminate.
    + intros j f c s g _ F1 F2 F3 F4. rewrite nth_error_map, F1 in F3. rewrite nth_error_map, F1 in F4. cbn in F3, F4. injection F3 as <-. injection F4 as <-.
      destruct (I3 j f c F1 F2). unfold field_rep. auto.
  - now apply null_follows.
  - (* AssignTyped *)
    rewrite (rep_maybe_of _ _ _ _ _ H). destruct b; cbn [maybe_in spec_assign]; try (now apply follows_same).
    destruct H as (Hm & _ & Hi & Ht).
    destruct (target (a_own x) wv) as [v0|] eqn:E.
    + destruct (store_some v x wv _ E) as (y & wv1 & -> & T & C & M & St & Ss & F & Cm).
      cbn [follows fst snd]. split; [reflexivity|]. split; [|discriminate].
      eapply full_rep; try eassumption; [now apply idle_old|discriminate].
    + cbn [follows fst snd]. split; [reflexivity|]. split; [|discriminate].
      eapply full_rep; [exact Hm|apply idle_old; exact Hi|..]; rewrite ?ch_on, ?own_on; try reflexivity. discriminate.
  - (* AssembleKey *)
    destruct Hh as [_ Hb]. pose proof (struct_settles fs x wv mv b H Hb) as L.
    destruct (settle b) as [[| |got| | | | | | | |]|]; try (rewrite L; now apply follows_same).
    destruct L as (x1 & wv1 & -> & Hm & fs' & sl & T & (Hv & S1 & Tg & L1 & L2 & L3 & Hs & Hf) & Cm). injection T as <-.
    cbn [follows fst snd]. split; [reflexivity|]. split; [|discriminate].
    cbn [rep]. rewrite own_on. split; [assumption|]. exists fs, sl. split; [reflexivity|]. split; [|assumption].
    unfold struct_rep. rewrite own_on, ch_on. split; [assumption|]. split; [reflexivity|]. repeat (split; [assumption|]). exact Hf.
  - (* KeyAssign *)
    destruct Hh as [_ Hb]. destruct b as [|v fin|got|got|got i|got i c|got|got c|got|got c|got n c];
      cbn [begun] in Hb; try contradiction; try (wrong_phase H).
    + pose proof H as (_ & _ & _ & _ & F). destruct fin; [|contradiction]. rewrite (F eq_refl). now apply follows_same.
    + pose proof H as (_ & fs' & sl & T & (_ & S1 & _) & _). rewrite S1. now apply follows_same.
    + pose proof H as (Hm & fs' & sl & T & (Hv & S1 & Tg & L1 & L2 & L3 & Hs & Hf) & Cm). injection T as <-.
      rewrite S1. cbn [is_midkey]. destruct (field_index fs k) as [i|] eqn:Ei; [|now apply follows_same].
      destruct (field_index_nth _ _ _ Ei) as (f & Ef & _).
      assert (Em : mem_nat i (o_s (a_own x)) = has i got).
      { apply eq_true_iff_eq. rewrite mem_nat_iff, Hs. intuition discriminate. }
      rewrite Em. destruct (has i got) eqn:G; [now apply follows_same|].
      cbn [follows fst snd]. split; [reflexivity|]. split; [|discriminate].
      cbn [rep]. rewrite own_on. split; [assumption|]. exists fs, sl. split; [reflexivity|].
      split; [|split; [assumption|]; split; [reflexivity|]; split; [eapply nth_lt; eassumption|assumption]].
      unfold struct_rep. rewrite own_on, ch_on. split; [assumption|]. split; [reflexivity|]. repeat (split; [assumption|]).
      split; [|exact Hf]. intros j. cbn [o_s set_f set_st set_s In]. rewrite Hs. intuition congruence.
    + pose proof H as (_ & fs' & sl & T & (_ & S1 & _) & _). rewrite S1. now apply follows_same.
    + pose proof H as (_ & fs' & sl & f & y & s & T & (_ & S1 & _) & _). rewrite S1. now apply follows_same.
  - (* AssembleValue *)
    destruct Hh as [_ Hb]. destruct b as [|v fin|got|got|got i|got i c|got|got c|got|got c|got n c];
      cbn [begun] in Hb; try contradiction; try (wrong_phase H).
    + pose proof H as (_ & _ & _ & _ & F). destruct fin; [|contradiction]. rewrite (F eq_refl). now apply follows_same.
    + pose proof H as (_ & fs' & sl & T & (_ & S1 & _) & _). rewrite S1. now apply follows_same.
    + pose proof H as (_ & fs' & sl & T & (_ & S1 & _) & _). rewrite S1. now apply follows_same.
    + destruct H as (Hm & fs' & sl & T & (Hv & S1 & Tg & L1 & L2 & L3 & Hs & Hf) & Cm & F & Li & G). injection T as <-.
      rewrite S1, F. apply start_follows with (sl := sl); rewrite ?own_on; try assumption.
      unfold struct_rep. rewrite own_on, ch_on. split; [assumption|]. split; [reflexivity|]. repeat (split; [assumption|]). exact Hf.
    + pose proof H as (_ & fs' & sl & f & y & s & T & (_ & S1 & _) & _). rewrite S1. now apply follows_same.
  - (* AssembleEntry *)
    destruct Hh as [_ Hb]. pose proof (struct_settles fs x wv mv b H Hb) as L.
    destruct (settle b) as [[| |got| | | | | | | |]|]; try (rewrite L; now apply follows_same).
    destruct L as (x1 & wv1 & -> & R). pose proof R as (Hm & fs' & sl & T & (Hv & S1 & Tg & L1 & L2 & L3 & Hs & Hf) & Cm). injection T as <-.
    assert (K : follows (TStruct fs) (x, wv, mv) (ERR, (x1, wv1, mv)) (ERR, SReady got)).
    { cbn [follows fst snd]. split; [reflexivity|]. split; [exact R|discriminate]. }
    destruct (field_index fs k) as [i|] eqn:Ei; [|exact K].
    destruct (field_index_nth _ _ _ Ei) as (f & Ef & _).
    assert (Em : mem_nat i (o_s (a_own x1)) = has i got).
    { apply eq_true_iff_eq. rewrite mem_nat_iff, Hs. intuition discriminate. }
    rewrite Em. destruct (has i got) eqn:G; [exact K|].
    apply start_follows with (sl := sl); rewrite ?own_on; try assumption; [eapply nth_lt; eassumption|reflexivity|].
    unfold struct_rep. rewrite own_on, ch_on. split; [assumption|]. split; [reflexivity|]. repeat (split; [assumption|]).
    split; [|exact Hf]. intros j. cbn [o_s set_f set_st set_s In]. rewrite Hs. intuition congruence.
  - (* Finish *)
    destruct Hh as [_ Hb]. pose proof (struct_settles fs x wv mv b H Hb) as L.
    destruct (settle b) as [[| |got| | | | | | | |]|]; try (rewrite L; now apply follows_same).
    destruct L as (x1 & wv1 & -> & R). rewrite (rep_maybe_of _ _ _ _ _ R).
    pose proof R as (Hm & fs' & sl & T & (Hv & S1 & Tg & L1 & L2 & L3 & Hs & Hf) & Cm). injection T as <-. cbn [maybe_in].
    rewrite (sufficient_complete fs _ got L3) by (intros j; rewrite Hs; intuition discriminate).
    destruct (complete fs got).
    2:{ cbn [follows fst snd]. split; [reflexivity|]. split; [exact R|discriminate]. }
    cbn [follows fst snd]. split; [reflexivity|]. split; [|discriminate].
    cbn [rep]. rewrite own_on. split; [assumption|]. split; [reflexivity|]. split; [|split; [|reflexivity]].
    + apply idle_struct. rewrite own_on, ch_on. split; [split; [assumption|discriminate]|]. split; [assumption|].
      intros j f c F1 F2. destruct (nth_len sl j) as [s F3]; [rewrite L2; eapply nth_lt; eassumption|].
      destruct (nth_len got j) as [g F4]; [rewrite L3; eapply nth_lt; eassumption|].
      destruct (Hf j f c s g ltac:(discriminate) F1 F2 F3 F4) as [D1 D2]. split; [exact D1|].
      destruct g; [apply D2|apply idle_old, D2].
    + unfold struct_value. rewrite <- (fields_value fs (a_ch x1) sl got L1 L2 L3); [exact Tg|].
      intros j f c s g. apply Hf. discriminate.
Qed.

Lemma act_follows t m x wv mv b : pointers_to_structs t -> rep t x wv mv b -> held_here t m b ->
  follows t (x, wv, mv) (act repr t m x wv mv) (spec_act t m b).
Proof.
  intros P H Hh. destruct t; cbn [act].
  - now apply scalar_follows.
  - now apply list_follows.
  - now apply tree_follows.
  - now apply struct_follows.
Qed.

(** ** What a call leaves alone: where [w] points *)
Definition frame (x : asm) (wv : option val) (x1 : asm) (wv1 : option val) : Prop :=
  wv <> None -> wv1 <> None /\ (o_w (a_own x) = WParent -> o_w (a_own x1) = WParent) /\
  (o_w (a_own x) <> WParent -> o_w (a_own x1) <> WParent /\ wv1 = wv).
Lemma frame_refl x wv : frame x wv x wv.
Proof. unfold frame. auto. Qed.
Lemma frame_trans x wv y wy z wz : frame x wv y wy -> frame y wy z wz -> frame x wv z wz.
Proof.
  intros H1 H2 N. destruct (H1 N) as (N1 & A1 & B1). destruct (H2 N1) as (N2 & A2 & B2).
  split; [assumption|]. split; [auto|]. intros D. destruct (B1 D) as [D1 ->]. destruct (B2 D1) as [D2 ->]. auto.
Qed.
Lemma frame_own x wv g y wy : (forall o, o_w (g o) = o_w o) -> frame x wv y wy -> frame x wv (on_own g y) wy.
Proof. intros G H. apply (frame_trans _ _ _ _ _ _ H). intros N. rewrite own_on, G. auto. Qed.
Lemma frame_child x wv i g y wy : frame x wv y wy -> frame x wv (on_child i g y) wy.
Proof. intros H. apply (frame_trans _ _ _ _ _ _ H). intros N. rewrite own_child. auto. Qed.
Lemma frame_store v x wv y wy z wz : store v y wy = (z, wz) -> frame x wv y wy -> frame x wv z wz.
Proof.
  intros E H. apply (frame_trans _ _ _ _ _ _ H). intros N. unfold store in E. destruct (o_w (a_own y)) eqn:W; injection E as <- <-.
  - rewrite W. auto.
  - rewrite W. split; [discriminate|]. split; [auto|congruence].
  - rewrite own_on. cbn. split; [assumption|]. split; [discriminate|]. split; [discriminate|reflexivity].
Qed.
Lemma frame_alloc v x wv : target (a_own x) wv = None -> frame x wv (on_own (set_w (WOwn v)) x) wv.
Proof.
  intros H N. rewrite own_on. cbn. unfold target in H. destruct (o_w (a_own x)); try congruence.
  split; [assumption|]. split; [discriminate|]. split; [discriminate|reflexivity].
Qed.

Ltac frames := repeat first
  [ apply frame_refl
  | apply frame_own; [intros []; reflexivity|]
  | apply frame_child
  | eapply frame_store; [eassumption|]
  | apply frame_alloc; assumption
  | match goal with H : forall _, frame _ _ _ _ |- _ => apply H end
  | eassumption ].
Ltac cases_in E := repeat match type of E with
  | context [match ?e with _ => _ end] => let Q := fresh "Q" in destruct e eqn:Q
  end.

Lemma struct_tidy_frame fs x wv x1 wv1 : struct_tidy repr fs x wv = Some (x1, wv1) -> frame x wv x1 wv1.
Proof.
  unfold struct_tidy. intros E.
  destruct (kind_at fs (o_f (a_own x))).
  - destruct (o_cm (a_own x)); try discriminate. injection E as <- <-. apply frame_own; [intros []; reflexivity|].
    destruct repr; frames.
  - destruct (fst _); try discriminate. injection E as <- <-. frames.
  - destruct (fst _); try discriminate. destruct (store _ x wv) as [y wy] eqn:Es. injection E as <- <-. frames.
Qed.
Lemma struct_ready_frame fs x wv x1 wv1 : struct_ready repr fs x wv = Some (x1, wv1) -> frame x wv x1 wv1.
Proof.
  unfold struct_ready. destruct (o_st (a_own x)); try discriminate; [|apply struct_tidy_frame].
  intros [= <- <-]. apply frame_refl.
Qed.
Lemma list_ready_frame x wv x1 : list_ready x = Some x1 -> frame x wv x1 wv.
Proof. unfold list_ready. intros E. cases_in E; try discriminate; injection E as <-; frames. Qed.
Lemma tree_ready_frame x wv x1 : tree_ready x = Some x1 -> frame x wv x1 wv.
Proof. unfold tree_ready. intros E. cases_in E; try discriminate; injection E as <-; frames. Qed.
Lemma null_frame x wv mv r x1 wv1 mv1 : assign_null x wv mv = (r, (x1, wv1, mv1)) -> frame x wv x1 wv1.
Proof. unfold assign_null. intros E. cases_in E; injection E as <- <- <- <-; frames. Qed.
Lemma start_frame fs i x0 wv0 x wv mv r x1 wv1 mv1 : frame x0 wv0 x wv -> struct_start fs i x wv mv = (r, (x1, wv1, mv1)) -> frame x0 wv0 x1 wv1.
Proof.
  unfold struct_start. intros H E. destruct (target (a_own x) wv); injection E as <- <- <- <-; frames.
Qed.

Lemma act_frame t m x wv mv r x1 wv1 mv1 : act repr t m x wv mv = (r, (x1, wv1, mv1)) -> frame x wv x1 wv1.
Proof.
  destruct t; cbn [act].
  - unfold act_scalar. intros E. destruct m; try (now apply null_frame in E); cases_in E; injection E as <- <- <- <-; frames.
  - unfold act_list. intros E. destruct m; try (now apply null_frame in E).
    all: try match type of E with context [list_ready ?z] => destruct (list_ready z) as [y|] eqn:Ry; [pose proof (fun wv => list_ready_frame z wv y Ry) as Fy|] end.
    all: cases_in E; injection E as <- <- <- <-; frames.
  - unfold act_tree. intros E. destruct m; try (now apply null_frame in E).
    all: try match type of E with context [tree_ready ?z] => destruct (tree_ready z) as [y|] eqn:Ry; [pose proof (fun wv => tree_ready_frame z wv y Ry) as Fy|] end.
    all: cases_in E; injection E as <- <- <- <-; frames.
  - unfold act_struct. intros E. destruct m; try (now apply null_frame in E).
    all: try match type of E with context [struct_ready ?a ?b ?c ?d] => destruct (struct_ready a b c d) as [[y wy]|] eqn:Ry; [apply struct_ready_frame in Ry|] end.
    all: try (injection E as <- <- <- <-; frames; fail).
    + cases_in E; injection E as <- <- <- <-; frames.
    + destruct (target (a_own x) wv) eqn:Tq; cases_in E; injection E as <- <- <- <-; frames.
    + cases_in E; injection E as <- <- <- <-; frames.
    + destruct (o_st (a_own x)); try (injection E as <- <- <- <-; frames; fail).
      eapply start_frame; [|exact E]. frames.
    + destruct (field_index fields k); [|injection E as <- <- <- <-; frames].
      destruct (mem_nat _ _); [injection E as <- <- <- <-; frames|].
      eapply start_frame; [|exact E]. frames.
    + cases_in E; injection E as <- <- <- <-; frames.
Qed.

Lemma call_frame p : forall t m x wv mv r x1 wv1 mv1, call repr t p m x wv mv = (r, (x1, wv1, mv1)) -> frame x wv x1 wv1.
Proof.
  destruct p as [|i p]; intros t m x wv mv r x1 wv1 mv1; cbn [call]; [apply act_frame|].
  destruct (child_type t i); [|intros [= <- <- <- <-]; frames].
  destruct (nth_error (a_ch x) i); [|intros [= <- <- <- <-]; frames].
  destruct (call repr _ p m _ _ _) as [r' [[c1 cw] cm]].
  destruct (store_opt _ _ wv) as [x3 wv3] eqn:Es. intros [= <- <- <- <-].
  unfold store_opt in Es. set (x2 := match cm with Some k => _ | None => _ end) in Es.
  assert (F : frame x wv x2 wv) by (unfold x2; destruct cm; [destruct (slot_maybe t i)|]; frames).
  clearbody x2. match type of Es with match ?e with _ => _ end = _ => destruct e end; [frames|].
  injection Es as <- <-. exact F.
Qed.

(** ** A call anywhere below *)
Lemma on_child_same i x y : nth_error (a_ch x) i = Some y -> on_child i (fun _ => y) x = x.
Proof. destruct x as [o ch]. cbn. intros H. f_equal. now apply upd_same with (x := y). Qed.
Lemma set_cm_same x : on_own (set_cm (o_cm (a_own x))) x = x.
Proof. now destruct x as [[]]. Qed.

Lemma string_stays m x b c1 r n u mv mv1 : rep (TScalar KString) x (Some (VScalar (SString n))) mv b ->
  held_here (TScalar KString) m b -> o_w (a_own x) = WParent ->
  act_scalar KString m x (Some (VScalar (SString n))) mv = (r, (c1, Some u, mv1)) -> exists n1, u = VScalar (SString n1).
Proof.
  intros R Hh W. unfold act_scalar, assign_null, store, target. rewrite W.
  destruct m; cbn [held_here] in Hh; intros E.
  all: try (injection E as <- <- <- <-; eauto; fail).
  - cases_in E; injection E as <- <- <- <-; eauto.
  - destruct s; cbn in E; try (injection E as <- <- <- <-; eauto; fail).
    cases_in E; injection E as <- <- <- <-; eauto.
  - destruct Hh as (s & -> & K). destruct s; try discriminate.
    cases_in E; injection E as <- <- <- <-; eauto.
Qed.

Theorem call_follows p : forall t m x wv mv b, pointers_to_structs t -> rep t x wv mv b -> held t p m b ->
  follows t (x, wv, mv) (call repr t p m x wv mv) (spec t p m b).
Proof.
  induction p as [|i p IH]; intros t m x wv mv b P H Hh; [now apply act_follows|].
  cbn [call spec held] in *. destruct (child_type t i) as [tc|] eqn:Ec; [|contradiction].
  destruct b as [|v fin|got|got|got j|got j c|got|got c|got|got c|got n c]; try contradiction.
  - (* struct *)
    destruct Hh as [<- Hh]. rewrite Nat.eqb_refl.
    destruct H as (Hm & fs & sl & f & y & s & -> & (Hv & S1 & Tg & L1 & L2 & L3 & Hs & Hf) & F & G & Ef & Ey & Es & R).
    cbn [child_type] in Ec. rewrite Ef in Ec. cbn in Ec. injection Ec as <-.
    destruct (pointers_struct fs P f (nth_error_In _ _ Ef)) as [_ Pf].
    rewrite Ey, Tg. unfold child_value, child_maybe, slot_maybe. rewrite Es, (kind_at_nth _ _ _ Ef). cbn [option_map].
    (* the pieces the three kinds of field share *)
    assert (Tail : forall cm1 c1 s1 c',
      match f_kind f with
      | Required => fst s1 = MAbsent /\ o_w (a_own c1) = WParent /\ rep (f_type f) c1 (Some (snd s1)) (Some cm1) c'
      | OptionalInline => cm1 = MAbsent /\ o_w (a_own c1) = WParent /\ rep (f_type f) c1 (Some (snd s1)) (Some (fst s1)) c'
      | OptionalPointer => cm1 = MAbsent /\ o_w (a_own c1) <> WParent /\ snd s1 = VNil /\ rep (f_type f) c1 (Some (snd s1)) (Some (fst s1)) c'
      end ->
      forall z wv1, target (a_own z) wv1 = Some (VStruct (upd i (fun _ => s1) sl)) -> a_ch z = upd i (fun _ => c1) (a_ch x) ->
      o_m (a_own z) = true -> o_st (a_own z) = o_st (a_own x) -> o_s (a_own z) = o_s (a_own x) ->
      o_f (a_own z) = o_f (a_own x) -> o_cm (a_own z) = cm1 ->
      rep (TStruct fs) z wv1 mv (SIn got i c')).
    { intros cm1 c1 s1 c' K z wv1 Tz Cz Mz Sz Ssz Fz Cmz. cbn [rep]. split; [assumption|].
      exists fs, (upd i (fun _ => s1) sl), f, c1, s1. split; [reflexivity|]. rewrite Cz, Cmz, Fz.
      split; [|split; [assumption|]; split; [assumption|]; split; [assumption|]; split; [now apply nth_upd_same with (x := y)|];
               split; [now apply (nth_upd_same (fun _ => s1)) with (x := s)|exact K]].
      unfold struct_rep. rewrite Cz, Sz, Ssz, !upd_length. repeat (split; [assumption|]).
      intros j f' c0 s' g' Nj F1 F2 F3 F4. rewrite nth_upd_other in F2 by congruence. rewrite nth_upd_other in F3 by congruence. eapply Hf; eassumption. }
    destruct (f_kind f) eqn:K.
    + destruct R as (A1 & W & R).
      specialize (IH (f_type f) m y (Some (snd s)) (Some (o_cm (a_own x))) c Pf R Hh).
      destruct (call repr (f_type f) p m y _ _) as [r [[c1 cw] cm]] eqn:Ecall.
      destruct (spec (f_type f) p m c) as [r' c'] eqn:Esp. cbn [follows fst snd] in IH. destruct IH as (-> & R' & Pn).
      destruct (call_frame _ _ _ _ _ _ _ _ _ _ Ecall ltac:(discriminate)) as (Ncw & W1 & _). specialize (W1 W).
      destruct cw as [u|]; [|congruence]. pose proof (rep_maybe _ _ _ _ _ R') as Qc. subst cm.
      cbn [put_value store_opt]. rewrite (upd_ext_at i (fun s => (fst s, u)) (fun _ => (fst s, u)) sl s Es eq_refl).
      set (x2 := on_own _ _).
      assert (Tg2 : target (a_own x2) wv = Some (VStruct sl)) by (unfold x2; rewrite own_on, own_child; exact Tg).
      destruct (store_some (VStruct (upd i (fun _ => (fst s, u)) sl)) x2 wv _ Tg2) as (z & wv1 & Ez & T & Cz & M & St & Ss & Fz & Cm).
      rewrite Ez. cbn [follows fst snd]. split; [reflexivity|]. split.
      * unfold x2 in *. rewrite own_on, own_child in *. rewrite ch_on, ch_child in Cz.
        eapply Tail with (s1 := (fst s, u)); cycle 1; [exact T|exact Cz|rewrite M; exact Hm|exact St|exact Ss|exact Fz|exact Cm|].
        cbn [fst snd]. split; [assumption|]. split; assumption.
      * intros Hp. specialize (Pn Hp). injection Pn as -> -> Pk.
        unfold x2 in Ez. rewrite Pk, (on_child_same _ _ _ Ey), set_cm_same in Ez.
        rewrite (upd_same i _ sl s Es) in Ez by (now destruct s). rewrite (store_back _ _ _ Tg) in Ez. now injection Ez as <- <-.
    + destruct R as (A1 & W & R).
      specialize (IH (f_type f) m y (Some (snd s)) (Some (fst s)) c Pf R Hh).
      destruct (call repr (f_type f) p m y _ _) as [r [[c1 cw] cm]] eqn:Ecall.
      destruct (spec (f_type f) p m c) as [r' c'] eqn:Esp. cbn [follows fst snd] in IH. destruct IH as (-> & R' & Pn).
      destruct (call_frame _ _ _ _ _ _ _ _ _ _ Ecall ltac:(discriminate)) as (Ncw & W1 & _). specialize (W1 W).
      destruct cw as [u|]; [|congruence]. pose proof (rep_maybe _ _ _ _ _ R') as Qc. subst cm.
      cbn [put_value put_maybe store_opt]. rewrite upd_upd, (upd_ext_at i (fun s => (maybe_in c', snd (fst s, u))) (fun _ => (maybe_in c', u)) sl s Es eq_refl).
      set (x2 := on_child _ _ _).
      assert (Tg2 : target (a_own x2) wv = Some (VStruct sl)) by (unfold x2; rewrite own_child; exact Tg).
      destruct (store_some (VStruct (upd i (fun _ => (maybe_in c', u)) sl)) x2 wv _ Tg2) as (z & wv1 & Ez & T & Cz & M & St & Ss & Fz & Cm).
      rewrite Ez. cbn [follows fst snd]. split; [reflexivity|]. split.
      * unfold x2 in *. rewrite own_child in *. rewrite ch_child in Cz.
        eapply Tail with (s1 := (maybe_in c', u)); cycle 1; [exact T|exact Cz|rewrite M; exact Hm|exact St|exact Ss|exact Fz|exact Cm|].
        cbn [fst snd]. split; [congruence|]. split; assumption.
      * intros Hp. specialize (Pn Hp). injection Pn as -> -> Pk.
        unfold x2 in Ez. rewrite (on_child_same _ _ _ Ey) in Ez.
        rewrite (upd_same i _ sl s Es) in Ez by (rewrite Pk; now destruct s). rewrite (store_back _ _ _ Tg) in Ez. now injection Ez as <- <-.
    + destruct R as (A1 & W & Vn & R).
      specialize (IH (f_type f) m y (Some (snd s)) (Some (fst s)) c Pf R Hh).
      destruct (call repr (f_type f) p m y _ _) as [r [[c1 cw] cm]] eqn:Ecall.
      destruct (spec (f_type f) p m c) as [r' c'] eqn:Esp. cbn [follows fst snd] in IH. destruct IH as (-> & R' & Pn).
      destruct (call_frame _ _ _ _ _ _ _ _ _ _ Ecall ltac:(discriminate)) as (Ncw & _ & W1). destruct (W1 W) as [W2 ->].
      pose proof (rep_maybe _ _ _ _ _ R') as Qc. subst cm.
      cbn [put_value put_maybe store_opt]. rewrite upd_upd, (upd_ext_at i (fun s0 => (maybe_in c', snd (fst s0, snd s))) (fun _ => (maybe_in c', snd s)) sl s Es eq_refl).
      set (x2 := on_child _ _ _).
      assert (Tg2 : target (a_own x2) wv = Some (VStruct sl)) by (unfold x2; rewrite own_child; exact Tg).
      destruct (store_some (VStruct (upd i (fun _ => (maybe_in c', snd s)) sl)) x2 wv _ Tg2) as (z & wv1 & Ez & T & Cz & M & St & Ss & Fz & Cm).
      rewrite Ez. cbn [follows fst snd]. split; [reflexivity|]. split.
      * unfold x2 in *. rewrite own_child in *. rewrite ch_child in Cz.
        eapply Tail with (s1 := (maybe_in c', snd s)); cycle 1; [exact T|exact Cz|rewrite M; exact Hm|exact St|exact Ss|exact Fz|exact Cm|].
        cbn [fst snd]. split; [congruence|]. split; [assumption|]. split; assumption.
      * intros Hp. specialize (Pn Hp). injection Pn as -> Pk.
        unfold x2 in Ez. rewrite (on_child_same _ _ _ Ey) in Ez.
        rewrite (upd_same i _ sl s Es) in Ez by (rewrite Pk; now destruct s). rewrite (store_back _ _ _ Tg) in Ez. now injection Ez as <- <-.
  - (* list *)
    destruct H as (Hm & e & y & u & -> & Hv & S1 & Tg & C & W & R).
    destruct i as [|i]; [|discriminate]. cbn [child_type] in Ec. injection Ec as <-.
    rewrite C, Tg. cbn [nth_error child_value child_maybe slot_maybe]. rewrite rev_unit.
    specialize (IH e m y (Some u) (Some (o_cm (a_own x))) c P R Hh).
    destruct (call repr e p m y _ _) as [r [[c1 cw] cm]] eqn:Ecall.
    destruct (spec e p m c) as [r' c'] eqn:Esp. cbn [follows fst snd] in IH. destruct IH as (-> & R' & Pn).
    destruct (call_frame _ _ _ _ _ _ _ _ _ _ Ecall ltac:(discriminate)) as (Ncw & W1 & _). specialize (W1 W).
    destruct cw as [u'|]; [|congruence]. pose proof (rep_maybe _ _ _ _ _ R') as Qc. subst cm.
    cbn [put_value store_opt]. rewrite set_last_snoc.
    set (x2 := on_own _ _).
    assert (Tg2 : target (a_own x2) wv = Some (VList (got ++ [u]))) by (unfold x2; rewrite own_on, own_child; exact Tg).
    destruct (store_some (VList (got ++ [u'])) x2 wv _ Tg2) as (z & wv1 & Ez & T & Cz & M & St & Ss & Fz & Cm).
    rewrite Ez. cbn [follows fst snd]. split; [reflexivity|]. split.
    + unfold x2 in *. rewrite own_on, own_child in *. rewrite ch_on, ch_child, C in Cz.
      cbn [rep]. split; [rewrite M; exact Hm|]. exists e, c1, u'. rewrite Cm, St. cbn [o_cm set_cm].
      repeat (split; [assumption || reflexivity|]). assumption.
    + intros Hp. specialize (Pn Hp). injection Pn as -> -> Pk.
      unfold x2 in Ez. rewrite Pk, (on_child_same 0 x y), set_cm_same in Ez by (now rewrite C).
      rewrite (store_back _ _ _ Tg) in Ez. now injection Ez as <- <-.
  - (* key *)
    destruct Hh as [-> Hh].
    destruct H as (Hm & e & k & y & n & -> & Hv & S1 & Tg & C & N & Ii & W & R).
    cbn [child_type] in Ec. injection Ec as <-.
    rewrite C, Tg. cbn [nth_error child_value child_maybe slot_maybe Nat.eqb]. rewrite rev_unit.
    destruct p as [|i p]; [|cbn [held child_type] in Hh; contradiction].
    specialize (IH (TScalar KString) m k (Some (VScalar (SString n))) (Some (o_cm (a_own x))) c I R Hh).
    cbn [call spec held act] in *.
    destruct (act_scalar KString m k _ _) as [r [[c1 cw] cm]] eqn:Ecall.
    destruct (spec_act (TScalar KString) m c) as [r' c'] eqn:Esp. cbn [follows fst snd] in IH. destruct IH as (-> & R' & Pn).
    destruct (act_frame (TScalar KString) _ _ _ _ _ _ _ _ Ecall ltac:(discriminate)) as (Ncw & W1 & _). specialize (W1 W).
    destruct cw as [u|]; [|congruence]. destruct (string_stays _ _ _ _ _ _ _ _ _ R Hh W Ecall) as [n1 ->].
    pose proof (rep_maybe _ _ _ _ _ R') as Qc. subst cm.
    cbn [put_value store_opt]. rewrite set_last_snoc. cbn [fst snd].
    set (x2 := on_own _ _).
    assert (Tg2 : target (a_own x2) wv = Some (VTree (got ++ [(n, zero e)]) (Some (rev (map fst got))))) by (unfold x2; rewrite own_on, own_child; exact Tg).
    destruct (store_some (VTree (got ++ [(n1, zero e)]) (Some (rev (map fst got)))) x2 wv _ Tg2) as (z & wv1 & Ez & T & Cz & M & St & Ss & Fz & Cm).
    rewrite Ez. cbn [follows fst snd]. split; [reflexivity|]. split.
    + unfold x2 in *. rewrite own_on, own_child in *. rewrite ch_on, ch_child, C in Cz.
      cbn [rep]. split; [rewrite M; exact Hm|]. exists e, c1, y, n1. rewrite Cm, St. cbn [o_cm set_cm].
      repeat (split; [assumption || reflexivity|]). assumption.
    + intros Hp. specialize (Pn Hp). injection Pn as -> -> Pk.
      unfold x2 in Ez. rewrite Pk, (on_child_same 0 x k), set_cm_same in Ez by (now rewrite C).
      rewrite (store_back _ _ _ Tg) in Ez. now injection Ez as <- <-.
  - (* entry *)
    destruct Hh as [-> Hh].
    destruct H as (Hm & e & k & y & u & -> & Hv & S1 & Tg & C & N & W & R).
    cbn [child_type] in Ec. injection Ec as <-.
    rewrite C, Tg. cbn [nth_error child_value child_maybe slot_maybe Nat.eqb]. rewrite rev_unit.
    specialize (IH e m y (Some u) (Some (o_cm (a_own x))) c P R Hh).
    destruct (call repr e p m y _ _) as [r [[c1 cw] cm]] eqn:Ecall.
    destruct (spec e p m c) as [r' c'] eqn:Esp. cbn [follows fst snd] in IH. destruct IH as (-> & R' & Pn).
    destruct (call_frame _ _ _ _ _ _ _ _ _ _ Ecall ltac:(discriminate)) as (Ncw & W1 & _). specialize (W1 W).
    destruct cw as [u'|]; [|congruence]. pose proof (rep_maybe _ _ _ _ _ R') as Qc. subst cm.
    cbn [put_value store_opt]. rewrite set_last_snoc. cbn [fst snd].
    set (x2 := on_own _ _).
    assert (Tg2 : target (a_own x2) wv = Some (VTree (got ++ [(n, u)]) (Some (rev (map fst (got ++ [(n, u)])))))) by (unfold x2; rewrite own_on, own_child; exact Tg).
    destruct (store_some (VTree (got ++ [(n, u')]) (Some (rev (map fst (got ++ [(n, u)]))))) x2 wv _ Tg2) as (z & wv1 & Ez & T & Cz & M & St & Ss & Fz & Cm).
    rewrite Ez. cbn [follows fst snd]. split; [reflexivity|]. split.
    + unfold x2 in *. rewrite own_on, own_child in *. rewrite ch_on, ch_child, C in Cz.
      cbn [rep]. split; [rewrite M; exact Hm|]. exists e, k, c1, u'. rewrite Cm, St. cbn [o_cm set_cm].
      split; [reflexivity|]. split; [assumption|]. split; [assumption|].
      split; [rewrite T; now rewrite !map_app|]. repeat (split; [assumption || reflexivity|]). assumption.
    + intros Hp. specialize (Pn Hp). injection Pn as -> -> Pk.
      unfold x2 in Ez. rewrite Pk, (on_child_same 1 x y), set_cm_same in Ez by (now rewrite C).
      rewrite (store_back _ _ _ Tg) in Ez. now injection Ez as <- <-.
Qed.
End Rep.
