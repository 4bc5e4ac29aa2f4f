(** Sequences of calls executed by the machine: calls below a child, loops over fields,
    elements and entries. *)
From Verif Require Import Base GoStr Cid Types Nodes Builder BuilderSpec BuilderFacts AssignCalls.

Ltac cases_in E := repeat match type of E with
  | context [match ?e with _ => _ end] => let Q := fresh "Q" in destruct e eqn:Q
  end.

Section Exec.
Context (repr : bool).

Lemma exec_app t l1 : forall w l2, exec repr t w (l1 ++ l2) =
  let '(v, w1) := exec repr t w l1 in match v with OK => exec repr t w1 l2 | _ => (v, w1) end.
Proof.
  induction l1 as [|[p m|] l1 IH]; intros w l2; cbn [exec app]; [reflexivity| |reflexivity].
  destruct (step repr t w (p, m)) as [[] w1]; [apply IH|reflexivity|reflexivity].
Qed.

(** ** A child's view of the world, and writing it back *)
Definition zoom (t : ty) (i : nat) (w : world) : option world :=
  let '(x, wv, _) := w in
  let v := target (a_own x) wv in
  match nth_error (a_ch x) i with Some c => Some (c, child_value t i v, child_maybe t i x v) | None => None end.
Definition plug (t : ty) (i : nat) (w z : world) : world :=
  let '(x, wv, mv) := w in
  let '(c1, cw, cm) := z in
  let v := target (a_own x) wv in
  let x1 := on_child i (fun _ => c1) x in
  let v1 := match v, cw with Some v, Some u => Some (put_value t i u v) | _, _ => v end in
  let v2 := match v1, cm with
            | Some v, Some k => Some (if slot_maybe t i then put_maybe i k v else v)
            | _, _ => v1
            end in
  let x2 := match cm with
            | Some k => if slot_maybe t i then x1 else on_own (set_cm k) x1
            | None => x1
            end in
  let '(x3, wv1) := store_opt v2 x2 wv in (x3, wv1, mv).

Lemma call_zoom t i p m x wv mv : call repr t (i :: p) m x wv mv =
  match child_type t i, zoom t i (x, wv, mv) with
  | Some tc, Some (c, cw, cm) => let '(r, z1) := call repr tc p m c cw cm in (r, plug t i (x, wv, mv) z1)
  | _, _ => (ERR, (x, wv, mv))
  end.
Proof.
  cbn [call zoom]. destruct (child_type t i) as [tc|]; [|reflexivity]. destruct (nth_error (a_ch x) i) as [c|]; [|reflexivity].
  destruct (call repr tc p m c _ _) as [r [[c1 cw] cm]]. unfold plug. destruct (store_opt _ _ wv) as [x3 wv1]. reflexivity.
Qed.

Definition shape_val (t : ty) (i : nat) (v : val) : Prop :=
  match t with
  | TStruct _ => exists sl, v = VStruct sl /\ i < length sl
  | TList _ => exists l u, v = VList (l ++ [u]) /\ i = 0
  | TTree _ => exists l k u m, v = VTree (l ++ [(k, u)]) m /\ i = 1
  | TScalar _ => False
  end.
Definition shape (t : ty) (i : nat) (w : world) : Prop :=
  let '(x, wv, _) := w in i < length (a_ch x) /\ exists v, target (a_own x) wv = Some v /\ shape_val t i v.

Definition put2 (t : ty) (i : nat) (u : val) (k : maybe) (v : val) : val :=
  if slot_maybe t i then put_maybe i k (put_value t i u v) else put_value t i u v.
Definition set_child (t : ty) (i : nat) (c : asm) (k : maybe) (x : asm) : asm :=
  if slot_maybe t i then on_child i (fun _ => c) x else on_own (set_cm k) (on_child i (fun _ => c) x).

Lemma plug_some t i x wv mv v c u k : target (a_own x) wv = Some v ->
  plug t i (x, wv, mv) (c, Some u, Some k) =
  let '(x3, wv1) := store (put2 t i u k v) (set_child t i c k x) wv in (x3, wv1, mv).
Proof. intros T. unfold plug. rewrite T. unfold put2, set_child. cbn [store_opt]. destruct (slot_maybe t i); reflexivity. Qed.

Lemma shape_put t i u k v : shape_val t i v -> shape_val t i (put2 t i u k v).
Proof.
  unfold put2. destruct t as [|e|e|fs]; cbn [shape_val slot_maybe]; intros H.
  - contradiction.
  - destruct H as (l & w & -> & ->). cbn [put_value]. rewrite set_last_snoc. eauto.
  - destruct H as (l & n & w & m & -> & ->). cbn [put_value]. rewrite set_last_snoc. cbn. eauto 6.
  - destruct H as (sl & -> & L). destruct (kind_at fs i); cbn [put_value put_maybe]; eexists; (split; [reflexivity|]); rewrite ?upd_length; assumption.
Qed.
Lemma put_put t i u k u' k' v : shape_val t i v -> put2 t i u' k' (put2 t i u k v) = put2 t i u' k' v.
Proof.
  unfold put2. destruct t as [|e|e|fs]; cbn [shape_val slot_maybe]; intros H.
  - contradiction.
  - destruct H as (l & w & -> & ->). cbn [put_value]. now rewrite !set_last_snoc.
  - destruct H as (l & n & w & m & -> & ->). cbn [put_value]. rewrite !set_last_snoc. reflexivity.
  - destruct H as (sl & -> & L). destruct (nth_len sl i L) as [s E].
    destruct (kind_at fs i); cbn [put_value put_maybe]; rewrite ?upd_upd; f_equal; eapply upd_ext_at; try eassumption; reflexivity.
Qed.
Lemma read_put t i u k v : shape_val t i v -> child_value t i (Some (put2 t i u k v)) = Some u.
Proof.
  unfold put2. destruct t as [|e|e|fs]; cbn [shape_val slot_maybe]; intros H.
  - contradiction.
  - destruct H as (l & w & -> & ->). cbn [put_value child_value]. now rewrite set_last_snoc, rev_unit.
  - destruct H as (l & n & w & m & -> & ->). cbn [put_value child_value]. rewrite set_last_snoc, rev_unit. reflexivity.
  - destruct H as (sl & -> & L). destruct (nth_len sl i L) as [s E].
    destruct (kind_at fs i); cbn [put_value put_maybe child_value]; rewrite ?upd_upd, (nth_upd_same _ _ _ _ E); reflexivity.
Qed.

(** The laws *)
Lemma zoom_plug t i x wv mv c u k : shape t i (x, wv, mv) ->
  zoom t i (plug t i (x, wv, mv) (c, Some u, Some k)) = Some (c, Some u, Some k) /\ shape t i (plug t i (x, wv, mv) (c, Some u, Some k)).
Proof.
  intros (L & v & T & S). rewrite (plug_some t i x wv mv v c u k T).
  assert (T1 : target (a_own (set_child t i c k x)) wv = Some v).
  { unfold set_child. destruct (slot_maybe t i); rewrite ?own_on, own_child; exact T. }
  destruct (store_some (put2 t i u k v) _ wv _ T1) as (y & wv1 & -> & Ty & Cy & _ & _ & _ & _ & Cm).
  assert (Cx : a_ch y = upd i (fun _ => c) (a_ch x)).
  { rewrite Cy. unfold set_child. destruct (slot_maybe t i); rewrite ?ch_on, ch_child; reflexivity. }
  destruct (nth_len (a_ch x) i L) as [c0 E0].
  unfold zoom, shape. rewrite Ty, Cx, (nth_upd_same _ _ _ _ E0), upd_length, (read_put t i u k v S). split.
  - f_equal. f_equal. unfold child_maybe. destruct t as [s|e|e|fs]; try (rewrite Cm; unfold set_child; cbn [slot_maybe]; rewrite own_on; reflexivity).
    unfold put2, slot_maybe. destruct (kind_at fs i) eqn:K.
    + rewrite Cm. unfold set_child, slot_maybe. rewrite K, own_on. reflexivity.
    + cbn [shape_val] in S. destruct S as (sl & -> & Ls). destruct (nth_len sl i Ls) as [s E]. cbn [put_value put_maybe].
      now rewrite upd_upd, (nth_upd_same _ _ _ _ E).
    + cbn [shape_val] in S. destruct S as (sl & -> & Ls). destruct (nth_len sl i Ls) as [s E]. cbn [put_value put_maybe].
      now rewrite upd_upd, (nth_upd_same _ _ _ _ E).
  - split; [assumption|]. eexists. split; [reflexivity|]. now apply shape_put.
Qed.

Lemma store_store a b x wv v x1 wv1 (g : asm -> asm) : target (a_own x) wv = Some v -> store a x wv = (x1, wv1) ->
  (forall y, o_w (a_own (g y)) = o_w (a_own y)) ->
  (forall w y, g (on_own (set_w w) y) = on_own (set_w w) (g y)) ->
  store b (g x1) wv1 = store b (g x) wv.
Proof.
  intros T E G1 G2. unfold store in *. rewrite !G1. unfold target in T.
  destruct (o_w (a_own x)) as [| |u] eqn:W; [discriminate|..]; injection E as <- <-.
  - now rewrite W.
  - rewrite own_on. cbn [o_w set_w]. rewrite G2. f_equal. destruct (g x) as [o ch]. reflexivity.
Qed.

Lemma plug_plug t i x wv mv c u k c' u' k' : shape t i (x, wv, mv) ->
  plug t i (plug t i (x, wv, mv) (c, Some u, Some k)) (c', Some u', Some k') = plug t i (x, wv, mv) (c', Some u', Some k').
Proof.
  intros (L & v & T & S). rewrite (plug_some t i x wv mv v c u k T), (plug_some t i x wv mv v c' u' k' T).
  assert (T1 : target (a_own (set_child t i c k x)) wv = Some v).
  { unfold set_child. destruct (slot_maybe t i); rewrite ?own_on, own_child; exact T. }
  destruct (store_some (put2 t i u k v) _ wv _ T1) as (y & wv1 & E & Ty & _). rewrite E.
  rewrite (plug_some t i y wv1 mv _ c' u' k' Ty), (put_put t i u k u' k' v S).
  rewrite (store_store (put2 t i u k v) (put2 t i u' k' v) (set_child t i c k x) wv v y wv1 (set_child t i c' k') T1 E).
  - assert (Q : set_child t i c' k' (set_child t i c k x) = set_child t i c' k' x).
    { unfold set_child. destruct (slot_maybe t i); destruct x as [o ch]; cbn; now rewrite upd_upd. }
    now rewrite Q.
  - intros z. unfold set_child. destruct (slot_maybe t i); rewrite ?own_on, own_child; reflexivity.
  - intros w z. unfold set_child. destruct (slot_maybe t i); destruct z as [o ch]; reflexivity.
Qed.

Lemma plug_self t i x wv mv c cw cm : shape t i (x, wv, mv) -> zoom t i (x, wv, mv) = Some (c, cw, cm) ->
  plug t i (x, wv, mv) (c, cw, cm) = (x, wv, mv) /\ cw <> None /\ cm <> None.
Proof.
  intros (L & v & T & S) Z. cbn [zoom] in Z. rewrite T in Z. destruct (nth_error (a_ch x) i) as [c0|] eqn:E0; [|discriminate].
  injection Z as <- Z1 Z2.
  assert (N1 : exists u k, cw = Some u /\ cm = Some k /\ put2 t i u k v = v /\ set_child t i c0 k x = x).
  { unfold put2, set_child. rewrite (on_child_same _ _ _ E0).
    destruct t as [s|e|e|fs]; cbn [shape_val] in S.
    - contradiction.
    - destruct S as (l & u & -> & ->). cbn [child_value child_maybe slot_maybe put_value] in *. rewrite rev_unit in Z1.
      exists u, (o_cm (a_own x)). rewrite set_last_snoc, set_cm_same. auto.
    - destruct S as (l & n & u & m & -> & ->). cbn [child_value child_maybe slot_maybe put_value] in *. rewrite rev_unit in Z1.
      exists u, (o_cm (a_own x)). rewrite set_last_snoc, set_cm_same. cbn. auto.
    - destruct S as (sl & -> & Ls). destruct (nth_len sl i Ls) as [[a b] E]. cbn [child_value child_maybe slot_maybe put_value] in *.
      rewrite E in Z1, Z2. cbn in Z1, Z2. destruct (kind_at fs i).
      + exists b, (o_cm (a_own x)). rewrite set_cm_same. repeat (split; [congruence|]). split; [|reflexivity]. f_equal. now apply (upd_same i _ sl (a, b)).
      + exists b, a. repeat (split; [congruence|]). split; [|reflexivity]. cbn [put_maybe]. f_equal. rewrite upd_upd. now apply (upd_same i _ sl (a, b)).
      + exists b, a. repeat (split; [congruence|]). split; [|reflexivity]. cbn [put_maybe]. f_equal. rewrite upd_upd. now apply (upd_same i _ sl (a, b)). }
  destruct N1 as (u & k & -> & -> & P & Q). rewrite (plug_some t i x wv mv v c0 u k T), P, Q, (store_back _ _ _ T).
  split; [reflexivity|]. split; discriminate.
Qed.

(** A call keeps what is there *)
Lemma act_mv t m x wv k r x1 wv1 mv1 : act repr t m x wv (Some k) = (r, (x1, wv1, mv1)) -> mv1 <> None.
Proof.
  destruct t; cbn [act]; [unfold act_scalar|unfold act_list|unfold act_tree|unfold act_struct];
    intros E; destruct m; unfold assign_null, struct_start in E; cases_in E; injection E as <- <- <- <-; discriminate.
Qed.
Lemma call_full t p m x wv mv r x1 wv1 mv1 : call repr t p m x wv mv = (r, (x1, wv1, mv1)) ->
  wv <> None -> mv <> None -> wv1 <> None /\ mv1 <> None.
Proof.
  intros E N1 N2. split; [exact (proj1 (call_frame _ _ _ _ _ _ _ _ _ _ _ E N1))|].
  destruct p as [|i p].
  - cbn [call] in E. destruct mv; [|congruence]. eapply act_mv. eassumption.
  - rewrite call_zoom in E. destruct (child_type t i); [|injection E as <- <- <- <-; exact N2].
    destruct (zoom t i (x, wv, mv)) as [[[c cw] cm]|]; [|injection E as <- <- <- <-; exact N2].
    destruct (call repr _ p m c cw cm) as [r' [[c1 cw1] cm1]]. unfold plug in E.
    destruct (store_opt _ _ wv) as [x3 wv3]. injection E as <- <- <- <-. exact N2.
Qed.
Lemma exec_full t l : forall x wv mv r x1 wv1 mv1, exec repr t (x, wv, mv) l = (r, (x1, wv1, mv1)) ->
  wv <> None -> mv <> None -> wv1 <> None /\ mv1 <> None.
Proof.
  induction l as [|[p m|] l IH]; intros x wv mv r x1 wv1 mv1 E N1 N2; cbn [exec] in E.
  - injection E as <- <- <- <-. auto.
  - unfold step in E. cbn [fst snd] in E. destruct (call repr t p m x wv mv) as [v [[y wy] my]] eqn:C.
    destruct (call_full _ _ _ _ _ _ _ _ _ _ C N1 N2) as [M1 M2].
    destruct v; [eapply IH; eassumption|injection E as <- <- <- <-; auto|injection E as <- <- <- <-; auto].
  - injection E as <- <- <- <-. auto.
Qed.
Lemma exec_frame t l : forall x wv mv r x1 wv1 mv1, exec repr t (x, wv, mv) l = (r, (x1, wv1, mv1)) -> frame x wv x1 wv1.
Proof.
  induction l as [|[p m|] l IH]; intros x wv mv r x1 wv1 mv1 E; cbn [exec] in E.
  - injection E as <- <- <- <-. apply frame_refl.
  - unfold step in E. cbn [fst snd] in E. destruct (call repr t p m x wv mv) as [v [[y wy] my]] eqn:C. apply call_frame in C.
    destruct v; [|injection E as <- <- <- <-; exact C|injection E as <- <- <- <-; exact C].
    eapply frame_trans; [exact C|]. eapply IH. eassumption.
  - injection E as <- <- <- <-. apply frame_refl.
Qed.

(** ** Calls below a child, all together *)
Lemma exec_inside t i tc : child_type t i = Some tc -> forall l x wv mv c cw cm,
  shape t i (x, wv, mv) -> zoom t i (x, wv, mv) = Some (c, cw, cm) ->
  exec repr t (x, wv, mv) (inside i l) = let '(r, z) := exec repr tc (c, cw, cm) l in (r, plug t i (x, wv, mv) z).
Proof.
  intros Tc. induction l as [|[p m|] l IH]; intros x wv mv c cw cm S Z; destruct (plug_self t i x wv mv c cw cm S Z) as (P & N1 & N2).
  - cbn [inside map exec]. now rewrite P.
  - cbn [inside map under exec]. unfold step. cbn [fst snd]. rewrite call_zoom, Tc, Z.
    destruct (call repr tc p m c cw cm) as [r [[c1 cw1] cm1]] eqn:C.
    destruct (call_full _ _ _ _ _ _ _ _ _ _ C N1 N2) as [M1 M2]. destruct cw1 as [u|]; [|congruence]. destruct cm1 as [k|]; [|congruence].
    destruct (zoom_plug t i x wv mv c1 u k S) as [Z1 S1].
    destruct r; try reflexivity. pose proof (plug_plug t i x wv mv c1 u k) as PP.
    destruct (plug t i (x, wv, mv) (c1, Some u, Some k)) as [[y wy] my] eqn:Ep.
    fold (inside i l). rewrite (IH y wy my c1 (Some u) (Some k) S1 Z1).
    destruct (exec repr tc (c1, Some u, Some k) l) as [r2 [[c2 cw2] cm2]] eqn:E2.
    destruct (exec_full _ _ _ _ _ _ _ _ _ E2 ltac:(discriminate) ltac:(discriminate)) as [Q1 Q2].
    destruct cw2 as [u2|]; [|congruence]. destruct cm2 as [k2|]; [|congruence]. f_equal. now apply PP.
  - cbn [inside map under exec]. now rewrite P.
Qed.

(** The parent's phase follows the child's *)
Lemma shape_in_struct fs got i b x wv mv : rep repr (TStruct fs) x wv mv (SIn got i b) ->
  exists f y s, shape (TStruct fs) i (x, wv, mv) /\ nth_error fs i = Some f /\ child_type (TStruct fs) i = Some (f_type f) /\
    nth_error (a_ch x) i = Some y /\ has i got = false /\
    zoom (TStruct fs) i (x, wv, mv) = Some (y, Some s, child_maybe (TStruct fs) i x (target (a_own x) wv)) /\
    rep repr (f_type f) y (Some s) (child_maybe (TStruct fs) i x (target (a_own x) wv)) b /\
    (f_kind f <> OptionalPointer -> o_w (a_own y) = WParent).
Proof.
  intros (Hm & fs' & sl & f & y & s & T & (Hv & S1 & Tg & L1 & L2 & L3 & Hs & Hf) & F & G & Ef & Ey & Es & R). injection T as <-.
  exists f, y, (snd s). unfold shape, zoom. rewrite Tg, Ey. cbn [child_type child_value]. rewrite Ef, Es. cbn [option_map].
  split; [split; [rewrite L1; eapply nth_lt; eassumption|eexists; split; [reflexivity|]; exists sl; split; [reflexivity|eapply nth_lt; eassumption]]|].
  repeat (split; [assumption || reflexivity|]). unfold child_maybe. rewrite (kind_at_nth _ _ _ Ef).
  destruct (f_kind f); (split; [rewrite ?Es; cbn; apply R|intros Q; try congruence; apply R]).
Qed.

Lemma plug_struct fs got i b x wv mv c cw cm c1 cw1 cm1 b1 f : rep repr (TStruct fs) x wv mv (SIn got i b) ->
  nth_error fs i = Some f -> zoom (TStruct fs) i (x, wv, mv) = Some (c, cw, cm) -> frame c cw c1 cw1 ->
  rep repr (f_type f) c1 cw1 cm1 b1 ->
  let '(x1, wv1, mv1) := plug (TStruct fs) i (x, wv, mv) (c1, cw1, cm1) in mv1 = mv /\ rep repr (TStruct fs) x1 wv1 mv1 (SIn got i b1).
Proof.
  intros (Hm & fs' & sl & f' & y & s & T & (Hv & S1 & Tg & L1 & L2 & L3 & Hs & Hf) & F & G & Ef' & Ey & Es & R) Ef Z Fr R1. injection T as <-.
  assert (f' = f) as -> by congruence. unfold zoom in Z. rewrite Tg, Ey in Z. cbn [child_value] in Z. rewrite Es in Z. cbn [option_map] in Z.
  injection Z as <- <- <-. destruct (Fr ltac:(discriminate)) as (N1 & W1 & W2). destruct cw1 as [u|]; [|congruence].
  pose proof (rep_maybe _ _ _ _ _ _ R1) as ->. rewrite (plug_some _ i x wv mv _ c1 u (maybe_in b1) Tg).
  unfold put2, set_child, slot_maybe. rewrite (kind_at_nth _ _ _ Ef).
  assert (Tail : forall cm1 s1,
      match f_kind f with
      | Required => fst s1 = MAbsent /\ o_w (a_own c1) = WParent /\ rep repr (f_type f) c1 (Some (snd s1)) (Some cm1) b1
      | OptionalInline => cm1 = MAbsent /\ o_w (a_own c1) = WParent /\ rep repr (f_type f) c1 (Some (snd s1)) (Some (fst s1)) b1
      | OptionalPointer => cm1 = MAbsent /\ o_w (a_own c1) <> WParent /\ snd s1 = VNil /\ rep repr (f_type f) c1 (Some (snd s1)) (Some (fst s1)) b1
      end ->
      forall z wv1, target (a_own z) wv1 = Some (VStruct (upd i (fun _ => s1) sl)) -> a_ch z = upd i (fun _ => c1) (a_ch x) ->
      o_m (a_own z) = true -> o_st (a_own z) = o_st (a_own x) -> o_s (a_own z) = o_s (a_own x) ->
      o_f (a_own z) = o_f (a_own x) -> o_cm (a_own z) = cm1 ->
      rep repr (TStruct fs) z wv1 mv (SIn got i b1)).
  { intros k1 s1 K z wv1 Tz Cz Mz Sz Ssz Fz Cmz. cbn [rep]. split; [assumption|].
    exists fs, (upd i (fun _ => s1) sl), f, c1, s1. split; [reflexivity|]. rewrite Cz, Cmz, Fz.
    split; [|split; [assumption|]; split; [assumption|]; split; [assumption|]; split; [now apply nth_upd_same with (x := y)|];
             split; [now apply (nth_upd_same (fun _ => s1)) with (x := s)|exact K]].
    unfold struct_rep. rewrite Cz, Sz, Ssz, !upd_length. repeat (split; [assumption|]).
    intros j f0 c0 s0 g0 Nj F1 F2 F3 F4. rewrite nth_upd_other in F2 by congruence. rewrite nth_upd_other in F3 by congruence. eapply Hf; eassumption. }
  destruct (f_kind f) eqn:K.
  - destruct R as (A1 & W & R). cbn [put_value].
    rewrite (upd_ext_at i (fun s => (fst s, u)) (fun _ => (fst s, u)) sl s Es eq_refl).
    set (x2 := on_own _ _).
    assert (Tg2 : target (a_own x2) wv = Some (VStruct sl)) by (unfold x2; rewrite own_on, own_child; exact Tg).
    destruct (store_some (VStruct (upd i (fun _ => (fst s, u)) sl)) x2 wv _ Tg2) as (z & wv1 & Ez & Tz & Cz & M & St & Ss & Fz & Cm).
    rewrite Ez. split; [reflexivity|]. unfold x2 in *. rewrite own_on, own_child in *. rewrite ch_on, ch_child in Cz.
    eapply Tail with (s1 := (fst s, u)); cycle 1; [exact Tz|exact Cz|rewrite M; exact Hm|exact St|exact Ss|exact Fz|exact Cm|].
    cbn [fst snd]. auto.
  - destruct R as (A1 & W & R). cbn [put_value put_maybe]. rewrite upd_upd.
    match goal with |- context [upd i ?g sl] => rewrite (upd_ext_at i g (fun _ => (maybe_in b1, u)) sl s Es eq_refl) end.
    set (x2 := on_child _ _ _).
    assert (Tg2 : target (a_own x2) wv = Some (VStruct sl)) by (unfold x2; rewrite own_child; exact Tg).
    destruct (store_some (VStruct (upd i (fun _ => (maybe_in b1, u)) sl)) x2 wv _ Tg2) as (z & wv1 & Ez & Tz & Cz & M & St & Ss & Fz & Cm).
    rewrite Ez. split; [reflexivity|]. unfold x2 in *. rewrite own_child in *. rewrite ch_child in Cz.
    eapply Tail with (s1 := (maybe_in b1, u)); cycle 1; [exact Tz|exact Cz|rewrite M; exact Hm|exact St|exact Ss|exact Fz|exact Cm|].
    cbn [fst snd]. split; [congruence|]. auto.
  - destruct R as (A1 & W & Vn & R). destruct (W2 W) as [W3 E3]. injection E3 as ->.
    cbn [put_value put_maybe]. rewrite upd_upd.
    match goal with |- context [upd i ?g sl] => rewrite (upd_ext_at i g (fun _ => (maybe_in b1, snd s)) sl s Es eq_refl) end.
    set (x2 := on_child _ _ _).
    assert (Tg2 : target (a_own x2) wv = Some (VStruct sl)) by (unfold x2; rewrite own_child; exact Tg).
    destruct (store_some (VStruct (upd i (fun _ => (maybe_in b1, snd s)) sl)) x2 wv _ Tg2) as (z & wv1 & Ez & Tz & Cz & M & St & Ss & Fz & Cm).
    rewrite Ez. split; [reflexivity|]. unfold x2 in *. rewrite own_child in *. rewrite ch_child in Cz.
    eapply Tail with (s1 := (maybe_in b1, snd s)); cycle 1; [exact Tz|exact Cz|rewrite M; exact Hm|exact St|exact Ss|exact Fz|exact Cm|].
    cbn [fst snd]. split; [congruence|]. auto.
Qed.

Lemma shape_in_list e got b x wv mv : rep repr (TList e) x wv mv (LIn got b) ->
  exists y u, shape (TList e) 0 (x, wv, mv) /\ zoom (TList e) 0 (x, wv, mv) = Some (y, Some u, Some (o_cm (a_own x))) /\
    rep repr e y (Some u) (Some (o_cm (a_own x))) b /\ o_w (a_own y) = WParent.
Proof.
  intros (Hm & e' & y & u & T & Hv & S1 & Tg & C & W & R). injection T as <-. exists y, u. unfold shape, zoom. rewrite Tg, C.
  cbn [nth_error child_value child_maybe length shape_val]. rewrite rev_unit. repeat split; try assumption; try lia. eexists. split; [reflexivity|]. eauto.
Qed.
Lemma plug_list e got b x wv mv c cw cm c1 cw1 cm1 b1 : rep repr (TList e) x wv mv (LIn got b) ->
  zoom (TList e) 0 (x, wv, mv) = Some (c, cw, cm) -> frame c cw c1 cw1 -> rep repr e c1 cw1 cm1 b1 ->
  let '(x1, wv1, mv1) := plug (TList e) 0 (x, wv, mv) (c1, cw1, cm1) in mv1 = mv /\ rep repr (TList e) x1 wv1 mv1 (LIn got b1).
Proof.
  intros (Hm & e' & y & u0 & T & Hv & S1 & Tg & C & W & R) Z Fr R1. injection T as <-.
  unfold zoom in Z. rewrite Tg, C in Z. cbn [nth_error child_value child_maybe] in Z. rewrite rev_unit in Z. injection Z as <- <- <-.
  destruct (Fr ltac:(discriminate)) as (N1 & W1 & W2). destruct cw1 as [u|]; [|congruence].
  pose proof (rep_maybe _ _ _ _ _ _ R1) as ->. rewrite (plug_some _ 0 x wv mv _ c1 u (maybe_in b1) Tg).
  unfold put2, set_child. cbn [slot_maybe put_value]. rewrite set_last_snoc. set (x2 := on_own _ _).
  assert (Tg2 : target (a_own x2) wv = Some (VList (got ++ [u0]))) by (unfold x2; rewrite own_on, own_child; exact Tg).
  destruct (store_some (VList (got ++ [u])) x2 wv _ Tg2) as (z & wv1 & Ez & Tz & Cz & M & St & Ss & Fz & Cm).
  rewrite Ez. split; [reflexivity|]. unfold x2 in *. rewrite own_on, own_child in *. rewrite ch_on, ch_child, C in Cz.
  cbn [rep]. split; [rewrite M; exact Hm|]. exists e, c1, u. rewrite Cm, St. cbn [o_cm set_cm].
  repeat (split; [assumption || reflexivity || auto|]). assumption.
Qed.

Lemma shape_in_tree e got n b x wv mv : rep repr (TTree e) x wv mv (TIn got n b) ->
  exists y u, shape (TTree e) 1 (x, wv, mv) /\ zoom (TTree e) 1 (x, wv, mv) = Some (y, Some u, Some (o_cm (a_own x))) /\
    rep repr e y (Some u) (Some (o_cm (a_own x))) b /\ o_w (a_own y) = WParent.
Proof.
  intros (Hm & e' & k & y & u & T & Hv & S1 & Tg & C & N & W & R). injection T as <-. exists y, u. unfold shape, zoom. rewrite Tg, C.
  cbn [nth_error child_value child_maybe length shape_val]. rewrite rev_unit. repeat split; try assumption; try lia. eexists. split; [reflexivity|]. eauto 6.
Qed.
Lemma plug_tree e got n b x wv mv c cw cm c1 cw1 cm1 b1 : rep repr (TTree e) x wv mv (TIn got n b) ->
  zoom (TTree e) 1 (x, wv, mv) = Some (c, cw, cm) -> frame c cw c1 cw1 -> rep repr e c1 cw1 cm1 b1 ->
  let '(x1, wv1, mv1) := plug (TTree e) 1 (x, wv, mv) (c1, cw1, cm1) in mv1 = mv /\ rep repr (TTree e) x1 wv1 mv1 (TIn got n b1).
Proof.
  intros (Hm & e' & k & y & u0 & T & Hv & S1 & Tg & C & N & W & R) Z Fr R1. injection T as <-.
  unfold zoom in Z. rewrite Tg, C in Z. cbn [nth_error child_value child_maybe] in Z. rewrite rev_unit in Z. injection Z as <- <- <-.
  destruct (Fr ltac:(discriminate)) as (N1 & W1 & W2). destruct cw1 as [u|]; [|congruence].
  pose proof (rep_maybe _ _ _ _ _ _ R1) as ->. rewrite (plug_some _ 1 x wv mv _ c1 u (maybe_in b1) Tg).
  unfold put2, set_child. cbn [slot_maybe put_value]. rewrite set_last_snoc. cbn [fst snd]. set (x2 := on_own _ _).
  assert (Tg2 : target (a_own x2) wv = Some (VTree (got ++ [(n, u0)]) (Some (rev (map fst (got ++ [(n, u0)])))))) by (unfold x2; rewrite own_on, own_child; exact Tg).
  destruct (store_some (VTree (got ++ [(n, u)]) (Some (rev (map fst (got ++ [(n, u0)]))))) x2 wv _ Tg2) as (z & wv1 & Ez & Tz & Cz & M & St & Ss & Fz & Cm).
  rewrite Ez. split; [reflexivity|]. unfold x2 in *. rewrite own_on, own_child in *. rewrite ch_on, ch_child, C in Cz.
  cbn [rep]. split; [rewrite M; exact Hm|]. exists e, k, c1, u. rewrite Cm, St. cbn [o_cm set_cm].
  split; [reflexivity|]. split; [assumption|]. split; [assumption|]. split; [rewrite Tz; now rewrite !map_app|].
  repeat (split; [assumption || reflexivity || auto|]). assumption.
Qed.
End Exec.
