(** What AssignNode of a struct, a list and a tree comes to, from what it comes to for
    the children. *)
From Verif Require Import Base GoStr Cid Types Nodes Builder BuilderSpec BuilderFacts AssignCalls AssignFacts.

Section Loops.
Context (repr : bool).

(** The calls [l] on a fresh assembler of type [t] end as [r] says.  [nil]: its [w] is nil. *)
Definition gives (nil : bool) (t : ty) (l : list action) (r : res val) : Prop :=
  forall x wv mv, rep repr t x wv mv Fresh ->
  (if nil then o_w (a_own x) = WNil else target (a_own x) wv = Some (zero t)) ->
  let '(v, (x1, wv1, mv1)) := exec repr t (x, wv, mv) l in
  match r with
  | Ok u => v = OK /\ exists fin, rep repr t x1 wv1 mv1 (Full u fin)
  | Err _ => v = ERR
  | Panic => v = PANIC
  | OutOfFuel => False
  end.

Lemma step_here t m x wv mv b : pointers_to_structs t -> rep repr t x wv mv b -> held_here t m b ->
  exists x1 wv1 mv1, step repr t (x, wv, mv) ([], m) = (fst (spec_act t m b), (x1, wv1, mv1)) /\
    rep repr t x1 wv1 mv1 (snd (spec_act t m b)).
Proof.
  intros P H Hh. pose proof (act_follows repr t m x wv mv b P H Hh) as F. unfold step. cbn [fst snd call].
  destruct (act repr t m x wv mv) as [r [[x1 wv1] mv1]]. destruct F as (-> & R & _). eauto.
Qed.

Lemma null_gives nil t r : pointers_to_structs t -> r = Err EWrongKind -> gives nil t [Do [] AssignNull] r.
Proof.
  intros P -> x wv mv H _. cbn [exec].
  destruct (step_here t AssignNull x wv mv Fresh P H I) as (x1 & wv1 & mv1 & -> & _). destruct t; reflexivity.
Qed.
Lemma typed_gives nil t u : pointers_to_structs t -> right_type t u -> gives nil t [Do [] (AssignTyped u)] (Ok u).
Proof.
  intros P Q x wv mv H _. cbn [exec].
  destruct (step_here t (AssignTyped u) x wv mv Fresh P H Q) as (x1 & wv1 & mv1 & -> & R).
  destruct t; cbn [spec_act spec_assign fst snd] in *; eauto.
Qed.
Lemma fail_gives nil t e : gives nil t [Fail] (Err e).
Proof. intros x wv mv H _. reflexivity. Qed.
Lemma scalar_gives nil k s : kind_of s = Some k -> gives nil (TScalar k) [Do [] (Assign s)] (Ok (VScalar s)).
Proof.
  intros K x wv mv H _. cbn [exec].
  destruct (step_here (TScalar k) (Assign s) x wv mv Fresh I H I) as (x1 & wv1 & mv1 & -> & R).
  cbn [spec_act] in *. rewrite K in *. replace (skind_eqb k k) with true in * by (destruct k; reflexivity). cbn in *. eauto.
Qed.

(** ** What does not depend on [m] *)
Definition blind_meth (m : meth) : bool := match m with AssembleKey | KeyAssign _ | AssembleValue => true | _ => false end.
Definition blind (a : action) : bool := match a with Do [] m => blind_meth m | _ => true end.

Lemma blind_call t p m x wv : blind (Do p m) = true ->
  exists r x1 wv1, forall mv, call repr t p m x wv mv = (r, (x1, wv1, mv)).
Proof.
  intros B. destruct p as [|i p].
  - cbn [call]. destruct t; cbn [act]; [unfold act_scalar|unfold act_list|unfold act_tree|unfold act_struct, struct_start];
      destruct m; try discriminate B.
    all: repeat match goal with
      | |- context [match ?e with _ => _ end] =>
          lazymatch e with context [match _ with _ => _ end] => fail | _ => idtac end; destruct e
      end; do 3 eexists; intros mv; reflexivity.
  - destruct (child_type t i) as [tc|] eqn:Tc; [|do 3 eexists; intros mv; rewrite call_zoom, Tc; reflexivity].
    destruct (nth_error (a_ch x) i) as [c|] eqn:Ec; [|do 3 eexists; intros mv; rewrite call_zoom, Tc; unfold zoom; rewrite Ec; reflexivity].
    destruct (call repr tc p m c (child_value t i (target (a_own x) wv)) (child_maybe t i x (target (a_own x) wv))) as [r [[c1 cw] cm]] eqn:C.
    destruct (plug t i (x, wv, None) (c1, cw, cm)) as [[x3 wv1] mv3] eqn:Pl. exists r, x3, wv1. intros mv. rewrite call_zoom, Tc. unfold zoom.
    rewrite Ec, C. unfold plug in *. destruct (store_opt _ _ wv). injection Pl as <- <- <-. reflexivity.
Qed.

Lemma blind_exec t l : forallb blind l = true -> forall x wv,
  exists r x1 wv1, forall mv, exec repr t (x, wv, mv) l = (r, (x1, wv1, mv)).
Proof.
  induction l as [|[p m|] l IH]; intros B x wv; cbn [exec].
  - eauto.
  - apply andb_prop in B as [B1 B2]. destruct (blind_call t p m x wv B1) as (r & x1 & wv1 & E).
    destruct r.
    + destruct (IH B2 x1 wv1) as (r & x2 & wv2 & E2). exists r, x2, wv2. intros mv. unfold step. cbn [fst snd]. now rewrite E, E2.
    + exists ERR, x1, wv1. intros mv. unfold step. cbn [fst snd]. now rewrite E.
    + exists PANIC, x1, wv1. intros mv. unfold step. cbn [fst snd]. now rewrite E.
  - eauto.
Qed.

(** Finish wants [m] to be there, whatever it holds *)
Lemma finish_blind t x wv k k' : let '(r, w) := act repr t Finish x wv (Some k) in
  exists w', act repr t Finish x wv (Some k') = (r, w') /\ (r = OK -> w' = w).
Proof.
  destruct t; cbn [act]; [unfold act_scalar|unfold act_list|unfold act_tree|unfold act_struct]; unfold maybe_of.
  - eexists. split; [reflexivity|discriminate].
  - destruct (list_ready x) as [x1|]; [destruct (o_m (a_own x1))|]; (eexists; split; [reflexivity|]); (discriminate || reflexivity).
  - destruct (tree_ready x) as [x1|]; [destruct (o_m (a_own x1))|]; (eexists; split; [reflexivity|]); (discriminate || reflexivity).
  - destruct (struct_ready repr fields x wv) as [[x1 wv1]|]; [destruct (sufficient _ _); [destruct (o_m (a_own x1))|]|];
      (eexists; split; [reflexivity|]); (discriminate || reflexivity).
Qed.

Lemma without_begin t l x wv k k' : forallb blind l = true ->
  let '(r, w) := exec repr t (x, wv, Some k) (l ++ [Do [] Finish]) in
  exists w', exec repr t (x, wv, Some k') (l ++ [Do [] Finish]) = (r, w') /\ (r = OK -> w' = w).
Proof.
  intros B. rewrite !exec_app. destruct (blind_exec t l B x wv) as (r & x1 & wv1 & E). rewrite !E. destruct r.
  - cbn [exec]. unfold step. cbn [fst snd call]. pose proof (finish_blind t x1 wv1 k k') as F.
    destruct (act repr t Finish x1 wv1 (Some k)) as [r w]. destruct F as (w' & -> & F). destruct r; eauto.
  - eexists. split; [reflexivity|discriminate].
  - eexists. split; [reflexivity|discriminate].
Qed.

Lemma blind_inside i l : forallb blind (inside i l) = true.
Proof. induction l as [|[p m|] l IH]; [reflexivity|exact IH|exact IH]. Qed.

(** ** Structs *)
Definition is_pointer (k : fkind) : bool := match k with OptionalPointer => true | _ => false end.

Fixpoint fields_res (fs : list field) (res : nat -> node -> res val) (kvs : list (node * node)) (got : list (option val)) : Base.res (list (option val)) :=
  match kvs with
  | [] => Ok got
  | (k, v) :: r =>
      match as_string k with
      | Ok s =>
          match field_index fs s with
          | None => Err (EInvalidKey s)
          | Some i =>
              if has i got then Err (ERepeatedKey s)
              else let* u := res i v in fields_res fs res r (upd i (fun _ => Some u) got)
          end
      | _ => Err EWrongKind
      end
  end.

Lemma pointer_start fs got i f x wv mv r x1 wv1 mv1 y : rep repr (TStruct fs) x wv mv (SWant got i) -> nth_error fs i = Some f ->
  f_kind f = OptionalPointer -> step repr (TStruct fs) (x, wv, mv) ([], AssembleValue) = (r, (x1, wv1, mv1)) ->
  nth_error (a_ch x1) i = Some y -> o_w (a_own y) = WNil.
Proof.
  intros (Hm & fs' & sl & T & (Hv & S1 & Tg & L1 & L2 & L3 & Hs & Hf) & Cm & F & Li & G) Ef K E Ey. injection T as <-.
  unfold step in E. cbn [fst snd call act act_struct] in E. rewrite S1, F in E. unfold struct_start in E. rewrite own_on in E.
  assert (Tg' : target (set_st MidValue (a_own x)) wv = Some (VStruct sl)) by exact Tg. rewrite Tg', (kind_at_nth _ _ _ Ef), K in E.
  destruct (nth_len (a_ch x) i ltac:(lia)) as [c Ec]. destruct (nth_len sl i ltac:(lia)) as [s Es].
  destruct (Hf i f c s None ltac:(discriminate) Ef Ec Es (has_false_nth i got G ltac:(lia))) as (_ & Z & _).
  unfold slot_at in E. cbn [slots] in E. rewrite (nth_default _ _ (MAbsent, VNil) _ Es), Z in E. unfold zero_slot in E. rewrite K in E. cbn [snd] in E.
  injection E as <- <- <- <-. rewrite ch_child, ch_on, (nth_upd_same _ _ _ _ Ec) in Ey. injection Ey as <-. now rewrite own_on.
Qed.

Section Struct.
Context (fs : list field) (child : nat -> node -> list action) (res : nat -> node -> Base.res val).
Hypothesis P : pointers_to_structs (TStruct fs).
Hypothesis Hc : forall i f v, nth_error fs i = Some f -> gives (is_pointer (f_kind f)) (f_type f) (child i v) (res i v).

Lemma field_exec got i f v x wv mv : rep repr (TStruct fs) x wv mv (SWant got i) -> nth_error fs i = Some f ->
  let '(r, (x1, wv1, mv1)) := exec repr (TStruct fs) (x, wv, mv) (Do [] AssembleValue :: inside i (child i v)) in
  match res i v with
  | Ok u => r = OK /\ exists fin, rep repr (TStruct fs) x1 wv1 mv1 (SIn got i (Full u fin))
  | Err _ => r = ERR
  | Panic => r = PANIC
  | OutOfFuel => False
  end.
Proof.
  intros H Ef. cbn [exec].
  assert (Hh : held_here (TStruct fs) AssembleValue (SWant got i)) by (split; [discriminate|exact Logic.I]).
  destruct (step_here (TStruct fs) AssembleValue x wv mv (SWant got i) P H Hh) as (x1 & wv1 & mv1 & E & R).
  rewrite E. cbn [spec_act fst snd] in *.
  destruct (shape_in_struct repr fs got i Fresh x1 wv1 mv1 R) as (f' & y & s & S & Ef' & Tc & Ey & G & Z & Ry & Wy).
  assert (f' = f) as -> by congruence.
  rewrite (exec_inside repr _ i _ Tc _ _ _ _ _ _ _ S Z).
  pose proof (Hc i f v Ef y (Some s) _ Ry) as K.
  destruct (exec repr (f_type f) (y, Some s, child_maybe (TStruct fs) i x1 (target (a_own x1) wv1)) (child i v)) as [r [[c1 cw1] cm1]] eqn:E2.
  assert (K' : match res i v with
       | Ok u => r = OK /\ (exists fin : bool, rep repr (f_type f) c1 cw1 cm1 (Full u fin))
       | Err _ => r = ERR | Panic => r = PANIC | OutOfFuel => False end).
  { apply K. destruct (f_kind f) eqn:Kf; cbn [is_pointer].
    - destruct Ry as (_ & _ & _ & [Q|[Q _]]); [exact Q|]. rewrite Wy in Q by discriminate. discriminate.
    - destruct Ry as (_ & _ & _ & [Q|[Q _]]); [exact Q|]. rewrite Wy in Q by discriminate. discriminate.
    - eapply pointer_start; eassumption. }
  destruct (plug (TStruct fs) i (x1, wv1, mv1) (c1, cw1, cm1)) as [[x3 wv3] mv3] eqn:Pl.
  destruct (res i v) as [u|e| |]; try exact K'. destruct K' as (-> & fin & Rf). split; [reflexivity|]. exists fin.
  pose proof (plug_struct repr fs got i Fresh x1 wv1 mv1 y (Some s) _ c1 cw1 cm1 (Full u fin) f R Ef Z (exec_frame _ _ _ _ _ _ _ _ _ _ E2) Rf) as Q.
  rewrite Pl in Q. apply Q.
Qed.

Lemma begun_settled b b' : settle b = Some b' -> begun b.
Proof. destruct b; cbn; try discriminate; auto. Qed.

Lemma fields_exec kvs : forall b x wv mv got, rep repr (TStruct fs) x wv mv b -> settle b = Some (SReady got) ->
  let '(r, (x1, wv1, mv1)) := exec repr (TStruct fs) (x, wv, mv) (fields_calls fs child kvs) in
  match fields_res fs res kvs got with
  | Ok got' => r = OK /\ exists b', rep repr (TStruct fs) x1 wv1 mv1 b' /\ settle b' = Some (SReady got')
  | Err _ => r = ERR
  | Panic => r = PANIC
  | OutOfFuel => False
  end.
Proof.
  induction kvs as [|[k v] kvs IH]; intros b x wv mv got H St; cbn [fields_calls flat_map fields_res].
  - cbn [exec]. eauto.
  - fold (fields_calls fs child kvs). rewrite exec_app. unfold field_calls. cbn [fst snd exec].
    destruct (step_here (TStruct fs) AssembleKey x wv mv b P H) as (x1 & wv1 & mv1 & -> & R1); [cbn; split; [eauto|exact (begun_settled _ _ St)]|].
    cbn [spec_act] in *. rewrite St in *. cbn [fst snd] in *.
    destruct (as_string k) as [s|e| |]; try reflexivity. cbn [exec].
    destruct (step_here (TStruct fs) (KeyAssign s) x1 wv1 mv1 _ P R1) as (x2 & wv2 & mv2 & -> & R2); [cbn; eauto|].
    cbn [spec_act] in *. destruct (field_index fs s) as [i|] eqn:Ei; [|reflexivity]. destruct (has i got) eqn:G; [reflexivity|].
    cbn [fst snd] in *. destruct (field_index_nth _ _ _ Ei) as (f & Ef & _).
    pose proof (field_exec got i f v x2 wv2 mv2 R2 Ef) as K. cbn [exec] in K.
    match goal with |- context [let '(v, w1) := ?e in match v with OK => exec _ _ w1 (fields_calls _ _ _) | _ => _ end] =>
      destruct e as [r [[x3 wv3] mv3]] eqn:E3 end.
    cbn [bind]. destruct (res i v) as [u|e| |].
    + destruct K as (-> & fin & R3). cbn [bind]. apply (IH (SIn got i (Full u fin)) _ _ _ _ R3). reflexivity.
    + subst r. reflexivity.
    + subst r. reflexivity.
    + contradiction.
Qed.

Lemma fields_blind kvs : forallb blind (fields_calls fs child kvs) = true.
Proof.
  induction kvs as [|[k v] kvs IH]; [reflexivity|]. cbn [fields_calls flat_map]. fold (fields_calls fs child kvs).
  rewrite forallb_app, IH. unfold field_calls. cbn [fst snd forallb blind blind_meth]. destruct (as_string k); [|reflexivity..].
  cbn [forallb blind blind_meth]. destruct (field_index fs a); [now rewrite blind_inside|reflexivity].
Qed.

(** A fresh struct with a place for its value: as after BeginMap, but for [m] *)
Lemma fresh_ready x wv mv : rep repr (TStruct fs) x wv mv Fresh -> target (a_own x) wv = Some (zero (TStruct fs)) ->
  mv = Some MAbsent /\ rep repr (TStruct fs) x wv (Some MMid) (SReady (map (fun _ => None) fs)).
Proof.
  intros H T. pose proof (struct_follows repr fs BeginMap x wv mv Fresh P H Logic.I) as F.
  cbn [act_struct spec_act] in F. rewrite (rep_maybe_of _ _ _ _ _ _ H), T in F. cbn [maybe_in] in F. destruct F as (_ & R & _).
  split; [apply H|exact R].
Qed.

Definition struct_res (own : option val) (kvs : option (list (node * node))) : Base.res val :=
  match own with
  | Some u => Ok u
  | None =>
      match kvs with
      | None => Err EWrongKind
      | Some kvs =>
          let* got := fields_res fs res kvs (map (fun _ => None) fs) in
          if complete fs got then Ok (struct_value fs got) else Err (EMissing [])
      end
  end.

Lemma struct_exec kvs b x wv mv got : rep repr (TStruct fs) x wv mv b -> settle b = Some (SReady got) ->
  let '(r, (x1, wv1, mv1)) := exec repr (TStruct fs) (x, wv, mv) (fields_calls fs child kvs ++ [Do [] Finish]) in
  match (let* got := fields_res fs res kvs got in if complete fs got then Ok (struct_value fs got) else Err (EMissing [])) with
  | Ok u => r = OK /\ rep repr (TStruct fs) x1 wv1 mv1 (Full u true)
  | Err _ => r = ERR
  | Panic => r = PANIC
  | OutOfFuel => False
  end.
Proof.
  intros H St. rewrite exec_app. pose proof (fields_exec kvs b x wv mv got H St) as K.
  destruct (exec repr (TStruct fs) (x, wv, mv) (fields_calls fs child kvs)) as [r [[x1 wv1] mv1]].
  destruct (fields_res fs res kvs got) as [got'|e| |]; cbn [bind]; try (now subst r); try contradiction.
  destruct K as (-> & b' & R & St'). cbn [exec].
  destruct (step_here (TStruct fs) Finish x1 wv1 mv1 b' P R) as (x2 & wv2 & mv2 & -> & R2);
    [cbn; split; [discriminate|exact (begun_settled _ _ St')]|].
  cbn [spec_act] in *. rewrite St' in *. destruct (complete fs got'); cbn [fst snd] in *; auto.
Qed.

Lemma struct_gives own v : (forall u, own v = Some u -> u <> VNil) -> (is_null v = true -> own v = None) ->
  gives false (TStruct fs) (struct_calls fs own child v) (struct_res (own v) (map_entries v)).
Proof.
  intros Ho Hn. unfold struct_calls, struct_res. destruct (is_null v) eqn:N.
  - rewrite (Hn eq_refl). apply null_gives; [assumption|]. destruct v; try discriminate; reflexivity.
  - destruct (own v) as [u|] eqn:O; [apply typed_gives; [assumption|exact (Ho u eq_refl)]|].
    destruct (map_entries v) as [kvs|]; [|apply fail_gives].
    intros x wv mv H T. destruct (fresh_ready x wv mv H T) as [-> R].
    pose proof (struct_exec kvs _ x wv _ _ R eq_refl) as K.
    pose proof (without_begin (TStruct fs) (fields_calls fs child kvs) x wv MMid MAbsent (fields_blind kvs)) as W.
    destruct (exec repr (TStruct fs) (x, wv, Some MMid) (fields_calls fs child kvs ++ [Do [] Finish])) as [r [[x1 wv1] mv1]].
    destruct W as (w' & -> & W).
    destruct (let* got := fields_res fs res kvs (map (fun _ => None) fs) in if complete fs got then Ok (struct_value fs got) else Err (EMissing [])) as [u|e| |].
    + destruct K as [-> K]. rewrite (W eq_refl). eauto.
    + destruct w' as [[? ?] ?]. exact K.
    + destruct w' as [[? ?] ?]. exact K.
    + contradiction.
Qed.

(** datamodel.Copy's way: after BeginMap, also where [w] is nil *)
Lemma begun_struct_gives nil kvs :
  gives nil (TStruct fs) (Do [] BeginMap :: fields_calls fs child kvs ++ [Do [] Finish]) (struct_res None (Some kvs)).
Proof.
  intros x wv mv H _. cbn [exec].
  destruct (step_here (TStruct fs) BeginMap x wv mv Fresh P H Logic.I) as (x1 & wv1 & mv1 & -> & R). cbn [spec_act fst snd] in *.
  pose proof (struct_exec kvs _ x1 wv1 mv1 _ R eq_refl) as K. cbn [struct_res].
  destruct (exec repr (TStruct fs) (x1, wv1, mv1) (fields_calls fs child kvs ++ [Do [] Finish])) as [r [[x2 wv2] mv2]].
  destruct (let* got := fields_res fs res kvs (map (fun _ => None) fs) in if complete fs got then Ok (struct_value fs got) else Err (EMissing [])); try exact K.
  destruct K; eauto.
Qed.
End Struct.

(** A struct whose [w] is nil: the first field panics *)
Definition nil_res (fs : list field) (own : option val) (kvs : option (list (node * node))) : res val :=
  match own, kvs with
  | Some u, _ => Ok u
  | None, None => Err EWrongKind
  | None, Some [] => Err (EMissing [])
  | None, Some ((k, _) :: _) =>
      match as_string k with
      | Ok s => match field_index fs s with Some _ => Panic | None => Err (EInvalidKey s) end
      | _ => Err EWrongKind
      end
  end.
Lemma nil_gives fs own child v : pointers_to_structs (TStruct fs) -> sufficient fs [] = false ->
  (forall u, own v = Some u -> u <> VNil) -> (is_null v = true -> own v = None) ->
  gives true (TStruct fs) (struct_calls fs own child v) (nil_res fs (own v) (map_entries v)).
Proof.
  intros P Hr Ho Hn. unfold struct_calls, nil_res. destruct (is_null v) eqn:N.
  - rewrite (Hn eq_refl). apply null_gives; [assumption|]. destruct v; try discriminate; reflexivity.
  - destruct (own v) as [u|] eqn:O; [apply typed_gives; [assumption|exact (Ho u eq_refl)]|].
    destruct (map_entries v) as [kvs|]; [|apply fail_gives].
    intros x wv mv H W. destruct H as (Hm & -> & Hi & _). apply idle_struct in Hi as ((_ & I2) & _). destruct (I2 eq_refl) as [I3 I4].
    destruct kvs as [|[k u] kvs].
    + cbn [fields_calls flat_map app exec]. unfold step. cbn [fst snd call act act_struct]. unfold struct_ready. rewrite I3, I4, Hr. reflexivity.
    + cbn [fields_calls flat_map]. unfold field_calls. cbn [fst snd app exec]. unfold step at 1. cbn [fst snd call act act_struct].
      unfold struct_ready. rewrite I3. destruct (as_string k) as [s| | |]; [|reflexivity..].
      cbn [app exec]. unfold step at 1. cbn [fst snd call act act_struct]. rewrite own_on. cbn [o_st set_st is_midkey o_s]. rewrite I4.
      destruct (field_index fs s) as [i|]; [|reflexivity]. cbn [mem_nat existsb]. unfold step. cbn [fst snd call act act_struct].
      rewrite own_on. cbn [o_st set_f set_st]. unfold struct_start. rewrite !own_on. unfold target. cbn [o_w set_st set_f set_s]. rewrite W. reflexivity.
Qed.

(** ** Lists *)
Fixpoint items_res (res : node -> Base.res val) (l : list node) : Base.res (list val) :=
  match l with
  | [] => Ok []
  | v :: r => let* u := res v in let* us := items_res res r in Ok (u :: us)
  end.

Section List.
Context (e : ty) (child : node -> list action) (res : node -> Base.res val).
Hypothesis P : pointers_to_structs (TList e).
Hypothesis Hc : forall v, gives false e (child v) (res v).

Lemma items_exec l : forall b x wv mv got, rep repr (TList e) x wv mv b -> settle b = Some (LReady got) ->
  let '(r, (x1, wv1, mv1)) := exec repr (TList e) (x, wv, mv) (items_calls child l) in
  match items_res res l with
  | Ok us => r = OK /\ exists b', rep repr (TList e) x1 wv1 mv1 b' /\ settle b' = Some (LReady (got ++ us))
  | Err _ => r = ERR
  | Panic => r = PANIC
  | OutOfFuel => False
  end.
Proof.
  induction l as [|v l IH]; intros b x wv mv got H St; cbn [items_calls flat_map items_res].
  - cbn [exec]. rewrite app_nil_r. eauto.
  - fold (items_calls child l). rewrite exec_app. cbn [exec].
    destruct (step_here (TList e) AssembleValue x wv mv b P H) as (x1 & wv1 & mv1 & -> & R1); [cbn; split; [discriminate|exact (begun_settled _ _ St)]|].
    cbn [spec_act] in *. rewrite St in *. cbn [fst snd] in *.
    destruct (shape_in_list repr e got Fresh x1 wv1 mv1 R1) as (y & s & S & Z & Ry & Wy).
    rewrite (exec_inside repr (TList e) 0 e eq_refl _ _ _ _ _ _ _ S Z).
    pose proof (Hc v y (Some s) _ Ry) as K.
    destruct (exec repr e (y, Some s, Some (o_cm (a_own x1))) (child v)) as [r [[c1 cw1] cm1]] eqn:E2.
    assert (K' : match res v with
         | Ok u => r = OK /\ (exists fin : bool, rep repr e c1 cw1 cm1 (Full u fin))
         | Err _ => r = ERR | Panic => r = PANIC | OutOfFuel => False end).
    { apply K. destruct Ry as (_ & _ & _ & [Q|[Q _]]); [exact Q|]. congruence. }
    destruct (plug (TList e) 0 (x1, wv1, mv1) (c1, cw1, cm1)) as [[x3 wv3] mv3] eqn:Pl.
    destruct (res v) as [u|e'| |]; cbn [bind]; try (now subst r); try contradiction. destruct K' as (-> & fin & Rf).
    pose proof (plug_list repr e got Fresh x1 wv1 mv1 y (Some s) _ c1 cw1 cm1 (Full u fin) R1 Z (exec_frame _ _ _ _ _ _ _ _ _ _ E2) Rf) as Q.
    rewrite Pl in Q. destruct Q as [_ R3]. specialize (IH _ _ _ _ (got ++ [u]) R3 eq_refl).
    destruct (exec repr (TList e) (x3, wv3, mv3) (items_calls child l)) as [r' [[x4 wv4] mv4]].
    destruct (items_res res l) as [us|e'| |]; cbn [bind]; try exact IH. now rewrite <- app_assoc in IH.
Qed.

Lemma items_blind l : forallb blind (items_calls child l) = true.
Proof.
  induction l as [|v l IH]; [reflexivity|]. cbn [items_calls flat_map]. fold (items_calls child l). cbn [app forallb blind blind_meth].
  now rewrite forallb_app, blind_inside, IH.
Qed.

Definition list_res (own : option val) (items : option (list node)) : Base.res val :=
  match own with
  | Some u => Ok u
  | None => match items with None => Err EWrongKind | Some l => map_res VList (items_res res l) end
  end.

Lemma list_gives own v : (forall u, own v = Some u -> u <> VNil) -> (is_null v = true -> own v = None) ->
  gives false (TList e) (list_calls own child v) (list_res (own v) (list_items v)).
Proof.
  intros Ho Hn. unfold list_calls, list_res. destruct (is_null v) eqn:N.
  - rewrite (Hn eq_refl). apply null_gives; [assumption|]. destruct v; try discriminate; reflexivity.
  - destruct (own v) as [u|] eqn:O; [apply typed_gives; [assumption|exact (Ho u eq_refl)]|].
    destruct (list_items v) as [l|]; [|apply fail_gives].
    intros x wv mv H T. pose proof (list_follows repr e (BeginList 0) x wv mv Fresh H Logic.I) as F.
    cbn [act_list spec_act] in F. rewrite (rep_maybe_of _ _ _ _ _ _ H) in F. cbn [maybe_in Z.ltb Z.compare follows snd] in F. destruct F as (_ & R & _).
    destruct H as (_ & -> & _).
    pose proof (without_begin (TList e) (items_calls child l) x wv MMid MAbsent (items_blind l)) as W.
    rewrite exec_app in W. pose proof (items_exec l _ x wv _ _ R eq_refl) as K.
    destruct (exec repr (TList e) (x, wv, Some MMid) (items_calls child l)) as [r [[x1 wv1] mv1]].
    destruct (items_res res l) as [us|e'| |]; cbn [map_res bind]; try contradiction.
    + destruct K as (-> & b' & R' & St'). cbn [exec] in W.
      destruct (step_here (TList e) Finish x1 wv1 mv1 b' P R') as (x2 & wv2 & mv2 & E & R2);
        [cbn; split; [discriminate|exact (begun_settled _ _ St')]|].
      rewrite E in W. cbn [spec_act] in *. rewrite St' in *. cbn [fst snd app] in *.
      destruct W as (w' & -> & W). rewrite (W eq_refl). eauto.
    + subst r. destruct W as (w' & -> & _). destruct w' as [[? ?] ?]. reflexivity.
    + subst r. destruct W as (w' & -> & _). destruct w' as [[? ?] ?]. reflexivity.
Qed.
End List.
(** ** Trees, after BeginMap *)
Fixpoint entries_res (res : node -> Base.res val) (kvs : list (node * node)) : Base.res (list (bytes * val)) :=
  match kvs with
  | [] => Ok []
  | (k, v) :: r => let* s := as_string k in let* u := res v in let* us := entries_res res r in Ok ((s, u) :: us)
  end.

Lemma string_gives nil v : gives nil t_string (string_calls v) (map_res text_val (as_string v)).
Proof.
  unfold string_calls, text_calls.
  destruct v; cbn [is_null as_string map_res bind]; try (apply fail_gives); try (apply null_gives; [exact Logic.I|reflexivity]);
    try (apply scalar_gives; reflexivity).
  all: apply typed_gives; [exact Logic.I|]; exists (SString s); split; reflexivity.
Qed.

Section Tree.
Context (e : ty) (child : node -> list action) (res : node -> Base.res val).
Hypothesis P : pointers_to_structs (TTree e).
Hypothesis Hc : forall v, gives false e (child v) (res v).
Definition one_entry (kv : node * node) : list action :=
  Do [] AssembleKey :: inside 0 (string_calls (fst kv)) ++ Do [] AssembleValue :: inside 1 (child (snd kv)).

(** The key: one call below the assembler, or an error of the node *)
Lemma key_exec got k x wv mv : rep repr (TTree e) x wv mv (TKey got Fresh) ->
  let '(r, (x1, wv1, mv1)) := exec repr (TTree e) (x, wv, mv) (inside 0 (string_calls k)) in
  match as_string k with
  | Ok s => r = OK /\ rep repr (TTree e) x1 wv1 mv1 (TKey got (Full (text_val s) false))
  | _ => r = ERR
  end.
Proof.
  intros H.
  assert (C : forall m, held_here t_string m Fresh -> exists x1 wv1 mv1,
     step repr (TTree e) (x, wv, mv) ([0], m) = (fst (spec_act t_string m Fresh), (x1, wv1, mv1)) /\
     rep repr (TTree e) x1 wv1 mv1 (TKey got (snd (spec_act t_string m Fresh)))).
  { intros m Hh. pose proof (call_follows repr [0] (TTree e) m x wv mv (TKey got Fresh) P H (conj eq_refl Hh)) as F.
    unfold step. cbn [fst snd]. destruct (call repr (TTree e) [0] m x wv mv) as [r [[x1 wv1] mv1]].
    cbn [spec child_type Nat.eqb] in F. change (TScalar KString) with t_string in F.
    destruct (spec_act t_string m Fresh) as [r' b']. destruct F as (-> & R & _). cbn [fst snd] in *. eauto. }
  unfold string_calls, text_calls. destruct k; cbn [is_null as_string inside map under exec];
    try reflexivity;
    match goal with |- context [step _ _ _ ([0], ?m)] => destruct (C m) as (x1 & wv1 & mv1 & -> & R); [exact Logic.I || (eexists; split; reflexivity)|] end;
    cbn [spec_act spec_null spec_assign kind_of skind_eqb fst snd t_string] in *; try reflexivity; split; try reflexivity; exact R.
Qed.

Lemma entries_exec kvs : forall b x wv mv got, rep repr (TTree e) x wv mv b -> settle b = Some (TReady got) ->
  let '(r, (x1, wv1, mv1)) := exec repr (TTree e) (x, wv, mv) (flat_map one_entry kvs) in
  match entries_res res kvs with
  | Ok us => r = OK /\ exists b', rep repr (TTree e) x1 wv1 mv1 b' /\ settle b' = Some (TReady (got ++ us))
  | Err _ => r = ERR
  | Panic => r = PANIC
  | OutOfFuel => False
  end.
Proof.
  induction kvs as [|[k v] kvs IH]; intros b x wv mv got H St; cbn [flat_map entries_res].
  - cbn [exec]. rewrite app_nil_r. eauto.
  - unfold one_entry at 1. cbn [fst snd]. rewrite exec_app. cbn [exec].
    destruct (step_here (TTree e) AssembleKey x wv mv b P H) as (x1 & wv1 & mv1 & -> & R1); [cbn; split; [eauto|exact (begun_settled _ _ St)]|].
    cbn [spec_act] in *. rewrite St in *. cbn [fst snd] in *. rewrite exec_app.
    pose proof (key_exec got k x1 wv1 mv1 R1) as Kk.
    destruct (exec repr (TTree e) (x1, wv1, mv1) (inside 0 (string_calls k))) as [rk [[x2 wv2] mv2]].
    destruct (as_string k) as [s|ek| |] eqn:Ek; cbn [bind]; try (destruct k; discriminate Ek); [|now subst rk].
    destruct Kk as [-> R2]. cbn [exec].
    destruct (step_here (TTree e) AssembleValue x2 wv2 mv2 _ P R2) as (x3 & wv3 & mv3 & -> & R3); [cbn; split; [discriminate|exact Logic.I]|].
    cbn [spec_act text_val fst snd] in *.
    destruct (shape_in_tree repr e got s Fresh x3 wv3 mv3 R3) as (y & u0 & S & Z & Ry & Wy).
    rewrite (exec_inside repr (TTree e) 1 e eq_refl _ _ _ _ _ _ _ S Z).
    pose proof (Hc v y (Some u0) _ Ry) as K.
    destruct (exec repr e (y, Some u0, Some (o_cm (a_own x3))) (child v)) as [r [[c1 cw1] cm1]] eqn:E2.
    assert (K' : match res v with
         | Ok u => r = OK /\ (exists fin : bool, rep repr e c1 cw1 cm1 (Full u fin))
         | Err _ => r = ERR | Panic => r = PANIC | OutOfFuel => False end).
    { apply K. destruct Ry as (_ & _ & _ & [Q|[Q _]]); [exact Q|]. congruence. }
    destruct (plug (TTree e) 1 (x3, wv3, mv3) (c1, cw1, cm1)) as [[x4 wv4] mv4] eqn:Pl.
    destruct (res v) as [u|e'| |]; cbn [bind]; try (now subst r); try contradiction. destruct K' as (-> & fin & Rf).
    pose proof (plug_tree repr e got s Fresh x3 wv3 mv3 y (Some u0) _ c1 cw1 cm1 (Full u fin) R3 Z (exec_frame _ _ _ _ _ _ _ _ _ _ E2) Rf) as Q.
    rewrite Pl in Q. destruct Q as [_ R4]. specialize (IH _ _ _ _ (got ++ [(s, u)]) R4 eq_refl).
    destruct (exec repr (TTree e) (x4, wv4, mv4) (flat_map one_entry kvs)) as [r' [[x5 wv5] mv5]].
    destruct (entries_res res kvs) as [us|e'| |]; cbn [bind]; try exact IH. now rewrite <- app_assoc in IH.
Qed.

Lemma tree_copy_gives kvs : gives false (TTree e) (Do [] BeginMap :: flat_map one_entry kvs ++ [Do [] Finish])
  (map_res tree_value (entries_res res kvs)).
Proof.
  intros x wv mv H _. cbn [exec].
  destruct (step_here (TTree e) BeginMap x wv mv Fresh P H Logic.I) as (x1 & wv1 & mv1 & -> & R). cbn [spec_act fst snd] in *.
  rewrite exec_app. pose proof (entries_exec kvs _ x1 wv1 mv1 _ R eq_refl) as K.
  destruct (exec repr (TTree e) (x1, wv1, mv1) (flat_map one_entry kvs)) as [r [[x2 wv2] mv2]].
  destruct (entries_res res kvs) as [us|e'| |]; cbn [map_res bind]; try (now subst r); try contradiction.
  destruct K as (-> & b' & R' & St'). cbn [exec].
  destruct (step_here (TTree e) Finish x2 wv2 mv2 b' P R') as (x3 & wv3 & mv3 & -> & R3);
    [cbn; split; [discriminate|exact (begun_settled _ _ St')]|].
  cbn [spec_act] in *. rewrite St' in *. cbn [fst snd app] in *. eauto.
Qed.

(** Without BeginMap there is no hash map: the first key of a kind that can be assigned panics. *)
Lemma tree_bare x wv kvs : rep repr (TTree e) x wv (Some MAbsent) Fresh ->
  let '(r, (x1, wv1, mv1)) := exec repr (TTree e) (x, wv, Some MAbsent) (flat_map one_entry kvs ++ [Do [] Finish]) in
  match kvs with
  | [] => r = OK /\ rep repr (TTree e) x1 wv1 mv1 (Full (VTree [] None) true)
  | (k, _) :: _ => match as_string k with Ok _ => r = PANIC | _ => r = ERR end
  end.
Proof.
  intros (Hm & _ & Hi & [T|[_ [fs Q]]]); [|discriminate]. cbn [zero] in T.
  pose proof Hi as ((I1 & I2) & kk & c & I3 & I4 & I5 & I6). destruct (I2 eq_refl) as [I7 I8].
  destruct kvs as [|[k v] kvs].
  - cbn [flat_map app exec]. unfold step. cbn [fst snd call act act_tree]. unfold tree_ready, maybe_of. rewrite I7, Hm.
    split; [reflexivity|]. cbn [rep]. rewrite own_on. split; [exact Hm|]. split; [reflexivity|]. split; [|split; [exact T|reflexivity]].
    cbn [idle]. rewrite own_on, ch_on. split; [split; [assumption|discriminate]|]. exists kk, c. repeat (split; [assumption|]). now apply idle_old.
  - cbn [flat_map]. unfold one_entry at 1. cbn [fst snd app exec]. unfold step at 1. cbn [fst snd call act act_tree].
    unfold tree_ready. rewrite I7, T. cbn [tree_of app].
    destruct (store_some (VTree [([], zero e)] None) x wv _ T) as (y & wv1 & -> & Ty & Cy & My & _ & _ & _ & Cmy).
    set (x1 := on_child 0 _ _).
    assert (Hx : exists kc, a_own x1 = set_st MidKey (a_own y) /\ nth_error (a_ch x1) 0 = Some kc /\ o_m (a_own kc) = true /\ o_w (a_own kc) = WParent).
    { unfold x1. rewrite own_child, ch_child, ch_on, Cy, I3, own_on. eexists. split; [reflexivity|]. split; [reflexivity|]. rewrite own_on. split; reflexivity. }
    destruct Hx as (kc & O1 & C1 & M1 & W1). clearbody x1.
    assert (T1 : target (a_own x1) wv1 = Some (VTree [([], zero e)] None)) by (rewrite O1; exact Ty).
    assert (Cm1 : o_cm (a_own x1) = MAbsent) by (rewrite O1; cbn; congruence).
    assert (A1 : forall s m, act_scalar KString m kc (Some (VScalar (SString []))) (Some MAbsent) =
         (let '(c, w) := store (text_val s) kc (Some (VScalar (SString []))) in (OK, (c, w, Some MValue))) ->
         let '(r, (x2, wv2, mv2)) := step repr (TTree e) (x1, wv1, Some MAbsent) ([0], m) in
         r = OK /\ mv2 = Some MAbsent /\ o_st (a_own x2) = MidKey /\ o_cm (a_own x2) = MValue /\ target (a_own x2) wv2 = Some (VTree [(s, zero e)] None)).
    { intros s m E. unfold step. cbn [fst snd]. rewrite call_zoom. cbn [child_type]. unfold zoom. rewrite C1, T1.
      cbn [child_value rev app child_maybe call act]. rewrite Cm1, E. unfold store. rewrite W1.
      rewrite (plug_some _ 0 x1 wv1 _ _ kc (text_val s) MValue T1).
      unfold put2, set_child. cbn [slot_maybe put_value set_last rev app text_val fst snd].
      match goal with |- context [store ?a ?b wv1] => assert (T2 : target (a_own b) wv1 = Some (VTree [([], zero e)] None)) by (rewrite own_on, own_child; exact T1);
        destruct (store_some a b wv1 _ T2) as (z & wv2 & -> & Tz & Cz & Mz & Stz & _ & _ & Cmz) end.
      rewrite own_on, own_child, O1 in Stz, Cmz. auto. }
    rewrite <- !app_assoc, exec_app.
    assert (B : let '(r, (x2, wv2, mv2)) := exec repr (TTree e) (x1, wv1, Some MAbsent) (inside 0 (string_calls k)) in
       match as_string k with
       | Ok s => r = OK /\ mv2 = Some MAbsent /\ o_st (a_own x2) = MidKey /\ o_cm (a_own x2) = MValue /\ target (a_own x2) wv2 = Some (VTree [(s, zero e)] None)
       | _ => r = ERR
       end).
    { unfold string_calls, text_calls. destruct k; cbn [is_null as_string inside map under exec]; try reflexivity.
      - unfold step. cbn [fst snd]. rewrite call_zoom. cbn [child_type]. unfold zoom. rewrite C1, T1.
        cbn [child_value rev app child_maybe call act act_scalar]. rewrite Cm1. unfold assign_null, maybe_of. rewrite M1.
        destruct (plug _ _ _ _) as [[? ?] ?]. reflexivity.
      - match goal with |- context [step _ _ _ ([0], ?m)] => pose proof (A1 s m) as Q; destruct (step repr (TTree e) (x1, wv1, Some MAbsent) ([0], m)) as [r [[x2 wv2] mv2]] end.
        destruct Q as (-> & Q); [cbn [act_scalar kind_of skind_eqb]; unfold maybe_of, target; rewrite M1, W1; reflexivity|]. auto.
      - match goal with |- context [step _ _ _ ([0], ?m)] => pose proof (A1 s m) as Q; destruct (step repr (TTree e) (x1, wv1, Some MAbsent) ([0], m)) as [r [[x2 wv2] mv2]] end.
        destruct Q as (-> & Q); [cbn [act_scalar kind_of skind_eqb]; unfold maybe_of, target; rewrite M1, W1; reflexivity|]. auto.
      - match goal with |- context [step _ _ _ ([0], ?m)] => pose proof (A1 s m) as Q; destruct (step repr (TTree e) (x1, wv1, Some MAbsent) ([0], m)) as [r [[x2 wv2] mv2]] end.
        destruct Q as (-> & Q); [cbn [act_scalar kind_of skind_eqb]; unfold maybe_of, target; rewrite M1, W1; reflexivity|]. auto. }
    destruct (exec repr (TTree e) (x1, wv1, Some MAbsent) (inside 0 (string_calls k))) as [r [[x2 wv2] mv2]].
    destruct (as_string k) as [s|ek| |]; try (subst r; reflexivity).
    destruct B as (-> & -> & St2 & Cm2 & T2). cbn [app exec]. unfold step. cbn [fst snd call act act_tree].
    rewrite St2, Cm2, own_child, T2. reflexivity.
Qed.
End Tree.
End Loops.
