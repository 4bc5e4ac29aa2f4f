(** The world of BlobShare.v stays in order: slices fit their arrays, addresses are those of blobs, and
    what a client knows no builder writes to any more. *)
From Verif Require Import Base GoStr Cid Types Nodes Reader Assemble Decode TreeHeap TreeHeapFacts BlobShare.
From Verif Require Builder.
Import Builder (maybe(..), verdict(..)).

Definition fits (mem : list bytes) (s : slice) : Prop :=
  s_arr s < length mem /\ s_off s + s_len s <= length (nth (s_arr s) mem []).

Record wf (w : world) : Prop := {
  wf_nil : 0 < length (w_mem w);
  wf_cells : forall s, In s (w_cells w) -> fits (w_mem w) s;
  wf_held : forall s, In s (w_held w) -> fits (w_mem w) s;
  wf_bld : forall p m, In (p, m) (w_bld w) -> p < length (w_cells w);
  wf_one : NoDup (map fst (w_bld w));
  wf_known : forall p, In p (w_known w) -> p < length (w_cells w) /\ ~ In (p, MAbsent) (w_bld w);
  wf_only : forall p m, In (p, m) (w_bld w) -> m = MAbsent \/ m = MValue
}.

Lemma fits_app mem b s : fits mem s -> fits (mem ++ [b]) s.
Proof. intros [A C]. split; [rewrite app_length; lia|]. now rewrite app_nth1. Qed.
Lemma fits_new mem b n : n <= length b -> fits (mem ++ [b]) (Sl (length mem) 0 n).
Proof. intros H. split; cbn; [rewrite app_length; cbn; lia|]. rewrite app_nth2, Nat.sub_diag by lia. exact H. Qed.
Lemma nth_set_nth {A} (x d : A) l i j : nth j (set_nth i x l) d = if (j =? i) && (i <? length l) then x else nth j l d.
Proof.
  revert i j. induction l as [|y l IH]; intros [|i] [|j]; cbn; try reflexivity.
  - now destruct (j =? i).
  - rewrite IH. change (S i <? S (length l)) with (i <? length l). reflexivity.
Qed.
Lemma fits_set mem a i v s : fits mem s -> fits (set_nth a (set_nth i v (nth a mem [])) mem) s.
Proof.
  intros [A C]. split; [now rewrite set_nth_length|]. rewrite nth_set_nth.
  destruct (Nat.eqb_spec (s_arr s) a) as [E|E]; cbn [andb]; [|exact C]. subst a.
  destruct (Nat.ltb_spec (s_arr s) (length mem)); [|exact C]. now rewrite set_nth_length.
Qed.
Lemma fits_nil mem : 0 < length mem -> fits mem nil_slice.
Proof. intros H. split; cbn; [exact H|lia]. Qed.
Lemma cell_fits w p : wf w -> fits (w_mem w) (cell_of w p).
Proof.
  intros H. unfold cell_of. destruct (Nat.lt_ge_cases p (length (w_cells w))).
  - apply (wf_cells w H). now apply nth_In.
  - rewrite nth_overflow by assumption. apply fits_nil, H.
Qed.

Lemma in_set_nth {A} (x y : A) l i : In y (set_nth i x l) -> y = x \/ In y l.
Proof. revert i. induction l as [|z l IH]; intros [|i]; cbn; intuition eauto. destruct (IH _ H0); auto. Qed.
Lemma map_set_nth {A C} (f : A -> C) x l i : map f (set_nth i x l) = set_nth i (f x) (map f l).
Proof. revert i. induction l as [|z l IH]; intros [|i]; cbn; try reflexivity. now rewrite IH. Qed.
Lemma set_nth_same {A} (x : A) l i : nth_error l i = Some x -> set_nth i x l = l.
Proof. revert i. induction l as [|z l IH]; intros [|i] H; cbn in *; try discriminate; [congruence|]. now rewrite IH. Qed.
Lemma nodup_set {A} (x : A) l i : NoDup l -> ~ In x l -> NoDup (set_nth i x l).
Proof.
  revert i. induction l as [|z l IH]; intros [|i] N H; cbn; auto; inversion N; subst; constructor; cbn in H.
  - tauto.
  - assumption.
  - intros Q. apply in_set_nth in Q. intuition congruence.
  - apply IH; tauto.
Qed.
(** Another builder's place after builder [k] has been set *)
Lemma in_set_other {C} (l : list (nat * C)) k p m m' q : NoDup (map fst l) -> nth_error l k = Some (p, m) -> m' <> m ->
  In (q, m) (set_nth k (p, m') l) -> q <> p /\ In (q, m) l.
Proof.
  revert k. induction l as [|[a b] l IH]; intros [|k] N E D I; cbn in *; try discriminate; inversion N; subst.
  - injection E as -> ->. destruct I as [I|I]; [congruence|]. split; [|auto]. intros ->. apply H1. change p with (fst (p, m)). now apply in_map.
  - destruct I as [I|I].
    + injection I as -> ->. split; [|auto]. intros ->. apply nth_error_In in E. apply H1. change p with (fst (p, m)). now apply in_map.
    + destruct (IH _ H2 E D I). auto.
Qed.

Section Facts.
Variables (B : nat) (spare : nat -> nat).

Lemma give_wf k s w : wf w -> fits (w_mem w) s -> wf (snd (give k s w)).
Proof.
  intros H F. unfold give. destruct (nth_error (w_bld w) k) as [[p m]|] eqn:E; [|exact H]. destruct m; try exact H. cbn [snd].
  pose proof (nth_error_In _ _ E) as Ip. destruct H. split; cbn [w_mem w_cells w_bld w_held w_known]; auto.
  - intros t I. apply in_set_nth in I as [->|I]; auto.
  - intros q m I. rewrite set_nth_length. apply in_set_nth in I as [I|I]; [injection I as -> ->; eauto|eauto].
  - rewrite map_set_nth. cbn [fst]. rewrite set_nth_same; [assumption|]. now rewrite nth_error_map, E.
  - intros q I. rewrite set_nth_length. destruct (wf_known0 q I). split; [assumption|]. intros Q. apply in_set_nth in Q as [Q|Q]; [discriminate|auto].
  - intros q m I. apply in_set_nth in I as [I|I]; [injection I as -> ->; auto|eauto].
Qed.

Lemma new_array_length b : length b <= length (new_array spare b).
Proof. unfold new_array. rewrite app_length. lia. Qed.

Lemma bstep_wf c w : wf w -> wf (snd (bstep B spare c w)).
Proof.
  intros H. destruct w as [mem cells bld held known]. pose proof H as H0. destruct H0. cbn [w_mem w_cells w_bld w_held w_known] in *.
  assert (HI : forall i s, nth_error held i = Some s -> fits mem s) by (intros i s E; eapply wf_held0, nth_error_In, E).
  assert (AddHeld : forall s, fits mem s -> wf (W mem cells bld (held ++ [s]) known)).
  { intros s F. split; cbn; auto. intros t I. apply in_app_or in I as [I|[<-|[]]]; auto. }
  assert (AddMem : forall b, wf (W (mem ++ [b]) cells bld held known)).
  { intros b. split; cbn; auto using fits_app. rewrite app_length. lia. }
  assert (SetMem : forall a i v, wf (W (set_nth a (set_nth i v (nth a mem [])) mem) cells bld held known)).
  { intros a i v. split; cbn; auto using fits_set. now rewrite set_nth_length. }
  assert (AddBlob : forall s, fits mem s -> wf (W mem (cells ++ [s]) bld held (known ++ [length cells]))).
  { intros s F. split; cbn; auto.
    - intros t I. apply in_app_or in I as [I|[<-|[]]]; auto.
    - intros p m I. rewrite app_length. specialize (wf_bld0 p m I). lia.
    - intros p I. rewrite app_length. cbn. apply in_app_or in I as [I|[<-|[]]].
      + destruct (wf_known0 p I). split; [lia|assumption].
      + split; [lia|]. intros Q. specialize (wf_bld0 _ _ Q). lia. }
  destruct c; cbn [bstep]; cbv zeta.
  - (* BMake *) cbn [snd]. split; cbn; auto using fits_app; [rewrite app_length; lia|].
    intros s I. apply in_app_or in I as [I|[<-|[]]]; auto using fits_app. now apply fits_new.
  - (* BSlice *) destruct (nth_error held i) as [s|] eqn:E; [|exact H]. destruct ((lo <=? hi) && _) eqn:Q; [|exact H]. cbn [snd].
    apply andb_prop in Q as [Q1 Q2]. apply Nat.leb_le in Q1, Q2. apply AddHeld. destruct (HI _ _ E) as [F1 F2]. split; cbn; [assumption|lia].
  - (* BSet *) destruct (nth_error held i) as [s|] eqn:E; [|exact H]. destruct (j <? s_len s); [|exact H]. cbn [snd]. apply SetMem.
  - (* BAppend *) destruct (nth_error held i) as [s|] eqn:E; [|exact H]. destruct (HI _ _ E) as [F1 F2].
    destruct (Nat.ltb_spec (s_off s + s_len s) (length (nth (s_arr s) mem []))) as [L|L]; cbn [snd].
    + specialize (SetMem (s_arr s) (s_off s + s_len s) v). destruct SetMem. split; cbn in *; auto.
      intros t I. apply in_app_or in I as [I|[<-|[]]]; auto. apply fits_set. split; cbn; [assumption|lia].
    + split; cbn; auto using fits_app; [rewrite app_length; lia|].
      intros t I. apply in_app_or in I as [I|[<-|[]]]; auto using fits_app. apply fits_new.
      etransitivity; [|apply new_array_length]. rewrite app_length. unfold window. rewrite firstn_length, skipn_length. cbn. lia.
  - (* BFromBytes *) destruct (nth_error held i) as [s|] eqn:E; [|exact H]. apply AddBlob. eauto.
  - (* BAsBytes *) destruct (nth_error known p) as [q|] eqn:E; [|exact H]. apply AddHeld. apply (cell_fits _ q H).
  - (* BEncode *) destruct (nth_error known p) as [q|] eqn:E; [|exact H]. apply AddHeld. apply (cell_fits _ q H).
  - (* BParse *) destruct (nth_error held i) as [s|] eqn:E; [|exact H]. destruct (parse_object_from_buffer B (window mem s)) as [n| | |]; try exact H.
    destruct n; try exact H. cbn [snd]. split; cbn; auto using fits_app.
    + rewrite app_length. lia.
    + intros t I. apply in_app_or in I as [I|[<-|[]]]; auto using fits_app. apply fits_new, new_array_length.
    + intros p m I. rewrite app_length. specialize (wf_bld0 p m I). lia.
    + intros p I. rewrite app_length. cbn. apply in_app_or in I as [I|[<-|[]]].
      * destruct (wf_known0 p I). split; [lia|assumption].
      * split; [lia|]. intros Q. specialize (wf_bld0 _ _ Q). lia.
  - (* BNew *) cbn [snd]. split; cbn; auto.
    + intros t I. apply in_app_or in I as [I|[<-|[]]]; auto. now apply fits_nil.
    + intros p m I. rewrite app_length. cbn. apply in_app_or in I as [I|[I|[]]]; [specialize (wf_bld0 p m I); lia|injection I as <- <-; lia].
    + rewrite map_app. cbn. apply NoDup_rev in wf_one0. rewrite <- (rev_involutive (map fst bld)). rewrite <- (rev_involutive [length cells]), <- rev_app_distr.
      apply NoDup_rev. cbn. constructor; [|assumption]. rewrite <- in_rev. intros Q. apply in_map_iff in Q as ([q m] & Q1 & Q2). cbn in Q1. specialize (wf_bld0 _ _ Q2). lia.
    + intros p I. rewrite app_length. cbn. destruct (wf_known0 p I). split; [lia|]. intros Q. apply in_app_or in Q as [Q|[Q|[]]]; [auto|]. injection Q as Q. lia.
    + intros p m I. apply in_app_or in I as [I|[I|[]]]; [eauto|injection I as <- <-; auto].
  - (* BReset *) destruct (nth_error bld k) as [x|] eqn:E; [|exact H]. cbn [snd]. split; cbn; auto.
    + intros t I. apply in_app_or in I as [I|[<-|[]]]; auto. now apply fits_nil.
    + intros p m I. rewrite app_length. cbn. apply in_set_nth in I as [I|I]; [injection I as -> ->; lia|specialize (wf_bld0 p m I); lia].
    + rewrite map_set_nth. apply nodup_set; [assumption|]. cbn. intros Q. apply in_map_iff in Q as ([q m] & Q1 & Q2). cbn in Q1. specialize (wf_bld0 _ _ Q2). lia.
    + intros p I. rewrite app_length. cbn. destruct (wf_known0 p I). split; [lia|]. intros Q. apply in_set_nth in Q as [Q|Q]; [|auto]. injection Q as Q. lia.
    + intros p m I. apply in_set_nth in I as [I|I]; [injection I as -> ->; auto|eauto].
  - (* BAssignBytes *) destruct (nth_error held i) as [s|] eqn:E; [|exact H]. apply give_wf; eauto.
  - (* BAssignBlob *) destruct (nth_error known p) as [q|] eqn:E; [|exact H]. apply give_wf; [exact H|apply (cell_fits _ q H)].
  - (* BAssignNull *) destruct (nth_error bld k) as [[q m]|]; [destruct m|]; exact H.
  - (* BDecode *) destruct (nth_error held i) as [s|] eqn:E; [|exact H]. destruct (decode_into _ BBlob _) as [n| | |]; try exact H.
    destruct n; try exact H. apply give_wf; [apply AddMem|]. apply fits_new, new_array_length.
  - (* BBuild *) destruct (nth_error bld k) as [[q m]|] eqn:E; [|exact H]. destruct m; try exact H. cbn [snd]. split; cbn; auto.
    intros p I. apply in_app_or in I as [I|[<-|[]]]; [auto|]. apply nth_error_In in E as E'. split; [eauto|].
    intros Q. clear - wf_one0 E' Q. induction bld as [|[a b] l IH]; [destruct Q|]. cbn in *. inversion wf_one0; subst.
    destruct E' as [E'|E'], Q as [Q|Q]; try congruence; [| |auto].
    + injection E' as -> ->. apply H1. change q with (fst (q, MAbsent)). now apply in_map.
    + injection Q as -> ->. apply H1. change q with (fst (q, MValue)). now apply in_map.
Qed.

Lemma start_wf : wf start.
Proof. split; cbn; auto; try lia; try contradiction; try constructor; intros; contradiction. Qed.

Lemma brun_wf cs : forall w, wf w -> wf (brun B spare cs w).
Proof. induction cs as [|c cs IH]; intros w H; cbn; [exact H|]. apply IH, bstep_wf, H. Qed.

(** What only grows, and what stays: lists of what the client has, cells of known blobs, arrays. *)
Record later (w w' : world) : Prop := {
  l_held : exists x, w_held w' = w_held w ++ x;
  l_known : exists x, w_known w' = w_known w ++ x;
  l_mem : length (w_mem w) <= length (w_mem w');
  l_cell : forall p, p < length (w_cells w) -> ~ In (p, MAbsent) (w_bld w) ->
    cell_of w' p = cell_of w p /\ p < length (w_cells w') /\ ~ In (p, MAbsent) (w_bld w')
}.
Lemma later_refl w : later w w.
Proof. split; try (exists []; now rewrite app_nil_r); auto. Qed.
Lemma later_trans a b c : later a b -> later b c -> later a c.
Proof.
  intros [[x X] [y Y] M C] [[x' X'] [y' Y'] M' C']. split.
  - exists (x ++ x'). now rewrite X', X, app_assoc.
  - exists (y ++ y'). now rewrite Y', Y, app_assoc.
  - lia.
  - intros p L N. destruct (C p L N) as (E & L1 & N1). destruct (C' p L1 N1) as (E' & L2 & N2). rewrite E'. auto.
Qed.
Lemma give_later k s w : wf w -> later w (snd (give k s w)).
Proof.
  intros H. unfold give. destruct (nth_error (w_bld w) k) as [[p m]|] eqn:E; [|apply later_refl]. destruct m; try apply later_refl. cbn [snd].
  split; cbn; try (exists []; now rewrite app_nil_r); auto.
  intros q L N. unfold cell_of. cbn. rewrite nth_set_nth, set_nth_length.
  apply nth_error_In in E as I. destruct (Nat.eqb_spec q p) as [->|D]; [contradiction|]. cbn [andb]. split; [reflexivity|]. split; [assumption|].
  intros Q. apply in_set_nth in Q as [Q|Q]; [discriminate|auto].
Qed.
Lemma bstep_later c w : wf w -> later w (snd (bstep B spare c w)).
Proof.
  intros H. destruct w as [mem cells bld held known]. pose proof (wf_bld _ H) as wb. pose proof (wf_known _ H) as wk. cbn in wb, wk.
  assert (NewCell : forall mem' s bld' x y, length mem <= length mem' ->
    (forall p, p < length cells -> In (p, MAbsent) bld' -> In (p, MAbsent) bld) ->
    later (W mem cells bld held known) (W mem' (cells ++ [s]) bld' (held ++ x) (known ++ y))).
  { intros mem' s bld' x y L Hb. split; cbn; eauto. intros p Lp Np. unfold cell_of. cbn. rewrite app_nth1, app_length by assumption. repeat split; [lia|auto]. }
  assert (SameCells : forall mem' x y, length mem <= length mem' ->
    later (W mem cells bld held known) (W mem' cells bld (held ++ x) (known ++ y))).
  { intros mem' x y L. split; cbn; eauto. }
  assert (LA : forall b, length mem <= length (mem ++ [b])) by (intros; rewrite app_length; lia).
  assert (NH : held = held ++ []) by now rewrite app_nil_r.
  assert (NK : known = known ++ []) by now rewrite app_nil_r.
  destruct c; cbn [bstep]; cbv zeta.
  - cbn [snd]. rewrite NK at 2. apply SameCells, LA.
  - destruct (nth_error held i) as [s|]; [|apply later_refl]. destruct ((lo <=? hi) && _); [|apply later_refl]. cbn [snd]. rewrite NK at 2. apply SameCells. lia.
  - destruct (nth_error held i) as [s|]; [|apply later_refl]. destruct (j <? s_len s); [|apply later_refl]. cbn [snd]. rewrite NK at 2. rewrite NH at 2. apply SameCells. rewrite set_nth_length. lia.
  - destruct (nth_error held i) as [s|]; [|apply later_refl]. destruct (_ <? _); cbn [snd]; rewrite NK at 2; apply SameCells; [rewrite set_nth_length; lia|apply LA].
  - destruct (nth_error held i) as [s|]; [|apply later_refl]. cbn [snd]. rewrite NH at 2. apply NewCell; [lia|auto].
  - destruct (nth_error known p) as [q|]; [|apply later_refl]. cbn [snd]. generalize (cell_of (W mem cells bld held known) q). intros s. rewrite NK at 2. apply SameCells. lia.
  - destruct (nth_error known p) as [q|]; [|apply later_refl]. cbn [snd]. generalize (cell_of (W mem cells bld held known) q). intros s. rewrite NK at 2. apply SameCells. lia.
  - destruct (nth_error held i) as [s|]; [|apply later_refl]. destruct (parse_object_from_buffer B (window mem s)) as [n| | |]; try apply later_refl.
    destruct n; try apply later_refl. cbn [snd]. rewrite NH at 2. apply NewCell; [apply LA|auto].
  - cbn [snd]. rewrite NK at 2. rewrite NH at 2. apply NewCell; [lia|]. intros p L Q. apply in_app_or in Q as [Q|[Q|[]]]; [exact Q|]. injection Q as Q. lia.
  - destruct (nth_error bld k) as [x|]; [|apply later_refl]. cbn [snd]. rewrite NK at 2. rewrite NH at 2. apply NewCell; [lia|]. intros p L Q. apply in_set_nth in Q as [Q|Q]; [|exact Q]. injection Q as Q. lia.
  - destruct (nth_error held i) as [s|]; [|apply later_refl]. now apply give_later.
  - destruct (nth_error known p) as [q|]; [|apply later_refl]. now apply give_later.
  - destruct (nth_error bld k) as [[q m]|]; [destruct m|]; apply later_refl.
  - destruct (nth_error held i) as [s|]; [|apply later_refl]. destruct (decode_into _ BBlob _) as [n| | |]; try apply later_refl.
    destruct n; try apply later_refl. eapply later_trans; [|apply give_later].
    + rewrite NK at 2. rewrite NH at 2. apply SameCells. apply LA.
    + destruct H. split; cbn in *; auto using fits_app. rewrite app_length. lia.
  - destruct (nth_error bld k) as [[q m]|]; [|apply later_refl]. destruct m; try apply later_refl. cbn [snd]. rewrite NH at 2. apply SameCells. lia.
Qed.
Lemma brun_later cs : forall w, wf w -> later w (brun B spare cs w).
Proof. induction cs as [|c cs IH]; intros w H; cbn; [apply later_refl|]. eapply later_trans; [apply bstep_later, H|]. apply IH, bstep_wf, H. Qed.
End Facts.
