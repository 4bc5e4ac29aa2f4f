(** In a tree that one builder makes, the map and the slice agree. *)
From Verif Require Import Base GoStr Cid Types Nodes Reader Assemble Decode TreeHeap TreeHeapFacts TreeShare TreeShareFacts.
From Verif Require Builder.
Import Builder (maybe(..), mstate(..), verdict(..)).

Definition found (mem : memory) (m : list (bytes * pointer)) (k : bytes) : option entry :=
  match assoc k m with
  | None => None
  | Some p => match load mem p with Some (_, e) => Some e | None => None end
  end.

Notation sl b := (hd_t (b_hd b)).
Definition held (pend : bool) : nat := if pend then 1 else 0.

(** [pend]: the key of the last cell is not finished. *)
Record agree (pend : bool) (i : nat) (b : tb) (mem : memory) (ms : maps) : Prop := {
  a_m : b_m b <> MAbsent;
  a_map : hd_m (b_hd b) = Some i;
  a_fits : sl_len (sl b) <= sl_cap mem (sl b);
  a_there : sl_array (sl b) < length mem;
  a_i : i < length ms;
  a_va : forall p, b_va b = Some p -> pend = false /\ b_st b = MidValue /\ 0 < sl_len (sl b) /\ p = last_cell (sl b) /\
           exists k e, load mem p = Some (k, e) /\ assoc k (nth i ms []) = Some p;
  a_ka : forall p, b_ka b = Some p -> b_st b = MidKey /\
           if pend then p = last_cell (sl b)
           else fst p <> sl_array (sl b) /\ forall k q, assoc k (nth i ms []) = Some q -> fst q <> fst p;
  a_pend : pend = true -> b_st b = MidKey /\ 0 < sl_len (sl b);
  a_ptr : forall k p, assoc k (nth i ms []) = Some p ->
           (exists e, load mem p = Some (k, e)) /\ (fst p = sl_array (sl b) -> snd p < sl_len (sl b) - held pend);
  a_find : forall k, found mem (nth i ms []) k = assoc k (rev (firstn (sl_len (sl b) - held pend) (sl_cells mem (sl b))))
}.

Lemma all_cells mem s n : sl_len s <= n -> firstn n (sl_cells mem s) = sl_cells mem s.
Proof. intros H. apply firstn_all2. unfold sl_cells. rewrite firstn_length. lia. Qed.

Lemma found_same mem mem' m k : (forall p, assoc k m = Some p -> load mem' p = load mem p) -> found mem' m k = found mem m k.
Proof. intros E. unfold found. destruct (assoc k m) as [p|]; [|reflexivity]. now rewrite (E p eq_refl). Qed.

(** The last cell apart from the others *)
Lemma cells_split mem s k e : 0 < sl_len s -> sl_len s <= sl_cap mem s -> load mem (last_cell s) = Some (k, e) ->
  sl_cells mem s = firstn (sl_len s - 1) (sl_cells mem s) ++ [(k, e)].
Proof.
  intros P F Lp. assert (N : nth_error (sl_cells mem s) (sl_len s - 1) = Some (k, e)) by (rewrite load_cells by lia; exact Lp).
  pose proof (cells_length mem s F) as Le. apply nth_error_split in N as (l1 & l2 & E & El). rewrite E in *. rewrite <- El.
  rewrite app_length in Le. cbn in Le. assert (l2 = []) as -> by (destruct l2; [reflexivity|cbn in Le; lia]).
  rewrite firstn_app, Nat.sub_diag, firstn_all. cbn. now rewrite app_nil_r.
Qed.

Section Agree.
Variable grow : nat -> nat.

Lemma agree_go pend i b b' mem ms : agree pend i b mem ms -> go_on b = Some b' ->
  agree false i b' mem ms /\ b_st b' = Initial /\ b_ka b' = None /\ b_va b' = None.
Proof.
  intros [] G. destruct (go_on_same _ _ G) as (E1 & E2 & E3 & E4 & E5 & E6).
  assert (pend = false) as -> by (destruct pend; [destruct (a_pend0 eq_refl); contradiction|reflexivity]).
  assert (b_ka b' = None) as Ek. { rewrite E3. destruct (b_ka b) as [p|]; [|reflexivity]. destruct (a_ka0 p eq_refl). contradiction. }
  assert (b_va b' = None) as Ev.
  { destruct E6 as [E6|E6]; [|exact E6]. rewrite E6. destruct (b_va b) as [p|] eqn:Ep; [|reflexivity]. destruct (a_va0 p eq_refl) as (_ & Mv & _).
    unfold go_on in G. rewrite Mv in G. destruct (b_cm b); try discriminate. injection G as <-. cbn in E6. congruence. }
  split; [|auto]. split; rewrite ?E1, ?E2, ?Ek, ?Ev; auto; try discriminate.
Qed.

Lemma agree_append i b mem ms c mem' s : agree false i b mem ms -> h_append grow mem (sl b) c = (mem', s) ->
  sl_len s <= sl_cap mem' s /\ sl_array s < length mem' /\ sl_len s = S (sl_len (sl b)) /\
  sl_cells mem' s = sl_cells mem (sl b) ++ [c] /\ load mem' (last_cell s) = Some c /\
  (forall k p, assoc k (nth i ms []) = Some p -> load mem' p = load mem p /\ (fst p = sl_array s -> snd p < sl_len (sl b))) /\
  (forall k, found mem' (nth i ms []) k = assoc k (rev (sl_cells mem (sl b)))).
Proof.
  intros [] A. pose proof (append_array _ _ _ _ _ _ A) as Aa. pose proof (append_len _ _ _ _ _ _ A) as Al.
  pose proof (append_load _ _ _ _ _ _ A) as Ald. pose proof (append_cells _ _ _ _ _ _ a_fits0 a_there0 A) as Ac.
  assert (P : forall k p, assoc k (nth i ms []) = Some p -> load mem' p = load mem p /\ (fst p = sl_array s -> snd p < sl_len (sl b))).
  { intros k p Ep. destruct (a_ptr0 k p Ep) as ((e & Lp) & Hs). cbn [held] in Hs. rewrite Nat.sub_0_r in Hs. split.
    - apply Ald; [eapply load_lt; eauto|exact Hs].
    - pose proof (load_lt _ _ _ Lp). destruct Aa as [[-> _]|[-> _]]; [exact Hs|lia]. }
  repeat split.
  - eapply append_fits; eauto.
  - eapply append_there; eauto.
  - exact Al.
  - exact Ac.
  - unfold last_cell. rewrite <- load_cells by lia. rewrite Ac, nth_error_app2; rewrite cells_length by exact a_fits0; [|lia].
    replace (sl_len s - 1 - sl_len (sl b)) with 0 by lia. reflexivity.
  - exact (proj1 (P k p H)).
  - exact (proj2 (P k p H)).
  - intros k. rewrite (found_same mem); [|intros p Ep; exact (proj1 (P k p Ep))]. rewrite a_find0. cbn [held]. rewrite all_cells by lia. reflexivity.
Qed.

Definition fine (w : state) : Prop :=
  let '(b, mem, ms) := w in forall i, hd_m (b_hd b) = Some i -> exists pend, agree pend i b mem ms.

(** A change of [m], [st], [cm] or [ka] that keeps what is known. *)
Lemma agree_same pend i b b' mem ms : agree pend i b mem ms -> b_hd b' = b_hd b -> b_m b' <> MAbsent ->
  b_st b' = b_st b -> b_ka b' = b_ka b \/ b_ka b' = None -> b_va b' = b_va b -> agree pend i b' mem ms.
Proof.
  intros [] Eh Em Es Ek Ev. split; rewrite ?Eh, ?Es, ?Ev; auto.
  intros p Ep. destruct Ek as [Ek|Ek]; [|congruence]. apply a_ka0. congruence.
Qed.

Lemma fine_step mem0 ms0 c w : before_ok mem0 ms0 w -> fine w ->
  (forall h, c = CAssignTree h -> is_tree mem0 ms0 h /\ forall k, find_in mem0 ms0 h k = assoc k (rev (entries_of mem0 h))) ->
  fine (snd (tstep grow c w)).
Proof.
  destruct w as [[b mem] ms]. intros Y B Hc. destruct c as [hint|h| |k| |k|e m|]; cbn [tstep].
  - destruct (b_m b) eqn:Em; cbn [snd]; try exact B. specialize (Y Em). destruct Y. intros i Ei. cbn in Ei. injection Ei as <-. exists false.
    split; cbn [b_hd b_m b_st b_cm b_ka b_va hd_t hd_m sl_array sl_len held]; try discriminate; auto.
    + unfold sl_cap. cbn. lia.
    + rewrite app_length. cbn. lia.
    + rewrite app_length. cbn. lia.
    + rewrite y_va. discriminate.
    + intros p Ep. destruct (y_ka p Ep) as (Q1 & Q2 & Q3). split; [exact Q1|]. split; [lia|].
      intros k q. rewrite app_nth2, Nat.sub_diag by lia. discriminate.
    + intros k p. rewrite app_nth2, Nat.sub_diag by lia. discriminate.
    + intros k. rewrite app_nth2, Nat.sub_diag by lia. reflexivity.
  - destruct (b_m b) eqn:Em; cbn [snd]; try exact B. specialize (Y Em). destruct Y. destruct (Hc h eq_refl) as [T F].
    intros i Ei. cbn in Ei. exists false. destruct T as (T1 & T2 & T3). rewrite Ei in T3. destruct T3 as [T3 T4].
    assert (Ce : sl_cells mem (hd_t h) = sl_cells mem0 (hd_t h)) by (apply cells_same; intros j _; apply y_old; exact T1).
    assert (Lo : forall k p, assoc k (nth i ms0 []) = Some p -> load mem p = load mem0 p).
    { intros k p Ep. destruct (T4 k p Ep) as ((e & Lp) & _). apply y_old. eapply load_lt; eauto. }
    rewrite y_maps in *.
    split; cbn [b_hd b_m b_st b_cm b_ka b_va hd_t hd_m sl_array sl_len held]; try discriminate; auto.
    + rewrite <- (cells_length mem0 (hd_t h) T2) at 1. rewrite <- Ce. unfold sl_cells, sl_cap. rewrite firstn_length. lia.
    + lia.
    + rewrite y_va. discriminate.
    + intros p Ep. destruct (y_ka p Ep) as (Q1 & Q2 & Q3). split; [exact Q1|]. split; [lia|].
      intros k q Eq. destruct (T4 k q Eq) as ((e & Lq) & _). pose proof (load_lt _ _ _ Lq). lia.
    + intros k p Ep. rewrite (Lo k p Ep), Nat.sub_0_r. exact (T4 k p Ep).
    + intros k. rewrite all_cells by lia. rewrite Ce. specialize (F k). unfold find_in in F. rewrite Ei in F. unfold entries_of in F. rewrite <- F.
      apply found_same. exact (Lo k).
  - destruct (go_on b) as [b'|] eqn:G; [|exact B]. destruct (h_append grow mem (sl b') zero_cell) as [mem' s] eqn:A.
    cbn [snd fine]. intros i Ei. cbn in Ei. destruct (go_on_same _ _ G) as (Eh & _). rewrite Eh in Ei. destruct (B i Ei) as (pend & Ag).
    destruct (agree_go _ _ _ _ _ _ Ag G) as (Ag' & S1 & S2 & S3). exists true.
    destruct (agree_append _ _ _ _ _ _ _ Ag' A) as (A1 & A2 & A3 & A4 & A5 & A6 & A7). destruct Ag'.
    split; cbn [b_hd b_m b_st b_cm b_ka b_va hd_t hd_m sl_array sl_len held]; auto.
    + rewrite S3. discriminate.
    + intros p Ep. injection Ep as <-. auto.
    + intros _. split; [reflexivity|lia].
    + intros k p Ep. destruct (A6 k p Ep) as [Q1 Q2]. rewrite Q1. split; [exact (proj1 (a_ptr0 k p Ep))|]. intros Q. specialize (Q2 Q). lia.
    + intros k. rewrite A7, A4, A3. replace (S (sl_len (sl b')) - 1) with (length (sl_cells mem (sl b'))) by (rewrite cells_length; [lia|exact a_fits0]).
      rewrite firstn_app, Nat.sub_diag, firstn_all. cbn. now rewrite app_nil_r.
  - destruct (b_ka b) as [p|] eqn:Ek; [|exact B].
    assert (X : forall k0 e0, load mem p = Some (k0, e0) ->
      fine (TB (b_hd b) (b_m b) (b_st b) MValue (Some p) (b_va b), store mem p (k, e0), ms)).
    { intros k0 e0 El i Ei. cbn in Ei. destruct (B i Ei) as (pend & []). exists pend. destruct (a_ka0 p Ek) as (Mk & Kp).
      assert (No : forall k' q, assoc k' (nth i ms []) = Some q -> p <> q).
      { intros k' q Eq <-. destruct (a_ptr0 k' p Eq) as (_ & Hs). destruct pend.
        - subst p. cbn [last_cell fst snd held] in Hs. destruct (a_pend0 eq_refl). specialize (Hs eq_refl). lia.
        - destruct Kp as [_ Kp]. exact (Kp k' p Eq eq_refl). }
      split; cbn [b_hd b_m b_st b_cm b_ka b_va hd_t hd_m sl_array sl_len]; rewrite ?store_length, ?store_cap; auto.
      - intros q Eq. destruct (a_va0 q Eq) as (_ & Mv & _). congruence.
      - intros q Eq. injection Eq as <-. auto.
      - intros k' q Eq. destruct (a_ptr0 k' q Eq) as ((e' & Lq) & Hs). split; [exists e'|exact Hs]. rewrite load_store_other; [exact Lq|exact (No k' q Eq)].
      - intros k'. rewrite (found_same mem) by (intros q Eq; apply load_store_other; exact (No k' q Eq)). rewrite a_find0. do 2 f_equal.
        apply ext_nth. intros j. destruct (Nat.lt_ge_cases j (sl_len (sl b) - held pend)) as [Hj|Hj].
        2: rewrite !nth_over; [reflexivity| |]; rewrite firstn_length; lia.
        assert (FN : forall (l : list cell) n, j < n -> nth_error (firstn n l) j = nth_error l j).
        { clear. intros l n. revert j n. induction l as [|x l IH]; intros [|j] [|n] H; cbn; auto; try lia. apply IH. lia. }
        rewrite !FN, !load_cells by lia. symmetry. apply load_store_other. intros ->. destruct pend; cbn [held] in Hj.
        + unfold last_cell in Kp. injection Kp as Kp. lia.
        + destruct Kp as [Kp _]. cbn in Kp. congruence. }
    destruct (b_cm b) eqn:Ec; try exact B; (destruct (load mem p) as [[k0 e0]|] eqn:El; [|exact B]); exact (X _ _ eq_refl).
  - destruct (b_st b) eqn:Es, (b_cm b) eqn:Ec; try exact B; cbn [snd].
    all: try (intros i Ei; cbn in Ei; destruct (B i Ei) as (pend & []); exists false;
              assert (pend = false) as -> by (destruct pend; [destruct (a_pend0 eq_refl); congruence|reflexivity]);
              split; cbn [b_hd b_m b_st b_cm b_ka b_va hd_t hd_m]; auto; try discriminate;
              [intros p Ep; destruct (a_va0 p Ep) as (_ & Mv & _); congruence|intros p Ep; destruct (a_ka0 p Ep); congruence]).
    destruct (sl_len (sl b)) as [|n] eqn:El.
    { cbn [snd]. intros i Ei. cbn in Ei. destruct (B i Ei) as (pend & Ag). exists pend. apply (agree_same _ _ b); auto; cbn. apply Ag. }
    destruct (load mem (last_cell (sl b))) as [[k0 e0]|] eqn:Ell.
    2: { cbn [snd]. intros i Ei. cbn in Ei. destruct (B i Ei) as (pend & Ag). exists pend. apply (agree_same _ _ b); auto; cbn. apply Ag. }
    destruct (hd_m (b_hd b)) as [i|] eqn:Eh; cbn [snd].
    2: { intros i Ei. cbn in Ei. congruence. }
    intros i' Ei. cbn in Ei. rewrite Eh in Ei. injection Ei as <-. destruct (B i Eh) as (pend & []). exists false.
    pose proof (cells_split mem (sl b) k0 e0 ltac:(lia) a_fits0 Ell) as Cs.
    set (cs := firstn (sl_len (sl b) - 1) (sl_cells mem (sl b))) in *.
    assert (As : forall q, assoc k0 (nth i (bind_key ms i k0 (last_cell (sl b))) []) = Some q -> q = last_cell (sl b)).
    { intros q. rewrite bind_key_same by exact a_i0. cbn [assoc]. rewrite beqb_refl. congruence. }
    split; cbn [b_hd b_m b_st b_cm b_ka b_va hd_t hd_m held]; auto; try discriminate.
    + now rewrite bind_key_length.
    + intros p Ep. injection Ep as <-. split; [reflexivity|split; [reflexivity|split; [lia|split; [reflexivity|]]]]. exists k0, e0. split; [exact Ell|]. rewrite bind_key_same by exact a_i0. cbn [assoc]. now rewrite beqb_refl.
    + intros k p. rewrite bind_key_same by exact a_i0. cbn [assoc]. destruct (beqb_spec k k0) as [->|D].
      * intros Ep. injection Ep as <-. split; [now exists e0|]. cbn [last_cell fst snd]. lia.
      * intros Ep. destruct (a_ptr0 k p Ep) as [Q1 Q2]. split; [exact Q1|]. intros Q. specialize (Q2 Q). lia.
    + intros k. rewrite bind_key_same by exact a_i0. unfold found. cbn [assoc]. rewrite all_cells by lia. rewrite Cs, rev_app_distr. cbn [rev app assoc].
      destruct (beqb_spec k k0) as [->|D]; [now rewrite Ell|]. fold (found mem (nth i ms []) k). rewrite a_find0. destruct pend; cbn [held].
      * reflexivity.
      * rewrite all_cells by lia. rewrite Cs, rev_app_distr. cbn [rev app assoc]. now rewrite beqb_neq by exact D.
  - destruct (go_on b) as [b'|] eqn:G; [|exact B]. destruct (go_on_same _ _ G) as (Eh & _).
    destruct (match hd_m (b_hd b') with None => None | Some i => assoc k (nth i ms []) end) as [p|] eqn:Ex.
    { cbn [snd fine]. intros i Ei. rewrite Eh in Ei. destruct (B i Ei) as (pend & Ag). exists false. exact (proj1 (agree_go _ _ _ _ _ _ Ag G)). }
    destruct (h_append grow mem (sl b') (k, zero_entry)) as [mem' s] eqn:A.
    destruct (hd_m (b_hd b')) as [i|] eqn:Em; cbn [snd fine].
    2: { intros i Ei. cbn in Ei. discriminate. }
    intros i' Ei. cbn in Ei. injection Ei as <-. destruct (B i ltac:(rewrite <- Eh; exact Em)) as (pend & Ag).
    destruct (agree_go _ _ _ _ _ _ Ag G) as (Ag' & S1 & S2 & S3). exists false.
    destruct (agree_append _ _ _ _ _ _ _ Ag' A) as (A1 & A2 & A3 & A4 & A5 & A6 & A7). destruct Ag'.
    split; cbn [b_hd b_m b_st b_cm b_ka b_va hd_t hd_m sl_array sl_len held]; auto; try discriminate.
    + now rewrite bind_key_length.
    + intros p Ep. injection Ep as <-. split; [reflexivity|split; [reflexivity|split; [lia|split; [reflexivity|]]]]. exists k, zero_entry. split; [exact A5|]. rewrite bind_key_same by exact a_i0. cbn [assoc]. now rewrite beqb_refl.
    + rewrite S2. discriminate.
    + intros k' p. rewrite bind_key_same by exact a_i0. cbn [assoc]. destruct (beqb_spec k' k) as [->|D].
      * intros Ep. injection Ep as <-. split; [now exists zero_entry|]. cbn [last_cell fst snd]. lia.
      * intros Ep. destruct (A6 k' p Ep) as [Q1 Q2]. rewrite Q1. split; [exact (proj1 (a_ptr0 k' p Ep))|]. intros Q. specialize (Q2 Q). lia.
    + intros k'. rewrite bind_key_same by exact a_i0. unfold found. cbn [assoc]. rewrite all_cells by lia. rewrite A4, rev_app_distr. cbn [rev app assoc].
      destruct (beqb_spec k' k) as [->|D]; [now rewrite A5|]. exact (A7 k').
  - assert (X : fine (TB (b_hd b) (b_m b) (b_st b) m (b_ka b) (b_va b), mem, ms)).
    { intros i Ei. cbn in Ei. destruct (B i Ei) as (pend & Ag). exists pend. apply (agree_same _ _ b); auto. apply Ag. }
    destruct (b_va b) as [p|] eqn:Ev; [|exact X]. destruct (load mem p) as [[k0 e0]|] eqn:El; [|exact X].
    cbn [snd fine]. intros i Ei. cbn in Ei. destruct (B i Ei) as (pend & []). destruct (a_va0 p Ev) as (-> & Mv & Pl & -> & k1 & e1 & L1 & As).
    rewrite El in L1. injection L1 as <- <-. exists false.
    assert (Ls : load (store mem (last_cell (sl b)) (k0, e)) (last_cell (sl b)) = Some (k0, e)) by (eapply load_store_same; eauto).
    split; cbn [b_hd b_m b_st b_cm b_ka b_va hd_t hd_m sl_array sl_len]; rewrite ?store_length, ?store_cap; auto; try discriminate.
    + intros q Eq. injection Eq as <-. repeat split; auto. exists k0, e. auto.
    + intros k p Ep. destruct (a_ptr0 k p Ep) as ((e' & Lq) & Hs). split; [|exact Hs].
      destruct (Nat.eq_dec (fst (last_cell (sl b))) (fst p)) as [D1|D1]; [destruct (Nat.eq_dec (snd (last_cell (sl b))) (snd p)) as [D2|D2]|].
      * assert (p = last_cell (sl b)) as -> by (destruct p; unfold last_cell in *; cbn in *; congruence). rewrite El in Lq. injection Lq as <- <-. exists e. exact Ls.
      * exists e'. rewrite load_store_other; [exact Lq|congruence].
      * exists e'. rewrite load_store_other; [exact Lq|congruence].
    + intros k. cbn [held] in *. rewrite all_cells by lia.
      pose proof (cells_split mem (sl b) k0 e0 Pl a_fits0 El) as C0.
      pose proof (cells_split (store mem (last_cell (sl b)) (k0, e)) (sl b) k0 e Pl ltac:(rewrite store_cap; exact a_fits0) Ls) as C1.
      assert (Fs : firstn (sl_len (sl b) - 1) (sl_cells (store mem (last_cell (sl b)) (k0, e)) (sl b)) = firstn (sl_len (sl b) - 1) (sl_cells mem (sl b))).
      { apply ext_nth. intros j. destruct (Nat.lt_ge_cases j (sl_len (sl b) - 1)) as [Hj|Hj].
        2: rewrite !nth_over; [reflexivity| |]; rewrite firstn_length; lia.
        assert (FN : forall (l : list cell) n, j < n -> nth_error (firstn n l) j = nth_error l j).
        { clear. intros l n. revert j n. induction l as [|x l IH]; intros [|j] [|n] H; cbn; auto; try lia. apply IH. lia. }
        rewrite !FN, !load_cells by lia. apply load_store_other. unfold last_cell. intros Q. injection Q as Q. lia. }
      set (cs := firstn (sl_len (sl b) - 1) (sl_cells mem (sl b))) in *.
      rewrite C1, Fs, rev_app_distr. cbn [rev app assoc]. destruct (beqb_spec k k0) as [->|D].
      * unfold found. now rewrite As, Ls.
      * rewrite (found_same mem).
        -- rewrite a_find0, all_cells by lia. rewrite C0, rev_app_distr. cbn [rev app assoc]. now rewrite beqb_neq by exact D.
        -- intros q Eq. apply load_store_other. intros <-. destruct (a_ptr0 k _ Eq) as ((e' & Lq) & _). rewrite El in Lq. congruence.
  - destruct (go_on b) as [b'|] eqn:G; [|exact B]. destruct (go_on_same _ _ G) as (Eh & _). cbn [snd fine]. intros i Ei. cbn in Ei.
    rewrite Eh in Ei. destruct (B i Ei) as (pend & Ag). destruct (agree_go _ _ _ _ _ _ Ag G) as (Ag' & S1 & S2 & S3). exists false. destruct Ag'.
    split; cbn [b_hd b_m b_st b_cm b_ka b_va hd_t hd_m]; auto; rewrite ?S2, ?S3; discriminate.
Qed.
End Agree.
