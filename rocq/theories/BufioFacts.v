(** The buffered reader delivers the stream of its source. *)
From Verif Require Import Base GoStr Reader Bufio Spec ReaderSpec StreamFacts Sim Types Nodes Person Assemble Decode.

(** *** Slices *)
Lemma slice_length o n b : o + n <= length b -> length (slice o n b) = n.
Proof. intros H. unfold slice. rewrite firstn_length, skipn_length. lia. Qed.

Lemma skipn_skipn {A} (a c : nat) (l : list A) : skipn a (skipn c l) = skipn (c + a) l.
Proof.
  revert l. induction c as [|c IH]; intros l; [reflexivity|].
  destruct l as [|x l]; [now rewrite !skipn_nil|]. apply IH.
Qed.

Lemma slice_skipn k o n b : skipn k (slice o n b) = slice (o + k) (n - k) b.
Proof. unfold slice. now rewrite skipn_firstn_comm, skipn_skipn. Qed.

Lemma slice_firstn k o n b : k <= n -> firstn k (slice o n b) = slice o k b.
Proof. intros H. unfold slice. rewrite firstn_firstn. f_equal. lia. Qed.

Lemma slice_split k o n b : k <= n -> slice o n b = slice o k b ++ slice (o + k) (n - k) b.
Proof. intros H. rewrite <- (firstn_skipn k (slice o n b)). now rewrite slice_skipn, slice_firstn. Qed.

Lemma slice_0 o b : slice o 0 b = [].
Proof. reflexivity. Qed.

Lemma slice_all b : slice 0 (length b) b = b.
Proof. unfold slice. cbn [skipn]. apply firstn_all. Qed.

Lemma overwrite_length o c b : o + length c <= length b -> length (overwrite o c b) = length b.
Proof. intros H. unfold overwrite. rewrite !app_length, firstn_length, skipn_length. lia. Qed.

Lemma slice_overwrite r w c b : r <= w -> w + length c <= length b ->
  slice r (w + length c - r) (overwrite w c b) = slice r (w - r) b ++ c.
Proof.
  intros H1 H2. unfold slice, overwrite.
  assert (length (firstn w b) = w) as L by (rewrite firstn_length; lia).
  rewrite skipn_app. replace (r - length (firstn w b)) with 0 by lia. cbn [skipn].
  rewrite firstn_app, skipn_length, L.
  replace (w + length c - r - (w - r)) with (length c) by lia.
  rewrite firstn_app_exact by reflexivity. f_equal.
  rewrite firstn_all2 by (rewrite skipn_length; lia).
  apply skipn_firstn_comm.
Qed.

Lemma slice_overwrite_0 c b : length c <= length b -> slice 0 (length c) (overwrite 0 c b) = c.
Proof.
  intros H. pose proof (slice_overwrite 0 0 c b) as E. rewrite Nat.sub_0_r in E. cbn [Nat.add Nat.sub] in E.
  rewrite E by lia. reflexivity.
Qed.

(** *** Sources *)
Lemma src_read_facts ln n s : good_source_for ln s -> 0 < n ->
  let '(c, e, s') := src_read n s in
  good_source_for ln s' /\ (joint_eof s -> joint_eof s') /\ so_term s' = so_term s /\ length c <= n /\
  src_data (so_evs s) = c ++ src_data (so_evs s') /\
  (forall x, e = Some x -> x = so_term s /\ so_evs s' = [] /\ ~ cr_end ln c) /\
  (joint_eof s -> forall x, e = Some x -> c <> [] -> x = EEOF) /\
  length (so_evs s') <= length (so_evs s) /\
  (e = None -> c = [] -> so_evs s = ([], None) :: so_evs s').
Proof.
  intros G Hn. destruct s as [evs term]. unfold src_read. cbn [so_evs so_term].
  destruct evs as [|[c e] evs].
  - split; [exact G|]. split; [auto|]. split; [reflexivity|]. split; [cbn; lia|]. split; [reflexivity|].
    split; [|split; [|split; [auto|discriminate]]].
    + intros x X. injection X as <-. repeat split; auto. intros [_ [r E]]; destruct r; discriminate.
    + intros _ x _ N. congruence.
  - destruct (Nat.leb_spec (length c) n) as [L|L]; cbn [so_evs so_term].
    + repeat split; try assumption; try (cbn; lia).
      * eapply (gs_err _ _ G ((c, e) :: pre)). cbn in H |- *. now rewrite H.
      * eapply (gs_err _ _ G ((c, e) :: pre)). cbn in H |- *. now rewrite H.
      * intros pre k post E. eapply (gs_stall _ _ G ((c, e) :: pre)). cbn in E |- *. now rewrite E.
      * intros pre c0 e0 E. eapply (gs_cr _ _ G ((c, e) :: pre)). cbn in E |- *. now rewrite E.
      * apply G.
      * intros J pre c0 e0 E. eapply (J ((c, e) :: pre)). cbn in E |- *. now rewrite E.
      * subst e. now destruct (gs_err _ _ G [] c x evs eq_refl).
      * subst e. now destruct (gs_err _ _ G [] c x evs eq_refl).
      * subst e. destruct (gs_err _ _ G [] c x evs eq_refl) as [-> _]. now apply (gs_cr _ _ G [] c x).
      * intros J x -> Hc. destruct (gs_err _ _ G [] c x evs eq_refl) as [-> _]. now apply (J [] c x).
      * intros -> ->. reflexivity.
    + assert (skipn n c <> []) as NE. { intros E. apply (f_equal (@length byte)) in E. rewrite skipn_length in E. cbn in E. lia. }
      repeat split; cbn [length so_evs so_term]; auto; try discriminate.
      * destruct pre as [|p pre]; injection H as H1 H2.
        { subst. now destruct (gs_err _ _ G [] c e0 post eq_refl). }
        { subst. now destruct (gs_err _ _ G ((c, e) :: pre) c0 e0 post eq_refl). }
      * destruct pre as [|p pre]; injection H as H1 H2.
        { subst. now destruct (gs_err _ _ G [] c e0 post eq_refl). }
        { subst. now destruct (gs_err _ _ G ((c, e) :: pre) c0 e0 post eq_refl). }
      * intros pre k post E. destruct pre as [|p pre].
        { destruct k as [|k]; [unfold max_empty_reads; lia|]. cbn in E. injection E as E _ _. congruence. }
        { injection E as _ E. eapply (gs_stall _ _ G ((c, e) :: pre)). cbn in E |- *. now rewrite E. }
      * intros pre c0 e0 E. destruct pre as [|p pre].
        { injection E as <- -> ->. intros [Hl [r Er]]. apply (gs_cr _ _ G [] c e0 eq_refl). split; [exact Hl|].
          exists (firstn n c ++ r). rewrite <- app_assoc, <- Er. symmetry. apply firstn_skipn. }
        { injection E as _ E. eapply (gs_cr _ _ G ((c, e) :: pre)). cbn in E |- *. now rewrite E. }
      * apply G.
      * intros J pre c0 e0 E Hc. destruct pre as [|p pre].
        { injection E as <- -> ->. apply (J [] c e0 eq_refl). intros ->. now rewrite skipn_nil in NE. }
        { injection E as _ E. eapply (J ((c, e) :: pre)); [|exact Hc]. cbn in E |- *. now rewrite E. }
      * rewrite firstn_length. lia.
      * unfold src_data. cbn [map concat fst]. now rewrite app_assoc, firstn_skipn.
      * intros _ E. apply (f_equal (@length byte)) in E. rewrite firstn_length in E. cbn in E. lia.
Qed.

(** *** The relation between a buffered reader and the stream it delivers *)
Ltac rcbn := cbn [set_r set_err set_src b_buf b_r b_w b_err b_src mk st_data st_err so_evs so_term].

Section Rel.
Context (B : nat) (HB : 2 <= B).

Context {ln : bool} (J : bool).
Notation R := (delivers_for ln B J).

Lemma window_length b s : R b s -> length (window b) = buffered b.
Proof. intros [? ? ? _ _ _ _ _]. unfold buffered. apply slice_length. lia. Qed.

Lemma remaining_length b s : R b s -> remaining b = length (st_data s).
Proof. intros H. unfold remaining. now rewrite (d_data _ _ _ _ _ H), app_length, (window_length _ _ H). Qed.

(** Consuming [k] bytes of the window. *)
Lemma delivers_set_r b s k : R b s -> 0 < k -> k <= buffered b ->
  R (set_r b (b_r b + k)) (mk (skipn k (st_data s)) (st_err s)).
Proof.
  intros H Hk Lk. pose proof (window_length _ _ H) as WL. unfold buffered in *.
  destruct H as [H1 H2 H3 H4 H5 H6 H7 H8]. split; rcbn; try assumption; try lia.
  - rewrite H4. rewrite skipn_app, WL.
    replace (k - (b_w b - b_r b)) with 0 by lia. cbn [skipn]. f_equal.
    unfold window. cbn [b_r b_w b_buf set_r]. rewrite slice_skipn. f_equal. lia.
  - intros e E. destruct (H8 e E) as (-> & -> & _). repeat split; auto.
    unfold buffered; cbn. lia.
Qed.

(** Dropping the whole window. *)
Lemma delivers_drop b s : R b s ->
  R (set_r b (b_w b)) (mk (src_data (so_evs (b_src b))) (st_err s)).
Proof.
  intros H. destruct H as [H1 H2 H3 H4 H5 H6 H7 H8]. split; rcbn; try assumption; try lia.
  - unfold window. cbn. rewrite Nat.sub_diag. reflexivity.
  - intros e E. destruct (H8 e E) as (-> & -> & _). repeat split; auto. unfold buffered; cbn. lia.
Qed.

Lemma delivers_clear b s : R b s -> R (set_err b None) s.
Proof. intros H. destruct H as [H1 H2 H3 H4 H5 H6 H7 H8]. split; rcbn; try assumption. discriminate. Qed.

(** A filled reader: the window grew, or the error is known. *)
Definition filled (b b' : bufrd) : Prop :=
  exists c, window b' = window b ++ c /\ buffered b' = buffered b + length c /\
  (b_err b' = None -> c <> []).

Lemma fill_loop_facts i : forall b s, R b s -> b_err b = None -> b_w b < B ->
  (forall n post, so_evs (b_src b) = repeat ([], None) n ++ post -> n < i) ->
  R (fill_loop i b) s /\ filled b (fill_loop i b).
Proof.
  induction i as [|i IH]; intros b s H E W Q.
  - specialize (Q 0 (so_evs (b_src b)) eq_refl). lia.
  - cbn [fill_loop]. rewrite (d_len _ _ _ _ _ H).
    pose proof (src_read_facts ln (B - b_w b) (b_src b) (d_good _ _ _ _ _ H) ltac:(lia)) as F.
    destruct (src_read (B - b_w b) (b_src b)) as [[c e] src'].
    destruct F as (F1 & F2 & F3 & F4 & F5 & F6 & F7 & F8 & F9).
    set (b' := {| b_buf := overwrite (b_w b) c (b_buf b); b_r := b_r b; b_w := b_w b + length c;
                  b_err := b_err b; b_src := src' |}).
    pose proof H as [H1 H2 H3 H4 H5 H6 H7 H8].
    assert (window b' = window b ++ c) as EW.
    { unfold window. cbn. apply slice_overwrite; lia. }
    assert (buffered b' = buffered b + length c) as EB by (unfold buffered; cbn; lia).
    assert (forall x, e = x -> R (set_err b' x) s) as HR.
    { intros x Ex. split; unfold b'; rcbn; try assumption; try lia.
      - rewrite overwrite_length; lia.
      - rewrite H4, F5, app_assoc. f_equal. symmetry. exact EW.
      - congruence.
      - auto.
      - intros x' ->. destruct (F6 _ Ex) as (X1 & X2 & X3). split; [congruence|]. split; [assumption|].
        intros Full Hend. assert (buffered b' = B) as Full' by exact Full. clear Full.
        assert (cr_end ln (window b')) as Hend' by exact Hend. clear Hend. rewrite EW in Hend'.
        (* the buffer was not full before, so some bytes came with the error *)
        assert (c <> []) as NC. { intros ->. cbn [length] in EB. unfold buffered in EB, Full'. cbn in Full'. lia. }
        destruct Hend' as [Hl [r Er]]. destruct (rev_case c) as [->|(c' & y & ->)]; [congruence|].
        rewrite app_assoc in Er. apply app_inj_tail in Er as [_ ->]. apply X3. split; [exact Hl|]. now exists c'. }
    destruct e as [x|].
    + split; [now apply HR|]. exists c. repeat split; auto. discriminate.
    + destruct c as [|y c].
      * specialize (F9 eq_refl eq_refl).
        destruct (IH b' s) as [I1 (c & I2 & I3 & I4)].
        -- pose proof (HR None eq_refl) as X. unfold set_err in X. cbn in X. unfold b'. rewrite E. exact X.
        -- exact E.
        -- cbn. lia.
        -- intros n post En. cbn in En. specialize (Q (S n) post). rewrite F9, En in Q.
           specialize (Q eq_refl). lia.
        -- split; [exact I1|]. exists c. rewrite I2, EW, app_nil_r, I3, EB. cbn. repeat split; auto; lia.
      * split.
        -- pose proof (HR None eq_refl) as X. unfold set_err in X. cbn in X. unfold b'. rewrite E. exact X.
        -- exists (y :: c). repeat split; auto; discriminate.
Qed.

Lemma fill_facts b s : R b s -> b_err b = None -> buffered b < B ->
  exists b', fill b = Ok b' /\ R b' s /\ filled b b'.
Proof.
  intros H E W. unfold fill. pose proof (window_length _ _ H) as WL.
  set (b1 := {| b_buf := overwrite 0 (window b) (b_buf b); b_r := 0; b_w := buffered b;
                b_err := b_err b; b_src := b_src b |}).
  pose proof H as [H1 H2 H3 H4 H5 H6 H7 H8].
  assert (length (b_buf b1) = B) as L1. { unfold b1. rcbn. rewrite overwrite_length; lia. }
  rewrite L1. cbn [b_w b1]. destruct (Nat.leb_spec B (buffered b)); [lia|].
  assert (window b1 = window b) as EW.
  { unfold window at 1, b1. rcbn. rewrite Nat.sub_0_r. rewrite <- WL. apply slice_overwrite_0. lia. }
  assert (R b1 s) as HR1.
  { split; try assumption.
    - cbn. lia.
    - cbn. lia.
    - rewrite EW. exact H4.
    - intros e Ee. cbn in Ee. congruence. }
  destruct (fill_loop_facts max_empty_reads b1 s HR1 E) as [G1 (c & G2 & G3 & G4)].
  - cbn. lia.
  - intros n post En. eapply (gs_stall _ _ H6 []). exact En.
  - eexists. split; [reflexivity|]. split; [exact G1|].
    exists c. rewrite G2, EW, G3. repeat split; auto. unfold buffered at 1. cbn. lia.
Qed.

Lemma index_byte_some d l i : index_byte d l = Some i ->
  exists p r, l = p ++ d :: r /\ length p = i /\ ~ In d p.
Proof.
  revert i. induction l as [|x l IH]; intros i H; [discriminate|]. cbn in H.
  destruct (byte_eqb_spec x d) as [->|N].
  - injection H as <-. exists [], l. repeat split; auto.
  - destruct (index_byte d l) as [j|]; [|discriminate]. injection H as <-.
    destruct (IH j eq_refl) as (p & r & -> & <- & I). exists (x :: p), r. repeat split; auto.
    intros [?|?]; auto.
Qed.
Lemma index_byte_none d l : index_byte d l = None -> ~ In d l.
Proof.
  induction l as [|x l IH]; intros H; [intros []|]. cbn in H.
  destruct (byte_eqb_spec x d) as [->|N]; [discriminate|].
  destruct (index_byte d l); [discriminate|]. intros [?|?]; auto. now apply IH.
Qed.

(** The three outcomes of ReadSlice. *)
Inductive slice_out (d : byte) (s : stream) : view * option err * bufrd -> Prop :=
| slice_found v b l rest :
    st_data s = l ++ d :: rest -> ~ In d l -> S (length l) <= B -> 
    snd v = S (length l) -> deref b v = l ++ [d] -> R b (mk rest (st_err s)) ->
    slice_out d s (v, None, b)
| slice_end v b :
    ~ In d (st_data s) -> length (st_data s) <= B -> (length (st_data s) = B -> ~ cr_end ln (st_data s)) ->
    deref b v = st_data s -> R b (mk [] (st_err s)) ->
    slice_out d s (v, Some (st_err s), b)
| slice_full b :
    B <= length (st_data s) -> ~ In d (firstn B (st_data s)) ->
    b_buf b = firstn B (st_data s) -> b_r b = B -> b_w b = B -> b_err b = None ->
    R b (mk (skipn B (st_data s)) (st_err s)) ->
    slice_out d s ((0, B), Some EBufferFull, b).

Lemma full_window b s : R b s -> B <= buffered b -> b_r b = 0 /\ b_w b = B /\ window b = b_buf b.
Proof.
  intros [H1 H2 H3 _ _ _ _ _] L. unfold buffered in L. assert (b_r b = 0 /\ b_w b = B) as [E1 E2] by lia.
  repeat split; auto. unfold window. rewrite E1, E2, Nat.sub_0_r, <- H1. apply slice_all.
Qed.

Lemma read_slice_loop_facts f : forall d k b s, R b s -> k <= buffered b ->
  ~ In d (firstn k (window b)) ->
  (B - buffered b) + (match b_err b with Some _ => 0 | None => 1 end) < f ->
  exists o, read_slice_loop f d k b = Ok o /\ slice_out d s o.
Proof.
  induction f as [|f IH]; intros d k b s H Hk Nk Lf; [lia|]. cbn [read_slice_loop].
  pose proof (window_length _ _ H) as WL.
  assert (slice (b_r b + k) (b_w b - (b_r b + k)) (b_buf b) = skipn k (window b)) as ES.
  { unfold window. rewrite slice_skipn. f_equal. lia. }
  rewrite ES. destruct (index_byte d (skipn k (window b))) as [i|] eqn:EI.
  - apply index_byte_some in EI as (p & r & E & <- & Np).
    eexists. split; [reflexivity|].
    assert (window b = (firstn k (window b) ++ p) ++ d :: r) as EW.
    { rewrite <- app_assoc, <- E. symmetry. apply firstn_skipn. }
    set (l := firstn k (window b) ++ p) in *.
    assert (length l = length p + k) as Ll.
    { unfold l. rewrite app_length, firstn_length. lia. }
    assert (S (length l) + length r = buffered b) as LB.
    { rewrite <- WL, EW, app_length. cbn. lia. }
    pose proof (d_w _ _ _ _ _ H) as HW. pose proof (d_rw _ _ _ _ _ H) as HRW. unfold buffered in *.
    replace (length p + k + 1) with (S (length l)) by lia.
    apply (slice_found d s _ _ l (r ++ src_data (so_evs (b_src b)))).
    + rewrite (d_data _ _ _ _ _ H), EW. rewrite <- app_assoc. reflexivity.
    + unfold l. intros I. apply in_app_iff in I as [I|I]; auto.
    + lia.
    + reflexivity.
    + unfold deref. cbn [fst snd set_r b_buf].
      assert (slice (b_r b) (S (length l)) (b_buf b) = firstn (S (length l)) (window b)) as ->.
      { unfold window. rewrite slice_firstn by lia. reflexivity. }
      rewrite EW. rewrite firstn_app, firstn_all2 by lia.
      replace (S (length l) - length l) with 1 by lia. reflexivity.
    + pose proof (delivers_set_r b s (S (length l)) H ltac:(lia) ltac:(unfold buffered; lia)) as X.
      rewrite (d_data _ _ _ _ _ H), EW in X.
      replace (skipn (S (length l)) ((l ++ d :: r) ++ src_data (so_evs (b_src b))))
        with (r ++ src_data (so_evs (b_src b))) in X; [exact X|].
      rewrite <- app_assoc. cbn [app]. rewrite skipn_app, skipn_all2 by lia.
      replace (S (length l) - length l) with 1 by lia. reflexivity.
  - apply index_byte_none in EI.
    assert (~ In d (window b)) as Nw.
    { rewrite <- (firstn_skipn k (window b)). intros I. apply in_app_iff in I as [I|I]; auto. }
    destruct (b_err b) as [e|] eqn:Eb.
    + destruct (d_err _ _ _ _ _ H e Eb) as (-> & Ev & Ecr).
      eexists. split; [reflexivity|].
      assert (st_data s = window b) as ED.
      { rewrite (d_data _ _ _ _ _ H), Ev. apply app_nil_r. }
      rewrite <- (d_term _ _ _ _ _ H).
      apply slice_end.
      * now rewrite ED.
      * rewrite ED, WL. pose proof (d_w _ _ _ _ _ H). unfold buffered. lia.
      * rewrite ED, WL. exact Ecr.
      * rewrite ED. reflexivity.
      * apply delivers_clear. pose proof (delivers_drop b s H) as X. rewrite Ev in X. exact X.
    + rewrite (d_len _ _ _ _ _ H). destruct (Nat.leb_spec B (buffered b)) as [LB|LB].
      * eexists. split; [reflexivity|]. destruct (full_window b s H LB) as (E1 & E2 & E3).
        pose proof (d_data _ _ _ _ _ H) as HD. rewrite E3 in HD, Nw.
        assert (firstn B (st_data s) = b_buf b) as EF by (rewrite HD; apply firstn_app_exact; now rewrite (d_len _ _ _ _ _ H)).
        apply slice_full; cbn; auto.
        -- rewrite HD, app_length, (d_len _ _ _ _ _ H). lia.
        -- now rewrite EF.
        -- pose proof (delivers_drop b s H) as X. rewrite HD, skipn_app_exact by (now rewrite (d_len _ _ _ _ _ H)). exact X.
      * destruct (fill_facts b s H Eb LB) as (b' & -> & HR' & c & C1 & C2 & C3). cbn [bind].
        apply IH; auto.
        -- lia.
        -- rewrite C1, firstn_app_exact by lia. exact Nw.
        -- destruct (b_err b') as [e|].
           ++ pose proof (d_w _ _ _ _ _ HR'). pose proof (d_rw _ _ _ _ _ HR'). unfold buffered in *. lia.
           ++ specialize (C3 eq_refl). destruct c; [congruence|]. cbn in C2. lia.
Qed.

Lemma read_slice_facts d b s : R b s -> exists o, read_slice d b = Ok o /\ slice_out d s o.
Proof.
  intros H. unfold read_slice. apply read_slice_loop_facts; auto; try lia.
  rewrite (d_len _ _ _ _ _ H). destruct (b_err b); lia.
Qed.

(** *** ReadLine *)
Lemma deref_shorter b o n k : k <= n -> deref b (o, n - k) = firstn (n - k) (deref b (o, n)).
Proof. intros H. unfold deref. cbn [fst snd]. rewrite slice_firstn by lia. reflexivity. Qed.

Lemma sim_bufio_line_for b s : ln = true -> R b s ->
  rel_res (fun x y => snd (fst x) = snd (fst y) /\ R (snd x) (snd y) /\
                     (snd (fst x) = None -> deref (snd x) (fst (fst x)) = fst (fst y)))
    (read_line b) (stream_line B s).
Proof.
  intros Hln H. unfold read_line.
  destruct (read_slice_facts NL b s H) as (o & -> & O). cbn [bind].
  destruct O as [v b1 l rest ED Nl Ll Ev EV HR|v b1 N L Cr EV HR|b1 L N EB E1 E2 E3 HR].
  - rewrite EV. assert (length (l ++ [NL]) =? 0 = false) as ->.
    { apply Nat.eqb_neq. rewrite app_length. cbn. lia. }
    rewrite last_app1, byte_eqb_refl, removelast_last.
    assert (s = mk (l ++ NL :: rest) (st_err s)) as ES by (destruct s; cbn in *; subst; reflexivity).
    rewrite ES at 1. rewrite stream_line_full by (auto; lia). cbn [rel_res fst snd].
    split; [reflexivity|]. split; [exact HR|]. intros _.
    destruct v as [vo vn]. cbn [fst snd] in *. subst vn.
    rewrite deref_shorter.
    2:{ destruct ((1 <? length (l ++ [NL])) && byte_eqb (last l x00) CR) eqn:X; [|lia].
        apply andb_prop in X as [X _]. apply Nat.ltb_lt in X. rewrite app_length in X. cbn in X. lia. }
    rewrite EV. destruct (rev_case l) as [->|(l' & x & ->)]; [reflexivity|].
    rewrite last_app1. rewrite !app_length. cbn [length].
    replace (1 <? length l' + 1 + 1) with true by (symmetry; apply Nat.ltb_lt; lia). cbn [andb].
    destruct (byte_eqb_spec x CR) as [->|NC].
    + rewrite <- app_assoc. cbn [app]. rewrite drop_eol_cr. apply firstn_app_exact. lia.
    + rewrite drop_eol_plain.
      * apply firstn_app_exact. rewrite app_length. cbn. lia.
      * intros [r E]. apply app_inj_tail in E as [_ ->]. congruence.
  - rewrite EV. assert (match st_err s with EBufferFull => true | _ => false end = false) as NF.
    { pose proof (gs_full _ _ (d_good _ _ _ _ _ H)). rewrite <- (d_term _ _ _ _ _ H) in *. destruct (st_err s); congruence. }
    rewrite NF. unfold stream_line. destruct (st_data s) as [|x d] eqn:ED.
    + cbn [length Nat.eqb rel_res fst snd]. split; [reflexivity|]. split; [|discriminate].
      destruct s as [sd se]. cbn in *. subst sd. exact HR.
    + rewrite <- ED in *. assert (length (st_data s) =? 0 = false) as -> by (rewrite ED; reflexivity).
      rewrite firstn_all2 by assumption. rewrite cut_none by assumption.
      assert (byte_eqb (last (st_data s) x00) NL = false) as ->.
      { apply byte_eqb_neq. intros E. apply N. rewrite <- E.
        destruct (rev_case (st_data s)) as [Q|(l' & y & Q)]; [rewrite Q in ED; discriminate|].
        rewrite Q, last_app1. apply in_or_app. right. now left. }
      destruct (Nat.leb_spec B (length (st_data s))) as [LB|LB].
      * assert (byte_eqb (last (st_data s) x00) CR = false) as ->.
        { apply byte_eqb_neq. intros E. apply Cr; [lia|]. split; [exact Hln|].
          destruct (rev_case (st_data s)) as [Q|(l' & y & Q)]; [rewrite Q in ED; discriminate|].
          rewrite Q, last_app1 in E. subst y. now exists l'. }
        cbn [rel_res fst snd]. split; [reflexivity|]. split; [|auto].
        rewrite skipn_all2 by assumption. exact HR.
      * cbn [rel_res fst snd]. split; [reflexivity|]. split; auto.
  - assert (deref b1 (0, B) = firstn B (st_data s)) as EV.
    { unfold deref. cbn [fst snd]. rewrite <- (d_len _ _ _ _ _ HR) at 1. rewrite slice_all. exact EB. }
    rewrite EV. remember (firstn B (st_data s)) as l eqn:El.
    assert (length l = B) as Ll by (rewrite El, firstn_length; lia).
    rewrite Ll. assert (B =? 0 = false) as -> by (apply Nat.eqb_neq; lia). cbn [negb andb].
    unfold stream_line. destruct (st_data s) as [|x d] eqn:ED; [cbn in L; lia|]. rewrite <- ED in *.
    rewrite <- El, cut_none by exact N.
    destruct (Nat.leb_spec B (length (st_data s))); [|lia].
    destruct (byte_eqb_spec (last l x00) CR) as [Ecr|Ncr].
    + rewrite E1. assert (B =? 0 = false) as -> by (apply Nat.eqb_neq; lia). cbn [rel_res fst snd].
      split; [reflexivity|]. split.
      * destruct HR as [H1 H2 H3 H4 H5 H6 H7 H8]. split; try assumption.
        -- cbn. lia.
        -- unfold window. rcbn. rewrite E2. replace (B - (B - 1)) with 1 by lia.
           assert (slice (B - 1) 1 (b_buf b1) = [CR]) as ->.
           { rewrite EB. destruct (rev_case l) as [Q|(l' & y & Q)]; [rewrite Q in Ll; cbn in Ll; lia|].
             rewrite Q, last_app1 in Ecr. subst y. rewrite Q. unfold slice.
             rewrite skipn_app_exact; [reflexivity|]. rewrite Q, app_length in Ll. cbn in Ll. lia. }
           cbn [app]. f_equal. cbn [mk st_data] in H4. rewrite H4. unfold window. rewrite E1, E2, Nat.sub_diag. reflexivity.
        -- cbn. rewrite E3. discriminate.
      * intros _. rewrite deref_shorter by lia.
        change (deref (set_r b1 (B - 1)) (0, B)) with (deref b1 (0, B)). rewrite EV.
        destruct (rev_case l) as [Q|(l' & y & Q)]; [rewrite Q in Ll; cbn in Ll; lia|].
        rewrite Q, removelast_last. apply firstn_app_exact. rewrite Q, app_length in Ll. cbn in Ll. lia.
    + cbn [rel_res fst snd]. auto.
Qed.

(** *** ReadString *)
Lemma read_string_loop_facts f : forall d acc b s, R b s -> length (st_data s) < f ->
  exists b', match stream_string d s with
             | Ok (l, e, s') => read_string_loop f d acc b = Ok (acc ++ l, e, b') /\ R b' s'
             | _ => False
             end.
Proof.
  induction f as [|f IH]; intros d acc b s H L; [lia|]. cbn [read_string_loop].
  destruct (read_slice_facts d b s H) as (o & -> & O). cbn [bind].
  destruct O as [v b1 l rest ED Nl Ll Ev EV HR|v b1 N L' Cr EV HR|b1 L' N EB E1 E2 E3 HR].
  - exists b1. assert (stream_string d s = Ok (l ++ [d], None, mk rest (st_err s))) as ->.
    { destruct s as [sd se]. cbn in ED. subst sd. now apply stream_string_app. }
    rewrite EV. auto.
  - exists b1. assert (stream_string d s = Ok (st_data s, Some (st_err s), mk [] (st_err s))) as ->.
    { destruct s as [sd se]. now apply stream_string_none. }
    rewrite EV.
    pose proof (gs_full _ _ (d_good _ _ _ _ _ H)). rewrite <- (d_term _ _ _ _ _ H) in *.
    destruct (st_err s); try congruence; auto.
  - assert (deref b1 (0, B) = firstn B (st_data s)) as EV.
    { unfold deref. cbn [fst snd]. rewrite <- (d_len _ _ _ _ _ HR) at 1. rewrite slice_all. exact EB. }
    rewrite EV. destruct (IH d (acc ++ firstn B (st_data s)) b1 _ HR) as (b' & Hb').
    { cbn. rewrite skipn_length. lia. }
    exists b'. unfold stream_string in *. cbn [mk st_data st_err] in Hb'.
    assert (cut d (st_data s) = match cut d (skipn B (st_data s)) with
       | Some (l, r) => Some (firstn B (st_data s) ++ l, r) | None => None end) as ->.
    { rewrite <- (firstn_skipn B (st_data s)) at 1. revert N. generalize (firstn B (st_data s)) (skipn B (st_data s)).
      clear. induction l as [|x l IHl]; intros l0 N; cbn [app cut]; [now destruct (cut d l0) as [[? ?]|]|].
      rewrite byte_eqb_neq by (intros ->; apply N; now left).
      rewrite IHl by (intros I; apply N; now right). now destruct (cut d l0) as [[? ?]|]. }
    destruct (cut d (skipn B (st_data s))) as [[l r]|].
    + rewrite app_assoc. exact Hb'.
    + rewrite <- app_assoc, firstn_skipn in Hb'. exact Hb'.
Qed.

Lemma sim_bufio_string d b s : R b s ->
  rel_res (rel_data R) (read_string d b) (stream_string d s).
Proof.
  intros H. unfold read_string.
  destruct (read_string_loop_facts (S (S (remaining b))) d [] b s H) as (b' & Hb').
  { rewrite (remaining_length _ _ H). lia. }
  destruct (stream_string d s) as [[[l e] s']| | |]; try contradiction.
  destruct Hb' as [-> HR]. cbn. split; [auto|split; auto].
Qed.

(** *** Read *)
Lemma buf_read_facts n b s : R b s -> 0 < n ->
  let '(c, e, b') := buf_read n b in
  exists rest, st_data s = c ++ rest /\ length c <= n /\ R b' (mk rest (st_err s)) /\
  (forall x, e = Some x -> x = st_err s /\ rest = [] /\ (c <> [] -> J = true -> x = EEOF)) /\
  length (so_evs (b_src b')) <= length (so_evs (b_src b)) /\
  (e = None -> c = [] -> length (so_evs (b_src b')) < length (so_evs (b_src b))).
Proof.
  intros H Hn. unfold buf_read.
  assert (forall b1, R b1 s -> 0 < buffered b1 ->
    let '(c, e, b') := (firstn n (window b1), @None err, set_r b1 (b_r b1 + length (firstn n (window b1)))) in
    exists rest, st_data s = c ++ rest /\ length c <= n /\ R b' (mk rest (st_err s)) /\
    (forall x, e = Some x -> x = st_err s /\ rest = [] /\ (c <> [] -> J = true -> x = EEOF)) /\
    so_evs (b_src b') = so_evs (b_src b1) /\ c <> []) as serve.
  { intros b1 H1 P. pose proof (window_length _ _ H1) as WL.
    exists (skipn n (window b1) ++ src_data (so_evs (b_src b1))).
    assert (length (firstn n (window b1)) = Nat.min n (buffered b1)) as LC by (rewrite firstn_length; lia).
    split; [rewrite app_assoc, firstn_skipn; apply (d_data _ _ _ _ _ H1)|]. split; [lia|]. split.
    - pose proof (delivers_set_r b1 s (length (firstn n (window b1))) H1 ltac:(lia) ltac:(lia)) as X.
      replace (skipn (length (firstn n (window b1))) (st_data s))
        with (skipn n (window b1) ++ src_data (so_evs (b_src b1))) in X; [exact X|].
      rewrite (d_data _ _ _ _ _ H1). rewrite <- (firstn_skipn n (window b1)) at 3. rewrite <- app_assoc.
      symmetry. apply skipn_app_exact. reflexivity.
    - split; [discriminate|]. split; [reflexivity|].
      intros E. apply (f_equal (@length byte)) in E. cbn in E. lia. }
  destruct (Nat.eqb_spec (b_r b) (b_w b)) as [E|NE].
  2:{ specialize (serve b H). pose proof (d_rw _ _ _ _ _ H). destruct serve as (rest & S1 & S2 & S3 & S4 & S5 & S6); [unfold buffered; lia|].
      exists rest. split; [exact S1|]. split; [exact S2|]. split; [exact S3|]. split; [exact S4|]. rewrite S5. split; [auto|]. intros _ Q; congruence. }
  assert (window b = []) as EW. { unfold window. rewrite E, Nat.sub_diag. reflexivity. }
  assert (st_data s = src_data (so_evs (b_src b))) as ED by (rewrite (d_data _ _ _ _ _ H), EW; reflexivity).
  destruct (b_err b) as [e|] eqn:Eb.
  { exists []. destruct (d_err _ _ _ _ _ H e Eb) as (-> & Ev & _). rewrite ED, Ev. cbn [app length].
    split; [reflexivity|]. split; [lia|]. split.
    - apply delivers_clear. destruct s as [sd se]. cbn in *. rewrite Ev in ED. cbn in ED. subst sd. exact H.
    - split; [|split; [cbn; rewrite Ev; auto|discriminate]]. intros x X. injection X as <-. rewrite (d_term _ _ _ _ _ H). repeat split; auto. congruence. }
  rewrite (d_len _ _ _ _ _ H). destruct (Nat.leb_spec B n) as [LB|LB].
  - pose proof (src_read_facts ln n (b_src b) (d_good _ _ _ _ _ H) Hn) as F.
    destruct (src_read n (b_src b)) as [[c e] src'].
    destruct F as (F1 & F2 & F3 & F4 & F5 & F6 & F7 & F8 & F9).
    exists (src_data (so_evs src')). rewrite ED, F5. split; [reflexivity|]. split; [assumption|]. split.
    + destruct H as [H1 H2 H3 H4 H5 H6 H7 H8]. split; try assumption; cbn.
      * unfold window. cbn. rewrite E, Nat.sub_diag. reflexivity.
      * congruence.
      * auto.
      * discriminate.
    + split; [|split; [exact F8|]].
      * intros x ->. destruct (F6 x eq_refl) as (-> & Ev & _). rewrite (d_term _ _ _ _ _ H), Ev. repeat split; auto.
        intros Hc HJ. apply (F7 (d_joint _ _ _ _ _ H HJ) _ eq_refl Hc).
      * intros -> ->. rewrite (F9 eq_refl eq_refl). cbn. lia.
  - pose proof (src_read_facts ln B (b_src b) (d_good _ _ _ _ _ H) ltac:(lia)) as F.
    destruct (src_read B (b_src b)) as [[c e] src'].
    destruct F as (F1 & F2 & F3 & F4 & F5 & F6 & F7 & F8 & F9).
    destruct c as [|y c].
    + exists (src_data (so_evs src')). rewrite ED, F5. split; [reflexivity|]. split; [cbn; lia|]. split.
      * destruct H as [H1 H2 H3 H4 H5 H6 H7 H8]. split; try assumption; cbn; try lia; auto; try congruence.
      * split; [|split; [exact F8|]].
        -- intros x ->. destruct (F6 x eq_refl) as (-> & Ev & _). rewrite (d_term _ _ _ _ _ H), Ev. repeat split; auto. congruence.
        -- intros -> _. rewrite (F9 eq_refl eq_refl). cbn. lia.
    + set (cc := y :: c) in *.
      set (b1 := {| b_buf := overwrite 0 cc (b_buf b); b_r := 0; b_w := length cc; b_err := e; b_src := src' |}).
      pose proof H as [H1 H2 H3 H4 H5 H6 H7 H8].
      assert (window b1 = cc) as EW1.
      { unfold window. cbn [b_r b_w b_buf b1]. rewrite Nat.sub_0_r. apply slice_overwrite_0. lia. }
      assert (R b1 s) as HR1.
      { split; cbn [b_buf b_r b_w b_err b_src b1]; try assumption; try lia.
        - rewrite overwrite_length; lia.
        - fold b1. rewrite EW1, ED, F5. reflexivity.
        - congruence.
        - auto.
        - intros x ->. destruct (F6 x eq_refl) as (-> & Ev & Ecr). repeat split; auto. intros _. fold b1. rewrite EW1. exact Ecr. }
      destruct (serve b1 HR1) as (rest & S1 & S2 & S3 & S4 & S5 & S6).
      { unfold buffered. cbn [b_r b_w b1]. unfold cc. cbn. lia. }
      exists rest. split; [exact S1|]. split; [exact S2|]. split; [exact S3|]. split; [exact S4|]. rewrite S5. split; [auto|]. intros _ Q; congruence.
Qed.

Section Policy.
Context (pol : nat -> nat -> nat).

Lemma read_all_loop_facts f : forall i acc b s, R b s ->
  length (st_data s) + length (so_evs (b_src b)) < f ->
  exists b', read_all_loop pol f i acc b = Ok (acc ++ st_data s, eof_ok (st_err s), b') /\
             R b' (mk [] (st_err s)).
Proof.
  induction f as [|f IH]; intros i acc b s H L; [lia|]. cbn [read_all_loop].
  pose proof (buf_read_facts (S (pol i (length acc))) b s H ltac:(lia)) as F.
  destruct (buf_read _ b) as [[c e] b1]. destruct F as (rest & ED & Lc & HR & F1 & F2 & F3).
  destruct e as [x|].
  - destruct (F1 x eq_refl) as (-> & -> & _). exists b1. rewrite ED, app_nil_r. auto.
  - destruct (IH (S i) (acc ++ c) b1 (mk rest (st_err s)) HR) as (b' & Hb' & HR').
    { cbn. rewrite ED, app_length in L. destruct c as [|y c]; [specialize (F3 eq_refl eq_refl); cbn in L; lia|cbn in L; lia]. }
    exists b'. rewrite ED, app_assoc. auto.
Qed.

Lemma takeZ_pos n x b : (0 < n)%Z -> takeZ n (x :: b) = x :: takeZ (n - 1) b.
Proof. intros H. cbn. destruct (Z.leb_spec n 0); [lia|reflexivity]. Qed.

Lemma takeZ_app c : forall n r, (Z.of_nat (length c) <= n)%Z ->
  takeZ n (c ++ r) = c ++ takeZ (n - Z.of_nat (length c)) r.
Proof.
  induction c as [|x c IH]; intros n r H.
  - cbn. now rewrite Z.sub_0_r.
  - cbn [app takeZ length] in *. destruct (Z.leb_spec n 0); [lia|]. rewrite IH by lia. do 3 f_equal. lia.
Qed.
Lemma dropZ_app c : forall n r, (Z.of_nat (length c) <= n)%Z ->
  dropZ n (c ++ r) = dropZ (n - Z.of_nat (length c)) r.
Proof.
  induction c as [|x c IH]; intros n r H.
  - cbn. now rewrite Z.sub_0_r.
  - cbn [app dropZ length] in *. destruct (Z.leb_spec n 0); [lia|]. rewrite IH by lia. f_equal. lia.
Qed.
Lemma takeZ_neg n b : (n <= 0)%Z -> takeZ n b = [].
Proof. intros H. destruct b; cbn; auto. destruct (Z.leb_spec n 0); [reflexivity|lia]. Qed.
Lemma dropZ_neg n b : (n <= 0)%Z -> dropZ n b = b.
Proof. intros H. destruct b; cbn; auto. destruct (Z.leb_spec n 0); [reflexivity|lia]. Qed.

Lemma buf_read_small n b c e b' : n < length (b_buf b) -> buf_read n b = (c, Some e, b') -> c = [].
Proof.
  intros L H. unfold buf_read in H. destruct (b_r b =? b_w b); [|discriminate]. destruct (b_err b); [congruence|].
  destruct (Nat.leb_spec (length (b_buf b)) n); [lia|]. destruct (src_read (length (b_buf b)) (b_src b)) as [[[|x c0] e0] src]; [congruence|discriminate].
Qed.

(** The error differs from the stream's only if it came together with the last
    bytes, is not EOF, and as many bytes as the buffer holds were asked for. *)
Lemma copy_loop_facts f : forall i n acc b s, R b s ->
  length (st_data s) + length (so_evs (b_src b)) < f ->
  exists e b', copy_loop pol f i n acc b = Ok (acc ++ takeZ n (st_data s), e, b') /\
    R b' (mk (dropZ n (st_data s)) (st_err s)) /\
    (e = (if (Z.of_nat (length (takeZ n (st_data s))) <? n)%Z then eof_ok (st_err s) else None) \/
     (J = false /\ e = Some (st_err s) /\ st_err s <> EEOF /\ (Z.of_nat B <= n)%Z)).
Proof.
  induction f as [|f IH]; intros i n acc b s H L; [lia|]. cbn [copy_loop].
  destruct (Z.leb_spec n 0) as [Hn|Hn].
  { exists None, b. rewrite takeZ_neg, dropZ_neg, app_nil_r by assumption. split; [reflexivity|].
    split; [destruct s; exact H|]. left. destruct (Z.ltb_spec (Z.of_nat (length (@nil byte))) n); [cbn in *; lia|reflexivity]. }
  set (m := if (n <? Z.of_nat (S (pol i (length acc))))%Z then Z.to_nat n else S (pol i (length acc))).
  assert (0 < m /\ (Z.of_nat m <= n)%Z) as [Hm1 Hm2].
  { unfold m. destruct (Z.ltb_spec n (Z.of_nat (S (pol i (length acc))))); lia. }
  pose proof (buf_read_facts m b s H Hm1) as F.
  destruct (buf_read m b) as [[c e] b1] eqn:Erd. destruct F as (rest & ED & Lc & HR & F1 & F2 & F3).
  destruct e as [x|].
  - assert (c <> [] -> B <= m) as Big.
    { intros N. destruct (Nat.le_gt_cases B m) as [|Q]; [assumption|]. exfalso. apply N. eapply buf_read_small; [|exact Erd]. now rewrite (d_len _ _ _ _ _ H). }
    destruct (F1 x eq_refl) as (-> & -> & F4). exists (eof_ok (st_err s)), b1. rewrite app_nil_r in ED. subst c.
    rewrite <- (app_nil_r (st_data s)). rewrite takeZ_app, dropZ_app by lia. cbn [takeZ dropZ].
    rewrite app_nil_r. split; [reflexivity|]. split; [exact HR|].
    destruct (Z.ltb_spec (Z.of_nat (length (st_data s))) n) as [Q|Q]; [now left|].
    destruct (is_eof (st_err s)) eqn:EE.
    + left. unfold eof_ok. now rewrite EE.
    + right. assert (st_err s <> EEOF) as NE by (intros X; rewrite X in EE; discriminate).
      assert (st_data s <> []) as ND by (intros X; rewrite X in Q; cbn in Q; lia).
      unfold eof_ok. rewrite EE. repeat split; auto; [|specialize (Big ND); lia]. destruct J; auto. exfalso. apply NE, F4; auto.
  - destruct (IH (S i) (n - Z.of_nat (length c))%Z (acc ++ c) b1 (mk rest (st_err s)) HR) as (e & b' & Hb' & HR' & He).
    { cbn. rewrite ED, app_length in L. destruct c as [|y c]; [specialize (F3 eq_refl eq_refl); cbn in L; lia|cbn in L; lia]. }
    exists e, b'. rewrite ED, takeZ_app, dropZ_app by lia. rewrite app_assoc. cbn [mk st_data st_err] in *.
    split; [exact Hb'|]. split; [exact HR'|]. destruct He as [->|(He1 & He2 & He3 & He4)]; [left|right; repeat split; auto; lia].
    rewrite app_length.
    destruct (Z.ltb_spec (Z.of_nat (length (takeZ (n - Z.of_nat (length c)) rest))) (n - Z.of_nat (length c)));
    destruct (Z.ltb_spec (Z.of_nat (length c + length (takeZ (n - Z.of_nat (length c)) rest))) n); try lia; reflexivity.
Qed.
End Policy.

Lemma read_full_loop_facts f : forall want acc b s, R b s ->
  length (st_data s) + length (so_evs (b_src b)) < f ->
  exists b', R b' (mk (skipn want (st_data s)) (st_err s)) /\
    read_full_loop f want acc b =
      if want <=? length (st_data s) then Ok (acc ++ firstn want (st_data s), None, b')
      else Ok (acc ++ st_data s,
               Some (if negb (length (acc ++ st_data s) =? 0) && is_eof (st_err s) then EUnexpectedEOF else st_err s), b').
Proof.
  induction f as [|f IH]; intros want acc b s H L; [lia|]. cbn [read_full_loop].
  destruct want as [|w].
  { exists b. cbn. rewrite app_nil_r. split; [destruct s; exact H|reflexivity]. }
  set (want := S w). pose proof (buf_read_facts want b s H ltac:(unfold want; lia)) as F.
  destruct (buf_read want b) as [[c e] b1]. destruct F as (rest & ED & Lc & HR & F1 & F2 & F3).
  destruct e as [x|].
  - destruct (F1 x eq_refl) as (-> & -> & _). rewrite app_nil_r in ED. subst c. exists b1.
    rewrite skipn_all2 by assumption. split; [exact HR|].
    destruct (Nat.leb_spec want (length (st_data s))).
    + rewrite firstn_all2 by lia. reflexivity.
    + destruct (negb _ && _); reflexivity.
  - destruct (IH (want - length c) (acc ++ c) b1 (mk rest (st_err s)) HR) as (b' & HR' & Hb').
    { cbn. rewrite ED, app_length in L. destruct c as [|y c]; [specialize (F3 eq_refl eq_refl); cbn in L; lia|cbn in L; lia]. }
    exists b'. rewrite ED. cbn [mk st_data st_err] in *. split.
    + rewrite skipn_app, skipn_all2 by lia. exact HR'.
    + rewrite Hb'. rewrite <- !app_assoc.
      destruct (Nat.leb_spec (want - length c) (length rest)); destruct (Nat.leb_spec want (length (c ++ rest)));
        rewrite app_length in *; try lia.
      * rewrite firstn_app, (firstn_all2 c) by lia. reflexivity.
      * reflexivity.
Qed.

Lemma rounds_enough b s : R b s -> length (st_data s) + length (so_evs (b_src b)) < rounds b.
Proof. intros H. unfold rounds. rewrite (remaining_length _ _ H). lia. Qed.

Context (pa pc : nat -> nat -> nat).

(** The same operations without ReadLine. *)
Definition no_line {S V} (o : rdops S V) : rdops S V :=
  {| rd_string := rd_string o; rd_line := fun _ => Panic; rd_deref := rd_deref o; rd_all := rd_all o;
     rd_full := rd_full o; rd_copy := rd_copy o; rd_fuel := rd_fuel o |}.
Lemma sim_bufio_no_line : sim_core (no_line (bufio_ops pa pc)) (no_line (stream_ops B)) R.
Proof.
  split.
  - intros. now apply sim_bufio_string.
  - intros s1 s2 H. exact I.
  - intros b s H. cbn [rd_all no_line bufio_ops stream_ops].
    destruct (read_all_loop_facts pa (rounds b) 0 [] b s H (rounds_enough b s H)) as (b' & -> & HR).
    cbn. split; [auto|split; auto].
  - intros n b s H. cbn [rd_full no_line bufio_ops stream_ops].
    destruct (read_full_loop_facts (rounds b) n [] b s H (rounds_enough b s H)) as (b' & HR & ->).
    unfold stream_full. cbn [app]. destruct (Nat.leb_spec n (length (st_data s))).
    + cbn. split; [auto|split; auto].
    + destruct s as [sd se]. cbn [st_data st_err] in *. destruct sd as [|x d].
      * cbn. rewrite skipn_nil in HR. split; [auto|split; auto].
      * cbn [length Nat.eqb negb andb]. rewrite skipn_all2 in HR by lia. destruct (is_eof se); cbn; (split; [auto|split; auto]).
  - intros b s H. cbn. now rewrite (remaining_length _ _ H).
Qed.

Lemma sim_bufio_for : ln = true -> sim_core (bufio_ops pa pc) (stream_ops B) R.
Proof.
  intros Hln. destruct sim_bufio_no_line as [H1 _ H3 H4 H5]. split; try assumption.
  intros s1 s2 H. pose proof (sim_bufio_line_for s1 s2 Hln H) as X. cbn [rd_line bufio_ops stream_ops].
  destruct (read_line s1) as [[[? ?] ?]| | |], (stream_line B s2) as [[[? ?] ?]| | |]; cbn in *; auto.
Qed.

Lemma sim_bufio_copy_for : J = true -> sim_copy (bufio_ops pa pc) (stream_ops B) R.
Proof.
  intros HJ n b s H. cbn [rd_copy bufio_ops stream_ops].
  destruct (copy_loop_facts pc (rounds b) 0 n [] b s H (rounds_enough b s H)) as (e & b' & -> & HR & He).
  unfold stream_copy. cbn. destruct He as [->|(? & _)]; [|congruence]. split; [auto|split; auto].
Qed.

End Rel.

Definition sim_bufio_line B HB J b s := @sim_bufio_line_for B HB true J b s eq_refl.
Definition sim_bufio_copy B HB J pa pc := @sim_bufio_copy_for B HB true J pa pc.
Definition sim_bufio B HB J pa pc := @sim_bufio_for B HB true J pa pc eq_refl.

(** A fresh reader. *)
Lemma new_reader_delivers_for ln B J src : good_source_for ln src -> (J = true -> joint_eof src) ->
  delivers_for ln B J (new_reader B src) (mk (src_data (so_evs src)) (so_term src)).
Proof.
  intros G HJ. split; cbn; auto; try lia.
  - apply repeat_length.
  - discriminate.
Qed.
Definition new_reader_delivers := new_reader_delivers_for true.
