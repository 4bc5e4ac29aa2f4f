(** The buffered reader over every source whatsoever: it keeps the contract of SafeOps.v
    as long as the source does not report bufio.ErrBufferFull itself, and what it
    hands out are the bytes of the source, in order. *)
From Verif Require Import Base Reader Bufio ReaderSpec SafeOps BufioFacts StreamFacts.

(** The bytes still to come: those in the buffer, then those of the source. *)
Definition pending (b : bufrd) : bytes := window b ++ src_data (so_evs (b_src b)).

Lemma window_len b : wf_reader b -> length (window b) = buffered b.
Proof. intros [H1 H2 H3 _ _]. unfold buffered. apply slice_length. lia. Qed.
Lemma pending_length b : wf_reader b -> length (pending b) = remaining b.
Proof. intros H. unfold pending, remaining. now rewrite app_length, window_len. Qed.

Lemma wf_new B src : 2 <= B -> honest src -> wf_reader (new_reader B src).
Proof. intros H1 H2. split; cbn; auto; try lia; try discriminate. now rewrite repeat_length. Qed.

Definition weight (b : bufrd) : nat := remaining b + length (so_evs (b_src b)).

(** Errors the reader may report: those of the source, and ErrNoProgress. *)
Definition source_error (s : source) (e : err) : Prop :=
  e = so_term s \/ exists c, In (c, Some e) (so_evs s).
Definition may_report (b : bufrd) (e : err) : Prop :=
  b_err b = Some e \/ source_error (b_src b) e \/ e = ENoProgress.

Lemma honest_full s : honest s -> ~ source_error s EBufferFull.
Proof. intros [H1 H2] [E|[c I]]; [congruence|]. exact (H2 c I). Qed.

Lemma src_read_any n s : honest s -> 0 < n ->
  let '(c, e, s') := src_read n s in
  honest s' /\ length c <= n /\ src_data (so_evs s) = c ++ src_data (so_evs s') /\
  (forall x, e = Some x -> source_error s x) /\ (forall x, source_error s' x -> source_error s x) /\
  length (so_evs s') <= length (so_evs s) /\
  (e = None -> c = [] -> length (so_evs s') < length (so_evs s)).
Proof.
  intros [G1 G2] Hn. destruct s as [evs term]. unfold src_read. cbn [so_evs so_term] in *.
  destruct evs as [|[c e] evs].
  - cbn. repeat split; auto; try lia; try discriminate. intros x X. left. cbn. congruence.
  - destruct (Nat.leb_spec (length c) n) as [L|L]; cbn [so_evs so_term].
    + unfold src_data. cbn [map concat fst length]. repeat split; auto; cbn; try lia.
      * intros c0 I. apply (G2 c0). now right.
      * intros x ->. right. exists c. now left.
      * intros x [E|[c0 I]]; [now left|]. right. exists c0. now right.
    + unfold src_data. cbn [map concat fst length]. rewrite firstn_length.
      rewrite app_assoc, firstn_skipn.
      repeat split; auto; cbn; try lia; try discriminate.
      * intros c0 [I|I]; [injection I as _ ->; apply (G2 c); now left|apply (G2 c0); now right].
      * intros x [E|[c0 [I|I]]]; [now left| |].
        -- injection I as _ ->. right. exists c. now left.
        -- right. exists c0. now right.
      * intros _ E. apply (f_equal (@length byte)) in E. rewrite firstn_length in E. cbn in E. lia.
Qed.

(** What every step of the reader keeps; [x]: the bytes taken. *)
Definition step (b b' : bufrd) (x : bytes) : Prop :=
  wf_reader b' /\ length (b_buf b') = length (b_buf b) /\ pending b = x ++ pending b' /\
  length (so_evs (b_src b')) <= length (so_evs (b_src b)) /\ (forall e, may_report b' e -> may_report b e).

Lemma step_remaining b b' x : wf_reader b -> step b b' x -> remaining b = length x + remaining b'.
Proof. intros H (W & _ & P & _). rewrite <- !pending_length, P by assumption. apply app_length. Qed.

Lemma step_refl b : wf_reader b -> step b b [].
Proof. intros H. unfold step. split; [exact H|]. auto. Qed.

Lemma step_trans b1 b2 b3 x y : step b1 b2 x -> step b2 b3 y -> step b1 b3 (x ++ y).
Proof.
  intros (A1 & A2 & A3 & A4 & A5) (B1 & B2 & B3 & B4 & B5). unfold step. split; [exact B1|]. split; [lia|].
  split; [rewrite A3, B3; apply app_assoc|]. split; [lia|auto].
Qed.

Lemma fill_loop_any i : forall b, wf_reader b -> b_err b = None -> b_w b < length (b_buf b) ->
  step b (fill_loop i b) [] /\
  (exists c, window (fill_loop i b) = window b ++ c /\ (b_err (fill_loop i b) = None -> c <> [])).
Proof.
  induction i as [|i IH]; intros b H E W.
  - cbn [fill_loop]. destruct H as [H1 H2 H3 H4 H5]. split; [|exists []; rewrite app_nil_r; split; [reflexivity|discriminate]].
    unfold step. split; [split; cbn; auto; discriminate|]. split; [reflexivity|]. split; [reflexivity|]. split; [cbn; lia|].
    unfold may_report. cbn. intros e [X|[X|X]]; auto. injection X as <-. auto.
  - cbn [fill_loop].
    pose proof (src_read_any (length (b_buf b) - b_w b) (b_src b) (wf_src _ H) ltac:(lia)) as F.
    destruct (src_read _ (b_src b)) as [[c e] src']. destruct F as (F1 & F2 & F3 & F4 & F5 & F6 & F7).
    pose proof H as [H1 H2 H3 H4 H5].
    set (b' := {| b_buf := overwrite (b_w b) c (b_buf b); b_r := b_r b; b_w := b_w b + length c;
                  b_err := b_err b; b_src := src' |}).
    assert (length (b_buf b') = length (b_buf b)) as L by (unfold b'; cbn [b_buf]; apply overwrite_length; lia).
    assert (window b' = window b ++ c) as EW by (unfold window, b'; cbn [b_buf b_r b_w]; apply slice_overwrite; lia).
    assert (forall x, e = x -> step b (set_err b' x) []) as HS.
    { intros x X. unfold step. split; [split; cbn [set_err b_buf b_r b_w b_err b_src]; auto; try (rewrite L); unfold b'; cbn [b_r b_w]; try lia; try exact F1|].
      - subst x. intros Q. apply (honest_full _ H5). now apply F4.
      - split; [exact L|]. split; [|split; [exact F6|]].
        + unfold pending. change (window (set_err b' x)) with (window b'). rewrite EW, F3. cbn [app set_err b_src b'].
          now rewrite <- app_assoc.
        + unfold may_report. cbn [set_err b_err b_src b']. intros y [Y|[Y|Y]]; auto. right; left. apply F4. congruence. }
    destruct e as [x|].
    + split; [now apply HS|]. exists c. split; [exact EW|discriminate].
    + assert (set_err b' None = b') as SE by (unfold b', set_err; cbn; now rewrite E).
      pose proof (HS None eq_refl) as X. rewrite SE in X.
      destruct c as [|y c].
      * destruct (IH b' (proj1 X) E ltac:(rewrite L; unfold b'; cbn; lia)) as (I1 & c & I2 & I3).
        split; [exact (step_trans _ _ _ [] [] X I1)|]. exists c. rewrite EW, app_nil_r in I2. auto.
      * split; [exact X|]. exists (y :: c). split; [exact EW|discriminate].
Qed.

Lemma fill_any b : wf_reader b -> b_err b = None -> buffered b < length (b_buf b) ->
  exists b', fill b = Ok b' /\ step b b' [] /\
  (exists c, window b' = window b ++ c /\ (b_err b' = None -> c <> [])).
Proof.
  intros H E W. unfold fill. pose proof (window_len b H) as WL.
  set (b1 := {| b_buf := overwrite 0 (window b) (b_buf b); b_r := 0; b_w := buffered b;
                b_err := b_err b; b_src := b_src b |}).
  pose proof H as [H1 H2 H3 H4 H5].
  assert (length (b_buf b1) = length (b_buf b)) as L1.
  { unfold b1. cbn [b_buf]. rewrite overwrite_length; lia. }
  rewrite L1. change (b_w b1) with (buffered b). destruct (Nat.leb_spec (length (b_buf b)) (buffered b)); [lia|].
  assert (window b1 = window b) as EW.
  { unfold window at 1, b1. cbn [b_buf b_r b_w]. rewrite Nat.sub_0_r. rewrite <- WL. apply slice_overwrite_0. lia. }
  assert (step b b1 []) as S1.
  { unfold step. split; [split; auto; try (rewrite L1; auto); unfold b1; cbn [b_r b_w]; try lia|].
    split; [exact L1|]. split; [unfold pending; now rewrite EW|]. split; [cbn; lia|]. auto. }
  destruct (fill_loop_any max_empty_reads b1 (proj1 S1) E ltac:(rewrite L1; cbn; lia)) as (I1 & c & I2 & I3).
  eexists. split; [reflexivity|]. split; [exact (step_trans _ _ _ [] [] S1 I1)|]. exists c. rewrite EW in I2. auto.
Qed.

Lemma step_set_r b k : wf_reader b -> k <= buffered b -> step b (set_r b (b_r b + k)) (firstn k (window b)).
Proof.
  intros [H1 H2 H3 H4 H5] L. unfold buffered in L. unfold step. split; [split; cbn; auto; lia|].
  split; [reflexivity|]. split; [|split; [cbn; lia|auto]].
  unfold pending. rewrite app_assoc. f_equal. unfold window. cbn [set_r b_buf b_r b_w].
  rewrite slice_firstn by lia. rewrite (slice_split k) by lia. do 2 f_equal. lia.
Qed.
Lemma step_clear b x b' : step b b' x -> step b (set_err b' None) x.
Proof.
  intros (H1 & H2 & H3 & H4 & H5). unfold step. destruct H1. split; [split; cbn; auto; discriminate|].
  repeat split; auto. intros e [X|X]; [discriminate|]. apply H5. now right.
Qed.

(** ReadSlice: [l] are the bytes of the slice. *)
Inductive slice_any (d : byte) (b : bufrd) : view * option err * bufrd -> Prop :=
| sa_found v b' l : deref b' v = l ++ [d] -> ~ In d l -> fst v + snd v <= length (b_buf b') ->
    step b b' (deref b' v) -> slice_any d b (v, None, b')
| sa_err v e b' : e <> EBufferFull -> may_report b e -> fst v + snd v <= length (b_buf b') ->
    ~ In d (deref b' v) ->
    step b b' (deref b' v) -> slice_any d b (v, Some e, b')
| sa_full b' : b_r b' = length (b_buf b') -> b_w b' = length (b_buf b') -> 
    ~ In d (b_buf b') -> b_err b' = None -> step b b' (b_buf b') ->
    slice_any d b ((0, length (b_buf b')), Some EBufferFull, b').

Lemma slice_any_trans d b1 b2 o : step b1 b2 [] -> slice_any d b2 o -> slice_any d b1 o.
Proof.
  intros H []; [eapply sa_found|eapply sa_err|eapply sa_full]; eauto; try (apply H; assumption);
  match goal with S : step b2 ?b' ?x |- step b1 ?b' ?x => exact (step_trans _ _ _ [] x H S) end.
Qed.

Lemma read_slice_loop_any f : forall d k b, wf_reader b -> k <= buffered b -> ~ In d (firstn k (window b)) ->
  (length (b_buf b) - buffered b) + (match b_err b with Some _ => 0 | None => 1 end) < f ->
  exists o, read_slice_loop f d k b = Ok o /\ slice_any d b o.
Proof.
  induction f as [|f IH]; intros d k b H Hk Nk Lf; [lia|]. cbn [read_slice_loop].
  pose proof H as [H1 H2 H3 H4 H5]. pose proof (window_len b H) as WL.
  assert (slice (b_r b + k) (b_w b - (b_r b + k)) (b_buf b) = skipn k (window b)) as ES.
  { unfold window. rewrite slice_skipn. f_equal. lia. }
  rewrite ES. destruct (index_byte d (skipn k (window b))) as [i|] eqn:EI.
  - apply index_byte_some in EI as (p & r & E & <- & Np).
    assert (window b = (firstn k (window b) ++ p) ++ d :: r) as EW.
    { rewrite <- app_assoc, <- E. symmetry. apply firstn_skipn. }
    remember (firstn k (window b) ++ p) as l eqn:El.
    assert (length l = length p + k) as Ll by (subst l; rewrite app_length, firstn_length; lia).
    assert (S (length l) + length r = buffered b) as LB by (rewrite <- WL, EW, app_length; cbn; lia).
    replace (length p + k + 1) with (S (length l)) by lia.
    eexists. split; [reflexivity|].
    assert (deref (set_r b (b_r b + S (length l))) (b_r b, S (length l)) = firstn (S (length l)) (window b)) as ED.
    { unfold deref, window. cbn [fst snd set_r b_buf]. rewrite slice_firstn; [reflexivity|]. unfold buffered in LB. lia. }
    apply (sa_found d b _ _ l).
    + rewrite ED, EW. rewrite firstn_app, firstn_all2 by lia. replace (S (length l) - length l) with 1 by lia. reflexivity.
    + subst l. intros I. apply in_app_iff in I as [I|I]; auto.
    + cbn [fst snd set_r b_buf]. unfold buffered in LB. lia.
    + rewrite ED. apply step_set_r; auto. lia.
  - apply index_byte_none in EI.
    assert (~ In d (window b)) as Nw.
    { rewrite <- (firstn_skipn k (window b)). intros I. apply in_app_iff in I as [I|I]; auto. }
    assert (step b (set_r b (b_w b)) (window b)) as SD.
    { pose proof (step_set_r b (buffered b) H ltac:(lia)) as X. rewrite firstn_all2 in X by lia.
      replace (b_r b + buffered b) with (b_w b) in X by (unfold buffered; lia). exact X. }
    destruct (b_err b) as [e|] eqn:Eb.
    + eexists. split; [reflexivity|].
      assert (deref (set_err (set_r b (b_w b)) None) (b_r b, buffered b) = window b) as ED by reflexivity.
      apply sa_err; try rewrite ED.
      * congruence.
      * now left.
      * cbn [fst snd set_err set_r b_buf]. unfold buffered. lia.
      * exact Nw.
      * now apply step_clear.
    + destruct (Nat.leb_spec (length (b_buf b)) (buffered b)) as [LB|LB].
      * eexists. split; [reflexivity|]. 
        unfold buffered in LB. assert (b_r b = 0 /\ b_w b = length (b_buf b)) as [E1 E2] by lia.
        assert (window b = b_buf b) as EW by (unfold window; rewrite E1, E2, Nat.sub_0_r; apply slice_all).
        rewrite EW in *. apply (sa_full d b (set_r b (b_w b))); auto.
      * destruct (fill_any b H Eb LB) as (b' & -> & S & c & C1 & C2). cbn [bind].
        pose proof (window_len b' (proj1 S)) as WL'. rewrite C1, app_length in WL'.
        destruct (IH d (buffered b) b') as (o & Ho & So).
        -- apply S.
        -- lia.
        -- rewrite C1, <- WL, firstn_app_exact by reflexivity. exact Nw.
        -- destruct S as (_ & SL & _). rewrite SL. destruct (b_err b'); [lia|]. specialize (C2 eq_refl). destruct c; [congruence|]. cbn in WL'. lia.
        -- exists o. split; [exact Ho|]. eapply slice_any_trans; eassumption.
Qed.

Lemma read_slice_any d b : wf_reader b -> exists o, read_slice d b = Ok o /\ slice_any d b o.
Proof.
  intros H. unfold read_slice. apply read_slice_loop_any; auto; try lia. destruct (b_err b); lia.
Qed.

Lemma deref_length b v : fst v + snd v <= length (b_buf b) -> length (deref b v) = snd v.
Proof. intros H. unfold deref. now apply slice_length. Qed.

(** ReadLine takes bytes off, at least one if it reports no error. *)
Lemma read_line_any b : wf_reader b ->
  exists v e b', read_line b = Ok (v, e, b') /\ (exists x, step b b' x /\ (e = None -> x <> [])) /\
  (forall x, e = Some x -> may_report b x).
Proof.
  intros H. unfold read_line. destruct (read_slice_any NL b H) as (o & -> & O). cbn [bind].
  destruct O as [v b' l D Nl L ST|v e b' N M L D ST|b' E1 E2 N Eb ST].
  - rewrite D. assert (length (l ++ [NL]) =? 0 = false) as -> by (apply Nat.eqb_neq; rewrite app_length; cbn; lia).
    rewrite last_app1, byte_eqb_refl. do 3 eexists. split; [reflexivity|]. split; [|discriminate].
    eexists. split; [exact ST|]. intros _. rewrite D. destruct l; discriminate.
  - assert (match e with EBufferFull => true | _ => false end = false) as -> by (destruct e; congruence).
    destruct (Nat.eqb_spec (length (deref b' v)) 0) as [Z|Z].
    + do 3 eexists. split; [reflexivity|]. split; [|intros x X; injection X as <-; exact M].
      eexists. split; [exact ST|discriminate].
    + assert (deref b' v <> []) as NE by (intros X; rewrite X in Z; cbn in Z; lia).
      destruct (byte_eqb _ NL); do 3 eexists; (split; [reflexivity|]); (split; [|discriminate]); eexists; (split; [exact ST|auto]).
  - pose proof (wf_size _ (proj1 ST)) as SZ.
    assert (deref b' (0, length (b_buf b')) = b_buf b') as ED by (unfold deref; cbn [fst snd]; apply slice_all).
    rewrite ED. assert (length (b_buf b') =? 0 = false) as -> by (apply Nat.eqb_neq; lia). cbn [negb andb].
    destruct (byte_eqb_spec (last (b_buf b') x00) CR) as [EC|NC].
    + rewrite E1. assert (length (b_buf b') =? 0 = false) as -> by (apply Nat.eqb_neq; lia).
      do 3 eexists. split; [reflexivity|]. split; [|discriminate].
      destruct (rev_case (b_buf b')) as [Q|(l' & y & Q)]; [rewrite Q in SZ; cbn in SZ; lia|].
      rewrite Q, last_app1 in EC. subst y.
      assert (length (b_buf b') = S (length l')) as LQ by (rewrite Q, app_length; cbn; lia).
      exists l'. split; [|intros _ ->; cbn in LQ; lia].
      destruct ST as (S1 & S2 & S3 & S4 & S5). unfold step.
      split; [destruct S1; split; cbn; auto; lia|]. split; [exact S2|]. split; [|split; [exact S4|exact S5]].
      rewrite S3, Q. rewrite <- app_assoc. f_equal. unfold pending. cbn [set_r b_src].
      assert (window b' = []) as -> by (unfold window; rewrite E1, E2, Nat.sub_diag; reflexivity). cbn [app].
      change (CR :: src_data (so_evs (b_src b'))) with ([CR] ++ src_data (so_evs (b_src b'))). f_equal.
      unfold window. cbn [set_r b_r b_w b_buf]. rewrite E2, ?Q, ?app_length. cbn [length]. unfold slice.
      replace (length l' + 1 - 1) with (length l') by lia. rewrite skipn_app_exact by reflexivity.
      replace (length l' + 1 - length l') with 1 by lia. reflexivity.
    + do 3 eexists. split; [reflexivity|]. split; [|discriminate]. exists (b_buf b'). split; [exact ST|].
      intros _ X. rewrite X in SZ. cbn in SZ. lia.
Qed.

Lemma read_string_loop_any f : forall d acc b, wf_reader b -> remaining b < f ->
  exists x e b', read_string_loop f d acc b = Ok (acc ++ x, e, b') /\ step b b' x /\
  (forall y, e = Some y -> may_report b y) /\
  match e with None => exists l, x = l ++ [d] /\ ~ In d l | Some _ => ~ In d x end.
Proof.
  induction f as [|f IH]; intros d acc b H L; [lia|]. cbn [read_string_loop].
  destruct (read_slice_any d b H) as (o & -> & O). cbn [bind].
  destruct O as [v b' l D Nl Lv S|v e b' N M Lv D S|b' E1 E2 N Eb S].
  - do 3 eexists. split; [reflexivity|]. split; [exact S|]. split; [discriminate|]. exists l. auto.
  - assert (forall (A : Type) (x y : A), match e with EBufferFull => x | _ => y end = y) as Q by (intros; destruct e; congruence).
    rewrite Q. do 3 eexists. split; [reflexivity|]. split; [exact S|]. split; [intros y Y; injection Y as <-; exact M|exact D].
  - pose proof (wf_size _ (proj1 S)).
    assert (deref b' (0, length (b_buf b')) = b_buf b') as ED by (unfold deref; cbn [fst snd]; apply slice_all).
    rewrite ED. pose proof (step_remaining _ _ _ H S) as SR.
    destruct (IH d (acc ++ b_buf b') b' (proj1 S) ltac:(lia)) as (x & e & b2 & -> & S2 & M2 & N2).
    exists (b_buf b' ++ x), e, b2. rewrite app_assoc. split; [reflexivity|]. split; [eapply step_trans; eassumption|].
    split; [intros y Y; apply S, M2, Y|].
    destruct e.
    + intros I. apply in_app_iff in I as [I|I]; auto.
    + destruct N2 as (l & -> & Nl). exists (b_buf b' ++ l). rewrite app_assoc. split; [reflexivity|].
      intros I. apply in_app_iff in I as [I|I]; auto.
Qed.

Lemma buf_read_any n b : wf_reader b -> 0 < n ->
  let '(c, e, b') := buf_read n b in
  step b b' c /\ length c <= n /\ (forall x, e = Some x -> may_report b x) /\
  (e = None -> c = [] -> weight b' < weight b).
Proof.
  intros H Hn. unfold buf_read.
  assert (forall b1, wf_reader b1 -> 0 < buffered b1 ->
    let '(c, e, b') := (firstn n (window b1), @None err, set_r b1 (b_r b1 + length (firstn n (window b1)))) in
    step b1 b' c /\ length c <= n /\ c <> []) as serve.
  { intros b1 H1 P. pose proof H1 as [K1 K2 K3 K4 K5]. pose proof (window_len b1 H1) as WL.
    assert (length (firstn n (window b1)) = Nat.min n (buffered b1)) as LC by (rewrite firstn_length; lia).
    split; [|split; [lia|intros X; rewrite X in LC; cbn in LC; lia]].
    pose proof (step_set_r b1 (length (firstn n (window b1))) H1 ltac:(lia)) as X.
    replace (firstn (length (firstn n (window b1))) (window b1)) with (firstn n (window b1)) in X; [exact X|].
    rewrite LC. destruct (Nat.min_spec n (buffered b1)) as [[? ->]|[? ->]]; [reflexivity|]. now rewrite !firstn_all2 by lia. }
  pose proof H as [H1 H2 H3 H4 H5].
  destruct (Nat.eqb_spec (b_r b) (b_w b)) as [E|NE].
  2:{ destruct (serve b H ltac:(unfold buffered; lia)) as (S1 & S2 & S3). split; [exact S1|]. split; [exact S2|]. split; [discriminate|congruence]. }
  assert (buffered b = 0) as EB by (unfold buffered; lia).
  assert (window b = []) as EW by (unfold window; rewrite E, Nat.sub_diag; reflexivity).
  destruct (b_err b) as [e|] eqn:Eb.
  { split; [|split; [cbn; lia|split; [|discriminate]]].
    - apply step_clear. now apply step_refl.
    - intros x X. left. congruence. }
  destruct (Nat.leb_spec (length (b_buf b)) n) as [LB|LB].
  - pose proof (src_read_any n (b_src b) H5 Hn) as F. destruct (src_read n (b_src b)) as [[c e] src'].
    destruct F as (F1 & F2 & F3 & F4 & F5 & F6 & F7).
    assert (step b (set_src b None src') c) as S.
    { unfold step. split; [split; cbn; auto; discriminate|]. split; [reflexivity|]. split; [|split; [exact F6|]].
      - unfold pending. change (window (set_src b None src')) with (window b). rewrite EW. exact F3.
      - intros x [X|[X|X]]; [discriminate| |]; right; [left|right]; auto. }
    split; [exact S|]. split; [exact F2|]. split; [intros x X; right; left; auto|].
    intros -> ->. pose proof (step_remaining _ _ _ H S). specialize (F7 eq_refl eq_refl). unfold weight. cbn in *. lia.
  - pose proof (src_read_any (length (b_buf b)) (b_src b) H5 ltac:(lia)) as F.
    destruct (src_read (length (b_buf b)) (b_src b)) as [[c e] src'].
    destruct F as (F1 & F2 & F3 & F4 & F5 & F6 & F7).
    destruct c as [|y c].
    + set (b1 := {| b_buf := b_buf b; b_r := 0; b_w := 0; b_err := None; b_src := src' |}).
      assert (step b b1 []) as S.
      { unfold step. split; [split; cbn; auto; try lia; discriminate|]. split; [reflexivity|]. split; [|split; [exact F6|]].
        - unfold pending. rewrite EW. exact F3.
        - intros x [X|[X|X]]; [discriminate| |]; right; [left|right]; auto. }
      split; [exact S|]. split; [cbn; lia|]. split; [intros x X; right; left; auto|].
      intros -> _. pose proof (step_remaining _ _ _ H S). specialize (F7 eq_refl eq_refl). unfold weight. cbn in *. lia.
    + set (cc := y :: c) in *.
      set (b1 := {| b_buf := overwrite 0 cc (b_buf b); b_r := 0; b_w := length cc; b_err := e; b_src := src' |}).
      assert (step b b1 []) as S.
      { unfold step. split.
        - split; unfold b1; cbn [b_buf b_r b_w b_err b_src]; auto; try (rewrite overwrite_length by lia); auto; try lia.
          intros X. apply (honest_full _ H5). now apply F4.
        - split; [unfold b1; cbn [b_buf]; apply overwrite_length; lia|]. split; [|split; [exact F6|]].
          + unfold pending. rewrite EW, F3. cbn [app]. f_equal.
            unfold window, b1. cbn [b_buf b_r b_w]. rewrite Nat.sub_0_r. symmetry. now apply slice_overwrite_0.
          + unfold may_report. cbn [b1 b_err b_src]. intros x [X|[X|X]]; auto. }
      destruct (serve b1 (proj1 S) ltac:(unfold buffered, b1, cc; cbn; lia)) as (S1 & S2 & S3).
      split; [exact (step_trans _ _ _ [] _ S S1)|]. split; [exact S2|]. split; [discriminate|congruence].
Qed.

Lemma weight_step b b' c : wf_reader b -> step b b' c -> (c = [] -> weight b' < weight b) -> weight b' < weight b.
Proof.
  intros H S. destruct c; [auto|]. intros _. pose proof (step_remaining _ _ _ H S) as R. cbn in R.
  destruct S as (_ & _ & _ & S & _). unfold weight. lia.
Qed.

Lemma read_all_loop_any pol f : forall i acc b, wf_reader b -> weight b < f ->
  exists x e b', read_all_loop pol f i acc b = Ok (acc ++ x, e, b') /\ step b b' x /\
  (forall y, e = Some y -> may_report b y) /\ (e = None -> may_report b EEOF).
Proof.
  induction f as [|f IH]; intros i acc b H L; [lia|]. cbn [read_all_loop].
  pose proof (buf_read_any (S (pol i (length acc))) b H ltac:(lia)) as F.
  destruct (buf_read _ b) as [[c e] b1]. destruct F as (S1 & F2 & F3 & F4).
  destruct e as [x|].
  - do 3 eexists. split; [reflexivity|]. split; [exact S1|]. specialize (F3 x eq_refl).
    unfold eof_ok. destruct x; cbn; split; intros; try discriminate; auto; congruence.
  - destruct (IH (S i) (acc ++ c) b1 (proj1 S1)) as (x & e & b' & -> & S2 & M & M').
    { pose proof (weight_step _ _ _ H S1 (F4 eq_refl)). lia. }
    exists (c ++ x), e, b'. rewrite app_assoc. split; [reflexivity|]. split; [eapply step_trans; eassumption|].
    split; intros; apply S1; auto.
Qed.

Lemma copy_loop_any pol f : forall i n acc b, wf_reader b -> weight b < f ->
  exists x e b', copy_loop pol f i n acc b = Ok (acc ++ x, e, b') /\ step b b' x /\
  (forall y, e = Some y -> may_report b y).
Proof.
  induction f as [|f IH]; intros i n acc b H L; [lia|]. cbn [copy_loop].
  destruct (Z.leb_spec n 0) as [Hn|Hn].
  { exists [], None, b. rewrite app_nil_r. split; [reflexivity|]. split; [now apply step_refl|discriminate]. }
  set (m := if (n <? Z.of_nat (S (pol i (length acc))))%Z then Z.to_nat n else S (pol i (length acc))).
  assert (0 < m) as Hm by (unfold m; destruct (Z.ltb_spec n (Z.of_nat (S (pol i (length acc))))); lia).
  pose proof (buf_read_any m b H Hm) as F.
  destruct (buf_read m b) as [[c e] b1]. destruct F as (S1 & F2 & F3 & F4).
  destruct e as [x|].
  - do 3 eexists. split; [reflexivity|]. split; [exact S1|]. intros y Y. apply F3. unfold eof_ok in Y. destruct (is_eof x); congruence.
  - destruct (IH (S i) (n - Z.of_nat (length c))%Z (acc ++ c) b1 (proj1 S1)) as (x & e & b' & -> & S2 & M).
    { pose proof (weight_step _ _ _ H S1 (F4 eq_refl)). lia. }
    exists (c ++ x), e, b'. rewrite app_assoc. split; [reflexivity|]. split; [eapply step_trans; eassumption|].
    intros; apply S1; auto.
Qed.

Lemma read_full_loop_any f : forall want acc b, wf_reader b -> weight b < f ->
  exists x e b', read_full_loop f want acc b = Ok (acc ++ x, e, b') /\ step b b' x /\
  (e = None -> length x = want) /\ 
  (forall y, e = Some y -> may_report b y \/ (y = EUnexpectedEOF /\ may_report b EEOF)).
Proof.
  induction f as [|f IH]; intros want acc b H L; [lia|]. cbn [read_full_loop].
  destruct want as [|w].
  { exists [], None, b. rewrite app_nil_r. split; [reflexivity|]. split; [now apply step_refl|]. split; [auto|discriminate]. }
  set (want := S w). pose proof (buf_read_any want b H ltac:(unfold want; lia)) as F.
  destruct (buf_read want b) as [[c e] b1]. destruct F as (S1 & F2 & F3 & F4).
  destruct e as [x|].
  - specialize (F3 x eq_refl). destruct (Nat.leb_spec want (length c)).
    + do 3 eexists. split; [reflexivity|]. split; [exact S1|]. split; [lia|discriminate].
    + destruct (negb _ && is_eof x) eqn:Q; do 3 eexists; (split; [reflexivity|]); (split; [exact S1|]); (split; [discriminate|]); intros y [= <-]; [right|now left].
      apply andb_prop in Q as [_ Q]. destruct x; try discriminate. auto.
  - destruct (IH (want - length c) (acc ++ c) b1 (proj1 S1)) as (x & e & b' & -> & S2 & N & M).
    { pose proof (weight_step _ _ _ H S1 (F4 eq_refl)). lia. }
    exists (c ++ x), e, b'. rewrite app_assoc. split; [reflexivity|]. split; [eapply step_trans; eassumption|].
    split; [intros E; specialize (N E); rewrite app_length; lia|].
    intros y Y. destruct (M y Y) as [Q|[Q1 Q2]]; [left|right; split; auto]; now apply S1.
Qed.

Lemma weight_rounds b : weight b < rounds b.
Proof. unfold weight, rounds. lia. Qed.

Lemma bufio_contract pa pc : contract (bufio_ops pa pc) wf_reader remaining.
Proof.
  split.
  - reflexivity.
  - intros d b H. cbn [rd_string bufio_ops]. unfold read_string.
    destruct (read_string_loop_any (S (S (remaining b))) d [] b H ltac:(lia)) as (x & e & b' & E & S & M & N).
    pose proof (step_remaining _ _ _ H S). exists x, e, b'. split; [exact E|]. split; [apply S|]. split; [lia|].
    intros ->. destruct N as (l & -> & _). split; [destruct l; discriminate|]. rewrite app_length in *. cbn in *. lia.
  - intros b H. destruct (read_line_any b H) as (v & e & b' & E & (x & S & N) & _).
    pose proof (step_remaining _ _ _ H S). exists v, e, b'. split; [exact E|]. split; [apply S|]. split; [lia|].
    intros Q. specialize (N Q). destruct x; [congruence|]. cbn in *. lia.
  - intros b H. cbn [rd_all bufio_ops].
    destruct (read_all_loop_any pa (rounds b) 0 [] b H (weight_rounds b)) as (x & e & b' & E & S & _).
    pose proof (step_remaining _ _ _ H S). exists x, e, b'. split; [exact E|]. split; [apply S|]. lia.
  - intros n b H. cbn [rd_full bufio_ops].
    destruct (read_full_loop_any (rounds b) n [] b H (weight_rounds b)) as (x & e & b' & E & S & N & _).
    pose proof (step_remaining _ _ _ H S). exists x, e, b'. split; [exact E|]. split; [apply S|]. split; [lia|exact N].
  - intros n b H. cbn [rd_copy bufio_ops].
    destruct (copy_loop_any pc (rounds b) 0 n [] b H (weight_rounds b)) as (x & e & b' & E & S & _).
    pose proof (step_remaining _ _ _ H S). exists x, e, b'. split; [exact E|]. split; [apply S|]. lia.
Qed.
