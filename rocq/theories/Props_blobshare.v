(** C73: who sees a write into the bytes of a blob.  BlobShare.v has arrays, slices, blobs, builders and the
    calls; every world here is one that some calls lead to. *)
From Verif Require Import Base GoStr Cid Types Nodes Reader Assemble Decode Encode Spec TreeHeap TreeHeapFacts BlobShare BlobShareFacts.
From Verif Require Builder.
Import Builder (maybe(..), verdict(..)).

(** ** Which byte of which array a call overwrites *)
Inductive overwrites (w : world) : bcall -> nat -> nat -> byte -> Prop :=
| ow_set i j v s : nth_error (w_held w) i = Some s -> j < s_len s ->
    overwrites w (BSet i j v) (s_arr s) (s_off s + j) v
| ow_append i v s : nth_error (w_held w) i = Some s -> s_off s + s_len s < length (nth (s_arr s) (w_mem w) []) ->
    overwrites w (BAppend i v) (s_arr s) (s_off s + s_len s) v.
(** The byte of index [n] of a slice is byte [x] of array [a]. *)
Definition byte_at (s : slice) (n a x : nat) : Prop := s_arr s = a /\ n < s_len s /\ s_off s + n = x.

Lemma skipn_set {A} (v : A) l : forall o i, skipn o (set_nth i v l) = if i <? o then skipn o l else set_nth (i - o) v (skipn o l).
Proof.
  induction l as [|y l IH]; intros [|o] [|i]; try reflexivity; cbn [set_nth skipn].
  - destruct (S i <? S o); [reflexivity|]. now destruct (S i - S o).
  - rewrite IH. reflexivity.
Qed.
Lemma firstn_set {A} (v : A) l : forall n i, firstn n (set_nth i v l) = set_nth i v (firstn n l).
Proof. induction l as [|y l IH]; intros [|n] [|i]; cbn; try reflexivity. now rewrite IH. Qed.
Lemma set_nth_over {A} (v : A) l : forall i, length l <= i -> set_nth i v l = l.
Proof. induction l as [|y l IH]; intros [|i] H; cbn in *; try reflexivity; try lia. now rewrite IH by lia. Qed.
Lemma window_set mem s a x v : fits mem s ->
  (forall n, byte_at s n a x -> window (set_nth a (set_nth x v (nth a mem [])) mem) s = set_nth n v (window mem s)) /\
  ((forall n, ~ byte_at s n a x) -> window (set_nth a (set_nth x v (nth a mem [])) mem) s = window mem s).
Proof.
  intros [F1 F2]. unfold window, byte_at. rewrite nth_set_nth. split.
  - intros n (<- & L & <-). rewrite Nat.eqb_refl. destruct (Nat.ltb_spec (s_arr s) (length mem)); [|lia]. cbn [andb].
    rewrite skipn_set. destruct (Nat.ltb_spec (s_off s + n) (s_off s)); [lia|]. rewrite firstn_set. f_equal. lia.
  - intros N. destruct (Nat.eqb_spec (s_arr s) a) as [E|E]; cbn [andb]; [|reflexivity]. subst a.
    destruct (Nat.ltb_spec (s_arr s) (length mem)); [|reflexivity]. rewrite skipn_set. destruct (Nat.ltb_spec x (s_off s)); [reflexivity|].
    rewrite firstn_set. apply set_nth_over. rewrite firstn_length. destruct (Nat.lt_ge_cases (x - s_off s) (s_len s)); [|lia].
    destruct (N (x - s_off s)). repeat split; lia.
Qed.
Lemma window_app mem b s : fits mem s -> window (mem ++ [b]) s = window mem s.
Proof. intros [F _]. unfold window. now rewrite app_nth1. Qed.
Lemma give_mem k s w : w_mem (snd (give k s w)) = w_mem w.
Proof. unfold give. destruct (nth_error (w_bld w) k) as [[p m]|]; [destruct m|]; reflexivity. Qed.

(** One call: the bytes of a slice [s] change if the call overwrites one of them. *)
Lemma step_window B spare c w s : fits (w_mem w) s ->
  (forall a x v n, overwrites w c a x v -> byte_at s n a x -> window (w_mem (snd (bstep B spare c w))) s = set_nth n v (window (w_mem w) s)) /\
  ((forall a x v n, overwrites w c a x v -> ~ byte_at s n a x) -> window (w_mem (snd (bstep B spare c w))) s = window (w_mem w) s).
Proof.
  intros F. destruct w as [mem cells bld held known]. cbn [w_mem] in *. split.
  - intros a x v n H Hb. destruct H as [i j v t Hi Hj|i v t Hi Hc]; cbn [w_held w_mem bstep] in *; cbv zeta; rewrite Hi.
    + destruct (Nat.ltb_spec j (s_len t)); [|lia]. cbn [snd w_mem]. now apply window_set.
    + destruct (Nat.ltb_spec (s_off t + s_len t) (length (nth (s_arr t) mem []))); [|lia]. cbn [snd w_mem]. now apply window_set.
  - intros N. destruct c; cbn [bstep]; cbv zeta.
    + cbn. now apply window_app.
    + destruct (nth_error held i) as [t|]; [|reflexivity]. now destruct (_ && _).
    + destruct (nth_error held i) as [t|] eqn:E; [|reflexivity]. destruct (Nat.ltb_spec j (s_len t)); [|reflexivity]. cbn [snd w_mem].
      apply window_set; [exact F|]. intros n. apply (N _ _ v). now constructor.
    + destruct (nth_error held i) as [t|] eqn:E; [|reflexivity]. destruct (Nat.ltb_spec (s_off t + s_len t) (length (nth (s_arr t) mem []))); cbn [snd w_mem].
      * apply window_set; [exact F|]. intros n. apply (N _ _ v). now constructor.
      * now apply window_app.
    + now destruct (nth_error held i).
    + now destruct (nth_error known p).
    + now destruct (nth_error known p).
    + destruct (nth_error held i) as [t|]; [|reflexivity]. destruct (parse_object_from_buffer B (window mem t)) as [n| | |]; try reflexivity.
      destruct n; try reflexivity. now apply window_app.
    + reflexivity.
    + now destruct (nth_error bld k).
    + destruct (nth_error held i) as [t|]; [|reflexivity]. now rewrite give_mem.
    + destruct (nth_error known p) as [t|]; [|reflexivity]. now rewrite give_mem.
    + destruct (nth_error bld k) as [[q m]|]; [destruct m|]; reflexivity.
    + destruct (nth_error held i) as [t|]; [|reflexivity]. destruct (decode_into _ BBlob _) as [n| | |]; try reflexivity.
      destruct n; try reflexivity. rewrite give_mem. now apply window_app.
    + destruct (nth_error bld k) as [[q m]|]; [destruct m|]; reflexivity.
Qed.

Lemma run_wf B spare cs : wf (brun B spare cs start).
Proof. apply brun_wf, start_wf. Qed.

(** A blob that a client knows changes with a call exactly if the call overwrites one of its bytes, and
    then in that byte. *)
Theorem exactly_these_calls_change_a_blob : forall B spare before c p,
  let w := brun B spare before start in
  let w' := snd (bstep B spare c w) in
  In p (w_known w) ->
  (forall a x v n, overwrites w c a x v -> byte_at (cell_of w p) n a x -> content w' p = set_nth n v (content w p)) /\
  ((forall a x v n, overwrites w c a x v -> ~ byte_at (cell_of w p) n a x) -> content w' p = content w p).
Proof.
  intros B spare before c p w w' K. pose proof (run_wf B spare before : wf w) as H.
  destruct (wf_known _ H p K) as [L N]. destruct (l_cell _ _ (bstep_later B spare c w H) p L N) as [E _]. fold w' in E.
  unfold content. rewrite E. apply (step_window B spare c w _ (cell_fits w p H)).
Qed.
Print Assumptions exactly_these_calls_change_a_blob.

(** ** Blobs that share their bytes *)
Lemma later_done B spare after w p : wf w -> p < length (w_cells w) -> ~ In (p, MAbsent) (w_bld w) -> cell_of (brun B spare after w) p = cell_of w p.
Proof. intros H L N. now apply (brun_later B spare after w H). Qed.
Lemma give_ok k s w w1 : wf w -> give k s w = (OK, w1) ->
  exists q, nth_error (w_bld w1) k = Some (q, MValue) /\ cell_of w1 q = s /\ q < length (w_cells w1) /\ ~ In (q, MAbsent) (w_bld w1) /\
    w_mem w1 = w_mem w /\ w_held w1 = w_held w /\ w_known w1 = w_known w /\ (forall p, p < length (w_cells w) -> ~ In (p, MAbsent) (w_bld w) -> cell_of w1 p = cell_of w p).
Proof.
  intros H E. pose proof (give_later k s w H) as L. rewrite E in L. cbn [snd] in L. unfold give in E. destruct (nth_error (w_bld w) k) as [[q m]|] eqn:Eb; [|discriminate]. destruct m; try discriminate.
  injection E as <-. exists q. cbn [w_bld w_cells w_mem w_held w_known]. pose proof (nth_error_In _ _ Eb) as I. pose proof (wf_bld _ H _ _ I) as Lq.
  split. { apply nth_set_same. apply nth_error_Some. congruence. }
  split. { unfold cell_of. cbn. rewrite nth_set_nth, Nat.eqb_refl. destruct (Nat.ltb_spec q (length (w_cells w))); [reflexivity|lia]. }
  split. { now rewrite set_nth_length. }
  split. { intros Q. eapply in_set_other in Q; [|apply (wf_one _ H)|exact Eb|discriminate]. destruct Q. congruence. }
  repeat split. intros p Lp Np. now apply L.
Qed.

(** The blob that AssignNode of a blob makes, and the one it was given, have the same bytes whatever
    happens afterwards. *)
Theorem copied_blobs_stay_alike : forall B spare before k j p w1,
  let w := brun B spare before start in
  nth_error (w_known w) j = Some p -> bstep B spare (BAssignBlob k j) w = (OK, w1) ->
  exists q, nth_error (w_bld w1) k = Some (q, MValue) /\
    forall after, content (brun B spare after w1) q = content (brun B spare after w1) p.
Proof.
  intros B spare before k j p w1 w K E. pose proof (run_wf B spare before : wf w) as H. pose proof (bstep_wf B spare (BAssignBlob k j) w H) as H1. rewrite E in H1. cbn [snd] in H1.
  destruct (wf_known _ H p (nth_error_In _ _ K)) as [Lp Np].
  pose proof (bstep_later B spare (BAssignBlob k j) w H) as L. rewrite E in L. cbn [snd] in L. destruct (l_cell _ _ L p Lp Np) as (Ep & Lp1 & Np1).
  assert (G : give k (cell_of w p) w = (OK, w1)). { destruct w as [mem cells bld held known]. cbn [bstep w_known] in *. now rewrite K in E. }
  destruct (give_ok _ _ _ _ H G) as (q & Q1 & Q2 & Q3 & Q4 & _). exists q. split; [exact Q1|]. intros after. unfold content.
  rewrite (later_done B spare after w1 q H1 Q3 Q4), (later_done B spare after w1 p H1 Lp1 Np1). congruence.
Qed.
Print Assumptions copied_blobs_stay_alike.

(** The slice given to FromBytes or AssignBytes, and the one AsBytes, Bytes and Encode give out, are the
    bytes of the blob for ever. *)
Theorem given_bytes_are_shared : forall B spare before i s w1,
  let w := brun B spare before start in
  nth_error (w_held w) i = Some s ->
  (bstep B spare (BFromBytes i) w = (OK, w1) ->
     exists p, w_known w1 = w_known w ++ [p] /\ forall after, content (brun B spare after w1) p = window (w_mem (brun B spare after w1)) s) /\
  (forall k, bstep B spare (BAssignBytes k i) w = (OK, w1) ->
     exists p, nth_error (w_bld w1) k = Some (p, MValue) /\ forall after, content (brun B spare after w1) p = window (w_mem (brun B spare after w1)) s).
Proof.
  intros B spare before i s w1 w K. pose proof (run_wf B spare before : wf w) as H. split; [intros E|intros k E].
  - pose proof (bstep_wf B spare (BFromBytes i) w H) as H1. rewrite E in H1. cbn [snd] in H1. destruct w as [mem cells bld held known]. cbn [bstep w_held w_known] in *. rewrite K in E. injection E as <-.
    exists (length cells). split; [reflexivity|]. intros after. unfold content. rewrite later_done; [|exact H1|cbn; rewrite app_length; cbn; lia|].
    + unfold cell_of. cbn. rewrite app_nth2, Nat.sub_diag by lia. reflexivity.
    + apply (wf_known _ H1). cbn. apply in_or_app. right. now left.
  - pose proof (bstep_wf B spare (BAssignBytes k i) w H) as H1. rewrite E in H1. cbn [snd] in H1.
    assert (G : give k s w = (OK, w1)). { destruct w as [mem cells bld held known]. cbn [bstep w_held] in *. now rewrite K in E. }
    destruct (give_ok _ _ _ _ H G) as (q & Q1 & Q2 & Q3 & Q4 & _). exists q. split; [exact Q1|]. intros after. unfold content. rewrite later_done by assumption. now rewrite Q2.
Qed.
Print Assumptions given_bytes_are_shared.

Theorem asked_bytes_are_shared : forall B spare before j p w1 c,
  let w := brun B spare before start in
  nth_error (w_known w) j = Some p -> c = BAsBytes j \/ c = BEncode j -> bstep B spare c w = (OK, w1) ->
  exists s, w_held w1 = w_held w ++ [s] /\ forall after, content (brun B spare after w1) p = window (w_mem (brun B spare after w1)) s.
Proof.
  intros B spare before j p w1 c w K C E. pose proof (run_wf B spare before : wf w) as H. pose proof (bstep_wf B spare c w H) as H1. pose proof (bstep_later B spare c w H) as L. rewrite E in H1, L. cbn [snd] in H1, L.
  destruct (wf_known _ H p (nth_error_In _ _ K)) as [Lp Np]. destruct (l_cell _ _ L p Lp Np) as (Ep & Lp1 & Np1).
  exists (cell_of w p). split.
  - destruct w as [mem cells bld held known]. cbn [w_known w_held] in *. destruct C as [-> | ->]; cbn [bstep] in E; rewrite K in E; injection E as <-; reflexivity.
  - intros after. unfold content. rewrite later_done by assumption. now rewrite Ep.
Qed.
Print Assumptions asked_bytes_are_shared.

(** ** Blobs that nobody has the bytes of *)
(** Among the calls [cs], which lead to [w], one asked for the bytes of [p], or of a blob that has the same
    array as [p]. *)
Definition asked (cs : list bcall) (w : world) (p : nat) : Prop :=
  exists j q, (In (BAsBytes j) cs \/ In (BEncode j) cs) /\ nth_error (w_known w) j = Some q /\ s_arr (cell_of w q) = s_arr (cell_of w p).

(** No slice in the client's hands is on array [a]. *)
Definition apart (a : nat) (w : world) : Prop := a < length (w_mem w) /\ forall s, In s (w_held w) -> s_arr s <> a.

Lemma give_apart a k s w : apart a w -> apart a (snd (give k s w)).
Proof. intros [L H]. unfold give. destruct (nth_error (w_bld w) k) as [[p m]|]; [destruct m|]; split; cbn; auto. Qed.
Lemma step_apart B spare a c w : apart a w ->
  (forall j q, c = BAsBytes j \/ c = BEncode j -> nth_error (w_known w) j = Some q -> s_arr (cell_of w q) <> a) ->
  apart a (snd (bstep B spare c w)).
Proof.
  intros [L H] A. destruct w as [mem cells bld held known]. cbn [w_mem w_held w_known] in *.
  assert (LA : forall b, a < length (mem ++ [b])) by (intros; rewrite app_length; lia).
  assert (Add : forall t, s_arr t <> a -> forall s, In s (held ++ [t]) -> s_arr s <> a).
  { intros t N s I. apply in_app_or in I as [I|[<-|[]]]; auto. }
  assert (HI : forall i s, nth_error held i = Some s -> s_arr s <> a) by (intros i s E; eapply H, nth_error_In, E).
  destruct c; cbn [bstep]; cbv zeta.
  - split; cbn; [apply LA|]. apply Add. cbn. lia.
  - destruct (nth_error held i) as [t|] eqn:E; [|now split]. destruct (_ && _); [|now split]. split; cbn; [assumption|]. apply Add. cbn. eauto.
  - destruct (nth_error held i) as [t|] eqn:E; [|now split]. destruct (_ <? _); [|now split]. split; cbn; [now rewrite set_nth_length|assumption].
  - destruct (nth_error held i) as [t|] eqn:E; [|now split]. destruct (_ <? _); split; cbn; [now rewrite set_nth_length|apply Add; cbn; eauto|apply LA|apply Add; cbn; lia].
  - destruct (nth_error held i) as [t|] eqn:E; now split.
  - destruct (nth_error known p) as [q|] eqn:E; [|now split]. split; cbn [snd w_mem w_held]; [assumption|]. apply Add. apply (A p q); auto.
  - destruct (nth_error known p) as [q|] eqn:E; [|now split]. split; cbn [snd w_mem w_held]; [assumption|]. apply Add. apply (A p q); auto.
  - destruct (nth_error held i) as [t|] eqn:E; [|now split]. destruct (parse_object_from_buffer B (window mem t)) as [n| | |]; try now split.
    destruct n; try now split. split; cbn; [apply LA|assumption].
  - now split.
  - destruct (nth_error bld k); now split.
  - destruct (nth_error held i) as [t|] eqn:E; [|now split]. apply give_apart. now split.
  - destruct (nth_error known p) as [t|] eqn:E; [|now split]. apply give_apart. now split.
  - destruct (nth_error bld k) as [[q m]|]; [destruct m|]; now split.
  - destruct (nth_error held i) as [t|] eqn:E; [|now split]. destruct (decode_into _ BBlob _) as [n| | |]; try now split.
    destruct n; try now split. apply give_apart. split; cbn; [apply LA|assumption].
  - destruct (nth_error bld k) as [[q m]|]; [destruct m|]; now split.
Qed.
Lemma overwrites_held w c a x v : overwrites w c a x v -> exists s, In s (w_held w) /\ s_arr s = a.
Proof. intros [i j u s Hi _|i u s Hi _]; exists s; split; eauto using nth_error_In. Qed.

Lemma apart_run B spare after : forall w p, wf w -> p < length (w_cells w) -> ~ In (p, MAbsent) (w_bld w) ->
  apart (s_arr (cell_of w p)) w -> ~ asked after (brun B spare after w) p -> content (brun B spare after w) p = content w p.
Proof.
  induction after as [|c after IH]; intros w p H L N Ap NA; [reflexivity|]. cbn [brun] in *. set (w1 := snd (bstep B spare c w)) in *.
  pose proof (bstep_wf B spare c w H : wf w1) as H1. pose proof (bstep_later B spare c w H : later w w1) as La. destruct (l_cell _ _ La p L N) as (E & L1 & N1).
  pose proof (brun_later B spare after w1 H1) as La2. destruct (l_cell _ _ La2 p L1 N1) as (E2 & _).
  rewrite (IH w1 p H1 L1 N1).
  - unfold content. rewrite E. apply (step_window B spare c w _ (cell_fits w p H)). intros a x v n O (Q & _). apply overwrites_held in O as (s & I & <-). exact (proj2 Ap s I (eq_sym Q)).
  - rewrite E. apply step_apart; [exact Ap|]. intros j q C K Q. apply NA. exists j, q.
    destruct (wf_known _ H q (nth_error_In _ _ K)) as [Lq Nq]. destruct (l_cell _ _ La q Lq Nq) as (Eq & Lq1 & Nq1). destruct (l_cell _ _ La2 q Lq1 Nq1) as (Eq2 & _).
    split; [destruct C as [-> | ->]; cbn; auto|]. split; [|congruence].
    destruct (l_known _ _ La2) as [y Y]. destruct (l_known _ _ La) as [y' Y']. rewrite Y, Y'. rewrite nth_error_app1; [rewrite nth_error_app1; [exact K|]|]; [|rewrite app_length]; (assert (j < length (w_known w)) by (apply nth_error_Some; congruence); lia).
  - intros (j & q & C & K). apply NA. exists j, q. split; [|exact K]. destruct C; cbn; auto.
Qed.

(** A blob that shares its array with no slice a client has, and whose bytes are not asked for, never changes. *)
Theorem unasked_blobs_never_change : forall B spare before after p,
  let w := brun B spare before start in
  let w2 := brun B spare after w in
  In p (w_known w) -> (forall s, In s (w_held w) -> s_arr s <> s_arr (cell_of w p)) -> ~ asked after w2 p ->
  content w2 p = content w p.
Proof.
  intros B spare before after p w w2 K A NA. pose proof (run_wf B spare before : wf w) as H. destruct (wf_known _ H p K) as [L N].
  apply apart_run; auto. split; [apply (cell_fits w p H)|exact A].
Qed.
Print Assumptions unasked_blobs_never_change.

(** So it is with every blob that ParseObjectFromBuffer or Decode has read: its bytes are its own, not those
    of the input, and it stays what was read until its bytes are asked for. *)
Theorem decoded_blobs_have_their_own_bytes : forall B spare before i s b w1,
  let w := brun B spare before start in
  nth_error (w_held w) i = Some s ->
  (parse_object_from_buffer B (window (w_mem w) s) = Ok (NBlob b) -> bstep B spare (BParse i) w = (OK, w1) ->
     exists p, w_known w1 = w_known w ++ [p] /\
       forall after, ~ asked after (brun B spare after w1) p ->
         content (brun B spare after w1) p = b /\
         (forall j, nth_error (w_known (brun B spare after w1)) j = Some p -> written (BEncode j) (brun B spare after w1) = Some b)) /\
  (forall k, decode_into (stream_ops B) BBlob (mk (window (w_mem w) s) EEOF) = Ok (NBlob b) -> bstep B spare (BDecode k i) w = (OK, w1) ->
     exists p, nth_error (w_bld w1) k = Some (p, MValue) /\
       forall after, ~ asked after (brun B spare after w1) p -> content (brun B spare after w1) p = b).
Proof.
  intros B spare before i s b w1 w K. pose proof (run_wf B spare before : wf w) as H.
  assert (New : forall mem, window (mem ++ [new_array spare b]) (Sl (length mem) 0 (length b)) = b).
  { intros mem. unfold window, new_array. cbn. rewrite app_nth2, Nat.sub_diag by lia. cbn. rewrite firstn_app, firstn_all, Nat.sub_diag. apply app_nil_r. }
  assert (Old : forall s, In s (w_held w) -> s_arr s <> length (w_mem w)).
  { intros t I Q. destruct (wf_held _ H t I). lia. }
  split; [intros P E|intros k P E].
  - pose proof (bstep_wf B spare (BParse i) w H) as H1. rewrite E in H1. cbn [snd] in H1. destruct w as [mem cells bld held known]. cbn [bstep w_held w_known w_mem] in *. rewrite K, P in E. injection E as <-.
    exists (length cells). split; [reflexivity|]. intros after NA.
    set (w1 := W (mem ++ [new_array spare b]) (cells ++ [Sl (length mem) 0 (length b)]) bld held (known ++ [length cells])) in *. assert (C : cell_of w1 (length cells) = Sl (length mem) 0 (length b)). { unfold cell_of, w1. cbn. now rewrite app_nth2, Nat.sub_diag by lia. }
    assert (Q : content (brun B spare after w1) (length cells) = b).
    { rewrite apart_run; auto.
      - unfold content. rewrite C. apply New.
      - cbn. rewrite app_length. cbn. lia.
      - apply (wf_known _ H1). cbn. apply in_or_app. right. now left.
      - rewrite C. split; cbn; [rewrite app_length; cbn; lia|exact Old]. }
    split; [exact Q|]. intros j Kj. unfold written. rewrite Kj. now f_equal.
  - pose proof (bstep_wf B spare (BDecode k i) w H) as H1. rewrite E in H1. cbn [snd] in H1. destruct w as [mem cells bld held known]. cbn [bstep w_held w_known w_mem] in *. rewrite K, P in E.
    assert (H0 : wf (W (mem ++ [new_array spare b]) cells bld held known)). { destruct H. split; cbn in *; auto using fits_app. rewrite app_length. lia. }
    destruct (give_ok _ _ _ _ H0 E) as (q & Q1 & Q2 & Q3 & Q4 & Qm & Qh & _). exists q. split; [exact Q1|]. intros after NA.
    rewrite apart_run; auto.
    + unfold content. rewrite Q2, Qm. apply New.
    + rewrite Q2. split; cbn [s_arr]; [rewrite Qm; cbn; rewrite app_length; cbn; lia|]. rewrite Qh. exact Old.
Qed.
Print Assumptions decoded_blobs_have_their_own_bytes.

(** ** What is not so *)
(** A blob is read, its bytes are asked for and the first is overwritten: the blob that nobody called is
    now written as something that is no git object. *)
Definition read_and_ask : list bcall := [BMake (bs "blob 2" ++ [NUL] ++ bs "hi"); BParse 0; BAsBytes 0].
Definition spoil : list bcall := [BSet 1 0 x78].
Theorem blobs_keep_their_bytes_refuted :
  ~ (forall B spare before after p, In p (w_known (brun B spare before start)) ->
       content (brun B spare after (brun B spare before start)) p = content (brun B spare before start) p).
Proof. intros X. specialize (X 64 (fun _ => 3) read_and_ask spoil 0 ltac:(vm_compute; auto)). vm_compute in X. discriminate. Qed.
Print Assumptions blobs_keep_their_bytes_refuted.

Example spoilt_blob :
  let w := brun 64 (fun _ => 3) (read_and_ask ++ spoil) start in
  content w 0 = bs "xlob 2" ++ [NUL] ++ bs "hi" /\
  parse_object_from_buffer 64 (content w 0) = Err (EUnknownType (bs "xlob")).
Proof. split; vm_compute; reflexivity. Qed.

(** ** The hypotheses can be met *)
(** A blob is read; its input is overwritten; a builder is given the blob, and the builder's blob is asked. *)
Definition history : list bcall :=
  [BMake (bs "blob 2" ++ [NUL] ++ bs "hi"); BParse 0; BSet 0 7 x78; BNew; BAssignBlob 0 0; BBuild 0].
Example exactly_these_example :
  let w := brun 64 (fun _ => 3) (history ++ [BAsBytes 1]) start in
  In 0 (w_known w) /\ overwrites w (BSet 1 8 x79) 2 8 x79 /\ byte_at (cell_of w 0) 8 2 8 /\
  content w 0 = bs "blob 2" ++ [NUL] ++ bs "hi" /\
  content (snd (bstep 64 (fun _ => 3) (BSet 1 8 x79) w)) 0 = bs "blob 2" ++ [NUL] ++ bs "hy".
Proof.
  split; [vm_compute; auto|]. split.
  - apply (ow_set _ 1 8 x79 (Sl 2 0 9)); [vm_compute; reflexivity|cbn; lia].
  - split; [repeat split; vm_compute; try reflexivity; lia|]. split; vm_compute; reflexivity.
Qed.
Example copied_example : exists w1,
  nth_error (w_known (brun 64 (fun _ => 3) (firstn 4 history) start)) 0 = Some 0 /\
  bstep 64 (fun _ => 3) (BAssignBlob 0 0) (brun 64 (fun _ => 3) (firstn 4 history) start) = (OK, w1) /\
  content (brun 64 (fun _ => 3) [BBuild 0; BAsBytes 0; BSet 1 0 x78] w1) 1 = bs "xlob 2" ++ [NUL] ++ bs "hi".
Proof. eexists. split; [vm_compute; reflexivity|]. split; vm_compute; reflexivity. Qed.
Example given_example : exists w1 w2,
  nth_error (w_held (brun 64 (fun _ => 3) [BMake (bs "data"); BNew] start)) 0 = Some (Sl 1 0 4) /\
  bstep 64 (fun _ => 3) (BFromBytes 0) (brun 64 (fun _ => 3) [BMake (bs "data"); BNew] start) = (OK, w1) /\
  bstep 64 (fun _ => 3) (BAssignBytes 0 0) (brun 64 (fun _ => 3) [BMake (bs "data"); BNew] start) = (OK, w2).
Proof. do 2 eexists. repeat split; vm_compute; reflexivity. Qed.
Example asked_example : exists w1,
  nth_error (w_known (brun 64 (fun _ => 3) history start)) 1 = Some 1 /\
  bstep 64 (fun _ => 3) (BEncode 1) (brun 64 (fun _ => 3) history start) = (OK, w1) /\
  written (BEncode 1) (brun 64 (fun _ => 3) history start) = Some (bs "blob 2" ++ [NUL] ++ bs "hi").
Proof. eexists. repeat split; vm_compute; reflexivity. Qed.
Example unasked_example :
  let w := brun 64 (fun _ => 3) (firstn 2 history) start in
  In 0 (w_known w) /\ (forall s, In s (w_held w) -> s_arr s <> s_arr (cell_of w 0)) /\
  ~ asked (skipn 2 history) (brun 64 (fun _ => 3) (skipn 2 history) w) 0.
Proof.
  split; [vm_compute; auto|]. split.
  - intros s I. vm_compute in I. destruct I as [<-|[]]. discriminate.
  - intros (j & q & [I|I] & _); cbn in I; intuition discriminate.
Qed.
Example decoded_example : exists w1 w2,
  let w := brun 64 (fun _ => 3) [BMake (bs "blob 2" ++ [NUL] ++ bs "hi"); BNew] start in
  nth_error (w_held w) 0 = Some (Sl 1 0 9) /\
  parse_object_from_buffer 64 (window (w_mem w) (Sl 1 0 9)) = Ok (NBlob (bs "blob 2" ++ [NUL] ++ bs "hi")) /\
  bstep 64 (fun _ => 3) (BParse 0) w = (OK, w1) /\
  decode_into (stream_ops 64) BBlob (mk (window (w_mem w) (Sl 1 0 9)) EEOF) = Ok (NBlob (bs "blob 2" ++ [NUL] ++ bs "hi")) /\
  bstep 64 (fun _ => 3) (BDecode 0 0) w = (OK, w2).
Proof. do 2 eexists. repeat split; vm_compute; reflexivity. Qed.
