(** What a builder that was given a tree can do to it. *)
From Verif Require Import Base GoStr Cid Types Nodes Reader Assemble Decode TreeHeap TreeHeapFacts TreeShare.
From Verif Require Builder.
Import Builder (maybe(..), mstate(..), verdict(..)).

(** ** Slices and memory *)
Lemma store_length mem p c : length (store mem p c) = length mem.
Proof. unfold store. destruct (nth_error mem (fst p)); [apply set_nth_length|reflexivity]. Qed.

Lemma nth_err {A} (l : list A) i d : nth i l d = match nth_error l i with Some x => x | None => d end.
Proof. revert i; induction l as [|x l IH]; intros [|i]; cbn; auto. Qed.

Lemma store_array mem p c j : fst p <> j -> nth j (store mem p c) [] = nth j mem [].
Proof.
  intros N. unfold store. destruct (nth_error mem (fst p)) as [a|] eqn:E; [|reflexivity].
  rewrite !nth_err, nth_set_other by exact N. reflexivity.
Qed.

Lemma store_array_same mem p c a : nth_error mem (fst p) = Some a ->
  nth (fst p) (store mem p c) [] = set_nth (snd p) c a.
Proof.
  intros E. unfold store. rewrite E, nth_err, nth_set_same; [reflexivity|]. apply nth_error_Some. congruence.
Qed.

Lemma store_cap mem p c s : sl_cap (store mem p c) s = sl_cap mem s.
Proof.
  unfold sl_cap. destruct (Nat.eq_dec (fst p) (sl_array s)) as [E|N]; [|now rewrite store_array].
  rewrite <- E. destruct (nth_error mem (fst p)) as [a|] eqn:Ea.
  - rewrite (store_array_same _ _ _ _ Ea), set_nth_length, nth_err, Ea. reflexivity.
  - unfold store. now rewrite Ea.
Qed.

Lemma load_cells mem s i : i < sl_len s -> nth_error (sl_cells mem s) i = load mem (sl_array s, i).
Proof.
  intros Hi. unfold sl_cells, load. cbn [fst snd]. rewrite nth_err.
  destruct (nth_error mem (sl_array s)) as [a|]; [|now rewrite firstn_nil; destruct i].
  revert i Hi. generalize (sl_len s) as n. induction a as [|x a IH]; intros [|n] [|i] Hi; cbn; try lia; auto.
  apply IH. lia.
Qed.

Lemma cells_length mem s : sl_len s <= sl_cap mem s -> length (sl_cells mem s) = sl_len s.
Proof. intros Hc. unfold sl_cells. rewrite firstn_length. unfold sl_cap in Hc. lia. Qed.

Lemma ext_nth {A} (l l' : list A) : (forall i, nth_error l i = nth_error l' i) -> l = l'.
Proof.
  revert l'. induction l as [|x l IH]; intros [|y l'] E; auto; try (specialize (E 0); discriminate).
  f_equal; [specialize (E 0); cbn in E; congruence|]. apply IH. intros i. exact (E (S i)).
Qed.

Lemma nth_over {A} (l : list A) i : length l <= i -> nth_error l i = None.
Proof. apply nth_error_None. Qed.

Lemma cells_same mem mem' s : (forall i, i < sl_len s -> load mem' (sl_array s, i) = load mem (sl_array s, i)) ->
  sl_cells mem' s = sl_cells mem s.
Proof.
  intros E. apply ext_nth. intros i. destruct (Nat.lt_ge_cases i (sl_len s)) as [L|L].
  - rewrite !load_cells by exact L. now apply E.
  - rewrite !nth_over; [reflexivity| |]; unfold sl_cells; rewrite firstn_length; lia.
Qed.

Lemma names_same mem mem' s :
  (forall i, i < sl_len s -> option_map fst (load mem' (sl_array s, i)) = option_map fst (load mem (sl_array s, i))) ->
  map fst (sl_cells mem' s) = map fst (sl_cells mem s).
Proof.
  intros E. apply ext_nth. intros i. rewrite !nth_error_map. destruct (Nat.lt_ge_cases i (sl_len s)) as [L|L].
  - rewrite !load_cells by exact L. exact (E i L).
  - rewrite !nth_over; [reflexivity| |]; unfold sl_cells; rewrite firstn_length; lia.
Qed.

(** Appending *)
Section Append.
Variables (grow : nat -> nat) (mem : memory) (s : tslice) (c : cell) (mem' : memory) (s' : tslice).
Hypothesis fits : sl_len s <= sl_cap mem s.
Hypothesis there : sl_array s < length mem.
Hypothesis E : h_append grow mem s c = (mem', s').

Lemma append_len : sl_len s' = S (sl_len s).
Proof using E. clear fits there. unfold h_append in E. destruct (sl_len s <? sl_cap mem s); injection E as <- <-; reflexivity. Qed.

Lemma append_array : sl_array s' = sl_array s /\ length mem' = length mem \/
                     sl_array s' = length mem /\ length mem' = S (length mem).
Proof using E. clear fits there.
  unfold h_append in E. destruct (sl_len s <? sl_cap mem s); injection E as <- <-; cbn.
  - left. now rewrite store_length.
  - right. rewrite app_length. cbn. lia.
Qed.

Lemma append_cells : sl_cells mem' s' = sl_cells mem s ++ [c].
Proof.
  unfold h_append in E. destruct (Nat.ltb_spec (sl_len s) (sl_cap mem s)) as [Hl|Hl]; injection E as <- <-; unfold sl_cells; cbn [sl_array sl_len].
  - pose proof (nth_lt mem (sl_array s) [] there) as Na. rewrite (store_array_same mem (sl_array s, sl_len s) c _ Na : nth (sl_array s) _ _ = _). cbn [snd]. rewrite firstn_set_nth by exact Hl. reflexivity.
  - rewrite app_nth2, Nat.sub_diag by lia. cbn [nth]. pose proof (cells_length mem s fits) as Le. unfold sl_cells in Le.
    replace (S (sl_len s)) with (length (firstn (sl_len s) (nth (sl_array s) mem []) ++ [c])) by (rewrite app_length, Le; cbn; lia).
    change (c :: repeat zero_cell (grow (sl_len s))) with ([c] ++ repeat zero_cell (grow (sl_len s))). rewrite app_assoc, firstn_app, Nat.sub_diag, firstn_all. cbn. now rewrite app_nil_r.
Qed.

Lemma append_fits : sl_len s' <= sl_cap mem' s'.
Proof.
  pose proof append_cells as C. apply (f_equal (@length _)) in C. rewrite app_length, (cells_length mem s fits) in C.
  unfold sl_cells in C. rewrite firstn_length in C. cbn in C. rewrite append_len. unfold sl_cap. rewrite append_len in C. lia.
Qed.

Lemma append_there : sl_array s' < length mem'.
Proof. destruct append_array as [[-> ->]|[-> ->]]; lia. Qed.

Lemma append_load q : fst q < length mem -> (fst q = sl_array s -> snd q < sl_len s) -> load mem' q = load mem q.
Proof using E. clear fits there.
  intros Hq Hs. unfold h_append in E. destruct (sl_len s <? sl_cap mem s); injection E as <- <-.
  - apply load_store_other. intros <-. cbn in Hs. specialize (Hs eq_refl). lia.
  - now apply load_grown.
Qed.

Lemma append_grows : sl_cap mem s <= sl_len s ->
  sl_array s' = length mem /\ forall q, fst q < length mem -> load mem' q = load mem q.
Proof using E. clear fits there.
  intros Hc. unfold h_append in E. destruct (Nat.ltb_spec (sl_len s) (sl_cap mem s)); [lia|]. injection E as <- <-. cbn.
  split; [reflexivity|]. intros q Hq. now apply load_grown.
Qed.
End Append.

Lemma go_on_same b b' : go_on b = Some b' ->
  b_hd b' = b_hd b /\ b_m b' = b_m b /\ b_ka b' = b_ka b /\ b_st b' = Initial /\ b_st b <> MidKey /\
  (b_va b' = b_va b \/ b_va b' = None).
Proof.
  unfold go_on. destruct (b_st b) eqn:Es, (b_cm b) eqn:Ec; intros E; try discriminate; injection E as <-; cbn; repeat split; auto; discriminate.
Qed.

(** ** Before the tree is given *)
Section Before.
Variables (grow : nat -> nat) (mem0 : memory) (ms0 : maps).
Hypothesis nil_array : nth 0 mem0 [] = [].
Hypothesis nonempty : 0 < length mem0.
Notation n0 := (length mem0).

Record young (b : tb) (mem : memory) (ms : maps) : Prop := {
  y_len : n0 <= length mem;
  y_old : forall q, fst q < n0 -> load mem q = load mem0 q;
  y_nil : nth 0 mem [] = [];
  y_maps : ms = ms0;
  y_map : hd_m (b_hd b) = None;
  y_fits : sl_len (hd_t (b_hd b)) <= sl_cap mem (hd_t (b_hd b));
  y_there : sl_array (hd_t (b_hd b)) < length mem;
  y_slice : hd_t (b_hd b) = hd_t zero_header \/ n0 <= sl_array (hd_t (b_hd b));
  y_ka : forall p, b_ka b = Some p -> b_st b = MidKey /\ n0 <= fst p /\ fst p < length mem;
  y_va : b_va b = None
}.

Lemma young_append b mem ms c mem' s : young b mem ms ->
  h_append grow mem (hd_t (b_hd b)) c = (mem', s) ->
  n0 <= length mem' /\ (forall q, fst q < n0 -> load mem' q = load mem0 q) /\ nth 0 mem' [] = [] /\
  sl_len s <= sl_cap mem' s /\ sl_array s < length mem' /\ n0 <= sl_array s.
Proof.
  intros [Y1 Y2 Yn Y3 Y4 Y5 Y6 Y7 Y8 Y9] A.
  pose proof (append_array _ _ _ _ _ _ A) as Aa.
  assert (Q : (forall q, fst q < n0 -> load mem' q = load mem q) /\ n0 <= sl_array s).
  { destruct Y7 as [Y7|Y7].
    - destruct (append_grows _ _ _ _ _ _ A) as [Ga Gl]; [rewrite Y7; unfold sl_cap; cbn; rewrite Yn; cbn; lia|].
      split; [intros q Hq; apply Gl; lia|lia].
    - split; [|lia]. intros q Hq. apply (append_load _ _ _ _ _ _ A); lia. }
  destruct Q as [Q1 Q2]. repeat split; auto.
  - lia.
  - intros q Hq. rewrite Q1 by exact Hq. now apply Y2.
  - apply ext_nth. intros i. destruct (nth 0 mem' []) as [|x r] eqn:Ex; [reflexivity|]. exfalso.
    assert (load mem' (0, 0) = Some x) as L. { unfold load. cbn [fst snd]. rewrite nth_err in Ex. destruct (nth_error mem' 0); [now rewrite Ex|discriminate]. }
    rewrite Q1 in L by (cbn; lia). unfold load in L. cbn [fst snd] in L. rewrite nth_err in Yn. destruct (nth_error mem 0); [now rewrite Yn in L|discriminate].
  - eapply append_fits; eauto.
  - eapply append_there; eauto.
Qed.

Definition before_ok (w : state) : Prop :=
  let '(b, mem, ms) := w in b_m b = MAbsent -> young b mem ms.

Lemma young_go b b' mem ms : young b mem ms -> go_on b = Some b' -> young b' mem ms.
Proof.
  intros [Y1 Y2 Yn Y3 Y4 Y5 Y6 Y7 Y8 Y9] G. destruct (go_on_same _ _ G) as (E1 & E2 & E3 & E4 & E5 & E6).
  split; rewrite ?E1; auto.
  - rewrite E3. intros p Ep. destruct (Y8 p Ep). contradiction.
  - destruct E6; congruence.
Qed.

Lemma before_step c w : before_ok w -> before_ok (snd (tstep grow c w)).
Proof.
  destruct w as [[b mem] ms]. intros B. destruct c as [hint|h| |k| |k|e m|]; cbn [tstep].
  - destruct (b_m b) eqn:Em; cbn [snd]; try exact B. cbn. discriminate.
  - destruct (b_m b) eqn:Em; cbn [snd]; try exact B. cbn. discriminate.
  - destruct (go_on b) as [b'|] eqn:G; [|exact B]. destruct (h_append grow mem (hd_t (b_hd b')) zero_cell) as [mem' s] eqn:A.
    cbn [snd before_ok b_m]. intros Em. destruct (go_on_same _ _ G) as (E1 & E2 & _). rewrite E2 in Em.
    pose proof (young_go _ _ _ _ (B Em) G) as Y. destruct (young_append _ _ _ _ _ _ Y A) as (A1 & A2 & A3 & A4 & A5 & A6). destruct Y.
    split; cbn [b_hd b_ka b_va b_st hd_t hd_m]; auto. intros p Ep. injection Ep as <-. cbn. auto.
  - destruct (b_ka b) as [p|] eqn:Ek; [|exact B].
    destruct (b_cm b) eqn:Ec; try exact B; (destruct (load mem p) as [[k0 e]|] eqn:El; [|exact B]); cbn [snd before_ok b_m]; intros Em;
      destruct (B Em) as [Y1 Y2 Yn Y3 Y4 Y5 Y6 Y7 Y8 Y9]; destruct (Y8 p Ek) as (Ms & P1 & P2);
      split; cbn [b_hd b_ka b_va b_st hd_t hd_m]; rewrite ?store_length, ?store_cap; auto;
      try (intros q Hq; rewrite load_store_other; [auto|intros <-; lia]);
      try (rewrite store_array; [exact Yn|lia]);
      try (intros p' Ep'; injection Ep' as <-; auto).
  - destruct (b_st b) eqn:Es, (b_cm b) eqn:Ec; try exact B; cbn [snd].
    all: try (intros Em; cbn in Em; destruct (B Em) as [Y1 Y2 Yn Y3 Y4 Y5 Y6 Y7 Y8 Y9]; split; cbn [b_hd b_ka b_va b_st hd_t hd_m]; auto;
              intros p Ep; destruct (Y8 p Ep); congruence).
    destruct (sl_len (hd_t (b_hd b))) as [|n] eqn:El.
    { cbn [snd]. intros Em. cbn in Em. destruct (B Em) as [Y1 Y2 Yn Y3 Y4 Y5 Y6 Y7 Y8 Y9]. split; cbn [b_hd b_ka b_va b_st hd_t hd_m]; rewrite ?El in *; auto; try discriminate; lia. }
    destruct (load mem (last_cell (hd_t (b_hd b)))) as [[k0 e0]|] eqn:Ell.
    2: { cbn [snd]. intros Em. cbn in Em. destruct (B Em) as [Y1 Y2 Yn Y3 Y4 Y5 Y6 Y7 Y8 Y9]. split; cbn [b_hd b_ka b_va b_st hd_t hd_m]; rewrite ?El in *; auto; try discriminate; lia. }
    destruct (hd_m (b_hd b)) as [i|] eqn:Eh; cbn [snd]; intros Em; cbn in Em; destruct (B Em) as [Y1 Y2 Yn Y3 Y4 Y5 Y6 Y7 Y8 Y9]; [congruence|].
    split; cbn [b_hd b_ka b_va b_st hd_t hd_m]; rewrite ?El in *; auto; try discriminate; lia.
  - destruct (go_on b) as [b'|] eqn:G; [|exact B].
    destruct (match hd_m (b_hd b') with None => None | Some i => assoc k (nth i ms []) end) as [p|] eqn:Ex.
    { cbn [snd before_ok]. intros Em. destruct (go_on_same _ _ G) as (E1 & E2 & _). rewrite E2 in Em. exact (young_go _ _ _ _ (B Em) G). }
    destruct (h_append grow mem (hd_t (b_hd b')) (k, zero_entry)) as [mem' s] eqn:A. destruct (go_on_same _ _ G) as (E1 & E2 & E3 & E4 & E5 & E6).
    destruct (hd_m (b_hd b')) as [i|] eqn:Eh; cbn [snd before_ok b_m]; intros Em; rewrite E2 in Em;
      pose proof (young_go _ _ _ _ (B Em) G) as Y; destruct (young_append _ _ _ _ _ _ Y A) as (A1 & A2 & A3 & A4 & A5 & A6); destruct Y; [congruence|].
    split; cbn [b_hd b_ka b_va b_st hd_t hd_m]; auto. intros p Ep. destruct (y_ka0 p Ep). congruence.
  - destruct (b_va b) as [p|] eqn:Ev.
    + assert (N : b_m b <> MAbsent) by (intros Em; destruct (B Em); congruence).
      destruct (load mem p) as [[k0 e0]|]; cbn [snd before_ok b_m]; intros Em; contradiction.
    + cbn [snd before_ok b_m]. intros Em. destruct (B Em). split; cbn [b_hd b_ka b_va b_st hd_t hd_m]; auto.
  - destruct (go_on b) as [b'|] eqn:G; [|exact B]. cbn. discriminate.
Qed.

Lemma before_run cs : forall w, before_ok w -> before_ok (snd (trun grow cs w)).
Proof.
  induction cs as [|c cs IH]; intros w B; [exact B|]. cbn [trun]. pose proof (before_step c w B) as B'.
  destruct (tstep grow c w) as [v w']. specialize (IH w' B'). destruct (trun grow cs w') as [vs w'']. exact IH.
Qed.

Lemma before_new : before_ok (new_builder, mem0, ms0).
Proof. intros _. split; cbn; auto; try discriminate. unfold sl_cap. cbn. lia. Qed.
End Before.

(** ** After it *)
Lemma store_same_key mem p k e0 e q : load mem p = Some (k, e0) ->
  option_map fst (load (store mem p (k, e)) q) = option_map fst (load mem q).
Proof.
  intros L. destruct (Nat.eq_dec (fst p) (fst q)) as [A|A]; [destruct (Nat.eq_dec (snd p) (snd q)) as [B|B]|].
  - assert (q = p) as -> by (destruct p, q; cbn in *; congruence). now rewrite (load_store_same _ _ _ _ L), L.
  - rewrite load_store_other; [reflexivity|congruence].
  - rewrite load_store_other; [reflexivity|congruence].
Qed.

Lemma in_skipn_at {A} (l : list A) n i x : nth_error l i = Some x -> n <= i -> In x (skipn n l).
Proof.
  revert n i. induction l as [|y l IH]; intros [|n] [|i] E L; cbn in *; try discriminate; try lia.
  - injection E as ->. now left.
  - right. eapply nth_error_In; eauto.
  - apply (IH n i E). lia.
Qed.

Lemma in_skipn_app {A} (l r : list A) n x : In x (skipn n l) -> In x (skipn n (l ++ r)).
Proof. intros I1. rewrite skipn_app. apply in_or_app. now left. Qed.

Lemma removelast_split {A} (l : list A) : l <> [] -> exists x, l = removelast l ++ [x].
Proof. intros N. destruct (exists_last N) as (r & x & ->). exists x. now rewrite removelast_last. Qed.

Lemma in_skipn_removelast {A} (l : list A) n x : In x (skipn n (removelast l)) -> In x (skipn n l).
Proof.
  intros Hx. destruct l as [|y l]; [exact Hx|]. destruct (removelast_split (y :: l)) as (z & E); [discriminate|].
  rewrite E. now apply in_skipn_app.
Qed.

Lemma bind_key_length ms i k p : length (bind_key ms i k p) = length ms.
Proof. apply set_nth_length. Qed.
Lemma bind_key_same ms i k p : i < length ms -> nth i (bind_key ms i k p) [] = (k, p) :: nth i ms [].
Proof. intros L. unfold bind_key. rewrite nth_err, nth_set_same by exact L. reflexivity. Qed.
Lemma bind_key_other ms i j k p : i <> j -> nth j (bind_key ms i k p) [] = nth j ms [].
Proof. intros N. unfold bind_key. rewrite !nth_err, nth_set_other by exact N. reflexivity. Qed.

Section After.
Variables (grow : nat -> nat) (mem0 : memory) (ms0 : maps) (h : header) (n1 t : nat).
Notation n0 := (length mem0).
Notation a := (sl_array (hd_t h)).
Notation L := (sl_len (hd_t h)).
Hypothesis tree : is_tree mem0 ms0 h.
Hypothesis n01 : n0 <= n1.

Notation sl b := (hd_t (b_hd b)).
Definition names mem (s : tslice) : list bytes := map fst (sl_cells mem s).
(** The names the map may have been told of. *)
Definition listed b mem : list bytes :=
  match b_st b with MidKey => removelast (names mem (sl b)) | _ => names mem (sl b) end.

Record given (b : tb) (mem : memory) (ms : maps) : Prop := {
  g_len : n1 <= length mem;
  g_m : b_m b = MValue;
  g_map : hd_m (b_hd b) = hd_m h;
  g_fits : sl_len (sl b) <= sl_cap mem (sl b);
  g_there : sl_array (sl b) < length mem;
  g_slice : sl_array (sl b) = a /\ L <= sl_len (sl b) \/ n1 <= sl_array (sl b) /\ L < sl_len (sl b);
  g_old : forall q, fst q < n0 -> (fst q = a -> snd q < L - t) -> load mem q = load mem0 q;
  g_keys : forall i, i < L -> option_map fst (load mem (a, i)) = option_map fst (load mem0 (a, i));
  g_first : forall i, i < L -> nth_error (names mem (sl b)) i = option_map fst (load mem0 (a, i));
  g_ka : forall p, b_ka b = Some p -> b_st b = MidKey /\ fst p < length mem /\
           (n0 <= fst p < n1 \/ p = last_cell (sl b) /\ L < sl_len (sl b));
  g_va : forall p, b_va b = Some p -> n1 <= fst p \/ fst p = a /\ L - t <= snd p;
  g_key : b_st b = MidKey -> t = 0 -> L < sl_len (sl b);
  g_maps : length ms = length ms0;
  g_other : forall j, hd_m h <> Some j -> nth j ms [] = nth j ms0 [];
  g_new : forall i, hd_m h = Some i -> exists new, nth i ms [] = new ++ nth i ms0 [] /\
            forall k p, In (k, p) new -> In k (skipn (L - t) (listed b mem))
}.
Hypothesis t_01 : t <= 1.

Lemma a_lt : a < n0. Proof. exact (proj1 tree). Qed.

Lemma names_length mem s : sl_len s <= sl_cap mem s -> length (names mem s) = sl_len s.
Proof. intros Hc. unfold names. rewrite map_length. now apply cells_length. Qed.

Lemma given_go b b' mem ms : given b mem ms -> go_on b = Some b' -> given b' mem ms.
Proof.
  intros [] G. destruct (go_on_same _ _ G) as (E1 & E2 & E3 & E4 & E5 & E6).
  split; rewrite ?E1; auto; try congruence.
  - intros p Ep. rewrite E3 in Ep. destruct (g_ka0 p Ep). contradiction.
  - intros p Ep. destruct E6 as [E6|E6]; rewrite E6 in Ep; [auto|discriminate].
  - intros i Ei. destruct (g_new0 i Ei) as (new & N1 & N2). exists new. split; [exact N1|]. intros k p Hi. specialize (N2 k p Hi).
    unfold listed in *. rewrite E4, E1. destruct (b_st b); auto. contradiction.
Qed.

(** Appending a cell *)
Lemma given_append b mem ms c mem' s : given b mem ms -> h_append grow mem (sl b) c = (mem', s) ->
  length mem <= length mem' /\ n1 <= length mem' /\ sl_len s <= sl_cap mem' s /\ sl_array s < length mem' /\
  (sl_array s = a /\ L <= sl_len s \/ n1 <= sl_array s /\ L < sl_len s) /\ L < sl_len s /\
  (forall q, fst q < n0 -> (fst q = a -> snd q < L - t) -> load mem' q = load mem0 q) /\
  (forall i, i < L -> option_map fst (load mem' (a, i)) = option_map fst (load mem0 (a, i))) /\
  names mem' s = names mem (sl b) ++ [fst c] /\
  (forall i, i < L -> nth_error (names mem' s) i = option_map fst (load mem0 (a, i))).
Proof.
  intros [] A. pose proof a_lt as Ha.
  pose proof (append_array _ _ _ _ _ _ A) as Aa. pose proof (append_len _ _ _ _ _ _ A) as Al.
  pose proof (append_load _ _ _ _ _ _ A) as Ald.
  assert (sl_len (sl b) >= L) as Hl by (destruct g_slice0; lia).
  repeat split.
  - lia.
  - lia.
  - eapply append_fits; eauto.
  - eapply append_there; eauto.
  - lia.
  - lia.
  - intros q Hq Hs. rewrite Ald; [now apply g_old0|lia|]. destruct g_slice0 as [[Sa Sl]|[Sa Sl]]; [|lia]. intros Eq. rewrite Sa in Eq. specialize (Hs Eq). lia.
  - intros i Hi. rewrite Ald; [now apply g_keys0|cbn; lia|]. cbn. lia.
  - unfold names. rewrite (append_cells _ _ _ _ _ _ g_fits0 g_there0 A), map_app. reflexivity.
  - intros i Hi. unfold names. rewrite (append_cells _ _ _ _ _ _ g_fits0 g_there0 A), map_app, nth_error_app1; [now apply g_first0|].
    fold (names mem (sl b)). rewrite names_length by exact g_fits0. lia.
Qed.

(** Writing a key, or a value, through a pointer *)
Lemma given_store b b' mem ms p k0 e0 k e : given b mem ms -> load mem p = Some (k0, e0) ->
  b_hd b' = b_hd b -> b_m b' = b_m b -> b_st b' = b_st b -> b_ka b' = b_ka b -> b_va b' = b_va b ->
  n0 <= fst p \/ fst p = a /\ L - t <= snd p ->
  k = k0 \/ (b_st b = MidKey /\ (n0 <= fst p < n1 \/ p = last_cell (sl b) /\ L < sl_len (sl b))) ->
  given b' (store mem p (k, e)) ms.
Proof.
  intros [] Lp Eh Em Es Ek Ev P K. pose proof a_lt as Ha.
  assert (KS : forall i, i < L -> option_map fst (load (store mem p (k, e)) (a, i)) = option_map fst (load mem (a, i))).
  { intros i Hi. destruct K as [->|(_ & K)]; [eapply store_same_key; eauto|]. rewrite load_store_other; [reflexivity|].
    intros ->. cbn [fst snd] in *. destruct K as [K|[K Kl]]; [lia|]. injection K as K1 K2. destruct g_slice0; lia. }
  split; rewrite ?Eh, ?store_length, ?store_cap; auto; try congruence.
  - intros q Hq Hs. rewrite load_store_other; [now apply g_old0|]. intros <-. destruct P as [P|[P1 P2]]; [lia|]. specialize (Hs P1). lia.
  - intros i Hi. rewrite KS by exact Hi. now apply g_keys0.
  - intros i Hi. destruct K as [->|(_ & K)].
    + unfold names. rewrite (names_same mem); [now apply g_first0|]. intros j Hj. eapply store_same_key; eauto.
    + assert (L <= sl_len (sl b)) as Hl by (destruct g_slice0; lia). rewrite <- (g_first0 i Hi). unfold names.
      rewrite !nth_error_map, !load_cells by lia. f_equal. apply load_store_other.
      intros ->. cbn [fst snd] in *. destruct K as [K|[K Kl]]; [destruct g_slice0; lia|]. injection K as K2. lia.
  - rewrite Ek, Es. intros p' Ep'. destruct (g_ka0 p' Ep') as (A1 & A2 & A3). auto.
  - rewrite Ev. exact g_va0.
  - rewrite Es. exact g_key0.
  - intros i Ei. destruct (g_new0 i Ei) as (new & N1 & N2). exists new. split; [exact N1|]. intros k' p' Hi. specialize (N2 k' p' Hi).
    unfold listed in *. rewrite Es, Eh.
    destruct K as [->|(Mk & K)].
    + unfold names in *. rewrite (names_same mem); [exact N2|]. intros j Hj. eapply store_same_key; eauto.
    + rewrite Mk in *. replace (removelast (names (store mem p (k, e)) (sl b))) with (removelast (names mem (sl b))); [exact N2|].
      rewrite !removelast_firstn_len, !names_length by (rewrite ?store_cap; exact g_fits0).
      apply ext_nth. intros j. destruct (Nat.lt_ge_cases j (Nat.pred (sl_len (sl b)))) as [Hj|Hj].
      2: rewrite !nth_over; [reflexivity| |]; rewrite firstn_length; lia.
      assert (FN : forall (l : list bytes) n, j < n -> nth_error (firstn n l) j = nth_error l j).
      { clear. intros l n. revert j n. induction l as [|x l IH]; intros [|j] [|n] H; cbn; auto; try lia. apply IH. lia. }
      rewrite !FN by exact Hj. unfold names. rewrite !nth_error_map, !load_cells by lia. f_equal. symmetry. apply load_store_other.
      intros ->. cbn [fst snd] in *. destruct K as [K|[K Kl]]; [destruct g_slice0; lia|]. injection K as K2. lia.
Qed.

Definition after_ok (w : state) : Prop := let '(b, mem, ms) := w in given b mem ms.

Lemma given_same b b' mem ms : given b mem ms -> b_hd b' = b_hd b -> b_m b' = MValue ->
  (b_st b = MidKey -> b_ka b' <> None -> b_st b' = MidKey) -> (b_st b' = MidKey -> b_st b = MidKey) ->
  b_ka b' = b_ka b \/ b_ka b' = None -> b_va b' = b_va b -> given b' mem ms.
Proof.
  intros [] Eh Em Es1 Es2 Ek Ev. split; rewrite ?Eh; auto.
  - intros p Ep. destruct Ek as [Ek|Ek]; [|congruence]. rewrite Ek in Ep. destruct (g_ka0 p Ep) as (A1 & A2 & A3). split; [|auto]. apply Es1; [exact A1|congruence].
  - rewrite Ev. exact g_va0.
  - intros i Ei. destruct (g_new0 i Ei) as (new & N1 & N2). exists new. split; [exact N1|]. intros k p Hi. specialize (N2 k p Hi).
    unfold listed in *. rewrite Eh. destruct (b_st b) eqn:E1, (b_st b') eqn:E2; auto; try (specialize (Es2 eq_refl); discriminate); now apply in_skipn_removelast.
Qed.

Lemma after_step c w : after_ok w -> after_ok (snd (tstep grow c w)).
Proof.
  destruct w as [[b mem] ms]. intros B. pose proof a_lt as Ha. destruct c as [hint|h'| |k| |k|e m|]; cbn [tstep].
  - rewrite (g_m _ _ _ B). exact B.
  - rewrite (g_m _ _ _ B). exact B.
  - destruct (go_on b) as [b'|] eqn:G; [|exact B]. pose proof (given_go _ _ _ _ B G) as B'.
    destruct (h_append grow mem (sl b') zero_cell) as [mem' s] eqn:A.
    destruct (given_append _ _ _ _ _ _ B' A) as (A0 & A1 & A2 & A3 & A4 & A5 & A6 & A7 & A8 & A9). destruct B'. destruct (go_on_same _ _ G) as (E1 & E2 & E3 & E4 & E5 & E6).
    cbn [snd after_ok]. split; cbn [b_hd b_ka b_va b_st hd_t hd_m b_m]; auto.
    + intros p Ep. injection Ep as <-. cbn. auto.
    + intros i Ei. destruct (g_new0 i Ei) as (new & N1 & N2). exists new. split; [exact N1|]. intros k p Hi. specialize (N2 k p Hi).
      unfold listed in *. cbn [b_st b_hd hd_t]. rewrite E4 in N2. rewrite A8, removelast_last. exact N2.
  - destruct (b_ka b) as [p|] eqn:Ek; [|exact B].
    assert (X : forall k0 e0, load mem p = Some (k0, e0) ->
      given (TB (b_hd b) (b_m b) (b_st b) MValue (Some p) (b_va b)) (store mem p (k, e0)) ms).
    { intros k0 e0 El. destruct (g_ka _ _ _ B p Ek) as (Mk & P1 & P2).
      apply (given_store b) with k0 e0; auto.
      destruct P2 as [P2|[P2 P3]]; [lia|]. subst p. cbn [last_cell fst snd]. destruct (g_slice _ _ _ B); lia. }
    destruct (b_cm b) eqn:Ec; try exact B; (destruct (load mem p) as [[k0 e0]|] eqn:El; [|exact B]); exact (X _ _ eq_refl).
  - assert (SM : forall st cm, st <> MidKey -> (b_st b <> MidKey \/ True) -> given (TB (b_hd b) (b_m b) st cm None (b_va b)) mem ms).
    { intros st cm Hs _. apply (given_same b); auto; [apply (g_m _ _ _ B)|cbn; contradiction|cbn; contradiction]. }
    destruct (b_st b) eqn:Es, (b_cm b) eqn:Ec; try exact B; cbn [snd].
    all: try (apply (given_same b); auto; cbn; [apply (g_m _ _ _ B)|congruence|discriminate]).
    destruct (sl_len (sl b)) as [|n] eqn:El.
    { apply (given_same b); auto; cbn; [apply (g_m _ _ _ B)]. }
    destruct (load mem (last_cell (sl b))) as [[k0 e0]|] eqn:Ell.
    2: { apply (given_same b); auto; cbn; [apply (g_m _ _ _ B)]. }
    destruct (hd_m (b_hd b)) as [i|] eqn:Eh; cbn [snd after_ok].
    2: { apply SM; auto. discriminate. }
    destruct B. rewrite g_map0 in Eh.
    assert (Li : i < length ms). { rewrite g_maps0. destruct tree as (_ & _ & T). rewrite Eh in T. apply T. }
    assert (Hlast : L - t <= sl_len (sl b) - 1). { specialize (g_key0 Es). destruct g_slice0; destruct t as [|[|]]; try lia. }
    split; cbn [b_hd b_ka b_va b_st hd_t hd_m b_m]; auto; try discriminate.
    + intros p Ep. injection Ep as <-. cbn [last_cell fst snd]. destruct g_slice0; [right|left]; lia.
    + now rewrite bind_key_length.
    + intros j Ej. rewrite bind_key_other; [auto|congruence].
    + intros i' Ei'. rewrite Ei' in Eh. injection Eh as ->. destruct (g_new0 i Ei') as (new & N1 & N2).
      exists ((k0, last_cell (sl b)) :: new). rewrite bind_key_same, N1 by exact Li. split; [reflexivity|].
      unfold listed in *. cbn [b_st b_hd]. rewrite Es in N2. intros k p [Hk|Hk].
      * injection Hk as <- <-. apply (in_skipn_at _ _ (sl_len (sl b) - 1)); [|exact Hlast]. unfold names.
        rewrite nth_error_map, load_cells by lia. unfold last_cell in Ell. rewrite Ell. reflexivity.
      * apply in_skipn_removelast. eauto.
  - destruct (go_on b) as [b'|] eqn:G; [|exact B]. pose proof (given_go _ _ _ _ B G) as B'.
    destruct (match hd_m (b_hd b') with None => None | Some i => assoc k (nth i ms []) end) as [p|] eqn:Ex; [exact B'|].
    destruct (h_append grow mem (sl b') (k, zero_entry)) as [mem' s] eqn:A.
    destruct (given_append _ _ _ _ _ _ B' A) as (A0 & A1 & A2 & A3 & A4 & A5 & A6 & A7 & A8 & A9). destruct B'. destruct (go_on_same _ _ G) as (E1 & E2 & E3 & E4 & E5 & E6).
    assert (Ka : forall p, b_ka b' = Some p -> False). { intros p Ep. destruct (g_ka0 p Ep). congruence. }
    destruct (hd_m (b_hd b')) as [i|] eqn:Eh; cbn [snd after_ok].
    + assert (Li : i < length ms). { rewrite g_maps0. destruct tree as (_ & _ & T). rewrite <- g_map0 in T. apply T. }
      split; cbn [b_hd b_ka b_va b_st hd_t hd_m b_m]; auto; try discriminate.
      * intros p Ep. destruct (Ka p Ep).
      * intros p Ep. injection Ep as <-. cbn [last_cell fst snd]. destruct A4; [right|left]; lia.
      * now rewrite bind_key_length.
      * intros j Ej. rewrite bind_key_other; [auto|congruence].
      * intros i' Ei'. rewrite Ei' in g_map0. injection g_map0 as <-. destruct (g_new0 i Ei') as (new & N1 & N2).
        exists ((k, last_cell s) :: new). rewrite bind_key_same, N1 by exact Li. split; [reflexivity|].
        unfold listed in *. cbn [b_st b_hd hd_t]. rewrite E4 in N2. rewrite A8. cbn [fst]. intros k' p [Hk|Hk].
        -- injection Hk as <- <-. rewrite skipn_app. apply in_or_app. right. rewrite names_length by exact g_fits0.
           replace (L - t - sl_len (sl b')) with 0 by (destruct g_slice0; lia). cbn. now left.
        -- apply in_skipn_app. eauto.
    + split; cbn [b_hd b_ka b_va b_st hd_t hd_m b_m]; auto; try discriminate.
      * intros p Ep. destruct (Ka p Ep).
      * intros i Ei. congruence.
  - assert (X : given (TB (b_hd b) (b_m b) (b_st b) m (b_ka b) (b_va b)) mem ms).
    { apply (given_same b); auto. apply (g_m _ _ _ B). }
    destruct (b_va b) as [p|] eqn:Ev; [|exact X]. destruct (load mem p) as [[k0 e0]|] eqn:El; [|exact X].
    cbn [snd after_ok]. apply (given_store b) with k0 e0; auto.
    destruct (g_va _ _ _ B p Ev) as [P|P]; [left; lia|right; exact P].
  - destruct (go_on b) as [b'|] eqn:G; [|exact B]. pose proof (given_go _ _ _ _ B G) as B'. destruct (go_on_same _ _ G) as (E1 & E2 & E3 & E4 & E5 & E6).
    cbn [snd after_ok]. apply (given_same b'); auto; cbn; [congruence|discriminate].
Qed.

Lemma after_run cs : forall w, after_ok w -> after_ok (snd (trun grow cs w)).
Proof.
  induction cs as [|c cs IH]; intros w B; [exact B|]. cbn [trun]. pose proof (after_step c w B) as B'.
  destruct (tstep grow c w) as [v w']. specialize (IH w' B'). destruct (trun grow cs w') as [vs w'']. exact IH.
Qed.
End After.
