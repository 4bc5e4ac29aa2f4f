(** The tree with pointers behaves like the tree of Assemble.v, however arrays grow. *)
From Verif Require Import Base GoStr Cid Types Nodes Reader Assemble Decode TreeHeap.

(** ** Memory *)
Lemma set_nth_length {A} (x : A) l : forall i, length (set_nth i x l) = length l.
Proof. induction l as [|y l IH]; intros [|i]; cbn; auto. Qed.

Lemma nth_set_same {A} (x : A) l : forall i, i < length l -> nth_error (set_nth i x l) i = Some x.
Proof. induction l as [|y l IH]; intros [|i]; cbn; intros H; try lia; auto. apply IH. lia. Qed.

Lemma nth_set_other {A} (x : A) l : forall i j, i <> j -> nth_error (set_nth i x l) j = nth_error l j.
Proof. induction l as [|y l IH]; intros [|i] [|j] H; cbn; auto; try lia. Qed.

Lemma firstn_set_nth {A} (x : A) l : forall n, n < length l -> firstn (S n) (set_nth n x l) = firstn n l ++ [x].
Proof.
  induction l as [|y l IH]; intros [|n] H; cbn in *; try lia; auto.
  f_equal. exact (IH n ltac:(lia)).
Qed.

Lemma nth_of_error {A} (l : list A) i a d : nth_error l i = Some a -> nth i l d = a.
Proof. revert i; induction l as [|y l IH]; intros [|i]; cbn; try discriminate; [congruence|auto]. Qed.

Lemma load_store_same h p c c0 : load h p = Some c0 -> load (store h p c) p = Some c.
Proof.
  unfold load, store. destruct (nth_error h (fst p)) as [a|] eqn:E; [|discriminate]. intros H.
  rewrite nth_set_same by (apply nth_error_Some; congruence). apply nth_set_same. apply nth_error_Some. congruence.
Qed.

Lemma load_store_other h p q c : p <> q -> load (store h p c) q = load h q.
Proof.
  intros N. unfold load, store. destruct (nth_error h (fst p)) as [a|] eqn:E; [|reflexivity].
  destruct (Nat.eq_dec (fst p) (fst q)) as [Q|Q].
  - rewrite <- Q, E, nth_set_same by (apply nth_error_Some; congruence). apply nth_set_other.
    destruct p, q; cbn in *. congruence.
  - now rewrite nth_set_other.
Qed.

Lemma load_grown h a q : fst q < length h -> load (h ++ [a]) q = load h q.
Proof. intros H. unfold load. now rewrite nth_error_app1. Qed.

(** ** The invariant *)
Record models (h : htree) (t : tree) : Prop := {
  mo_array : sl_array (ht_t h) < length (ht_mem h);
  mo_len : sl_len (ht_t h) <= sl_cap (ht_mem h) (ht_t h);
  mo_table : sl_cells (ht_mem h) (ht_t h) = tr_t t;
  mo_map : Forall2 (fun kp ke => fst kp = fst ke /\ load (ht_mem h) (snd kp) = Some ke) (ht_m h) (tr_m t);
  (* no pointer refers to the spare cells of the current array *)
  mo_spare : forall k p, In (k, p) (ht_m h) -> fst p = sl_array (ht_t h) -> snd p < sl_len (ht_t h)
}.

Lemma models_begin z : models (h_begin z) zero_tree.
Proof. split; cbn; auto; try lia; try contradiction. Qed.

Lemma models_assoc h t k : models h t ->
  match assoc k (ht_m h), assoc k (tr_m t) with
  | None, None => True
  | Some p, Some e => load (ht_mem h) p = Some (k, e)
  | _, _ => False
  end.
Proof.
  intros [_ _ _ M _]. induction M as [|[k1 p] [k2 e] m m' [E L] M IH]; [exact I|]. cbn [fst snd] in *. subst k2. cbn [assoc].
  destruct (beqb_spec k k1) as [->|N]; [exact L|exact IH].
Qed.

Lemma load_lt h p c : load h p = Some c -> fst p < length h.
Proof. unfold load. destruct (nth_error h (fst p)) eqn:E; [|discriminate]. intros _. apply nth_error_Some. congruence. Qed.

Lemma nth_lt {A} (l : list A) n d : n < length l -> nth_error l n = Some (nth n l d).
Proof. intros. now apply nth_error_nth'. Qed.

Lemma h_insert_models grow h t k e : models h t ->
  match h_insert grow h k e, tree_insert t k e with
  | Ok h', Ok t' => models h' t'
  | Err x, Err y => x = y
  | _, _ => False
  end.
Proof.
  intros M. pose proof (models_assoc h t k M) as A. unfold h_insert, tree_insert, h_assemble_entry.
  destruct (assoc k (ht_m h)) as [p|] eqn:Eh, (assoc k (tr_m t)) as [e'|] eqn:Et; try contradiction; [reflexivity|]. clear A.
  destruct M as [M1 M2 M3 M4 M5]. destruct h as [mem [a len] m]. cbn [ht_mem ht_t ht_m sl_array sl_len] in *.
  unfold h_append. cbn [sl_array sl_len]. unfold sl_cap, sl_cells in *. cbn [sl_array sl_len] in *.
  pose proof (nth_lt mem a [] M1) as Na.
  destruct (Nat.ltb_spec len (length (nth a mem []))) as [Hl|Hl]; cbn [bind sl_array sl_len]; replace (Datatypes.S len - 1) with len by lia.
  - set (arr := nth a mem []) in *.
    assert (L0 : exists c0, load mem (a, len) = Some c0).
    { unfold load. cbn [fst snd]. rewrite Na. exists (nth len arr zero_cell). now apply nth_lt. }
    destruct L0 as (c0 & L0). unfold h_assign_entry. cbn [ht_mem].
    rewrite (load_store_same _ _ (k, zero_entry) _ L0). cbn [ht_t ht_m].
    assert (St : nth_error (store mem (a, len) (k, zero_entry)) a = Some (set_nth len (k, zero_entry) arr)).
    { unfold store. cbn [fst snd]. rewrite Na. now apply nth_set_same. }
    assert (St2 : nth_error (store (store mem (a, len) (k, zero_entry)) (a, len) (k, e)) a = Some (set_nth len (k, e) (set_nth len (k, zero_entry) arr))).
    { unfold store at 1. cbn [fst snd]. rewrite St. apply nth_set_same. unfold store. cbn [fst snd]. rewrite Na. now rewrite set_nth_length. }
    split; cbn [ht_mem ht_t ht_m sl_array sl_len tr_t tr_m].
    + apply nth_error_Some. congruence.
    + unfold sl_cap. cbn [sl_array]. rewrite (nth_of_error _ _ _ _ St2), !set_nth_length. lia.
    + unfold sl_cells. cbn [sl_array sl_len]. rewrite (nth_of_error _ _ _ _ St2), firstn_set_nth by (rewrite set_nth_length; lia).
      rewrite <- M3. f_equal. clear - Hl. revert len Hl. generalize (k, zero_entry). intros c. induction arr as [|y l IH]; intros [|n] H; cbn in *; try lia; auto.
      f_equal. apply IH. lia.
    + constructor.
      * cbn [fst snd]. split; [reflexivity|]. eapply load_store_same. eapply load_store_same. exact L0.
      * assert (forall kp, In kp m -> (a, len) <> snd kp) as Q.
        { intros [k1 p] I E. cbn in E. subst p. specialize (M5 _ _ I eq_refl). cbn in M5. lia. }
        clear - M4 Q. induction M4 as [|[k1 p] [k2 e2] m m' [E L] M IH]; constructor.
        -- cbn [fst snd] in *. split; [exact E|]. rewrite !load_store_other by (apply (Q (k1, p)); now left). exact L.
        -- apply IH. intros kp I. apply Q. now right.
    + intros k1 p [I|I] Ea; [injection I as <- <-; cbn; lia|]. specialize (M5 _ _ I Ea). lia.
  - set (arr := nth a mem []) in *.
    assert (len = length arr) as Hlen by lia.
    match goal with |- context [mem ++ [?x]] => set (new := x) end.
    assert (Nn : nth_error (mem ++ [new]) (length mem) = Some new) by (rewrite nth_error_app2, Nat.sub_diag by lia; reflexivity).
    assert (Ll : length (firstn len arr) = len) by (rewrite firstn_length; lia).
    assert (L0 : load (mem ++ [new]) (length mem, len) = Some (k, zero_entry)).
    { unfold load. cbn [fst snd]. rewrite Nn. unfold new. rewrite nth_error_app2 by lia. rewrite Ll, Nat.sub_diag. reflexivity. }
    unfold h_assign_entry. cbn [ht_mem]. rewrite L0. cbn [ht_t ht_m].
    assert (St : nth_error (store (mem ++ [new]) (length mem, len) (k, e)) (length mem) = Some (set_nth len (k, e) new)).
    { unfold store. cbn [fst snd]. rewrite Nn. apply nth_set_same. rewrite app_length. cbn. lia. }
    assert (Ln : length new = len + S (grow len)) by (unfold new; rewrite app_length, Ll; cbn [length]; rewrite repeat_length; lia).
    split; cbn [ht_mem ht_t ht_m sl_array sl_len tr_t tr_m].
    + apply nth_error_Some. congruence.
    + unfold sl_cap. cbn [sl_array]. rewrite (nth_of_error _ _ _ _ St), set_nth_length. lia.
    + unfold sl_cells. cbn [sl_array sl_len]. rewrite (nth_of_error _ _ _ _ St), firstn_set_nth by lia.
      f_equal. unfold new. rewrite firstn_app, Ll, Nat.sub_diag, firstn_O, app_nil_r, firstn_firstn, Nat.min_id. exact M3.
    + constructor.
      * cbn [fst snd]. split; [reflexivity|]. eapply load_store_same. exact L0.
      * clear - M4. induction M4 as [|[k1 p] [k2 e2] m m' [E L] M IH]; constructor; [|exact IH].
        cbn [fst snd] in *. split; [exact E|]. pose proof (load_lt _ _ _ L) as B.
        rewrite load_store_other by (intros <-; cbn in B; lia). now rewrite load_grown.
    + intros k1 p [I|I] Ea; [injection I as <- <-; cbn; lia|]. exfalso.
      assert (fst p < length mem); [|lia]. clear - M4 I. induction M4 as [|[k0 p0] [k2 e2] m m' [E L] M IH]; [contradiction|].
      destruct I as [[= -> ->]|I]; [eapply load_lt; exact L|auto].
Qed.

Section Decoder.
Context {S V : Type} (ops : rdops S V) (grow : nat -> nat).

Lemma h_tree_loop_models f : forall h t s, models h t ->
  match h_tree_loop ops grow f h s, tree_loop ops f t s with
  | Ok h', Ok t' => models h' t'
  | Err x, Err y => x = y
  | Panic, Panic => True
  | OutOfFuel, OutOfFuel => True
  | _, _ => False
  end.
Proof.
  induction f as [|f IH]; intros h t s M; [exact I|]. cbn [h_tree_loop tree_loop].
  destruct (decode_tree_entry ops s) as [[[n e] s1]|x| |]; try exact I.
  - pose proof (h_insert_models grow h t n e M) as K.
    destruct (h_insert grow h n e) as [h'|x| |], (tree_insert t n e) as [t'|y| |]; try contradiction; cbn [bind].
    + apply IH. exact K.
    + exact K.
  - destruct x; exact M || reflexivity.
Qed.

(** The decoder with pointers and the decoder of Decode.v agree. *)
Lemma h_decode_tree_models s :
  match h_decode_tree ops grow s, decode_tree ops BTree s with
  | Ok h, Ok n => exists t, n = NTree t /\ models h t
  | Err x, Err y => x = y
  | Panic, Panic => True
  | OutOfFuel, OutOfFuel => True
  | _, _ => False
  end.
Proof.
  unfold h_decode_tree, decode_tree. destruct (read_number ops s) as [[z s1]| | |]; cbn [bind]; try exact I; [|reflexivity].
  pose proof (h_tree_loop_models (rd_fuel ops s1) (h_begin (-1)) zero_tree s1 (models_begin _)) as K.
  destruct (h_tree_loop ops grow (rd_fuel ops s1) (h_begin (-1)) s1) as [h|x| |],
    (tree_loop ops (rd_fuel ops s1) zero_tree s1) as [t|y| |]; try contradiction; cbn [bind]; try exact I; [|exact K].
  exists t. split; [reflexivity|exact K].
Qed.
End Decoder.

(** ** Reading *)
Lemma models_lookup h t k : models h t ->
  h_lookup h k = match assoc k (tr_m t) with Some e => Ok e | None => Err ENotExists end.
Proof.
  intros M. pose proof (models_assoc h t k M) as A. unfold h_lookup.
  destruct (assoc k (ht_m h)), (assoc k (tr_m t)); try contradiction; [|reflexivity]. now rewrite A.
Qed.

Lemma models_next h t i : models h t ->
  h_next h i = match nth_error (tr_t t) i with Some (k, e) => Ok (k, e, Datatypes.S i) | None => Err EOverread end.
Proof.
  intros [M1 M2 M3 _ _]. unfold h_next. rewrite <- M3. unfold sl_cells, sl_cap, load in *. cbn [fst snd].
  rewrite (nth_lt _ _ [] M1). set (arr := nth _ _ _) in *.
  destruct (Nat.leb_spec (sl_len (ht_t h)) i) as [H|H].
  - assert (nth_error (firstn (sl_len (ht_t h)) arr) i = None) as -> by (apply nth_error_None; rewrite firstn_length; lia). reflexivity.
  - assert (nth_error (firstn (sl_len (ht_t h)) arr) i = nth_error arr i) as ->.
    { clear - H. revert H. generalize (sl_len (ht_t h)) as n. revert i. induction arr as [|x l IH]; intros [|i] [|n] H; cbn; try lia; auto. apply IH. lia. }
    assert (i < length arr) as Hi by lia. rewrite (nth_lt _ _ zero_cell Hi). now destruct (nth i arr zero_cell).
Qed.

Lemma models_length h t : models h t -> h_length h = Z.of_nat (length (tr_t t)).
Proof. intros [_ M2 M3 _ _]. unfold h_length. rewrite <- M3. unfold sl_cells, sl_cap in *. rewrite firstn_length. f_equal. lia. Qed.
