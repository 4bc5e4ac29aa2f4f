(** The iterators yield what [map_entries] and [list_items] (Nodes.v) say. *)
From Verif Require Import Base GoStr Cid Types Nodes NodeSpec.

Lemma run_unique {A} stop (next : nat -> res (A * nat)) i l : run stop next i l -> forall l', run stop next i l' -> l = l'.
Proof.
  induction 1 as [i H|i a j l H E R IH]; intros l' R'; inversion R' as [i' H'|i' a' j' l2 H' E' R2]; subst; try lia; auto.
  rewrite E in E'. injection E' as <- <-. f_equal. now apply IH.
Qed.

Lemma run_drain stop next i l : run stop next i l -> exists f, forall g, f <= g -> drain g stop next i = Ok l.
Proof.
  induction 1 as [i H|i [k v] j l H E R (f & IH)].
  - exists 1. intros [|g] Hg; [lia|]. cbn [drain]. destruct (Nat.leb_spec stop i); [reflexivity|lia].
  - exists (S f). intros [|g] Hg; [lia|]. cbn [drain]. destruct (Nat.leb_spec stop i); [lia|].
    rewrite E. cbn [bind]. rewrite IH by lia. reflexivity.
Qed.

(** An iterator that walks a list. *)
Lemma run_walk {A} (l : list A) (next : nat -> res (A * nat)) :
  (forall i a, nth_error l i = Some a -> next i = Ok (a, S i)) ->
  forall m k, m = length l - k -> run (length l) next k (skipn k l).
Proof.
  intros H m. induction m as [|m IH]; intros k E.
  - rewrite skipn_all2 by lia. constructor. lia.
  - assert (k < length l) as L by lia.
    destruct (nth_error l k) as [a|] eqn:N; [|apply nth_error_None in N; lia].
    assert (skipn k l = a :: skipn (S k) l) as ->.
    { clear - N. revert k N. induction l as [|x l IH]; intros [|k]; cbn; try discriminate; [congruence|apply IH]. }
    econstructor; [exact L|exact (H _ _ N)|]. apply IH. lia.
Qed.

Lemma run_whole {A} (l : list A) (next : nat -> res (A * nat)) :
  (forall i a, nth_error l i = Some a -> next i = Ok (a, S i)) -> run (length l) next 0 l.
Proof. intros H. exact (run_walk l next H (length l) 0 ltac:(lia)). Qed.

Lemma gen_run kvs : run (length kvs) (gen_next kvs) 0 kvs.
Proof. apply run_whole. intros i [k v] E. unfold gen_next. now rewrite E. Qed.

Lemma tree_run b t : run (length (tr_t t)) (tree_next b t) 0
  (map (fun ke => (NString (fst ke), if b then NEntryR (snd ke) else NEntry (snd ke))) (tr_t t)).
Proof.
  rewrite <- (map_length (fun ke => (NString (fst ke), if b then NEntryR (snd ke) else NEntry (snd ke))) (tr_t t)).
  apply run_whole. intros i kv E. rewrite nth_error_map in E. unfold tree_next.
  destruct (nth_error (tr_t t) i) as [[k e]|]; [|discriminate]. cbn in *. injection E as <-. reflexivity.
Qed.

Ltac fixed_run := repeat (eapply run_step; [lia|reflexivity|]); apply run_done; lia.

Lemma commit_repr_run c : run 9 (commit_next_r c) 0
  (match map_entries (NCommitR c) with Some l => l | None => [] end).
Proof.
  destruct c as [t ps m a cm en sg mt ot]. cbn [map_entries c_tree c_parents c_message c_author c_committer c_encoding c_signature c_mergetag c_other].
  destruct a, cm, en, sg; cbn [app]; fixed_run.
Qed.

Lemma map_entries_yields n l : map_entries n = Some l <-> yields n l.
Proof.
  assert (forall l, map_entries n = Some l -> yields n l) as H.
  { clear l. intros l E. unfold yields. destruct n; cbn [map_entries map_iterator] in *; try discriminate;
      try (injection E as <-; do 2 eexists; split; [reflexivity|]; try fixed_run).
    - apply gen_run.
    - exact (commit_repr_run c).
    - exact (tree_run false t).
    - exact (tree_run true t). }
  split; [apply H|]. intros (stop & next & E & R).
  destruct (map_entries n) as [l'|] eqn:M.
  - destruct (H _ eq_refl) as (stop' & next' & E' & R'). rewrite E in E'. injection E' as <- <-.
    f_equal. exact (run_unique _ _ _ _ R' _ R).
  - destruct n; cbn in *; discriminate.
Qed.

(** The loop of Nodes.v computes [map_entries], with enough fuel. *)
Lemma map_entries_drain n :
  match map_iterator n, map_entries n with
  | None, None => True
  | Some (stop, next), Some l => exists f, forall g, f <= g -> drain g stop next 0 = Ok l
  | _, _ => False
  end.
Proof.
  destruct (map_entries n) as [l|] eqn:M.
  - apply map_entries_yields in M as (stop & next & -> & R). now apply run_drain.
  - destruct n; cbn in *; try exact I; discriminate.
Qed.

(** ** Lists *)
Definition numbered (l : list node) : list (Z * node) := combine (map Z.of_nat (seq 0 (length l))) l.

Lemma nth_numbered l i : nth_error (numbered l) i = match nth_error l i with Some v => Some (Z.of_nat i, v) | None => None end.
Proof.
  unfold numbered. change (Z.of_nat i) with (Z.of_nat (0 + i)). generalize 0 as b. revert i.
  induction l as [|v l IH]; intros [|i] b; cbn; try reflexivity.
  - now rewrite Nat.add_0_r.
  - rewrite IH. destruct (nth_error l i); [|reflexivity]. do 3 f_equal. lia.
Qed.

Lemma numbered_length l : length (numbered l) = length l.
Proof. unfold numbered. rewrite combine_length, map_length, seq_length. lia. Qed.

Lemma list_run l : run (length l) (list_next l) 0 (numbered l).
Proof.
  rewrite <- (numbered_length l) at 1. apply run_whole. intros i [z v] E. rewrite nth_numbered in E. unfold list_next.
  destruct (nth_error l i); [|discriminate]. now injection E as <- <-.
Qed.

Lemma list_items_lists n l : list_items n = Some l -> lists n (numbered l).
Proof.
  unfold lists. intros E. destruct n; cbn [list_items list_iterator] in *; try discriminate; injection E as <-;
    do 2 eexists; (split; [reflexivity|]); try apply list_run;
    match goal with |- run (length ?l) (list_next (map ?f ?l)) _ _ =>
      rewrite <- (map_length f l) at 1; apply list_run end.
Qed.
Lemma numbered_items l : map snd (numbered l) = l.
Proof.
  unfold numbered. generalize 0. induction l as [|v l IH]; intros b; [reflexivity|]. cbn [length seq map combine]. cbn [snd]. now rewrite IH.
Qed.
Lemma lists_list_items n l : lists n l -> list_items n = Some (map snd l).
Proof.
  intros (stop & next & E & R). destruct (list_items n) as [l'|] eqn:M.
  - destruct (list_items_lists _ _ M) as (stop' & next' & E' & R'). rewrite E in E'. injection E' as <- <-.
    rewrite <- (run_unique _ _ _ _ R' _ R). now rewrite numbered_items.
  - destruct n; cbn in *; discriminate.
Qed.
