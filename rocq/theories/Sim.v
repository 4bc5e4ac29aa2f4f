(** Decoders over two readers that simulate each other give the same results. *)
From Verif Require Import Base GoStr Cid Types Nodes Reader Person Assemble Decode.

Definition rel_res {A A'} (P : A -> A' -> Prop) (r : res A) (r' : res A') : Prop :=
  match r, r' with
  | Ok a, Ok a' => P a a'
  | Err e, Err e' => e = e'
  | Panic, Panic => True
  | OutOfFuel, OutOfFuel => True
  | _, _ => False
  end.

Lemma rel_res_bind {A A' C C'} (P : A -> A' -> Prop) (Q : C -> C' -> Prop) r r' f f' :
  rel_res P r r' -> (forall a a', P a a' -> rel_res Q (f a) (f' a')) ->
  rel_res Q (bind r f) (bind r' f').
Proof. destruct r, r'; cbn; intros; subst; auto; try contradiction. Qed.

Lemma rel_res_eq {A} (r r' : res A) : rel_res eq r r' -> r = r'.
Proof. destruct r, r'; cbn; intros; subst; auto; contradiction. Qed.

Lemma rel_res_refl {A} (r : res A) : rel_res eq r r.
Proof. destruct r; cbn; auto. Qed.

Section Sim.
Context {S1 V1 S2 V2 : Type} (o1 : rdops S1 V1) (o2 : rdops S2 V2) (R : S1 -> S2 -> Prop).

Definition rel_data {A} (x : A * option err * S1) (y : A * option err * S2) : Prop :=
  fst (fst x) = fst (fst y) /\ snd (fst x) = snd (fst y) /\ R (snd x) (snd y).

(** Lines: the same error, and the same bytes if there is none. *)
Definition rel_line (x : V1 * option err * S1) (y : V2 * option err * S2) : Prop :=
  snd (fst x) = snd (fst y) /\ R (snd x) (snd y) /\
  (snd (fst x) = None -> rd_deref o1 (snd x) (fst (fst x)) = rd_deref o2 (snd y) (fst (fst y))).

Record sim_core : Prop := {
  sim_string : forall d s1 s2, R s1 s2 -> rel_res rel_data (rd_string o1 d s1) (rd_string o2 d s2);
  sim_line : forall s1 s2, R s1 s2 -> rel_res rel_line (rd_line o1 s1) (rd_line o2 s2);
  sim_all : forall s1 s2, R s1 s2 -> rel_res rel_data (rd_all o1 s1) (rd_all o2 s2);
  sim_full : forall n s1 s2, R s1 s2 -> rel_res rel_data (rd_full o1 n s1) (rd_full o2 n s2);
  sim_fuel : forall s1 s2, R s1 s2 -> rd_fuel o1 s1 = rd_fuel o2 s2
}.
Definition sim_copy : Prop :=
  forall n s1 s2, R s1 s2 -> rel_res rel_data (rd_copy o1 n s1) (rd_copy o2 n s2).

Context (H : sim_core).

Definition rel_st {A} (x : A * S1) (y : A * S2) : Prop := fst x = fst y /\ R (snd x) (snd y).

Ltac io L :=
  eapply rel_res_bind; [eapply L; eassumption|];
  intros [[? ?] ?] [[? ?] ?] (? & ? & ?); cbn [fst snd] in *; subst.

Ltac errcase :=
  match goal with |- context [match ?e with Some _ => _ | None => _ end] =>
    destruct e as [?e|]; [try reflexivity|] end.

Lemma sim_read_number s1 s2 : R s1 s2 -> rel_res rel_st (read_number o1 s1) (read_number o2 s2).
Proof.
  intros HR. unfold read_number. io (sim_string H). errcase.
  eapply rel_res_bind; [apply rel_res_refl|]. intros ? ? ->.
  eapply rel_res_bind; [apply rel_res_refl|]. intros ? ? ->. split; auto.
Qed.

Lemma sim_decode_blob k s1 s2 : sim_copy -> R s1 s2 ->
  rel_res rel_st (decode_blob o1 k s1) (decode_blob o2 k s2).
Proof.
  intros HC HR. unfold decode_blob. eapply rel_res_bind; [now apply sim_read_number|].
  intros [z t1] [z' t2] [E HR']. cbn in E, HR'. subst z'. destruct (z <? 0)%Z; [reflexivity|].
  io HC. errcase. destruct (negb _); [destruct (_ =? 0); reflexivity|].
  eapply rel_res_bind; [apply rel_res_refl|]. intros ? ? ->. split; auto.
Qed.

Definition rel_entry {A C} (x : A * C * S1) (y : A * C * S2) : Prop := fst x = fst y /\ R (snd x) (snd y).

Lemma sim_decode_tree_entry s1 s2 : R s1 s2 ->
  rel_res rel_entry (decode_tree_entry o1 s1) (decode_tree_entry o2 s2).
Proof.
  intros HR. unfold decode_tree_entry. io (sim_string H). errcase.
  eapply rel_res_bind; [apply rel_res_refl|]. intros mode ? <-.
  io (sim_string H). errcase.
  eapply rel_res_bind; [apply rel_res_refl|]. intros name ? <-.
  io (sim_full H). errcase.
  eapply rel_res_bind; [apply rel_res_refl|]. intros c ? <-. split; auto.
Qed.

Lemma sim_tree_loop f : forall t s1 s2, R s1 s2 -> tree_loop o1 f t s1 = tree_loop o2 f t s2.
Proof.
  induction f as [|f IH]; intros t s1 s2 HR; [reflexivity|]. cbn [tree_loop].
  pose proof (sim_decode_tree_entry s1 s2 HR) as E.
  destruct (decode_tree_entry o1 s1) as [[[n1 e1] t1]|e1| |], (decode_tree_entry o2 s2) as [[[n2 e2] t2]|e2| |];
    cbn [rel_res] in E; try contradiction E; auto.
  - destruct E as [E HR']. cbn [fst snd] in *. injection E as <- <-.
    destruct (tree_insert t n1 e1); cbn [bind]; auto.
  - now subst.
Qed.

Lemma sim_decode_tree k s1 s2 : R s1 s2 -> decode_tree o1 k s1 = decode_tree o2 k s2.
Proof.
  intros HR. apply rel_res_eq. unfold decode_tree.
  eapply rel_res_bind; [now apply sim_read_number|].
  intros [z t1] [z' t2] [E HR']. cbn in E, HR'. subst z'.
  rewrite (sim_fuel H _ _ HR'), (sim_tree_loop _ _ t1 t2 HR'). apply rel_res_refl.
Qed.

Ltac line :=
  eapply rel_res_bind; [eapply (sim_line H); eassumption|];
  let e := fresh "e" in let HV := fresh "HV" in
  intros [[? ?] ?] [[? e] ?] (? & ? & HV); cbn [fst snd] in *; subst;
  destruct e as [e|]; [try reflexivity|specialize (HV eq_refl)].

Lemma sim_gpgsig_loop f : forall sig s1 s2, R s1 s2 ->
  rel_res rel_st (gpgsig_loop o1 f sig s1) (gpgsig_loop o2 f sig s2).
Proof.
  induction f as [|f IH]; intros sig s1 s2 HR; [exact I|]. cbn [gpgsig_loop]. line.
  rewrite HV. destruct (beqb _ _); [split; auto|]. now apply IH.
Qed.

Lemma sim_decode_gpgsig s1 s2 : R s1 s2 ->
  rel_res rel_st (decode_gpgsig o1 s1) (decode_gpgsig o2 s2).
Proof.
  intros HR. unfold decode_gpgsig. line. rewrite HV.
  match goal with H1 : R ?a ?b |- context [rd_fuel o1 ?a] => rewrite (sim_fuel H a b H1) end.
  destruct (negb _); [destruct (_ || _); [|reflexivity]|]; now apply sim_gpgsig_loop.
Qed.

(** Results that end with a line still in the buffer. *)
Definition rel_msg (x : bytes * V1 * S1) (y : bytes * V2 * S2) : Prop :=
  fst (fst x) = fst (fst y) /\ R (snd x) (snd y) /\
  rd_deref o1 (snd x) (snd (fst x)) = rd_deref o2 (snd y) (snd (fst y)).

Definition rel_mt (x : tag * option V1 * S1) (y : tag * option V2 * S2) : Prop :=
  fst (fst x) = fst (fst y) /\ R (snd x) (snd y) /\
  match snd (fst x), snd (fst y) with
  | Some v1, Some v2 => rd_deref o1 (snd x) v1 = rd_deref o2 (snd y) v2
  | None, None => True
  | _, _ => False
  end.

Lemma sim_mergetag_msg_loop f : forall msg s1 s2, R s1 s2 ->
  rel_res rel_msg (mergetag_msg_loop o1 f msg s1) (mergetag_msg_loop o2 f msg s2).
Proof.
  induction f as [|f IH]; intros msg s1 s2 HR; [exact I|]. cbn [mergetag_msg_loop]. line.
  rewrite HV. destruct (negb _); [repeat split; auto|]. now apply IH.
Qed.

Lemma sim_mergetag_loop f : forall out s1 s2, R s1 s2 ->
  rel_res rel_mt (mergetag_loop o1 f out s1) (mergetag_loop o2 f out s2).
Proof.
  induction f as [|f IH]; intros out s1 s2 HR; [exact I|]. cbn [mergetag_loop]. line.
  { destruct (is_eof e); [repeat split; auto|reflexivity]. }
  rewrite HV.
  destruct (has_prefix (bs " type ") _).
  { eapply rel_res_bind; [apply rel_res_refl|]. intros x ? <-. now apply IH. }
  destruct (has_prefix (bs " tag ") _).
  { eapply rel_res_bind; [apply rel_res_refl|]. intros x ? <-. now apply IH. }
  destruct (has_prefix (bs " tagger ") _).
  { eapply rel_res_bind; [apply rel_res_refl|]. intros x ? <-.
    eapply rel_res_bind; [apply rel_res_refl|]. intros p ? <-. now apply IH. }
  destruct (beqb _ (bs " ")); [|now apply IH].
  match goal with H1 : R ?a ?b |- context [rd_fuel o1 ?a] => rewrite (sim_fuel H a b H1) end.
  eapply rel_res_bind; [apply sim_mergetag_msg_loop; eassumption|].
  intros [[m1 v1'] t1] [[m2 v2'] t2] (E & HR' & HD). cbn [fst snd] in *. subst. repeat split; auto.
Qed.

Lemma sim_read_merge_tag sha s1 s2 : R s1 s2 ->
  rel_res rel_mt (read_merge_tag o1 sha s1) (read_merge_tag o2 sha s2).
Proof.
  intros HR. unfold read_merge_tag. eapply rel_res_bind; [apply rel_res_refl|]. intros c ? <-.
  rewrite (sim_fuel H _ _ HR). now apply sim_mergetag_loop.
Qed.

Lemma sim_commit_line f : forall c v1 v2 s1 s2, R s1 s2 -> rd_deref o1 s1 v1 = rd_deref o2 s2 v2 ->
  rel_res rel_st (commit_line o1 f c v1 s1) (commit_line o2 f c v2 s2).
Proof.
  induction f as [|f IH]; intros c v1 v2 s1 s2 HR HV; [exact I|]. cbn [commit_line]. rewrite HV.
  set (line := rd_deref o2 s2 v2).
  destruct (has_prefix (bs "tree ") line).
  { do 3 (eapply rel_res_bind; [apply rel_res_refl|]; intros ? ? <-). split; auto. }
  destruct (has_prefix (bs "parent ") line).
  { do 3 (eapply rel_res_bind; [apply rel_res_refl|]; intros ? ? <-). split; auto. }
  destruct (has_prefix (bs "author ") line).
  { eapply rel_res_bind; [apply rel_res_refl|]; intros ? ? <-. split; auto. }
  destruct (has_prefix (bs "committer ") line).
  { eapply rel_res_bind; [apply rel_res_refl|]; intros ? ? <-. split; auto. }
  destruct (has_prefix (bs "encoding ") line).
  { eapply rel_res_bind; [apply rel_res_refl|]; intros ? ? <-. split; auto. }
  destruct (has_prefix (bs "mergetag object ") line).
  { do 2 (eapply rel_res_bind; [apply rel_res_refl|]; intros ? ? <-).
    eapply rel_res_bind; [apply sim_read_merge_tag; eassumption|].
    intros [[m1 v1'] t1] [[m2 v2'] t2] (E & HR' & HD). cbn [fst snd] in *. subst.
    destruct v1', v2'; try contradiction; [now apply IH|split; auto]. }
  destruct (has_prefix (bs "gpgsig ") line).
  { eapply rel_res_bind; [apply sim_decode_gpgsig; eassumption|].
    intros [g1 t1] [g2 t2] (E & HR'). cbn [fst snd] in *. subst. split; auto. }
  destruct (length line =? 0); [|split; auto].
  io (sim_all H). errcase. split; auto.
Qed.

Lemma sim_commit_loop f : forall c s1 s2, R s1 s2 ->
  rel_res eq (commit_loop o1 f c s1) (commit_loop o2 f c s2).
Proof.
  induction f as [|f IH]; intros c s1 s2 HR; [exact I|]. cbn [commit_loop]. line.
  { destruct (is_eof e); reflexivity. }
  match goal with H1 : R ?a ?b |- context [rd_fuel o1 ?a] => rewrite (sim_fuel H a b H1) end.
  eapply rel_res_bind; [apply sim_commit_line; eassumption|].
  intros [c1 t1] [c2 t2] (E & HR'). cbn [fst snd] in *. subst. now apply IH.
Qed.

Lemma sim_decode_commit k s1 s2 : R s1 s2 -> decode_commit o1 k s1 = decode_commit o2 k s2.
Proof.
  intros HR. apply rel_res_eq. unfold decode_commit.
  eapply rel_res_bind; [now apply sim_read_number|].
  intros [z t1] [z' t2] [E HR']. cbn in E, HR'. subst z'.
  rewrite (sim_fuel H _ _ HR'). eapply rel_res_bind; [now apply sim_commit_loop|].
  intros ? ? ->. apply rel_res_refl.
Qed.

Lemma sim_tag_loop f : forall out pr s1 s2, R s1 s2 ->
  rel_res eq (tag_loop o1 f out pr s1) (tag_loop o2 f out pr s2).
Proof.
  induction f as [|f IH]; intros out pr s1 s2 HR; [exact I|]. cbn [tag_loop]. line.
  { destruct (is_eof e); reflexivity. }
  rewrite HV.
  destruct (has_prefix (bs "object ") _).
  { do 3 (eapply rel_res_bind; [apply rel_res_refl|]; intros ? ? <-). now apply IH. }
  destruct (has_prefix (bs "tag ") _).
  { eapply rel_res_bind; [apply rel_res_refl|]; intros ? ? <-. now apply IH. }
  destruct (has_prefix (bs "tagger ") _).
  { eapply rel_res_bind; [apply rel_res_refl|]; intros ? ? <-. now apply IH. }
  destruct (has_prefix (bs "type ") _).
  { eapply rel_res_bind; [apply rel_res_refl|]; intros ? ? <-. now apply IH. }
  destruct (length _ =? 0); [|now apply IH].
  io (sim_all H). errcase. now apply IH.
Qed.

Lemma sim_decode_tag_printing k s1 s2 : R s1 s2 ->
  decode_tag_printing o1 k s1 = decode_tag_printing o2 k s2.
Proof.
  intros HR. apply rel_res_eq. unfold decode_tag_printing. io (sim_string H). errcase.
  match goal with H1 : R ?a ?b |- context [rd_fuel o1 ?a] => rewrite (sim_fuel H a b H1) end.
  eapply rel_res_bind; [apply sim_tag_loop; eassumption|].
  intros ? ? ->. apply rel_res_refl.
Qed.

Lemma sim_decode_tag k s1 s2 : R s1 s2 -> decode_tag o1 k s1 = decode_tag o2 k s2.
Proof. intros HR. unfold decode_tag. now rewrite (sim_decode_tag_printing _ _ _ HR). Qed.

Lemma sim_read_type s1 s2 : R s1 s2 -> rel_res rel_st (read_type o1 s1) (read_type o2 s2).
Proof.
  intros HR. unfold read_type. io (sim_string H). errcase.
  { destruct (is_eof _); reflexivity. }
  eapply rel_res_bind; [apply rel_res_refl|]. intros ? ? ->. split; auto.
Qed.

Lemma sim_parse_object s1 s2 : sim_copy -> R s1 s2 -> parse_object o1 s1 = parse_object o2 s2.
Proof.
  intros HC HR. apply rel_res_eq. unfold parse_object.
  eapply rel_res_bind; [now apply sim_read_type|].
  intros [z t1] [z' t2] [E HR']. cbn in E, HR'. subst z'.
  destruct (beqb z (bs "tree")); [rewrite (sim_decode_tree _ _ _ HR'); apply rel_res_refl|].
  destruct (beqb z (bs "commit")); [rewrite (sim_decode_commit _ _ _ HR'); apply rel_res_refl|].
  destruct (beqb z (bs "blob")).
  { eapply rel_res_bind; [now apply sim_decode_blob|]. intros ? ? [? _]. assumption. }
  destruct (beqb z (bs "tag")); [rewrite (sim_decode_tag _ _ _ HR'); apply rel_res_refl|]. reflexivity.
Qed.

Lemma sim_decode_into k s1 s2 : sim_copy -> R s1 s2 -> decode_into o1 k s1 = decode_into o2 k s2.
Proof.
  intros HC HR. apply rel_res_eq. unfold decode_into.
  eapply rel_res_bind; [now apply sim_read_type|].
  intros [z t1] [z' t2] [E HR']. cbn in E, HR'. subst z'.
  destruct (beqb z (bs "tree")); [rewrite (sim_decode_tree _ _ _ HR'); apply rel_res_refl|].
  destruct (beqb z (bs "commit")); [rewrite (sim_decode_commit _ _ _ HR'); apply rel_res_refl|].
  destruct (beqb z (bs "blob")).
  { eapply rel_res_bind; [now apply sim_decode_blob|]. intros ? ? [? _]. assumption. }
  destruct (beqb z (bs "tag")); [rewrite (sim_decode_tag _ _ _ HR'); apply rel_res_refl|]. reflexivity.
Qed.

End Sim.
