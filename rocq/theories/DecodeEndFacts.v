(** DecodeEnd.v against Decode.v; what is left unread after success. *)
From Verif Require Import Base GoStr Cid Types Nodes Reader Bufio Person Assemble Decode DecodeEnd Sim SafeOps
  ReaderSpec BufioFacts SafeBufio.

Section Same.
Context {S V : Type} (ops : rdops S V) (I : S -> Prop) (m : S -> nat) (C : contract ops I m).

Lemma entry_end_ok s : I s -> exists s', entry_end ops s = Ok s'.
Proof.
  intros H. unfold entry_end. destruct (ct_string _ _ _ C SP s H) as (x & e & s1 & -> & H1 & _). cbn [bind].
  destruct e; [eauto|]. destruct (ct_string _ _ _ C NUL s1 H1) as (y & e & s2 & -> & H2 & _). cbn [bind].
  destruct e; [eauto|]. destruct (ct_full _ _ _ C 20 s2 H2) as (z & e & s3 & -> & _). cbn [bind]. eauto.
Qed.

Lemma tree_loop_same f : forall t s, I s -> map_res fst (tree_loop_end ops f t s) = tree_loop ops f t s.
Proof.
  induction f as [|f IH]; intros t s H; [reflexivity|]. cbn [tree_loop tree_loop_end].
  pose proof (ok_decode_tree_entry _ _ _ C s H) as K.
  destruct (decode_tree_entry ops s) as [[[name e] s1]|e| |]; try reflexivity.
  - destruct (tree_insert t name e); try reflexivity. cbn [bind]. apply IH. cbn in K. tauto.
  - destruct e; try reflexivity. destruct (entry_end_ok s H) as [s' ->]. reflexivity.
Qed.

Lemma commit_loop_same f : forall c s, map_res fst (commit_loop_end ops f c s) = commit_loop ops f c s.
Proof.
  induction f as [|f IH]; intros c s; [reflexivity|]. cbn [commit_loop commit_loop_end].
  destruct (rd_line ops s) as [[[v e] s1]| | |]; try reflexivity. cbn [bind].
  destruct e as [e|]; [destruct (is_eof e); reflexivity|].
  destruct (commit_line ops _ c v s1) as [[c' s2]| | |]; try reflexivity. apply IH.
Qed.

Lemma tag_loop_same f : forall t pr s, map_res fst (tag_loop_end ops f t s) = map_res fst (tag_loop ops f t pr s).
Proof.
  induction f as [|f IH]; intros t pr s; [reflexivity|]. cbn [tag_loop tag_loop_end].
  destruct (rd_line ops s) as [[[v e] s1]| | |]; try reflexivity. cbn [bind].
  destruct e as [e|]; [destruct (is_eof e); reflexivity|]. cbv zeta.
  repeat match goal with
  | |- context [if ?b then _ else _] => destruct b
  | |- context [bind ?r _] => destruct r as [?| | |]; cbn [bind]; try reflexivity
  | x : (_ * _)%type |- _ => destruct x
  | |- context [match ?e with Some _ => _ | None => _ end] => destruct e; try reflexivity
  end; try apply IH.
Qed.

Lemma decode_into_end_same k s : I s -> map_res fst (decode_into_end ops k s) = decode_into ops k s.
Proof.
  intros H. unfold decode_into_end, decode_into. pose proof (ok_read_type _ _ _ C s H) as K.
  destruct (read_type ops s) as [[typ s1]| | |]; try reflexivity. cbn in K. destruct K as [H1 _]. cbn [bind].
  destruct (beqb typ (bs "tree")).
  { unfold decode_tree. pose proof (ok_read_number _ _ _ C s1 H1) as K.
    destruct (read_number ops s1) as [[z s2]| | |]; try reflexivity. cbn in K. cbn [bind].
    rewrite <- (tree_loop_same _ zero_tree s2 (proj1 K)).
    destruct (tree_loop_end ops _ zero_tree s2) as [[t s3]| | |]; try reflexivity. cbn [bind map_res fst].
    destruct (build_node k (NTree t)); reflexivity. }
  destruct (beqb typ (bs "commit")).
  { unfold decode_commit. destruct (read_number ops s1) as [[z s2]| | |]; try reflexivity. cbn [bind].
    rewrite <- (commit_loop_same _ zero_commit s2).
    destruct (commit_loop_end ops _ zero_commit s2) as [[t s3]| | |]; try reflexivity. cbn [bind map_res fst].
    destruct (build_node k (NCommit t)); reflexivity. }
  destruct (beqb typ (bs "blob")); [reflexivity|]. destruct (beqb typ (bs "tag")); [|reflexivity].
  unfold decode_tag, decode_tag_printing. destruct (rd_string ops NUL s1) as [[[x e] s2]| | |]; try reflexivity. cbn [bind].
  destruct e; [reflexivity|]. pose proof (tag_loop_same (rd_fuel ops s2) zero_tag [] s2) as T.
  destruct (tag_loop_end ops _ zero_tag s2) as [[t s3]| | |], (tag_loop ops _ zero_tag [] s2) as [[t' pr]| | |];
    cbn in T; try discriminate; try reflexivity; cbn [bind]; injection T as <-; try reflexivity.
  destruct (build_node k (NTag t)); reflexivity.
Qed.
End Same.

Theorem decode_into_end_is_decode_into : forall pa pc k b, wf_reader b ->
  map_res fst (decode_into_end (bufio_ops pa pc) k b) = decode_into (bufio_ops pa pc) k b.
Proof. intros. eapply decode_into_end_same; [apply bufio_contract|assumption]. Qed.
Print Assumptions decode_into_end_is_decode_into.

(** ** Two readers that deliver the same leave the same unread *)
Section SimEnd.
Context {S1 V1 S2 V2 : Type} (o1 : rdops S1 V1) (o2 : rdops S2 V2) (R : S1 -> S2 -> Prop) (H : sim_core o1 o2 R).

Ltac io L :=
  eapply rel_res_bind; [eapply L; eassumption|];
  intros [[? ?] ?] [[? ?] ?] (? & ? & ?); cbn [fst snd] in *; subst.
Ltac errcase :=
  match goal with |- context [match ?e with Some _ => _ | None => _ end] =>
    destruct e as [?e|]; [try reflexivity|] end.
Ltac line :=
  eapply rel_res_bind; [eapply (sim_line _ _ _ H); eassumption|];
  let e := fresh "e" in let HV := fresh "HV" in
  intros [[? ?] ?] [[? e] ?] (? & ? & HV); cbn [fst snd] in *; subst;
  destruct e as [e|]; [try reflexivity|specialize (HV eq_refl)].

Lemma sim_entry_end s1 s2 : R s1 s2 -> rel_res R (entry_end o1 s1) (entry_end o2 s2).
Proof.
  intros HR. unfold entry_end. io (sim_string _ _ _ H). errcase; [assumption|].
  io (sim_string _ _ _ H). errcase; [assumption|]. io (sim_full _ _ _ H). assumption.
Qed.

Lemma sim_tree_loop_end f : forall t s1 s2, R s1 s2 ->
  rel_res (rel_st R) (tree_loop_end o1 f t s1) (tree_loop_end o2 f t s2).
Proof.
  induction f as [|f IH]; intros t s1 s2 HR; [exact I|]. cbn [tree_loop_end].
  pose proof (sim_decode_tree_entry _ _ _ H s1 s2 HR) as E.
  destruct (decode_tree_entry o1 s1) as [[[n1 e1] t1]|e1| |], (decode_tree_entry o2 s2) as [[[n2 e2] t2]|e2| |];
    cbn [rel_res] in E; try contradiction E; try exact I.
  - destruct E as [E HR']. cbn [fst snd] in *. injection E as <- <-.
    eapply rel_res_bind; [apply rel_res_refl|]. intros ? ? <-. now apply IH.
  - subst e2. destruct e1; try reflexivity.
    eapply rel_res_bind; [now apply sim_entry_end|]. intros ? ? ?. now split.
Qed.

Lemma sim_commit_loop_end f : forall c s1 s2, R s1 s2 ->
  rel_res (rel_st R) (commit_loop_end o1 f c s1) (commit_loop_end o2 f c s2).
Proof.
  induction f as [|f IH]; intros c s1 s2 HR; [exact I|]. cbn [commit_loop_end]. line.
  { destruct (is_eof e); [now split|reflexivity]. }
  match goal with H1 : R ?a ?b |- context [rd_fuel o1 ?a] => rewrite (sim_fuel _ _ _ H a b H1) end.
  eapply rel_res_bind; [eapply sim_commit_line; eassumption|].
  intros [c1 t1] [c2 t2] (E & HR'). cbn [fst snd] in *. subst. now apply IH.
Qed.

Lemma sim_tag_loop_end f : forall out s1 s2, R s1 s2 ->
  rel_res (rel_st R) (tag_loop_end o1 f out s1) (tag_loop_end o2 f out s2).
Proof.
  induction f as [|f IH]; intros out s1 s2 HR; [exact I|]. cbn [tag_loop_end]. line.
  { destruct (is_eof e); [now split|reflexivity]. }
  rewrite HV.
  destruct (has_prefix (bs "object ") _).
  { do 3 (eapply rel_res_bind; [apply rel_res_refl|]; intros ? ? <-). now apply IH. }
  destruct (has_prefix (bs "tag ") _).
  { eapply rel_res_bind; [apply rel_res_refl|]; intros ? ? <-. now apply IH. }
  destruct (has_prefix (bs "tagger ") _).
  { eapply rel_res_bind; [apply rel_res_refl|]; intros ? ? <-. now apply IH. }
  destruct (has_prefix (bs "type ") _).
  { eapply rel_res_bind; [apply rel_res_refl|]; intros ? ? <-. now apply IH. }
  destruct (length _ =? 0); [|now apply IH].
  io (sim_all _ _ _ H). errcase. now apply IH.
Qed.

Lemma sim_decode_into_end k s1 s2 : sim_copy o1 o2 R -> R s1 s2 ->
  rel_res (rel_st R) (decode_into_end o1 k s1) (decode_into_end o2 k s2).
Proof.
  intros HC HR. unfold decode_into_end.
  eapply rel_res_bind; [eapply sim_read_type; eassumption|].
  intros [z t1] [z' t2] [E HR']. cbn in E, HR'. subst z'.
  destruct (beqb z (bs "tree")).
  { eapply rel_res_bind; [eapply sim_read_number; eassumption|]. intros [? a] [? b] [_ HR2]. cbn [snd] in HR2.
    rewrite (sim_fuel _ _ _ H _ _ HR2). eapply rel_res_bind; [now apply sim_tree_loop_end|].
    intros [? ?] [? ?] [E HR3]. cbn [fst snd] in *. subst. eapply rel_res_bind; [apply rel_res_refl|]. intros ? ? <-. now split. }
  destruct (beqb z (bs "commit")).
  { eapply rel_res_bind; [eapply sim_read_number; eassumption|]. intros [? a] [? b] [_ HR2]. cbn [snd] in HR2.
    rewrite (sim_fuel _ _ _ H _ _ HR2). eapply rel_res_bind; [now apply sim_commit_loop_end|].
    intros [? ?] [? ?] [E HR3]. cbn [fst snd] in *. subst. eapply rel_res_bind; [apply rel_res_refl|]. intros ? ? <-. now split. }
  destruct (beqb z (bs "blob")); [eapply sim_decode_blob; eassumption|].
  destruct (beqb z (bs "tag")); [|reflexivity].
  io (sim_string _ _ _ H). errcase.
  match goal with H1 : R ?a ?b |- context [rd_fuel o1 ?a] => rewrite (sim_fuel _ _ _ H a b H1) end.
  eapply rel_res_bind; [apply sim_tag_loop_end; eassumption|].
  intros [? ?] [? ?] [E HR3]. cbn [fst snd] in *. subst. eapply rel_res_bind; [apply rel_res_refl|]. intros ? ? <-. now split.
Qed.
End SimEnd.

(** ** Trees, commits and tags are read to the end *)
Section StreamEnd.
Context (B : nat).
Notation ops := (stream_ops B).

Lemma string_eof d s x e s' : stream_string d s = Ok (x, Some e, s') -> st_data s' = [].
Proof. unfold stream_string. destruct (cut d (st_data s)) as [[? ?]|]; intros [= <- <- <-]; reflexivity. Qed.

Lemma line_eof s x e s' : stream_line B s = Ok (x, Some e, s') -> st_data s' = [].
Proof.
  unfold stream_line. destruct (st_data s) eqn:E; [intros [= <- <- <-]; exact E|].
  destruct (cut NL _) as [[? ?]|]; [discriminate|]. destruct (B <=? _); [|discriminate].
  cbv zeta. destruct (byte_eqb _ _); discriminate.
Qed.

Lemma full_eof n s x e s' : stream_full n s = Ok (x, Some e, s') -> st_data s' = [].
Proof.
  unfold stream_full. destruct (n <=? _); [discriminate|]. destruct (st_data s) eqn:E; intros [= <- <- <-]; [exact E|reflexivity].
Qed.

Lemma entry_end_eof s s' : decode_tree_entry ops s = Err EEOF -> entry_end ops s = Ok s' -> st_data s' = [].
Proof.
  unfold decode_tree_entry, entry_end. cbn [rd_string rd_full stream_ops].
  destruct (stream_string SP s) as [[[x e] s1]| | |] eqn:E1; cbn [bind]; try discriminate.
  destruct e as [e|]; [intros _ [= <-]; eapply string_eof, E1|].
  destruct (go_drop_last x) eqn:Dx; cbn [bind]; try discriminate; [|destruct x; discriminate Dx].
  destruct (stream_string NUL s1) as [[[y e] s2]| | |] eqn:E2; cbn [bind]; try discriminate.
  destruct e as [e|]; [intros _ [= <-]; eapply string_eof, E2|].
  destruct (go_drop_last y) eqn:Dy; cbn [bind]; try discriminate; [|destruct y; discriminate Dy].
  destruct (stream_full 20 s2) as [[[z e] s3]| | |] eqn:E3; cbn [bind]; try discriminate.
  destruct e as [e|]; [intros _ [= <-]; eapply full_eof, E3|].
  unfold sha_to_cid. destruct (length z =? gitSHALen); discriminate.
Qed.

Lemma tree_loop_end_eof f : forall t s t' s', tree_loop_end ops f t s = Ok (t', s') -> st_data s' = [].
Proof.
  induction f as [|f IH]; intros t s t' s'; [discriminate|]. cbn [tree_loop_end].
  destruct (decode_tree_entry ops s) as [[[n e] s1]|e| |] eqn:E; try discriminate.
  - destruct (tree_insert t n e); cbn [bind]; try discriminate. apply IH.
  - destruct e; try discriminate. intros Q. apply bind_ok in Q as (s2 & Q & [= <- <-]). eapply entry_end_eof; eassumption.
Qed.

Lemma commit_loop_end_eof f : forall t s t' s', commit_loop_end ops f t s = Ok (t', s') -> st_data s' = [].
Proof.
  induction f as [|f IH]; intros t s t' s'; [discriminate|]. cbn [commit_loop_end]. intros Q.
  apply bind_ok in Q as ([[v e] s1] & E & Q). destruct e as [e|].
  - destruct (is_eof e); [|discriminate]. injection Q as <- <-. eapply line_eof, E.
  - apply bind_ok in Q as ([c s2] & _ & Q). eapply IH, Q.
Qed.

Lemma tag_loop_end_eof f : forall t s t' s', tag_loop_end ops f t s = Ok (t', s') -> st_data s' = [].
Proof.
  induction f as [|f IH]; intros t s t' s'; [discriminate|]. cbn [tag_loop_end]. intros Q.
  apply bind_ok in Q as ([[v e] s1] & E & Q). destruct e as [e|].
  - destruct (is_eof e); [|discriminate]. injection Q as <- <-. eapply line_eof, E.
  - cbv zeta in Q.
    repeat match type of Q with
    | (if ?b then _ else _) = _ => destruct b
    | bind _ _ = Ok _ => let x := fresh "x" in apply bind_ok in Q as (x & ? & Q)
    | (let (_, _) := ?x in _) = _ => destruct x as [[? ?] ?]
    | match ?e with Some _ => _ | None => _ end = _ => destruct e; [discriminate|]
    end; eapply IH, Q.
Qed.

Lemma decode_into_end_eof k s n s' : decode_into_end ops k s = Ok (n, s') ->
  st_data s' = [] \/ exists s1, read_type ops s = Ok (bs "blob", s1) /\ decode_blob ops k s1 = Ok (n, s').
Proof.
  unfold decode_into_end. intros Q. apply bind_ok in Q as ([w s1] & E & Q).
  destruct (beqb w (bs "tree")).
  { left. apply bind_ok in Q as ([? s2] & _ & Q). apply bind_ok in Q as ([t s3] & L & Q).
    apply bind_ok in Q as (? & _ & [= <- <-]). eapply tree_loop_end_eof, L. }
  destruct (beqb w (bs "commit")).
  { left. apply bind_ok in Q as ([? s2] & _ & Q). apply bind_ok in Q as ([t s3] & L & Q).
    apply bind_ok in Q as (? & _ & [= <- <-]). eapply commit_loop_end_eof, L. }
  destruct (beqb_spec w (bs "blob")) as [->|]; [right; eauto|].
  destruct (beqb w (bs "tag")); [|discriminate]. left.
  apply bind_ok in Q as ([[? e] s2] & _ & Q). destruct e; [discriminate|]. apply bind_ok in Q as ([t s3] & L & Q).
  apply bind_ok in Q as (? & _ & [= <- <-]). eapply tag_loop_end_eof, L.
Qed.
End StreamEnd.
