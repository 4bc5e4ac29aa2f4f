(** Decoding a commit block by block, whatever follows; and the blocks are unique. *)
From Verif Require Import Base GoStr Cid Types Nodes Reader Person Assemble Decode Encode Spec HeaderSpec NormalSpec
  StreamFacts PersonFacts DecodeFacts RoundTrip CommitFacts GrammarFacts NormalFacts.

(** What a block needs to be found again in the lines: the rest of [block_ok] is about values. *)
Definition block_wf (k : block) : Prop :=
  match k with
  | KMergetag _ _ ms msg => (forall m, In m ms -> mline_text m <> bs " ") /\ forall l, In l msg -> starts_with SP l
  | KSignature _ _ ss => ~ In pgp_end ss
  | KOther l => l <> [] /\ ~ is_header l
  | _ => True
  end.
Lemma block_ok_wf k : block_ok k -> block_wf k.
Proof.
  destruct k; cbn; auto.
  - intros (_ & _ & H & H'). split; [|exact H']. intros m I. now apply mline_not_blank, H.
  - intros H. apply H.
Qed.

(** The first line of a block. *)
Lemma block_first k : block_wf k -> exists l ls, block_lines k = l :: ls /\
  (starts_with SP l -> exists o, k = KOther o) /\ l <> [].
Proof.
  intros H. destruct k as [h sha|h sha|x p|x p|x|h sha ms msg|x first ss|l]; cbn [block_lines app]; do 2 eexists; (split; [reflexivity|]);
    (split; [|try discriminate]); try (intros [q Q]; discriminate Q).
  - eauto.
  - apply H.
Qed.

Section B.
Context (B : nat) (HB : 64 <= B).
Notation ops := (stream_ops B).
Let HB2 : 2 <= B. Proof. lia. Qed.

(** ** Lines of text *)
Lemma takes_line_ok l r : line_ok B l -> takes B (l ++ [NL] ++ r) l r.
Proof. intros (N & C & L). now apply takes_nl. Qed.

Lemma reads_unlines ls r : (forall l, In l ls -> line_ok B l) -> reads B (unlines ls ++ r) ls r.
Proof.
  induction ls as [|l ls IH]; intros H; [constructor|]. rewrite unlines_cons, <- app_assoc.
  econstructor; [apply takes_line_ok, H; now left|]. apply IH. intros; apply H; now right.
Qed.

(** ** One block at a time *)
Lemma from_mergetag_eq c h sha d ms msg nx r : hex_text h sha -> is_sha sha ->
  reads B d (map mline_text ms ++ [bs " "] ++ msg ++ [nx]) r ->
  (forall m, In m ms -> mline_ok m) -> (forall l, In l msg -> starts_with SP l) -> ~ starts_with SP nx ->
  run_from B c (bs "mergetag object " ++ h) d = run_from B (with_mergetags c [mtag_value sha ms (unlines msg)]) nx r.
Proof.
  intros Ht Hs Q Hm Hsp Nn. unfold run_from at 1, commit_step.
  assert (forall s, commit_line ops (S (length (st_data s))) c (bs "mergetag object " ++ h) s =
    (let* sha := hex_decode h in
     let* (mt, r, s1) := read_merge_tag ops sha s in
     match r with
     | Some v => commit_line ops (length (st_data s)) (with_mergetags c [mt]) v s1
     | None => Ok (with_mergetags c [mt], s1)
     end)) as U.
  { intros s. change (commit_line ops (S (length (st_data s))) c (bs "mergetag object " ++ h) s) with
    (let* h := go_from 16 (bs "mergetag object " ++ h) in
     let* sha := hex_decode h in
     let* (mt, r, s1) := read_merge_tag ops sha s in
     match r with
     | Some v => commit_line ops (length (st_data s)) (with_mergetags c [mt]) v s1
     | None => Ok (with_mergetags c [mt], s1)
     end). now rewrite go_from_app by reflexivity. }
  rewrite U. clear U. cbn [mk st_data].
  assert (forall sha ms m, with_msg (fold_left mline_apply ms {| t_object := git_link sha; t_type := []; t_tag := []; t_tagger := zero_person; t_message := [] |}) m = mtag_value sha ms m) as W.
  { intros sha' ms' m. rewrite <- mline_fold_msg. reflexivity. }
  rewrite (hex_text_decode _ _ Ht). cbn [bind]. unfold read_merge_tag.
  rewrite sha_to_cid_ok by exact Hs. cbn [bind]. change (rd_fuel ops (mk d EEOF)) with (S (length d)).
  change (LCid (x01 :: x78 :: x11 :: x14 :: sha)) with (git_link sha).
  match goal with |- context [mergetag_loop ops ?f ?o ?s] =>
    assert (mergetag_loop ops f o s = Ok (mtag_value sha ms (unlines msg), Some nx, mk r EEOF)) as -> end.
  { apply (mergetag_loop_iff B HB); [lia|]. right. exists ms, msg, nx, r. rewrite W. auto 10. }
  cbn [bind]. unfold run_from. replace (commit_line ops (length d) (with_mergetags c [mtag_value sha ms (unlines msg)]) nx (mk r EEOF))
    with (commit_step B (with_mergetags c [mtag_value sha ms (unlines msg)]) nx (mk r EEOF)); [reflexivity|].
  assert (length r < length d) by (apply (reads_longer B HB) in Q; rewrite !app_length in Q; cbn [length] in Q; lia).
  symmetry. apply (commit_line_good B HB2); cbn; lia.
Qed.

Definition is_mergetag (k : block) : Prop := match k with KMergetag _ _ _ _ => True | _ => False end.

Lemma run_block c k d d1 : block_ok k -> reads B d (block_lines k) d1 ->
  (is_mergetag k -> exists nx r, takes B d1 nx r /\ ~ starts_with SP nx) ->
  commit_run B c (mk d EEOF) = commit_run B (apply_block c k) (mk d1 EEOF).
Proof.
  intros Ok1 R1 Hn. destruct k as [h sha|h sha|x p|x p|x|h sha ms msg|x first ss|l];
    try (cbn [block_lines] in R1; apply reads_cons_inv in R1 as (d2 & T1 & R2); apply reads_none_iff in R2; subst d2;
         rewrite (run_takes B HB _ _ _ _ T1); unfold run_from; erewrite (step_simple B) by (try eassumption; reflexivity); reflexivity).
  - destruct Hn as (nx & r & T & Nn); [exact Logic.I|]. destruct Ok1 as (Ht & Hs & Hms & Hsp).
    change (reads B d ((bs "mergetag object " ++ h) :: map mline_text ms ++ bs " " :: msg) d1) in R1.
    apply reads_cons_inv in R1 as (d2 & T1 & R2). rewrite (run_takes B HB _ _ _ _ T1), (run_takes B HB _ _ _ _ T).
    apply from_mergetag_eq; auto.
    replace (map mline_text ms ++ [bs " "] ++ msg ++ [nx]) with ((map mline_text ms ++ bs " " :: msg) ++ [nx]) by (lnorm; reflexivity).
    apply reads_app. exists d1. split; [exact R2|]. econstructor; [exact T|constructor].
  - change (reads B d ((bs "gpgsig " ++ x) :: first :: ss ++ [pgp_end]) d1) in R1. apply reads_cons_inv in R1 as (d2 & T1 & R2).
    rewrite (run_takes B HB _ _ _ _ T1). unfold run_from. rewrite step_signature.
    assert (decode_gpgsig ops (mk d2 EEOF) = Ok (unlines (first :: ss), mk d1 EEOF)) as ->; [|reflexivity].
    apply (decode_gpgsig_iff B HB). exists first, ss, d1. auto.
Qed.

(** Every merge tag in [ks] is followed by a line that does not start with a space. *)
Lemma run_prefix ks : forall c d r,
  reads B d (header_lines ks) r -> (forall k, In k ks -> block_ok k) -> mergetags_end ks (EndMessage []) ->
  (forall q k, ks = q ++ [k] -> is_mergetag k -> exists nx r', takes B r nx r' /\ ~ starts_with SP nx) ->
  commit_run B c (mk d EEOF) = commit_run B (fold_left apply_block ks c) (mk r EEOF).
Proof.
  induction ks as [|k ks IH]; intros c d r R Hk Hm Hn.
  - apply reads_none_iff in R. subst. reflexivity.
  - unfold header_lines in R. cbn [map concat] in R. apply reads_app in R as (d1 & R1 & R). fold (header_lines ks) in R.
    cbn [fold_left]. rewrite (run_block c k d d1); auto.
    + apply IH; auto; [intros; apply Hk; now right| |].
      * destruct k; cbn [mergetags_end] in Hm; tauto.
      * intros q k' -> I. eapply (Hn (k :: q)); [reflexivity|exact I].
    + apply Hk. now left.
    + intros Im. destruct ks as [|k2 ks].
      * apply reads_none_iff in R. subst d1. exact (Hn [] k eq_refl Im).
      * destruct (block_first k2) as (l & ls & El & Sp & _); [apply block_ok_wf, Hk; right; now left|].
        unfold header_lines in R. cbn [map concat] in R. rewrite El in R. cbn [app] in R. apply reads_cons_inv in R as (d2 & T & _).
        exists l, d2. split; [exact T|]. intros S1. destruct (Sp S1) as [o ->].
        destruct k; try contradiction. cbn [mergetags_end] in Hm. destruct Hm as [Hm _].
        cbn in El. injection El as <- <-. contradiction.
Qed.

End B.

(** ** The blocks of a header are determined by its lines *)
Lemma app_split_first {A} (x : A) p q s t : ~ In x p -> ~ In x q -> p ++ x :: s = q ++ x :: t -> p = q /\ s = t.
Proof.
  revert q. induction p as [|a p IH]; intros [|b q] Hp Hq E; cbn [app] in E.
  - injection E as ->. auto.
  - exfalso. injection E as <- _. apply Hq. now left.
  - exfalso. injection E as -> _. apply Hp. now left.
  - injection E as -> E. apply IH in E as [-> ->]; auto; [intros I; apply Hp; now right|intros I; apply Hq; now right].
Qed.

Definition no_sp_head (ls : list bytes) : Prop := match ls with [] => False | l :: _ => ~ starts_with SP l end.

Lemma app_split_sp (p q s t : list bytes) : (forall l, In l p -> starts_with SP l) -> (forall l, In l q -> starts_with SP l) ->
  no_sp_head s -> no_sp_head t -> p ++ s = q ++ t -> p = q /\ s = t.
Proof.
  revert q. induction p as [|a p IH]; intros [|b q] Hp Hq Hs Ht E; cbn [app] in E.
  - auto.
  - exfalso. subst s. cbn in Hs. apply Hs, Hq. now left.
  - exfalso. subst t. cbn in Ht. apply Ht, Hp. now left.
  - injection E as -> E. apply IH in E as [-> ->]; auto; [intros; apply Hp; now right|intros; apply Hq; now right].
Qed.

Definition kind_word (k : block) : option bytes :=
  match k with KOther _ => None | _ => nth_error header_words (kind k) end.

Lemma block_kind k k' ls ls' : block_wf k -> block_wf k' -> block_lines k ++ ls = block_lines k' ++ ls' -> kind k = kind k'.
Proof.
  intros H H' E.
  assert (forall k, block_wf k -> match kind_word k with
    | Some w => exists x t, block_lines k = (w ++ x) :: t /\ In w header_words
    | None => exists l, block_lines k = [l] /\ ~ is_header l end) as W.
  { intros [h sha|h sha|x p|x p|x|h sha ms msg|x first ss|l] Hk; cbn [kind_word kind nth_error header_words block_lines app];
      try (do 2 eexists; split; [reflexivity|cbn; auto 10]). exists l. split; [reflexivity|]. apply Hk. }
  pose proof (W _ H) as W1. pose proof (W _ H') as W2. clear W.
  destruct (kind_word k) as [w|] eqn:K1; destruct (kind_word k') as [w'|] eqn:K2.
  - destruct W1 as (x & t & E1 & I1). destruct W2 as (x' & t' & E2 & I2). rewrite E1, E2 in E. cbn [app] in E.
    assert (w ++ x = w' ++ x') as E0 by congruence. clear - K1 K2 E0.
    destruct k; cbn in K1; try discriminate; injection K1 as <-; destruct k'; cbn in K2; try discriminate; injection K2 as <-;
      try reflexivity; cbn in E0; discriminate E0.
  - exfalso. destruct W1 as (x & t & E1 & I1). destruct W2 as (l & E2 & N). rewrite E1, E2 in E. cbn [app] in E.
    apply N. exists w. split; [exact I1|]. exists x. congruence.
  - exfalso. destruct W2 as (x & t & E1 & I1). destruct W1 as (l & E2 & N). rewrite E1, E2 in E. cbn [app] in E.
    apply N. exists w'. split; [exact I1|]. exists x. congruence.
  - destruct k; try discriminate K1. destruct k'; try discriminate K2. reflexivity.
Qed.

Lemma block_prefix k k' ls ls' : block_wf k -> block_wf k' ->
  (is_mergetag k -> no_sp_head ls) -> (is_mergetag k' -> no_sp_head ls') ->
  block_lines k ++ ls = block_lines k' ++ ls' ->
  kind k = kind k' /\ block_lines k = block_lines k' /\ ls = ls'.
Proof.
  intros H H' M M' E. pose proof (block_kind k k' ls ls' H H' E) as K. split; [exact K|].
  assert (forall (a b : bytes) s t, [a] ++ s = [b] ++ t -> [a] = [b] /\ s = t) as S1 by (intros a b s t Q; cbn in Q; split; congruence).
  destruct k as [h sha|h sha|x p|x p|x|h sha ms msg|x first ss|l]; destruct k' as [h' sha'|h' sha'|x' p'|x' p'|x'|h' sha' ms' msg'|x' first' ss'|l'];
    try discriminate K; cbn [block_lines] in *; try (now apply S1).
  - rewrite <- !app_assoc in E. change ([?a] ++ ?b) with (a :: b) in E.
    assert (forall (a b : bytes) s t, a :: s = b :: t -> a = b /\ s = t) as S2 by (intros a b s t Q; split; congruence).
    apply S2 in E as [E1 E]. change (([bs " "] ++ msg) ++ ls) with (bs " " :: msg ++ ls) in E.
    change (([bs " "] ++ msg') ++ ls') with (bs " " :: msg' ++ ls') in E.
    apply app_split_first in E as [E2 E].
    + apply app_split_sp in E as [-> ->]; [|apply H|apply H'|apply M; exact Logic.I|apply M'; exact Logic.I].
      rewrite E1, E2. auto.
    + intros I. apply in_map_iff in I as (m & Em & I). destruct H as (Hm & _). now apply (Hm m I).
    + intros I. apply in_map_iff in I as (m & Em & I). destruct H' as (Hm & _). now apply (Hm m I).
  - rewrite <- !app_assoc in E. change ([?a] ++ ?b) with (a :: b) in E.
    assert (forall (a b : bytes) s t, a :: s = b :: t -> a = b /\ s = t) as S2 by (intros a b s t Q; split; congruence).
    apply S2 in E as [E1 E]. apply S2 in E as [-> E].
    apply app_split_first in E as [-> ->]; [|apply H|apply H']. rewrite E1. auto.
Qed.

(** The lines after a merge tag, in a header that ends with a blank line. *)
Lemma no_sp_after k ks : mergetags_end (k :: ks) (EndMessage []) -> is_mergetag k -> (forall k, In k ks -> block_wf k) ->
  no_sp_head (header_lines ks ++ [[]]).
Proof.
  intros Hm Im Hk. destruct ks as [|k2 ks]; [intros [q Q]; discriminate Q|].
  destruct (block_first k2) as (l & ls & El & Sp & _); [apply Hk; now left|].
  unfold header_lines. cbn [map concat]. rewrite El. cbn [app no_sp_head]. intros S1. destruct (Sp S1) as [o ->].
  destruct k; try contradiction. cbn [mergetags_end] in Hm. destruct Hm as [Hm _].
  cbn in El. injection El as <- <-. contradiction.
Qed.

Lemma blocks_unique : forall ks ks',
  (forall k, In k ks -> block_wf k) -> (forall k, In k ks' -> block_wf k) ->
  mergetags_end ks (EndMessage []) -> mergetags_end ks' (EndMessage []) ->
  header_lines ks ++ [[]] = header_lines ks' ++ [[]] ->
  map kind ks = map kind ks' /\ map block_lines ks = map block_lines ks'.
Proof.
  assert (forall k ks, block_wf k -> header_lines (k :: ks) ++ [[]] <> header_lines [] ++ [[]]) as N.
  { intros k ks Hk E. destruct (block_first k Hk) as (l & ls & El & _ & Nl). unfold header_lines in E. cbn [map concat] in E. rewrite El in E.
    cbn in E. apply Nl. congruence. }
  induction ks as [|k ks IH]; intros [|k' ks'] Hk Hk' Hm Hm' E.
  - auto.
  - exfalso. eapply N; [|symmetry; exact E]. apply Hk'. now left.
  - exfalso. eapply N; [|exact E]. apply Hk. now left.
  - unfold header_lines in E. cbn [map concat] in E. rewrite <- !app_assoc in E. fold (header_lines ks) in E. fold (header_lines ks') in E.
    apply block_prefix in E as (E1 & E2 & E3).
    + apply IH in E3 as [E3 E4].
      * cbn [map]. rewrite E1, E2, E3, E4. auto.
      * intros; apply Hk; now right.
      * intros; apply Hk'; now right.
      * destruct k; cbn [mergetags_end] in Hm; tauto.
      * destruct k'; cbn [mergetags_end] in Hm'; tauto.
    + apply Hk; now left.
    + apply Hk'; now left.
    + intros Im. eapply no_sp_after; eauto. intros; apply Hk; now right.
    + intros Im. eapply no_sp_after; eauto. intros; apply Hk'; now right.
Qed.
