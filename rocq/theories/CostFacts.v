(** Facts about the costed decoders: their results are those of the decoders, readers that
    deliver the same bytes cost the same, and the bounds. *)
From Verif Require Import Base GoStr Cid Types Nodes Reader Person Assemble Decode Cost Spec HeaderSpec
  StreamFacts PersonFacts DecodeFacts RoundTrip CommitFacts GrammarFacts Sim NumFacts Props_memory.

(** ** The results *)
Lemma snd_cbind {A C} (x : costed A) (f : A -> costed C) : snd (cbind x f) = bind (snd x) (fun a => snd (f a)).
Proof. unfold cbind. now destruct (snd x). Qed.
Lemma bind_ext {A C} (x : res A) (f g : A -> res C) : (forall a, f a = g a) -> bind x f = bind x g.
Proof. intros H. destruct x; cbn; auto. Qed.
Lemma bind_map {A A' C} (h : A -> A') (x : res A) (f : A' -> res C) : bind (map_res h x) f = bind x (fun a => f (h a)).
Proof. now destruct x. Qed.
Lemma map_bind {A C D} (h : C -> D) (x : res A) (f : A -> res C) : map_res h (bind x f) = bind x (fun a => map_res h (f a)).
Proof. now destruct x. Qed.

Section Same.
Context (grow bgrow pick : nat -> nat -> nat).
Lemma snd_write b x : snd (write grow b x) = Ok {| b_text := b_text b ++ x; b_cap := b_cap (match snd (write grow b x) with Ok b' => b' | _ => b end) |}.
Proof. unfold write. now destruct (_ <=? _). Qed.

Ltac same := repeat (rewrite !snd_cbind; cbn [snd at_cost free bind]).

Lemma name_loop_same line f parts : forall a n, snd (name_loop_c line f parts a n) = person_name_loop line f parts a n.
Proof.
  induction f as [|f IH]; intros a n; [reflexivity|]. cbn [name_loop_c person_name_loop]. destruct (a =? _); [reflexivity|]. same.
  apply bind_ext. intros part. destruct (negb _).
  - same. apply bind_ext. intros c. destruct (byte_eqb c LT); [reflexivity|]. same. apply IH.
  - destruct (0 <? _); same; apply IH.
Qed.
Lemma email_loop_same line f parts : forall a b,
  map_res (fun '(a, b) => (a, b_text b)) (snd (email_loop_c grow line f parts a b)) = person_email_loop line f parts a (b_text b).
Proof.
  induction f as [|f IH]; intros a b; [reflexivity|]. cbn [email_loop_c person_email_loop]. destruct (a =? _); [reflexivity|]. same.
  rewrite map_bind. apply bind_ext. intros p0. same. rewrite map_bind. apply bind_ext. intros p. same. rewrite map_bind. apply bind_ext.
  intros []; same.
  - rewrite map_bind. apply bind_ext. intros q. same. rewrite snd_write. cbn [bind map_res free snd b_text]. reflexivity.
  - rewrite snd_write. cbn [bind]. rewrite IH. reflexivity.
Qed.
Lemma person_same line : snd (parse_person_c grow line) = parse_person line.
Proof.
  unfold parse_person_c, parse_person. cbv zeta. same. destruct (_ <? 3); [reflexivity|]. same. rewrite name_loop_same. apply bind_ext. intros [a1 n1].
  same. apply bind_ext. intros pn. same. pose proof (email_loop_same line (Datatypes.S (length (split_on SP line))) (split_on SP line) a1 empty_builder) as E. cbn [b_text empty_builder] in E.
  rewrite <- E, bind_map. apply bind_ext. intros [a2 b2].
  destruct (a2 =? _); [reflexivity|]. same. apply bind_ext. intros date. same. destruct (_ =? _); [reflexivity|]. same. apply bind_ext. intros tz. reflexivity.
Qed.

Context {S V : Type} (ops : rdops S V).
Ltac next := apply bind_ext; intros.
Ltac split3 := apply bind_ext; intros [[? [?|]] ?]; [reflexivity|].
Lemma read_number_same s : snd (read_number_c ops s) = read_number ops s.
Proof. unfold read_number_c, read_number. same. split3. same. next. same. next. reflexivity. Qed.
Lemma blob_same k s : snd (decode_blob_c bgrow pick ops k s) = decode_blob ops k s.
Proof.
  unfold decode_blob_c, decode_blob. same. rewrite read_number_same. apply bind_ext. intros [z s1]. destruct (z <? 0)%Z; [reflexivity|]. same. split3.
  destruct (negb _); [now destruct (_ =? 0)|]. same. next. reflexivity.
Qed.
Lemma entry_same s : snd (decode_tree_entry_c ops s) = decode_tree_entry ops s.
Proof. unfold decode_tree_entry_c, decode_tree_entry. same. split3. same. next. same. split3. same. next. same. split3. same. next. reflexivity. Qed.
Lemma tree_loop_same f : forall t cap s, snd (tree_loop_c grow ops f t cap s) = tree_loop ops f t s.
Proof.
  induction f as [|f IH]; intros t cap s; [reflexivity|]. cbn [tree_loop_c tree_loop]. rewrite entry_same.
  destruct (decode_tree_entry ops s) as [[[n e] s1]|e| |]; try reflexivity.
  - destruct (append_one _ _ _) as [m cap']. same. apply bind_ext. intros. apply IH.
  - now destruct e.
Qed.
Lemma tree_same k s : snd (decode_tree_c grow ops k s) = decode_tree ops k s.
Proof. unfold decode_tree_c, decode_tree. same. rewrite read_number_same. apply bind_ext. intros [z s1]. same. rewrite tree_loop_same. apply bind_ext. reflexivity. Qed.
Lemma gpgsig_loop_same f : forall b s, snd (gpgsig_loop_c grow ops f b s) = gpgsig_loop ops f (b_text b) s.
Proof.
  induction f as [|f IH]; intros b s; [reflexivity|]. cbn [gpgsig_loop_c gpgsig_loop]. same. split3. destruct (beqb _ _); [reflexivity|].
  same. rewrite snd_write. cbn [bind]. apply IH.
Qed.
Lemma gpgsig_same s : snd (decode_gpgsig_c grow ops s) = decode_gpgsig ops s.
Proof.
  unfold decode_gpgsig_c, decode_gpgsig. same. split3. destruct (negb _).
  - same. destruct (_ || _); [|reflexivity]. same. rewrite snd_write. cbn [bind]. apply gpgsig_loop_same.
  - same. rewrite snd_write. cbn [bind]. apply gpgsig_loop_same.
Qed.
Lemma msg_loop_same f : forall b s, snd (mergetag_msg_loop_c grow ops f b s) = mergetag_msg_loop ops f (b_text b) s.
Proof.
  induction f as [|f IH]; intros b s; [reflexivity|]. cbn [mergetag_msg_loop_c mergetag_msg_loop]. same. split3. destruct (negb _); [reflexivity|].
  same. rewrite snd_write. cbn [bind]. apply IH.
Qed.
Lemma mergetag_loop_same f : forall t s, snd (mergetag_loop_c grow ops f t s) = mergetag_loop ops f t s.
Proof.
  induction f as [|f IH]; intros t s; [reflexivity|]. cbn [mergetag_loop_c mergetag_loop]. same. split3. cbv zeta.
  destruct (has_prefix (bs " type ") _); [same; apply bind_ext; intros; apply IH|].
  destruct (has_prefix (bs " tag ") _); [same; apply bind_ext; intros; apply IH|].
  destruct (has_prefix (bs " tagger ") _).
  { same. apply bind_ext. intros. same. rewrite person_same. apply bind_ext. intros. apply IH. }
  destruct (beqb _ _); [|apply IH]. same. rewrite msg_loop_same. apply bind_ext. intros [[? ?] ?]. reflexivity.
Qed.
Lemma merge_tag_same h s : snd (read_merge_tag_c grow ops h s) = read_merge_tag ops h s.
Proof. unfold read_merge_tag_c, read_merge_tag. same. apply bind_ext. intros. apply mergetag_loop_same. Qed.
Lemma commit_line_same f : forall c k v s,
  map_res (fun '(c, _, s) => (c, s)) (snd (commit_line_c grow pick ops f c k v s)) = commit_line ops f c v s.
Proof.
  induction f as [|f IH]; intros c k v s; [reflexivity|]. cbn [commit_line_c commit_line]. cbv zeta.
  destruct (has_prefix (bs "tree ") _).
  { do 3 (same; rewrite map_bind; apply bind_ext; intros). reflexivity. }
  destruct (has_prefix (bs "parent ") _).
  { do 3 (same; rewrite map_bind; apply bind_ext; intros). now destruct (append_one _ _ _). }
  destruct (has_prefix (bs "author ") _).
  { same. rewrite person_same, map_bind. apply bind_ext. reflexivity. }
  destruct (has_prefix (bs "committer ") _).
  { same. rewrite person_same, map_bind. apply bind_ext. reflexivity. }
  destruct (has_prefix (bs "encoding ") _).
  { same. rewrite map_bind. apply bind_ext. reflexivity. }
  destruct (has_prefix (bs "mergetag object ") _).
  { do 2 (same; rewrite map_bind; apply bind_ext; intros). same. rewrite merge_tag_same, map_bind. apply bind_ext. intros [[mt rest] s1].
    destruct (append_one _ _ _). same. destruct rest; [apply IH|reflexivity]. }
  destruct (has_prefix (bs "gpgsig ") _).
  { same. rewrite gpgsig_same, map_bind. apply bind_ext. now intros [? ?]. }
  destruct (length _ =? 0); [|now destruct (append_one _ _ _)].
  same. rewrite map_bind. apply bind_ext. now intros [[? [?|]] ?].
Qed.
Lemma commit_loop_same f : forall c k s, snd (commit_loop_c grow pick ops f c k s) = commit_loop ops f c s.
Proof.
  induction f as [|f IH]; intros c k s; [reflexivity|]. cbn [commit_loop_c commit_loop]. same. split3. same.
  rewrite <- (commit_line_same _ _ k), bind_map. apply bind_ext. intros [[? ?] ?]. apply IH.
Qed.
Lemma commit_same k s : snd (decode_commit_c grow pick ops k s) = decode_commit ops k s.
Proof. unfold decode_commit_c, decode_commit. same. rewrite read_number_same. apply bind_ext. intros [z s1]. same. rewrite commit_loop_same. apply bind_ext. reflexivity. Qed.
Lemma tag_loop_same f : forall t pr s, snd (tag_loop_c grow pick ops f t pr s) = tag_loop ops f t pr s.
Proof.
  induction f as [|f IH]; intros t pr s; [reflexivity|]. cbn [tag_loop_c tag_loop]. same. split3. cbv zeta.
  destruct (has_prefix (bs "object ") _). { do 3 (same; apply bind_ext; intros). apply IH. }
  destruct (has_prefix (bs "tag ") _). { same; apply bind_ext; intros. apply IH. }
  destruct (has_prefix (bs "tagger ") _). { same; rewrite person_same; apply bind_ext; intros. apply IH. }
  destruct (has_prefix (bs "type ") _). { same; apply bind_ext; intros. apply IH. }
  destruct (length _ =? 0); [|same; apply IH]. same. split3. apply IH.
Qed.
Lemma tag_same k s : snd (decode_tag_c grow pick ops k s) = decode_tag ops k s.
Proof.
  unfold decode_tag_c, decode_tag, decode_tag_printing. same. change (snd (string_c ops NUL s)) with (rd_string ops NUL s). destruct (rd_string ops NUL s) as [[[l [e|]] s1]| | |]; cbn [bind]; try reflexivity.
  same. rewrite tag_loop_same. destruct (tag_loop ops _ _ _ _) as [[t pr]| | |]; cbn [bind map_res]; try reflexivity. now destruct (build_node k (NTag t)).
Qed.
Lemma read_type_same s : snd (read_type_c ops s) = read_type ops s.
Proof.
  unfold read_type_c, read_type. same. apply bind_ext. intros [[? [?|]] ?]; [reflexivity|]. same. apply bind_ext. reflexivity.
Qed.
Lemma parse_same s : snd (parse_object_c grow bgrow pick ops s) = parse_object ops s.
Proof.
  unfold parse_object_c, parse_object. same. rewrite read_type_same. apply bind_ext. intros [typ s1].
  destruct (beqb typ (bs "tree")); [apply tree_same|]. destruct (beqb typ (bs "commit")); [apply commit_same|].
  destruct (beqb typ (bs "blob")); [same; rewrite blob_same; now apply bind_ext; intros []|]. destruct (beqb typ (bs "tag")); [apply tag_same|reflexivity].
Qed.
End Same.

(** ** Readers that simulate each other cost the same *)
Definition rel_c {A A'} (P : A -> A' -> Prop) (x : costed A) (y : costed A') : Prop := fst x = fst y /\ rel_res P (snd x) (snd y).
Lemma rel_c_bind {A A' C C'} (P : A -> A' -> Prop) (Q : C -> C' -> Prop) x y f g :
  rel_c P x y -> (forall a b, P a b -> rel_c Q (f a) (g b)) -> rel_c Q (cbind x f) (cbind y g).
Proof.
  intros [E L] F. unfold cbind. destruct (snd x) as [a|e| |], (snd y) as [b|e'| |]; cbn [rel_res] in L; try contradiction.
  - destruct (F a b L) as [E' L']. split; cbn; [congruence|exact L'].
  - subst. split; auto. reflexivity.
  - now split.
  - now split.
Qed.
Lemma rel_c_refl {A} (x : costed A) : rel_c eq x x.
Proof. split; [reflexivity|apply rel_res_refl]. Qed.
Lemma rel_c_ok {A A'} (P : A -> A' -> Prop) n a b : P a b -> rel_c P (n, Ok a) (n, Ok b).
Proof. now split. Qed.
Lemma rel_c_same {A A'} (P : A -> A' -> Prop) n r r' : rel_res P r r' -> rel_c P (n, r) (n, r').
Proof. now split. Qed.

Section SimC.
Context (grow bgrow pick : nat -> nat -> nat).
Context {S1 V1 S2 V2 : Type} (o1 : rdops S1 V1) (o2 : rdops S2 V2) (R : S1 -> S2 -> Prop) (H : sim_core o1 o2 R).
Notation rel_st := (rel_st R).
Ltac fin := try apply rel_c_same; cbn; try reflexivity; try (split; cbn; auto; fail); auto.
Ltac id := eapply rel_c_bind; [apply rel_c_refl|]; intros ? ? <-.
Ltac fuel := match goal with H1 : R ?a ?b |- context [rd_fuel o1 ?a] => rewrite (sim_fuel _ _ _ H a b H1) end.

Lemma simc_string d s1 s2 : R s1 s2 -> rel_c (rel_data R) (string_c o1 d s1) (string_c o2 d s2).
Proof.
  intros HR. pose proof (sim_string _ _ _ H d _ _ HR) as L. unfold string_c, at_cost. cbv zeta.
  destruct (rd_string o1 d s1) as [[[l1 e1] t1]|e1| |], (rd_string o2 d s2) as [[[l2 e2] t2]|e2| |]; cbn [rel_res] in L; try contradiction; split; auto.
  cbn. destruct L as (El & _ & _). cbn in El. now subst.
Qed.
Lemma simc_all s1 s2 : R s1 s2 -> rel_c (rel_data R) (all_c grow pick o1 s1) (all_c grow pick o2 s2).
Proof.
  intros HR. pose proof (sim_all _ _ _ H _ _ HR) as L. unfold all_c, at_cost. cbv zeta.
  destruct (rd_all o1 s1) as [[[l1 e1] t1]|e1| |], (rd_all o2 s2) as [[[l2 e2] t2]|e2| |]; cbn [rel_res] in L; try contradiction; split; auto.
  cbn [fst]. destruct L as (El & _ & _). cbn in El. now subst.
Qed.
Lemma simc_full n s1 s2 : R s1 s2 -> rel_c (rel_data R) (full_c o1 n s1) (full_c o2 n s2).
Proof.
  intros HR. pose proof (sim_full _ _ _ H n _ _ HR) as L. unfold full_c, at_cost. cbv zeta.
  destruct (rd_full o1 n s1) as [[[l1 e1] t1]|e1| |], (rd_full o2 n s2) as [[[l2 e2] t2]|e2| |]; cbn [rel_res] in L; try contradiction; split; auto.
  cbn [fst]. destruct L as (El & _ & _). cbn in El. now subst.
Qed.
Lemma simc_copy held n s1 s2 : sim_copy o1 o2 R -> R s1 s2 -> rel_c (rel_data R) (copy_c bgrow pick o1 held n s1) (copy_c bgrow pick o2 held n s2).
Proof.
  intros HC HR. pose proof (HC n _ _ HR) as L. unfold copy_c, at_cost. cbv zeta.
  destruct (rd_copy o1 n s1) as [[[l1 e1] t1]|e1| |], (rd_copy o2 n s2) as [[[l2 e2] t2]|e2| |]; cbn [rel_res] in L; try contradiction; split; auto.
  cbn [fst]. destruct L as (El & _ & _). cbn in El. now subst.
Qed.
Ltac io L :=
  eapply rel_c_bind; [eapply L; eassumption|];
  let e := fresh "e" in
  intros [[? ?] ?] [[? e] ?] (? & ? & ?); cbn [fst snd] in *; subst; destruct e as [e|]; [fin|].
Ltac line :=
  eapply rel_c_bind; [split; [reflexivity|eapply (sim_line _ _ _ H); eassumption]|];
  let e := fresh "e" in let HV := fresh "HV" in
  intros [[? ?] ?] [[? e] ?] (? & ? & HV); cbn [fst snd] in *; subst;
  destruct e as [e|]; [try reflexivity|specialize (HV eq_refl)].

Lemma simc_read_number s1 s2 : R s1 s2 -> rel_c rel_st (read_number_c o1 s1) (read_number_c o2 s2).
Proof. intros HR. unfold read_number_c. io simc_string. id. id. fin. Qed.
Lemma simc_blob k s1 s2 : sim_copy o1 o2 R -> R s1 s2 -> rel_c rel_st (decode_blob_c bgrow pick o1 k s1) (decode_blob_c bgrow pick o2 k s2).
Proof.
  intros HC HR. unfold decode_blob_c. eapply rel_c_bind; [now apply simc_read_number|]. intros [z t1] [z' t2] [E HR']. cbn in E, HR'. subst z'.
  destruct (z <? 0)%Z; [fin|]. id. io simc_copy. destruct (negb _); [destruct (_ =? 0); fin|]. id. fin.
Qed.
Lemma simc_entry s1 s2 : R s1 s2 -> rel_c (rel_entry R) (decode_tree_entry_c o1 s1) (decode_tree_entry_c o2 s2).
Proof. intros HR. unfold decode_tree_entry_c. io simc_string. id. io simc_string. id. io simc_full. id. fin. Qed.
Lemma simc_tree_loop f : forall t cap s1 s2, R s1 s2 -> tree_loop_c grow o1 f t cap s1 = tree_loop_c grow o2 f t cap s2.
Proof.
  induction f as [|f IH]; intros t cap s1 s2 HR; [reflexivity|]. cbn [tree_loop_c]. destruct (simc_entry s1 s2 HR) as [E L].
  destruct (snd (decode_tree_entry_c o1 s1)) as [[[n1 e1] t1]|e1| |], (snd (decode_tree_entry_c o2 s2)) as [[[n2 e2] t2]|e2| |];
    cbn [rel_res] in L; try contradiction L; rewrite ?E; auto.
  - destruct L as [L HR']. cbn [fst snd] in *. injection L as <- <-. destruct (append_one _ _ _) as [m cap'].
    unfold at_cost, cbind. cbn [fst snd]. destruct (tree_insert t n1 e1); auto. now rewrite (IH _ _ _ _ HR').
  - now subst.
Qed.
Lemma simc_tree k s1 s2 : R s1 s2 -> rel_c eq (decode_tree_c grow o1 k s1) (decode_tree_c grow o2 k s2).
Proof.
  intros HR. unfold decode_tree_c. eapply rel_c_bind; [now apply simc_read_number|]. intros [z t1] [z' t2] [E HR']. cbn in E, HR'. subst z'.
  fuel. rewrite (simc_tree_loop _ _ _ t1 t2 HR'). apply rel_c_refl.
Qed.
Lemma simc_gpgsig_loop f : forall sig s1 s2, R s1 s2 -> rel_c rel_st (gpgsig_loop_c grow o1 f sig s1) (gpgsig_loop_c grow o2 f sig s2).
Proof.
  induction f as [|f IH]; intros sig s1 s2 HR; [now split|]. cbn [gpgsig_loop_c]. line; [now split|].
  rewrite HV. destruct (beqb _ _); [fin|]. id. id. now apply IH.
Qed.
Lemma simc_gpgsig s1 s2 : R s1 s2 -> rel_c rel_st (decode_gpgsig_c grow o1 s1) (decode_gpgsig_c grow o2 s2).
Proof.
  intros HR. unfold decode_gpgsig_c. line; [now split|]. rewrite HV. fuel. destruct (negb _).
  - id. destruct (_ || _); [|fin]. id. id. now apply simc_gpgsig_loop.
  - id. now apply simc_gpgsig_loop.
Qed.
Lemma simc_msg_loop f : forall msg s1 s2, R s1 s2 ->
  rel_c (rel_msg o1 o2 R) (mergetag_msg_loop_c grow o1 f msg s1) (mergetag_msg_loop_c grow o2 f msg s2).
Proof.
  induction f as [|f IH]; intros sig s1 s2 HR; [now split|]. cbn [mergetag_msg_loop_c]. line; [now split|].
  rewrite HV. destruct (negb _); [apply rel_c_ok; repeat split; auto|]. id. id. now apply IH.
Qed.
Lemma simc_mergetag_loop f : forall out s1 s2, R s1 s2 ->
  rel_c (rel_mt o1 o2 R) (mergetag_loop_c grow o1 f out s1) (mergetag_loop_c grow o2 f out s2).
Proof.
  induction f as [|f IH]; intros out s1 s2 HR; [now split|]. cbn [mergetag_loop_c]. line.
  { destruct (is_eof e); [apply rel_c_ok; repeat split; auto|fin]. }
  rewrite HV. cbv zeta.
  destruct (has_prefix (bs " type ") _). { id. now apply IH. }
  destruct (has_prefix (bs " tag ") _). { id. now apply IH. }
  destruct (has_prefix (bs " tagger ") _). { id. id. now apply IH. }
  destruct (beqb _ (bs " ")); [|now apply IH]. fuel.
  eapply rel_c_bind; [apply simc_msg_loop; eassumption|].
  intros [[m1 v1'] t1] [[m2 v2'] t2] (E & HR' & HD). cbn [fst snd] in *. subst. apply rel_c_ok. repeat split; auto.
Qed.
Lemma simc_merge_tag sha s1 s2 : R s1 s2 -> rel_c (rel_mt o1 o2 R) (read_merge_tag_c grow o1 sha s1) (read_merge_tag_c grow o2 sha s2).
Proof. intros HR. unfold read_merge_tag_c. id. fuel. now apply simc_mergetag_loop. Qed.
Lemma simc_commit_line f : forall c k v1 v2 s1 s2, R s1 s2 -> rd_deref o1 s1 v1 = rd_deref o2 s2 v2 ->
  rel_c (rel_entry R) (commit_line_c grow pick o1 f c k v1 s1) (commit_line_c grow pick o2 f c k v2 s2).
Proof.
  induction f as [|f IH]; intros c k v1 v2 s1 s2 HR HV; [now split|]. cbn [commit_line_c]. rewrite HV.
  set (line := rd_deref o2 s2 v2). cbv zeta.
  destruct (has_prefix (bs "tree ") line). { do 3 id. fin. }
  destruct (has_prefix (bs "parent ") line). { do 3 id. destruct (append_one _ _ _). fin. }
  destruct (has_prefix (bs "author ") line). { id. fin. }
  destruct (has_prefix (bs "committer ") line). { id. fin. }
  destruct (has_prefix (bs "encoding ") line). { id. fin. }
  destruct (has_prefix (bs "mergetag object ") line).
  { do 2 id. eapply rel_c_bind; [apply simc_merge_tag; eassumption|].
    intros [[m1 v1'] t1] [[m2 v2'] t2] (E & HR' & HD). cbn [fst snd] in *. subst. destruct (append_one _ _ _). id.
    destruct v1', v2'; try contradiction; [now apply IH|fin]. }
  destruct (has_prefix (bs "gpgsig ") line).
  { eapply rel_c_bind; [apply simc_gpgsig; eassumption|]. intros [g1 t1] [g2 t2] (E & HR'). cbn [fst snd] in *. subst. fin. }
  destruct (length line =? 0); [|destruct (append_one _ _ _); fin].
  io simc_all. fin.
Qed.
Lemma simc_commit_loop f : forall c k s1 s2, R s1 s2 -> rel_c eq (commit_loop_c grow pick o1 f c k s1) (commit_loop_c grow pick o2 f c k s2).
Proof.
  induction f as [|f IH]; intros c k s1 s2 HR; [now split|]. cbn [commit_loop_c]. line.
  { apply rel_c_refl. }
  fuel. eapply rel_c_bind; [apply simc_commit_line; eassumption|].
  intros [[c1 k1] t1] [[c2 k2] t2] (E & HR'). cbn [fst snd] in *. injection E as <- <-. now apply IH.
Qed.
Lemma simc_commit k s1 s2 : R s1 s2 -> rel_c eq (decode_commit_c grow pick o1 k s1) (decode_commit_c grow pick o2 k s2).
Proof.
  intros HR. unfold decode_commit_c. eapply rel_c_bind; [now apply simc_read_number|]. intros [z t1] [z' t2] [E HR']. cbn in E, HR'. subst z'.
  fuel. eapply rel_c_bind; [now apply simc_commit_loop|]. intros ? ? ->. apply rel_c_refl.
Qed.
Lemma simc_tag_loop f : forall out pr s1 s2, R s1 s2 -> rel_c eq (tag_loop_c grow pick o1 f out pr s1) (tag_loop_c grow pick o2 f out pr s2).
Proof.
  induction f as [|f IH]; intros out pr s1 s2 HR; [now split|]. cbn [tag_loop_c]. line.
  { apply rel_c_refl. }
  rewrite HV. cbv zeta.
  destruct (has_prefix (bs "object ") _). { do 3 id. now apply IH. }
  destruct (has_prefix (bs "tag ") _). { id. now apply IH. }
  destruct (has_prefix (bs "tagger ") _). { id. now apply IH. }
  destruct (has_prefix (bs "type ") _). { id. now apply IH. }
  destruct (length _ =? 0); [|id; now apply IH].
  io simc_all. now apply IH.
Qed.
Lemma simc_tag k s1 s2 : R s1 s2 -> rel_c eq (decode_tag_c grow pick o1 k s1) (decode_tag_c grow pick o2 k s2).
Proof.
  intros HR. unfold decode_tag_c. io simc_string. fuel. eapply rel_c_bind; [apply simc_tag_loop; eassumption|]. intros ? ? ->. apply rel_c_refl.
Qed.
Lemma simc_read_type s1 s2 : R s1 s2 -> rel_c rel_st (read_type_c o1 s1) (read_type_c o2 s2).
Proof. intros HR. unfold read_type_c. io simc_string. { destruct (is_eof e); fin. } id. fin. Qed.
Lemma simc_parse s1 s2 : sim_copy o1 o2 R -> R s1 s2 ->
  fst (parse_object_c grow bgrow pick o1 s1) = fst (parse_object_c grow bgrow pick o2 s2).
Proof.
  intros HC HR. enough (rel_c eq (parse_object_c grow bgrow pick o1 s1) (parse_object_c grow bgrow pick o2 s2)) as [E _] by exact E.
  unfold parse_object_c. eapply rel_c_bind; [now apply simc_read_type|]. intros [z t1] [z' t2] [E HR']. cbn in E, HR'. subst z'.
  destruct (beqb z (bs "tree")); [now apply simc_tree|]. destruct (beqb z (bs "commit")); [now apply simc_commit|].
  destruct (beqb z (bs "blob")).
  { eapply rel_c_bind; [now apply simc_blob|]. intros [? ?] [? ?] [? _]. now apply rel_c_ok. }
  destruct (beqb z (bs "tag")); [now apply simc_tag|]. apply rel_c_refl.
Qed.
End SimC.

(** ** Bounds *)
(** The cost, and what is still to be spent after a result, is at most the budget. *)
Definition within {A} (budget : nat) (left : A -> nat) (P : A -> Prop) (x : costed A) : Prop :=
  match snd x with Ok a => P a /\ fst x + left a <= budget | _ => fst x <= budget end.
Lemma within_bind {A C} b (l : A -> nat) P (l' : C -> nat) Q x f :
  within b l P x -> (forall a, snd x = Ok a -> P a -> within (l a) l' Q (f a)) -> within b l' Q (cbind x f).
Proof.
  unfold within, cbind. destruct (snd x) as [a| | |] eqn:E; cbn [snd fst]; auto. intros [Pa L] F. specialize (F a eq_refl Pa).
  destruct (snd (f a)); [destruct F as [Qc F]; split; [exact Qc|]|..]; lia.
Qed.
Lemma within_less {A} b b' (l l' : A -> nat) (P Q : A -> Prop) x :
  within b l P x -> b <= b' -> (forall a, snd x = Ok a -> P a -> Q a /\ l' a <= l a) -> within b' l' Q x.
Proof.
  unfold within. destruct (snd x) as [a| | |]; try lia. intros [Pa L] Lb F. destruct (F a eq_refl Pa) as [Qa L']. split; [exact Qa|lia].
Qed.
Lemma within_at {A} b (l : A -> nat) (P : A -> Prop) n r :
  n <= b -> (forall a, r = Ok a -> P a /\ n + l a <= b) -> within b l P (n, r).
Proof. intros L F. unfold within. cbn [fst snd]. destruct r; auto. Qed.
Definition always {A} (_ : A) : Prop := True.
Definition nothing {A} (_ : A) : nat := 0.

Lemma within_free {A} b (r : res A) : within b (fun _ => b) (fun a => r = Ok a) (free r).
Proof. unfold within. cbn. destruct r; try lia. split; [reflexivity|lia]. Qed.
Lemma within_end {A} b (r : res A) : within b nothing always (free r).
Proof. unfold within. cbn. destruct r; try lia. split; [exact I|apply Nat.le_0_l]. Qed.

Lemma within_more {A} b k (l : A -> nat) P x : within b l P x -> within (b + k) (fun a => l a + k) P x.
Proof. unfold within. destruct (snd x); try lia. intros [? ?]. split; [assumption|lia]. Qed.

(** What growing has saved up for. *)
Definition saved (n cap : nat) : nat := 5 * n - 4 * cap.
Lemma grown grow : growing grow -> forall n x cap, n <= cap -> cap < n + x -> n + saved (n + x) (grow cap (n + x)) <= saved n cap + 5 * x.
Proof. intros G n x cap L N. destruct (G cap (n + x) N). unfold saved. lia. Qed.
Lemma appended grow n cap : growing grow -> n <= cap ->
  let '(c, cap') := append_one grow n cap in c + saved (n + 1) cap' <= saved n cap + 6 /\ n + 1 <= cap'.
Proof.
  intros G L. unfold append_one. destruct (Nat.ltb_spec n cap); [unfold saved; lia|].
  pose proof (grown grow G n 1 cap L ltac:(lia)). destruct (G cap (n + 1) ltac:(lia)). lia.
Qed.
Definition built (b : builder) : Prop := length (b_text b) <= b_cap b.
Definition bsaved (b : builder) : nat := saved (length (b_text b)) (b_cap b).
Lemma written grow b x : growing grow -> built b -> within (bsaved b + 6 * length x) bsaved built (write grow b x).
Proof.
  intros G L. unfold built in L. unfold write, at_cost. cbv zeta. destruct (Nat.leb_spec (length (b_text b) + length x) (b_cap b)).
  - apply within_at; [lia|]. intros a E. injection E as <-. unfold built, bsaved. cbn [b_text b_cap]. rewrite app_length. unfold saved. lia.
  - pose proof (grown grow G (length (b_text b)) (length x) (b_cap b) L ltac:(lia)). destruct (G (b_cap b) (length (b_text b) + length x) ltac:(lia)).
    apply within_at; [unfold bsaved, saved in *; lia|]. intros a E. injection E as <-. unfold built, bsaved. cbn [b_text b_cap]. rewrite app_length. lia.
Qed.
Lemma empty_built : built empty_builder.
Proof. apply Nat.le_refl. Qed.

(** Filling a buffer *)
Lemma fill_cost pick grow room : growing grow -> 1 <= room -> forall f len cap left, len <= cap ->
  fill pick grow room f len cap left <= saved (len + room) cap + 7 * left + 1.
Proof.
  intros G Hr. induction f as [|f IH]; intros len cap left L; cbn [fill]; [lia|].
  assert (exists moved cap', (if cap <? len + room then (len, grow cap (len + room)) else (0, cap)) = (moved, cap') /\
    moved + saved (len + room) cap' <= saved (len + room) cap /\ len + room <= cap') as (moved & cap' & E & M & L').
  { destruct (Nat.ltb_spec cap (len + room)) as [N|N].
    - exists len, (grow cap (len + room)). destruct (G _ _ N). unfold saved. split; [reflexivity|]. lia.
    - exists 0, cap. split; [reflexivity|]. lia. }
  rewrite E. destruct left as [|left]; [lia|]. set (n := Nat.max 1 _).
  assert (1 <= n /\ n <= S left /\ n <= cap' - len) as (N1 & N2 & N3) by (unfold n; lia).
  specialize (IH (len + n) cap' (S left - n) ltac:(lia)). unfold saved in *. lia.
Qed.
Lemma readall_bound pick grow n : growing grow -> readall_cost grow pick n <= 7 * n + 1.
Proof. intros G. unfold readall_cost. pose proof (fill_cost pick grow 1 G ltac:(lia) (S n) 0 512 n ltac:(lia)) as H. change (saved (0 + 1) 512) with 0 in H. lia. Qed.
Lemma readfrom_bound pick bgrow h n : growing bgrow -> h <= 64 -> readfrom_cost bgrow pick h n <= 2880 + 7 * n.
Proof. intros G L. unfold readfrom_cost. pose proof (fill_cost pick bgrow 512 G ltac:(lia) (S n) h 64 n ltac:(lia)) as H. unfold saved in H. lia. Qed.

(** ** Person lines *)
Fixpoint weight (ps : list bytes) : nat := match ps with [] => 0 | p :: r => S (length p) + weight r end.
Lemma weight_split sep line : weight (split_on sep line) = S (length line).
Proof.
  induction line as [|c l IH]; [reflexivity|]. cbn [split_on]. destruct (byte_eqb c sep); [cbn [weight length]; lia|].
  destruct (split_on sep l) as [|p ps] eqn:E; [now apply split_on_nonempty in E|]. cbn [weight length] in *. lia.
Qed.
Lemma weight_at ps : forall a p, go_at ps a = Ok p -> weight (skipn a ps) = S (length p) + weight (skipn (S a) ps).
Proof.
  induction ps as [|x ps IH]; intros [|a] p E; try discriminate.
  - injection E as <-. reflexivity.
  - change (skipn (S a) (x :: ps)) with (skipn a ps). change (skipn (S (S a)) (x :: ps)) with (skipn (S a) ps). now apply IH.
Qed.
Lemma weight_skip ps : forall a, weight (skipn a ps) <= weight ps.
Proof. induction ps as [|x ps IH]; intros [|a]; try apply Nat.le_refl. change (skipn (S a) (x :: ps)) with (skipn a ps). cbn [weight]. specialize (IH a). lia. Qed.
Lemma weight_in ps a p : go_at ps a = Ok p -> length p <= weight ps.
Proof. intros E. pose proof (weight_at _ _ _ E). pose proof (weight_skip ps a). lia. Qed.
Lemma weight_length ps : length ps <= weight ps.
Proof. induction ps as [|x ps IH]; cbn [weight length]; lia. Qed.

Lemma name_bound line f ps : forall a n, within ((length n + weight (skipn a ps) + 2) * weight (skipn a ps)) nothing always (name_loop_c line f ps a n).
Proof.
  induction f as [|f IH]; intros a n; [apply within_end|]. cbn [name_loop_c]. destruct (a =? _); [apply within_end|].
  eapply within_bind; [apply within_free|]. intros p _ E. cbv beta. rewrite (weight_at _ _ _ E). set (w := weight (skipn (S a) ps)). destruct (negb _).
  - eapply within_bind; [apply within_free|]. intros c _ _. destruct (byte_eqb c LT); [apply within_end|].
    eapply within_bind; [apply (within_at _ (fun n' => (length n' + w + 2) * w) always); [nia|]; intros n' En; split; [exact I|]|intros; apply IH].
    injection En as <-. rewrite !app_length. cbn [length]. nia.
  - destruct (0 <? _).
    + eapply within_bind; [apply (within_at _ (fun n' => (length n' + w + 2) * w) always); [nia|]; intros n' En; split; [exact I|]|intros; apply IH].
      injection En as <-. rewrite !app_length. cbn [length]. nia.
    + eapply within_less; [apply IH|fold w; nia|]. split; auto.
Qed.
Lemma go_from_length k l x : go_from k l = Ok x -> length x <= length l.
Proof. unfold go_from. destruct (_ <=? _); [|discriminate]. intros E. injection E as <-. rewrite skipn_length. lia. Qed.
Lemma go_drop_last_length l x : go_drop_last l = Ok x -> length x <= length l.
Proof.
  unfold go_drop_last. intros E. assert (x = removelast l) as -> by (destruct l; congruence). rewrite removelast_length. lia.
Qed.
Lemma email_bound grow line f ps : growing grow -> forall a b, built b ->
  within (bsaved b + 8 * weight (skipn a ps)) nothing always (email_loop_c grow line f ps a b).
Proof.
  intros G. induction f as [|f IH]; intros a b Hb; [apply within_end|]. cbn [email_loop_c]. destruct (a =? _); [apply within_end|].
  eapply within_bind; [apply within_free|]. intros p0 _ E. cbv beta. rewrite (weight_at _ _ _ E). set (w := weight (skipn (S a) ps)).
  eapply within_bind; [apply within_free|]. intros p _ E1. cbv beta.
  assert (length p <= length p0) as L.
  { destruct (0 <? _); [|injection E1 as <-; lia]. apply bind_ok in E1 as (c & _ & E1). destruct (byte_eqb c LT); [now apply go_from_length in E1|]. injection E1 as <-. lia. }
  eapply within_bind; [apply within_free|]. intros [] _ _; cbv beta.
  - eapply within_bind; [apply within_free|]. intros q _ E2. cbv beta. apply go_drop_last_length in E2.
    eapply within_bind; [apply (within_at _ (fun q' => bsaved b + 6 * length q') (fun q' => q' = q)); [lia|]; intros q' Eq; injection Eq as <-; split; [reflexivity|lia]|].
    intros q' _ ->. eapply within_bind; [now apply written|]. intros. apply within_end.
  - eapply within_bind; [apply (within_at _ (fun q' => bsaved b + 6 * length q' + 8 * w) (fun q' => length q' = S (length p))); [lia|]; intros q' Eq; injection Eq as <-; rewrite app_length; cbn [length]; split; lia|].
    intros q' _ Lq. eapply (within_bind _ (fun b' => bsaved b' + 8 * w) built).
    + now apply within_more, written.
    + intros b' _ Hb'. now apply IH.
Qed.
Lemma person_bound grow line : growing grow ->
  within ((length line + 14) * (length line + 1)) nothing always (parse_person_c grow line).
Proof.
  intros G. unfold parse_person_c. cbv zeta. set (ps := split_on SP line). assert (weight ps = S (length line)) as W by apply weight_split.
  pose proof (weight_length ps) as Ln. set (w := length line + 1). assert (weight ps = w) as W' by lia.
  eapply within_bind; [apply (within_at _ (fun _ => (w + 2) * w + 8 * w + 2 * w) always); [nia|]; intros; split; [exact I|unfold w in *; nia]|]. intros ? _ _.
  destruct (_ <? 3); [apply within_end|].
  eapply (within_bind _ (fun _ => 8 * w + 2 * w) always).
  { pose proof (name_bound line (S (length ps)) ps 1 []) as N. pose proof (weight_skip ps 1) as S1. cbn [length] in N.
    assert ((0 + weight (skipn 1 ps) + 2) * weight (skipn 1 ps) <= (w + 2) * w) as M by (apply Nat.mul_le_mono; lia).
    unfold within in *. destruct (snd (name_loop_c _ _ ps 1 [])); unfold nothing in *; try lia. split; [exact I|lia]. }
  intros [a1 n1] _ _. eapply within_bind; [apply within_free|]. intros pn _ _. cbv beta.
  eapply (within_bind _ (fun _ => 2 * w) always).
  { pose proof (email_bound grow line (S (length ps)) ps G a1 empty_builder empty_built) as N. pose proof (weight_skip ps a1) as S1. change (bsaved empty_builder) with 0 in N.
    unfold within in *. destruct (snd (email_loop_c _ _ _ ps a1 _)); unfold nothing in *; try lia. split; [exact I|lia]. }
  intros [a2 e2] _ _. destruct (a2 =? _); [apply within_end|]. eapply within_bind; [apply within_free|]. intros d _ E. cbv beta. apply weight_in in E.
  eapply within_bind; [apply (within_at _ (fun _ => w) always); [lia|]; intros; split; [exact I|lia]|]. intros d' _ _. destruct (_ =? _); [apply within_end|].
  eapply within_bind; [apply within_free|]. intros tz _ E'. cbv beta. apply weight_in in E'.
  eapply within_bind; [apply (within_at _ (fun _ => 0) always); [lia|]; intros; split; [exact I|lia]|]. intros. apply within_end.
Qed.

(** ** The decoders, over streams *)
Lemma pay K m r d c : m + r <= d -> c <= K * m -> c + K * r <= K * d.
Proof. nia. Qed.
Lemma takes_sizes B d l r : 2 <= B -> takes B d l r -> Nat.max 1 (length l) + length r <= length d /\ length l <= B.
Proof.
  intros HB T. destruct T as [l r|l r|l N|l r|l r]; rewrite ?app_length; cbn [length]; try lia. destruct l; [congruence|cbn [length] in *; lia].
Qed.
Section Bound.
Context (grow bgrow pick : nat -> nat -> nat) (G : growing grow) (G' : growing bgrow) (B : nat) (HB : 64 <= B).
Notation ops := (stream_ops B).
Let HB2 : 2 <= B. Proof. lia. Qed.
Definition size (s : stream) : nat := length (st_data s).

Section K.
Context (K : nat) (HK : 128 <= K).
Lemma string_bound d s :
  within (K * size s + 1) (fun '(_, e, s1) => match e with None => K - 2 + K * size s1 | Some _ => 0 end) always (string_c ops d s).
Proof.
  unfold string_c, at_cost. cbv zeta. change (rd_string ops d s) with (stream_string d s).
  destruct (stream_string_cases d s) as [(l & r & _ & E & ->)|(_ & ->)]; unfold within, size; cbn [fst snd st_data mk].
  - split; [exact I|]. rewrite E, !app_length. cbn [length]. nia.
  - split; [exact I|]. nia.
Qed.
Lemma number_bound s : within (K * size s + 1) (fun '(_, s1) => 1 + K * size s1) always (read_number_c ops s).
Proof.
  unfold read_number_c. eapply within_bind; [apply string_bound|]. intros [[l [e|]] s1] _ _; [apply within_at; [lia|discriminate]|].
  eapply within_bind; [apply within_free|]. intros x _ _. eapply within_bind; [apply within_free|]. intros z _ _. cbv beta.
  apply within_at; [lia|]. intros a E. injection E as <-. split; [exact I|]. lia.
Qed.
Lemma type_bound s : within (K * size s + 1) (fun '(_, s1) => 1 + K * size s1) always (read_type_c ops s).
Proof.
  unfold read_type_c. eapply within_bind; [apply string_bound|]. intros [[l [e|]] s1] _ _; [apply within_at; [lia|]; intros; now destruct (is_eof e)|].
  eapply within_bind; [apply within_free|]. intros x _ _. cbv beta.
  apply within_at; [lia|]. intros a E. injection E as <-. split; [exact I|]. lia.
Qed.
Lemma blob_bound k s : within (K * size s + 3000) nothing always (decode_blob_c bgrow pick ops k s).
Proof.
  unfold decode_blob_c. eapply (within_bind _ (fun '(z, s1) => K * size s1 + 2990) (fun '(z, _) => int_range z)).
  { pose proof (number_bound s) as N. pose proof (number_range ops s) as Rg. rewrite <- (read_number_same ops) in Rg.
    unfold within in *. destruct (snd (read_number_c ops s)) as [[z s1]| | |]; try lia. destruct N. split; [now apply (Rg z s1)|lia]. }
  intros [z s1] _ Hz. destruct (Z.ltb_spec z 0); [apply within_end|].
  assert (length (bs "blob " ++ dec_Z z ++ [NUL]) <= 25) as Lp by (apply prefix_length; [lia|assumption]).
  set (pre := bs "blob " ++ dec_Z z ++ [NUL]) in *. clearbody pre.
  eapply within_bind; [apply (within_at _ (fun _ => K * size s1 + 2940) (fun p => length p <= 25)); [lia|]; intros p E; injection E as <-; cbv beta; split; lia|].
  intros p _ Hp. cbv beta in Hp. eapply within_bind; [|intros [[body [e|]] s2] _ _; [apply within_end|]; destruct (negb _); [destruct (_ =? 0); apply within_end|];
    eapply within_bind; [apply within_free|]; intros; apply within_end].
  unfold copy_c, at_cost. cbv zeta. change (rd_copy ops z s1) with (stream_copy z s1). unfold stream_copy. cbv zeta.
  assert (length (takeZ z (st_data s1)) <= size s1) as L by (rewrite takeZ_firstn by lia; rewrite firstn_length; unfold size; lia).
  pose proof (readfrom_bound pick bgrow (length p) (length (takeZ z (st_data s1))) G' ltac:(lia)) as Rf.
  apply (within_at _ nothing always); [nia|]. intros a _. split; [exact I|unfold nothing; nia].
Qed.
Lemma entry_bound s : within (K * size s + 1) (fun '(_, _, s1) => 10 + K * size s1) always (decode_tree_entry_c ops s).
Proof.
  unfold decode_tree_entry_c. eapply within_bind; [apply string_bound|]. intros [[l [e|]] s1] _ _; [apply within_at; [lia|discriminate]|].
  eapply within_bind; [apply within_free|]. intros x _ _. cbv beta.
  eapply (within_bind _ (fun '(_, e, s1) => match e with None => 84 + K * size s1 | Some _ => 0 end) always).
  { eapply within_less; [apply string_bound|lia|]. intros [[? [?|]] ?] _ _; (split; [exact I|cbv beta iota; lia]). }
  intros [[l2 [e|]] s2] _ _; [apply within_at; [lia|discriminate]|].
  eapply within_bind; [apply within_free|]. intros y _ _. cbv beta.
  eapply (within_bind _ (fun '(_, e, s1) => match e with None => 84 + K * size s1 | Some _ => 0 end) always).
  { unfold full_c, at_cost. cbv zeta. change (rd_full ops 20 s2) with (stream_full 20 s2). unfold stream_full, size. cbv zeta.
    destruct (Nat.leb_spec 20 (length (st_data s2))) as [L|L].
    - unfold within. cbn [fst snd st_data mk]. split; [exact I|]. rewrite firstn_length, skipn_length. nia.
    - unfold within. destruct (st_data s2) as [|c d]; cbn [fst snd]; (split; [exact I|]); cbn [length] in *; lia. }
  intros [[l3 [e|]] s3] _ _; [apply within_at; [lia|discriminate]|].
  eapply within_bind; [apply (within_at _ (fun _ => 20 + K * size s3) always); [lia|]; intros; split; [exact I|lia]|].
  intros c _ _. apply within_at; [lia|]. intros a E. injection E as <-. split; [exact I|]. lia.
Qed.
Lemma tree_loop_bound f : forall t cap s, length (tr_t t) <= cap ->
  within (saved (length (tr_t t)) cap + K * size s + 1) nothing always (tree_loop_c grow ops f t cap s).
Proof.
  induction f as [|f IH]; intros t cap s L; [apply within_end|]. cbn [tree_loop_c]. pose proof (entry_bound s) as N. unfold within in N.
  destruct (snd (decode_tree_entry_c ops s)) as [[[n e] s1]|e| |].
  - destruct N as [_ N]. pose proof (appended grow (length (tr_t t)) cap G L) as A. destruct (append_one grow _ cap) as [m cap']. destruct A as [A1 A2].
    eapply (within_bind _ (fun t' => saved (length (tr_t t')) cap' + K * size s1 + 1) (fun t' => length (tr_t t') <= cap')).
    + apply within_at; [lia|]. intros t' E. unfold tree_insert in E. destruct (assoc n (tr_m t)); [discriminate|]. injection E as <-. cbn [tr_t].
      rewrite app_length. cbn [length]. split; lia.
    + intros t' _ Ht. now apply IH.
  - destruct e; apply within_at; try lia; intros; split; try exact I; unfold nothing; lia.
  - apply within_at; [lia|discriminate].
  - apply within_at; [lia|discriminate].
Qed.
Lemma tree_bound k s : within (K * size s + 1) nothing always (decode_tree_c grow ops k s).
Proof.
  unfold decode_tree_c. eapply within_bind; [apply number_bound|]. intros [z s1] _ _. eapply within_bind; [|intros; apply within_end].
  eapply within_less; [apply tree_loop_bound|cbn [zero_tree tr_t length]; unfold saved; lia|]; [apply Nat.le_refl|]. intros. split; [eassumption|]. apply Nat.le_refl.
Qed.
End K.

Section Lines.
Context (K : nat) (HK : 2 * B + 128 <= K).
Notation paid v := ((K - 1) * Nat.max 1 (length v)).
(** The next line. *)
Lemma line_cost s : (size s = 0 /\ exists e, line_c ops s = (1, Ok ([], Some e, s))) \/
  (exists v s1, line_c ops s = (1, Ok (v, None, s1)) /\ Nat.max 1 (length v) + size s1 <= size s /\ length v <= B).
Proof.
  unfold line_c, at_cost. change (rd_line ops s) with (stream_line B s). destruct s as [d e]. change {| st_data := d; st_err := e |} with (mk d e).
  destruct (next_line B HB d e) as [[-> ->]|(l & r & T & _ & ->)].
  - left. split; [reflexivity|]. now exists e.
  - right. exists l, (mk r e). split; [reflexivity|]. now apply takes_sizes.
Qed.
Ltac next s := destruct (line_cost s) as [[Z (er & ->)]|(v & s1 & -> & Hm & Lv)]; unfold cbind at 1; cbn [fst snd].
Lemma at_line {A} b (l : A -> nat) P n y : within b l P y -> n + b <= n + b -> within (n + b) l P (n + fst y, snd y).
Proof. unfold within. cbn [fst snd]. destruct (snd y); try lia. intros [? ?] _. split; [assumption|lia]. Qed.
Lemma gpgsig_loop_bound f : forall b s, built b ->
  within (bsaved b + K * size s + 1) (fun '(_, s1) => K * size s1) always (gpgsig_loop_c grow ops f b s).
Proof.
  induction f as [|f IH]; intros b s Hb; [apply within_at; [lia|discriminate]|]. cbn [gpgsig_loop_c]. next s.
  { apply within_at; cbn [fst snd free]; [lia|discriminate]. }
  change (rd_deref ops s1 v) with v. cbv zeta. destruct (beqb v _).
  { apply within_at; cbn [fst snd free]; [lia|]. intros a E. injection E as <-. split; [exact I|]. nia. }
  eapply within_less with (b := 1 + (bsaved b + (2 * length v + 1 + 6 * (length v + 1)) + (K * size s1 + 1))); [apply at_line; [|lia]| |intros a _ Pa; split; [exact Pa|apply Nat.le_refl]].
  - eapply within_bind; [apply (within_at _ (fun x => bsaved b + 6 * length x + (K * size s1 + 1)) always); [lia|]; intros x E; injection E as <-; rewrite app_length; cbn [length]; split; [exact I|lia]|].
    intros x _ _. eapply (within_bind _ (fun b' => bsaved b' + (K * size s1 + 1))); [now apply within_more, written|]. intros b' _ Hb'. cbv beta. rewrite Nat.add_assoc. now apply IH.
  - assert (8 * length v + 8 + K * size s1 <= K * size s) by (eapply pay; [exact Hm|]; nia). lia.
Qed.
Lemma paid_facts (v : bytes) : length v <= B -> 127 * Nat.max 1 (length v) <= paid v /\ (length v + 14) * (length v + 1) <= paid v.
Proof.
  intros L. split; [apply Nat.mul_le_mono; lia|].
  transitivity ((2 * B + 28) * Nat.max 1 (length v)); [|apply Nat.mul_le_mono; lia].
  transitivity ((B + 14) * (2 * Nat.max 1 (length v))); [apply Nat.mul_le_mono; lia|lia].
Qed.
Lemma after_line {A} s s1 (v : bytes) c b (l : A -> nat) P y : Nat.max 1 (length v) + size s1 <= size s ->
  within (c + paid v + K * size s1) l P y -> c + K * size s <= b -> within b l P (1 + fst y, snd y).
Proof.
  intros Hm W Lb. assert (1 + (c + paid v + K * size s1) <= b) as L.
  { set (m := Nat.max 1 (length v)) in *. assert (1 <= m) by lia. assert (K * m + K * size s1 <= K * size s) by nia. assert ((K - 1) * m + m = K * m) by nia. lia. }
  unfold within in *. cbn [fst snd]. destruct (snd y); [destruct W; split; [assumption|]|..]; lia.
Qed.
Ltac spend l := eapply within_bind; [apply (within_at _ l always); [lia|]; intros; split; [exact I|lia]|].
Ltac free' := eapply within_bind; [apply within_free|].

Lemma gpgsig_bound s : within (K * size s + 1) (fun '(_, s1) => K * size s1) always (decode_gpgsig_c grow ops s).
Proof.
  unfold decode_gpgsig_c. next s. { apply within_at; cbn [fst snd free]; [lia|discriminate]. }
  change (rd_deref ops s1 v) with v. cbv zeta. apply (after_line s s1 v 1); [assumption| |lia]. destruct (paid_facts v Lv) as [P1 _]. set (p := paid v) in *.
  destruct (negb _).
  - spend (fun _ : unit => 2 * length v + 1 + 6 * (length v + 1) + K * size s1 + 1). intros ? _ _.
    destruct (_ || _); [|apply within_at; [lia|discriminate]].
    eapply within_bind; [apply (within_at _ (fun x => bsaved empty_builder + 6 * length x + (K * size s1 + 1)) always);
      [lia|]; intros x E; injection E as <-; rewrite app_length; cbn [length]; change (bsaved empty_builder) with 0; split; [exact I|lia]|].
    intros x _ _. eapply (within_bind _ (fun b' => bsaved b' + (K * size s1 + 1))); [apply within_more, written; [assumption|apply empty_built]|].
    intros b' _ Hb'. cbv beta. rewrite Nat.add_assoc. now apply gpgsig_loop_bound.
  - eapply (within_bind _ (fun b' => bsaved b' + (K * size s1 + 1)) built).
    + eapply within_less; [apply (within_more (bsaved empty_builder + 6 * length (bs " " ++ [NL])) (K * size s1 + 1)), (written grow empty_builder (bs " " ++ [NL]) G empty_built)| |]; [|intros a _ Pa; split; [exact Pa|apply Nat.le_refl]].
      change (bsaved empty_builder) with 0. change (length (bs " " ++ [NL])) with 2. lia.
    + intros b' _ Hb'. cbv beta. rewrite Nat.add_assoc. now apply gpgsig_loop_bound.
Qed.
Lemma msg_loop_bound f : forall b s, built b ->
  within (bsaved b + K * size s + 1) (fun '(_, v, s1) => paid v + K * size s1) (fun '(_, v, s1) => length v <= B) (mergetag_msg_loop_c grow ops f b s).
Proof.
  induction f as [|f IH]; intros b s Hb; [apply within_at; [lia|discriminate]|]. cbn [mergetag_msg_loop_c]. next s.
  { apply within_at; cbn [fst snd free]; [lia|discriminate]. }
  change (rd_deref ops s1 v) with v. cbv zeta. apply (after_line s s1 v (bsaved b + 1)); [assumption| |lia]. destruct (paid_facts v Lv) as [P1 _]. destruct (negb _).
  - apply within_at; [lia|]. intros r' E. injection E as <-. split; [exact Lv|]. lia.
  - set (p := paid v) in *. eapply within_bind; [apply (within_at _ (fun x => bsaved b + 6 * length x + (K * size s1 + 1)) always); [lia|]; intros x E; injection E as <-; rewrite app_length; cbn [length]; split; [exact I|lia]|].
    intros x _ _. eapply (within_bind _ (fun b' => bsaved b' + (K * size s1 + 1))); [now apply within_more, written|]. intros b' _ Hb'. cbv beta. rewrite Nat.add_assoc. now apply IH.
Qed.
Definition rest_left (r : tag * option bytes * stream) : nat :=
  match snd (fst r) with Some v => paid v + K * size (snd r) | None => K * size (snd r) end.
Definition rest_short (r : tag * option bytes * stream) : Prop := match snd (fst r) with Some v => length v <= B | None => True end.
Lemma mergetag_loop_bound f : forall t s, within (K * size s + 1) rest_left rest_short (mergetag_loop_c grow ops f t s).
Proof.
  induction f as [|f IH]; intros t s; [apply within_at; [lia|discriminate]|]. cbn [mergetag_loop_c]. next s.
  { apply within_at; cbn [fst snd free]; [lia|]. intros a E. destruct (is_eof er); [|discriminate]. injection E as <-. split; [exact I|]. unfold rest_left. cbn [fst snd]. lia. }
  change (rd_deref ops s1 v) with v. cbv zeta. apply (after_line s s1 v 1); [assumption| |lia]. destruct (paid_facts v Lv) as [P1 P2]. set (p := paid v) in *.
  assert (forall t', within (1 + p + K * size s1) rest_left rest_short (mergetag_loop_c grow ops f t' s1)) as IH'.
  { intros t'. eapply within_less; [apply IH|lia|]. intros a _ Pa. split; [exact Pa|apply Nat.le_refl]. }
  destruct (has_prefix (bs " type ") _). { spend (fun _ : bytes => K * size s1 + 1). intros. apply IH. }
  destruct (has_prefix (bs " tag ") _). { spend (fun _ : bytes => K * size s1 + 1). intros. apply IH. }
  destruct (has_prefix (bs " tagger ") _).
  { free'. intros x _ E. cbv beta. eapply (within_bind _ (fun _ => K * size s1 + 1) always); [|intros; apply IH].
    assert (length x <= length v) as Lx. { apply go_from_length in E. exact E. }
    assert ((length x + 14) * (length x + 1) <= p) by (etransitivity; [|exact P2]; apply Nat.mul_le_mono; lia).
    pose proof (person_bound grow x G) as N. unfold within, nothing in *. destruct (snd (parse_person_c grow x)); try lia. split; [exact I|lia]. }
  destruct (beqb _ _); [|apply IH'].
  eapply (within_bind _ (fun '(_, v, s1) => paid v + K * size s1) (fun '(_, v, s1) => length v <= B)); [eapply within_less; [apply (msg_loop_bound _ empty_builder s1 empty_built)| |]|].
  - change (bsaved empty_builder) with 0. lia.
  - intros [[m v'] s2] _ Pa. split; [exact Pa|apply Nat.le_refl].
  - intros [[m v'] s2] _ Pa. apply within_at; [apply Nat.le_0_l|]. intros r' E. injection E as <-. split; [exact Pa|]. unfold rest_left. cbn [fst snd]. apply Nat.le_refl.
Qed.
Lemma merge_tag_bound h s : within (64 + K * size s + 1) rest_left rest_short (read_merge_tag_c grow ops h s).
Proof. unfold read_merge_tag_c. spend (fun _ : cid => K * size s + 1). intros. apply mergetag_loop_bound. Qed.

Definition fits (c : commit) (k : caps) : Prop :=
  length (c_parents c) <= k_parents k /\ length (c_mergetag c) <= k_tags k /\ length (c_other c) <= k_other k.
Definition ksaved (c : commit) (k : caps) : nat :=
  saved (length (c_parents c)) (k_parents k) + saved (length (c_mergetag c)) (k_tags k) + saved (length (c_other c)) (k_other k).
Definition line_left (r : commit * caps * stream) : nat := let '(c, k, s) := r in ksaved c k + K * size s.
Definition line_fits (r : commit * caps * stream) : Prop := let '(c, k, _) := r in fits c k.
Lemma all_bound s : within (8 * size s + 1) nothing (fun '(_, _, s1) => size s1 = 0) (all_c grow pick ops s).
Proof.
  unfold all_c, at_cost. cbv zeta. change (rd_all ops s) with (stream_all s). unfold stream_all. pose proof (readall_bound pick grow (length (st_data s)) G).
  unfold size. apply within_at; [lia|]. intros r' E. injection E as <-. split; [reflexivity|]. unfold nothing. lia.
Qed.
Lemma commit_line_bound f : forall c k v s, fits c k -> length v <= B ->
  within (ksaved c k + paid v + K * size s) line_left line_fits (commit_line_c grow pick ops f c k v s).
Proof.
  induction f as [|f IH]; intros c k v s F Lv; [apply within_at; [apply Nat.le_0_l|discriminate]|]. cbn [commit_line_c].
  change (rd_deref ops s v) with v. cbv zeta. destruct (paid_facts v Lv) as [P1 P2]. set (p := paid v) in *.
  assert (forall (c' : commit) b, c_parents c' = c_parents c -> c_mergetag c' = c_mergetag c -> c_other c' = c_other c ->
    ksaved c k + K * size s <= b -> within b line_left line_fits (free (Ok (c', k, s)))) as Same.
  { intros c' b E1 E2 E3 Lb. apply within_at; [lia|]. intros r' E. injection E as <-. unfold line_fits, line_left, fits, ksaved in *. rewrite E1, E2, E3. split; [exact F|lia]. }
  destruct F as (F1 & F2 & F3).
  destruct (has_prefix (bs "tree ") _).
  { free'. intros h _ E. cbv beta. apply go_from_length in E. spend (fun _ : bytes => ksaved c k + 64 + K * size s). intros ? _ _. spend (fun _ : cid => ksaved c k + K * size s). intros ? _ _.
    now apply Same. }
  destruct (has_prefix (bs "parent ") _).
  { free'. intros h _ E. cbv beta. apply go_from_length in E. spend (fun _ : bytes => ksaved c k + 70 + K * size s). intros ? _ _. spend (fun _ : cid => ksaved c k + 6 + K * size s). intros cd _ _.
    pose proof (appended grow _ _ G F1) as A. destruct (append_one grow _ _) as [n cap]. destruct A as [A1 A2].
    apply within_at; [unfold ksaved; lia|]. intros r' Ea. injection Ea as <-. unfold line_fits, line_left, fits, ksaved. cbn [c_parents c_mergetag c_other k_parents k_tags k_other].
    rewrite app_length. cbn [length]. split; [lia|]. unfold ksaved. lia. }
  assert (within (ksaved c k + p + K * size s) (fun _ => ksaved c k + K * size s) always (parse_person_c grow v)) as Pv.
  { pose proof (person_bound grow v G) as N. unfold within, nothing in *. destruct (snd (parse_person_c grow v)); try lia. split; [exact I|lia]. }
  destruct (has_prefix (bs "author ") _). { eapply within_bind; [exact Pv|]. intros ? _ _. now apply Same. }
  destruct (has_prefix (bs "committer ") _). { eapply within_bind; [exact Pv|]. intros ? _ _. now apply Same. }
  destruct (has_prefix (bs "encoding ") _). { spend (fun _ : bytes => ksaved c k + K * size s). intros ? _ _. now apply Same. }
  destruct (has_prefix (bs "mergetag object ") _).
  { eapply within_bind; [apply (within_at _ (fun _ => ksaved c k + 2 * length v + 71 + K * size s) (fun h => length h <= length v)); [lia|];
      intros h E; split; [now apply go_from_length in E|lia]|].
    intros h _ Lh. cbv beta in Lh. spend (fun _ : bytes => 64 + K * size s + 1 + (ksaved c k + 6)). intros sha _ _.
    eapply (within_bind _ (fun r => rest_left r + (ksaved c k + 6)) rest_short); [apply within_more, merge_tag_bound|].
    intros [[mt rest] s1] _ Sh. cbv beta. pose proof (appended grow _ _ G F2) as A. destruct (append_one grow _ _) as [n cap]. destruct A as [A1 A2].
    set (c' := {| c_tree := _ |}). set (k' := {| k_parents := _ |}).
    assert (fits c' k') as F'. { unfold fits, c', k'. cbn [c_parents c_mergetag c_other k_parents k_tags k_other]. rewrite app_length. cbn [length]. lia. }
    assert (n + ksaved c' k' <= ksaved c k + 6) as S'. { unfold ksaved, c', k'. cbn [c_parents c_mergetag c_other k_parents k_tags k_other]. rewrite app_length. cbn [length]. lia. }
    spend (fun _ : unit => rest_left (mt, rest, s1) + ksaved c' k'). intros ? _ _. unfold rest_left, rest_short in *. cbn [fst snd] in *. destruct rest as [v'|].
    - eapply within_less; [now apply (IH c' k' v' s1)|lia|]. intros r _ Pr. split; [exact Pr|apply Nat.le_refl].
    - apply within_at; [lia|]. intros r' E. injection E as <-. split; [exact F'|]. unfold line_left. lia. }
  destruct (has_prefix (bs "gpgsig ") _).
  { eapply (within_bind _ (fun '(_, s1) => K * size s1 + ksaved c k) always).
    - pose proof (gpgsig_bound s) as N. unfold within in *. destruct (snd (decode_gpgsig_c grow ops s)) as [[g s1]| | |]; try lia. destruct N. split; [exact I|lia].
    - intros [g s1] _ _. apply within_at; [lia|]. intros r' E. injection E as <-. unfold line_left, line_fits, fits, ksaved. cbn [c_parents c_mergetag c_other]. split; [auto|lia]. }
  destruct (length v =? 0).
  { eapply (within_bind _ (fun _ => ksaved c k) (fun '(_, _, s1) => size s1 = 0)).
    - pose proof (all_bound s) as N. assert (8 * size s <= K * size s) by (apply Nat.mul_le_mono; lia). unfold within, nothing in *.
      destruct (snd (all_c grow pick ops s)) as [[[g e] s1]| | |]; lia.
    - intros [[g [e|]] s1] _ Z; [apply within_at; [lia|discriminate]|]. apply within_at; [lia|]. intros r' E. injection E as <-. unfold line_left, line_fits, fits, ksaved. cbn [c_parents c_mergetag c_other].
      rewrite Z. split; [auto|lia]. }
  pose proof (appended grow _ _ G F3) as A. destruct (append_one grow _ _) as [n cap]. destruct A as [A1 A2].
  apply within_at; [unfold ksaved; lia|]. intros r' Ea. injection Ea as <-. unfold line_fits, line_left, fits, ksaved. cbn [c_parents c_mergetag c_other k_parents k_tags k_other].
  rewrite app_length. cbn [length]. split; [lia|]. lia.
Qed.
Lemma commit_loop_bound f : forall c k s, fits c k -> within (ksaved c k + K * size s + 1) nothing always (commit_loop_c grow pick ops f c k s).
Proof.
  induction f as [|f IH]; intros c k s F; [apply within_end|]. cbn [commit_loop_c]. next s.
  { apply within_at; cbn [fst snd free]; [lia|]. intros. split; [exact I|unfold nothing; lia]. }
  apply (after_line s s1 v (ksaved c k + 1)); [assumption| |lia].
  eapply (within_bind _ (fun r => line_left r + 1) line_fits).
  - replace (ksaved c k + 1 + paid v + K * size s1) with (ksaved c k + paid v + K * size s1 + 1) by lia. now apply within_more, commit_line_bound.
  - intros [[c' k'] s2] _ F'. unfold line_left. apply IH. exact F'.
Qed.
Lemma commit_bound k s : within (K * size s + 1) nothing always (decode_commit_c grow pick ops k s).
Proof.
  unfold decode_commit_c. eapply within_bind; [apply number_bound; lia|]. intros [z s1] _ _. eapply within_bind; [|intros; apply within_end].
  eapply within_less; [apply (commit_loop_bound _ zero_commit no_caps)|change (ksaved zero_commit no_caps) with 0; lia|].
  - unfold fits. cbn. lia.
  - intros. split; [eassumption|]. apply Nat.le_refl.
Qed.
Lemma tag_loop_bound f : forall t pr s, within (K * size s + 1) nothing always (tag_loop_c grow pick ops f t pr s).
Proof.
  induction f as [|f IH]; intros t pr s; [apply within_end|]. cbn [tag_loop_c]. next s.
  { apply within_at; cbn [fst snd free]; [lia|]. intros. split; [exact I|unfold nothing; lia]. }
  change (rd_deref ops s1 v) with v. cbv zeta. apply (after_line s s1 v 1); [assumption| |lia]. destruct (paid_facts v Lv) as [P1 P2]. set (p := paid v) in *.
  destruct (has_prefix (bs "object ") _).
  { free'. intros h _ E. cbv beta. apply go_from_length in E. spend (fun _ : bytes => 64 + K * size s1 + 1). intros ? _ _. spend (fun _ : cid => K * size s1 + 1). intros ? _ _. apply IH. }
  destruct (has_prefix (bs "tag ") _). { spend (fun _ : bytes => K * size s1 + 1). intros ? _ _. apply IH. }
  destruct (has_prefix (bs "tagger ") _).
  { eapply (within_bind _ (fun _ => K * size s1 + 1) always); [|intros; apply IH].
    pose proof (person_bound grow v G) as N. unfold within, nothing in *. destruct (snd (parse_person_c grow v)); try lia. split; [exact I|lia]. }
  destruct (has_prefix (bs "type ") _). { spend (fun _ : bytes => K * size s1 + 1). intros ? _ _. apply IH. }
  destruct (length v =? 0).
  { eapply (within_bind _ (fun '(_, _, s2) => K * size s2 + 1) always).
    - pose proof (all_bound s1) as N. assert (8 * size s1 <= K * size s1) by (apply Nat.mul_le_mono; lia). unfold within, nothing in *.
      destruct (snd (all_c grow pick ops s1)) as [[[g e] s2]| | |]; try lia. destruct N as [N0 N]. split; [exact I|]. rewrite N0. lia.
    - intros [[g [e|]] s2] _ _; [apply within_end|]. apply IH. }
  spend (fun _ : list bytes => K * size s1 + 1). intros ? _ _. apply IH.
Qed.
Lemma tag_bound k s : within (K * size s + 1) nothing always (decode_tag_c grow pick ops k s).
Proof.
  unfold decode_tag_c. eapply within_bind; [apply string_bound; lia|]. intros [[l [e|]] s1] _ _; [apply within_end|]. eapply within_bind; [|intros [? ?] _ _; apply within_end].
  eapply within_less; [apply tag_loop_bound|lia|]. intros. split; [eassumption|]. apply Nat.le_refl.
Qed.
Lemma parse_bound s : fst (parse_object_c grow bgrow pick ops s) <= K * size s + 3000.
Proof.
  enough (within (K * size s + 3000) nothing always (parse_object_c grow bgrow pick ops s)) as W.
  { unfold within in W. destruct (snd _); try exact W. destruct W. unfold nothing in *. lia. }
  unfold parse_object_c. eapply (within_bind _ (fun '(_, s1) => K * size s1 + 3000) always).
  { replace (K * size s + 3000) with (K * size s + 1 + 2999) by lia. eapply within_less; [apply (within_more (K * size s + 1) 2999), (type_bound K); lia|apply Nat.le_refl|]. intros [y s1] _ _. split; [exact I|]. cbv beta iota. lia. }
  intros [typ s1] _ _.
  assert (forall x : costed node, within (K * size s1 + 1) nothing always x -> within (K * size s1 + 3000) nothing always x) as Up.
  { intros x W. eapply within_less; [exact W|lia|]. intros. split; [assumption|]. apply Nat.le_refl. }
  destruct (beqb typ (bs "tree")); [apply Up, (tree_bound K); lia|]. destruct (beqb typ (bs "commit")); [apply Up, commit_bound|].
  destruct (beqb typ (bs "blob")); [eapply within_bind; [apply blob_bound; lia|intros [? ?] _ _; apply within_end]|].
  destruct (beqb typ (bs "tag")); [apply Up, tag_bound|apply within_end].
Qed.
End Lines.
End Bound.

(** ** At least the bytes of the result are copied *)
Definition psize (p : person) : nat := length (p_name p) + length (p_email p) + length (p_date p) + length (p_timezone p).
Definition tsize (t : tag) : nat := length (t_type t) + length (t_tag t) + psize (t_tagger t) + length (t_message t).
Definition osize {A} (f : A -> nat) (o : option A) : nat := match o with Some a => f a | None => 0 end.
Definition sum {A} (f : A -> nat) (l : list A) : nat := list_sum (map f l).
Definition csize (c : commit) : nat :=
  length (c_parents c) + length (c_message c) + osize psize (c_author c) + osize psize (c_committer c) + osize (@length byte) (c_encoding c)
  + osize (@length byte) (c_signature c) + sum tsize (c_mergetag c) + sum (@length byte) (c_other c).
Definition nsize (n : node) : nat :=
  match n with
  | NBlob b => length b
  | NTree t => sum (fun '(name, e) => length name + length (e_mode e) + 1) (tr_t t)
  | NCommit c => csize c
  | NTag t => tsize t
  | _ => 0
  end.
Lemma sum_snoc {A} (f : A -> nat) l a : sum f (l ++ [a]) = sum f l + f a.
Proof. unfold sum. rewrite map_app, list_sum_app. cbn. lia. Qed.

(** Results of size [f] are no larger than [b] and the cost. *)
Definition costs {A} (b : nat) (f : A -> nat) (x : costed A) : Prop := forall a, snd x = Ok a -> f a <= b + fst x.
Lemma costs_bind {A C} b (f : A -> nat) (g : C -> nat) x k : costs b f x -> (forall a, snd x = Ok a -> costs (f a) g (k a)) -> costs b g (cbind x k).
Proof.
  intros W F c. unfold cbind. destruct (snd x) as [a| | |] eqn:E; cbn [snd fst]; try discriminate. intros Ec.
  specialize (W a E). specialize (F a eq_refl c Ec). lia.
Qed.
Lemma costs_at {A} b (f : A -> nat) n r : (forall a, r = Ok a -> f a <= b + n) -> costs b f (n, r).
Proof. intros F a E. now apply F. Qed.
Lemma costs_any {A C} b (x : costed A) (g : C -> nat) k : (forall a, snd x = Ok a -> costs b g (k a)) -> costs b g (cbind x k).
Proof. apply costs_bind. intros a _. lia. Qed.

Lemma fill_least pick grow room : forall f len cap left, left < f -> left <= fill pick grow room f len cap left.
Proof.
  induction f as [|f IH]; intros len cap left L; [lia|]. cbn [fill]. destruct (if cap <? _ then _ else _) as [moved cap']. destruct left as [|left]; [lia|].
  set (n := Nat.max 1 _). assert (1 <= n) by (unfold n; lia). specialize (IH (len + n) cap' (S left - n) ltac:(lia)). lia.
Qed.
Section Least.
Context (grow bgrow pick : nat -> nat -> nat).
Lemma write_least b x : costs (length (b_text b)) (fun b' => length (b_text b')) (write grow b x).
Proof. unfold write, at_cost. cbv zeta. destruct (_ <=? _); apply costs_at; intros a E; injection E as <-; cbn [b_text]; rewrite app_length; lia. Qed.
Lemma name_least line f ps : forall a n, costs (length n) (fun '(_, n') => length n') (name_loop_c line f ps a n).
Proof.
  induction f as [|f IH]; intros a n; [now intros ?|]. cbn [name_loop_c]. destruct (a =? _); [now intros ?|]. apply costs_any. intros p _.
  destruct (negb _).
  - apply costs_any. intros c _. destruct (byte_eqb c LT); [apply costs_at; intros r' E; injection E as <-; cbv beta iota; lia|].
    eapply costs_bind; [|intros; apply IH]. apply costs_at. intros r' E. injection E as <-. rewrite !app_length. cbn [length]. lia.
  - destruct (0 <? _); [|apply IH]. eapply costs_bind; [|intros; apply IH]. apply costs_at. intros r' E. injection E as <-. rewrite !app_length. cbn [length]. lia.
Qed.
Lemma email_least line f ps : forall a b, costs (length (b_text b)) (fun '(_, b') => length (b_text b')) (email_loop_c grow line f ps a b).
Proof.
  induction f as [|f IH]; intros a b; [now intros ?|]. cbn [email_loop_c]. destruct (a =? _); [now intros ?|]. apply costs_any. intros p0 _.
  apply costs_any. intros p _. apply costs_any. intros [] _.
  - apply costs_any. intros q _. apply costs_any. intros q' _. eapply costs_bind; [apply write_least|]. intros b' _. apply costs_at. intros r' E. injection E as <-. cbv beta iota. lia.
  - apply costs_any. intros q _. eapply costs_bind; [apply write_least|]. intros b' _. apply IH.
Qed.
Lemma person_least line : costs 0 psize (parse_person_c grow line).
Proof.
  unfold parse_person_c. cbv zeta. apply costs_any. intros _ _. destruct (_ <? 3); [now intros ?|].
  eapply costs_bind; [apply name_least|]. intros [a1 n1] _. eapply (costs_bind _ (fun n => length n)).
  { apply costs_at. intros n E. destruct (negb _); [apply go_drop_last_length in E; lia|]. injection E as <-. cbn. lia. }
  intros pn _. eapply (costs_bind _ (fun '(_, b) => length pn + length (b_text b))).
  { pose proof (email_least line (S (length (split_on SP line))) (split_on SP line) a1 empty_builder) as N. intros [a2 b2] E. specialize (N _ E). cbv beta iota in *. cbn [b_text empty_builder length] in N. lia. }
  intros [a2 b2] _. destruct (a2 =? _); [apply costs_at; intros r' E; injection E as <-; cbn; lia|]. apply costs_any. intros d _.
  eapply (costs_bind _ (fun d => length pn + length (b_text b2) + length d)); [apply costs_at; intros r' E; injection E as <-; lia|].
  intros d' _. destruct (_ =? _); [apply costs_at; intros r' E; injection E as <-; cbn; lia|]. apply costs_any. intros tz _.
  eapply (costs_bind _ (fun tz => length pn + length (b_text b2) + length d' + length tz)); [apply costs_at; intros r' E; injection E as <-; lia|].
  intros tz' _. apply costs_at. intros r' E. injection E as <-. unfold psize. cbn [p_name p_email p_date p_timezone]. lia.
Qed.

Context {S V : Type} (ops : rdops S V).
Lemma string_least d s : costs 0 (fun '(l, _, _) => length l) (string_c ops d s).
Proof. unfold string_c, at_cost. cbv zeta. apply costs_at. intros [[l e] s1] ->. lia. Qed.
Lemma all_least s : costs 0 (fun '(l, _, _) => length l) (all_c grow pick ops s).
Proof. unfold all_c, at_cost. cbv zeta. apply costs_at. intros [[l e] s1] ->. lia. Qed.
Lemma blob_least s : costs 0 (fun '(n, _) => nsize n) (decode_blob_c bgrow pick ops BBlob s).
Proof.
  unfold decode_blob_c. apply costs_any. intros [z s1] _. destruct (z <? 0)%Z; [now intros ?|].
  eapply (costs_bind _ (fun p => length p)). { apply costs_at. intros p E. assert (p = bs "blob " ++ dec_Z z ++ [NUL]) as -> by congruence. lia. }
  intros p _. eapply (costs_bind _ (fun '(l, _, _) => length p + length l)).
  { unfold copy_c, at_cost. cbv zeta. apply costs_at. intros [[l e] s2] ->. unfold readfrom_cost. pose proof (fill_least pick bgrow 512 (Datatypes.S (length l)) (length p) 64 (length l) ltac:(lia)). lia. }
  intros [[l [e|]] s2] _; [now intros ?|]. destruct (negb _); [destruct (_ =? 0); now intros ?|].
  eapply (costs_bind _ nsize). { apply costs_at. intros n E. cbn in E. injection E as <-. cbn [nsize]. rewrite app_length. lia. }
  intros n _. apply costs_at. intros r' E. injection E as <-. lia.
Qed.
Definition esize (x : bytes * entry) : nat := let '(name, e) := x in length name + length (e_mode e) + 1.
Lemma entry_least s : costs 0 (fun '(n, e, _) => esize (n, e)) (decode_tree_entry_c ops s).
Proof.
  unfold decode_tree_entry_c. eapply costs_bind; [apply string_least|]. intros [[l [e|]] s1] _; [now intros ?|].
  eapply (costs_bind _ (fun m => length m)); [apply costs_at; intros m E; apply go_drop_last_length in E; lia|]. intros m _.
  eapply (costs_bind _ (fun '(l, _, _) => length m + length l)). { intros [[l2 e] s2] E. pose proof (string_least NUL s1 _ E) as N. cbv beta iota in *. lia. }
  intros [[l2 [e|]] s2] _; [now intros ?|].
  eapply (costs_bind _ (fun n => length m + length n)); [apply costs_at; intros n E; apply go_drop_last_length in E; lia|]. intros n _.
  apply costs_any. intros [[sha [e|]] s3] _; [now intros ?|]. eapply (costs_bind _ (fun _ => length m + length n + 1)); [apply costs_at; intros; lia|].
  intros c _. apply costs_at. intros r' E. injection E as <-. cbn. lia.
Qed.
Lemma tree_loop_least f : forall t cap s, costs (sum esize (tr_t t)) (fun t' => sum esize (tr_t t')) (tree_loop_c grow ops f t cap s).
Proof.
  induction f as [|f IH]; intros t cap s; [now intros ?|]. cbn [tree_loop_c]. pose proof (entry_least s) as N. unfold costs in N.
  destruct (snd (decode_tree_entry_c ops s)) as [[[n e] s1]|e| |]; try now intros ?.
  - specialize (N _ eq_refl). cbv beta iota in N. destruct (append_one _ _ _) as [m cap']. eapply costs_bind; [|intros; apply IH]. apply costs_at. intros t' E.
    unfold tree_insert in E. destruct (assoc n (tr_m t)); [discriminate|]. injection E as <-. cbn [tr_t]. rewrite sum_snoc. lia.
  - destruct e; try now intros ?. apply costs_at. intros t' E. injection E as <-. lia.
Qed.
Lemma tree_least s : costs 0 nsize (decode_tree_c grow ops BTree s).
Proof.
  unfold decode_tree_c. apply costs_any. intros [z s1] _. eapply costs_bind; [apply (tree_loop_least _ zero_tree)|]. intros t _. apply costs_at. intros n E.
  cbn in E. injection E as <-. cbn [nsize]. change (fun '(name, e) => length name + length (e_mode e) + 1) with esize. lia.
Qed.
Lemma gpgsig_loop_least f : forall b s, costs (length (b_text b)) (fun '(x, _) => length x) (gpgsig_loop_c grow ops f b s).
Proof.
  induction f as [|f IH]; intros b s; [now intros ?|]. cbn [gpgsig_loop_c]. apply costs_any. intros [[v [e|]] s1] _; [now intros ?|].
  cbv zeta. destruct (beqb _ _); [apply costs_at; intros r' E; injection E as <-; cbv beta iota; lia|]. apply costs_any. intros x _.
  eapply costs_bind; [apply write_least|]. intros; apply IH.
Qed.
Lemma gpgsig_least s : costs 0 (fun '(x, _) => length x) (decode_gpgsig_c grow ops s).
Proof.
  unfold decode_gpgsig_c. apply costs_any. intros [[v [e|]] s1] _; [now intros ?|]. cbv zeta. destruct (negb _).
  - apply costs_any. intros ? _. destruct (_ || _); [|now intros ?]. apply costs_any. intros x _. eapply costs_bind; [apply (write_least empty_builder)|]. intros; apply gpgsig_loop_least.
  - eapply costs_bind; [apply (write_least empty_builder)|]. intros; apply gpgsig_loop_least.
Qed.
Lemma msg_loop_least f : forall b s, costs (length (b_text b)) (fun '(x, _, _) => length x) (mergetag_msg_loop_c grow ops f b s).
Proof.
  induction f as [|f IH]; intros b s; [now intros ?|]. cbn [mergetag_msg_loop_c]. apply costs_any. intros [[v [e|]] s1] _; [now intros ?|].
  cbv zeta. destruct (negb _); [apply costs_at; intros r' E; injection E as <-; cbv beta iota; lia|]. apply costs_any. intros x _.
  eapply costs_bind; [apply write_least|]. intros; apply IH.
Qed.
Ltac sizes := unfold tsize, csize in *; cbn [t_type t_tag t_tagger t_message c_parents c_message c_author c_committer c_encoding c_signature c_mergetag c_other osize] in *.
Lemma mergetag_loop_least f : forall t s, costs (tsize t) (fun '(t', _, _) => tsize t') (mergetag_loop_c grow ops f t s).
Proof.
  induction f as [|f IH]; intros t s; [now intros ?|]. cbn [mergetag_loop_c]. apply costs_any. intros [[v [e|]] s1] _.
  { apply costs_at. intros r' E. destruct (is_eof e); [|discriminate]. injection E as <-. cbv beta iota. lia. }
  cbv zeta. set (line := rd_deref ops s1 v).
  destruct (has_prefix (bs " type ") _).
  { eapply (costs_bind _ (fun x => tsize t + length x)); [apply costs_at; intros x E; apply go_from_length in E; lia|]. intros x _ r' E. apply IH in E. destruct r' as [[t' o] s2]. sizes. lia. }
  destruct (has_prefix (bs " tag ") _).
  { eapply (costs_bind _ (fun x => tsize t + length x)); [apply costs_at; intros x E; apply go_from_length in E; lia|]. intros x _ r' E. apply IH in E. destruct r' as [[t' o] s2]. sizes. lia. }
  destruct (has_prefix (bs " tagger ") _).
  { apply costs_any. intros x _. eapply (costs_bind _ (fun p => tsize t + psize p)); [intros p E; apply person_least in E; lia|]. intros p _ r' E. apply IH in E. destruct r' as [[t' o] s2]. sizes. lia. }
  destruct (beqb _ _); [|apply IH].
  eapply (costs_bind _ (fun '(x, _, _) => tsize t + length x)). { intros [[x o] s2] E. apply (msg_loop_least _ empty_builder) in E. cbv beta iota in *. cbn [b_text empty_builder length] in E. lia. }
  intros [[x o] s2] _. apply costs_at. intros r' E. injection E as <-. sizes. lia.
Qed.
Lemma merge_tag_least h s : costs 0 (fun '(t', _, _) => tsize t') (read_merge_tag_c grow ops h s).
Proof. unfold read_merge_tag_c. apply costs_any. intros c _ r' E. apply mergetag_loop_least in E. destruct r' as [[t' o] s2]. cbv beta iota in *. cbn [tsize t_type t_tag t_tagger t_message zero_person psize p_name p_email p_date p_timezone length] in E. cbn in E. exact E. Qed.
Lemma commit_line_least f : forall c k v s, costs (csize c) (fun '(c', _, _) => csize c') (commit_line_c grow pick ops f c k v s).
Proof.
  induction f as [|f IH]; intros c k v s; [now intros ?|]. cbn [commit_line_c]. cbv zeta. set (line := rd_deref ops s v).
  destruct (has_prefix (bs "tree ") _).
  { do 3 (apply costs_any; intros ? _). apply costs_at. intros r' E. injection E as <-. sizes. lia. }
  destruct (has_prefix (bs "parent ") _).
  { do 2 (apply costs_any; intros ? _). eapply (costs_bind _ (fun _ => csize c + 1)); [apply costs_at; intros; lia|]. intros cd _. destruct (append_one _ _ _). apply costs_at. intros r' E. injection E as <-. sizes. rewrite app_length. cbn [length]. lia. }
  destruct (has_prefix (bs "author ") _).
  { eapply (costs_bind _ (fun p => csize c + psize p)); [intros p E; apply person_least in E; lia|]. intros p _. apply costs_at. intros r' E. injection E as <-. sizes. lia. }
  destruct (has_prefix (bs "committer ") _).
  { eapply (costs_bind _ (fun p => csize c + psize p)); [intros p E; apply person_least in E; lia|]. intros p _. apply costs_at. intros r' E. injection E as <-. sizes. lia. }
  destruct (has_prefix (bs "encoding ") _).
  { eapply (costs_bind _ (fun x => csize c + length x)); [apply costs_at; intros x E; apply go_from_length in E; lia|]. intros x _. apply costs_at. intros r' E. injection E as <-. sizes. lia. }
  destruct (has_prefix (bs "mergetag object ") _).
  { do 2 (apply costs_any; intros ? _). eapply (costs_bind _ (fun '(t, _, _) => csize c + tsize t)). { intros [[t o] s2] E. apply merge_tag_least in E. cbv beta iota in *. lia. }
    intros [[t o] s1] _. destruct (append_one _ _ _). apply costs_any. intros ? _. destruct o as [v'|].
    - intros r' E. apply IH in E. destruct r' as [[c' k'] s2]. sizes. rewrite sum_snoc in E. unfold tsize in *. lia.
    - apply costs_at. intros r' E. injection E as <-. sizes. rewrite sum_snoc. unfold tsize. lia. }
  destruct (has_prefix (bs "gpgsig ") _).
  { eapply (costs_bind _ (fun '(x, _) => csize c + length x)). { intros [x s2] E. apply gpgsig_least in E. cbv beta iota in *. lia. }
    intros [x s2] _. apply costs_at. intros r' E. injection E as <-. sizes. lia. }
  destruct (length line =? 0).
  { eapply (costs_bind _ (fun '(x, _, _) => csize c + length x)). { intros [[x e] s2] E. apply all_least in E. cbv beta iota in *. lia. }
    intros [[x [e|]] s2] _; [now intros ?|]. apply costs_at. intros r' E. injection E as <-. sizes. lia. }
  destruct (append_one _ _ _). apply costs_at. intros r' E. injection E as <-. sizes. rewrite sum_snoc. lia.
Qed.
Lemma commit_loop_least f : forall c k s, costs (csize c) csize (commit_loop_c grow pick ops f c k s).
Proof.
  induction f as [|f IH]; intros c k s; [now intros ?|]. cbn [commit_loop_c]. apply costs_any. intros [[v [e|]] s1] _.
  { apply costs_at. intros r' E. destruct (is_eof e); [|discriminate]. injection E as <-. lia. }
  eapply costs_bind; [apply commit_line_least|]. intros [[c' k'] s2] _. apply IH.
Qed.
Lemma commit_least s : costs 0 nsize (decode_commit_c grow pick ops BCommit s).
Proof.
  unfold decode_commit_c. apply costs_any. intros [z s1] _. eapply costs_bind; [apply (commit_loop_least _ zero_commit)|]. intros c _. apply costs_at. intros n E.
  cbn in E. injection E as <-. cbn [nsize]. lia.
Qed.
Lemma tag_loop_least f : forall t pr s, costs (tsize t) (fun '(t', _) => tsize t') (tag_loop_c grow pick ops f t pr s).
Proof.
  induction f as [|f IH]; intros t pr s; [now intros ?|]. cbn [tag_loop_c]. apply costs_any. intros [[v [e|]] s1] _.
  { apply costs_at. intros r' E. destruct (is_eof e); [|discriminate]. injection E as <-. cbv beta iota. lia. }
  cbv zeta. set (line := rd_deref ops s1 v).
  destruct (has_prefix (bs "object ") _).
  { do 3 (apply costs_any; intros ? _). intros r' E. apply IH in E. destruct r'. sizes. lia. }
  destruct (has_prefix (bs "tag ") _).
  { eapply (costs_bind _ (fun x => tsize t + length x)); [apply costs_at; intros x E; apply go_from_length in E; lia|]. intros x _ r' E. apply IH in E. destruct r'. sizes. lia. }
  destruct (has_prefix (bs "tagger ") _).
  { eapply (costs_bind _ (fun p => tsize t + psize p)); [intros p E; apply person_least in E; lia|]. intros p _ r' E. apply IH in E. destruct r'. sizes. lia. }
  destruct (has_prefix (bs "type ") _).
  { eapply (costs_bind _ (fun x => tsize t + length x)); [apply costs_at; intros x E; apply go_from_length in E; lia|]. intros x _ r' E. apply IH in E. destruct r'. sizes. lia. }
  destruct (length line =? 0).
  { eapply (costs_bind _ (fun '(x, _, _) => tsize t + length x)). { intros [[x e] s2] E. apply all_least in E. cbv beta iota in *. lia. }
    intros [[x [e|]] s2] _; [now intros ?|]. intros r' E. apply IH in E. destruct r'. sizes. lia. }
  apply costs_any. intros ? _. apply IH.
Qed.
Lemma tag_least s : costs 0 nsize (decode_tag_c grow pick ops BTag s).
Proof.
  unfold decode_tag_c. apply costs_any. intros [[l [e|]] s1] _; [now intros ?|]. eapply costs_bind; [apply (tag_loop_least _ zero_tag)|]. intros [t pr] _. apply costs_at. intros n E.
  cbn in E. injection E as <-. cbn [nsize]. lia.
Qed.
Lemma parse_least s : costs 0 nsize (parse_object_c grow bgrow pick ops s).
Proof.
  unfold parse_object_c. apply costs_any. intros [typ s1] _. destruct (beqb typ (bs "tree")); [apply tree_least|]. destruct (beqb typ (bs "commit")); [apply commit_least|].
  destruct (beqb typ (bs "blob")); [eapply costs_bind; [apply blob_least|intros [n s2] _; apply costs_at; intros r' E; injection E as <-; lia]|].
  destruct (beqb typ (bs "tag")); [apply tag_least|now intros ?].
Qed.
End Least.

(** Trees and blobs *)
Lemma tree_blob_bound grow bgrow pick (G : growing grow) (G' : growing bgrow) B (HB : 64 <= B) d e :
  begins_with (bs "tree ") d \/ begins_with (bs "blob ") d ->
  fst (parse_object_c grow bgrow pick (stream_ops B) (mk d e)) <= 128 * length d + 3000.
Proof.
  intros T. enough (within (128 * length d + 3000) nothing always (parse_object_c grow bgrow pick (stream_ops B) (mk d e))) as W.
  { unfold within in W. destruct (snd _); try exact W. destruct W. unfold nothing in *. lia. }
  unfold parse_object_c. eapply (within_bind _ (fun '(_, s1) => 128 * size s1 + 3000) (fun '(y, _) => y = bs "tree" \/ y = bs "blob")).
  { assert (exists y r, ~ In SP y /\ d = y ++ [SP] ++ r /\ (y = bs "tree" \/ y = bs "blob")) as (y & r & N & -> & Y).
    { destruct T as [[r ->]|[r ->]]; [exists (bs "tree"), r|exists (bs "blob"), r]; (split; [cbn; intuition discriminate|]); auto. }
    pose proof (type_bound B HB 128 ltac:(lia) (mk (y ++ [SP] ++ r) e)) as W. unfold within in *. rewrite (read_type_same (stream_ops B)), read_type_app in * by exact N.
    destruct W as [_ W]. split; [exact Y|]. unfold size in *. cbn [st_data mk] in *. lia. }
  intros [y s1] _ [-> | ->].
  - change (beqb (bs "tree") (bs "tree")) with true. cbv iota. eapply within_less; [apply (tree_bound grow G B HB 128); lia|lia|]. intros. split; [assumption|apply Nat.le_refl].
  - change (beqb (bs "blob") (bs "tree")) with false. change (beqb (bs "blob") (bs "commit")) with false. change (beqb (bs "blob") (bs "blob")) with true. cbv iota.
    eapply within_bind; [apply (blob_bound bgrow pick G' B HB 128); lia|]. intros [? ?] _ _. apply within_end.
Qed.

(** ** The name of a person is copied for each of its words *)
Fixpoint words_line (m : nat) : bytes := match m with O => bs "<> 0 0" | S m => x61 :: SP :: words_line m end.
Lemma words_line_length m : length (words_line m) = 2 * m + 6.
Proof. induction m as [|m IH]; [reflexivity|]. cbn [words_line length]. lia. Qed.
Lemma words_line_split m : split_on SP (words_line m) = repeat [x61] m ++ [bs "<>"; bs "0"; bs "0"].
Proof. induction m as [|m IH]; [reflexivity|]. cbn [words_line repeat app]. change (x61 :: SP :: words_line m) with ([x61] ++ SP :: words_line m). now rewrite split_on_app, IH. Qed.
Lemma go_at_app {A} (a : list A) x b : go_at (a ++ x :: b) (length a) = Ok x.
Proof. unfold go_at. rewrite nth_error_app2 by lia. now rewrite Nat.sub_diag. Qed.
Lemma name_cost line m : forall f pre rest n, m < f -> m * length n + m * m <= fst (name_loop_c line f (pre ++ repeat [x61] m ++ rest) (length pre) n).
Proof.
  induction m as [|m IH]; intros [|f] pre rest n L; try lia. cbn [name_loop_c repeat app].
  destruct (Nat.eqb_spec (length pre) (length (pre ++ [x61] :: repeat [x61] m ++ rest))) as [E|_]; [rewrite !app_length in E; cbn [length] in E; lia|].
  rewrite go_at_app. unfold cbind. cbn [snd fst free at_cost length Nat.eqb negb go_at nth_error byte_eqb].
  change (byte_eqb x61 LT) with false. cbv iota. cbn [snd fst at_cost].
  specialize (IH f (pre ++ [[x61]]) rest (n ++ [x61] ++ [SP]) ltac:(lia)).
  rewrite app_length in IH. cbn [length] in IH. rewrite !app_length in IH. cbn [length] in IH. rewrite <- !app_assoc in IH. cbn [app] in IH.
  replace (length pre + 1) with (S (length pre)) in IH by lia. cbn [app]. cbn [length]. nia.
Qed.
Definition long_author (m : nat) : bytes := bs "author " ++ words_line m.
Lemma author_words m : split_on SP (long_author m) = [bs "author"] ++ repeat [x61] m ++ [bs "<>"; bs "0"; bs "0"].
Proof. unfold long_author. change (bs "author " ++ words_line m) with (bs "author" ++ SP :: words_line m). now rewrite split_on_app, words_line_split. Qed.
Lemma author_cost grow m : m * m <= fst (parse_person_c grow (long_author m)).
Proof.
  unfold parse_person_c. cbv zeta. rewrite author_words. set (ps := _ ++ _). pose proof (name_cost (long_author m) m (S (length ps)) [bs "author"] [bs "<>"; bs "0"; bs "0"] []) as N.
  fold ps in N. assert (length ps = m + 4) as L by (unfold ps; rewrite !app_length, repeat_length; cbn [length]; lia). specialize (N ltac:(lia)). cbn [length] in N.
  unfold cbind at 1. cbn [fst snd at_cost]. destruct (Nat.ltb_spec (length ps) 3); [lia|]. unfold cbind at 1.
  destruct (snd (name_loop_c (long_author m) (S (length ps)) ps 1 [])); cbn [fst]; lia.
Qed.
Lemma author_parses m : exists p, parse_person (long_author m) = Ok p.
Proof.
  exists {| p_name := join SP (repeat [x61] m); p_email := []; p_date := bs "0"; p_timezone := bs "0" |}. apply person_line_iff.
  exists (bs "author"), [], (repeat [x61] m), [bs "<>"], [bs "0"; bs "0"]. change (words (long_author m)) with (split_on SP (long_author m)). rewrite author_words.
  split; [reflexivity|]. split; [rewrite !app_length; cbn [length]; lia|]. split; [intros ? []|].
  split; [intros w ws E; destruct m; [discriminate|injection E as <- _; discriminate]|].
  split; [intros w I; apply repeat_spec in I; subst; intros [q Q]; discriminate|]. split; [exists (bs "<>"), []; split; [reflexivity|now exists (bs ">")]|].
  split; [intros pre w w' post E; destruct pre as [|? [|? ?]]; discriminate|]. repeat split.
Qed.
