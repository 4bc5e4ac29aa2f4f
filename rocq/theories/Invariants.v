(** What holds of every decoded value, whatever the reader does: no assumption at all
    is made about the reader's operations. *)
From Verif Require Import Base GoStr Cid Types Nodes Reader Person Assemble Decode Spec DecodeFacts SafeOps.

Definition good_link (l : link) : Prop := exists sha, is_sha sha /\ l = git_link sha.
Definition parsed_person (p : person) : Prop := exists line, parse_person line = Ok p.

Record tag_inv (t : tag) : Prop := {
  ti_object : t_object t = LNil \/ good_link (t_object t);
  ti_tagger : t_tagger t = zero_person \/ parsed_person (t_tagger t)
}.
Record mergetag_inv (t : tag) : Prop := {
  mi_object : good_link (t_object t);
  mi_tagger : t_tagger t = zero_person \/ parsed_person (t_tagger t)
}.
Record commit_inv (c : commit) : Prop := {
  ci_tree : c_tree c = LNil \/ good_link (c_tree c);
  ci_parents : forall l, In l (c_parents c) -> good_link l;
  ci_author : forall p, c_author c = Some p -> parsed_person p;
  ci_committer : forall p, c_committer c = Some p -> parsed_person p;
  ci_mergetag : forall t, In t (c_mergetag c) -> mergetag_inv t;
  ci_other : forall l, In l (c_other c) -> l <> [] /\ ~ is_header l
}.
Record tree_inv (t : tree) : Prop := {
  tvi_index : tr_m t = rev (tr_t t);
  tvi_names : NoDup (map fst (tr_t t));
  tvi_links : forall name e, In (name, e) (tr_t t) -> good_link (e_hash e)
}.

Lemma good_link_made sha c : sha_to_cid sha = Ok c -> good_link (LCid c).
Proof. intros H. apply sha_to_cid_inv in H as [L ->]. exists sha. split; [exact L|reflexivity]. Qed.

Lemma zero_commit_inv : commit_inv zero_commit.
Proof. split; cbn; try discriminate; auto; contradiction. Qed.
Lemma zero_tag_inv : tag_inv zero_tag.
Proof. split; cbn; auto. Qed.
Lemma zero_tree_inv : tree_inv zero_tree.
Proof. split; cbn; auto; [constructor|contradiction]. Qed.

Lemma assoc_in {A} k (l : list (bytes * A)) : assoc k l = None -> ~ In k (map fst l).
Proof.
  induction l as [|[k' v] l IH]; cbn; [tauto|]. destruct (beqb_spec k k') as [->|N]; [discriminate|].
  intros H [E|I]; [congruence|]. now apply IH.
Qed.

Lemma NoDup_app_snoc {A} (l : list A) x : NoDup l -> ~ In x l -> NoDup (l ++ [x]).
Proof.
  intros H N. apply NoDup_rev in H. rewrite <- (rev_involutive l). change [x] with (rev [x]).
  rewrite <- rev_app_distr. apply NoDup_rev. cbn. constructor; [now rewrite <- in_rev|exact H].
Qed.

Lemma NoDup_dec_names (l : list bytes) : NoDup l \/ ~ NoDup l.
Proof.
  induction l as [|x l [IH|IH]]; [left; constructor| |].
  - destruct (in_dec bytes_eq_dec x l) as [I|I]; [right|left; now constructor]. intros H. now inversion H.
  - right. intros H. apply IH. now inversion H.
Qed.

Lemma tree_insert_inv t name e t' : tree_inv t -> good_link (e_hash e) -> tree_insert t name e = Ok t' -> tree_inv t'.
Proof.
  intros [H1 H2 H3] G E. unfold tree_insert in E. destruct (assoc name (tr_m t)) eqn:A; [discriminate|]. injection E as <-.
  apply assoc_in in A. rewrite H1, map_rev, <- in_rev in A. split; cbn [tr_m tr_t].
  - now rewrite H1, rev_app_distr.
  - rewrite map_app. cbn [map fst]. apply NoDup_app_snoc; assumption.
  - intros n x I. apply in_app_iff in I as [I|[I|[]]]; [eauto|]. injection I as -> ->. exact G.
Qed.

Section Ops.
Context {S V : Type} (ops : rdops S V).

Lemma inv_decode_tree_entry s name e s' : decode_tree_entry ops s = Ok (name, e, s') -> good_link (e_hash e).
Proof.
  unfold decode_tree_entry. intros E.
  apply bind_ok in E as ([[d er] s1] & _ & E). destruct er; [discriminate|].
  apply bind_ok in E as (mode & _ & E). apply bind_ok in E as ([[nm er] s2] & _ & E). destruct er; [discriminate|].
  apply bind_ok in E as (nm' & _ & E). apply bind_ok in E as ([[sha er] s3] & _ & E). destruct er; [discriminate|].
  apply bind_ok in E as (c & E1 & E). injection E as <- <- <-. cbn. eapply good_link_made; eassumption.
Qed.

Lemma inv_tree_loop f : forall t s t', tree_inv t -> tree_loop ops f t s = Ok t' -> tree_inv t'.
Proof.
  induction f as [|f IH]; intros t s t' H E; [discriminate|]. cbn [tree_loop] in E.
  destruct (decode_tree_entry ops s) as [[[n e] s1]|e| |] eqn:D; try discriminate.
  - apply bind_ok in E as (t1 & E1 & E). eapply IH; [|exact E]. eapply tree_insert_inv; [exact H| |exact E1].
    eapply inv_decode_tree_entry; eassumption.
  - destruct e; try discriminate. congruence.
Qed.

Lemma mergetag_header_inv out line out' : mergetag_inv out -> mergetag_header out line = Ok out' -> mergetag_inv out'.
Proof.
  intros [H1 H2] E. unfold mergetag_header in E.
  destruct (has_prefix (bs " type ") line); [apply bind_ok in E as (x & _ & E); injection E as <-; now split|].
  destruct (has_prefix (bs " tag ") line); [apply bind_ok in E as (x & _ & E); injection E as <-; now split|].
  destruct (has_prefix (bs " tagger ") line); [|injection E as <-; now split].
  apply bind_ok in E as (x & _ & E). apply bind_ok in E as (p & Ep & E). injection E as <-. split; [exact H1|].
  right. exists x. exact Ep.
Qed.

Lemma inv_mergetag_loop f : forall out s mt r s', mergetag_inv out -> mergetag_loop ops f out s = Ok (mt, r, s') -> mergetag_inv mt.
Proof.
  induction f as [|f IH]; intros out s mt r s' H E; [discriminate|]. rewrite mergetag_loop_unfold_gen in E.
  apply bind_ok in E as ([[v er] s1] & _ & E). destruct er as [er|].
  { destruct (is_eof er); [|discriminate]. congruence. }
  cbv zeta in E. destruct (beqb _ _).
  - apply bind_ok in E as ([[msg v'] s2] & _ & E). injection E as <- <- <-. destruct H. now split.
  - apply bind_ok in E as (o & Eo & E). eapply IH; [|exact E]. eapply mergetag_header_inv; eassumption.
Qed.

Lemma not_header_line line :
  has_prefix (bs "tree ") line = false -> has_prefix (bs "parent ") line = false ->
  has_prefix (bs "author ") line = false -> has_prefix (bs "committer ") line = false ->
  has_prefix (bs "encoding ") line = false -> has_prefix (bs "mergetag object ") line = false ->
  has_prefix (bs "gpgsig ") line = false -> ~ is_header line.
Proof.
  intros H1 H2 H3 H4 H5 H6 H7 (p & I & r & ->). unfold header_words in I. cbn [In] in I.
  decompose [or] I; subst; try contradiction;
    match goal with H : has_prefix ?x (?x ++ _) = false |- _ => rewrite has_prefix_app in H; discriminate end.
Qed.

Lemma inv_commit_line f : forall c v s c' s', commit_inv c -> commit_line ops f c v s = Ok (c', s') -> commit_inv c'.
Proof.
  induction f as [|f IH]; intros c v s c' s' H E; [discriminate|]. cbn [commit_line] in E. cbv zeta in E.
  set (line := rd_deref ops s v) in *.
  destruct (has_prefix (bs "tree ") line) eqn:H1.
  { apply bind_ok in E as (h & _ & E). apply bind_ok in E as (sha & _ & E). apply bind_ok in E as (cd & Ec & E).
    injection E as <- <-. destruct H. split; cbn; auto. right. eapply good_link_made; eassumption. }
  destruct (has_prefix (bs "parent ") line) eqn:H2.
  { apply bind_ok in E as (h & _ & E). apply bind_ok in E as (sha & _ & E). apply bind_ok in E as (cd & Ec & E).
    injection E as <- <-. destruct H. split; cbn; auto. intros l I. apply in_app_iff in I as [I|[<-|[]]]; auto.
    eapply good_link_made; eassumption. }
  destruct (has_prefix (bs "author ") line) eqn:H3.
  { apply bind_ok in E as (p & Ep & E). injection E as <- <-. destruct H. split; cbn; auto.
    intros q Q. injection Q as <-. exists line. exact Ep. }
  destruct (has_prefix (bs "committer ") line) eqn:H4.
  { apply bind_ok in E as (p & Ep & E). injection E as <- <-. destruct H. split; cbn; auto.
    intros q Q. injection Q as <-. exists line. exact Ep. }
  destruct (has_prefix (bs "encoding ") line) eqn:H5.
  { apply bind_ok in E as (x & _ & E). injection E as <- <-. destruct H. split; cbn; auto. }
  destruct (has_prefix (bs "mergetag object ") line) eqn:H6.
  { apply bind_ok in E as (h & _ & E). apply bind_ok in E as (sha & _ & E). apply bind_ok in E as ([[mt rest] s1] & Em & E).
    unfold read_merge_tag in Em. apply bind_ok in Em as (cd & Ec & Em).
    apply inv_mergetag_loop in Em; [|split; cbn; auto; eapply good_link_made; eassumption].
    match type of E with context [commit_line ops f ?c1] => assert (commit_inv c1) as H' end.
    { destruct H. split; cbn; auto. intros t I. apply in_app_iff in I as [I|[<-|[]]]; auto. }
    destruct rest as [v'|]; [eapply IH; eassumption|]. injection E as <- <-. exact H'. }
  destruct (has_prefix (bs "gpgsig ") line) eqn:H7.
  { apply bind_ok in E as ([sg s1] & _ & E). injection E as <- <-. destruct H. split; cbn; auto. }
  destruct (Nat.eqb_spec (length line) 0) as [|L].
  { apply bind_ok in E as ([[r er] s1] & _ & E). destruct er; [discriminate|]. injection E as <- <-. destruct H. split; cbn; auto. }
  injection E as <- <-. destruct H. split; cbn; auto. intros l I. apply in_app_iff in I as [I|[<-|[]]]; auto.
  split; [intros X; now rewrite X in L|]. now apply not_header_line.
Qed.

Lemma inv_commit_loop f : forall c s c', commit_inv c -> commit_loop ops f c s = Ok c' -> commit_inv c'.
Proof.
  induction f as [|f IH]; intros c s c' H E; [discriminate|]. cbn [commit_loop] in E.
  apply bind_ok in E as ([[v er] s1] & _ & E). destruct er as [er|].
  { destruct (is_eof er); [|discriminate]. congruence. }
  apply bind_ok in E as ([c1 s2] & E1 & E). eapply IH; [|exact E]. eapply inv_commit_line; eassumption.
Qed.

Lemma tag_header_inv out line out' p : tag_inv out -> tag_header out line = Ok (out', p) -> tag_inv out'.
Proof.
  intros [H1 H2] E. unfold tag_header in E.
  destruct (has_prefix (bs "object ") line).
  { apply bind_ok in E as (h & _ & E). apply bind_ok in E as (sha & _ & E). apply bind_ok in E as (cd & Ec & E).
    injection E as <- <-. split; cbn; auto. right. eapply good_link_made; eassumption. }
  destruct (has_prefix (bs "tag ") line); [apply bind_ok in E as (x & _ & E); injection E as <- <-; now split|].
  destruct (has_prefix (bs "tagger ") line).
  { apply bind_ok in E as (q & Eq & E). injection E as <- <-. split; cbn; auto. right. eexists; exact Eq. }
  destruct (has_prefix (bs "type ") line); [apply bind_ok in E as (x & _ & E); injection E as <- <-; now split|].
  injection E as <- <-. now split.
Qed.

Lemma inv_tag_loop f : forall out pr s t pr', tag_inv out -> tag_loop ops f out pr s = Ok (t, pr') -> tag_inv t.
Proof.
  induction f as [|f IH]; intros out pr s t pr' H E; [discriminate|]. rewrite tag_loop_unfold_gen in E.
  apply bind_ok in E as ([[v er] s1] & _ & E). destruct er as [er|].
  { destruct (is_eof er); [|discriminate]. congruence. }
  destruct (rd_deref ops s1 v) as [|x line].
  - apply bind_ok in E as ([[r er] s2] & _ & E). destruct er; [discriminate|]. eapply IH; [|exact E]. destruct H. now split.
  - apply bind_ok in E as ([o p] & Eo & E). eapply IH; [|exact E]. eapply tag_header_inv; eassumption.
Qed.

Lemma decode_blob_inv s n s' : decode_blob ops BBlob s = Ok (n, s') -> exists c, n = NBlob (git_object (bs "blob") c).
Proof.
  intros E. unfold decode_blob in E. apply bind_ok in E as ([z s3] & _ & E). destruct (Z.ltb_spec z 0); [discriminate|].
  apply bind_ok in E as ([[body er] s4] & _ & E). destruct er; [discriminate|].
  destruct (Z.eqb_spec (Z.of_nat (length body)) z) as [Ez|]; cbn [negb] in E; [|destruct (length body =? 0); discriminate].
  exists body. unfold build_bytes in E. cbn [bind] in E.
  assert (git_object (bs "blob") body = (bs "blob " ++ dec_Z z ++ [NUL]) ++ body) as ->; [|congruence].
  unfold git_object, dec_Z. destruct (Z.ltb_spec z 0); [lia|]. subst z. rewrite <- nat_N_Z, N2Z.id. lnorm. reflexivity.
Qed.

(** A node that ParseObject returns. *)
Inductive decoded : node -> Prop :=
| dn_blob content : decoded (NBlob (git_object (bs "blob") content))
| dn_tree t : tree_inv t -> decoded (NTree t)
| dn_commit c : commit_inv c -> decoded (NCommit c)
| dn_tag t : tag_inv t -> decoded (NTag t).

Lemma parse_decoded s n : parse_object ops s = Ok n -> decoded n.
Proof.
  unfold parse_object. intros E. apply bind_ok in E as ([w s1] & _ & E).
  destruct (beqb w (bs "tree")).
  { unfold decode_tree in E. apply bind_ok in E as ([z s2] & _ & E). apply bind_ok in E as (t & Et & E). cbn in E. injection E as <-.
    constructor. eapply inv_tree_loop; [apply zero_tree_inv|exact Et]. }
  destruct (beqb w (bs "commit")).
  { unfold decode_commit in E. apply bind_ok in E as ([z s2] & _ & E). apply bind_ok in E as (t & Et & E). cbn in E. injection E as <-.
    constructor. eapply inv_commit_loop; [apply zero_commit_inv|exact Et]. }
  destruct (beqb w (bs "blob")).
  { apply bind_ok in E as ([n' s2] & E & En). cbn in En. injection En as ->.
    apply decode_blob_inv in E as [c ->]. constructor. }
  destruct (beqb w (bs "tag")); [|discriminate].
  unfold decode_tag, decode_tag_printing in E. apply bind_ok in E as ([n' pr] & E & En). cbn in En. injection En as ->.
  apply bind_ok in E as ([[x er] s2] & _ & E). destruct er; [discriminate|]. apply bind_ok in E as ([t pr'] & Et & E).
  cbn in E. injection E as <- <-. constructor. eapply inv_tag_loop; [apply zero_tag_inv|exact Et].
Qed.
End Ops.
