(** Boolean checks of the specification's conditions, for concrete examples. *)
From Verif Require Import Base GoStr Cid Types Person Reader Bufio Spec ReaderSpec PersonFacts.

Definition has_byte (c : byte) (l : bytes) : bool := existsb (byte_eqb c) l.
Lemma has_byte_false c l : has_byte c l = false -> ~ In c l.
Proof.
  unfold has_byte. intros H I. assert (existsb (byte_eqb c) l = true); [|congruence].
  apply existsb_exists. exists c. split; auto. apply byte_eqb_refl.
Qed.

Definition starts_withb (c : byte) (l : bytes) : bool := match l with x :: _ => byte_eqb x c | [] => false end.
Lemma starts_withb_ok c l : starts_withb c l = true <-> starts_with c l.
Proof.
  destruct l as [|x l]; cbn; split; try discriminate.
  - intros [r E]; discriminate.
  - destruct (byte_eqb_spec x c) as [->|]; [|discriminate]. now exists l.
  - intros [r E]. injection E as -> _. apply byte_eqb_refl.
Qed.

Definition ends_withb (c : byte) (l : bytes) : bool := starts_withb c (rev l).
Lemma ends_withb_ok c l : ends_withb c l = true <-> ends_with c l.
Proof.
  unfold ends_withb. rewrite starts_withb_ok. split; intros [r E].
  - exists (rev r). rewrite <- (rev_involutive l), E. reflexivity.
  - exists (rev r). subst l. now rewrite rev_app_distr.
Qed.

Definition line_okb (B : nat) (l : bytes) : bool :=
  negb (has_byte NL l) && negb (ends_withb CR l) && (length l <? B).
Lemma line_okb_ok B l : line_okb B l = true -> line_ok B l.
Proof.
  unfold line_okb. rewrite !andb_true_iff, !negb_true_iff. intros [[H1 H2] H3].
  split; [now apply has_byte_false|]. split; [|now apply Nat.ltb_lt].
  intros E. apply ends_withb_ok in E. congruence.
Qed.

Definition is_shab (s : bytes) : bool := length s =? 20.
Lemma is_shab_ok s : is_shab s = true -> is_sha s.
Proof. apply Nat.eqb_eq. Qed.

Definition person_eqb (p q : person) : bool :=
  beqb (p_name p) (p_name q) && beqb (p_email p) (p_email q) && beqb (p_date p) (p_date q) && beqb (p_timezone p) (p_timezone q).
Lemma person_eqb_ok p q : person_eqb p q = true -> p = q.
Proof.
  destruct p, q. unfold person_eqb. cbn. rewrite !andb_true_iff. intros (((H1 & H2) & H3) & H4).
  repeat match goal with H : beqb ?a ?b = true |- _ => destruct (beqb_spec a b); [subst|discriminate]; clear H end.
  reflexivity.
Qed.

Definition person_okb (p : person) : bool :=
  match parse_person (bs "x " ++ person_text p) with Ok q => person_eqb q p | _ => false end.
Lemma person_okb_ok p : person_okb p = true -> person_ok p.
Proof.
  unfold person_okb. intros H. apply (person_roundtrip (bs "x")).
  - cbn. intuition discriminate.
  - change (bs "x" ++ [SP] ++ person_text p) with (bs "x " ++ person_text p).
    destruct (parse_person (bs "x " ++ person_text p)); try discriminate. now apply person_eqb_ok in H as ->.
Qed.

Lemma forallb_In {A} (f : A -> bool) l : forallb f l = true -> forall x, In x l -> f x = true.
Proof. now rewrite forallb_forall. Qed.

Fixpoint nodupb (l : list bytes) : bool :=
  match l with [] => true | x :: r => negb (existsb (beqb x) r) && nodupb r end.
Lemma nodupb_ok l : nodupb l = true -> NoDup l.
Proof.
  induction l as [|x l IH]; cbn; intros H; constructor; apply andb_true_iff in H as [H1 H2]; auto.
  intros I. apply negb_true_iff in H1. assert (existsb (beqb x) l = true); [|congruence].
  apply existsb_exists. exists x. split; auto. apply beqb_refl.
Qed.

Definition entry_okb (e : gentry) : bool :=
  negb (has_byte SP (ge_mode e)) && negb (has_byte NUL (ge_name e)) && is_shab (ge_sha e).
Definition tree_okb (es : list gentry) : bool := forallb entry_okb es && nodupb (map ge_name es).
Lemma tree_okb_ok es : tree_okb es = true -> tree_ok es.
Proof.
  unfold tree_okb. rewrite andb_true_iff. intros [H1 H2]. split; [|now apply nodupb_ok].
  intros e I. pose proof (forallb_In _ _ H1 e I) as K. unfold entry_okb in K.
  rewrite !andb_true_iff, !negb_true_iff in K. destruct K as [[K1 K2] K3].
  split; [now apply has_byte_false|]. split; [now apply has_byte_false|now apply is_shab_ok].
Qed.

Definition tag_okb (B : nat) (g : gtag) : bool :=
  is_shab (gt_object g) && person_okb (gt_tagger g) && negb (beqb (gt_message g) []) && forallb (line_okb B) (tag_lines g).
Lemma tag_okb_ok B g : tag_okb B g = true -> tag_ok B g.
Proof.
  unfold tag_okb. rewrite !andb_true_iff, negb_true_iff. intros [[[H1 H2] H3] H4].
  split; [now apply is_shab_ok|]. split; [now apply person_okb_ok|]. split.
  - intros E. rewrite E in H3. discriminate.
  - intros l I. now apply line_okb_ok, (forallb_In _ _ H4).
Qed.

Definition is_headerb (l : bytes) : bool := existsb (fun p => has_prefix p l) header_words.
Lemma is_headerb_ok l : is_headerb l = false -> ~ is_header l.
Proof.
  unfold is_headerb. intros H [p [I [r ->]]]. assert (existsb (fun q => has_prefix q (p ++ r)) header_words = true); [|congruence].
  apply existsb_exists. exists p. split; auto. apply has_prefix_app.
Qed.

Definition mergetag_okb (g : gmergetag) : bool :=
  is_shab (gm_object g) && person_okb (gm_tagger g) && forallb (starts_withb SP) (gm_message g).
Lemma mergetag_okb_ok g : mergetag_okb g = true -> mergetag_ok g.
Proof.
  unfold mergetag_okb. rewrite !andb_true_iff. intros [[H1 H2] H3].
  split; [now apply is_shab_ok|]. split; [now apply person_okb_ok|].
  intros l I. now apply starts_withb_ok, (forallb_In _ _ H3).
Qed.

Definition signature_okb (sg : bytes * list bytes) : bool :=
  (beqb (fst sg) (bs " ") || has_prefix (bs " Version: ") (fst sg) || has_prefix (bs " Comment: ") (fst sg))
  && negb (existsb (beqb pgp_end) (snd sg)).
Lemma signature_okb_ok sg : signature_okb sg = true -> signature_ok sg.
Proof.
  unfold signature_okb. rewrite andb_true_iff, !orb_true_iff, negb_true_iff. intros [[[H|H]|H] N]; split.
  - left. destruct (beqb_spec (fst sg) (bs " ")); congruence.
  - intros I. assert (existsb (beqb pgp_end) (snd sg) = true); [|congruence]. apply existsb_exists. exists pgp_end. split; auto.
  - right; left. now apply has_prefix_spec.
  - intros I. assert (existsb (beqb pgp_end) (snd sg) = true); [|congruence]. apply existsb_exists. exists pgp_end. split; auto.
  - right; right. now apply has_prefix_spec.
  - intros I. assert (existsb (beqb pgp_end) (snd sg) = true); [|congruence]. apply existsb_exists. exists pgp_end. split; auto.
Qed.

Definition commit_okb (B : nat) (g : gcommit) : bool :=
  is_shab (gc_tree g) && forallb is_shab (gc_parents g) && person_okb (gc_author g) && person_okb (gc_committer g)
  && forallb mergetag_okb (gc_mergetags g)
  && match gc_signature g with Some s => signature_okb s | None => true end
  && forallb (fun l => negb (beqb l []) && negb (is_headerb l)) (gc_other g)
  && match gc_mergetags g, gc_signature g, gc_other g with
     | _ :: _, None, l :: _ => negb (starts_withb SP l)
     | _, _, _ => true
     end
  && forallb (line_okb B) (commit_lines g).
Lemma commit_okb_ok B g : commit_okb B g = true -> commit_ok B g.
Proof.
  unfold commit_okb. rewrite !andb_true_iff. intros ((((((((H1 & H2) & H3) & H4) & H5) & H6) & H7) & H8) & H9).
  split; [now apply is_shab_ok|]. split; [intros p I; now apply is_shab_ok, (forallb_In _ _ H2)|].
  split; [now apply person_okb_ok|]. split; [now apply person_okb_ok|].
  split; [intros m I; now apply mergetag_okb_ok, (forallb_In _ _ H5)|].
  split; [intros s E; rewrite E in H6; now apply signature_okb_ok|].
  split.
  { intros l I. pose proof (forallb_In _ _ H7 l I) as K. cbn beta in K. apply andb_true_iff in K as [K1 K2].
    rewrite negb_true_iff in K1, K2. split; [intros ->; discriminate|now apply is_headerb_ok]. }
  split.
  { intros NE ES l ls EO. rewrite ES, EO in H8. destruct (gc_mergetags g); [congruence|].
    intros S. apply starts_withb_ok in S. rewrite S in H8. discriminate. }
  intros l I. now apply line_okb_ok, (forallb_In _ _ H9).
Qed.

(** Sources: [k] empty deliveries came just before. *)
Fixpoint good_evs (t : err) (k : nat) (evs : list event) : bool :=
  match evs with
  | [] => true
  | (c, Some e) :: r =>
      match r with [] => true | _ => false end &&
      (if err_eq_dec e t then true else false) && negb (ends_withb CR c) && (is_eof e || beqb c [])
  | (c, None) :: r => if beqb c [] then (S k <? max_empty_reads) && good_evs t (S k) r else good_evs t 0 r
  end.
Lemma good_evs_tail t x evs k : good_evs t k (x :: evs) = true -> exists k', good_evs t k' evs = true.
Proof.
  destruct x as [c [e|]]; cbn; intros H.
  - destruct evs; [now exists 0|discriminate].
  - destruct (beqb c []); [apply andb_true_iff in H as [_ H]|]; eauto.
Qed.
Lemma good_evs_suffix t pre : forall evs k, good_evs t k (pre ++ evs) = true -> exists k', good_evs t k' evs = true.
Proof. induction pre as [|x pre IH]; cbn [app]; intros evs k H; [eauto|]. apply good_evs_tail in H as [k' H]. eauto. Qed.
Lemma good_evs_stall t n : forall k post, k < max_empty_reads -> good_evs t k (repeat ([], None) n ++ post) = true -> k + n < max_empty_reads.
Proof.
  induction n as [|n IH]; intros k post L H; [lia|]. cbn [repeat app good_evs] in H. rewrite beqb_refl in H.
  apply andb_true_iff in H as [H1 H]. apply Nat.ltb_lt in H1. apply IH in H; lia.
Qed.
Lemma good_evs_stall0 t n k post : good_evs t k (repeat ([], None) n ++ post) = true -> n < max_empty_reads.
Proof.
  destruct n as [|n]; intros H; [unfold max_empty_reads; lia|]. cbn [repeat app good_evs] in H. rewrite beqb_refl in H.
  apply andb_true_iff in H as [H1 H]. apply Nat.ltb_lt in H1. apply good_evs_stall in H; lia.
Qed.
Definition good_sourceb (s : source) : bool :=
  good_evs (so_term s) 0 (so_evs s) && if err_eq_dec (so_term s) EBufferFull then false else true.
Lemma good_sourceb_ok s : good_sourceb s = true -> good_source s /\ joint_eof s.
Proof.
  unfold good_sourceb. intros H. apply andb_true_iff in H as [H HF]. split.
  - split.
    + intros pre c e post E. rewrite E in H. apply good_evs_suffix in H as [k H]. cbn in H.
      rewrite !andb_true_iff in H. destruct H as [[[H1 H2] _] _]. split; [destruct post; congruence|].
      destruct (err_eq_dec e (so_term s)); congruence.
    + intros pre n post E. rewrite E in H. apply good_evs_suffix in H as [k H]. now apply good_evs_stall0 in H.
    + intros pre c e E. rewrite E in H. apply good_evs_suffix in H as [k H]. cbn in H.
      rewrite !andb_true_iff in H. destruct H as [[_ H] _]. intros [_ X]. apply ends_withb_ok in X. rewrite X in H. discriminate.
    + destruct (err_eq_dec (so_term s) EBufferFull); congruence.
  - intros pre c e E N. rewrite E in H. apply good_evs_suffix in H as [k H]. cbn in H.
    rewrite !andb_true_iff in H. destruct H as [_ H]. apply orb_true_iff in H as [H|H]; [now apply is_eof_true|].
    destruct (beqb_spec c []); congruence.
Qed.
