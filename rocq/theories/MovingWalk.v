(** One walk through the functions of Moving.v, for any relation between two computations that
    the loops and methods keep. *)
From Verif Require Import Base GoStr Cid Types Nodes Person Assemble Encode Foreign Moving.

Lemma sha_ends c : cid_to_sha c <> OutOfFuel.
Proof. unfold cid_to_sha. repeat match goal with |- context [match ?x with _ => _ end] => destruct x end; discriminate. Qed.
Lemma link_sha_ends l : link_sha l <> OutOfFuel.
Proof. destruct l; cbn [link_sha]; try discriminate. apply sha_ends. Qed.
Lemma concat_ends {A} (f : A -> res bytes) l : (forall a, f a <> OutOfFuel) -> concat_res f l <> OutOfFuel.
Proof.
  intros H. induction l as [|a l IH]; cbn [concat_res]; [discriminate|]. specialize (H a). destruct (f a); try discriminate; [|now elim H]. cbn [bind].
  destruct (concat_res f l); try discriminate. now elim IH.
Qed.
Lemma bind_ends {A B} (r : res A) (f : A -> res B) : r <> OutOfFuel -> (forall a, f a <> OutOfFuel) -> bind r f <> OutOfFuel.
Proof. intros H F. destruct r; cbn [bind]; auto; discriminate. Qed.
Lemma body_ends c : commit_body c <> OutOfFuel.
Proof.
  unfold commit_body. apply bind_ends; [apply link_sha_ends|intros tr]. apply bind_ends; [apply concat_ends; intros a; apply bind_ends; [apply link_sha_ends|discriminate]|intros ps].
  apply bind_ends; [now destruct (c_author c)|intros au]. apply bind_ends; [now destruct (c_committer c)|intros co].
  apply bind_ends; [apply concat_ends; intros a; apply bind_ends; [apply link_sha_ends|discriminate]|intros mts]. discriminate.
Qed.

Section Walk.
Context {S1 S2 N I : Type} (o1 : movops S1 N I) (o2 : movops S2 N I) (f1 f2 : nat).
Context (Q : forall A, state_res S1 A -> state_res S2 A -> Prop).
Arguments Q {A} _ _.
Record kept : Prop := {
  q_fail : forall A (r : res A), r <> OutOfFuel -> Q (sfail r) (sfail r);
  q_bind : forall A B (m1 : state_res S1 A) m2 (k1 : A -> state_res S1 B) k2, Q m1 m2 -> (forall a, Q (k1 a) (k2 a)) -> Q (sbind m1 k1) (sbind m2 k2);
  q_map : forall A B (t : res A -> res B) m1 m2, (forall r, t r = OutOfFuel <-> r = OutOfFuel) -> Q m1 m2 -> Q (smap t m1) (smap t m2);
  q_type : forall n, Q (total (m_type o1 n)) (total (m_type o2 n));
  q_own : forall n, Q (total (m_own o1 n)) (total (m_own o2 n));
  q_kind : forall n, Q (total (m_kind o1 n)) (total (m_kind o2 n));
  q_null : forall n, Q (total (m_null o1 n)) (total (m_null o2 n));
  q_string : forall n, Q (m_string o1 n) (m_string o2 n);
  q_bytes : forall n, Q (m_bytes o1 n) (m_bytes o2 n);
  q_link : forall n, Q (m_link o1 n) (m_link o2 n);
  q_lookup : forall n k, Q (m_lookup o1 n k) (m_lookup o2 n k);
  q_mapit : forall n, Q (total (m_map o1 n)) (total (m_map o2 n));
  q_listit : forall n, Q (total (m_list o1 n)) (total (m_list o2 n));
  q_next : forall i, Q (m_next_pair o1 i) (m_next_pair o2 i);
  q_items : forall A (f : N -> state_res S1 A) g, (forall v, Q (f v) (g v)) -> forall i, Q (mitems o1 f f1 i) (mitems o2 g f2 i);
  q_loop : forall W fields (f : nat -> N -> W -> state_res S1 W) g, (forall j v w, Q (f j v w) (g j v w)) ->
    forall i seen w, Q (mstruct_loop o1 fields f f1 i seen w) (mstruct_loop o2 fields g f2 i seen w);
  q_entries : (forall name v, Q (mtree_entry_body o1 name v) (mtree_entry_body o2 name v)) ->
    forall i, Q (mtree_entries_body o1 f1 i) (mtree_entries_body o2 f2 i)
}.
Context (K : kept).

Lemma q_ret {A} (a : A) : Q (sret a) (sret a).
Proof. apply (q_fail K _ (Ok a)). discriminate. Qed.
Lemma q_err {A} e : @Q A (sfail (Err e)) (sfail (Err e)).
Proof. apply (q_fail K). discriminate. Qed.
Lemma q_panic {A} : @Q A (sfail Panic) (sfail Panic).
Proof. apply (q_fail K). discriminate. Qed.
Hint Resolve q_ret q_err q_panic : core.

Lemma w_massign {A} (own : node -> option A) g1 g2 v : Q (g1 v) (g2 v) -> Q (massign o1 own g1 v) (massign o2 own g2 v).
Proof.
  intros H. unfold massign. apply (q_bind K); [apply (q_null K)|]. intros []; auto. apply (q_bind K); [apply (q_own K)|]. intros x.
  destruct (match x with Some n => own n | None => None end); auto.
Qed.
Lemma w_string v : Q (massign_string o1 v) (massign_string o2 v).
Proof. apply w_massign, (q_string K). Qed.
Lemma w_gpgsig v : Q (massign_gpgsig o1 v) (massign_gpgsig o2 v).
Proof. apply w_massign, (q_string K). Qed.
Lemma w_link v : Q (massign_link o1 v) (massign_link o2 v).
Proof. apply w_massign, (q_link K). Qed.
Lemma w_tree_link v : Q (massign_tree_link o1 v) (massign_tree_link o2 v).
Proof. apply w_massign, (q_link K). Qed.
Lemma w_commit_link v : Q (massign_commit_link o1 v) (massign_commit_link o2 v).
Proof. apply w_massign, (q_link K). Qed.
Lemma w_list {A} (own : node -> option (list A)) f g v : (forall v, Q (f v) (g v)) -> Q (massign_list o1 f1 own f v) (massign_list o2 f2 own g v).
Proof.
  intros H. apply w_massign. apply (q_bind K); [apply (q_kind K)|]. intros []; auto. apply (q_bind K); [apply (q_listit K)|].
  intros [it|]; auto. now apply (q_items K).
Qed.
Lemma w_struct {W} (own : node -> option W) fields req f g z v : (forall j v w, Q (f j v w) (g j v w)) ->
  Q (massign_struct o1 f1 own fields req f z v) (massign_struct o2 f2 own fields req g z v).
Proof.
  intros H. apply w_massign. apply (q_bind K); [apply (q_kind K)|]. intros []; auto. apply (q_bind K); [apply (q_mapit K)|].
  intros [it|]; auto. apply (q_bind K); [now apply (q_loop K)|]. intros [seen w]. destruct (missing_fields fields req seen); auto.
Qed.
Lemma w_person b v : Q (massign_person o1 f1 b v) (massign_person o2 f2 b v).
Proof.
  apply w_struct. intros j x w. destruct b; auto. apply (q_bind K); [apply w_string|]. intros s. destruct j as [|[|[|[|j]]]]; auto.
Qed.
Lemma w_tag v : Q (massign_tag o1 f1 v) (massign_tag o2 f2 v).
Proof.
  apply w_struct. intros j x w. unfold mset_tag.
  destruct j as [|[|[|[|[|j]]]]]; auto; (apply (q_bind K); [auto using w_link, w_string, w_person|auto]).
Qed.
Lemma w_commit v : Q (massign_commit o1 f1 v) (massign_commit o2 f2 v).
Proof.
  apply w_struct. intros j x w. unfold mset_commit.
  destruct j as [|[|[|[|[|[|[|[|[|j]]]]]]]]]; auto; (apply (q_bind K); [|auto]);
    auto using w_tree_link, w_string, w_person, w_gpgsig; apply w_list; auto using w_commit_link, w_tag, w_string.
Qed.
Lemma w_entry name v : Q (mtree_entry_body o1 name v) (mtree_entry_body o2 name v).
Proof.
  apply (q_bind K); [apply (q_lookup K)|intros m]. apply (q_bind K); [apply (q_string K)|intros ms].
  apply (q_bind K); [apply (q_lookup K)|intros h]. apply (q_bind K); [apply (q_link K)|intros l]. destruct l; auto.
  apply (q_bind K); [apply (q_fail K), sha_ends|auto].
Qed.
Lemma w_tree n : Q (mencode_tree o1 f1 n) (mencode_tree o2 f2 n).
Proof.
  apply (q_bind K); [apply (q_mapit K)|]. intros [it|]; auto. apply (q_bind K); [apply (q_entries K), w_entry|auto].
Qed.
Lemma w_tag_enc n : Q (mencode_tag o1 f1 n) (mencode_tag o2 f2 n).
Proof.
  do 4 (apply (q_bind K); [apply (q_lookup K)|intros ?]; apply (q_bind K); [apply (q_link K) || apply (q_string K)|intros ?]).
  apply (q_bind K); [apply (q_map K); [intros []; split; congruence|apply (q_lookup K)]|intros t].
  apply (q_bind K); [apply (q_fail K), link_sha_ends|intros h].
  apply (q_bind K); [|auto]. destruct t as [t|]; auto. apply (q_bind K); [apply (q_null K)|]. intros []; auto.
  apply (q_bind K); [apply w_person|auto].
Qed.
Lemma w_commit_enc n : Q (mencode_commit o1 f1 n) (mencode_commit o2 f2 n).
Proof.
  apply (q_map K); [|apply w_commit]. intros []; split; try congruence.
  intros H. exfalso. revert H. apply bind_ends; [apply body_ends|discriminate].
Qed.
Lemma w_blob n : Q (mencode_blob o1 n) (mencode_blob o2 n).
Proof. apply (q_bind K); [apply (q_bytes K)|auto]. Qed.
Lemma w_node n : Q (mencode_node o1 f1 n) (mencode_node o2 f2 n).
Proof.
  apply (q_bind K); [apply (q_type K)|]. intros [[]|]; auto using w_blob, w_commit_enc, w_tree, w_tag_enc.
  apply (q_bind K); [apply (q_kind K)|]. intros []; auto using w_blob, w_tree.
  apply (q_bind K); [apply (q_mapit K)|]. intros [it|]; auto. apply (q_bind K); [apply (q_next K)|]. intros [k v].
  apply (q_bind K); [apply (q_string K)|]. intros s. destruct (existsb _ _); auto using w_tag_enc, w_commit_enc.
Qed.
End Walk.
