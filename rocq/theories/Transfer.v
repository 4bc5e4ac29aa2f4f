(** From streams to buffered readers: what was proved about decoding a stream holds
    for every buffered reader that delivers it. *)
From Verif Require Import Base GoStr Cid Types Nodes Reader Person Assemble Decode Spec Bufio Sim
  ReaderSpec BufioFacts.

Section T.
Context (B : nat) (HB : 2 <= B) (pa pc : nat -> nat -> nat).
Notation ops := (bufio_ops pa pc).

Lemma parse_transfer b s : delivers B true b s ->
  parse_object ops b = parse_object (stream_ops B) s.
Proof.
  intros H. eapply sim_parse_object; [|exact (sim_bufio_copy B HB true pa pc eq_refl)|exact H].
  now apply sim_bufio.
Qed.

Lemma decode_into_transfer k b s : delivers B true b s ->
  decode_into ops k b = decode_into (stream_ops B) k s.
Proof.
  intros H. eapply sim_decode_into; [|exact (sim_bufio_copy B HB true pa pc eq_refl)|exact H].
  now apply sim_bufio.
Qed.
End T.

(** Readers that deliver nonempty chunks, then an error. *)
Definition chunks (cs : list bytes) (e : err) : source :=
  {| so_evs := map (fun c => (c, None)) cs; so_term := e |}.

Lemma chunks_data cs : src_data (map (fun c => (c, @None err)) cs) = concat cs.
Proof. unfold src_data. rewrite map_map. now rewrite map_id. Qed.

Lemma chunks_good cs e : ~ In [] cs -> e <> EBufferFull -> good_source (chunks cs e).
Proof.
  intros HN HE.
  assert (forall x, In x (so_evs (chunks cs e)) -> exists c, x = (c, None) /\ In c cs) as K.
  { cbn. intros x I. apply in_map_iff in I as (c & <- & I). eauto. }
  split.
  - intros pre c e0 post Q. destruct (K (c, Some e0)) as (? & ? & _); [rewrite Q, in_app_iff; right; now left|]. congruence.
  - intros pre n post Q. destruct n as [|n]; [unfold max_empty_reads; lia|]. exfalso.
    destruct (K ([], None)) as (c & [= <-] & I); [|contradiction].
    rewrite Q, !in_app_iff. right; left. cbn. now left.
  - intros pre c e0 Q. destruct (K (c, Some e0)) as (? & ? & _); [rewrite Q, in_app_iff; right; now left|]. congruence.
  - exact HE.
Qed.

Lemma chunks_joint cs e : joint_eof (chunks cs e).
Proof.
  intros pre c e0 Q. exfalso. assert (In (c, Some e0) (so_evs (chunks cs e))) as I by (rewrite Q, in_app_iff; right; now left).
  cbn in I. apply in_map_iff in I as (? & ? & _). congruence.
Qed.

Lemma chunks_delivers B cs e : ~ In [] cs -> e <> EBufferFull ->
  delivers B true (new_reader B (chunks cs e)) (mk (concat cs) e).
Proof.
  intros H HE. pose proof (new_reader_delivers B true (chunks cs e) (chunks_good cs e H HE) (fun _ => chunks_joint cs e)) as D.
  cbn [chunks so_evs so_term] in D. now rewrite chunks_data in D.
Qed.

Lemma one_chunk_delivers B d e : d <> [] -> e <> EBufferFull ->
  delivers B true (new_reader B (chunks [d] e)) (mk d e).
Proof.
  intros H HE. pose proof (chunks_delivers B [d] e) as D. cbn [concat] in D. rewrite app_nil_r in D.
  apply D; auto. intros [->|[]]; congruence.
Qed.
