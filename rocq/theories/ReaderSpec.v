(** Specification: which underlying readers behave, and what a buffered reader
    will deliver. *)
From Verif Require Import Base Reader Bufio Spec.

(** ** Readers that behave

    - an error comes with the last delivery only, and is the one repeated afterwards;
    - fewer than 100 empty deliveries in a row;
    - bytes delivered together with the final error do not end in a carriage return
      (this matters to ReadLine only: [lines] says whether it is asked for);
    - the error is not bufio.ErrBufferFull. *)
Definition cr_end (lines : bool) (c : bytes) : Prop := lines = true /\ ends_with CR c.
Record good_source_for (lines : bool) (s : source) : Prop := {
  gs_err : forall pre c e post, so_evs s = pre ++ (c, Some e) :: post -> post = [] /\ e = so_term s;
  gs_stall : forall pre n post, so_evs s = pre ++ repeat ([], None) n ++ post -> n < max_empty_reads;
  gs_cr : forall pre c e, so_evs s = pre ++ [(c, Some e)] -> ~ cr_end lines c;
  gs_full : so_term s <> EBufferFull
}.
Notation good_source := (good_source_for true).

(** Bytes that come together with the final error: only if it is EOF. *)
Definition joint_eof (s : source) : Prop :=
  forall pre c e, so_evs s = pre ++ [(c, Some e)] -> c <> [] -> e = EEOF.

(** ** What a buffered reader in a given state will deliver

    [delivers B J b s]: the reader [b], with a buffer of [B] bytes, will deliver the bytes
    [st_data s] (those in its buffer, then those of its source), then the error
    [st_err s].  [J]: bytes and a final error other than EOF never come together. *)
Record delivers_for (lines : bool) (B : nat) (J : bool) (b : bufrd) (s : stream) : Prop := {
  d_len : length (b_buf b) = B;
  d_rw : b_r b <= b_w b;
  d_w : b_w b <= B;
  d_data : st_data s = window b ++ src_data (so_evs (b_src b));
  d_term : st_err s = so_term (b_src b);
  d_good : good_source_for lines (b_src b);
  d_joint : J = true -> joint_eof (b_src b);
  d_err : forall e, b_err b = Some e ->
    e = so_term (b_src b) /\ so_evs (b_src b) = [] /\ (buffered b = B -> ~ cr_end lines (window b))
}.
Notation delivers := (delivers_for true).

(** ** Readers of any behaviour

    The only thing asked of the source: it never reports bufio.ErrBufferFull, an error
    that only a buffered reader reports, and only from ReadSlice. *)
Definition honest (s : source) : Prop :=
  so_term s <> EBufferFull /\ forall c, ~ In (c, Some EBufferFull) (so_evs s).

(** A buffered reader in a possible state: a buffer of at least two bytes (bufio has at
    least 16) and [0 <= r <= w <= len(buf)]. *)
Record wf_reader (b : bufrd) : Prop := {
  wf_size : 2 <= length (b_buf b);
  wf_rw : b_r b <= b_w b;
  wf_w : b_w b <= length (b_buf b);
  wf_err : b_err b <> Some EBufferFull;
  wf_src : honest (b_src b)
}.
