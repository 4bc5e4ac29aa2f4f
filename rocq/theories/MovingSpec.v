(** Specification for nodes whose answers change: the nodes Encode is meant for, and the record of
    what iterators have given. *)
From Verif Require Import Base GoStr Cid Types Foreign Moving.

(** Blobs, trees, commits and tags of this package, and tags without a tagger, which only a
    generic map can hold. *)
Definition one_of_ours (n : node) : Prop :=
  match n with
  | NBlob _ | NTree _ | NCommit _ | NTag _ => True
  | NGenMap kvs => exists l ty tg ms,
      kvs = [(NGenString (bs "object"), NGenLink l); (NGenString (bs "type"), NGenString ty);
             (NGenString (bs "tag"), NGenString tg); (NGenString (bs "message"), NGenString ms)]
  | _ => False
  end.

(** [a] is what is left of [b] when some elements are dropped. *)
Inductive part_of {A} : list A -> list A -> Prop :=
| po_nil : part_of [] []
| po_keep x a b : part_of a b -> part_of (x :: a) (x :: b)
| po_drop x a b : part_of a b -> part_of a (x :: b).

(** The same nodes, with a record of the iterators whose [Next] gave something, in order. *)
Definition unwatched {S L A} (m : S -> A * S) : S * L -> A * (S * L) :=
  fun sl => let '(a, s') := m (fst sl) in (a, (s', snd sl)).
Definition noted {S I A} (i : I) (m : state_res S A) : state_res (S * list I) A :=
  fun sl => let '(r, s') := m (fst sl) in (r, (s', match r with Ok _ => snd sl ++ [i] | _ => snd sl end)).
Definition watched {S N I} (o : movops S N I) : movops (S * list I) N I :=
  {| m_type := fun n => unwatched (m_type o n);
     m_own := fun n => unwatched (m_own o n);
     m_kind := fun n => unwatched (m_kind o n);
     m_null := fun n => unwatched (m_null o n);
     m_string := fun n => unwatched (m_string o n);
     m_bytes := fun n => unwatched (m_bytes o n);
     m_link := fun n => unwatched (m_link o n);
     m_lookup := fun n k => unwatched (m_lookup o n k);
     m_map := fun n => unwatched (m_map o n);
     m_list := fun n => unwatched (m_list o n);
     m_done := fun i => unwatched (m_done o i);
     m_next_pair := fun i => noted i (m_next_pair o i);
     m_next_item := fun i => noted i (m_next_item o i) |}.

(** Every call of a method returns. *)
Definition methods_return {S N I} (o : movops S N I) : Prop :=
  (forall n s, fst (m_string o n s) <> OutOfFuel) /\ (forall n s, fst (m_bytes o n s) <> OutOfFuel) /\
  (forall n s, fst (m_link o n s) <> OutOfFuel) /\ (forall n k s, fst (m_lookup o n k s) <> OutOfFuel) /\
  (forall i s, fst (m_next_pair o i s) <> OutOfFuel) /\ (forall i s, fst (m_next_item o i s) <> OutOfFuel).
