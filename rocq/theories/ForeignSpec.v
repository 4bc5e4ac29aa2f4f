(** Specification: when a node of one implementation behaves like a node of another, but
    for failures. *)
From Verif Require Import Base GoStr Cid Types Foreign.

Section Like.
Context {N1 N2 : Type} (o1 : nodeops N1) (o2 : nodeops N2).
(** [R a b]: the node [b] of the second implementation stands for the node [a] of the first.
    [E]: the errors with which methods of the second may fail where the first have an answer. *)
Context (R : N1 -> N2 -> Prop) (E : err -> Prop).

Inductive answers_like {A B} (same : A -> B -> Prop) : res A -> res B -> Prop :=
| al_ok a b : same a b -> answers_like same (Ok a) (Ok b)
| al_err e : answers_like same (Err e) (Err e)
| al_panic : answers_like same Panic Panic
| al_nofuel : answers_like same OutOfFuel OutOfFuel
| al_fails r e : E e -> answers_like same r (Err e).

(** The second iterator gives the same, or fails somewhere before the end. *)
Inductive iterates_like {A B} (same : A -> B -> Prop) : list A * option err -> list B * option err -> Prop :=
| il_end e : iterates_like same ([], e) ([], e)
| il_next a b l l' e e' : same a b -> iterates_like same (l, e) (l', e') -> iterates_like same (a :: l, e) (b :: l', e')
| il_fails it e : E e -> iterates_like same it ([], Some e).

Definition iterator_like {A B} (same : A -> B -> Prop) (i : option (list A * option err)) (j : option (list B * option err)) : Prop :=
  match i, j with
  | Some i, Some j => iterates_like same i j
  | None, None => True
  | _, _ => False
  end.

Definition both (x : N1 * N1) (y : N2 * N2) : Prop := R (fst x) (fst y) /\ R (snd x) (snd y).

(** Nodes that stand for each other have the same type and kind, their methods give the
    same answers or fail, and the nodes they answer with stand for each other too. *)
Record behaves_like : Prop := {
  bl_type : forall a b, R a b -> o_type o2 b = o_type o1 a;
  bl_own : forall a b, R a b -> o_own o2 b = o_own o1 a;
  bl_kind : forall a b, R a b -> o_kind o2 b = o_kind o1 a;
  bl_null : forall a b, R a b -> o_null o2 b = o_null o1 a;
  bl_string : forall a b, R a b -> answers_like eq (o_string o1 a) (o_string o2 b);
  bl_bytes : forall a b, R a b -> answers_like eq (o_bytes o1 a) (o_bytes o2 b);
  bl_link : forall a b, R a b -> answers_like eq (o_link o1 a) (o_link o2 b);
  bl_lookup : forall a b k, R a b -> answers_like R (o_lookup o1 a k) (o_lookup o2 b k);
  bl_map : forall a b, R a b -> iterator_like both (o_map o1 a) (o_map o2 b);
  bl_list : forall a b, R a b -> iterator_like R (o_list o1 a) (o_list o2 b)
}.
End Like.
