(** Specification: how a decompressor hands out its bytes. *)
From Verif Require Import Base Reader Bufio.

(** The reader [src] delivers the bytes [out] in pieces, none of them empty, and then reports [e]
    again and again; the error may come together with the last piece. *)
Record reads_out (src : source) (out : bytes) (e : err) : Prop := {
  ro_data : concat (map fst (so_evs src)) = out;
  ro_term : so_term src = e;
  ro_err : forall pre c x post, so_evs src = pre ++ (c, Some x) :: post -> post = [] /\ x = e;
  ro_some : ~ In ([], None) (so_evs src)
}.
(** The error never comes with bytes. *)
Definition error_apart (src : source) : Prop := forall c e, In (c, Some e) (so_evs src) -> c = [].
