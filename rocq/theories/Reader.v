(** Reader operations used by the decoders, and their meaning on a plain stream. *)
From Verif Require Import Base.

(** The operations of a [*bufio.Reader] (and of [io.ReadAll], [io.ReadFull],
    [io.Copy] on it) that the decoders use.  [S] is the state of the reader.
    [ReadLine] returns a slice of the reader's buffer: a view [V], whose bytes are
    those found in the buffer when it is dereferenced, so a view is only good
    until the next read.  The [isPrefix] result of [ReadLine] is ignored by every
    caller (commit.go:28, 128, 148, tag.go:29, 85, 109) and left out. *)
Record rdops (S V : Type) := {
  rd_string : byte -> S -> res (bytes * option err * S);   (* ReadString(delim) *)
  rd_line : S -> res (V * option err * S);                 (* ReadLine() *)
  rd_deref : S -> V -> bytes;                              (* the bytes of a line slice, now *)
  rd_all : S -> res (bytes * option err * S);              (* io.ReadAll(rd) *)
  rd_full : nat -> S -> res (bytes * option err * S);      (* io.ReadFull(rd, make([]byte, n)) *)
  rd_copy : Z -> S -> res (bytes * option err * S);        (* io.Copy(&buf, io.LimitReader(rd, n)) *)
  rd_fuel : S -> nat                                       (* loop bound for the model; no Go counterpart *)
}.
Arguments rd_string {S V} _ _ _.
Arguments rd_line {S V} _ _.
Arguments rd_deref {S V} _ _ _.
Arguments rd_all {S V} _ _.
Arguments rd_full {S V} _ _ _.
Arguments rd_copy {S V} _ _ _.
Arguments rd_fuel {S V} _ _.

(** ** Streams: the bytes still to come, and the error that follows them. *)
Record stream := { st_data : bytes; st_err : err }.

Definition mk (d : bytes) (e : err) : stream := {| st_data := d; st_err := e |}.

(** Split at the first [d]: (bytes up to and including [d], rest). *)
Fixpoint cut (d : byte) (b : bytes) : option (bytes * bytes) :=
  match b with
  | [] => None
  | x :: b' => if byte_eqb x d then Some ([x], b')
               else match cut d b' with
                    | Some (l, r) => Some (x :: l, r)
                    | None => None
                    end
  end.

Definition stream_string (d : byte) (s : stream) : res (bytes * option err * stream) :=
  match cut d (st_data s) with
  | Some (l, r) => Ok (l, None, mk r (st_err s))
  | None => Ok (st_data s, Some (st_err s), mk [] (st_err s))
  end.

(** Remove a final newline, and a carriage return before it. *)
Definition drop_eol (l : bytes) : bytes :=
  match rev l with
  | n :: r => if byte_eqb n NL then
                match r with
                | c :: r' => if byte_eqb c CR then rev r' else rev r
                | [] => []
                end
              else l
  | [] => []
  end.

(** [ReadLine] of a reader with a buffer of [B] bytes: the line without its end if
    a newline is among the next [B] bytes; else the next [B] bytes (but a carriage
    return in the last place is left for later); else what is left. *)
Definition stream_line (B : nat) (s : stream) : res (bytes * option err * stream) :=
  match st_data s with
  | [] => Ok ([], Some (st_err s), s)
  | d =>
      match cut NL (firstn B d) with
      | Some (l, r) => Ok (drop_eol l, None, mk (r ++ skipn B d) (st_err s))
      | None =>
          if B <=? length d then
            let l := firstn B d in
            if byte_eqb (last l x00) CR
            then Ok (removelast l, None, mk (CR :: skipn B d) (st_err s))
            else Ok (l, None, mk (skipn B d) (st_err s))
          else Ok (d, None, mk [] (st_err s))
      end
  end.

(** [io.ReadAll]: EOF is success. *)
Definition eof_ok (e : err) : option err := if is_eof e then None else Some e.

Definition stream_all (s : stream) : res (bytes * option err * stream) :=
  Ok (st_data s, eof_ok (st_err s), mk [] (st_err s)).

(** [io.ReadFull]: EOF in the middle becomes ErrUnexpectedEOF. *)
Definition stream_full (n : nat) (s : stream) : res (bytes * option err * stream) :=
  let d := st_data s in
  if n <=? length d then Ok (firstn n d, None, mk (skipn n d) (st_err s))
  else match d with
       | [] => Ok ([], Some (st_err s), s)
       | _ => Ok (d, Some (if is_eof (st_err s) then EUnexpectedEOF else st_err s), mk [] (st_err s))
       end.

(** First [n] bytes, [n] an integer (so that a huge [n] costs nothing). *)
Fixpoint takeZ (n : Z) (b : bytes) : bytes :=
  match b with
  | [] => []
  | x :: b' => if (n <=? 0)%Z then [] else x :: takeZ (n - 1) b'
  end.
Fixpoint dropZ (n : Z) (b : bytes) : bytes :=
  match b with
  | [] => []
  | x :: b' => if (n <=? 0)%Z then b else dropZ (n - 1) b'
  end.

(** [io.Copy(&buf, io.LimitReader(rd, n))]: up to [n] bytes; the error after them is
    seen only if fewer than [n] bytes came. *)
Definition stream_copy (n : Z) (s : stream) : res (bytes * option err * stream) :=
  let d := st_data s in
  let t := takeZ n d in
  Ok (t, if (Z.of_nat (length t) <? n)%Z then eof_ok (st_err s) else None,
      mk (dropZ n d) (st_err s)).

Definition stream_ops (B : nat) : rdops stream bytes := {|
  rd_string := stream_string;
  rd_line := stream_line B;
  rd_deref := fun _ v => v;
  rd_all := stream_all;
  rd_full := stream_full;
  rd_copy := stream_copy;
  rd_fuel := fun s => S (length (st_data s))
|}.

(** The default buffer size of [bufio.NewReader]. *)
Definition default_B : nat := N.to_nat 4096.
