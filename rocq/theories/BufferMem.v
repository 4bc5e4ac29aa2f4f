(** The memory of the buffers that grow while data arrives: bytes.Buffer in DecodeBlob
    (blob.go:25-29) and the slice of io.ReadAll (commit.go:113, tag.go:61).

    Models the standard library: bytes.Buffer.WriteString, ReadFrom, grow and growSlice;
    io.ReadAll and append.  What is left out: the array that a new one replaces stays
    alive until the copy is done. *)
From Verif Require Import Base GoStr Cid Types Assemble Reader Decode Bufio.

(** bytes.MinRead *)
Definition min_read : Z := 512.
Definition max_int : Z := 2 ^ 63 - 1.

(** A capacity the runtime rounds up to one of its size classes or to whole pages: it at
    most doubles. *)
Definition rounding (rnd : Z -> Z) : Prop := forall c, (0 < c -> c <= rnd c <= 2 * c)%Z.

(** bytes.Buffer.grow(n) with [len] unread bytes, nothing read ([off] is 0) and capacity
    [cap]: the new capacity.  The branch that slides the bytes to the front needs
    [n <= cap/2 - len], which the first test has caught.  growSlice takes the larger of
    what is needed and twice the capacity; Go before 1.19 takes [2*cap + n], [extra]. *)
Definition buffer_grow (rnd : Z -> Z) (extra : bool) (n len cap : Z) : res Z :=
  if (n <=? cap - len)%Z then Ok cap
  else if (cap =? 0)%Z && (n <=? 64)%Z then Ok 64%Z
  else if (max_int - cap - n <? cap)%Z then Panic            (* ErrTooLarge *)
  else Ok (rnd (Z.max (len + n) (2 * cap + if extra then n else 0)))%Z.

(** A run and its trace: for each moment the buffer may have grown, the state of the
    reader and the capacity of the buffer. *)
Notation traced A := (res A * list (bufrd * Z))%type.

Section Mem.
Context (rnd : Z -> Z) (extra : bool).

(** bytes.Buffer.ReadFrom on a LimitedReader of [n] bytes over [b], with [held] bytes in
    the buffer before it and [acc] received since. *)
Fixpoint buffer_read_from (fuel : nat) (n held cap : Z) (acc : bytes) (b : bufrd)
  : traced (bytes * option err * bufrd) :=
  match fuel with
  | O => (OutOfFuel, [])
  | S f =>
      let len := (held + Z.of_nat (length acc))%Z in
      match buffer_grow rnd extra min_read len cap with
      | Ok cap =>
          if (n <=? 0)%Z then (Ok (acc, None, b), [(b, cap)])
          else
            let '(c, e, b1) := buf_read (Z.to_nat (Z.min n (cap - len))) b in
            match e with
            | Some e => (Ok (acc ++ c, eof_ok e, b1), [(b, cap)])
            | None =>
                let '(r, tr) := buffer_read_from f (n - Z.of_nat (length c)) held cap (acc ++ c) b1 in
                (r, (b, cap) :: tr)
            end
      | Err e => (Err e, [])
      | Panic => (Panic, [])
      | OutOfFuel => (OutOfFuel, [])
      end
  end.

(** blob.go:25-29: the buffer gets the prefix, then the body. *)
Definition blob_buffer (prefix : bytes) (sizen : Z) (b : bufrd) : traced (bytes * option err * bufrd) :=
  let held := Z.of_nat (length prefix) in
  match buffer_grow rnd extra held 0 0 with
  | Ok cap =>
      let '(r, tr) := buffer_read_from (rounds b) sizen held cap [] b in
      (r, (b, cap) :: tr)
  | Err e => (Err e, [])
  | Panic => (Panic, [])
  | OutOfFuel => (OutOfFuel, [])
  end.

(** blob.go:13-44 with the memory of the buffer. *)
Definition decode_blob_traced (pa pc : nat -> nat -> nat) (k : bkind) (b : bufrd) : traced (node * bufrd) :=
  match read_number (bufio_ops pa pc) b with
  | Ok (sizen, b1) =>
      if (sizen <? 0)%Z then (Err (ENegativeSize sizen), [])
      else
        let pre := bs "blob " ++ dec_Z sizen ++ [NUL] in
        let '(r, tr) := blob_buffer pre sizen b1 in
        (let* (body, e, b2) := r in
         match e with
         | Some e => Err e
         | None =>
             if negb (Z.of_nat (length body) =? sizen)%Z then
               if length body =? 0 then Err EEOF else Err EUnexpectedEOF
             else
               let* n := build_bytes k (pre ++ body) in
               Ok (n, b2)
         end, tr)
  | Err e => (Err e, [])
  | Panic => (Panic, [])
  | OutOfFuel => (OutOfFuel, [])
  end.
End Mem.

(** append to a full slice of [cap] bytes: one more byte at least, and at most four times
    the capacity (growslice at most doubles, then rounds up). *)
Definition appending (app : Z -> Z) : Prop := forall c, (0 < c -> c < app c <= 4 * c)%Z.

(** io.ReadAll: 512 bytes, then append when the slice is full. *)
Fixpoint read_all_mem (app : Z -> Z) (fuel : nat) (cap : Z) (acc : bytes) (b : bufrd)
  : traced (bytes * option err * bufrd) :=
  match fuel with
  | O => (OutOfFuel, [])
  | S f =>
      let len := Z.of_nat (length acc) in
      let cap := if (len =? cap)%Z then app cap else cap in
      let '(c, e, b1) := buf_read (Z.to_nat (cap - len)) b in
      match e with
      | Some e => (Ok (acc ++ c, eof_ok e, b1), [(b, cap)])
      | None =>
          let '(r, tr) := read_all_mem app f cap (acc ++ c) b1 in
          (r, (b, cap) :: tr)
      end
  end.

(** commit.go:113, tag.go:61 *)
Definition message_buffer (app : Z -> Z) (b : bufrd) : traced (bytes * option err * bufrd) :=
  read_all_mem app (rounds b) 512 [] b.
