(** [bufio.Reader] over a scripted [io.Reader], with its buffer array.

    Models the standard library code the decoders run on: bufio.NewReader
    (unmarshal.go:13, 40), ReadString, ReadLine, Read, and io.ReadAll, io.ReadFull,
    io.Copy/io.LimitReader/bytes.Buffer.ReadFrom on top of them. *)
From Verif Require Import Base Reader.

(** ** The underlying reader

    A run of an [io.Reader] seen from its caller: the list of what the successive
    calls of Read deliver (bytes, error), then an error that repeats forever.  When
    the caller asks for fewer bytes than the head of the script holds, the rest
    stays for the next call; as scripts are arbitrary this covers every reader that
    obeys [0 <= n <= len(p)] and does not stall forever. *)
Definition event := (bytes * option err)%type.
Record source := { so_evs : list event; so_term : err }.

Definition src_read (n : nat) (s : source) : bytes * option err * source :=
  match so_evs s with
  | [] => ([], Some (so_term s), s)
  | (c, e) :: evs =>
      if length c <=? n then (c, e, {| so_evs := evs; so_term := so_term s |})
      else (firstn n c, None, {| so_evs := (skipn n c, e) :: evs; so_term := so_term s |})
  end.

(** All the bytes of a script. *)
Definition src_data (evs : list event) : bytes := concat (map fst evs).

(** ** The buffered reader: type Reader in bufio.go (fields buf, rd, r, w, err;
    lastByte and lastRuneSize serve UnreadByte only and are left out) *)
Record bufrd := {
  b_buf : bytes;
  b_r : nat;
  b_w : nat;
  b_err : option err;
  b_src : source
}.

Definition slice (off len : nat) (b : bytes) : bytes := firstn len (skipn off b).
(** buf[r:w] *)
Definition window (b : bufrd) : bytes := slice (b_r b) (b_w b - b_r b) (b_buf b).
Definition buffered (b : bufrd) : nat := b_w b - b_r b.

Definition set_r (b : bufrd) (r : nat) : bufrd :=
  {| b_buf := b_buf b; b_r := r; b_w := b_w b; b_err := b_err b; b_src := b_src b |}.
Definition set_err (b : bufrd) (e : option err) : bufrd :=
  {| b_buf := b_buf b; b_r := b_r b; b_w := b_w b; b_err := e; b_src := b_src b |}.
Definition set_src (b : bufrd) (e : option err) (s : source) : bufrd :=
  {| b_buf := b_buf b; b_r := b_r b; b_w := b_w b; b_err := e; b_src := s |}.

(** Write [c] at position [off]. *)
Definition overwrite (off : nat) (c : bytes) (b : bytes) : bytes :=
  firstn off b ++ c ++ skipn (off + length c) b.

(** bufio.go, fill: the loop of at most 100 (maxConsecutiveEmptyReads) reads *)
Fixpoint fill_loop (i : nat) (b : bufrd) : bufrd :=
  match i with
  | O => set_err b (Some ENoProgress)
  | S i' =>
      let '(c, e, src) := src_read (length (b_buf b) - b_w b) (b_src b) in
      let b' := {| b_buf := overwrite (b_w b) c (b_buf b); b_r := b_r b;
                   b_w := b_w b + length c; b_err := b_err b; b_src := src |} in
      match e with
      | Some e => set_err b' (Some e)
      | None => match c with [] => fill_loop i' b' | _ => b' end
      end
  end.

Definition max_empty_reads : nat := 100.

(** bufio.go, fill: slides the unread bytes to the front of the array, then reads *)
Definition fill (b : bufrd) : res bufrd :=
  let b1 := {| b_buf := overwrite 0 (window b) (b_buf b); b_r := 0; b_w := buffered b;
               b_err := b_err b; b_src := b_src b |} in
  if length (b_buf b1) <=? b_w b1 then Panic
  else Ok (fill_loop max_empty_reads b1).

(** bytes.IndexByte *)
Fixpoint index_byte (d : byte) (b : bytes) : option nat :=
  match b with
  | [] => None
  | x :: b' => if byte_eqb x d then Some 0 else option_map S (index_byte d b')
  end.

(** A slice of the buffer array: offset and length. *)
Definition view := (nat * nat)%type.
Definition deref (b : bufrd) (v : view) : bytes := slice (fst v) (snd v) (b_buf b).

(** bufio.go, ReadSlice.  [s]: the bytes already searched. *)
Fixpoint read_slice_loop (fuel : nat) (d : byte) (s : nat) (b : bufrd)
  : res (view * option err * bufrd) :=
  match fuel with
  | O => OutOfFuel
  | S f =>
      match index_byte d (slice (b_r b + s) (b_w b - (b_r b + s)) (b_buf b)) with
      | Some i => Ok ((b_r b, i + s + 1), None, set_r b (b_r b + (i + s + 1)))
      | None =>
          match b_err b with
          | Some e => Ok ((b_r b, buffered b), Some e, set_err (set_r b (b_w b)) None)
          | None =>
              if length (b_buf b) <=? buffered b
              then Ok ((0, length (b_buf b)), Some EBufferFull, set_r b (b_w b))
              else let* b' := fill b in read_slice_loop f d (buffered b) b'
          end
      end
  end.
(** Each round but the last adds a byte to the buffer or sets the error. *)
Definition read_slice (d : byte) (b : bufrd) := read_slice_loop (S (S (length (b_buf b)))) d 0 b.

(** bufio.go, ReadLine, without the isPrefix result *)
Definition read_line (b : bufrd) : res (view * option err * bufrd) :=
  let* (v, e, b1) := read_slice NL b in
  let line := deref b1 v in
  let full := match e with Some EBufferFull => true | _ => false end in
  if full then
    if negb (length line =? 0) && byte_eqb (last line x00) CR then
      if b_r b1 =? 0 then Panic
      else Ok ((fst v, snd v - 1), None, set_r b1 (b_r b1 - 1))
    else Ok (v, None, b1)
  else if length line =? 0 then Ok ((0, 0), e, b1)
  else if byte_eqb (last line x00) NL then
    let drop := if (1 <? length line) && byte_eqb (last (removelast line) x00) CR then 2 else 1 in
    Ok ((fst v, snd v - drop), None, b1)
  else Ok (v, None, b1).

(** Bytes still to come. *)
Definition remaining (b : bufrd) : nat := buffered b + length (src_data (so_evs (b_src b))).

(** bufio.go, collectFragments and ReadString *)
Fixpoint read_string_loop (fuel : nat) (d : byte) (acc : bytes) (b : bufrd)
  : res (bytes * option err * bufrd) :=
  match fuel with
  | O => OutOfFuel
  | S f =>
      let* (v, e, b1) := read_slice d b in
      match e with
      | Some EBufferFull => read_string_loop f d (acc ++ deref b1 v) b1
      | _ => Ok (acc ++ deref b1 v, e, b1)
      end
  end.
Definition read_string (d : byte) (b : bufrd) := read_string_loop (S (S (remaining b))) d [] b.

(** bufio.go, Read into a slice of [n > 0] bytes; returns the bytes read *)
Definition buf_read (n : nat) (b : bufrd) : bytes * option err * bufrd :=
  let serve (b : bufrd) :=
    let c := firstn n (window b) in (c, None, set_r b (b_r b + length c)) in
  if b_r b =? b_w b then
    match b_err b with
    | Some e => ([], Some e, set_err b None)
    | None =>
        if length (b_buf b) <=? n then
          (* large read, empty buffer: read straight into the caller's slice *)
          let '(c, e, src) := src_read n (b_src b) in
          (c, e, set_src b None src)
        else
          let '(c, e, src) := src_read (length (b_buf b)) (b_src b) in
          match c with
          | [] => ([], e, {| b_buf := b_buf b; b_r := 0; b_w := 0; b_err := None; b_src := src |})
          | _ => serve {| b_buf := overwrite 0 c (b_buf b); b_r := 0; b_w := length c;
                          b_err := e; b_src := src |}
          end
    end
  else serve b.

Section Policy.
(** How much room the growing buffers of io.ReadAll and bytes.Buffer.ReadFrom offer
    to each Read: any positive amount, as a function of the round and of the bytes
    held so far (append and grow depend on the Go version). *)
Context (pol : nat -> nat -> nat).

(** io.ReadAll *)
Fixpoint read_all_loop (fuel : nat) (i : nat) (acc : bytes) (b : bufrd)
  : res (bytes * option err * bufrd) :=
  match fuel with
  | O => OutOfFuel
  | S f =>
      let '(c, e, b1) := buf_read (S (pol i (length acc))) b in
      match e with
      | Some e => Ok (acc ++ c, eof_ok e, b1)
      | None => read_all_loop f (S i) (acc ++ c) b1
      end
  end.

(** io.Copy(&buf, io.LimitReader(rd, n)): bytes.Buffer.ReadFrom on a LimitedReader *)
Fixpoint copy_loop (fuel : nat) (i : nat) (n : Z) (acc : bytes) (b : bufrd)
  : res (bytes * option err * bufrd) :=
  match fuel with
  | O => OutOfFuel
  | S f =>
      if (n <=? 0)%Z then Ok (acc, None, b)
      else
        let room := S (pol i (length acc)) in
        let '(c, e, b1) := buf_read (if (n <? Z.of_nat room)%Z then Z.to_nat n else room) b in
        match e with
        | Some e => Ok (acc ++ c, eof_ok e, b1)
        | None => copy_loop f (S i) (n - Z.of_nat (length c)) (acc ++ c) b1
        end
  end.
End Policy.

(** io.ReadAtLeast(rd, buf, len(buf)): [want] bytes are missing *)
Fixpoint read_full_loop (fuel : nat) (want : nat) (acc : bytes) (b : bufrd)
  : res (bytes * option err * bufrd) :=
  match fuel with
  | O => OutOfFuel
  | S f =>
      match want with
      | O => Ok (acc, None, b)
      | _ =>
          let '(c, e, b1) := buf_read want b in
          match e with
          | None => read_full_loop f (want - length c) (acc ++ c) b1
          | Some e =>
              if want <=? length c then Ok (acc ++ c, None, b1)
              else if negb (length (acc ++ c) =? 0) && is_eof e
                   then Ok (acc ++ c, Some EUnexpectedEOF, b1)
                   else Ok (acc ++ c, Some e, b1)
          end
      end
  end.

(** Enough rounds for the loops above: each round but the last takes a byte or an
    event off. *)
Definition rounds (b : bufrd) : nat := S (S (remaining b + length (so_evs (b_src b)))).

Definition bufio_ops (pol_all pol_copy : nat -> nat -> nat) : rdops bufrd view := {|
  rd_string := read_string;
  rd_line := read_line;
  rd_deref := deref;
  rd_all := fun b => read_all_loop pol_all (rounds b) 0 [] b;
  rd_full := fun n b => read_full_loop (rounds b) n [] b;
  rd_copy := fun n b => copy_loop pol_copy (rounds b) 0 n [] b;
  rd_fuel := fun b => S (remaining b)
|}.

(** bufio.NewReaderSize: an empty buffer array of [B] bytes over [src]. *)
Definition new_reader (B : nat) (src : source) : bufrd :=
  {| b_buf := repeat x00 B; b_r := 0; b_w := 0; b_err := None; b_src := src |}.
