(** compress/zlib, the reader, as helper.go:31 uses it, and ParseCompressedObject over it.

    Library code (compress/zlib/reader.go, hash/adler32/adler32.go); its source was not at hand. *)
From Verif Require Import Base GoStr Cid Types Nodes Reader Bufio Person Assemble Decode Inflate.

(** ** hash/adler32 *)
(** uint32 arithmetic *)
Definition u32 (n : N) : N := (n mod 2 ^ 32)%N.
(** [s1 += uint32(x); s2 += s1] *)
Definition adler_add (s : N * N) (x : byte) : N * N :=
  let s1 := u32 (fst s + Byte.to_N x) in (s1, u32 (snd s + s1)).
(** [nmax]: the sums are reduced modulo 65521 after so many bytes *)
Definition nmax : nat := N.to_nat 5552.
(** update, the loop; the inner loop is unrolled four times in the library.  [fuel]: the length of [p] *)
Fixpoint adler_chunks (fuel : nat) (s : N * N) (p : bytes) : N * N :=
  match fuel, p with
  | S f, _ :: _ =>
      let s := fold_left adler_add (firstn nmax p) s in
      adler_chunks f (fst s mod 65521, snd s mod 65521)%N (skipn nmax p)
  | _, _ => s
  end.
(** update; [s2<<16 | s1] is written as a sum, the two do not overlap *)
Definition adler_update (d : N) (p : bytes) : N :=
  let s := adler_chunks (length p) (d mod 2 ^ 16, d / 2 ^ 16)%N p in (u32 (snd s * 2 ^ 16) + fst s)%N.
(** digest.Reset sets the digest to 1; Checksum *)
Definition adler32 (p : bytes) : N := adler_update 1 p.

(** binary.BigEndian.Uint32 *)
Definition uint32_be (a b c d : byte) : N :=
  (((Byte.to_N a * 256 + Byte.to_N b) * 256 + Byte.to_N c) * 256 + Byte.to_N d)%N.

(** ** compress/zlib *)
(** NewReader: reader.Reset with no dictionary.  The input is a stream, bytes and then an error; the
    result is the input that is left. *)
Definition zlib_new (r : stream) : res stream :=
  match st_data r with
  | cmf :: flg :: rest =>
      let c := Byte.to_N cmf in
      let f := Byte.to_N flg in
      if negb (N.land c 15 =? 8)%N || (7 <? N.shiftr c 4)%N || negb ((c * 256 + f) mod 31 =? 0)%N then Err EZlibHeader
      else if negb (N.land f 32 =? 0)%N then
        match rest with
        | a :: b :: c :: d :: rest =>
            if (uint32_be a b c d =? adler32 [])%N then Ok (mk rest (st_err r)) else Err EZlibDictionary
        | _ => Err (no_eof (st_err r))
        end
      else Ok (mk rest (st_err r))
  | _ => Err (no_eof (st_err r))
  end.

(** reader.Read, called until it fails: all the bytes it delivers, and the error.  EOF if the
    checksum is right.  The digest is updated Read by Read in the library, here at the end. *)
Definition zlib_read (r : stream) : res (bytes * err) :=
  let '(out, x) := inflate r in
  match x with
  | Ok rest =>
      match rest with
      | a :: b :: c :: d :: _ => Ok (out, if (uint32_be a b c d =? adler32 out)%N then EEOF else EZlibChecksum)
      | _ => Ok (out, no_eof (st_err r))
      end
  | Err e => Ok (out, e)
  | Panic => Panic
  | OutOfFuel => OutOfFuel
  end.

(** NewReader, then Read until it fails. *)
Definition zlib_run (r : stream) : res (bytes * err) := let* rc := zlib_new r in zlib_read rc.

(** helper.go:29-38.  How Read cuts its bytes into pieces, and whether the error comes with the last
    piece or after it, depends on the window of the decompressor and on the caller's slices:
    [deliver] stands for it.  [defer rc.Close()] does nothing that can be seen: its error is dropped. *)
Definition parse_compressed (B : nat) (pa pc : nat -> nat -> nat) (deliver : bytes -> err -> source) (r : stream) : res node :=
  let* (out, e) := zlib_run r in
  parse_object (bufio_ops pa pc) (new_reader B (deliver out e)).
