(** Storing and loading through an [ipld.LinkSystem] that uses the codec registered by
    init.go:17-20 (git_test.go:67, 160 and 477 compute links this way).

    The code modelled here besides init.go is go-ipld-prime's linking/functions.go
    (ComputeLink, Store, Fill, Load) and linking/cid/cidLink.go (BuildLink), and io.MultiWriter and
    io.TeeReader.  Their sources are neither in /repo nor anywhere in the sandbox; they
    are modelled from knowledge of their behaviour in v0.24 (go.mod:8), and could not be
    compared line by line. *)
From Verif Require Import Base GoStr Cid Types Nodes Reader Bufio Person Assemble Decode DecodeEnd Encode.

Section Hashed.
(** The hash function behind the multihash code 0x11: any function. *)
Context (sha1 : bytes -> bytes).

(** cidlink.LinkPrototype.BuildLink for multihash code 0x11 and codec 0x78: the digest is
    cut to the length in the prefix.  [None]: it panics (version other than 0 and 1), or
    the prefix asks for more bytes than the digest has.  (In Go, slicing up to the spare
    capacity of the digest's array does not panic; no statement below is about that.) *)
Definition build_link (px : prefix) (sum : bytes) : option cid :=
  if negb (px_version px =? 1)%N then None
  else if (lenN sum <? px_mhlen px)%N then None
  else Some (x01 :: x78 :: x11 :: byte_of_N (px_mhlen px) :: firstn (N.to_nat (px_mhlen px)) sum).

(** The prefix of git links. *)
Definition git_prefix : prefix :=
  {| px_version := 1; px_codec := GitRaw; px_mhtype := SHA1; px_mhlen := SHA1_len |}.

(** ** Store *)

(** io.MultiWriter(w, hasher): the hasher is given what the first writer took whole. *)
Definition multi_writer {W} (wr : writer W) : writer (W * bytes) :=
  fun p wh =>
    let '(w, h) := wh in
    let '(n, e, w1) := wr p w in
    match e with
    | Some e => (n, Some e, (w1, h))
    | None => if n =? length p then (length p, None, (w1, h ++ p)) else (n, Some EShortWrite, (w1, h))
    end.

Inductive stored (W : Type) :=
| Stored (l : link) (w : W)      (* the link, and the storage, to be committed under it *)
| StoreFailed (e : err)
| StorePanics.
Arguments Stored {W}. Arguments StoreFailed {W}. Arguments StorePanics {W}.

(** LinkSystem.Store(_, git_prefix, n) with a storage that writes with [wr] from state [w].
    The commit function of the storage is not modelled: it is called with the link. *)
Definition store {W} (wr : writer W) (w : W) (n : node) : stored W :=
  match encode (multi_writer wr) n (w, []) with
  | (Done, (w', h)) =>
      match build_link git_prefix (sha1 h) with
      | Some c => Stored (LCid c) w'
      | None => StorePanics
      end
  | (Failed e, _) => StoreFailed e
  | (Panicked, _) => StorePanics
  end.

(** LinkSystem.ComputeLink(git_prefix, n): Encode writes into the hasher, which takes all. *)
Definition compute_link (n : node) : res link :=
  match encode buffer_writer n [] with
  | (Done, h) =>
      match build_link git_prefix (sha1 h) with Some c => Ok (LCid c) | None => Panic end
  | (Failed e, _) => Err e
  | (Panicked, _) => Panic
  end.

(** ** Load *)

Inductive loaded :=
| Loaded (n : node)
| LoadFailed (e : err)
| HashMismatch            (* linking.ErrHashMismatch *)
| NoCodec                 (* no decoder is registered for the codec of the link *)
| LoadPanics
| NotModelled.            (* links of other types, other hash functions *)

(** io.TeeReader(reader, hasher): the hasher is given the bytes the source handed out
    between the states [s] and [s']. *)
Definition pulled (s s' : source) : bytes :=
  firstn (length (src_data (so_evs s)) - length (src_data (so_evs s'))) (src_data (so_evs s)).

Definition check_link (px : prefix) (c : cid) (hashed : bytes) (r : loaded) : loaded :=
  match build_link px (sha1 hashed) with
  | None => LoadPanics
  | Some c' => if beqb c' c then r else HashMismatch
  end.

(** LinkSystem.Load(_, l, prototype) with storage that opens [src]: a builder of kind [k]
    is filled by Decode through a TeeReader, and the hash is compared.  After an error of
    the decoder, the rest of the source is given to the hasher first; an error of the
    source other than EOF is then returned instead.  (That is exact for sources that fail
    at their end only; for others the rest may fail earlier.)  [trusted] is
    LinkSystem.TrustedStorage.  [B] is the size of the buffer, 4096 (unmarshal.go:13). *)
Definition load (trusted : bool) (B : nat) (pa pc : nat -> nat -> nat) (k : bkind) (l : link) (src : source) : loaded :=
  match l with
  | LNil | LForeign _ => NotModelled
  | LCid c =>
      match cid_prefix c with
      | Ok px =>
          if negb (px_codec px =? GitRaw)%N then NoCodec
          else if negb (px_mhtype px =? SHA1)%N then NotModelled
          else
            match decode_into_end (bufio_ops pa pc) k (new_reader B src) with
            | Ok (n, b) => if trusted then Loaded n else check_link px c (pulled src (b_src b)) (Loaded n)
            | Err e =>
                if trusted then LoadFailed e
                else if is_eof (so_term src) then check_link px c (src_data (so_evs src)) (LoadFailed e)
                else LoadFailed (so_term src)
            | Panic => LoadPanics
            | OutOfFuel => NotModelled
            end
      | _ => LoadPanics
      end
  end.
End Hashed.
Arguments Stored {W}. Arguments StoreFailed {W}. Arguments StorePanics {W}.
