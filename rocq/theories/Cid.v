(** CIDs, multihashes and the conversions of util.go. *)
From Verif Require Import Base GoStr.
From Coq Require Import Strings.Byte.

(** A [cid.Cid] is its binary form (go-cid keeps it as a string). *)
Notation cid := bytes.

(** go-cid [uvarint]: value and number of bytes read, [None] on error
    (underflow, overflow, non minimal).  [i] is the index, [s] the shift. *)
Fixpoint uvarint_aux (i : nat) (s : N) (x : N) (buf : bytes) : option (N * nat) :=
  match buf with
  | [] => None
  | b :: buf' =>
      let v := Byte.to_N b in
      if (v <? 128)%N then
        if (9 <? i) || ((i =? 9) && (1 <? v)%N) then None
        else if (v =? 0)%N && (0 <? i) then None
        else Some ((x + N.shiftl v s)%N, S i)
      else uvarint_aux (S i) (s + 7)%N (x + N.shiftl (v - 128) s)%N buf'
  end.

Definition uvarint (buf : bytes) : option (N * nat) := uvarint_aux 0 0 0 buf.

(** go-cid [Cid.Version]: version 0 iff a 34 byte sha2-256 multihash. *)
Definition cid_is_v0 (c : cid) : bool :=
  match c with
  | a :: b :: _ => (length c =? 34) && byte_eqb a x12 && byte_eqb b x20
  | _ => false
  end.

(** Bytes consumed by a [uvarint] whose error is ignored. *)
Definition uvarint_skip (buf : bytes) : bytes :=
  match uvarint buf with Some (_, n) => skipn n buf | None => buf end.

(** go-cid [Cid.Hash]: the multihash; varint errors are ignored there. *)
Definition cid_hash (c : cid) : bytes :=
  if cid_is_v0 c then c else uvarint_skip (uvarint_skip c).

Record prefix := { px_version : N; px_codec : N; px_mhtype : N; px_mhlen : N }.

(** go-cid [Cid.Prefix]: panics if the CID has no complete prefix (only the
    undefined CID, for CIDs made by the go-cid constructors). *)
Definition cid_prefix (c : cid) : res prefix :=
  if cid_is_v0 c then Ok {| px_version := 0; px_codec := 112; px_mhtype := 18; px_mhlen := 32 |}
  else
    match uvarint c with
    | None => Panic
    | Some (v, n) =>
        let c1 := skipn n c in
        match uvarint c1 with
        | None => Panic
        | Some (codec, n1) =>
            let c2 := skipn n1 c1 in
            match uvarint c2 with
            | None => Panic
            | Some (mht, n2) =>
                let c3 := skipn n2 c2 in
                match uvarint c3 with
                | None => Panic
                | Some (mhl, _) =>
                    Ok {| px_version := v; px_codec := codec; px_mhtype := mht; px_mhlen := mhl |}
                end
            end
        end
    end.

(** [cid.GitRaw] and [mh.SHA1] and [mh.DefaultLengths[mh.SHA1]]. *)
Definition GitRaw : N := 120.
Definition SHA1 : N := 17.
Definition SHA1_len : N := 20.

(** go-multihash [mh.Encode(sha, mh.SHA1)] for a digest of less than 128 bytes:
    varint code, varint length, digest. *)
Definition mh_sha1 (digest : bytes) : bytes :=
  x11 :: byte_of_N (lenN digest) :: digest.

(** go-cid [cid.NewCidV1(cid.GitRaw, mh)]. *)
Definition new_cid_v1_git (h : bytes) : cid := x01 :: x78 :: h.

(** util.go:15 *)
Definition gitSHALen : nat := 20.

(** util.go:17-26 *)
Definition sha_to_cid (sha : bytes) : res cid :=
  if length sha =? gitSHALen then Ok (new_cid_v1_git (mh_sha1 sha))
  else Err (EShaLength (length sha)).

(** util.go:28-31: [h[len(h)-20:]] *)
Definition cid_to_sha (c : cid) : res bytes :=
  let h := cid_hash c in
  if 20 <=? length h then Ok (skipn (length h - 20) h) else Panic.

(** An [ipld.Link]: the nil interface, a [cidlink.Link], or any other type. *)
Inductive link : Type :=
| LNil
| LCid (c : cid)
| LForeign (n : nat).

Definition link_eq_dec : forall a b : link, {a = b} + {a <> b}.
Proof. decide equality; [apply bytes_eq_dec|apply Nat.eq_dec]. Defined.

(** util.go:33-63: [sha], [Link.sha], [Tree_Link.sha], [Commit_Link.sha] have the
    same body: nil (here the empty string, only ever printed in hex) unless the
    link is a [cidlink.Link]. *)
Definition link_sha (l : link) : res bytes :=
  match l with LCid c => cid_to_sha c | _ => Ok [] end.

(** ** Facts *)

Lemma sha_to_cid_ok sha : length sha = 20 ->
  sha_to_cid sha = Ok (x01 :: x78 :: x11 :: x14 :: sha).
Proof.
  intros H. unfold sha_to_cid, gitSHALen, mh_sha1, lenN. rewrite H. reflexivity.
Qed.

Lemma sha_to_cid_inv sha c : sha_to_cid sha = Ok c ->
  length sha = 20 /\ c = x01 :: x78 :: x11 :: x14 :: sha.
Proof.
  intros E. assert (length sha = 20) as L.
  { unfold sha_to_cid, gitSHALen in E. destruct (Nat.eqb_spec (length sha) 20); [assumption|discriminate]. }
  rewrite sha_to_cid_ok in E by assumption. injection E as <-. auto.
Qed.

Lemma sha_to_cid_safe sha : safe (sha_to_cid sha).
Proof. unfold sha_to_cid. destruct (length sha =? gitSHALen); exact I. Qed.

Lemma cid_hash_git sha : cid_hash (x01 :: x78 :: x11 :: x14 :: sha) = x11 :: x14 :: sha.
Proof.
  unfold cid_hash. assert (cid_is_v0 (x01 :: x78 :: x11 :: x14 :: sha) = false) as ->.
  { unfold cid_is_v0. rewrite !andb_false_r. reflexivity. }
  reflexivity.
Qed.

Lemma cid_to_sha_git sha : length sha = 20 ->
  cid_to_sha (x01 :: x78 :: x11 :: x14 :: sha) = Ok sha.
Proof.
  intros H. unfold cid_to_sha. rewrite cid_hash_git. cbn [length]. rewrite H. reflexivity.
Qed.

Lemma cid_prefix_git sha : length sha = 20 ->
  cid_prefix (x01 :: x78 :: x11 :: x14 :: sha) =
  Ok {| px_version := 1; px_codec := GitRaw; px_mhtype := SHA1; px_mhlen := SHA1_len |}.
Proof.
  intros H. unfold cid_prefix.
  assert (cid_is_v0 (x01 :: x78 :: x11 :: x14 :: sha) = false) as ->.
  { unfold cid_is_v0. rewrite !andb_false_r. reflexivity. }
  reflexivity.
Qed.
