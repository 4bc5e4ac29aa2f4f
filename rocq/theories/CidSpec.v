(** Specification of CIDs, following the multiformats documents: variable length integers, and
    version 0 and version 1 CIDs. *)
From Verif Require Import Base GoStr.

(** Unsigned varints: seven bits per byte, least significant first, the high bit set on all but
    the last byte, no superfluous last byte. *)
Inductive varint : N -> bytes -> Prop :=
| vi_last n c : Byte.to_N c = n -> (n < 128)%N -> varint n [c]
| vi_more n m c r : (128 <= Byte.to_N c)%N -> (0 < m)%N -> varint m r ->
    n = (Byte.to_N c - 128 + 128 * m)%N -> varint n (c :: r).

(** A version 1 CID: version, codec, multihash.  A varint has at most nine bytes. *)
Definition cid_v1 (codec : N) (h c : bytes) : Prop :=
  exists w, varint codec w /\ length w <= 9 /\ c = x01 :: w ++ h.
(** A version 0 CID is a sha2-256 multihash. *)
Definition cid_v0 (h c : bytes) : Prop :=
  exists digest, length digest = 32 /\ h = x12 :: x20 :: digest /\ c = h.
(** A multihash: the code of the hash function, the length of the digest, the digest. *)
Definition multihash (code : N) (digest h : bytes) : Prop :=
  exists w v, varint code w /\ length w <= 9 /\ varint (N.of_nat (length digest)) v /\ length v <= 9 /\ h = w ++ v ++ digest.

(** [is_cid c h]: [c] is a CID with multihash [h]. *)
Definition is_cid (c h : bytes) : Prop := (exists codec, cid_v1 codec h c) \/ cid_v0 h c.
