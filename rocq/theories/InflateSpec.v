(** Specification: the formats of RFC 1951 (deflate) and RFC 1950 (zlib), as a description of
    what the bits of a compressed text look like.  Nothing here refers to the decompressor. *)
From Verif Require Import Base.

(** ** Bits *)
(** The bits of a byte, and of bytes, in the order in which they are used (RFC 1951, 3.1.1). *)
Definition byte_bits (b : byte) : list bool := map (N.testbit (Byte.to_N b)) [0; 1; 2; 3; 4; 5; 6; 7]%N.
Definition all_bits (b : bytes) : list bool := flat_map byte_bits b.
(** A number of [n] bits: most bits of the format start with the least significant one,
    those of a Huffman code with the most significant one. *)
Definition low_first (n v : nat) : list bool := map (Nat.testbit v) (seq 0 n).
Definition high_first (n v : nat) : list bool := rev (low_first n v).

(** ** Huffman codes (3.2.2)

    A code is given by the length of the code word of each symbol, 0 if it has none. *)
Definition how_many (lens : list nat) (n : nat) : nat := length (filter (Nat.eqb n) lens).
(** The first code word of length [n], as a number. *)
Fixpoint first_code (lens : list nat) (n : nat) : nat :=
  match n with
  | 0 => 0
  | S m => 2 * (first_code lens m + match m with 0 => 0 | S _ => how_many lens m end)
  end.
(** Words of one length are numbered in the order of their symbols. *)
Definition code_of (lens : list nat) (s : nat) : list bool :=
  let n := nth s lens 0 in
  high_first n (first_code lens n + how_many (firstn s lens) n).
Definition has_code (lens : list nat) (s : nat) : Prop := s < length lens /\ nth s lens 0 <> 0.

(** The code words leave nothing over; or there is a single one, of one bit; or none. *)
Fixpoint kraft (m : nat) (lens : list nat) : nat :=
  match lens with [] => 0 | l :: r => (if l =? 0 then 0 else 2 ^ (m - l)) + kraft m r end.
Definition complete (lens : list nat) : Prop :=
  (exists m, (forall l, In l lens -> l <= m) /\ kraft m lens = 2 ^ m) \/
  (exists i j, lens = repeat 0 i ++ 1 :: repeat 0 j) \/
  (exists i, lens = repeat 0 i).

(** ** What is repeated (3.2.5) *)
Inductive token := Lit (b : byte) | Copy (len dist : nat).
(** symbol, extra bits, first length *)
Definition length_codes : list (nat * nat * nat) :=
  [(257, 0, 3); (258, 0, 4); (259, 0, 5); (260, 0, 6); (261, 0, 7); (262, 0, 8); (263, 0, 9); (264, 0, 10);
   (265, 1, 11); (266, 1, 13); (267, 1, 15); (268, 1, 17); (269, 2, 19); (270, 2, 23); (271, 2, 27); (272, 2, 31);
   (273, 3, 35); (274, 3, 43); (275, 3, 51); (276, 3, 59); (277, 4, 67); (278, 4, 83); (279, 4, 99); (280, 4, 115);
   (281, 5, 131); (282, 5, 163); (283, 5, 195); (284, 5, 227); (285, 0, 258)].
Definition distance_codes : list (nat * nat * nat) :=
  [(0, 0, 1); (1, 0, 2); (2, 0, 3); (3, 0, 4); (4, 1, 5); (5, 1, 7); (6, 2, 9); (7, 2, 13); (8, 3, 17); (9, 3, 25);
   (10, 4, 33); (11, 4, 49); (12, 5, 65); (13, 5, 97); (14, 6, 129); (15, 6, 193); (16, 7, 257); (17, 7, 385);
   (18, 8, 513); (19, 8, 769); (20, 9, 1025); (21, 9, 1537); (22, 10, 2049); (23, 10, 3073); (24, 11, 4 * 1024 + 1);
   (25, 11, 6 * 1024 + 1); (26, 12, 8 * 1024 + 1); (27, 12, 12 * 1024 + 1); (28, 13, 16 * 1024 + 1); (29, 13, 24 * 1024 + 1)].

(** The bits of a token.  [dcode]: the code words of the distances. *)
Inductive token_bits (lit : list nat) (dcode : nat -> list bool -> Prop) : token -> list bool -> Prop :=
| TLit b : has_code lit (Byte.to_nat b) -> token_bits lit dcode (Lit b) (code_of lit (Byte.to_nat b))
| TCopy ls le lb lx ds de db dx w :
    In (ls, le, lb) length_codes -> lx < 2 ^ le -> has_code lit ls ->
    In (ds, de, db) distance_codes -> dx < 2 ^ de -> dcode ds w ->
    token_bits lit dcode (Copy (lb + lx) (db + dx)) (code_of lit ls ++ low_first le lx ++ w ++ low_first de dx).

(** What the tokens stand for, after [before].  A copy may reach into itself. *)
Inductive says : bytes -> list token -> bytes -> Prop :=
| SaysEnd out : says out [] out
| SaysLit before b ts out : says (before ++ [b]) ts out -> says before (Lit b :: ts) out
| SaysCopy before len dist copied ts out :
    1 <= dist <= length before -> length copied = len ->
    (forall i, i < len -> nth (length before + i) (before ++ copied) x00 = nth (length before + i - dist) (before ++ copied) x00) ->
    says (before ++ copied) ts out ->
    says before (Copy len dist :: ts) out.

(** ** Blocks (3.2.3) *)
(** The fixed codes (3.2.6). *)
Definition fixed_lit : list nat := repeat 8 144 ++ repeat 9 112 ++ repeat 7 24 ++ repeat 8 8.
Definition fixed_dist (s : nat) (w : list bool) : Prop := s < 30 /\ w = high_first 5 s.
Definition coded_by (lens : list nat) (s : nat) (w : list bool) : Prop := has_code lens s /\ w = code_of lens s.

(** The tokens and the end of the block. *)
Inductive tokens_bits (lit : list nat) (dcode : nat -> list bool -> Prop) : list token -> list bool -> Prop :=
| TEnd : has_code lit 256 -> tokens_bits lit dcode [] (code_of lit 256)
| TMore t ts a b : token_bits lit dcode t a -> tokens_bits lit dcode ts b -> tokens_bits lit dcode (t :: ts) (a ++ b).

(** The code lengths of a block, as runs (3.2.7). *)
Inductive run := Len (l : nat) | Again (k : nat) | Zeros (k : nat).
Inductive run_bits (cl : list nat) : run -> list bool -> Prop :=
| RLen l : l < 16 -> has_code cl l -> run_bits cl (Len l) (code_of cl l)
| RAgain k : 3 <= k <= 6 -> has_code cl 16 -> run_bits cl (Again k) (code_of cl 16 ++ low_first 2 (k - 3))
| RZeros k : 3 <= k <= 10 -> has_code cl 17 -> run_bits cl (Zeros k) (code_of cl 17 ++ low_first 3 (k - 3))
| RZerosL k : 11 <= k <= 138 -> has_code cl 18 -> run_bits cl (Zeros k) (code_of cl 18 ++ low_first 7 (k - 11)).
Inductive runs_bits (cl : list nat) : list run -> list bool -> Prop :=
| RsEnd : runs_bits cl [] []
| RsMore r rs a b : run_bits cl r a -> runs_bits cl rs b -> runs_bits cl (r :: rs) (a ++ b).
Inductive spells : list nat -> list run -> list nat -> Prop :=
| SpEnd l : spells l [] l
| SpLen before l rs out : spells (before ++ [l]) rs out -> spells before (Len l :: rs) out
| SpAgain before l k rs out : spells (before ++ [l] ++ repeat l k) rs out -> spells (before ++ [l]) (Again k :: rs) out
| SpZeros before k rs out : spells (before ++ repeat 0 k) rs out -> spells before (Zeros k :: rs) out.
(** The lengths of the code for the runs come in this order, the last ones left out are 0. *)
Definition clen_order : list nat := [16; 17; 18; 0; 8; 7; 9; 6; 10; 5; 11; 4; 12; 3; 13; 2; 14; 1; 15].
Definition in_order (vs cl : list nat) : Prop :=
  length cl = 19 /\ forall i, i < 19 -> nth (nth i clen_order 0) cl 0 = nth i vs 0.
Inductive dynamic_header : list nat -> list nat -> list bool -> Prop :=
| DynamicHeader lit dist vs cl rs rbits :
    257 <= length lit <= 286 -> 1 <= length dist <= 30 -> 4 <= length vs <= 19 ->
    (forall v, In v vs -> v < 8) -> in_order vs cl -> complete cl -> complete lit -> complete dist ->
    runs_bits cl rs rbits -> spells [] rs (lit ++ dist) ->
    dynamic_header lit dist
      (low_first 5 (length lit - 257) ++ low_first 5 (length dist - 1) ++ low_first 4 (length vs - 4)
       ++ flat_map (low_first 3) vs ++ rbits).

(** A block, without the bit that says whether it is the last: [pos] is the number of bits in front
    of it, [before] what the blocks in front of it say. *)
Inductive block_bits (pos : nat) (before : bytes) : list bool -> bytes -> Prop :=
| Stored pad data :
    (pos + 2 + length pad) mod 8 = 0 -> length pad < 8 -> length data < 2 ^ 16 ->
    block_bits pos before
      ([false; false] ++ pad ++ low_first 16 (length data) ++ map negb (low_first 16 (length data)) ++ all_bits data)
      (before ++ data)
| Fixed ts tb out :
    tokens_bits fixed_lit fixed_dist ts tb -> says before ts out ->
    block_bits pos before ([true; false] ++ tb) out
| Dynamic lit dist hb ts tb out :
    dynamic_header lit dist hb ->
    tokens_bits lit (coded_by dist) ts tb -> says before ts out ->
    block_bits pos before ([false; true] ++ hb ++ tb) out.
Inductive deflated (pos : nat) (before : bytes) : list bool -> bytes -> Prop :=
| LastBlock b out : block_bits (S pos) before b out -> deflated pos before (true :: b) out
| MoreBlocks b mid bs out :
    block_bits (S pos) before b mid -> deflated (S pos + length b) mid bs out ->
    deflated pos before (false :: b ++ bs) out.
(** [d] is a compressed form of [data]. *)
Definition deflate_of (data d : bytes) : Prop :=
  exists bits pad, all_bits d = bits ++ pad /\ length pad < 8 /\ deflated 0 [] bits data.

(** ** zlib (RFC 1950) *)
(** Adler-32 (8.2): two sums modulo 65521. *)
Definition val (b : byte) : Z := Z.of_N (Byte.to_N b).
Fixpoint sum (l : list Z) : Z := match l with [] => 0%Z | x :: r => (x + sum r)%Z end.
Definition adler_a (data : bytes) : Z := ((1 + sum (map val data)) mod 65521)%Z.
Definition adler_b (data : bytes) : Z :=
  (sum (map (fun k => 1 + sum (map val (firstn k data))) (seq 1 (length data))) mod 65521)%Z.
Definition adler (data : bytes) : Z := (adler_b data * 65536 + adler_a data)%Z.
(** Four bytes, most significant first. *)
Definition big_endian (b : bytes) : Z := fold_left (fun n x => n * 256 + val x)%Z b 0%Z.
(** What is in front: method 8, a window of at most 2^15 bytes, a check that makes the first two
    bytes a multiple of 31.  If bit 5 of the second is set, the Adler-32 of a dictionary follows
    that both sides know: here the empty one. *)
Inductive zlib_head : bytes -> Prop :=
| ZlibHead cmf flg dict :
    (val cmf mod 16 = 8)%Z -> (val cmf / 16 <= 7)%Z -> ((val cmf * 256 + val flg) mod 31 = 0)%Z ->
    (if Z.testbit (val flg) 5 then length dict = 4 /\ big_endian dict = adler [] else dict = []) ->
    zlib_head ([cmf; flg] ++ dict).
(** [z] is a compressed form of [data]. *)
Definition zlib_of (data z : bytes) : Prop :=
  exists head d check,
    z = head ++ d ++ check /\ zlib_head head /\ deflate_of data d /\
    length check = 4 /\ big_endian check = adler data.
