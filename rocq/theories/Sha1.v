(** SHA-1, after FIPS 180-4 section 6.1: the hash function of git object names.

    The package does not compute hashes; the link system does (LinkSystem.v takes any hash function).
    This one shows that the statements of Props_link.v apply to the function git uses. *)
From Verif Require Import Base GoStr.
From Coq Require Import Strings.Byte.
Local Open Scope N_scope.

Definition w32 (x : N) : N := N.land x 4294967295.
Definition rotl (k x : N) : N := N.lor (w32 (N.shiftl x k)) (N.shiftr x (32 - k)).
Definition w_not (x : N) : N := N.lxor x 4294967295.

Fixpoint be_value (b : bytes) (acc : N) : N :=
  match b with [] => acc | c :: b' => be_value b' (256 * acc + Byte.to_N c) end.
(** [n] bytes of [x], most significant first. *)
Fixpoint be_bytes (n : nat) (x : N) : bytes :=
  match n with O => [] | S n' => be_bytes n' (x / 256) ++ [byte_of_N (x mod 256)] end.

(** 5.1.1: padding *)
Definition pad (m : bytes) : bytes :=
  let zeros := ((64 - (length m + 9) mod 64) mod 64)%nat in
  m ++ [x80] ++ repeat x00 zeros ++ be_bytes 8 (8 * N.of_nat (length m)).

(** 5.2.1: sixteen words of four bytes *)
Fixpoint words_of (n : nat) (b : bytes) : list N :=
  match n with O => [] | S n' => be_value (firstn 4 b) 0 :: words_of n' (skipn 4 b) end.

(** 6.1.2 step 1: the message schedule, the newest word first *)
Fixpoint schedule (n : nat) (rev_w : list N) : list N :=
  match n with
  | O => rev_w
  | S n' =>
      let w i := nth i rev_w 0 in
      schedule n' (rotl 1 (N.lxor (N.lxor (w 2%nat) (w 7%nat)) (N.lxor (w 13%nat) (w 15%nat))) :: rev_w)
  end.

(** 4.1.1 and 4.2.1 *)
Definition f_t (t : nat) (b c d : N) : N :=
  if (t <? 20)%nat then N.lxor (N.land b c) (N.land (w_not b) d)
  else if (t <? 40)%nat then N.lxor (N.lxor b c) d
  else if (t <? 60)%nat then N.lxor (N.lxor (N.land b c) (N.land b d)) (N.land c d)
  else N.lxor (N.lxor b c) d.
Definition k_t (t : nat) : N :=
  if (t <? 20)%nat then 1518500249 else if (t <? 40)%nat then 1859775393
  else if (t <? 60)%nat then 2400959708 else 3395469782.

Definition state := (N * N * N * N * N)%type.

(** 6.1.2 step 3 *)
Fixpoint steps (t : nat) (ws : list N) (s : state) : state :=
  match ws with
  | [] => s
  | w :: ws' =>
      let '(a, b, c, d, e) := s in
      steps (S t) ws' (w32 (rotl 5 a + f_t t b c d + e + k_t t + w), a, rotl 30 b, c, d)
  end.

Definition compress (s : state) (block : bytes) : state :=
  let '(a, b, c, d, e) := s in
  let '(a', b', c', d', e') := steps 0 (rev (schedule 64 (rev (words_of 16 block)))) s in
  (w32 (a + a'), w32 (b + b'), w32 (c + c'), w32 (d + d'), w32 (e + e')).

Fixpoint blocks (n : nat) (b : bytes) (s : state) : state :=
  match n with O => s | S n' => blocks n' (skipn 64 b) (compress s (firstn 64 b)) end.

Definition sha1_init : state := (1732584193, 4023233417, 2562383102, 271733878, 3285377520).

Definition sha1 (m : bytes) : bytes :=
  let p := pad m in
  let '(a, b, c, d, e) := blocks (length p / 64)%nat p sha1_init in
  be_bytes 4 a ++ be_bytes 4 b ++ be_bytes 4 c ++ be_bytes 4 d ++ be_bytes 4 e.

Lemma be_bytes_length n : forall x, length (be_bytes n x) = n.
Proof. induction n as [|n IH]; intros x; [reflexivity|]. cbn [be_bytes]. rewrite app_length, IH. cbn. lia. Qed.

Lemma sha1_length m : length (sha1 m) = 20%nat.
Proof.
  unfold sha1. destruct (blocks _ _ _) as [[[[a b] c] d] e]. rewrite !app_length, !be_bytes_length. reflexivity.
Qed.

(** For writing hashes as git shows them. *)
Definition hex_bytes (s : bytes) : bytes := match hex_decode s with Ok b => b | _ => [] end.

(** The examples of the standard. *)
Example sha1_abc : hex_encode (sha1 (bs "abc")) = bs "a9993e364706816aba3e25717850c26c9cd0d89d".
Proof. vm_compute. reflexivity. Qed.
Example sha1_two_blocks :
  hex_encode (sha1 (bs "abcdbcdecdefdefgefghfghighijhijkijkljklmklmnlmnomnopnopq")) = bs "84983e441c3bd26ebaae4aa1f95129e5e54670f1".
Proof. vm_compute. reflexivity. Qed.
