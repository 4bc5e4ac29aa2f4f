(** Go string and slice operations used by the package, with their panics, and
    the parts of [bytes], [encoding/hex], [strconv] and [fmt] that it calls. *)
From Verif Require Import Base.
From Coq Require Import Strings.Byte.

(** ** Slices *)

(** [b[i]]: panics out of range. *)
Definition go_at {A} (b : list A) (i : nat) : res A :=
  match nth_error b i with Some x => Ok x | None => Panic end.

(** [b[n:]]: panics if [n > len(b)]. *)
Definition go_from (n : nat) (b : bytes) : res bytes :=
  if n <=? length b then Ok (skipn n b) else Panic.

(** [b[:len(b)-1]]: panics if [b] is empty. *)
Definition go_drop_last (b : bytes) : res bytes :=
  match b with [] => Panic | _ => Ok (removelast b) end.

(** [bytes.HasPrefix] / [strings.HasPrefix]. *)
Fixpoint has_prefix (p b : bytes) : bool :=
  match p, b with
  | [], _ => true
  | _ :: _, [] => false
  | x :: p', y :: b' => byte_eqb x y && has_prefix p' b'
  end.

Lemma has_prefix_spec p b : has_prefix p b = true <-> exists r, b = p ++ r.
Proof.
  revert b; induction p as [|x p IH]; intros b; cbn.
  - split; eauto.
  - destruct b as [|y b]; [split; [discriminate|intros [r H]; discriminate]|].
    rewrite andb_true_iff, IH. destruct (byte_eqb_spec x y) as [->|N]; split.
    + intros [_ [r ->]]; eauto.
    + intros [r E]; injection E as ->; eauto.
    + intros [? _]; discriminate.
    + intros [r E]; injection E; congruence.
Qed.

Lemma has_prefix_app p r : has_prefix p (p ++ r) = true.
Proof. apply has_prefix_spec; eauto. Qed.

Lemma has_prefix_length p b : has_prefix p b = true -> length p <= length b.
Proof. intros H; apply has_prefix_spec in H as [r ->]. rewrite app_length; lia. Qed.

Lemma go_from_prefix p b n : has_prefix p b = true -> n = length p ->
  exists r, b = p ++ r /\ go_from n b = Ok r.
Proof.
  intros H ->. apply has_prefix_spec in H as [r ->]. exists r; split; auto.
  unfold go_from. rewrite app_length. destruct (Nat.leb_spec (length p) (length p + length r)); [|lia].
  now rewrite skipn_app_exact.
Qed.

Lemma go_from_app p r n : n = length p -> go_from n (p ++ r) = Ok r.
Proof.
  intros ->. unfold go_from. rewrite app_length.
  destruct (Nat.leb_spec (length p) (length p + length r)); [|lia].
  now rewrite skipn_app_exact.
Qed.

Lemma go_drop_last_snoc b x : go_drop_last (b ++ [x]) = Ok b.
Proof.
  unfold go_drop_last. destruct (b ++ [x]) eqn:E.
  - destruct b; discriminate.
  - rewrite <- E. now rewrite removelast_last.
Qed.

(** ** [bytes.Split(line, []byte{sep})]: always at least one part. *)
Fixpoint split_on (sep : byte) (b : bytes) : list bytes :=
  match b with
  | [] => [[]]
  | x :: b' =>
      if byte_eqb x sep then [] :: split_on sep b'
      else match split_on sep b' with
           | [] => [[x]]                     (* not reached *)
           | p :: ps => (x :: p) :: ps
           end
  end.

Lemma split_on_nonempty sep b : split_on sep b <> [].
Proof. destruct b; cbn; [discriminate|]. destruct (byte_eqb b sep); [discriminate|].
  destruct (split_on sep b0); discriminate. Qed.

(** Joining with the separator is the inverse of splitting. *)
Fixpoint join (sep : byte) (ps : list bytes) : bytes :=
  match ps with
  | [] => []
  | [p] => p
  | p :: ps' => p ++ sep :: join sep ps'
  end.

Lemma join_cons sep p q ps : join sep (p :: q :: ps) = p ++ sep :: join sep (q :: ps).
Proof. reflexivity. Qed.

Lemma join_split sep b : join sep (split_on sep b) = b.
Proof.
  induction b as [|x b IH]; [reflexivity|]. cbn [split_on].
  destruct (byte_eqb_spec x sep) as [->|N].
  - destruct (split_on sep b) eqn:E; [now apply split_on_nonempty in E|].
    rewrite join_cons, IH. reflexivity.
  - destruct (split_on sep b) eqn:E; [now apply split_on_nonempty in E|].
    destruct l0.
    + cbn in IH |- *. now rewrite IH.
    + rewrite join_cons in *. cbn [app]. now rewrite IH.
Qed.

Lemma split_on_no_sep sep b : forall p, In p (split_on sep b) -> ~ In sep p.
Proof.
  induction b as [|x b IH]; cbn [split_on]; intros p H.
  - destruct H as [<-|[]]. intros [].
  - destruct (byte_eqb_spec x sep) as [->|N].
    + destruct H as [<-|H]; [intros []|now apply IH].
    + destruct (split_on sep b) as [|q qs]; [now destruct H as [<-|[]]; intros [|[]]|].
      destruct H as [<-|H].
      * intros [E|E]; [congruence|]. apply (IH q); [now left|assumption].
      * apply IH; now right.
Qed.

Lemma split_on_none sep b : ~ In sep b -> split_on sep b = [b].
Proof.
  induction b as [|x b IH]; intros H; [reflexivity|]. cbn [split_on].
  rewrite byte_eqb_neq; [|intros ->; apply H; now left].
  rewrite IH; [reflexivity|]. intros E; apply H; now right.
Qed.

Lemma split_on_app sep a b : split_on sep (a ++ sep :: b) = split_on sep a ++ split_on sep b.
Proof.
  induction a as [|x a IH]; cbn [app split_on].
  - now rewrite byte_eqb_refl.
  - destruct (byte_eqb_spec x sep) as [->|N]; [now rewrite IH|].
    rewrite IH. destruct (split_on sep a) eqn:E; [now apply split_on_nonempty in E|]. reflexivity.
Qed.

Lemma split_join sep ps : ps <> [] -> (forall p, In p ps -> ~ In sep p) ->
  split_on sep (join sep ps) = ps.
Proof.
  induction ps as [|p ps IH]; intros N H; [congruence|].
  destruct ps as [|q ps].
  - apply split_on_none, H; now left.
  - rewrite join_cons, split_on_app, split_on_none by (apply H; now left).
    rewrite IH; [reflexivity|discriminate|]. intros r Hr; apply H; now right.
Qed.

(** ** [encoding/hex] *)

(** [reverseHexTable]: value of a hexadecimal digit, upper or lower case. *)
Definition hex_val (b : byte) : option N :=
  let n := Byte.to_N b in
  if (48 <=? n)%N && (n <=? 57)%N then Some (n - 48)%N
  else if (97 <=? n)%N && (n <=? 102)%N then Some (n - 87)%N
  else if (65 <=? n)%N && (n <=? 70)%N then Some (n - 55)%N
  else None.

Definition byte_of_N (n : N) : byte :=
  match Byte.of_N n with Some b => b | None => x00 end.

(** [hex.DecodeString]: pairs are checked left to right; an odd last character is
    checked before the length error is reported. *)
Fixpoint hex_decode (s : bytes) : res bytes :=
  match s with
  | [] => Ok []
  | [p] => match hex_val p with None => Err (EHexByte p) | Some _ => Err EHexLength end
  | p :: q :: s' =>
      match hex_val p, hex_val q with
      | None, _ => Err (EHexByte p)
      | Some _, None => Err (EHexByte q)
      | Some a, Some b =>
          let* r := hex_decode s' in Ok (byte_of_N (16 * a + b)%N :: r)
      end
  end.

Definition hex_digit (n : N) : byte :=
  if (n <? 10)%N then byte_of_N (48 + n) else byte_of_N (87 + n).

(** [hex.EncodeToString]: lower case. *)
Fixpoint hex_encode (b : bytes) : bytes :=
  match b with
  | [] => []
  | x :: b' => hex_digit (Byte.to_N x / 16) :: hex_digit (Byte.to_N x mod 16) :: hex_encode b'
  end.

Lemma hex_byte_roundtrip x :
  hex_val (hex_digit (Byte.to_N x / 16)) = Some (Byte.to_N x / 16)%N /\
  hex_val (hex_digit (Byte.to_N x mod 16)) = Some (Byte.to_N x mod 16)%N /\
  byte_of_N (16 * (Byte.to_N x / 16) + Byte.to_N x mod 16) = x.
Proof. destruct x; vm_compute; auto. Qed.

Lemma hex_decode_encode b : hex_decode (hex_encode b) = Ok b.
Proof.
  induction b as [|x b IH]; [reflexivity|]. cbn [hex_encode hex_decode].
  destruct (hex_byte_roundtrip x) as (-> & -> & E). rewrite IH. cbn [bind]. now rewrite E.
Qed.

Lemma hex_encode_length b : length (hex_encode b) = 2 * length b.
Proof. induction b; cbn [hex_encode length]; lia. Qed.

Lemma hex_decode_safe s : safe (hex_decode s).
Proof.
  assert (forall n s, length s <= n -> safe (hex_decode s)) as H.
  { induction n as [|n IH]; intros [|p [|q r]] L; cbn in *; try lia; auto.
    - destruct (hex_val p); exact I.
    - destruct (hex_val p), (hex_val q); cbn; auto.
      specialize (IH r). destruct (hex_decode r); cbn in *; auto; apply IH; lia. }
  now apply (H (length s)).
Qed.

Lemma hex_decode_length s r : hex_decode s = Ok r -> length s = 2 * length r.
Proof.
  assert (forall n s r, length s <= n -> hex_decode s = Ok r -> length s = 2 * length r) as H.
  { induction n as [|n IH]; intros [|p [|q s']] r' L E; cbn in *; try lia;
      try (injection E as <-; reflexivity);
      try (destruct (hex_val p); discriminate).
    destruct (hex_val p), (hex_val q); try discriminate.
    apply bind_ok in E as (t & E1 & E2). injection E2 as <-.
    apply IH in E1; [|lia]. cbn. lia. }
  now apply (H (length s)).
Qed.

(** Characters written by [hex_encode]. *)
Lemma hex_encode_chars b : forall c, In c (hex_encode b) -> exists v, hex_val c = Some v.
Proof.
  induction b as [|x b IH]; cbn [hex_encode]; intros c H; [destruct H|].
  destruct (hex_byte_roundtrip x) as (E1 & E2 & _).
  destruct H as [<-|[<-|H]]; eauto.
Qed.

(** ** [strconv.Atoi] on 64-bit platforms *)

Definition digit_val (b : byte) : option N :=
  let n := Byte.to_N b in
  if (48 <=? n)%N && (n <=? 57)%N then Some (n - 48)%N else None.

(** The loop of [strconv.ParseUint] (base 10): overflow is reported as soon as
    it happens, before later characters are looked at. *)
Fixpoint parse_uint (acc : N) (s : bytes) : res N :=
  match s with
  | [] => Ok acc
  | c :: s' =>
      match digit_val c with
      | None => Err ESyntax
      | Some d =>
          if (1844674407370955162 <=? acc)%N then Err ERange
          else let n1 := (acc * 10 + d)%N in
               if (18446744073709551616 <=? n1)%N then Err ERange
               else parse_uint n1 s'
      end
  end.

(** The magnitude and the range check of [strconv.ParseInt]. *)
Definition atoi_signed (neg : bool) (ds : bytes) : res Z :=
  match ds with
  | [] => Err ESyntax
  | _ =>
      let* un := parse_uint 0 ds in
      if neg then
        if (9223372036854775808 <? un)%N then Err ERange else Ok (- Z.of_N un)%Z
      else
        if (9223372036854775808 <=? un)%N then Err ERange else Ok (Z.of_N un)
  end.

(** The value of [strconv.Atoi], or why there is none. *)
Definition atoi_value (s : bytes) : res Z :=
  match s with
  | c :: s' => if byte_eqb c x2d then atoi_signed true s'
               else if byte_eqb c x2b then atoi_signed false s'
               else atoi_signed false s
  | [] => Err ESyntax
  end.

(** [strconv.Atoi]: its errors hold the string. *)
Definition num_error (s : bytes) (r : res Z) : res Z :=
  match r with Err e => Err (ENumber s e) | _ => r end.
Definition atoi (s : bytes) : res Z := num_error s (atoi_value s).

Lemma parse_uint_safe acc s : safe (parse_uint acc s).
Proof.
  revert acc; induction s as [|c s IH]; intros acc; cbn; auto.
  destruct (digit_val c); cbn; auto.
  destruct (1844674407370955162 <=? acc)%N; cbn; auto.
  destruct (18446744073709551616 <=? acc * 10 + n)%N; cbn; auto.
Qed.

Lemma atoi_signed_safe neg ds : safe (atoi_signed neg ds).
Proof.
  destruct ds; [exact I|].
  apply safe_bind; [apply parse_uint_safe|]. intros a _. destruct neg;
    match goal with |- safe (if ?c then _ else _) => destruct c end; exact I.
Qed.

Lemma atoi_ok s z : atoi s = Ok z <-> atoi_value s = Ok z.
Proof. unfold atoi, num_error. destruct (atoi_value s); split; congruence. Qed.
Lemma atoi_bad s e : atoi s = Err e <-> exists r, e = ENumber s r /\ atoi_value s = Err r.
Proof.
  unfold atoi, num_error. destruct (atoi_value s) as [z|r| |]; split; try discriminate; try (intros (x & -> & X); congruence).
  intros X. injection X as <-. eauto.
Qed.

Lemma atoi_safe s : safe (atoi s).
Proof.
  unfold atoi, num_error. assert (safe (atoi_value s)) as H; [|now destruct (atoi_value s)].
  destruct s as [|c s]; [exact I|]. unfold atoi_value.
  destruct (byte_eqb c x2d); [apply atoi_signed_safe|].
  destruct (byte_eqb c x2b); apply atoi_signed_safe.
Qed.

(** ** [fmt]'s %d on non-negative integers *)

Definition digit_char (n : N) : byte := byte_of_N (48 + n).

(** Decimal digits of [n]; [fuel] is at least the number of digits. *)
Fixpoint dec_aux (fuel : nat) (n : N) : bytes :=
  match fuel with
  | O => []
  | S f => if (n <? 10)%N then [digit_char n]
           else dec_aux f (n / 10) ++ [digit_char (n mod 10)]
  end.

Definition dec (n : N) : bytes := dec_aux (S (N.to_nat (N.log2 n))) n.

(** %d of a Go int. *)
Definition dec_Z (z : Z) : bytes :=
  if (z <? 0)%Z then x2d :: dec (Z.to_N (- z)) else dec (Z.to_N z).

Lemma digit_roundtrip n : (n < 10)%N -> digit_val (digit_char n) = Some n.
Proof.
  intros H. assert (n = 0 \/ n = 1 \/ n = 2 \/ n = 3 \/ n = 4 \/ n = 5 \/ n = 6 \/ n = 7 \/ n = 8 \/ n = 9)%N as C by lia.
  repeat (destruct C as [->|C]; [reflexivity|]). now subst.
Qed.

Lemma digit_char_val c d : digit_val c = Some d -> c = digit_char d /\ (d < 10)%N.
Proof. destruct c; cbv; intros E; try discriminate E; injection E as <-; split; reflexivity. Qed.

(** The number written by a digit string. *)
Fixpoint dec_value (acc : N) (s : bytes) : option N :=
  match s with
  | [] => Some acc
  | c :: s' => match digit_val c with
               | Some d => dec_value (acc * 10 + d) s'
               | None => None
               end
  end.

Lemma dec_value_app a b acc : dec_value acc (a ++ b) =
  match dec_value acc a with Some v => dec_value v b | None => None end.
Proof. revert acc; induction a as [|x a IH]; intros acc; cbn; auto. destruct (digit_val x); auto. Qed.

Lemma dec_value_ge s : forall acc v, dec_value acc s = Some v -> (acc <= v)%N.
Proof.
  induction s as [|c s IH]; cbn; intros acc v H; [injection H as ->; lia|].
  destruct (digit_val c); [|discriminate]. apply IH in H. lia.
Qed.

Lemma log2_div10 n : (10 <= n)%N -> (N.log2 (n / 10) < N.log2 n)%N.
Proof.
  intros H. assert (n / 10 <= n / 2)%N.
  { apply N.div_le_compat_l; lia. }
  assert (N.log2 (n/10) <= N.log2 (n/2))%N by now apply N.log2_le_mono.
  assert (N.log2 (n / 2) = N.pred (N.log2 n)).
  { change (n/2)%N with (n / 2^1)%N. rewrite <- N.shiftr_div_pow2, N.log2_shiftr. lia. }
  assert (0 < N.log2 n)%N by (apply N.log2_pos; lia). lia.
Qed.

Lemma dec_aux_value fuel : forall n, (N.to_nat (N.log2 n) < fuel) ->
  dec_value 0 (dec_aux fuel n) = Some n.
Proof.
  induction fuel as [|f IH]; intros n H; [lia|]. cbn [dec_aux].
  destruct (N.ltb_spec n 10).
  - cbn. now rewrite digit_roundtrip.
  - assert (N.log2 (n / 10) < N.log2 n)%N by now apply log2_div10.
    rewrite dec_value_app, IH by lia. cbn.
    rewrite digit_roundtrip by (apply N.mod_lt; lia).
    f_equal. pose proof (N.div_mod n 10). lia.
Qed.

Lemma dec_value_dec n : dec_value 0 (dec n) = Some n.
Proof. apply dec_aux_value. lia. Qed.

Lemma dec_digits n : forall c, In c (dec n) -> exists d, digit_val c = Some d.
Proof.
  assert (forall s acc v, dec_value acc s = Some v -> forall c, In c s -> exists d, digit_val c = Some d) as H.
  { induction s as [|x s IH]; cbn; intros acc v E c Hc; [destruct Hc|].
    destruct (digit_val x) eqn:D; [|discriminate]. destruct Hc as [<-|Hc]; eauto. }
  intros c Hc. eapply H; [apply dec_value_dec|exact Hc].
Qed.

Lemma dec_nonempty n : dec n <> [].
Proof. unfold dec; cbn. destruct (n <? 10)%N; [discriminate|]. intros E; apply app_eq_nil in E as [_ E]; discriminate. Qed.

Lemma parse_uint_value s : forall acc v, dec_value acc s = Some v ->
  (v < 18446744073709551616)%N -> parse_uint acc s = Ok v.
Proof.
  induction s as [|c s IH]; cbn; intros acc v E H; [now injection E as ->|].
  destruct (digit_val c) as [d|]; [|discriminate].
  pose proof (dec_value_ge _ _ _ E).
  destruct (N.leb_spec 1844674407370955162 acc); [lia|].
  destruct (N.leb_spec 18446744073709551616 (acc * 10 + d)); [lia|]. auto.
Qed.

Lemma parse_uint_ok s : forall acc v, parse_uint acc s = Ok v -> dec_value acc s = Some v.
Proof.
  induction s as [|c s IH]; cbn; intros acc v E; [now injection E as ->|].
  destruct (digit_val c) as [d|]; [|discriminate].
  destruct (N.leb_spec 1844674407370955162 acc); [discriminate|].
  destruct (N.leb_spec 18446744073709551616 (acc * 10 + d)); [discriminate|]. auto.
Qed.

(** [Atoi] reads back what %d wrote. *)
Lemma atoi_dec n : (n < 9223372036854775808)%N -> atoi (dec n) = Ok (Z.of_N n).
Proof.
  intros H. pose proof (dec_nonempty n). pose proof (dec_digits n) as D.
  pose proof (parse_uint_value _ 0%N n (dec_value_dec n)) as P.
  apply atoi_ok. destruct (dec n) as [|c s]; [congruence|]. unfold atoi_value.
  assert (byte_eqb c x2d = false) as ->.
  { apply byte_eqb_neq. intros ->. destruct (D x2d (or_introl eq_refl)) as [d Hd]. discriminate Hd. }
  assert (byte_eqb c x2b = false) as ->.
  { apply byte_eqb_neq. intros ->. destruct (D x2b (or_introl eq_refl)) as [d Hd]. discriminate Hd. }
  unfold atoi_signed. rewrite P by lia. cbn [bind].
  destruct (N.leb_spec 9223372036854775808 n); [lia|]. reflexivity.
Qed.

Lemma atoi_signed_range neg s z : atoi_signed neg s = Ok z ->
  (-9223372036854775808 <= z < 9223372036854775808)%Z.
Proof.
  destruct s; [discriminate|]. unfold atoi_signed. intros E.
  apply bind_ok in E as (un & _ & E). destruct neg.
  - destruct (N.ltb_spec 9223372036854775808 un); [discriminate|]. injection E as <-. lia.
  - destruct (N.leb_spec 9223372036854775808 un); [discriminate|]. injection E as <-. lia.
Qed.

Lemma atoi_range s z : atoi s = Ok z -> (-9223372036854775808 <= z < 9223372036854775808)%Z.
Proof.
  rewrite atoi_ok. destruct s as [|c s]; [discriminate|]. unfold atoi_value.
  destruct (byte_eqb c x2d); [apply atoi_signed_range|].
  destruct (byte_eqb c x2b); apply atoi_signed_range.
Qed.

Lemma dec_no_nul n : ~ In NUL (dec n).
Proof. intros H. destruct (dec_digits n _ H) as [d E]. discriminate E. Qed.

Lemma dec_no_sp n : ~ In SP (dec n).
Proof. intros H. destruct (dec_digits n _ H) as [d E]. discriminate E. Qed.

Lemma dec_inj n m : dec n = dec m -> n = m.
Proof. intros E. pose proof (dec_value_dec n). rewrite E, dec_value_dec in H. congruence. Qed.
