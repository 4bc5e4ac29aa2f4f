(** strconv.Atoi accepts exactly the decimal integers in range. *)
From Verif Require Import Base GoStr Spec.

Lemma signed_iff neg ds z : atoi_signed neg ds = Ok z <->
  ds <> [] /\ int_range z /\ exists n, dec_value 0 ds = Some n /\ z = (if neg then - Z.of_N n else Z.of_N n)%Z.
Proof.
  unfold int_range. change (2 ^ 63)%Z with 9223372036854775808%Z. split.
  - intros E. pose proof (atoi_signed_range _ _ _ E) as R. destruct ds as [|c s]; [discriminate|]. unfold atoi_signed in E.
    apply bind_ok in E as (un & P & E). apply parse_uint_ok in P. split; [discriminate|]. split; [exact R|]. exists un.
    split; [exact P|]. destruct neg.
    + destruct (9223372036854775808 <? un)%N; congruence.
    + destruct (9223372036854775808 <=? un)%N; congruence.
  - intros (N & R & n & V & ->). destruct ds as [|c s]; [congruence|]. unfold atoi_signed. destruct neg.
    + rewrite (parse_uint_value _ _ _ V) by lia. cbn [bind]. destruct (N.ltb_spec 9223372036854775808 n); [lia|reflexivity].
    + rewrite (parse_uint_value _ _ _ V) by lia. cbn [bind]. destruct (N.leb_spec 9223372036854775808 n); [lia|reflexivity].
Qed.

Lemma digit_not_sign s n : dec_value 0 s = Some n -> forall c r, s = c :: r ->
  byte_eqb c x2d = false /\ byte_eqb c x2b = false.
Proof.
  intros V c r ->. cbn in V. split; apply byte_eqb_neq; intros ->; discriminate V.
Qed.

Lemma atoi_iff s z : atoi s = Ok z <-> numeral s z /\ int_range z.
Proof.
  rewrite atoi_ok. split.
  - intros E. destruct s as [|c s]; [discriminate|]. unfold atoi_value in E.
    destruct (byte_eqb_spec c x2d) as [->|N1].
    { apply signed_iff in E as (N & R & n & V & ->). split; [|exact R]. now apply (num_minus s n). }
    destruct (byte_eqb_spec c x2b) as [->|N2].
    { apply signed_iff in E as (N & R & n & V & ->). split; [|exact R]. now apply (num_plus s n). }
    apply signed_iff in E as (N & R & n & V & ->). split; [|exact R]. now apply num_plain.
  - intros [[ds n N V|ds n N V|ds n N V] R].
    + destruct ds as [|c r]; [congruence|]. destruct (digit_not_sign _ _ V c r eq_refl) as [E1 E2].
      unfold atoi_value. rewrite E1, E2. apply signed_iff. eauto.
    + cbn [bs app]. apply signed_iff. eauto.
    + cbn [bs app]. apply signed_iff. eauto.
Qed.

Lemma numeral_unique s z z' : numeral s z -> numeral s z' -> z = z'.
Proof.
  intros H H'. inversion H as [a n N V|a n N V|a n N V]; subst; inversion H' as [a' n' N' V'|a' n' N' V'|a' n' N' V']; subst; try congruence;
  repeat match goal with
  | E : bs _ ++ _ = bs _ ++ _ |- _ => cbn in E; injection E as <-
  | V : dec_value 0 (bs _ ++ _) = _ |- _ => cbn in V; discriminate V
  | E : bs _ ++ _ = bs _ ++ _ |- _ => cbn in E; discriminate E
  end; congruence.
Qed.

Lemma atoi_err s : (forall z, ~ (numeral s z /\ int_range z)) -> exists e, atoi s = Err e.
Proof.
  intros H. pose proof (atoi_safe s) as S. destruct (atoi s) as [z|e| |] eqn:E; cbn in S; try contradiction; [|eauto].
  exfalso. apply (H z). now apply atoi_iff.
Qed.

Lemma atoi_err_kind s e : atoi s = Err e -> e = ENumber s ESyntax \/ e = ENumber s ERange.
Proof.
  assert (forall r, atoi_value s = Err r -> r = ESyntax \/ r = ERange) as K0; [|intros E; apply atoi_bad in E as (r & -> & E); destruct (K0 r E) as [-> | ->]; auto].
  assert (forall ds a e, parse_uint a ds = Err e -> e = ESyntax \/ e = ERange) as U.
  { induction ds as [|c ds IH]; intros a x; cbn [parse_uint]; [discriminate|].
    destruct (digit_val c) as [d|]; [|intros X; injection X as <-; auto].
    destruct (1844674407370955162 <=? a)%N; [intros X; injection X as <-; auto|].
    destruct (18446744073709551616 <=? a * 10 + d)%N; [intros X; injection X as <-; auto|]. apply IH. }
  assert (forall neg ds x, atoi_signed neg ds = Err x -> x = ESyntax \/ x = ERange) as K.
  { intros neg ds x. destruct ds as [|c ds]; [cbn; intros X; injection X as <-; auto|]. unfold atoi_signed.
    destruct (parse_uint 0 (c :: ds)) as [n|x'| |] eqn:P; cbn [bind].
    - destruct neg; match goal with |- context [if ?c then _ else _] => destruct c end;
        intros X; try discriminate; injection X as <-; auto.
    - intros X. injection X as <-. eapply U; eassumption.
    - discriminate.
    - discriminate. }
  intros r. destruct s as [|c s]; cbn [atoi_value]; [intros X; injection X as <-; auto|].
  destruct (byte_eqb c x2d); [apply K|]. destruct (byte_eqb c x2b); apply K.
Qed.
