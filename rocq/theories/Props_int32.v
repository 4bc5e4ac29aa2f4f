(** C63: platforms whose [int] has fewer than 64 bits. *)
From Verif Require Import Base GoStr Cid Types Nodes Reader Bufio Person Assemble Decode Encode Spec HeaderSpec
  ReaderSpec StreamFacts PersonFacts DecodeFacts RoundTrip CommitFacts NumFacts Sim BufioFacts SafeOps SafeBufio
  Transfer Checks Props_reader Props_decode Props_grammar Props_roundtrip Int32.

(** ** Specification *)
(** The integers of [w] bits. *)
Definition int_of_bits (w : N) (z : Z) : Prop := (- 2 ^ (Z.of_N w - 1) <= z < 2 ^ (Z.of_N w - 1))%Z.
(** The size that the text of a blob, tree or commit declares fits [w] bits. *)
Definition declared_size_fits (w : N) (d : bytes) : Prop :=
  forall typ size rest z, typ = bs "tree" \/ typ = bs "commit" \/ typ = bs "blob" ->
    d = typ ++ [SP] ++ size ++ [NUL] ++ rest -> numeral size z -> int_of_bits w z.

(** ** Numbers *)
Lemma pow_half w : (2 <= w)%N -> (2 ^ w = 2 * 2 ^ (w - 1))%N.
Proof. intros H. rewrite <- N.pow_succ_r'. f_equal. lia. Qed.
Lemma pow_Z w : (2 <= w)%N -> Z.of_N (2 ^ (w - 1)) = (2 ^ (Z.of_N w - 1))%Z.
Proof. intros H. rewrite N2Z.inj_pow. f_equal. lia. Qed.
Lemma pow_le w : (2 <= w <= 64)%N -> (2 ^ w <= 18446744073709551616)%N.
Proof. intros H. change 18446744073709551616%N with (2 ^ 64)%N. apply N.pow_le_mono_r; lia. Qed.

Lemma uint_w w : (2 <= w <= 64)%N -> forall s acc,
  match dec_value acc s with
  | Some v => (acc < 2 ^ w)%N -> parse_uint_w w acc s = if (v <? 2 ^ w)%N then Ok v else Err ERange
  | None => exists e, parse_uint_w w acc s = Err e
  end.
Proof.
  intros W. pose proof (pow_le w W) as L. induction s as [|c s IH]; intros acc; cbn [dec_value parse_uint_w].
  - intros H. destruct (N.ltb_spec acc (2 ^ w)); [reflexivity|lia].
  - destruct (digit_val c) as [d|]; [|eauto]. specialize (IH (acc * 10 + d)%N). destruct (dec_value (acc * 10 + d) s) as [v|] eqn:E.
    + intros H. pose proof (dec_value_ge _ _ _ E) as G. destruct (N.leb_spec 1844674407370955162 acc).
      * destruct (N.ltb_spec v (2 ^ w)); [lia|reflexivity].
      * destruct (N.leb_spec (2 ^ w) (acc * 10 + d)); [destruct (N.ltb_spec v (2 ^ w)); [lia|reflexivity]|]. apply IH. lia.
    + do 2 (match goal with |- context [if ?c then _ else _] => destruct c; [eauto|] end). exact IH.
Qed.
Definition in_w (w : N) (z : Z) : bool := ((- 2 ^ (Z.of_N w - 1) <=? z) && (z <? 2 ^ (Z.of_N w - 1)))%Z.
Lemma in_w_iff w z : in_w w z = true <-> int_of_bits w z.
Proof. unfold in_w, int_of_bits. rewrite Bool.andb_true_iff, Z.leb_le, Z.ltb_lt. reflexivity. Qed.
Lemma signed_w w (neg : bool) ds : (2 <= w <= 64)%N -> ds <> [] ->
  match dec_value 0 ds with
  | Some n => let z := (if neg then - Z.of_N n else Z.of_N n)%Z in atoi_signed_w w neg ds = if in_w w z then Ok z else Err ERange
  | None => exists e, atoi_signed_w w neg ds = Err e
  end.
Proof.
  intros W N. unfold atoi_signed_w. destruct ds as [|c s]; [congruence|]. pose proof (uint_w w W (c :: s) 0) as U.
  destruct (dec_value 0 (c :: s)) as [n|]; [|destruct U as [e ->]; cbn [bind]; eauto]. cbv zeta.
  assert (0 < 2 ^ w)%N as P by (apply N.neq_0_lt_0, N.pow_nonzero; lia). rewrite U by exact P. pose proof (pow_half w ltac:(lia)). pose proof (pow_Z w ltac:(lia)) as PZ.
  unfold in_w. rewrite <- PZ.
  destruct (N.ltb_spec n (2 ^ w)); cbn [bind]; destruct neg;
    repeat match goal with |- context [(?a <=? ?b)%Z] => destruct (Z.leb_spec a b) | |- context [(?a <? ?b)%Z] => destruct (Z.ltb_spec a b)
           | |- context [(?a <? ?b)%N] => destruct (N.ltb_spec a b) | |- context [(?a <=? ?b)%N] => destruct (N.leb_spec a b) end; cbn [andb]; try reflexivity; lia.
Qed.
Lemma numeral_cases s z : numeral s z -> (s <> [] /\ exists n, dec_value 0 s = Some n) \/
  (exists ds n, (s = bs "+" ++ ds \/ s = bs "-" ++ ds) /\ ds <> [] /\ dec_value 0 ds = Some n).
Proof. intros [ds n N V|ds n N V|ds n N V]; [left; eauto|right; exists ds, n; auto..]. Qed.
Lemma atoi_w_cases w s : (2 <= w <= 64)%N ->
  (exists z, numeral s z /\ atoi_w w s = if in_w w z then Ok z else Err (ENumber s ERange)) \/ ((forall z, ~ numeral s z) /\ exists e, atoi_w w s = Err e).
Proof.
  intros W. enough ((exists z, numeral s z /\ atoi_value_w w s = if in_w w z then Ok z else Err ERange) \/ ((forall z, ~ numeral s z) /\ exists e, atoi_value_w w s = Err e)) as K.
  { unfold atoi_w. destruct K as [(z & M & ->)|(M & e & ->)]; [left; exists z; split; [exact M|now destruct (in_w w z)]|right; split; [exact M|cbn; eauto]]. }
  assert (forall r, (exists c' r', r = c' :: r' /\ byte_eqb c' x2d = false /\ byte_eqb c' x2b = false /\ atoi_value_w w r = atoi_signed_w w false r) \/
     r = [] \/ (exists r', r = bs "-" ++ r' /\ atoi_value_w w r = atoi_signed_w w true r') \/ (exists r', r = bs "+" ++ r' /\ atoi_value_w w r = atoi_signed_w w false r')) as K.
  { intros [|c r]; [auto|]. cbn [atoi_value_w]. destruct (byte_eqb_spec c x2d) as [->|N1]; [right; right; left; exists r; auto|].
    destruct (byte_eqb_spec c x2b) as [->|N2]; [right; right; right; exists r; auto|]. left. exists c, r. repeat split; now apply byte_eqb_neq. }
  destruct (K s) as [(c & r & -> & N1 & N2 & E)|[->|[(r & -> & E)|(r & -> & E)]]].
  - pose proof (signed_w w false (c :: r) W ltac:(discriminate)) as Q. rewrite E. destruct (dec_value 0 (c :: r)) as [n|] eqn:D.
    + left. exists (Z.of_N n). split; [now constructor|exact Q].
    + right. split; [|exact Q]. intros z M. apply numeral_cases in M as [[_ [m V]]|(ds & m & [Es|Es] & _)]; [congruence|injection Es as -> _; discriminate..].
  - right. split; [|cbn; eauto]. intros z M. apply numeral_cases in M as [[M _]|(ds & m & [Es|Es] & _)]; [congruence|discriminate Es..].
  - destruct r as [|c r].
    { right. split; [|rewrite E; cbn; eauto]. intros z M. apply numeral_cases in M as [[_ [m V]]|(ds & m & [Es|Es] & N & _)]; [discriminate V|cbn in Es; try discriminate Es; injection Es as <-; congruence..]. }
    pose proof (signed_w w true (c :: r) W ltac:(discriminate)) as Q. rewrite E. destruct (dec_value 0 (c :: r)) as [n|] eqn:D.
    + left. exists (- Z.of_N n)%Z. split; [now constructor|exact Q].
    + right. split; [|exact Q]. intros z M. apply numeral_cases in M as [[_ [m V]]|(ds & m & [Es|Es] & N & V)]; [discriminate V|discriminate Es|]. injection Es as <-. congruence.
  - destruct r as [|c r].
    { right. split; [|rewrite E; cbn; eauto]. intros z M. apply numeral_cases in M as [[_ [m V]]|(ds & m & [Es|Es] & N & _)]; [discriminate V|cbn in Es; try discriminate Es; injection Es as <-; congruence..]. }
    pose proof (signed_w w false (c :: r) W ltac:(discriminate)) as Q. rewrite E. destruct (dec_value 0 (c :: r)) as [n|] eqn:D.
    + left. exists (Z.of_N n). split; [now constructor|exact Q].
    + right. split; [|exact Q]. intros z M. apply numeral_cases in M as [[_ [m V]]|(ds & m & [Es|Es] & N & V)]; [discriminate V| |discriminate Es]. injection Es as <-. congruence.
Qed.

(** Atoi accepts exactly the decimal integers of [w] bits. *)
Theorem numbers_of_w_bits : forall w s z, (2 <= w <= 64)%N ->
  (atoi_w w s = Ok z <-> numeral s z /\ int_of_bits w z).
Proof.
  intros w s z W. destruct (atoi_w_cases w s W) as [(z' & M & E)|(M & e & E)]; rewrite E.
  - destruct (in_w w z') eqn:I.
    + apply in_w_iff in I. split; [intros X; injection X as <-; auto|]. intros [M' _]. now rewrite (numeral_unique _ _ _ M M').
    + split; [discriminate|]. intros [M' I']. rewrite (numeral_unique _ _ _ M M') in I. apply in_w_iff in I'. congruence.
  - split; [discriminate|]. intros [M' _]. now destruct (M z).
Qed.
Print Assumptions numbers_of_w_bits.
Example numbers_of_32_bits : atoi_w 32 (bs "2147483647") = Ok 2147483647%Z /\ atoi_w 32 (bs "2147483648") = Err (ENumber (bs "2147483648") ERange) /\
  atoi_w 32 (bs "-2147483648") = Ok (-2147483648)%Z /\ atoi_w 32 (bs "-2147483649") = Err (ENumber (bs "-2147483649") ERange) /\ 
  atoi_w 32 (bs "99999999999x") = Err (ENumber (bs "99999999999x") ERange) /\ atoi (bs "99999999999x") = Err (ENumber (bs "99999999999x") ESyntax).
Proof. vm_compute. auto 10. Qed.

(** With 64 bits, these are the decoders of Decode.v. *)
Lemma parse_uint_64 s : forall acc, parse_uint_w 64 acc s = parse_uint acc s.
Proof. induction s as [|c s IH]; intros acc; [reflexivity|]. cbn [parse_uint_w parse_uint]. destruct (digit_val c); [|reflexivity]. now rewrite IH. Qed.
Lemma atoi_64 s : atoi_w 64 s = atoi s.
Proof.
  assert (forall neg ds, atoi_signed_w 64 neg ds = atoi_signed neg ds) as E.
  { intros neg [|c ds]; [reflexivity|]. unfold atoi_signed_w, atoi_signed. now rewrite parse_uint_64. }
  unfold atoi_w, atoi. assert (atoi_value_w 64 s = atoi_value s) as ->; [|reflexivity]. destruct s; [reflexivity|]. cbn [atoi_value_w atoi_value]. now rewrite !E.
Qed.
Theorem sixty_four_bits : forall S V (ops : rdops S V) s, parse_object_w 64 ops s = parse_object ops s.
Proof.
  intros S V ops s. unfold parse_object_w, parse_object, decode_tree_w, decode_tree, decode_commit_w, decode_commit, decode_blob_w, decode_blob, read_number_w, read_number.
  destruct (read_type ops s) as [[typ s1]| | |]; cbn [bind]; [|reflexivity..].
  destruct (beqb typ (bs "tree")), (beqb typ (bs "commit")), (beqb typ (bs "blob")); try reflexivity;
    (destruct (rd_string ops NUL s1) as [[[l e] s2]| | |]; cbn [bind]; [|reflexivity..]; destruct e; [reflexivity|]; destruct (go_drop_last l); cbn [bind]; [|reflexivity..]; now rewrite atoi_64).
Qed.
Print Assumptions sixty_four_bits.

(** ** What changes *)
Section Any.
Context {S V : Type} (ops : rdops S V) (w : N) (W : (2 <= w <= 64)%N).
(** The word that stands for the size *)
Definition number_word (s : S) : bytes :=
  match rd_string ops NUL s with Ok (l, _, _) => match go_drop_last l with Ok l => l | _ => [] end | _ => [] end.
Definition size_word (s : S) : bytes := match read_type ops s with Ok (_, s1) => number_word s1 | _ => [] end.
Lemma read_number_w_cases s :
  match read_number ops s with
  | Ok (z, s1) => read_number_w w ops s = if in_w w z then Ok (z, s1) else Err (ENumber (number_word s) ERange)
  | Err _ => exists e, read_number_w w ops s = Err e
  | Panic => read_number_w w ops s = Panic
  | OutOfFuel => read_number_w w ops s = OutOfFuel
  end.
Proof.
  unfold read_number, read_number_w, number_word. destruct (rd_string ops NUL s) as [[[l e] s2]| | |]; cbn [bind]; eauto. destruct e; eauto.
  destruct (go_drop_last l) as [x| | |]; cbn [bind]; eauto. pose proof (atoi_safe x) as SF. destruct (atoi x) as [z|e| |] eqn:A; try contradiction; cbn [bind].
  - apply atoi_iff in A as [A _]. destruct (atoi_w_cases w x W) as [(z' & M & ->)|(M & _)]; [|now destruct (M z)].
    rewrite (numeral_unique _ _ _ A M). destruct (in_w w z'); reflexivity.
  - destruct (atoi_w w x) as [z|e'| |] eqn:A'; cbn [bind]; eauto.
    + exfalso. apply numbers_of_w_bits in A' as [A1 A2]; [|exact W]. assert (atoi x = Ok z); [|congruence]. apply atoi_iff. split; [exact A1|].
      unfold int_of_bits in A2. unfold int_range. assert (2 ^ (Z.of_N w - 1) <= 2 ^ 63)%Z by (apply Z.pow_le_mono_r; lia). lia.
    + exfalso. destruct (atoi_w_cases w x W) as [(z' & _ & E)|(_ & e' & E)]; rewrite E in A'; try discriminate. destruct (in_w w z'); discriminate.
    + exfalso. destruct (atoi_w_cases w x W) as [(z' & _ & E)|(_ & e' & E)]; rewrite E in A'; try discriminate. destruct (in_w w z'); discriminate.
Qed.

(** The size declared for a tree, commit or blob, if it is a number. *)
Definition declared (s : S) : option Z :=
  match read_type ops s with
  | Ok (typ, s1) =>
      if existsb (beqb typ) [bs "tree"; bs "commit"; bs "blob"] then
        match read_number ops s1 with Ok (z, _) => Some z | _ => None end
      else None
  | _ => None
  end.
Lemma parse_w_cases s :
  match declared s with
  | Some z => parse_object_w w ops s = if in_w w z then parse_object ops s else Err (ENumber (size_word s) ERange)
  | None => parse_object_w w ops s = parse_object ops s \/ (exists e, parse_object ops s = Err e) /\ exists e, parse_object_w w ops s = Err e
  end.
Proof.
  unfold declared, size_word, parse_object_w, parse_object. destruct (read_type ops s) as [[typ s1]| | |]; cbn [bind existsb]; auto.
  unfold decode_tree_w, decode_tree, decode_commit_w, decode_commit, decode_blob_w, decode_blob. pose proof (read_number_w_cases s1) as R.
  destruct (beqb typ (bs "tree")), (beqb typ (bs "commit")), (beqb typ (bs "blob")); cbn [orb]; auto;
    (destruct (read_number ops s1) as [[z s2]|e| |]; [rewrite R; destruct (in_w w z); reflexivity|destruct R as [e' ->]; right; split; eexists; reflexivity|rewrite R; auto|rewrite R; auto]).
Qed.
End Any.

Lemma declared_transfer B pa pc b s : 2 <= B -> delivers B true b s -> declared (bufio_ops pa pc) b = declared (stream_ops B) s.
Proof.
  intros HB D. pose proof (sim_bufio B HB true pa pc) as C. unfold declared.
  pose proof (sim_read_type _ _ _ C b s D) as T.
  destruct (read_type (bufio_ops pa pc) b) as [[t b1]| | |], (read_type (stream_ops B) s) as [[t' s1]| | |]; cbn in T; try contradiction; try reflexivity.
  destruct T as [T R1]. cbn in T, R1. subst t'. destruct (existsb (beqb t) _); [|reflexivity].
  pose proof (sim_read_number _ _ _ C b1 s1 R1) as M.
  destruct (read_number (bufio_ops pa pc) b1) as [[z b2]| | |], (read_number (stream_ops B) s1) as [[z' s2]| | |]; cbn in M; try contradiction; try reflexivity.
  destruct M as [M _]. cbn in M. now subst.
Qed.
Lemma size_word_transfer B pa pc b s : 2 <= B -> delivers B true b s -> size_word (bufio_ops pa pc) b = size_word (stream_ops B) s.
Proof.
  intros HB D. pose proof (sim_bufio B HB true pa pc) as C. unfold size_word.
  pose proof (sim_read_type _ _ _ C b s D) as T.
  destruct (read_type (bufio_ops pa pc) b) as [[t b1]| | |], (read_type (stream_ops B) s) as [[t' s1]| | |]; cbn in T; try contradiction; try reflexivity.
  destruct T as [_ R1]. cbn in R1. unfold number_word. pose proof (sim_string _ _ _ C NUL b1 s1 R1) as M.
  destruct (rd_string (bufio_ops pa pc) NUL b1) as [[[l e] b2]| | |], (rd_string (stream_ops B) NUL s1) as [[[l' e'] s2]| | |]; cbn in M; try contradiction; try reflexivity.
  destruct M as [M _]. cbn in M. now subst.
Qed.
Lemma declared_text B d e z : declared (stream_ops B) (mk d e) = Some z <->
  exists typ size rest, (typ = bs "tree" \/ typ = bs "commit" \/ typ = bs "blob") /\ d = typ ++ [SP] ++ size ++ [NUL] ++ rest /\ numeral size z /\ int_range z.
Proof.
  unfold declared. split.
  - destruct (read_type (stream_ops B) (mk d e)) as [[typ s1]| | |] eqn:T; try discriminate. destruct (existsb (beqb typ) _) eqn:X; [|discriminate].
    destruct (read_number (stream_ops B) s1) as [[z' s2]| | |] eqn:R; try discriminate. intros Q. injection Q as ->.
    unfold read_type in T. change (rd_string (stream_ops B)) with stream_string in T. apply bind_ok in T as ([[l x] s3] & Es & T). destruct x; [destruct (is_eof e0); discriminate|].
    apply stream_string_inv in Es as (p & r & -> & _ & -> & ->). rewrite go_drop_last_snoc in T. cbn [bind] in T. injection T as -> <-.
    unfold read_number in R. change (rd_string (stream_ops B)) with stream_string in R. apply bind_ok in R as ([[l x] s3] & Es & R). destruct x; [discriminate|].
    apply stream_string_inv in Es as (q & r' & -> & _ & -> & ->). rewrite go_drop_last_snoc in R. cbn [bind] in R. apply bind_ok in R as (z' & A & R). injection R as -> _.
    exists typ, q, r'. split; [|split; [reflexivity|now apply atoi_iff]]. cbn [existsb] in X.
    destruct (beqb_spec typ (bs "tree")); [auto|]. destruct (beqb_spec typ (bs "commit")); [auto|]. destruct (beqb_spec typ (bs "blob")); [auto|discriminate].
  - intros (typ & size & rest & T & -> & M & I). rewrite read_type_app by (destruct T as [->|[->| ->]]; cbn; intuition discriminate).
    assert (existsb (beqb typ) [bs "tree"; bs "commit"; bs "blob"] = true) as -> by (destruct T as [->|[->| ->]]; reflexivity).
    unfold read_number. change (rd_string (stream_ops B)) with stream_string. change (size ++ [NUL] ++ rest) with (size ++ NUL :: rest).
    rewrite stream_string_app by (eapply numeral_no_nul; eassumption). cbn [bind]. rewrite go_drop_last_snoc. cbn [bind].
    assert (atoi size = Ok z) as -> by now apply atoi_iff. reflexivity.
Qed.
Lemma split_at a : forall x b y (c : byte), ~ In c a -> ~ In c b -> a ++ c :: x = b ++ c :: y -> a = b /\ x = y.
Proof.
  induction a as [|u a IH]; intros x [|v b] y c Na Nb E; cbn in E.
  - injection E as ->. auto.
  - exfalso. injection E as -> _. apply Nb. now left.
  - exfalso. injection E as -> _. apply Na. now left.
  - injection E as -> E. destruct (IH x b y c) as [-> ->]; auto; [intros I; apply Na; now right|intros I; apply Nb; now right].
Qed.
Lemma split_header t s r t' s' r' : ~ In SP t -> ~ In SP t' -> ~ In NUL s -> ~ In NUL s' ->
  t ++ [SP] ++ s ++ [NUL] ++ r = t' ++ [SP] ++ s' ++ [NUL] ++ r' -> t' = t /\ s' = s /\ r' = r.
Proof.
  intros A A' N N' E. cbn [app] in E. apply split_at in E as [-> E]; auto. apply split_at in E as [-> ->]; auto.
Qed.
Lemma small_types t : t = bs "tree" \/ t = bs "commit" \/ t = bs "blob" -> ~ In SP t.
Proof. intros [->|[->| ->]]; cbn; intuition discriminate. Qed.
(** A smaller int accepts nothing new, and decodes what it accepts in the same way. *)
Theorem smaller_ints_accept_less : forall S V (ops : rdops S V) w s n, (2 <= w <= 64)%N ->
  parse_object_w w ops s = Ok n -> parse_object ops s = Ok n.
Proof.
  intros S V ops w s n W H. pose proof (parse_w_cases ops w W s) as C. destruct (declared ops s) as [z|].
  - rewrite C in H. destruct (in_w w z); [exact H|discriminate].
  - destruct C as [C|[_ [e C]]]; congruence.
Qed.
Print Assumptions smaller_ints_accept_less.
Example smaller_ints_accept_less_applies : exists n, parse_object_w 32 (stream_ops 64) (mk (git_object (bs "commit") (commit_text sample_commit)) EEOF) = Ok n.
Proof. eexists. vm_compute. reflexivity. Qed.

(** It refuses exactly the objects whose declared size does not fit. *)
Theorem accepted_with_w_bits : forall w B pa pc b d n, (2 <= w <= 64)%N -> 64 <= B ->
  delivers B true b (mk d EEOF) ->
  (parse_object_w w (bufio_ops pa pc) b = Ok n <-> object_means B d n /\ declared_size_fits w d).
Proof.
  intros w B pa pc b d n W HB D. pose proof (parse_w_cases (bufio_ops pa pc) w W b) as C. rewrite (declared_transfer B pa pc b _ ltac:(lia) D) in C.
  rewrite <- (accepted_objects B pa pc b d n HB D). split.
  - intros H. split; [eapply smaller_ints_accept_less; eassumption|]. intros typ size rest z T Ed M.
    destruct (declared (stream_ops B) (mk d EEOF)) as [z'|] eqn:Q.
    + assert (in_w w z' = true) as I by (rewrite C in H; destruct (in_w w z'); [reflexivity|discriminate]).
      apply declared_text in Q as (typ' & size' & rest' & T' & Ed' & M' & _). assert (typ' = typ /\ size' = size) as [-> ->].
      { rewrite Ed in Ed'. apply split_header in Ed' as (-> & -> & _); eauto using small_types, numeral_no_nul. }
      rewrite (numeral_unique _ _ _ M M'). now apply in_w_iff.
    + exfalso. assert (parse_object (bufio_ops pa pc) b = Ok n) as P by (destruct C as [C|[_ [e C]]]; congruence).
      apply (accepted_objects B pa pc b d n HB D) in P. 
      assert (int_range z) as IR.
      { apply (accepted_objects B pa pc b d n HB D) in P. rewrite (parse_transfer B ltac:(lia) pa pc _ _ D) in P. subst d.
        unfold parse_object in P. rewrite read_type_app in P by (destruct T as [->|[->| ->]]; cbn; intuition discriminate). cbn [bind] in P.
        assert (exists y, read_number (stream_ops B) (mk (size ++ [NUL] ++ rest) EEOF) = Ok y) as [y Y].
        { destruct T as [->|[->| ->]].
          - change (beqb (bs "tree") (bs "tree")) with true in P. cbn iota in P. unfold decode_tree in P. apply bind_ok in P as (y & Y & _). eauto.
          - change (beqb (bs "commit") (bs "tree")) with false in P. change (beqb (bs "commit") (bs "commit")) with true in P. cbn iota in P. unfold decode_commit in P. apply bind_ok in P as (y & Y & _). eauto.
          - change (beqb (bs "blob") (bs "tree")) with false in P. change (beqb (bs "blob") (bs "commit")) with false in P. change (beqb (bs "blob") (bs "blob")) with true in P. cbn iota in P.
            unfold map_res in P. apply bind_ok in P as (q & P & _). unfold decode_blob in P. apply bind_ok in P as (y & Y & _). eauto. }
        unfold read_number in Y. change (rd_string (stream_ops B)) with stream_string in Y. change (size ++ [NUL] ++ rest) with (size ++ NUL :: rest) in Y.
        rewrite stream_string_app in Y by (eapply numeral_no_nul; eassumption). cbn [bind] in Y. rewrite go_drop_last_snoc in Y. cbn [bind] in Y.
        apply bind_ok in Y as (z' & A & _). apply atoi_iff in A as [A1 A2]. now rewrite (numeral_unique _ _ _ M A1). }
      assert (declared (stream_ops B) (mk d EEOF) = Some z); [|congruence]. apply declared_text. exists typ, size, rest. auto.
  - intros [P F]. destruct (declared (stream_ops B) (mk d EEOF)) as [z|] eqn:Q.
    + apply declared_text in Q as (typ & size & rest & T & Ed & M & _). rewrite C.
      assert (in_w w z = true) as -> by (apply in_w_iff; eapply F; eassumption). exact P.
    + destruct C as [C|[[e C] _]]; congruence.
Qed.
Print Assumptions accepted_with_w_bits.
Definition huge_tree : bytes := bs "tree 3000000000" ++ [NUL].
Definition small_tree : bytes := bs "tree -2147483648" ++ [NUL].
Lemma whole_text d : d <> [] -> delivers 64 true (new_reader 64 (chunks [d] EEOF)) (mk d EEOF).
Proof. intros H. apply one_chunk_delivers; [exact H|discriminate]. Qed.
(** Trees may declare any size (tree.go:15 only reads it): this one is read with 64 bits and refused with 32. *)
Example accepted_with_w_bits_applies : delivers 64 true (new_reader 64 (chunks [huge_tree] EEOF)) (mk huge_tree EEOF) /\
  (exists n, object_means 64 huge_tree n) /\ ~ declared_size_fits 32 huge_tree /\ declared_size_fits 33 huge_tree /\
  (exists n, parse_object_w 32 (bufio_ops (fun _ _ => 0) (fun _ _ => 0)) (new_reader 64 (chunks [small_tree] EEOF)) = Ok n).
Proof.
  pose proof (whole_text huge_tree ltac:(discriminate)) as D.
  assert (exists n, parse_object_w 33 (bufio_ops (fun _ _ => 0) (fun _ _ => 0)) (new_reader 64 (chunks [huge_tree] EEOF)) = Ok n) as [n P] by (eexists; vm_compute; reflexivity).
  apply (accepted_with_w_bits 33 64 (fun _ _ => 0) (fun _ _ => 0) _ _ _ ltac:(lia) ltac:(lia) D) in P as [P Q].
  split; [exact D|]. split; [eauto|]. split; [|split; [exact Q|eexists; vm_compute; reflexivity]].
  intros F. assert (parse_object_w 32 (bufio_ops (fun _ _ => 0) (fun _ _ => 0)) (new_reader 64 (chunks [huge_tree] EEOF)) = Ok n) as X by (apply (accepted_with_w_bits 32 64 (fun _ _ => 0) (fun _ _ => 0) _ _ _ ltac:(lia) ltac:(lia) D); auto).
  vm_compute in X. discriminate X.
Qed.

(** The error is strconv's range error, and shows the size. *)
Theorem sizes_out_of_range_are_refused : forall w B pa pc b typ size rest z e, (2 <= w <= 64)%N -> 2 <= B ->
  typ = bs "tree" \/ typ = bs "commit" \/ typ = bs "blob" -> numeral size z -> int_range z -> ~ int_of_bits w z ->
  delivers B true b (mk (typ ++ [SP] ++ size ++ [NUL] ++ rest) e) ->
  parse_object_w w (bufio_ops pa pc) b = Err (ENumber size ERange).
Proof.
  intros w B pa pc b typ size rest z e W HB T M I O D. pose proof (parse_w_cases (bufio_ops pa pc) w W b) as C. rewrite (declared_transfer B pa pc b _ HB D) in C.
  assert (declared (stream_ops B) (mk (typ ++ [SP] ++ size ++ [NUL] ++ rest) e) = Some z) as Q by (apply declared_text; exists typ, size, rest; auto).
  rewrite Q in C. rewrite C, (size_word_transfer B pa pc b _ HB D). destruct (in_w w z) eqn:X; [apply in_w_iff in X; contradiction|]. do 2 f_equal.
  unfold size_word. rewrite read_type_app by (now apply small_types). unfold number_word. change (rd_string (stream_ops B)) with stream_string.
  change (size ++ [NUL] ++ rest) with (size ++ NUL :: rest). rewrite stream_string_app by (eapply numeral_no_nul; eassumption). now rewrite go_drop_last_snoc.
Qed.
Print Assumptions sizes_out_of_range_are_refused.
Example sizes_out_of_range_are_refused_applies : numeral (bs "2147483648") 2147483648 /\ int_range 2147483648 /\ ~ int_of_bits 32 2147483648.
Proof. split; [now apply (num_plain _ 2147483648)|]. unfold int_range, int_of_bits. cbn. lia. Qed.

(** No crash and no endless loop either. *)
Theorem small_ints_never_panic : forall w pa pc b, (2 <= w <= 64)%N -> wf_reader b ->
  (exists n, parse_object_w w (bufio_ops pa pc) b = Ok n) \/ (exists e, parse_object_w w (bufio_ops pa pc) b = Err e).
Proof.
  intros w pa pc b W H. pose proof (parse_w_cases (bufio_ops pa pc) w W b) as C. pose proof (decoding_never_panics pa pc b H) as P.
  destruct (declared (bufio_ops pa pc) b) as [z|].
  - rewrite C. destruct (in_w w z); [exact P|right; eauto].
  - destruct C as [->|[_ C]]; auto.
Qed.
Print Assumptions small_ints_never_panic.
Example small_ints_never_panic_applies : wf_reader (new_reader 64 (chunks [huge_tree] EEOF)).
Proof. apply wf_new; [lia|]. split; [discriminate|]. intros c [H|[]]; discriminate H. Qed.

(** What Encode writes is read back if it is short enough. *)
Theorem small_objects_survive_small_ints : forall w B pa pc b n typ body, (2 <= w <= 64)%N -> 64 <= B ->
  typ = bs "tag" \/ typ = bs "tree" \/ typ = bs "commit" \/ typ = bs "blob" ->
  stands_for B n (git_object typ body) -> (Z.of_nat (length body) < 2 ^ (Z.of_N w - 1))%Z ->
  delivers B true b (mk (git_object typ body) EEOF) ->
  encode_bytes n = Ok (git_object typ body) /\ parse_object_w w (bufio_ops pa pc) b = Ok n.
Proof.
  intros w B pa pc b n typ body W HB TY SF L D. destruct (nodes_survive B pa pc b n _ HB SF D) as [E P]. split; [exact E|].
  apply (accepted_with_w_bits w B pa pc b _ n W HB D). split; [now apply (accepted_objects B pa pc b _ n HB D)|].
  intros typ' size rest z T Ed M. assert (z = Z.of_nat (length body)) as ->; [|unfold int_of_bits; lia].
  assert (numeral (dec (N.of_nat (length body))) (Z.of_nat (length body))) as M0.
  { rewrite <- nat_N_Z. constructor; [apply dec_nonempty|apply dec_value_dec]. }
  assert (~ In SP typ) as NT by (destruct TY as [->|TY]; [cbn; intuition discriminate|now apply small_types]).
  unfold git_object in Ed. apply split_header in Ed as (_ & -> & _); eauto using small_types, numeral_no_nul. eapply numeral_unique; eassumption.
Qed.
Print Assumptions small_objects_survive_small_ints.
Example small_objects_survive_small_ints_applies : stands_for 80 (NCommit (commit_value sample_commit)) (git_object (bs "commit") (commit_text sample_commit)) /\
  (Z.of_nat (length (commit_text sample_commit)) < 2 ^ (Z.of_N 32 - 1))%Z.
Proof. split; [apply nodes_survive_applies|]. apply Z.ltb_lt. vm_compute. reflexivity. Qed.
