(** Decoding agrees with ErrorSpec.v. *)
From Verif Require Import Base GoStr Cid Types Nodes Reader Person Assemble Decode Encode Spec HeaderSpec ErrorSpec
  StreamFacts PersonFacts NumFacts DecodeFacts RoundTrip CommitFacts GrammarFacts.

Lemma bind_err {A C} (r : res A) (f : A -> res C) e : bind r f = Err e <-> r = Err e \/ exists x, r = Ok x /\ f x = Err e.
Proof.
  destruct r; cbn [bind]; (split; [intros H|intros [H|(x & H & H2)]]); try discriminate; try (injection H as <-); auto; try congruence.
  right. eauto.
Qed.

(** ** Hashes *)
Lemma hex_char_val c : hex_char c <-> hex_val c <> None.
Proof.
  unfold hex_char. destruct c; (split; [|]); vm_compute; intros H; try congruence; try (intuition congruence); auto 20.
Qed.
Lemma hex_decode_err h e : hex_decode h = Err e <->
  (exists pre c post, h = pre ++ [c] ++ post /\ (forall x, In x pre -> hex_char x) /\ ~ hex_char c /\ e = EHexByte c) \/
  ((forall x, In x h -> hex_char x) /\ (forall n, length h <> n + n) /\ e = EHexLength).
Proof.
  assert (forall n h, length h <= n -> (hex_decode h = Err e <->
    (exists pre c post, h = pre ++ [c] ++ post /\ (forall x, In x pre -> hex_char x) /\ ~ hex_char c /\ e = EHexByte c) \/
    ((forall x, In x h -> hex_char x) /\ (forall n, length h <> n + n) /\ e = EHexLength))) as H; [|now apply (H (length h))].
  clear h. induction n as [|n IH]; intros h L.
  { destruct h; [|cbn in L; lia]. cbn. split; [discriminate|]. intros [([|? ?] & ? & ? & X & _)|(_ & X & _)]; try discriminate X. now specialize (X 0). }
  destruct h as [|p [|q t]]; cbn [hex_decode].
  - split; [discriminate|]. intros [([|? ?] & ? & ? & X & _)|(_ & X & _)]; try discriminate X. now specialize (X 0).
  - destruct (hex_val p) as [a|] eqn:P.
    + assert (hex_char p) as HP by (apply hex_char_val; congruence). split.
      * intros E. injection E as <-. right. split; [intros x [<-|[]]; exact HP|]. split; [intros [|k]; cbn; lia|reflexivity].
      * intros [([|x [|y pre]] & c & post & X & Hp & Hc & ->)|(_ & _ & ->)]; [|discriminate X..|reflexivity].
        injection X as <- _. contradiction.
    + assert (~ hex_char p) as HP by (rewrite hex_char_val; congruence). split.
      * intros E. injection E as <-. left. exists [], p, []. split; [reflexivity|]. split; [intros ? []|auto].
      * intros [([|x pre] & c & post & X & Hp & Hc & ->)|(Hh & _)]; [now injection X as <- _| |].
        -- exfalso. injection X as <- _. apply HP, Hp. now left.
        -- exfalso. apply HP, Hh. now left.
  - destruct (hex_val p) as [a|] eqn:P.
    + assert (hex_char p) as HP by (apply hex_char_val; congruence). destruct (hex_val q) as [b|] eqn:Q.
      * assert (hex_char q) as HQ by (apply hex_char_val; congruence). rewrite bind_err.
        assert ((hex_decode t = Err e \/ exists x, hex_decode t = Ok x /\ Ok (byte_of_N (16 * a + b) :: x) = Err e) <-> hex_decode t = Err e) as ->.
        { split; [intros [H|(x & _ & H)]; [exact H|discriminate]|auto]. }
        rewrite IH by (cbn in L; lia). split.
        -- intros [(pre & c & post & -> & Hp & Hc & ->)|(Hh & Ho & ->)].
           ++ left. exists (p :: q :: pre), c, post. split; [reflexivity|]. split; [|auto]. intros x [<-|[<-|I]]; auto.
           ++ right. split; [intros x [<-|[<-|I]]; auto|]. split; [|reflexivity]. intros [|k] Lk; cbn in Lk; [lia|]. apply (Ho k). lia.
        -- intros [([|x [|y pre]] & c & post & X & Hp & Hc & ->)|(Hh & Ho & ->)].
           ++ injection X as <- _. contradiction.
           ++ injection X as <- <- _. contradiction.
           ++ left. injection X as <- <- ->. exists pre, c, post. split; [reflexivity|]. split; [|auto]. intros x I. apply Hp. now right; right.
           ++ right. split; [intros x I; apply Hh; now right; right|]. split; [|reflexivity]. intros k Lk. apply (Ho (S k)). cbn. lia.
      * assert (~ hex_char q) as HQ by (rewrite hex_char_val; congruence). split.
        -- intros E. injection E as <-. left. exists [p], q, t. split; [reflexivity|]. split; [|auto]. intros x [<-|[]]; auto.
        -- intros [([|x [|y pre]] & c & post & X & Hp & Hc & ->)|(Hh & _)].
           ++ injection X as <- _. contradiction.
           ++ now injection X as _ <- _.
           ++ exfalso. injection X as <- <- _. apply HQ, Hp. now right; left.
           ++ exfalso. apply HQ, Hh. now right; left.
    + assert (~ hex_char p) as HP by (rewrite hex_char_val; congruence). split.
      * intros E. injection E as <-. left. exists [], p, (q :: t). split; [reflexivity|]. split; [intros ? []|auto].
      * intros [([|x pre] & c & post & X & Hp & Hc & ->)|(Hh & _)]; [now injection X as <- _| |].
        -- exfalso. injection X as <- _. apply HP, Hp. now left.
        -- exfalso. apply HP, Hh. now left.
Qed.
Lemma hash_err h e : (let* sha := hex_decode h in sha_to_cid sha) = Err e <-> bad_hash h e.
Proof.
  rewrite bind_err, hex_decode_err. split.
  - intros [[(pre & c & post & -> & Hp & Hc & ->)|(Hh & Ho & ->)]|(sha & D & S)]; [now constructor|now constructor|].
    unfold sha_to_cid in S. destruct (Nat.eqb_spec (length sha) gitSHALen) as [_|N]; [discriminate|]. injection S as <-.
    apply hex_decode_text in D. constructor; auto.
  - intros H. destruct H as [pre c post Hp Hc|h Hh Ho|h sha Ht Hs].
    + left. left. exists pre, c, post. auto.
    + left. right. auto.
    + right. exists sha. split; [now apply hex_decode_text|]. unfold sha_to_cid. destruct (Nat.eqb_spec (length sha) gitSHALen) as [E|_]; [now destruct Hs|reflexivity].
Qed.

(** ** Persons *)
Lemma person_err line e : parse_person line = Err e <-> bad_person line e.
Proof.
  assert (parse_person line = Err (EPersonFormat line) /\ length (words line) < 3 \/
          3 <= length (words line) /\ (parse_person line = Err (EPersonInvalid line) \/ exists p, parse_person line = Ok p)) as K.
  { rewrite parse_person_scan. change (words line) with (split_on SP line). destruct (split_on SP line) as [|? [|? [|? ?]]]; cbn [length]; try (left; split; [reflexivity|lia]).
    right. split; [lia|]. destruct (nscan _ _) as [[? ?]|]; [|auto]. destruct (escan _ _) as [[? ?]|]; eauto. }
  split.
  - intros E. destruct K as [[K L]|[L [K|[p K]]]]; rewrite K in E; try discriminate; injection E as <-; constructor; auto.
    intros p P. apply person_line_iff in P. congruence.
  - intros H. destruct H as [L|L N]; destruct K as [[K L']|[L' [K|[p K]]]]; try lia; try exact K. exfalso. now apply (N p), person_line_iff.
Qed.

(** ** Sizes *)
Lemma digit_val_digit c : digit c <-> digit_val c <> None.
Proof. unfold digit. destruct c; (split; [|]); vm_compute; intros H; try congruence; try (intuition congruence); auto 20. Qed.
Lemma uint_err e s : forall acc, (acc < 2 ^ 64)%N ->
  (parse_uint acc s = Err e <->
   (exists ds v c post, s = ds ++ [c] ++ post /\ dec_value acc ds = Some v /\ (v < 2 ^ 64)%N /\ ~ digit c /\ e = ESyntax) \/
   (exists ds v post, s = ds ++ post /\ dec_value acc ds = Some v /\ (2 ^ 64 <= v)%N /\ e = ERange)).
Proof.
  change (2 ^ 64)%N with 18446744073709551616%N.
  induction s as [|c s IH]; intros acc A; cbn [parse_uint].
  - split; [discriminate|]. intros [([|? ?] & v & c & post & X & _)|([|? ?] & v & post & X & V & G & _)]; try discriminate X. injection V as <-. lia.
  - destruct (digit_val c) as [d|] eqn:D.
    + assert (digit c) as DC by (apply digit_val_digit; congruence).
      assert (((acc * 10 + d < 18446744073709551616)%N /\ (if (1844674407370955162 <=? acc)%N then Err ERange else if (18446744073709551616 <=? acc * 10 + d)%N then Err ERange else parse_uint (acc * 10 + d) s) = parse_uint (acc * 10 + d) s) \/
              ((18446744073709551616 <= acc * 10 + d)%N /\ (if (1844674407370955162 <=? acc)%N then Err ERange else if (18446744073709551616 <=? acc * 10 + d)%N then Err ERange else parse_uint (acc * 10 + d) s) = Err ERange)) as [[K ->]|[K ->]].
      { destruct (N.leb_spec 1844674407370955162 acc); [right; split; [lia|reflexivity]|].
        destruct (N.leb_spec 18446744073709551616 (acc * 10 + d)); auto. }
      * rewrite IH by exact K. split.
        -- intros [(ds & v & x & post & -> & V & L & Nx & ->)|(ds & v & post & -> & V & L & ->)].
           ++ left. exists (c :: ds), v, x, post. cbn [dec_value app]. rewrite D. auto.
           ++ right. exists (c :: ds), v, post. cbn [dec_value app]. rewrite D. auto.
        -- intros [([|y ds] & v & x & post & X & V & L & Nx & ->)|([|y ds] & v & post & X & V & L & ->)].
           ++ injection X as -> _. contradiction.
           ++ injection X as <- ->. cbn [dec_value] in V. rewrite D in V. left. exists ds, v, x, post. auto.
           ++ injection V as <-. lia.
           ++ injection X as <- ->. cbn [dec_value] in V. rewrite D in V. right. exists ds, v, post. auto.
      * split.
        -- intros E. injection E as <-. right. exists [c], (acc * 10 + d)%N, s. cbn [dec_value app]. rewrite D. auto.
        -- intros [([|y ds] & v & x & post & X & V & L & Nx & ->)|(_ & _ & _ & _ & _ & _ & ->)]; [| |reflexivity].
           ++ injection X as -> _. contradiction.
           ++ exfalso. injection X as <- ->. cbn [dec_value] in V. rewrite D in V. apply dec_value_ge in V. lia.
    + assert (~ digit c) as DC by (rewrite digit_val_digit; congruence). split.
      * intros E. injection E as <-. left. exists [], acc, c, s. auto.
      * intros [(_ & _ & _ & _ & _ & _ & _ & _ & ->)|([|y ds] & v & post & X & V & L & ->)]; [reflexivity| |].
        -- injection V as <-. lia.
        -- exfalso. injection X as <- ->. cbn [dec_value] in V. rewrite D in V. discriminate V.
Qed.
Lemma signed_err neg ds e : atoi_signed neg ds = Err e <->
  (ds = [] /\ e = ESyntax) \/
  (exists a v c post, ds = a ++ [c] ++ post /\ dec_value 0 a = Some v /\ (v < 2 ^ 64)%N /\ ~ digit c /\ e = ESyntax) \/
  (exists a v post, ds = a ++ post /\ dec_value 0 a = Some v /\ (2 ^ 64 <= v)%N /\ e = ERange) \/
  (ds <> [] /\ exists n, dec_value 0 ds = Some n /\ ~ int_range (if neg then - Z.of_N n else Z.of_N n) /\ e = ERange).
Proof.
  destruct ds as [|c ds].
  { cbn. split; [intros E; injection E as <-; auto|].
    intros [[_ ->]|[([|? ?] & ? & ? & ? & X & _)|[([|? ?] & v & ? & X & V & L & _)|[X _]]]]; try discriminate; try congruence.
    injection V as <-. change (2 ^ 64)%N with 18446744073709551616%N in L. lia. }
  unfold atoi_signed. rewrite bind_err, (uint_err e (c :: ds) 0) by reflexivity. unfold int_range. change (2 ^ 63)%Z with 9223372036854775808%Z.
  split.
  - intros [[H|H]|(n & P & E)]; [auto|auto|]. right; right; right. split; [discriminate|]. exists n.
    apply parse_uint_ok in P. split; [exact P|]. destruct neg.
    + destruct (N.ltb_spec 9223372036854775808 n); [|discriminate]. split; [lia|congruence].
    + destruct (N.leb_spec 9223372036854775808 n); [|discriminate]. split; [lia|congruence].
  - intros [[X _]|[H|[H|(_ & n & V & R & ->)]]]; [discriminate|auto|auto|].
    destruct (N.ltb_spec n (2 ^ 64)) as [L|L].
    + right. exists n. change (2 ^ 64)%N with 18446744073709551616%N in L. split; [apply parse_uint_value; [exact V|lia]|]. destruct neg.
      * destruct (N.ltb_spec 9223372036854775808 n); [reflexivity|lia].
      * destruct (N.leb_spec 9223372036854775808 n); [reflexivity|lia].
    + left. right. exists (c :: ds), n, []. rewrite app_nil_r. auto.
Qed.
Lemma value_err s e : atoi_value s = Err e <-> bad_number s e.
Proof.
  split.
  - intros E. destruct s as [|c s]; [injection E as <-; apply bad_empty; now left|]. unfold atoi_value in E.
    destruct (byte_eqb_spec c x2d) as [->|N1]; [|destruct (byte_eqb_spec c x2b) as [->|N2]].
    + apply signed_err in E as [[-> ->]|[(a & v & c & post & -> & V & L & D & ->)|[(a & v & post & -> & V & L & ->)|(N & n & V & R & ->)]]].
      * apply bad_empty. right. now right.
      * apply (bad_digit (bs "-") a v c post); auto; [right; now right|discriminate].
      * apply (bad_huge (bs "-") a v post); auto. right. now right.
      * apply (bad_range _ (- Z.of_N n)); [now apply num_minus|exact R].
    + apply signed_err in E as [[-> ->]|[(a & v & c & post & -> & V & L & D & ->)|[(a & v & post & -> & V & L & ->)|(N & n & V & R & ->)]]].
      * apply bad_empty. right. now left.
      * apply (bad_digit (bs "+") a v c post); auto; [right; now left|discriminate].
      * apply (bad_huge (bs "+") a v post); auto. right. now left.
      * apply (bad_range _ (Z.of_N n)); [now apply num_plus|exact R].
    + apply signed_err in E as [[X _]|[(a & v & x & post & X & V & L & D & ->)|[(a & v & post & X & V & L & ->)|(N & n & V & R & ->)]]]; [discriminate| | |].
      * rewrite X. apply (bad_digit [] a v x post); auto; [now left|]. intros _ ->. injection X as -> _. auto.
      * rewrite X. apply (bad_huge [] a v post); auto. now left.
      * apply (bad_range _ (Z.of_N n)); [now apply num_plain|exact R].
  - intros H. destruct H as [s S|s ds v c post S V L D F|s ds v post S V L|s z M R].
    + destruct S as [->|[->| ->]]; reflexivity.
    + destruct S as [->|[->| ->]].
      * cbn [app]. destruct ds as [|x ds].
        -- destruct (F eq_refl eq_refl) as [F1 F2]. cbn [app]. unfold atoi_value. apply byte_eqb_neq in F1, F2. rewrite F1, F2.
           apply signed_err. right; left. exists [], v, c, post. auto.
        -- destruct (digit_not_sign _ _ V x ds eq_refl) as [E1 E2]. cbn [app]. unfold atoi_value. rewrite E1, E2.
           apply signed_err. right; left. exists (x :: ds), v, c, post. auto.
      * change (atoi_value (bs "+" ++ ds ++ [c] ++ post)) with (atoi_signed false (ds ++ [c] ++ post)). apply signed_err. right; left. exists ds, v, c, post. auto.
      * change (atoi_value (bs "-" ++ ds ++ [c] ++ post)) with (atoi_signed true (ds ++ [c] ++ post)). apply signed_err. right; left. exists ds, v, c, post. auto.
    + destruct S as [->|[->| ->]].
      * destruct ds as [|x ds]; [injection V as <-; change (2 ^ 64)%N with 18446744073709551616%N in L; lia|].
        destruct (digit_not_sign _ _ V x ds eq_refl) as [E1 E2]. cbn [app]. unfold atoi_value. rewrite E1, E2.
        apply signed_err. right; right; left. exists (x :: ds), v, post. auto.
      * change (atoi_value (bs "+" ++ ds ++ post)) with (atoi_signed false (ds ++ post)). apply signed_err. right; right; left. exists ds, v, post. auto.
      * change (atoi_value (bs "-" ++ ds ++ post)) with (atoi_signed true (ds ++ post)). apply signed_err. right; right; left. exists ds, v, post. auto.
    + destruct M as [ds n N V|ds n N V|ds n N V].
      * destruct ds as [|x ds]; [congruence|]. destruct (digit_not_sign _ _ V x ds eq_refl) as [E1 E2]. unfold atoi_value. rewrite E1, E2.
        apply signed_err. right; right; right. eauto.
      * change (atoi_value (bs "+" ++ ds)) with (atoi_signed false ds). apply signed_err. right; right; right. eauto.
      * change (atoi_value (bs "-" ++ ds)) with (atoi_signed true ds). apply signed_err. right; right; right. eauto.
Qed.
Lemma number_err s e : atoi s = Err e <-> exists r, e = ENumber s r /\ bad_number s r.
Proof. rewrite atoi_bad. split; intros (r & -> & H); exists r; (split; [reflexivity|]); now apply value_err. Qed.

Section B.
Context (B : nat) (HB : 64 <= B).
Notation ops := (stream_ops B).
Let HB2 : 2 <= B. Proof. lia. Qed.

(** ** Signatures *)
Lemma gpgsig_loop_err e : forall f d sig, length d < f ->
  (gpgsig_loop ops f sig (mk d EEOF) = Err e <-> e = EEOF /\ exists ss, reads B d ss [] /\ ~ In pgp_end ss).
Proof.
  induction f as [|f IH]; intros d sig L; [lia|]. cbn [gpgsig_loop]. change (rd_line ops) with (stream_line B).
  destruct (next_line B HB d EEOF) as [[-> R]|(l & r & T & Lr & R)]; rewrite R; cbn [bind].
  - split; [intros E; injection E as <-; split; [reflexivity|]; exists []; split; [constructor|auto]|]. now intros [-> _].
  - change (rd_deref ops (mk r EEOF) l) with l. change (bs " -----END PGP SIGNATURE-----") with pgp_end.
    destruct (beqb_spec l pgp_end) as [->|N].
    + split; [discriminate|]. intros [_ ([|l ss] & Q & NI)].
      * apply reads_none_iff in Q. subst d. now apply takes_nil in T.
      * apply (reads_cons B HB _ _ _ _ _ _ T) in Q as [-> _]. exfalso. apply NI. now left.
    + rewrite (IH r) by lia. split.
      * intros (-> & ss & Q & NI). split; [reflexivity|]. exists (l :: ss). split; [now apply (reads_cons B HB _ _ _ _ _ _ T)|]. intros [X|I]; auto.
      * intros (-> & [|l' ss] & Q & NI).
        -- apply reads_none_iff in Q. subst d. now apply takes_nil in T.
        -- apply (reads_cons B HB _ _ _ _ _ _ T) in Q as [-> Q]. split; [reflexivity|]. exists ss. split; [exact Q|]. intros I. apply NI. now right.
Qed.
Lemma decode_gpgsig_err d e :
  decode_gpgsig ops (mk d EEOF) = Err e <->
  (d = [] /\ e = EEOF) \/ (exists first r, takes B d first r /\ ~ signature_ok (first, []) /\ e = EGpgFirstLine) \/
  (exists first ss, reads B d (first :: ss) [] /\ signature_ok (first, ss) /\ e = EEOF).
Proof.
  unfold decode_gpgsig. change (rd_line ops) with (stream_line B).
  destruct (next_line B HB d EEOF) as [[-> R]|(l & r & T & Lr & R)]; rewrite R; cbn [bind].
  - split; [intros E; injection E as <-; auto|]. intros [[_ ->]|[(f & r & T & _)|(f & ss & Q & _)]]; [reflexivity|now apply takes_nil in T|now apply reads_nil_inv in Q].
  - change (rd_deref ops (mk r EEOF) l) with l. cbv zeta. change (rd_fuel ops (mk r EEOF)) with (S (length r)).
    assert (d <> []) as ND by (intros ->; now apply takes_nil in T).
    assert (signature_ok (l, []) -> (gpgsig_loop ops (S (length r)) (l ++ [NL]) (mk r EEOF) = Err e <->
      (d = [] /\ e = EEOF) \/ (exists first r, takes B d first r /\ ~ signature_ok (first, []) /\ e = EGpgFirstLine) \/
      (exists first ss, reads B d (first :: ss) [] /\ signature_ok (first, ss) /\ e = EEOF))) as K.
    { intros F. rewrite gpgsig_loop_err by lia. split.
      - intros (-> & ss & Q & NI). right; right. exists l, ss. split; [now apply (reads_cons B HB _ _ _ _ _ _ T)|]. split; [|reflexivity]. split; [apply F|exact NI].
      - intros [[X _]|[(f & r' & T' & NS & _)|(f & ss & Q & [S1 S2] & ->)]]; [contradiction| |].
        + exfalso. destruct (takes_det B HB _ _ _ _ _ T T') as [-> _]. contradiction.
        + apply (reads_cons B HB _ _ _ _ _ _ T) in Q as [-> Q]. eauto. }
    destruct (beqb_spec l (bs " ")) as [->|N]; cbn [negb].
    + apply K. split; [now left|auto].
    + destruct (has_prefix (bs " Version: ") l) eqn:V; [|destruct (has_prefix (bs " Comment: ") l) eqn:C]; cbn [orb].
      * apply K. split; [right; left; now apply prefix_begins|auto].
      * apply K. split; [right; right; now apply prefix_begins|auto].
      * assert (~ (l = bs " " \/ begins_with (bs " Version: ") l \/ begins_with (bs " Comment: ") l)) as NF.
        { intros [F|[F|F]]; [congruence|apply prefix_begins in F; congruence..]. }
        split.
        -- intros E. injection E as <-. right; left. exists l, r. split; [exact T|]. split; [|reflexivity]. now intros [F _].
        -- intros [[X _]|[(f & r' & T' & NS & ->)|(f & ss & Q & [S1 S2] & ->)]]; [contradiction|reflexivity|].
           apply (reads_cons B HB _ _ _ _ _ _ T) in Q as [-> _]. contradiction.
Qed.

(** ** Merge tags *)
Lemma mergetag_msg_err e : forall f d msg, length d < f ->
  (mergetag_msg_loop ops f msg (mk d EEOF) = Err e <-> e = EEOF /\ exists ls, reads B d ls [] /\ forall l, In l ls -> starts_with SP l).
Proof.
  induction f as [|f IH]; intros d msg L; [lia|]. cbn [mergetag_msg_loop]. change (rd_line ops) with (stream_line B).
  destruct (next_line B HB d EEOF) as [[-> R]|(l & r & T & Lr & R)]; rewrite R; cbn [bind].
  - split; [intros E; injection E as <-; split; [reflexivity|]; exists []; split; [constructor|intros ? []]|]. now intros [-> _].
  - change (rd_deref ops (mk r EEOF) l) with l. destruct (has_prefix (bs " ") l) eqn:P; cbn [negb].
    + apply starts_SP in P. rewrite (IH r) by lia. split.
      * intros (-> & ls & Q & H). split; [reflexivity|]. exists (l :: ls). split; [now apply (reads_cons B HB _ _ _ _ _ _ T)|]. intros x [<-|I]; auto.
      * intros (-> & [|l' ls] & Q & H).
        -- apply reads_none_iff in Q. subst d. now apply takes_nil in T.
        -- apply (reads_cons B HB _ _ _ _ _ _ T) in Q as [-> Q]. split; [reflexivity|]. exists ls. split; [exact Q|]. intros x I. apply H. now right.
    + assert (~ starts_with SP l) as NP by (rewrite <- starts_SP, P; discriminate). split; [discriminate|].
      intros (-> & [|l' ls] & Q & H).
      * apply reads_none_iff in Q. subst d. now apply takes_nil in T.
      * apply (reads_cons B HB _ _ _ _ _ _ T) in Q as [-> Q]. exfalso. apply NP, H. now left.
Qed.
Lemma mergetag_header_err out line e : mergetag_header out line = Err e <->
  exists x, line = bs " tagger " ++ x /\ bad_person (bs "tagger " ++ x) e.
Proof.
  unfold mergetag_header.
  destruct (has_prefix (bs " type ") line) eqn:H1.
  { destruct (go_from_prefix _ _ 6 H1 eq_refl) as (r & -> & ->). cbn [bind]. split; [discriminate|]. intros (x & X & _). discriminate X. }
  destruct (has_prefix (bs " tag ") line) eqn:H2.
  { destruct (go_from_prefix _ _ 5 H2 eq_refl) as (r & -> & ->). cbn [bind]. split; [discriminate|]. intros (x & X & _). discriminate X. }
  destruct (has_prefix (bs " tagger ") line) eqn:H3.
  { apply has_prefix_spec in H3 as [r ->]. change (go_from 1 (bs " tagger " ++ r)) with (Ok (bs "tagger " ++ r)). cbn [bind].
    rewrite bind_err, person_err. split.
    - intros [H|(x & _ & H)]; [eauto|discriminate].
    - intros (x & X & H). apply app_inv_head in X as ->. auto. }
  split; [discriminate|]. intros (x & -> & _). rewrite has_prefix_app in H3. discriminate.
Qed.
Lemma mergetag_loop_err e : forall f d out, length d < f ->
  (mergetag_loop ops f out (mk d EEOF) = Err e <->
   (exists ms x r, reads B d (map mline_text ms ++ [bs " tagger " ++ x]) r /\ (forall m, In m ms -> mline_ok m) /\ bad_person (bs "tagger " ++ x) e) \/
   (e = EEOF /\ exists ms msg, reads B d (map mline_text ms ++ [bs " "] ++ msg) [] /\ (forall m, In m ms -> mline_ok m) /\ (forall l, In l msg -> starts_with SP l))).
Proof.
  assert (forall x m e, mline_ok m -> mline_text m = bs " tagger " ++ x -> ~ bad_person (bs "tagger " ++ x) e) as NB.
  { intros x m e' Hm Em Hb. destruct m as [y|y|y p|y]; cbn [mline_text mline_ok] in *; try discriminate Em.
    - apply app_inv_head in Em as ->. apply person_line_iff in Hm. apply person_err in Hb. congruence.
    - destruct Hm as (_ & _ & _ & Hm). apply Hm. subst y. now exists x. }
  induction f as [|f IH]; intros d out L; [lia|]. rewrite mergetag_loop_unfold.
  destruct (next_line B HB d EEOF) as [[-> R]|(l & r & T & Lr & R)]; rewrite R; cbn [bind is_eof].
  - split; [discriminate|]. intros [([|m ms] & x & r & Q & _)|(_ & [|m ms] & msg & Q & _)]; cbn [map app] in Q; now apply reads_nil_inv in Q.
  - destruct (beqb_spec l (bs " ")) as [->|N].
    + cbn [mk st_data]. rewrite bind_err, mergetag_msg_err by lia. split.
      * intros [(-> & ls & Q & H)|([[? ?] ?] & _ & X)]; [|discriminate]. right. split; [reflexivity|]. exists [], ls. cbn [map app].
        split; [now apply (reads_cons B HB _ _ _ _ _ _ T)|]. split; [intros ? []|exact H].
      * intros [([|m ms] & x & r' & Q & Hm & _)|(-> & [|m ms] & msg & Q & Hm & Hs)]; cbn [map app] in Q; apply (reads_cons B HB _ _ _ _ _ _ T) in Q as [X Q].
        -- discriminate X.
        -- exfalso. apply (mline_not_blank m); auto. apply Hm. now left.
        -- left. eauto.
        -- exfalso. apply (mline_not_blank m); auto. apply Hm. now left.
    + rewrite bind_err, mergetag_header_err. split.
      * intros [(x & -> & Hb)|(out' & E1 & E)].
        -- left. exists [], x, r. cbn [map app]. split; [apply (reads_cons B HB _ _ _ _ _ _ T); split; [reflexivity|constructor]|]. split; [intros ? []|exact Hb].
        -- apply mergetag_header_inv in E1 as (m & Hm & Em & ->); [|exact N]. apply IH in E; [|lia].
           destruct E as [(ms & x & r' & Q & H & Hb)|(-> & ms & msg & Q & H & Hs)].
           ++ left. exists (m :: ms), x, r'. cbn [map app]. split; [now apply (reads_cons B HB _ _ _ _ _ _ T)|]. split; [intros y [<-|I]; auto|exact Hb].
           ++ right. split; [reflexivity|]. exists (m :: ms), msg. cbn [map app]. split; [now apply (reads_cons B HB _ _ _ _ _ _ T)|]. split; [intros y [<-|I]; auto|exact Hs].
      * intros [([|m ms] & x & r' & Q & Hm & Hb)|(-> & [|m ms] & msg & Q & Hm & Hs)]; cbn [map app] in Q; apply (reads_cons B HB _ _ _ _ _ _ T) in Q as [X Q].
        -- left. exists x. auto.
        -- right. assert (mline_ok m) as Om by (apply Hm; now left). exists (mline_apply out m). rewrite <- X. split; [now apply mergetag_header_mline|].
           apply IH; [lia|]. left. exists ms, x, r'. split; [exact Q|]. split; [intros y I; apply Hm; now right|exact Hb].
        -- congruence.
        -- right. assert (mline_ok m) as Om by (apply Hm; now left). exists (mline_apply out m). rewrite <- X. split; [now apply mergetag_header_mline|].
           apply IH; [lia|]. right. split; [reflexivity|]. exists ms, msg. split; [exact Q|]. split; [intros y I; apply Hm; now right|exact Hs].
Qed.

(** ** Commits *)
Notation run_from := (run_from B).
Definition fresh_mergetag (sha : bytes) : tag :=
  {| t_object := git_link sha; t_type := []; t_tag := []; t_tagger := zero_person; t_message := [] |}.
Lemma mergetag_step c h d :
  run_from c (bs "mergetag object " ++ h) d =
  let* sha := hex_decode h in
  let* _ := sha_to_cid sha in
  let* (mt, r, s1) := mergetag_loop ops (S (length d)) (fresh_mergetag sha) (mk d EEOF) in
  let* (c', s) := match r with
                  | Some v => commit_line ops (length d) (with_mergetags c [mt]) v s1
                  | None => Ok (with_mergetags c [mt], s1)
                  end in commit_run B c' s.
Proof.
  unfold GrammarFacts.run_from, commit_step. change (commit_line ops (S (length (st_data (mk d EEOF)))) c (bs "mergetag object " ++ h) (mk d EEOF)) with
    (let* h := go_from 16 (bs "mergetag object " ++ h) in
     let* sha := hex_decode h in
     let* (mt, r, s1) := read_merge_tag ops sha (mk d EEOF) in
     match r with
     | Some v => commit_line ops (length d) (with_mergetags c [mt]) v s1
     | None => Ok (with_mergetags c [mt], s1)
     end). rewrite go_from_app by reflexivity. cbn [bind]. destruct (hex_decode h) as [sha| | |]; cbn [bind]; auto.
  unfold read_merge_tag. destruct (sha_to_cid sha) as [cd| | |] eqn:C; cbn [bind]; auto. apply sha_to_cid_inv in C as [_ ->].
  change (rd_fuel ops (mk d EEOF)) with (S (length d)). change (LCid (x01 :: x78 :: x11 :: x14 :: sha)) with (git_link sha). fold (fresh_mergetag sha).
  change {| t_object := git_link sha; t_type := []; t_tag := []; t_tagger := zero_person; t_message := [] |} with (fresh_mergetag sha).
  destruct (mergetag_loop ops (S (length d)) (fresh_mergetag sha) (mk d EEOF)) as [[[mt r] s1]| | |]; cbn [bind]; auto.
Qed.
Lemma with_msg_fold sha ms m : with_msg (fold_left mline_apply ms (fresh_mergetag sha)) m = mtag_value sha ms m.
Proof. rewrite <- mline_fold_msg. reflexivity. Qed.
Lemma shorter_line c (d : bytes) mt nx (r : bytes) : length r < length d ->
  commit_line ops (length d) (with_mergetags c [mt]) nx (mk r EEOF) = commit_step B (with_mergetags c [mt]) nx (mk r EEOF).
Proof. intros Lr. apply (commit_line_good B HB2); cbn; lia. Qed.
Lemma mergetag_continues c h sha ms msg nx d r : hex_text h sha -> is_sha sha ->
  reads B d (map mline_text ms ++ [bs " "] ++ msg ++ [nx]) r -> (forall m, In m ms -> mline_ok m) ->
  (forall l, In l msg -> starts_with SP l) -> ~ starts_with SP nx ->
  run_from c (bs "mergetag object " ++ h) d = run_from (with_mergetags c [mtag_value sha ms (unlines msg)]) nx r.
Proof.
  intros Ht Hs Q Hm Hsp Nn. rewrite mergetag_step, (hex_text_decode _ _ Ht). cbn [bind]. rewrite sha_to_cid_ok by exact Hs. cbn [bind].
  assert (mergetag_loop ops (S (length d)) (fresh_mergetag sha) (mk d EEOF) = Ok (mtag_value sha ms (unlines msg), Some nx, mk r EEOF)) as ->.
  { apply (mergetag_loop_iff B HB); [lia|]. right. exists ms, msg, nx, r. rewrite with_msg_fold. auto 10. }
  cbn [bind]. rewrite shorter_line; [reflexivity|]. apply (reads_longer B HB) in Q. rewrite !app_length in Q; cbn [length] in Q; lia.
Qed.
Lemma from_mergetag_err c h d e :
  run_from c (bs "mergetag object " ++ h) d = Err e <->
  bad_hash h e \/ exists sha, hex_text h sha /\ is_sha sha /\
   ((exists ms x r, reads B d (map mline_text ms ++ [bs " tagger " ++ x]) r /\ (forall m, In m ms -> mline_ok m) /\ bad_person (bs "tagger " ++ x) e) \/
    (e = EEOF /\ exists ms msg, reads B d (map mline_text ms ++ [bs " "] ++ msg) [] /\ (forall m, In m ms -> mline_ok m) /\ (forall l, In l msg -> starts_with SP l)) \/
    (exists ms msg nx r, reads B d (map mline_text ms ++ [bs " "] ++ msg ++ [nx]) r /\
       (forall m, In m ms -> mline_ok m) /\ (forall l, In l msg -> starts_with SP l) /\ ~ starts_with SP nx /\
       run_from (with_mergetags c [mtag_value sha ms (unlines msg)]) nx r = Err e)).
Proof.
  split.
  - intros E. destruct (let* sha := hex_decode h in sha_to_cid sha) as [cd|e'| |] eqn:H.
    2:{ left. apply hash_err. rewrite mergetag_step in E. destruct (hex_decode h) as [sha| | |]; cbn [bind] in *; try congruence. rewrite H in E. cbn [bind] in E. congruence. }
    2,3: exfalso; rewrite mergetag_step in E; destruct (hex_decode h) as [sha| | |]; cbn [bind] in *; try discriminate; rewrite H in E; discriminate.
    right. apply bind_ok in H as (sha & H & S). apply hex_decode_text in H as Ht. apply sha_to_cid_inv in S as Hs. destruct Hs as [Hs _]. exists sha. split; [exact Ht|]. split; [exact Hs|].
    rewrite mergetag_step, H in E. cbn [bind] in E. rewrite S in E. cbn [bind] in E. apply bind_err in E as [E|([[mt r] s1] & E1 & E)].
    + apply mergetag_loop_err in E; [|lia]. tauto.
    + apply (mergetag_loop_iff B HB) in E1; [|lia]. destruct E1 as [(ms & Q & Hm & -> & -> & ->)|(ms & msg & nx & r' & Q & Hm & Hsp & Nn & -> & -> & ->)].
      * cbn in E. discriminate.
      * right; right. exists ms, msg, nx, r'. rewrite with_msg_fold in E. rewrite shorter_line in E; [auto 10|]. apply (reads_longer B HB) in Q. rewrite !app_length in Q; cbn [length] in Q; lia.
  - intros [H|(sha & Ht & Hs & [H|[H|(ms & msg & nx & r & Q & Hm & Hsp & Nn & E)]])].
    + apply hash_err in H. rewrite mergetag_step. apply bind_err in H as [H|(sha & H & S)]; rewrite H; cbn [bind]; [reflexivity|]. now rewrite S.
    + rewrite mergetag_step, (hex_text_decode _ _ Ht). cbn [bind]. rewrite sha_to_cid_ok by exact Hs. cbn [bind].
      assert (mergetag_loop ops (S (length d)) (fresh_mergetag sha) (mk d EEOF) = Err e) as ->; [|reflexivity]. apply mergetag_loop_err; [lia|]. now left.
    + rewrite mergetag_step, (hex_text_decode _ _ Ht). cbn [bind]. rewrite sha_to_cid_ok by exact Hs. cbn [bind].
      assert (mergetag_loop ops (S (length d)) (fresh_mergetag sha) (mk d EEOF) = Err e) as ->; [|reflexivity]. apply mergetag_loop_err; [lia|]. now right.
    + now rewrite (mergetag_continues c h sha ms msg nx d r).
Qed.

(** One block that is well formed. *)
Lemma block_runs c k d d1 : block_ok k -> (forall h sha ms msg, k <> KMergetag h sha ms msg) ->
  reads B d (block_lines k) d1 -> commit_run B c (mk d EEOF) = commit_run B (apply_block c k) (mk d1 EEOF).
Proof.
  intros Hk Nk R. destruct k as [h sha|h sha|x p|x p|x|h sha ms msg|x first ss|l];
    try (cbn [block_lines] in R; apply reads_cons_inv in R as (d2 & T1 & R2); apply reads_none_iff in R2; subst d2;
         rewrite (run_takes B HB _ _ _ _ T1); unfold GrammarFacts.run_from; erewrite step_simple by (try eassumption; reflexivity); reflexivity).
  - now specialize (Nk _ _ _ _ eq_refl).
  - change (reads B d ((bs "gpgsig " ++ x) :: first :: ss ++ [pgp_end]) d1) in R. apply reads_cons_inv in R as (d2 & T1 & R2). rewrite (run_takes B HB _ _ _ _ T1).
    unfold GrammarFacts.run_from. rewrite step_signature.
    assert (decode_gpgsig ops (mk d2 EEOF) = Ok (unlines (first :: ss), mk d1 EEOF)) as ->; [|reflexivity].
    apply (decode_gpgsig_iff B HB). exists first, ss, d1. auto.
Qed.
Lemma mergetag_runs c h sha ms msg d d1 nx r : block_ok (KMergetag h sha ms msg) ->
  reads B d (block_lines (KMergetag h sha ms msg)) d1 -> takes B d1 nx r -> ~ starts_with SP nx ->
  commit_run B c (mk d EEOF) = commit_run B (apply_block c (KMergetag h sha ms msg)) (mk d1 EEOF).
Proof.
  intros (Ht & Hs & Hm & Hsp) R T Nn. change (reads B d ((bs "mergetag object " ++ h) :: map mline_text ms ++ bs " " :: msg) d1) in R.
  apply reads_cons_inv in R as (d2 & T1 & R2). rewrite (run_takes B HB _ _ _ _ T1), (run_takes B HB _ _ _ _ T).
  apply mergetag_continues; auto. replace (map mline_text ms ++ [bs " "] ++ msg ++ [nx]) with ((map mline_text ms ++ bs " " :: msg) ++ [nx]) by (lnorm; reflexivity).
  apply reads_app. exists d1. split; [exact R2|]. econstructor; [exact T|constructor].
Qed.
Lemma bad_block_first ls r e : bad_block ls r e -> exists l ls', ls = l :: ls' /\ ~ starts_with SP l.
Proof. intros H. destruct H; do 2 eexists; (split; [reflexivity|]); intros [q X]; discriminate X. Qed.

Lemma step_hash_err c w h s e : In w [bs "tree "; bs "parent "] -> bad_hash h e -> commit_step B c (w ++ h) s = Err e.
Proof.
  intros I H. apply hash_err in H. apply bind_err in H. unfold commit_step. cbn [commit_line]. change (rd_deref ops s ?l) with l. cbv zeta.
  destruct I as [<-|[<-|[]]].
  - rewrite has_prefix_app, go_from_app by reflexivity. cbn [bind]. destruct H as [H|(sha & H & S)]; rewrite H; cbn [bind]; [reflexivity|now rewrite S].
  - change (has_prefix (bs "tree ") (bs "parent " ++ h)) with false. cbn iota. rewrite has_prefix_app, go_from_app by reflexivity. cbn [bind].
    destruct H as [H|(sha & H & S)]; rewrite H; cbn [bind]; [reflexivity|now rewrite S].
Qed.
Lemma step_person_err c w x s e : In w [bs "author "; bs "committer "] -> bad_person (w ++ x) e -> commit_step B c (w ++ x) s = Err e.
Proof.
  intros I H. apply person_err in H. unfold commit_step. cbn [commit_line]. change (rd_deref ops s ?l) with l. cbv zeta.
  destruct I as [<-|[<-|[]]].
  - change (has_prefix (bs "tree ") (bs "author " ++ x)) with false. change (has_prefix (bs "parent ") (bs "author " ++ x)) with false. cbn iota.
    now rewrite has_prefix_app, H.
  - change (has_prefix (bs "tree ") (bs "committer " ++ x)) with false. change (has_prefix (bs "parent ") (bs "committer " ++ x)) with false.
    change (has_prefix (bs "author ") (bs "committer " ++ x)) with false. cbn iota. now rewrite has_prefix_app, H.
Qed.

Lemma bad_block_runs ls r e d c : reads B d ls r -> bad_block ls r e -> commit_run B c (mk d EEOF) = Err e.
Proof.
  intros R H. destruct (bad_block_first _ _ _ H) as (l & ls' & El & _). subst ls. apply reads_cons_inv in R as (d1 & T & R). rewrite (run_takes B HB _ _ _ _ T).
  inversion H as [h r' e' Hb|h r' e' Hb|x r' e' Hb|x r' e' Hb|h r' e' Hb|h sha ms x r' e' Ht Hs Hm Hb|h sha ms msg Ht Hs Hm Hsp|x|x first r' Hf|x first ss Hf]; subst; clear H;
    try (unfold GrammarFacts.run_from; first [rewrite (step_hash_err c (bs "tree ") h _ e)|rewrite (step_hash_err c (bs "parent ") h _ e)|rewrite (step_person_err c (bs "author ") x _ e)|rewrite (step_person_err c (bs "committer ") x _ e)]; cbn; auto; fail).
  - apply from_mergetag_err. now left.
  - apply from_mergetag_err. right. exists sha. split; [exact Ht|]. split; [exact Hs|]. left. exists ms, x, r. auto.
  - apply from_mergetag_err. right. exists sha. split; [exact Ht|]. split; [exact Hs|]. right; left. split; [reflexivity|]. exists ms, msg. auto.
  - apply reads_none_iff in R. subst d1. reflexivity.
  - change (run_from c (bs "gpgsig " ++ x) d1 = Err EGpgFirstLine); unfold GrammarFacts.run_from; rewrite step_signature.
    assert (decode_gpgsig ops (mk d1 EEOF) = Err EGpgFirstLine) as ->; [|reflexivity]. apply decode_gpgsig_err. right; left.
    apply reads_cons_inv in R as (d2 & T2 & _). eauto.
  - change (run_from c (bs "gpgsig " ++ x) d1 = Err EEOF); unfold GrammarFacts.run_from; rewrite step_signature.
    assert (decode_gpgsig ops (mk d1 EEOF) = Err EEOF) as ->; [|reflexivity]. apply decode_gpgsig_err. right; right. exists first, ss. auto.
Qed.

Lemma run_refused ls r e : bad_block ls r e -> forall ks c d,
  reads B d (header_lines ks ++ ls) r -> (forall k, In k ks -> block_ok k) -> mergetags_end ks (EndMessage []) ->
  commit_run B c (mk d EEOF) = Err e.
Proof.
  intros Hb. induction ks as [|k ks IH]; intros c d R Hk Hm; [now apply (bad_block_runs ls r e)|].
  unfold header_lines in R. cbn [map concat] in R. rewrite <- app_assoc in R. apply reads_app in R as (d1 & R1 & R). fold (header_lines ks) in R.
  assert (block_ok k) as Ok1 by (apply Hk; now left).
  assert (commit_run B (apply_block c k) (mk d1 EEOF) = Err e) as E.
  { apply IH; [exact R|intros; apply Hk; now right|]. destruct k; cbn [mergetags_end] in Hm; tauto. }
  destruct (bad_block_first _ _ _ Hb) as (l & ls' & El & Nl).
  destruct k as [h sha|h sha|x p|x p|x|h sha ms msg|x first ss|l0]; try (erewrite block_runs; [exact E|exact Ok1|discriminate|exact R1]).
  destruct (header_lines ks ++ ls) as [|nx rest] eqn:Eh; [subst ls; now apply app_eq_nil in Eh as [_ Eh]|].
  apply reads_cons_inv in R as (d2 & T & R). erewrite mergetag_runs; [exact E|exact Ok1|exact R1|exact T|].
  cbn [mergetags_end] in Hm. destruct Hm as [Hm _]. destruct ks as [|k ks].
  - cbn in Eh. congruence.
  - unfold header_lines in Eh. cbn [map concat] in Eh. destruct k; cbn in Eh; injection Eh as <- _; try (intros [q Q]; discriminate Q). exact Hm.
Qed.

Definition refused_line (l d : bytes) (e : err) : Prop :=
  exists ks ls0 ls r, header_lines ks ++ ls0 = l :: ls /\ reads B d ls r /\ (forall k, In k ks -> block_ok k) /\
    mergetags_end ks (EndMessage []) /\ bad_block ls0 r e.
Lemma refused_block l d r ls e : bad_block (l :: ls) r e -> reads B d ls r -> refused_line l d e.
Proof. intros H R. exists [], (l :: ls), ls, r. split; [reflexivity|]. split; [exact R|]. split; [intros ? []|]. split; [exact I|exact H]. Qed.

Lemma run_refused_sound e : forall n d, length d <= n ->
  (forall c, commit_run B c (mk d EEOF) = Err e -> commit_refused B d e) /\
  (forall c l, run_from c l d = Err e -> refused_line l d e).
Proof.
  induction n as [n IH] using lt_wf_ind. intros d Ld.
  assert (forall c, commit_run B c (mk d EEOF) = Err e -> commit_refused B d e) as A.
  { intros c E. destruct (next_line B HB d EEOF) as [[-> R]|(l & r & T & Lr & R)]; [discriminate E|].
    rewrite (run_takes B HB _ _ _ _ T) in E. apply (IH (length r)) in E as (ks & ls0 & ls & r' & El & Q & Hk & Hm & Hb); [|lia|lia].
    exists ks, ls0, r'. rewrite El. split; [econstructor; eassumption|]. auto. }
  split; [exact A|]. intros c l E.
  assert (forall k, block_ok k -> (forall h sha ms msg, k <> KMergetag h sha ms msg) -> block_lines k = [l] -> refused_line l d e) as SI.
  { intros k Hk Nk El. unfold GrammarFacts.run_from in E. rewrite (step_simple B c k) in E by assumption. cbn [bind] in E.
    apply A in E as (ks & ls & r & R & Hks & Hm & Hb). exists (k :: ks), ls, (header_lines ks ++ ls), r.
    split; [unfold header_lines; cbn [map concat]; rewrite El; reflexivity|]. split; [exact R|]. split; [intros x [<-|I]; auto|]. split; [now apply mergetags_end_cons|exact Hb]. }
  pose proof E as E0. unfold GrammarFacts.run_from, commit_step in E. cbn [commit_line] in E. change (rd_deref ops ?s l) with l in E. cbv zeta in E.
  destruct (has_prefix (bs "tree ") l) eqn:H1.
  { destruct (go_from_prefix _ _ 5 H1 eq_refl) as (h & El & G). rewrite G in E. cbn [bind] in E.
    destruct (let* sha := hex_decode h in sha_to_cid sha) as [cd|e'| |] eqn:H.
    - apply bind_ok in H as (sha & H & S). apply sha_to_cid_inv in S as [Ls _].
      apply (SI (KTree h sha)); [split; [now apply hex_decode_text|exact Ls]|discriminate|cbn [block_lines]; congruence].
    - assert (e' = e) as -> by (apply bind_err in H as [H|(sha & H & S)]; rewrite H in E; cbn [bind] in E; [congruence|]; rewrite S in E; cbn [bind] in E; congruence).
      apply hash_err in H. rewrite El. apply (refused_block _ _ d []); [now apply bb_tree|constructor].
    - exfalso. destruct (hex_decode h) as [sha| | |]; cbn [bind] in *; try discriminate; rewrite H in E; discriminate.
    - exfalso. destruct (hex_decode h) as [sha| | |]; cbn [bind] in *; try discriminate; rewrite H in E; discriminate. }
  destruct (has_prefix (bs "parent ") l) eqn:H2.
  { destruct (go_from_prefix _ _ 7 H2 eq_refl) as (h & El & G). rewrite G in E. cbn [bind] in E.
    destruct (let* sha := hex_decode h in sha_to_cid sha) as [cd|e'| |] eqn:H.
    - apply bind_ok in H as (sha & H & S). apply sha_to_cid_inv in S as [Ls _].
      apply (SI (KParent h sha)); [split; [now apply hex_decode_text|exact Ls]|discriminate|cbn [block_lines]; congruence].
    - assert (e' = e) as -> by (apply bind_err in H as [H|(sha & H & S)]; rewrite H in E; cbn [bind] in E; [congruence|]; rewrite S in E; cbn [bind] in E; congruence).
      apply hash_err in H. rewrite El. apply (refused_block _ _ d []); [now apply bb_parent|constructor].
    - exfalso. destruct (hex_decode h) as [sha| | |]; cbn [bind] in *; try discriminate; rewrite H in E; discriminate.
    - exfalso. destruct (hex_decode h) as [sha| | |]; cbn [bind] in *; try discriminate; rewrite H in E; discriminate. }
  destruct (has_prefix (bs "author ") l) eqn:H3.
  { apply has_prefix_spec in H3 as [x El]. destruct (parse_person l) as [p|e'| |] eqn:P; cbn [bind] in E; try discriminate.
    - rewrite El in P. apply (SI (KAuthor x p)); [now apply person_line_iff|discriminate|cbn [block_lines]; congruence].
    - injection E as ->. apply person_err in P. rewrite El in *. apply (refused_block _ _ d []); [now apply bb_author|constructor]. }
  destruct (has_prefix (bs "committer ") l) eqn:H4.
  { apply has_prefix_spec in H4 as [x El]. destruct (parse_person l) as [p|e'| |] eqn:P; cbn [bind] in E; try discriminate.
    - rewrite El in P. apply (SI (KCommitter x p)); [now apply person_line_iff|discriminate|cbn [block_lines]; congruence].
    - injection E as ->. apply person_err in P. rewrite El in *. apply (refused_block _ _ d []); [now apply bb_committer|constructor]. }
  destruct (has_prefix (bs "encoding ") l) eqn:H5.
  { apply has_prefix_spec in H5 as [x El]. apply (SI (KEncoding x)); [exact Logic.I|discriminate|cbn [block_lines]; congruence]. }
  destruct (has_prefix (bs "mergetag object ") l) eqn:H6.
  { apply has_prefix_spec in H6 as [h El]. rewrite El in E0. rewrite El. clear E SI.
    apply from_mergetag_err in E0 as [H|(sha & Ht & Hs & [(ms & x & r & Q & Hm & Hb)|[(-> & ms & msg & Q & Hm & Hsp)|(ms & msg & nx & r & Q & Hm & Hsp & Nn & R)]])].
    - apply (refused_block _ _ d []); [now apply bb_mergetag|constructor].
    - apply (refused_block _ _ r (map mline_text ms ++ [bs " tagger " ++ x])); [|exact Q]. exact (bb_tagger h sha ms x r e Ht Hs Hm Hb).
    - apply (refused_block _ _ [] (map mline_text ms ++ [bs " "] ++ msg)); [|exact Q]. exact (bb_message h sha ms msg Ht Hs Hm Hsp).
    - apply (IH (length r)) in R as (ks & ls0 & ls & r' & Els & R & Hks & Hme & Hb); [| |lia].
      2:{ apply (reads_longer B HB) in Q. rewrite !app_length in Q; cbn [length] in Q; lia. }
      exists (KMergetag h sha ms msg :: ks), ls0, (map mline_text ms ++ [bs " "] ++ msg ++ nx :: ls), r'.
      split; [|split; [|split; [|split]]].
      + unfold header_lines in *. cbn [map concat block_lines]. rewrite <- app_assoc, Els. lnorm. reflexivity.
      + replace (map mline_text ms ++ [bs " "] ++ msg ++ nx :: ls) with ((map mline_text ms ++ [bs " "] ++ msg ++ [nx]) ++ ls) by (lnorm; reflexivity).
        apply reads_app. eauto.
      + intros x [<-|I]; [|auto]. cbn [block_ok]. auto.
      + cbn [mergetags_end]. split; [|exact Hme]. destruct ks as [|k ks]; [discriminate|].
        destruct k; auto. cbn in Els. injection Els as -> _. exact Nn.
      + exact Hb. }
  destruct (has_prefix (bs "gpgsig ") l) eqn:H7.
  { apply has_prefix_spec in H7 as [x El]. rewrite El in E0. rewrite El. clear E SI. unfold GrammarFacts.run_from in E0. rewrite step_signature in E0.
    destruct (decode_gpgsig ops (mk d EEOF)) as [[sig s1]|e'| |] eqn:G; cbn [bind] in E0; try discriminate.
    - apply (decode_gpgsig_iff B HB) in G as (first & ss & r & Q & Hs & -> & ->).
      apply (IH (length r)) in E0 as (ks & ls & r' & R & Hks & Hme & Hb); [| |lia].
      2:{ apply (reads_longer B HB) in Q. cbn in Q. rewrite app_length in Q. cbn in Q. lia. }
      exists (KSignature x first ss :: ks), ls, ((first :: ss ++ [pgp_end]) ++ header_lines ks ++ ls), r'.
      split; [|split; [|split; [|split]]]; auto.
      + unfold header_lines. cbn [map concat block_lines]. lnorm. reflexivity.
      + apply reads_app. eauto.
      + intros y [<-|I]; auto.
    - injection E0 as ->. apply decode_gpgsig_err in G as [[-> ->]|[(first & r & T & Hf & ->)|(first & ss & Q & Hf & ->)]].
      + apply (refused_block _ _ [] []); [apply bb_no_signature|constructor].
      + apply (refused_block _ _ r [first]); [now apply bb_first|]. econstructor; [exact T|constructor].
      + apply (refused_block _ _ [] (first :: ss)); [now apply (bb_signature x first ss)|exact Q]. }
  destruct (Nat.eqb_spec (length l) 0) as [L0|L0].
  { destruct l; [|discriminate L0]. change (rd_all ops) with stream_all in E. cbn in E. discriminate E. }
  apply (SI (KOther l)); [|discriminate|reflexivity]. split; [intros ->; now apply L0|].
  intros (w & Iw & [r ->]). unfold header_words in Iw. cbn [In] in Iw.
  decompose [or] Iw; try contradiction; subst w; rewrite has_prefix_app in *; discriminate.
Qed.
Lemma commit_run_err d e : commit_run B zero_commit (mk d EEOF) = Err e <-> commit_refused B d e.
Proof.
  split; [apply (run_refused_sound e (length d) d (le_n _))|]. intros (ks & ls & r & R & Hk & Hm & Hb). now apply (run_refused ls r e Hb ks).
Qed.

(** ** Tags *)
Lemma tag_header_err out line e : line <> [] -> (tag_header out line = Err e <-> bad_tline line e).
Proof.
  intros N. split.
  - unfold tag_header. destruct (has_prefix (bs "object ") line) eqn:H1.
    { destruct (go_from_prefix _ _ 7 H1 eq_refl) as (h & -> & ->). cbn [bind]. intros E. apply bt_object, hash_err. apply bind_err.
      apply bind_err in E as [E|(sha & Eh & E)]; [now left|]. right. exists sha. split; [exact Eh|]. apply bind_err in E as [E|(cd & _ & E)]; [exact E|discriminate]. }
    destruct (has_prefix (bs "tag ") line) eqn:H2.
    { destruct (go_from_prefix _ _ 4 H2 eq_refl) as (r & -> & ->). discriminate. }
    destruct (has_prefix (bs "tagger ") line) eqn:H3.
    { apply has_prefix_spec in H3 as [r ->]. intros E. apply bt_tagger, person_err. apply bind_err in E as [E|(p & _ & E)]; [exact E|discriminate]. }
    destruct (has_prefix (bs "type ") line) eqn:H4; [|discriminate].
    destruct (go_from_prefix _ _ 5 H4 eq_refl) as (r & -> & ->). discriminate.
  - intros [h e' H|x e' H]; unfold tag_header.
    + rewrite has_prefix_app, go_from_app by reflexivity. cbn [bind]. apply hash_err in H. apply bind_err in H as [H|(sha & H & S)]; rewrite H; cbn [bind]; [reflexivity|now rewrite S].
    + change (has_prefix (bs "object ") (bs "tagger " ++ x)) with false. cbn iota.
      change (has_prefix (bs "tag ") (bs "tagger " ++ x)) with false. cbn iota. rewrite has_prefix_app. apply person_err in H. now rewrite H.
Qed.
Lemma bad_tline_not_blank l e : bad_tline l e -> l <> [].
Proof. intros []; discriminate. Qed.
Lemma tag_run_refused e : forall n d out pr, length d <= n -> tag_run B out pr (mk d EEOF) = Err e -> tag_refused B d e.
Proof.
  induction n as [n IH] using lt_wf_ind. intros d out pr Ld E.
  destruct (next_line B HB d EEOF) as [[-> R]|(l & r & T & Lr & R)]; [discriminate E|]. destruct l as [|c l].
  - rewrite (tag_run_takes_blank B HB _ _ _ _ T) in E. discriminate.
  - rewrite (tag_run_takes B HB _ _ _ _ _ T) in E by discriminate. apply bind_err in E as [E|([out' p] & E1 & E)].
    + apply tag_header_err in E; [|discriminate]. exists [], (c :: l), r. split; [econstructor; [exact T|constructor]|]. split; [intros ? []|exact E].
    + apply tag_header_inv in E1 as (x & Hx & Ex & -> & ->); [|discriminate].
      apply (IH (length r)) in E as (ts & l' & r' & Q & Hts & Hb); [|lia|lia].
      exists (x :: ts), l', r'. cbn [map app]. split; [rewrite Ex; econstructor; eassumption|]. split; [intros y [<-|I]; auto|exact Hb].
Qed.
Lemma tag_run_err d e : tag_run B zero_tag [] (mk d EEOF) = Err e <-> tag_refused B d e.
Proof.
  split; [apply (tag_run_refused e (length d)), le_n|]. intros (ts & l & r & R & H & Hb).
  enough (forall out pr, tag_run B out pr (mk d EEOF) = Err e) by auto. intros out pr. revert out pr d R H. induction ts as [|x ts IH]; intros out pr d R H; cbn [map app] in R.
  - apply reads_cons_inv in R as (d1 & T & R). rewrite (tag_run_takes B HB _ _ _ _ _ T) by (now apply (bad_tline_not_blank l e)).
    assert (tag_header out l = Err e) as ->; [|reflexivity]. apply tag_header_err; [now apply (bad_tline_not_blank l e)|exact Hb].
  - apply reads_cons_inv in R as (d1 & T & R). assert (tline_ok x) as Hx by (apply H; now left).
    rewrite (tag_run_takes B HB _ _ _ _ _ T) by (now apply tline_not_blank). rewrite tag_header_tline by exact Hx. cbn [bind].
    apply IH; [exact R|intros; apply H; now right].
Qed.

(** ** Trees *)
Lemma part_entry mode name part : ~ In SP mode -> ~ In NUL name -> 0 < length part < 20 ->
  decode_tree_entry ops (mk (mode ++ [SP] ++ name ++ [NUL] ++ part) EEOF) = Err EUnexpectedEOF.
Proof.
  intros Nm Nn L. unfold decode_tree_entry. change (rd_string ops) with stream_string. change (rd_full ops) with stream_full. cbn [app].
  rewrite stream_string_app by assumption. cbn [bind]. rewrite go_drop_last_snoc. cbn [bind].
  rewrite stream_string_app by assumption. cbn [bind]. rewrite go_drop_last_snoc. cbn [bind].
  unfold stream_full. cbn [mk st_data st_err]. destruct (Nat.leb_spec 20 (length part)) as [L'|_]; [lia|].
  destruct part; [cbn in L; lia|reflexivity].
Qed.
Lemma part_shape d : ~ incomplete d -> (forall t r, entry_ok t -> d <> entry_text t ++ r) ->
  exists mode name part, d = mode ++ [SP] ++ name ++ [NUL] ++ part /\ ~ In SP mode /\ ~ In NUL name /\ 0 < length part < 20.
Proof.
  intros Ni Ne. destruct (split_at SP d) as [N|(mode & d1 & -> & Nm)]; [exfalso; apply Ni; now left|].
  destruct (split_at NUL d1) as [N|(name & part & -> & Nn)]; [exfalso; apply Ni; right; left; eauto|].
  exists mode, name, part. split; [reflexivity|]. split; [exact Nm|]. split; [exact Nn|]. split.
  - destruct part; [|cbn; lia]. exfalso. apply Ni. right; right. exists mode, name. rewrite app_nil_r. auto.
  - apply Nat.lt_nge. intros L. apply (Ne (mode, name, firstn 20 part) (skipn 20 part)).
    + split; [exact Nm|]. split; [exact Nn|]. unfold is_sha, ge_sha. cbn [snd]. rewrite firstn_length. lia.
    + unfold entry_text, ge_mode, ge_name, ge_sha. cbn [fst snd]. rewrite <- !app_assoc. now rewrite firstn_skipn.
Qed.
Lemma insert_twice es x v : In (ge_name x) (map ge_name es) -> tree_insert (tree_value es) (ge_name x) v = Err (ERepeatedKey (ge_name x)).
Proof.
  intros I. unfold tree_insert. destruct (assoc (ge_name x) (tr_m (tree_value es))) eqn:A; [reflexivity|]. exfalso.
  cbn [tree_value tr_m] in A. rewrite <- map_fst_entry_value in I. apply in_map_iff in I as ((k, w) & Ek & I). cbn in Ek. subst k.
  apply in_rev in I. clear - A I. revert A I. generalize (rev (map entry_value es)) as l. induction l as [|[k' v'] l IHl]; intros A I; [contradiction|].
  cbn [assoc] in A. destruct I as [I|I]; [injection I as -> _; rewrite beqb_refl in A; discriminate A|].
  destruct (beqb _ _); [discriminate A|auto].
Qed.
Lemma tree_text_snoc es x : tree_text (es ++ [x]) = tree_text es ++ entry_text x.
Proof. unfold tree_text. rewrite map_app, concat_app. cbn. now rewrite app_nil_r. Qed.
Lemma tree_run_refused e : forall n d es, length d <= n -> tree_ok es -> tree_run B (tree_value es) (mk d EEOF) = Err e -> tree_refused (tree_text es ++ d) e.
Proof.
  induction n as [n IH] using lt_wf_ind. intros d es Ld [He ND] E.
  destruct (next_entry B HB d) as [(x & r & Hx & -> & R)|[[Hi R]|(N1 & N2 & R)]].
  - rewrite (tree_run_entry B HB2 _ _ _ _ _ R) in E.
    destruct (in_dec (list_eq_dec Byte.byte_eq_dec) (ge_name x) (map ge_name es)) as [I|Nx].
    { rewrite insert_twice in E by exact I. cbn [bind] in E. injection E as <-. apply tree_twice; [split; auto|exact Hx|exact I]. }
    pose proof (tree_insert_value es x Nx) as TI. unfold entry_value in TI. cbn [snd fst] in TI. rewrite TI in E. cbn [bind] in E.
    apply (IH (length r)) in E.
    + now rewrite tree_text_snoc, <- app_assoc in E.
    + unfold entry_text in Ld. rewrite !app_length in Ld. cbn [length] in Ld. lia.
    + lia.
    + split; [intros y I; apply in_app_iff in I as [I|[<-|[]]]; auto|].
      rewrite map_app. cbn [map]. apply NoDup_rev in ND. rewrite <- (rev_involutive (map ge_name es ++ _)). apply NoDup_rev.
      rewrite rev_unit. constructor; [now rewrite <- in_rev|exact ND].
  - unfold tree_run in E. cbn [tree_loop] in E. rewrite R in E. discriminate.
  - unfold tree_run in E. cbn [tree_loop] in E. rewrite R in E. injection E as <-.
    destruct (part_shape d N1 N2) as (mode & name & part & -> & Nm & Nn & L). apply tree_cut; auto. split; auto.
Qed.
Lemma tree_run_err d e : tree_run B zero_tree (mk d EEOF) = Err e <-> tree_refused d e.
Proof.
  change zero_tree with (tree_value []). split.
  - intros E. apply (tree_run_refused e (length d) d []) in E; [exact E|apply le_n|]. split; [intros ? []|constructor].
  - intros [es mode name part [He ND] Nm Nn L|es x r [He ND] Hx I].
    + rewrite (tree_run_entries B HB) by auto. cbn [app]. unfold tree_run. cbn [tree_loop]. change (SP :: name ++ NUL :: part) with ([SP] ++ name ++ [NUL] ++ part). now rewrite part_entry.
    + rewrite (tree_run_entries B HB) by auto. cbn [app]. rewrite (tree_run_entry B HB2 _ _ _ _ _ (decode_tree_entry_text B HB x r EEOF Hx)). now rewrite insert_twice.
Qed.
End B.
