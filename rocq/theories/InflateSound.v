(** The other direction: what the decompressor takes for deflated data is deflated data. *)
From Verif Require Import Base GoStr Reader Inflate InflateSpec InflateFacts.
From Coq Require Import PeanoNat Lia.

Lemma low_first_num : forall l, low_first (length l) (num l) = l.
Proof.
  induction l as [|b r IH]; [reflexivity|]. cbn [length num]. rewrite low_first_S. f_equal.
  - rewrite Nat.odd_add, Nat.odd_mul. cbn. now destruct b.
  - replace ((bit b + 2 * num r) / 2) with (num r); [exact IH|]. apply Nat.div_unique with (r := bit b); destruct b; cbn [bit]; lia.
Qed.
Lemma num_bound : forall l, num l < 2 ^ length l.
Proof. induction l as [|b r IH]; [cbn; lia|]. cbn [num length]. rewrite Nat.pow_succ_r'. destruct b; cbn [bit]; lia. Qed.

Lemma zeros_list : forall lens, longest lens = 0 -> exists i, lens = repeat 0 i.
Proof.
  induction lens as [|x r IH]; intros H; [now exists 0|]. cbn [longest fold_right] in H. fold (longest r) in H.
  destruct IH as [i ->]; [lia|]. exists (S i). cbn. f_equal. lia.
Qed.
Lemma single_list : forall lens, longest lens = 1 -> filled lens 1 = 1 -> exists i j, lens = repeat 0 i ++ 1 :: repeat 0 j.
Proof.
  induction lens as [|x r IH]; intros H F; [discriminate|]. cbn [longest fold_right] in H. fold (longest r) in H. rewrite filled_cons in F.
  destruct x as [|[|x]]; [| |lia].
  - cbn [Nat.leb andb] in F. destruct IH as (i & j & ->); [lia|lia|]. exists (S i), j. reflexivity.
  - cbn [Nat.leb andb Nat.sub Nat.pow] in F. destruct (Nat.eq_dec (longest r) 0) as [Z|Z].
    + destruct (zeros_list r Z) as [j ->]. now exists 0, j.
    + exfalso. assert (longest r = 1) as L by lia. assert (filled r 1 = 0) as F0 by lia.
      assert (forall l : list nat, longest l = 1 -> 1 <= filled l 1) as Q.
      { clear. induction l as [|y l IH]; intros L; [discriminate|]. cbn [longest fold_right] in L. fold (longest l) in L. rewrite filled_cons.
        destruct y as [|[|y]]; [|cbn; lia|lia]. cbn [Nat.leb andb]. specialize (IH ltac:(lia)). lia. }
      specialize (Q r L). lia.
Qed.
Lemma build_inv : forall lens t, build lens = Some t -> complete lens.
Proof.
  intros lens t H. unfold build in H. destruct (Nat.eqb_spec (longest lens) 0) as [Z|Z].
  - right; right. now apply zeros_list.
  - pose proof (next_codes_spec lens (longest lens) 1 (fun _ => 0) ltac:(lia)) as S. cbn [Nat.sub filled] in S. rewrite Nat.add_0_l in S.
    destruct (next_codes lens (longest lens) 1 0 (fun _ => 0)) as [code next]. destruct S as (A & _ & _).
    destruct (Nat.eqb_spec code (2 ^ longest lens)) as [E|E]; cbn [negb andb] in H.
    + left. exists (longest lens). split; [apply longest_in|]. rewrite kraft_filled by (apply longest_in). congruence.
    + destruct (Nat.eqb_spec code 1) as [E1|]; [|discriminate]. destruct (Nat.eqb_spec (longest lens) 1) as [E2|]; [|discriminate].
      right; left. apply single_list; [exact E2|]. rewrite E2, E1 in A. now symmetry.
Qed.

Section Inverse.
Context (e : err).

Lemma need_inv : forall inp n reg reg' inp', need e n reg inp = Ok (reg', inp') ->
  n <= length (left_bits reg inp) /\ left_bits reg' inp' = left_bits reg inp /\ n <= length reg'.
Proof.
  induction inp as [|b inp IH]; intros n reg reg' inp' H; cbn [need] in H.
  - destruct (Nat.leb_spec n (length reg)); [|discriminate]. assert (reg = reg' /\ inp' = []) as [<- ->] by (split; congruence). unfold left_bits. rewrite app_length. repeat split; lia.
  - destruct (Nat.leb_spec n (length reg)).
    + assert (reg = reg' /\ inp' = b :: inp) as [<- ->] by (split; congruence). unfold left_bits. rewrite app_length. repeat split; lia.
    + destruct (IH _ _ _ _ H) as (A & B & C).
      assert (left_bits (reg ++ bits_of b) inp = left_bits reg (b :: inp)) as E by (unfold left_bits; now rewrite all_bits_cons, app_assoc).
      rewrite E in A, B. now repeat split.
Qed.
Lemma left_bits_skip : forall n reg inp, left_bits reg inp = firstn n reg ++ left_bits (skipn n reg) inp.
Proof. intros. unfold left_bits. now rewrite app_assoc, firstn_skipn. Qed.
Lemma get_bits_inv : forall n v reg inp reg' inp', get_bits e n reg inp = Ok (v, reg', inp') ->
  v < 2 ^ n /\ left_bits reg inp = low_first n v ++ left_bits reg' inp'.
Proof.
  intros n v reg inp reg' inp' H. unfold get_bits in H. destruct (need e n reg inp) as [[reg1 inp1]| | |] eqn:E; try discriminate. cbn [bind] in H.
  destruct (need_inv _ _ _ _ _ E) as (_ & B & C).
  assert (v = num (firstn n reg1) /\ reg' = skipn n reg1 /\ inp' = inp1) as (-> & -> & ->) by (repeat split; congruence).
  assert (length (firstn n reg1) = n) as L by (now apply firstn_length_le).
  rewrite <- L at 2. split; [apply num_bound|]. rewrite <- B, (left_bits_skip n). f_equal. rewrite <- (low_first_num (firstn n reg1)) at 1. now rewrite L.
Qed.
Lemma huff_sym_inv : forall lens t, table_for lens t -> forall fuel n v reg inp reg' inp',
  huff_sym e fuel t n reg inp = Ok (v, reg', inp') -> has_code lens v /\ left_bits reg inp = code_of lens v ++ left_bits reg' inp' /\ n <= length (left_bits reg inp).
Proof.
  intros lens t T. induction fuel as [|f IH]; intros n v reg inp reg' inp' H; [discriminate|]. cbn [huff_sym] in H.
  destruct (need e n reg inp) as [[reg1 inp1]| | |] eqn:E; try discriminate. cbn [bind] in H. destruct (need_inv _ _ _ _ _ E) as (A & B & C).
  destruct (entry_for (h_codes t) reg1) as [[w x]|] eqn:Ent; [|discriminate].
  unfold entry_for in Ent. apply find_some in Ent as [I St]. cbn [fst] in St. apply (tf_codes _ _ T) in I as [Hx ->].
  destruct (Nat.leb_spec (length (code_of lens x)) (length reg1)) as [Q|Q].
  - assert (x = v /\ reg' = skipn (length (code_of lens x)) reg1 /\ inp' = inp1) as (<- & -> & ->) by (repeat split; congruence).
    split; [exact Hx|]. split; [|exact A]. rewrite <- B, (left_bits_skip (length (code_of lens x))). f_equal.
    apply starts_spec in St. rewrite firstn_app in St. replace (length (code_of lens x) - length reg1) with 0 in St by lia. cbn [firstn] in St. now rewrite app_nil_r in St.
  - destruct (IH _ _ _ _ _ _ H) as (X & Y & _). rewrite B in Y. exact (conj X (conj Y A)).
Qed.
Lemma read_sym_inv : forall lens t v reg inp reg' inp', table_for lens t -> read_sym e t reg inp = Ok (v, reg', inp') ->
  has_code lens v /\ left_bits reg inp = code_of lens v ++ left_bits reg' inp'.
Proof. intros lens t v reg inp reg' inp' T H. destruct (huff_sym_inv lens t T _ _ _ _ _ _ _ H) as (A & B & _). now split. Qed.

Lemma length_base_codes : forall v lb le, 257 <= v -> length_base v = Some (lb, le) -> In (v, le, lb) length_codes.
Proof.
  intros v lb le H E. assert (v < 286) as L.
  { destruct (Nat.lt_ge_cases v 286) as [|G]; [assumption|]. unfold length_base in E.
    replace (v <? 265) with false in E by (symmetry; apply Nat.ltb_ge; lia). replace (v <? 269) with false in E by (symmetry; apply Nat.ltb_ge; lia).
    replace (v <? 273) with false in E by (symmetry; apply Nat.ltb_ge; lia). replace (v <? 277) with false in E by (symmetry; apply Nat.ltb_ge; lia).
    replace (v <? 281) with false in E by (symmetry; apply Nat.ltb_ge; lia). replace (v <? 285) with false in E by (symmetry; apply Nat.ltb_ge; lia).
    replace (v <? 286) with false in E by (symmetry; apply Nat.ltb_ge; lia). discriminate. }
  assert (forallb (fun v => match length_base v with
     | Some (lb, le) => existsb (fun '(a, b, c) => (a =? v) && (b =? le) && (c =? lb)) length_codes
     | None => true end) (seq 257 29) = true) as F by (vm_compute; reflexivity).
  pose proof (proj1 (forallb_forall _ _) F v ltac:(apply in_seq; lia)) as X. cbn beta in X. rewrite E in X.
  apply existsb_exists in X as ([[a b] c] & I & X). apply andb_prop in X as [X X3]. apply andb_prop in X as [X1 X2].
  apply Nat.eqb_eq in X1, X2, X3. subst a b c. exact I.
Qed.
Lemma read_length_inv : forall v len reg inp reg' inp', 257 <= v -> read_length e v reg inp = Ok (len, reg', inp') ->
  exists le lb lx, In (v, le, lb) length_codes /\ lx < 2 ^ le /\ len = lb + lx /\ left_bits reg inp = low_first le lx ++ left_bits reg' inp'.
Proof.
  intros v len reg inp reg' inp' Hv H. unfold read_length in H. destruct (length_base v) as [[base n]|] eqn:E; [|discriminate].
  destruct (get_bits e n reg inp) as [[[x r] i]| | |] eqn:G; try discriminate. cbn [bind] in H. apply get_bits_inv in G as [A B].
  assert (len = base + x /\ reg' = r /\ inp' = i) as (-> & -> & ->) by (repeat split; congruence).
  exists n, base, x. split; [now apply length_base_codes|]. now repeat split.
Qed.

Definition distances_read (td : option table) (dcode : nat -> list bool -> Prop) : Prop :=
  forall s reg inp reg' inp',
  (match td with
     | None => let* (reg, inp) := need e 5 reg inp in Ok (num (rev (firstn 5 reg)), skipn 5 reg, inp)
     | Some t => read_sym e t reg inp
     end) = Ok (s, reg', inp') -> s < 30 ->
  exists w, dcode s w /\ left_bits reg inp = w ++ left_bits reg' inp'.
Lemma fixed_distances_inv : distances_read None fixed_dist.
Proof.
  intros s reg inp reg' inp' H L. destruct (need e 5 reg inp) as [[reg1 inp1]| | |] eqn:E; try discriminate. cbn [bind] in H.
  destruct (need_inv _ _ _ _ _ E) as (_ & B & C).
  assert (s = num (rev (firstn 5 reg1)) /\ reg' = skipn 5 reg1 /\ inp' = inp1) as (Es & -> & ->) by (repeat split; congruence).
  exists (firstn 5 reg1). split; [split; [exact L|]|rewrite <- B; apply left_bits_skip].
  unfold high_first. rewrite Es. assert (length (rev (firstn 5 reg1)) = 5) as L5 by (rewrite rev_length; now apply firstn_length_le).
  rewrite <- L5 at 2. now rewrite low_first_num, rev_involutive.
Qed.
Lemma coded_distances_inv : forall dist t, table_for dist t -> distances_read (Some t) (coded_by dist).
Proof.
  intros dist t T s reg inp reg' inp' H L. destruct (read_sym_inv dist t s reg inp reg' inp' T H) as [A B]. exists (code_of dist s). exact (conj (conj A eq_refl) B).
Qed.
Lemma distance_codes_all : forall d, d < 30 ->
  if d <? 4 then In (d, 0, d + 1) distance_codes
  else In (d, (d - 2) / 2, 2 ^ ((d - 2) / 2 + 1) + 1 + d mod 2 * 2 ^ ((d - 2) / 2)) distance_codes.
Proof.
  intros d L.
  assert (forallb (fun d => existsb (fun '(a, b, c) => (a =? d) && (b =? if d <? 4 then 0 else (d - 2) / 2) &&
     (c =? if d <? 4 then d + 1 else 2 ^ ((d - 2) / 2 + 1) + 1 + d mod 2 * 2 ^ ((d - 2) / 2))) distance_codes) (seq 0 30) = true) as F by (vm_compute; reflexivity).
  pose proof (proj1 (forallb_forall _ _) F d ltac:(apply in_seq; lia)) as X. cbn beta in X.
  apply existsb_exists in X as ([[a b] c] & I & X). apply andb_prop in X as [X X3]. apply andb_prop in X as [X1 X2].
  apply Nat.eqb_eq in X1, X2, X3. subst a b c. destruct (d <? 4); exact I.
Qed.
Lemma read_distance_inv : forall td dcode dist reg inp reg' inp', distances_read td dcode ->
  read_distance e td reg inp = Ok (dist, reg', inp') ->
  exists ds de db dx w, In (ds, de, db) distance_codes /\ dx < 2 ^ de /\ dcode ds w /\ dist = db + dx /\ left_bits reg inp = w ++ low_first de dx ++ left_bits reg' inp'.
Proof.
  intros td dcode dist reg inp reg' inp' R H. unfold read_distance in H.
  destruct (match td with None => _ | Some t => _ end) as [[[d r] i]| | |] eqn:E; try discriminate. cbn [bind] in H.
  specialize (R d reg inp r i E).
  destruct (Nat.ltb_spec d 4) as [L4|L4].
  - destruct (R ltac:(lia)) as (w & W & B). assert (dist = d + 1 /\ reg' = r /\ inp' = i) as (-> & -> & ->) by (repeat split; congruence).
    pose proof (distance_codes_all d ltac:(lia)) as I. replace (d <? 4) with true in I by (symmetry; now apply Nat.ltb_lt).
    exists d, 0, (d + 1), 0, w. split; [exact I|]. split; [cbn; lia|]. split; [exact W|]. split; [lia|]. exact B.
  - destruct (Nat.ltb_spec d 30) as [L|L]; [|discriminate]. destruct (R L) as (w & W & B).
    destruct (get_bits e ((d - 2) / 2) r i) as [[[x r2] i2]| | |] eqn:G; try discriminate. cbn [bind] in H. apply get_bits_inv in G as [A B2].
    assert (dist = 2 ^ ((d - 2) / 2 + 1) + 1 + (d mod 2 * 2 ^ ((d - 2) / 2) + x) /\ reg' = r2 /\ inp' = i2) as (-> & -> & ->).
    { clear - H. set (q := (d - 2) / 2) in *. repeat split; congruence. }
    pose proof (distance_codes_all d L) as I. replace (d <? 4) with false in I by (symmetry; apply Nat.ltb_ge; lia).
    exists d, ((d - 2) / 2), (2 ^ ((d - 2) / 2 + 1) + 1 + d mod 2 * 2 ^ ((d - 2) / 2)), x, w.
    split; [exact I|]. split; [exact A|]. split; [exact W|]. split; [apply Nat.add_assoc|]. now rewrite B, B2.
Qed.
Lemma distance_pos : forall ds de db, In (ds, de, db) distance_codes -> 1 <= db.
Proof. intros ds de db I. destruct (distance_codes_base _ _ _ I) as [_ [(_ & _ & ->)|(_ & _ & ->)]]; lia. Qed.
Lemma write_copy_inv : forall len dist before, 1 <= dist <= length before -> exists copied,
  write_copy len dist before = before ++ copied /\ length copied = len /\
  (forall i, i < len -> nth (length before + i) (before ++ copied) x00 = nth (length before + i - dist) (before ++ copied) x00).
Proof.
  induction len as [|len IH]; intros dist before D.
  - exists []. cbn [write_copy]. rewrite app_nil_r. repeat split. intros; lia.
  - cbn [write_copy]. set (x := nth (length before - dist) before x00).
    destruct (IH dist (before ++ [x])) as (copied & A & B & C). { rewrite app_length. cbn. lia. }
    exists (x :: copied). rewrite A, <- app_assoc. split; [reflexivity|]. split; [cbn; lia|].
    intros i Hi. destruct i as [|i].
    + rewrite Nat.add_0_r, app_nth2, Nat.sub_diag by lia. cbn [nth]. now rewrite app_nth1 by lia.
    + specialize (C i ltac:(lia)). rewrite app_length, <- app_assoc in C. cbn [length app] in C.
      replace (length before + S i) with (length before + 1 + i) by lia. exact C.
Qed.

Lemma huff_block_inv : forall lit tl td dcode, table_for lit tl -> length lit <= 288 -> distances_read td dcode ->
  forall fuel reg inp before out reg' inp', huff_block e fuel tl td reg inp before = (out, Ok (reg', inp')) ->
  exists ts tb, tokens_bits lit dcode ts tb /\ says before ts out /\ left_bits reg inp = tb ++ left_bits reg' inp'.
Proof.
  intros lit tl td dcode T LL R. induction fuel as [|f IH]; intros reg inp before out reg' inp' H; [discriminate|]. cbn [huff_block] in H.
  destruct (read_sym e tl reg inp) as [[[v r] i]| | |] eqn:E; try discriminate. destruct (read_sym_inv lit tl v reg inp r i T E) as [Hv B].
  destruct (Nat.ltb_spec v 256) as [L|L].
  - destruct (IH _ _ _ _ _ _ H) as (ts & tb & A1 & A2 & A3).
    assert (v = Byte.to_nat (byte_of v)) as Ev.
    { unfold byte_of. clear - L. assert (forallb (fun v => v =? Byte.to_nat (match Byte.of_nat v with Some b => b | None => x00 end)) (seq 0 256) = true) as F by (vm_compute; reflexivity).
      apply Nat.eqb_eq. apply (proj1 (forallb_forall _ _) F). apply in_seq. lia. }
    exists (Lit (byte_of v) :: ts), (code_of lit v ++ tb). split; [|split].
    + constructor; [|exact A1]. rewrite Ev at 2. constructor. now rewrite <- Ev.
    + now constructor.
    + now rewrite B, A3, <- app_assoc.
  - destruct (Nat.eqb_spec v 256) as [->|N].
    + assert (before = out /\ r = reg' /\ i = inp') as (<- & <- & <-) by (repeat split; congruence).
      exists [], (code_of lit 256). split; [now constructor|]. split; [constructor|exact B].
    + destruct (read_length e v r i) as [[[len r1] i1]| | |] eqn:E1; try discriminate. cbn [bind] in H.
      destruct (read_distance e td r1 i1) as [[[dist r2] i2]| | |] eqn:E2; try discriminate. cbn [bind] in H.
      destruct (Nat.ltb_spec (length before) dist) as [|LD]; [discriminate|].
      destruct (read_length_inv v len r i r1 i1 ltac:(lia) E1) as (le & lb & lx & I1 & X1 & -> & B1).
      destruct (read_distance_inv td dcode dist r1 i1 r2 i2 R E2) as (ds & de & db & dx & w & I2 & X2 & W & -> & B2).
      destruct (IH _ _ _ _ _ _ H) as (ts & tb & A1 & A2 & A3).
      pose proof (distance_pos _ _ _ I2) as P.
      destruct (write_copy_inv (lb + lx) (db + dx) before ltac:(lia)) as (copied & C1 & C2 & C3). rewrite C1 in A2.
      exists (Copy (lb + lx) (db + dx) :: ts), ((code_of lit v ++ low_first le lx ++ w ++ low_first de dx) ++ tb). split; [|split].
      * constructor; [|exact A1]. now apply TCopy with (ds := ds).
      * apply SaysCopy with (copied := copied); [lia|exact C2|exact C3|exact A2].
      * now rewrite B, B1, B2, A3, <- !app_assoc.
Qed.

Lemma read_lens_inv : forall cl t, table_for cl t -> length cl = 19 ->
  forall fuel n acc reg inp out reg' inp', read_lens e fuel t n acc reg inp = Ok (out, reg', inp') -> length acc <= n ->
  exists rs rb, runs_bits cl rs rb /\ spells acc rs out /\ length out = n /\ left_bits reg inp = rb ++ left_bits reg' inp'.
Proof.
  intros cl t T L19. induction fuel as [|f IH]; intros n acc reg inp out reg' inp' H Hn; cbn [read_lens] in H.
  - destruct (Nat.leb_spec n (length acc)); [|discriminate]. assert (acc = out /\ reg = reg' /\ inp = inp') as (<- & <- & <-) by (repeat split; congruence).
    exists [], []. repeat split; [constructor|constructor|lia].
  - destruct (Nat.leb_spec n (length acc)).
    + assert (acc = out /\ reg = reg' /\ inp = inp') as (<- & <- & <-) by (repeat split; congruence).
      exists [], []. repeat split; [constructor|constructor|lia].
    + destruct (read_sym e t reg inp) as [[[x r] i]| | |] eqn:E; try discriminate. cbn [bind] in H.
      destruct (read_sym_inv cl t x reg inp r i T E) as [Hx B].
      destruct (Nat.ltb_spec x 16) as [L16|L16].
      * destruct (IH _ _ _ _ _ _ _ H) as (rs & rb & A1 & A2 & A3 & A4). { rewrite app_length. cbn. lia. }
        exists (Len x :: rs), (code_of cl x ++ rb). split; [constructor; [now constructor|exact A1]|]. split; [now constructor|]. split; [exact A3|]. now rewrite B, A4, <- app_assoc.
      * destruct (Nat.eqb_spec x 16) as [->|N16].
        -- destruct (Nat.eqb_spec (length acc) 0); [discriminate|].
           destruct (get_bits e 2 r i) as [[[k r1] i1]| | |] eqn:G; try discriminate. cbn [bind] in H. apply get_bits_inv in G as [G1 G2]. change (2 ^ 2) with 4 in G1.
           destruct (Nat.ltb_spec n (length acc + (3 + k))) as [|Ln]; [discriminate|].
           destruct (IH _ _ _ _ _ _ _ H) as (rs & rb & A1 & A2 & A3 & A4). { rewrite app_length, repeat_length. lia. }
           destruct (exists_last (l := acc)) as (acc0 & l & ->). { now destruct acc. }
           rewrite last_last in A2. rewrite <- app_assoc in A2.
           exists (Again (3 + k) :: rs), ((code_of cl 16 ++ low_first 2 (3 + k - 3)) ++ rb). replace (3 + k - 3) with k by lia.
           split; [constructor; [|exact A1]; replace k with (3 + k - 3) at 2 by lia; constructor; [lia|exact Hx]|].
           split; [now constructor|]. split; [exact A3|]. now rewrite B, G2, A4, <- !app_assoc.
        -- destruct (Nat.eqb_spec x 17) as [->|N17].
           ++ destruct (get_bits e 3 r i) as [[[k r1] i1]| | |] eqn:G; try discriminate. cbn [bind] in H. apply get_bits_inv in G as [G1 G2]. change (2 ^ 3) with 8 in G1.
              destruct (Nat.ltb_spec n (length acc + (3 + k))) as [|Ln]; [discriminate|].
              destruct (IH _ _ _ _ _ _ _ H) as (rs & rb & A1 & A2 & A3 & A4). { rewrite app_length, repeat_length. lia. }
              exists (Zeros (3 + k) :: rs), ((code_of cl 17 ++ low_first 3 (3 + k - 3)) ++ rb). replace (3 + k - 3) with k by lia.
              split; [constructor; [|exact A1]; replace k with (3 + k - 3) at 2 by lia; constructor; [lia|exact Hx]|].
              split; [now constructor|]. split; [exact A3|]. now rewrite B, G2, A4, <- !app_assoc.
           ++ assert (x = 18) as -> by (pose proof (proj1 Hx); lia).
              destruct (get_bits e 7 r i) as [[[k r1] i1]| | |] eqn:G; try discriminate. cbn [bind] in H. apply get_bits_inv in G as [G1 G2]. change (2 ^ 7) with 128 in G1.
              destruct (Nat.ltb_spec n (length acc + (11 + k))) as [|Ln]; [discriminate|].
              destruct (IH _ _ _ _ _ _ _ H) as (rs & rb & A1 & A2 & A3 & A4). { rewrite app_length, repeat_length. lia. }
              exists (Zeros (11 + k) :: rs), ((code_of cl 18 ++ low_first 7 (11 + k - 11)) ++ rb). replace (11 + k - 11) with k by lia.
              split; [constructor; [|exact A1]; replace k with (11 + k - 11) at 2 by lia; constructor; [lia|exact Hx]|].
              split; [now constructor|]. split; [exact A3|]. now rewrite B, G2, A4, <- !app_assoc.
Qed.
Lemma read_clens_inv : forall k vs reg inp reg' inp', read_clens e k reg inp = Ok (vs, reg', inp') ->
  length vs = k /\ (forall v, In v vs -> v < 8) /\ left_bits reg inp = flat_map (low_first 3) vs ++ left_bits reg' inp'.
Proof.
  induction k as [|k IH]; intros vs reg inp reg' inp' H; cbn [read_clens] in H.
  - assert ([] = vs /\ reg = reg' /\ inp = inp') as (<- & <- & <-) by (repeat split; congruence). repeat split. intros v [].
  - destruct (get_bits e 3 reg inp) as [[[v r] i]| | |] eqn:G; try discriminate. cbn [bind] in H. apply get_bits_inv in G as [G1 G2].
    destruct (read_clens e k r i) as [[[vs' r1] i1]| | |] eqn:Q; try discriminate. cbn [bind] in H. destruct (IH _ _ _ _ _ Q) as (A & B & C).
    assert (v :: vs' = vs /\ r1 = reg' /\ i1 = inp') as (<- & <- & <-) by (repeat split; congruence).
    split; [cbn; now rewrite A|]. split; [intros x [<-|I]; [exact G1|now apply B]|]. cbn [flat_map]. now rewrite G2, C, <- app_assoc.
Qed.
Lemma codebits_order : forall vs, in_order vs (codebits vs).
Proof.
  intros vs. unfold codebits. split; [now rewrite map_length, seq_length|]. intros i Hi.
  assert (nth i clen_order 0 < 19 /\ position (nth i clen_order 0) code_order = i) as [P1 P2].
  { do 19 (destruct i as [|i]; [cbn; split; [lia|reflexivity]|]). lia. }
  set (f := fun i => nth (position i code_order) vs 0). transitivity (nth (nth i clen_order 0) (map f (seq 0 19)) (f 0)); [apply nth_indep; now rewrite map_length, seq_length|].
  rewrite map_nth, seq_nth by exact P1. cbn [Nat.add]. unfold f. now rewrite P2.
Qed.
Lemma read_huffman_inv : forall reg inp tl td reg' inp', read_huffman e reg inp = Ok (tl, td, reg', inp') ->
  exists lit dist hb, dynamic_header lit dist hb /\ left_bits reg inp = hb ++ left_bits reg' inp' /\ table_for lit tl /\ table_for dist td.
Proof.
  intros reg inp tl td reg' inp' H. unfold read_huffman in H.
  destruct (need e 14 reg inp) as [[reg1 inp1]| | |] eqn:E; try discriminate. cbn [bind] in H. destruct (need_inv _ _ _ _ _ E) as (_ & B & C).
  set (a := num (firstn 5 reg1)) in *. set (b := num (firstn 5 (skipn 5 reg1))) in *. set (c := num (firstn 4 (skipn 10 reg1))) in *.
  destruct (Nat.ltb_spec 286 (a + 257)) as [|La]; [discriminate|]. destruct (Nat.ltb_spec 30 (b + 1)) as [|Lb]; [discriminate|].
  destruct (read_clens e (c + 4) (skipn 14 reg1) inp1) as [[[vs r2] i2]| | |] eqn:E2; try discriminate. cbn [bind] in H.
  destruct (read_clens_inv _ _ _ _ _ _ E2) as (V1 & V2 & V3).
  destruct (build (codebits vs)) as [t|] eqn:Eb; [|discriminate]. pose proof (build_inv _ _ Eb) as CC. destruct (table_from_build _ _ CC Eb) as [T _].
  destruct (read_lens e (a + 257 + (b + 1)) t (a + 257 + (b + 1)) [] r2 i2) as [[[lens r3] i3]| | |] eqn:E3; try discriminate. cbn [bind] in H.
  destruct (read_lens_inv _ _ T (proj1 (codebits_order vs)) _ _ _ _ _ _ _ _ E3 ltac:(cbn; lia)) as (rs & rb & R1 & R2 & R3 & R4).
  destruct (build (firstn (a + 257) lens)) as [t1|] eqn:B1; [|discriminate]. destruct (build (skipn (a + 257) lens)) as [t2|] eqn:B2; [|discriminate].
  pose proof (build_inv _ _ B1) as C1. pose proof (build_inv _ _ B2) as C2. destruct (table_from_build _ _ C1 B1) as [T1 M1]. destruct (table_from_build _ _ C2 B2) as [T2 M2].
  assert (length (firstn (a + 257) lens) = a + 257) as L1 by (apply firstn_length_le; lia).
  assert (length (skipn (a + 257) lens) = b + 1) as L2 by (rewrite skipn_length; lia).
  assert (c < 2 ^ 4) as Lc. { pose proof (num_bound (firstn 4 (skipn 10 reg1))) as Q. rewrite firstn_length_le in Q by (rewrite skipn_length; lia). exact Q. }
  change (2 ^ 4) with 16 in Lc.
  exists (firstn (a + 257) lens), (skipn (a + 257) lens). eexists. split; [|split; [|split]].
  - apply DynamicHeader with (vs := vs) (cl := codebits vs) (rs := rs) (rbits := rb).
    + lia.
    + lia.
    + lia.
    + exact V2.
    + apply codebits_order.
    + exact CC.
    + exact C1.
    + exact C2.
    + exact R1.
    + now rewrite firstn_skipn.
  - rewrite L1, L2, V1. replace (a + 257 - 257) with a by lia. replace (b + 1 - 1) with b by lia. replace (c + 4 - 4) with c by lia.
    assert (r3 = reg' /\ i3 = inp') as [<- <-] by (split; congruence).
    rewrite <- B, (left_bits_skip 14), V3, R4.
    assert (low_first 5 a = firstn 5 reg1) as X1.
    { unfold a. assert (length (firstn 5 reg1) = 5) as Q by (apply firstn_length_le; lia). rewrite <- Q at 1. apply low_first_num. }
    assert (low_first 5 b = firstn 5 (skipn 5 reg1)) as X2.
    { unfold b. assert (length (firstn 5 (skipn 5 reg1)) = 5) as Q by (apply firstn_length_le; rewrite skipn_length; lia). rewrite <- Q at 1. apply low_first_num. }
    assert (low_first 4 c = firstn 4 (skipn 10 reg1)) as X3.
    { unfold c. assert (length (firstn 4 (skipn 10 reg1)) = 4) as Q by (apply firstn_length_le; rewrite skipn_length; lia). rewrite <- Q at 1. apply low_first_num. }
    rewrite X1, X2, X3. clear - C.
    do 14 (destruct reg1 as [|? reg1]; [cbn [length] in C; lia|]). cbn [firstn skipn app]. now rewrite <- app_assoc.
  - assert (tl = {| h_min := Nat.max (h_min t1) (nth 256 (firstn (a + 257) lens) 0); h_codes := h_codes t1 |}) as -> by congruence.
    constructor; cbn [h_min h_codes]; [exact C1|rewrite M1; lia|apply T1].
  - assert (td = t2) as -> by congruence. exact T2.
Qed.
Lemma data_block_inv : forall inp before out inp', data_block e inp before = (out, Ok inp') ->
  exists data, out = before ++ data /\ length data < 2 ^ 16 /\
    all_bits inp = low_first 16 (length data) ++ map negb (low_first 16 (length data)) ++ all_bits data ++ all_bits inp'.
Proof.
  intros inp before out inp' H. unfold data_block in H. destruct inp as [|a [|b [|c [|d inp]]]]; try discriminate.
  destruct (Nat.eqb_spec (Byte.to_nat a + Byte.to_nat c) 255) as [E1|]; [|discriminate]. destruct (Nat.eqb_spec (Byte.to_nat b + Byte.to_nat d) 255) as [E2|]; [|discriminate]. cbn [andb negb] in H.
  set (n := Byte.to_nat a + 256 * Byte.to_nat b) in *.
  destruct (Nat.ltb_spec (length inp) n) as [|L]; [discriminate|].
  assert (out = before ++ firstn n inp /\ inp' = skipn n inp) as [-> ->] by (split; congruence).
  exists (firstn n inp). split; [reflexivity|].
  assert (n < 2 ^ 16) as Ln. { pose proof (to_nat_bound a). pose proof (to_nat_bound b). change (2 ^ 16) with (256 * 256). unfold n. nia. }
  rewrite firstn_length_le by exact L. split; [exact Ln|].
  assert (forall x, num (bits_of x) = Byte.to_nat x) as NB by (destruct x; reflexivity).
  assert (low_first 16 n = bits_of a ++ bits_of b) as X.
  { rewrite <- (low_first_num (bits_of a ++ bits_of b)). rewrite app_length, !bits_of_len. f_equal.
    assert (forall x y, num (x ++ y) = num x + 2 ^ length x * num y) as NA.
    { induction x as [|z x IH]; intros y; cbn [num app length]; [cbn; lia|]. rewrite IH, Nat.pow_succ_r'. lia. }
    rewrite NA, bits_of_len, !NB. reflexivity. }
  assert (forall x y, Byte.to_nat x + Byte.to_nat y = 255 -> bits_of y = map negb (bits_of x)) as NG.
  { intros x y Q. rewrite <- (low_first_num (map negb (bits_of x))), <- (low_first_num (bits_of y)), map_length, !bits_of_len. f_equal.
    rewrite NB. assert (num (map negb (bits_of x)) = 255 - Byte.to_nat x) as -> by (destruct x; reflexivity). lia. }
  rewrite X, map_app, !all_bits_cons, (NG a c E1), (NG b d E2), <- !app_assoc. repeat f_equal. rewrite <- all_bits_app. now rewrite firstn_skipn.
Qed.

Lemma blocks_inv : forall fuel pos reg inp before out inp' T,
  blocks e fuel reg inp before = (out, Ok inp') -> length reg < 8 -> pos + length (left_bits reg inp) = 8 * T ->
  exists bits reg', deflated pos before bits out /\ left_bits reg inp = bits ++ left_bits reg' inp' /\ length reg' < 8.
Proof.
  induction fuel as [|f IH]; intros pos reg inp before out inp' T H Hl Ha; [discriminate|]. cbn [blocks] in H.
  destruct (need e 3 reg inp) as [[reg1 inp1]| | |] eqn:E; try discriminate.
  destruct (need_inv _ _ _ _ _ E) as (N3 & B & C).
  assert (length reg1 < 11) as L1.
  { destruct (need_ok e inp 3 reg N3) as (q1 & q2 & A' & _ & _ & _ & _ & G1 & G2). assert (q1 = reg1 /\ q2 = inp1) as [-> ->] by (split; congruence).
    destruct (Nat.le_gt_cases 3 (length reg)) as [Q|Q]; [destruct (G1 Q) as [-> _]; lia|destruct (G2 Q); lia]. }
  destruct reg1 as [|final [|t1 [|t2 reg2]]]; cbn [length] in C, L1; try lia. cbn [firstn skipn nth] in H.
  assert (forall r i, length (left_bits r i) < S (bits_left r i)) as FU by (intros; unfold left_bits, bits_left; rewrite app_length, all_bits_len; lia).
  (* one block *)
  assert (exists b mid reg3 inp3, block_bits (S pos) before b mid /\ left_bits reg inp = final :: b ++ left_bits reg3 inp3 /\ length reg3 < 8 /\
    (if final then (mid, Ok inp3) else blocks e f reg3 inp3 mid) = (out, Ok inp')) as (b & mid & reg3 & inp3 & B1 & B2 & B3 & B4).
  { destruct t1, t2; cbn [num bit Nat.mul Nat.add] in H.
    - discriminate.
    - destruct (huff_block e (S (bits_left reg2 inp1)) fixed_table None reg2 inp1 before) as [mid r] eqn:HB. destruct r as [[reg3 inp3]| | |]; try discriminate.
      destruct fixed_table_ok as (FT & FM & FN).
      destruct (huff_block_inv fixed_lens fixed_table None fixed_dist FT ltac:(vm_compute; lia) fixed_distances_inv _ _ _ _ _ _ _ HB) as (ts & tb & A1 & A2 & A3).
      exists ([true; false] ++ tb), mid, reg3, inp3. split; [now apply Fixed with (ts := ts)|]. split; [|split; [|exact H]].
      + rewrite <- B. unfold left_bits at 1. cbn [app]. fold (left_bits reg2 inp1). now rewrite A3.
      + destruct (huff_block_ok e fixed_lens fixed_table None fixed_dist FT ltac:(congruence) (fixed_distances e) ts tb A1 before mid A2 (S (bits_left reg2 inp1)) reg2 inp1 _ A3) as (q1 & q2 & X & Y & Z); [rewrite FN; lia|apply FU|].
        assert (q1 = reg3) as <- by congruence. exact Z.
    - destruct (read_huffman e reg2 inp1) as [[[[tl td] r2] i2]| | |] eqn:RH; try discriminate.
      destruct (huff_block e (S (bits_left r2 i2)) tl (Some td) r2 i2 before) as [mid r] eqn:HB. destruct r as [[reg3 inp3]| | |]; try discriminate.
      destruct (read_huffman_inv _ _ _ _ _ _ RH) as (lit & dist & hb & D1 & D2 & D3 & D4).
      assert (length lit <= 288) as LL by (inversion D1; lia).
      destruct (huff_block_inv lit tl (Some td) (coded_by dist) D3 LL (coded_distances_inv dist td D4) _ _ _ _ _ _ _ HB) as (ts & tb & A1 & A2 & A3).
      exists ([false; true] ++ hb ++ tb), mid, reg3, inp3. split; [now apply Dynamic with (lit := lit) (dist := dist) (ts := ts)|]. split; [|split; [|exact H]].
      + rewrite <- B. unfold left_bits at 1. cbn [app]. fold (left_bits reg2 inp1). now rewrite D2, A3, <- app_assoc.
      + destruct (read_huffman_ok e lit dist hb reg2 inp1 _ D1 D2) as (tl' & td' & q1 & q2 & R1 & R2 & R3 & R4 & R5 & R6 & R7).
        assert (tl' = tl /\ td' = td /\ q1 = r2 /\ q2 = i2) as (-> & -> & -> & ->) by (repeat split; congruence).
        destruct (tokens_bits_len _ _ _ _ A1) as [_ H256].
        assert (h_min tl = nth 256 lit 0) as HM.
        { rewrite R4. destruct (shortest_le lit (nth 256 lit 0) (nth_In lit 0 (proj1 H256)) (proj2 H256)). lia. }
        destruct (huff_block_ok e lit tl (Some td) (coded_by dist) R3 HM (coded_distances e dist td R5 R6) ts tb A1 before mid A2 (S (bits_left r2 i2)) r2 i2 _ A3) as (q1 & q2 & X & Y & Z); [specialize (R7 ltac:(lia)); lia|apply FU|].
        assert (q1 = reg3) as <- by congruence. exact Z.
    - destruct (data_block e inp1 before) as [mid r] eqn:DB. destruct r as [inp3| | |]; try discriminate. cbn [map_res bind] in H.
      destruct (data_block_inv _ _ _ _ DB) as (data & -> & D2 & D3).
      exists ([false; false] ++ reg2 ++ low_first 16 (length data) ++ map negb (low_first 16 (length data)) ++ all_bits data), (before ++ data), [], inp3.
      split; [apply Stored; [|lia|exact D2]|split; [|split; [cbn; lia|exact H]]].
      + apply (f_equal (@length bool)) in B. unfold left_bits in B, Ha. repeat rewrite app_length in B. rewrite app_length in Ha. rewrite !all_bits_len in B. rewrite all_bits_len in Ha. cbn [length] in B.
        replace (S pos + 2 + length reg2) with (8 * (T - length inp1)) by lia. rewrite Nat.mul_comm. apply Nat.mod_mul. lia.
      + rewrite <- B. unfold left_bits. cbn [app]. rewrite D3. now rewrite <- !app_assoc. }
  pose proof (f_equal (@length bool) B2) as LB2. cbn [length] in LB2. rewrite app_length in LB2.
  destruct final.
  - assert (mid = out /\ inp3 = inp') as [-> ->] by (split; congruence). exists (true :: b), reg3. split; [now constructor|]. now split.
  - destruct (IH (S pos + length b) reg3 inp3 mid out inp' T B4 B3) as (bits & reg' & X & Y & Z); [lia|].
    exists (false :: b ++ bits), reg'. split; [now apply MoreBlocks with (mid := mid)|]. split; [|exact Z]. rewrite B2, Y. cbn [app]. now rewrite <- app_assoc.
Qed.
End Inverse.

Theorem inflate_inv : forall z e data rest, inflate (mk z e) = (data, Ok rest) -> exists d, z = d ++ rest /\ deflate_of data d.
Proof.
  intros z e data rest H. unfold inflate in H. cbn [mk st_data st_err] in H.
  destruct (blocks_inv e _ 0 [] z [] data rest (length z) H) as (bits & reg' & A & B & C).
  { cbn; lia. } { unfold left_bits. cbn [app]. rewrite all_bits_len. lia. }
  unfold left_bits in B. cbn [app] in B.
  pose proof (f_equal (@length bool) B) as L. repeat rewrite app_length in L. rewrite !all_bits_len in L.
  exists (firstn (length z - length rest) z).
  assert (all_bits z = all_bits (firstn (length z - length rest) z) ++ all_bits (skipn (length z - length rest) z)) as S by (rewrite <- all_bits_app; now rewrite firstn_skipn).
  rewrite B, app_assoc in S. apply app_inj_len in S as [S1 S2].
  2:{ rewrite app_length, all_bits_len, firstn_length_le by lia. lia. }
  split.
  - apply all_bits_inj in S2. rewrite <- (firstn_skipn (length z - length rest) z) at 1. now rewrite <- S2.
  - exists bits, reg'. now repeat split.
Qed.
