(** Facts about compress/flate: bits, canonical Huffman codes, blocks. *)
From Verif Require Import Base GoStr Reader Inflate InflateSpec.
From Coq Require Import PeanoNat Lia.

(** ** Bits *)
Lemma bits_of_spec : forall b, bits_of b = byte_bits b.
Proof. destruct b; reflexivity. Qed.
Lemma byte_bits_len : forall b, length (byte_bits b) = 8.
Proof. reflexivity. Qed.
Lemma all_bits_cons : forall b r, all_bits (b :: r) = bits_of b ++ all_bits r.
Proof. intros. unfold all_bits. cbn [flat_map]. now rewrite bits_of_spec. Qed.
Lemma all_bits_app : forall a b, all_bits (a ++ b) = all_bits a ++ all_bits b.
Proof. intros. apply flat_map_app. Qed.
Lemma bits_of_len : forall b, length (bits_of b) = 8.
Proof. intros. now rewrite bits_of_spec. Qed.
Lemma all_bits_len : forall l, length (all_bits l) = 8 * length l.
Proof. induction l as [|b r IH]; [reflexivity|]. rewrite all_bits_cons, app_length, bits_of_len, IH. cbn [length]. lia. Qed.

Lemma low_first_len : forall n v, length (low_first n v) = n.
Proof. intros. unfold low_first. now rewrite map_length, seq_length. Qed.
Lemma low_first_S : forall n v, low_first (S n) v = Nat.odd v :: low_first n (v / 2).
Proof.
  intros. unfold low_first. cbn [seq map]. f_equal. rewrite <- seq_shift, map_map. apply map_ext. intros i.
  rewrite <- Nat.div2_div. reflexivity.
Qed.
Lemma bit_odd : forall v, bit (Nat.odd v) + 2 * (v / 2) = v.
Proof. intros. pose proof (Nat.div2_odd v) as H. rewrite Nat.div2_div in H. unfold Nat.b2n in H. unfold bit. lia. Qed.
Lemma num_low_first : forall n v, v < 2 ^ n -> num (low_first n v) = v.
Proof.
  induction n; intros v H. { cbn in *. lia. }
  rewrite low_first_S. cbn [num]. rewrite IHn; [apply bit_odd|]. apply Nat.div_lt_upper_bound; [lia|]. rewrite Nat.pow_succ_r' in H. lia.
Qed.

(** ** Code words as numbers *)
Definition big (l : list bool) : nat := fold_left (fun n b => 2 * n + bit b) l 0.
Lemma big_snoc : forall l b, big (l ++ [b]) = 2 * big l + bit b.
Proof. intros. unfold big. now rewrite fold_left_app. Qed.
Lemma codeword_len : forall n v, length (codeword n v) = n.
Proof. induction n; intros; [reflexivity|]. cbn [codeword]. rewrite app_length, IHn. cbn. lia. Qed.
Lemma high_first_codeword : forall n v, high_first n v = codeword n v.
Proof.
  induction n; intros; [reflexivity|]. unfold high_first. rewrite low_first_S. cbn [rev codeword]. fold (high_first n (v / 2)). now rewrite IHn.
Qed.
Lemma big_codeword : forall n v, v < 2 ^ n -> big (codeword n v) = v.
Proof.
  induction n; intros v H. { cbn in *. lia. }
  cbn [codeword]. rewrite big_snoc, IHn. { pose proof (bit_odd v). lia. }
  apply Nat.div_lt_upper_bound; [lia|]. rewrite Nat.pow_succ_r' in H. lia.
Qed.
Lemma big_app : forall a b, big (a ++ b) = big a * 2 ^ length b + big b.
Proof.
  intros a b. induction b as [|x b IH] using rev_ind. { rewrite app_nil_r. cbn. lia. }
  rewrite app_assoc, !big_snoc, IH, app_length. cbn [length]. replace (length b + 1) with (S (length b)) by lia. rewrite Nat.pow_succ_r'. lia.
Qed.
Lemma big_zeros : forall n, big (repeat false n) = 0.
Proof. induction n; [reflexivity|]. replace (S n) with (n + 1) by lia. rewrite repeat_app. cbn [repeat]. rewrite big_snoc, IHn. reflexivity. Qed.
Lemma big_bound : forall l, big l < 2 ^ length l.
Proof.
  induction l as [|b l IH] using rev_ind; [cbn; lia|]. rewrite big_snoc, app_length. cbn [length].
  replace (length l + 1) with (S (length l)) by lia. rewrite Nat.pow_succ_r'. destruct b; cbn [bit]; lia.
Qed.
Lemma codeword_big : forall w, codeword (length w) (big w) = w.
Proof.
  induction w as [|b w IH] using rev_ind; [reflexivity|].
  rewrite big_snoc, app_length. cbn [length]. replace (length w + 1) with (S (length w)) by lia. cbn [codeword]. f_equal.
  - replace ((2 * big w + bit b) / 2) with (big w); [apply IH|]. apply Nat.div_unique with (r := bit b); destruct b; cbn; lia.
  - f_equal. destruct b; cbn [bit].
    + rewrite Nat.odd_add, Nat.odd_mul. reflexivity.
    + rewrite Nat.add_0_r, Nat.odd_mul. reflexivity.
Qed.
Lemma big_inj : forall a b, length a = length b -> big a = big b -> a = b.
Proof. intros a b H E. rewrite <- (codeword_big a), <- (codeword_big b). now rewrite H, E. Qed.

(** ** Canonical codes *)
Lemma how_many_count : how_many = count.
Proof. reflexivity. Qed.
Lemma how_many_app : forall a b n, how_many (a ++ b) n = how_many a n + how_many b n.
Proof. intros. unfold how_many. now rewrite filter_app, app_length. Qed.
Lemma how_many_cons : forall l r n, how_many (l :: r) n = (if n =? l then 1 else 0) + how_many r n.
Proof. intros. unfold how_many. cbn [filter]. destruct (n =? l); reflexivity. Qed.

(** The code words of at most [n] bits, counted in words of [n] bits. *)
Fixpoint filled (lens : list nat) (n : nat) : nat :=
  match n with 0 => 0 | S m => 2 * filled lens m + how_many lens (S m) end.
Lemma first_code_filled : forall lens n, first_code lens (S n) = 2 * filled lens n.
Proof.
  intros lens. induction n as [|n IH]; [reflexivity|]. cbn [first_code filled] in *. rewrite IH. reflexivity.
Qed.
Lemma filled_first : forall lens n, 1 <= n -> filled lens n = first_code lens n + how_many lens n.
Proof. intros lens [|n] H; [lia|]. rewrite first_code_filled. reflexivity. Qed.
Lemma filled_cons : forall l r n, filled (l :: r) n = (if (1 <=? l) && (l <=? n) then 2 ^ (n - l) else 0) + filled r n.
Proof.
  intros l r. induction n as [|n IH]. { cbn. destruct l; reflexivity. }
  cbn [filled]. rewrite IH, how_many_cons.
  destruct (Nat.eqb_spec (S n) l) as [E|E].
  - subst l. replace (S n <=? n) with false by (symmetry; apply Nat.leb_gt; lia). rewrite Nat.leb_refl, Nat.sub_diag. cbn. lia.
  - destruct (Nat.leb_spec 1 l); cbn [andb]; [|lia].
    destruct (Nat.leb_spec l n).
    + replace (l <=? S n) with true by (symmetry; apply Nat.leb_le; lia). replace (S n - l) with (S (n - l)) by lia. rewrite Nat.pow_succ_r'. lia.
    + replace (l <=? S n) with false by (symmetry; apply Nat.leb_gt; lia). lia.
Qed.
Lemma kraft_filled : forall lens m, (forall l, In l lens -> l <= m) -> kraft m lens = filled lens m.
Proof.
  induction lens as [|l r IH]; intros m H. { cbn [kraft]. induction m; cbn; [reflexivity|]. rewrite <- IHm; [reflexivity|]. intros ? []. }
  cbn [kraft]. rewrite filled_cons, IH by (intros; apply H; now right).
  specialize (H l (or_introl eq_refl)). destruct (Nat.eqb_spec l 0); [subst; reflexivity|].
  replace (1 <=? l) with true by (symmetry; apply Nat.leb_le; lia). replace (l <=? m) with true by (symmetry; apply Nat.leb_le; lia). reflexivity.
Qed.
Lemma filled_grows : forall lens d n, filled lens n * 2 ^ d <= filled lens (n + d).
Proof.
  induction d; intros. { rewrite Nat.add_0_r. cbn. lia. }
  replace (n + S d) with (S (n + d)) by lia. cbn [filled]. rewrite Nat.pow_succ_r'. specialize (IHd n). nia.
Qed.
Lemma first_code_grows : forall lens l m, l < m -> filled lens l * 2 ^ (m - l) <= first_code lens m.
Proof.
  intros lens l m H. destruct m as [|m]; [lia|]. rewrite first_code_filled. pose proof (filled_grows lens (m - l) l) as G.
  replace (l + (m - l)) with m in G by lia. replace (S m - l) with (S (m - l)) by lia. rewrite Nat.pow_succ_r'. nia.
Qed.
Lemma how_many_none : forall lens n, longest lens < n -> how_many lens n = 0.
Proof.
  intros lens n H. unfold how_many. induction lens as [|l r IH]; [reflexivity|]. cbn [filter longest fold_right] in *. fold (longest r) in *.
  destruct (Nat.eqb_spec n l); [lia|]. apply IH. lia.
Qed.
Lemma filled_beyond : forall lens d, filled lens (longest lens + d) = filled lens (longest lens) * 2 ^ d.
Proof.
  intros lens. induction d. { rewrite Nat.add_0_r. cbn. lia. }
  replace (longest lens + S d) with (S (longest lens + d)) by lia. cbn [filled]. rewrite IHd, how_many_none by lia. rewrite Nat.pow_succ_r'. lia.
Qed.
Lemma longest_in : forall lens l, In l lens -> l <= longest lens.
Proof. induction lens as [|x r IH]; intros l []; cbn [longest fold_right]; fold (longest r). - lia. - specialize (IH l H). lia. Qed.
Lemma longest_least : forall lens m, (forall l, In l lens -> l <= m) -> longest lens <= m.
Proof. induction lens as [|x r IH]; intros m H; [cbn; lia|]. cbn [longest fold_right]. fold (longest r). pose proof (H x (or_introl eq_refl)). specialize (IH m (fun l I => H l (or_intror I))). lia. Qed.

Definition full (lens : list nat) : Prop := filled lens (longest lens) = 2 ^ longest lens.
Lemma complete_full : forall lens, complete lens -> full lens \/ (exists i j, lens = repeat 0 i ++ 1 :: repeat 0 j) \/ (exists i, lens = repeat 0 i).
Proof.
  intros lens [(m & H & K)|[D|Z]]; [left|right; left; exact D|right; right; exact Z].
  unfold full. rewrite kraft_filled in K by exact H. pose proof (longest_least _ _ H) as L.
  replace m with (longest lens + (m - longest lens)) in K by lia. rewrite filled_beyond, Nat.pow_add_r in K.
  assert (0 < 2 ^ (m - longest lens)) by (apply Nat.neq_0_lt_0, Nat.pow_nonzero; lia). nia.
Qed.
Lemma longest_zeros : forall i, longest (repeat 0 i) = 0.
Proof. induction i; [reflexivity|]. cbn. exact IHi. Qed.
Lemma longest_app : forall a b, longest (a ++ b) = Nat.max (longest a) (longest b).
Proof. induction a; intros; [reflexivity|]. cbn [app longest fold_right]. fold (longest (a0 ++ b)). fold (longest a0). rewrite IHa. lia. Qed.
Lemma how_many_zeros : forall i n, 1 <= n -> how_many (repeat 0 i) n = 0.
Proof. intros. unfold how_many. induction i; [reflexivity|]. cbn [repeat filter]. destruct (Nat.eqb_spec n 0); [lia|exact IHi]. Qed.
Lemma single_longest : forall i j, longest (repeat 0 i ++ 1 :: repeat 0 j) = 1.
Proof. intros. rewrite longest_app. cbn [longest fold_right]. fold (longest (repeat 0 j)). now rewrite !longest_zeros. Qed.
Lemma single_filled : forall i j, filled (repeat 0 i ++ 1 :: repeat 0 j) 1 = 1.
Proof. intros. cbn [filled]. rewrite how_many_app, how_many_cons, !how_many_zeros by lia. reflexivity. Qed.

(** No code is over-full. *)
Definition roomy (lens : list nat) : Prop := forall n, filled lens n <= 2 ^ n.
Lemma room_from_top : forall lens, filled lens (longest lens) <= 2 ^ longest lens -> roomy lens.
Proof.
  intros lens H n. destruct (Nat.le_gt_cases n (longest lens)) as [L|L].
  - pose proof (filled_grows lens (longest lens - n) n) as G. replace (n + (longest lens - n)) with (longest lens) in G by lia.
    assert (2 ^ longest lens = 2 ^ n * 2 ^ (longest lens - n)) as E by (rewrite <- Nat.pow_add_r; f_equal; lia).
    assert (0 < 2 ^ (longest lens - n)) by (apply Nat.neq_0_lt_0, Nat.pow_nonzero; lia). nia.
  - replace n with (longest lens + (n - longest lens)) by lia. rewrite filled_beyond, Nat.pow_add_r. nia.
Qed.
Lemma complete_roomy : forall lens, complete lens -> roomy lens.
Proof.
  intros lens C. apply room_from_top. destruct (complete_full _ C) as [F|[(i & j & ->)|(i & ->)]].
  - rewrite F. lia.
  - rewrite single_longest, single_filled. cbn. lia.
  - rewrite longest_zeros. cbn. lia.
Qed.

(** The code word of a symbol, as a number. *)
Definition value (lens : list nat) (s : nat) : nat := first_code lens (nth s lens 0) + how_many (firstn s lens) (nth s lens 0).
Lemma code_of_value : forall lens s, code_of lens s = codeword (nth s lens 0) (value lens s).
Proof. intros. unfold code_of. now rewrite high_first_codeword. Qed.
Lemma code_len : forall lens s, length (code_of lens s) = nth s lens 0.
Proof. intros. now rewrite code_of_value, codeword_len. Qed.
Lemma split_at : forall (lens : list nat) s, s < length lens -> lens = firstn s lens ++ nth s lens 0 :: skipn (S s) lens.
Proof.
  induction lens as [|x r IH]; intros s H; [cbn in H; lia|]. destruct s; [reflexivity|]. cbn [firstn nth skipn app]. f_equal. apply IH. cbn in H. lia.
Qed.
Lemma rank_bound : forall lens s, s < length lens -> how_many (firstn s lens) (nth s lens 0) < how_many lens (nth s lens 0).
Proof.
  intros lens s H. rewrite (split_at lens s H) at 3. rewrite how_many_app, how_many_cons, Nat.eqb_refl. lia.
Qed.
Lemma value_bound : forall lens s, has_code lens s -> value lens s < filled lens (nth s lens 0).
Proof. intros lens s [H N]. unfold value. rewrite filled_first by lia. pose proof (rank_bound lens s H). lia. Qed.
Lemma value_fits : forall lens s, roomy lens -> has_code lens s -> value lens s < 2 ^ nth s lens 0.
Proof. intros lens s R H. pose proof (value_bound lens s H). specialize (R (nth s lens 0)). lia. Qed.
Lemma big_code : forall lens s, roomy lens -> has_code lens s -> big (code_of lens s) = value lens s.
Proof. intros. rewrite code_of_value. apply big_codeword. now apply value_fits. Qed.
Lemma value_low : forall lens s, first_code lens (nth s lens 0) <= value lens s.
Proof. intros. unfold value. lia. Qed.

Lemma rank_inj : forall lens s s', s < s' -> s' < length lens -> nth s lens 0 = nth s' lens 0 ->
  how_many (firstn s lens) (nth s lens 0) < how_many (firstn s' lens) (nth s lens 0).
Proof.
  intros lens s s' L H E.
  rewrite <- (firstn_skipn s (firstn s' lens)), how_many_app, firstn_firstn, Nat.min_l by lia.
  assert (In (nth s lens 0) (skipn s (firstn s' lens))) as I.
  { rewrite skipn_firstn_comm. rewrite <- (firstn_skipn s lens) at 1. rewrite app_nth2; rewrite firstn_length_le by lia; [|lia]. rewrite Nat.sub_diag.
    destruct (skipn s lens) as [|y t] eqn:Es. { pose proof (skipn_length s lens) as SL. rewrite Es in SL. cbn in SL. lia. }
    cbn [nth]. destruct (s' - s) eqn:Ed; [lia|]. cbn [firstn]. now left. }
  assert (1 <= how_many (skipn s (firstn s' lens)) (nth s lens 0)); [|lia].
  unfold how_many. destruct (filter _ _) as [|x t] eqn:Ef; [|cbn; lia]. exfalso.
  assert (In (nth s lens 0) (filter (Nat.eqb (nth s lens 0)) (skipn s (firstn s' lens)))) as J by (apply filter_In; split; [exact I|apply Nat.eqb_refl]).
  rewrite Ef in J. destruct J.
Qed.

(** Code words of different symbols: a longer one is larger, also after filling up the shorter one. *)
Lemma longer_is_larger : forall lens s s', has_code lens s -> has_code lens s' -> nth s lens 0 < nth s' lens 0 ->
  (value lens s + 1) * 2 ^ (nth s' lens 0 - nth s lens 0) <= value lens s'.
Proof.
  intros lens s s' H H' L. pose proof (value_bound lens s H) as B. pose proof (value_low lens s') as B'.
  pose proof (first_code_grows lens _ _ L) as G. nia.
Qed.

Definition prefix {A} (a b : list A) : Prop := exists c, b = a ++ c.
Lemma code_prefix_free : forall lens s s', roomy lens -> has_code lens s -> has_code lens s' ->
  prefix (code_of lens s) (code_of lens s') -> s = s'.
Proof.
  intros lens s s' R H H' [c E].
  pose proof (f_equal (@length bool) E) as EL. rewrite app_length, !code_len in EL.
  pose proof (f_equal big E) as EB. rewrite big_app, !big_code in EB by assumption.
  destruct (Nat.eq_dec (length c) 0) as [Z|Z].
  - destruct c; [|discriminate]. cbn in EB, EL.
    assert (nth s lens 0 = nth s' lens 0) as EN by lia.
    assert (value lens s = value lens s') as EV by lia. unfold value in EV. rewrite <- EN in EV.
    destruct (Nat.lt_trichotomy s s') as [L|[?|L]]; [|assumption|]; exfalso.
    + pose proof (rank_inj lens s s' L (proj1 H') EN). lia.
    + pose proof (rank_inj lens s' s L (proj1 H) (eq_sym EN)) as Q. rewrite <- EN in Q. lia.
  - exfalso. pose proof (longer_is_larger lens s s' H H' ltac:(lia)) as G.
    replace (nth s' lens 0 - nth s lens 0) with (length c) in G by lia. pose proof (big_bound c). nia.
Qed.

(** ** The table *)
Lemma next_codes_spec : forall lens k i next,
  1 <= i ->
  let '(code, next') := next_codes lens k i (filled lens (i - 1)) next in
  code = filled lens (i - 1 + k) /\
  (forall n, i <= n < i + k -> next' n = first_code lens n) /\
  (forall n, ~ (i <= n < i + k) -> next' n = next n).
Proof.
  induction k; intros i next Hi.
  - cbn [next_codes]. rewrite Nat.add_0_r. split; [reflexivity|]. split; [intros; lia|reflexivity].
  - cbn [next_codes]. destruct i as [|i]; [lia|]. replace (S i - 1) with i by lia.
    specialize (IHk (S (S i)) (fun n => if n =? S i then 2 * filled lens i else next n) ltac:(lia)).
    replace (S (S i) - 1) with (S i) in IHk by lia. cbn [filled] in IHk. rewrite how_many_count in IHk.
    destruct (next_codes lens k (S (S i)) _ _) as [code next']. destruct IHk as (A & B & C).
    split; [rewrite A; f_equal; lia|]. split.
    + intros n Hn. destruct (Nat.eq_dec n (S i)) as [->|N].
      * rewrite C by lia. rewrite Nat.eqb_refl. symmetry. apply first_code_filled.
      * apply B. lia.
    + intros n Hn. rewrite C by lia. destruct (Nat.eqb_spec n (S i)); [lia|reflexivity].
Qed.
Lemma assign_codes_spec : forall lens r pre next,
  lens = pre ++ r -> (forall n, In n r -> n <> 0 -> next n = first_code lens n + how_many pre n) ->
  forall w v, In (w, v) (assign_codes next r (length pre)) <-> (length pre <= v /\ has_code lens v /\ w = code_of lens v).
Proof.
  intros lens. induction r as [|l r IH]; intros pre next E N w v.
  - cbn [assign_codes In]. split; [intros []|]. intros (A & [B _] & _). subst lens. rewrite app_nil_r in B. lia.
  - assert (lens = (pre ++ [l]) ++ r) as E' by (rewrite E, <- app_assoc; reflexivity).
    assert (nth (length pre) lens 0 = l) as El by (rewrite E, app_nth2, Nat.sub_diag by lia; reflexivity).
    assert (length (pre ++ [l]) = S (length pre)) as Ln by (rewrite app_length; cbn; lia).
    assert (length pre < length lens) as Lt by (rewrite E, app_length; cbn; lia).
    destruct l as [|l].
    + cbn [assign_codes]. specialize (IH (pre ++ [0]) next E'). rewrite Ln in IH. rewrite IH.
      * split; intros (A & B & C); (split; [|split; assumption]); [lia|].
        destruct (Nat.eq_dec v (length pre)) as [->|]; [|lia]. exfalso. apply (proj2 B). exact El.
      * intros n I Z. rewrite N by (try right; assumption). rewrite how_many_app. unfold how_many at 3. cbn [filter]. destruct (Nat.eqb_spec n 0); [lia|]. cbn. lia.
    + cbn [assign_codes In]. specialize (IH (pre ++ [S l]) (fun m => if m =? S l then S (next m) else next m) E'). rewrite Ln in IH. rewrite IH.
      * assert (codeword (S l) (next (S l)) = code_of lens (length pre)) as Ec.
        { rewrite code_of_value, El. f_equal. unfold value. rewrite El, N by (try left; congruence).
          rewrite E at 3. rewrite firstn_app, Nat.sub_diag, firstn_all, app_nil_r. reflexivity. }
        rewrite Ec. split.
        -- intros [I|(A & B & C)].
           ++ assert (w = code_of lens (length pre) /\ v = length pre) as [-> ->] by (split; congruence).
              split; [lia|]. split; [split; [exact Lt|rewrite El; discriminate]|reflexivity].
           ++ split; [lia|]. now split.
        -- intros (A & B & C). destruct (Nat.eq_dec v (length pre)) as [->|]; [left; congruence|right]. split; [lia|now split].
      * intros n I Z. rewrite how_many_app, how_many_cons. replace (how_many [] n) with 0 by reflexivity.
        destruct (Nat.eqb_spec n (S l)) as [->|]; rewrite N by (try (right; assumption); try assumption); lia.
Qed.

Lemma shortest_le : forall lens l, In l lens -> l <> 0 -> shortest lens <= l /\ shortest lens <> 0.
Proof.
  induction lens as [|x r IH]; intros l [] N; cbn [shortest fold_right]; fold (shortest r).
  - subst x. destruct (Nat.eqb_spec l 0); [lia|]. destruct (Nat.eqb_spec (shortest r) 0); cbn [orb]; [lia|].
    destruct (Nat.ltb_spec l (shortest r)); lia.
  - destruct (IH l H N) as [A B]. destruct (Nat.eqb_spec x 0); [now split|].
    destruct (Nat.eqb_spec (shortest r) 0); [lia|]. cbn [orb]. destruct (Nat.ltb_spec x (shortest r)); lia.
Qed.
Lemma longest_pos : forall lens s, has_code lens s -> longest lens <> 0.
Proof. intros lens s [A B]. pose proof (longest_in lens _ (nth_In lens 0 A)). lia. Qed.

Lemma build_complete : forall lens, complete lens -> exists t, build lens = Some t /\ h_min t = shortest lens /\
  (forall w v, In (w, v) (h_codes t) <-> (has_code lens v /\ w = code_of lens v)).
Proof.
  intros lens C. unfold build.
  destruct (Nat.eqb_spec (longest lens) 0) as [Z|Z].
  - eexists. split; [reflexivity|]. split.
    + cbn. destruct (Nat.eq_dec (shortest lens) 0) as [|Q]; [congruence|]. exfalso.
      assert (exists l, In l lens /\ l <> 0) as (l & I & N).
      { clear -Q. induction lens as [|x r IH]; [now cbn in Q|]. cbn [shortest fold_right] in Q. fold (shortest r) in Q.
        destruct (Nat.eqb_spec x 0) as [->|]; [|exists x; split; [now left|assumption]]. destruct (IH Q) as (l & I & N). exists l. split; [now right|assumption]. }
      pose proof (longest_in lens l I). lia.
    + cbn. intros w v. split; [intros []|]. intros [H _]. now apply (longest_pos lens v H).
  - pose proof (next_codes_spec lens (longest lens) 1 (fun _ => 0) ltac:(lia)) as S. cbn [Nat.sub filled] in S. rewrite Nat.add_0_l in S.
    destruct (next_codes lens (longest lens) 1 0 (fun _ => 0)) as [code next]. destruct S as (A & B & _).
    assert (negb (code =? 2 ^ longest lens) && negb ((code =? 1) && (longest lens =? 1)) = false) as T.
    { destruct (complete_full _ C) as [F|[(i & j & E)|(i & E)]].
      - rewrite A, F, Nat.eqb_refl. reflexivity.
      - rewrite A, E, single_longest, single_filled. now rewrite andb_false_r.
      - rewrite E, longest_zeros in Z. lia. }
    rewrite T. eexists. split; [reflexivity|]. split; [reflexivity|]. cbn [h_codes].
    intros w v. rewrite (assign_codes_spec lens lens [] next eq_refl).
    + cbn [length]. split; [intros (_ & Q); exact Q|intros Q; split; [lia|exact Q]].
    + intros n I N. rewrite B. { unfold how_many. cbn. lia. } pose proof (longest_in lens n I). lia.
Qed.

(** ** Reading a symbol *)
Lemma app_inj_len : forall {A} (a b c d : list A), a ++ b = c ++ d -> length a = length c -> a = c /\ b = d.
Proof.
  induction a as [|x a IH]; intros b [|y c] d E L; try discriminate; [now split|]. cbn in *. injection E as -> E. destruct (IH b c d E) as [-> ->]; [lia|]. now split.
Qed.

Definition left_bits (reg : list bool) (inp : bytes) : list bool := reg ++ all_bits inp.

Lemma starts_spec : forall w reg, starts w reg = true -> w = firstn (length w) (reg ++ repeat false (length w)).
Proof.
  induction w as [|b w IH]; intros reg H; [reflexivity|]. cbn [starts] in H. destruct reg as [|c reg].
  - apply andb_prop in H as [A B]. destruct b; [discriminate|]. specialize (IH [] B). cbn [app length repeat firstn] in *. f_equal. exact IH.
  - apply andb_prop in H as [A B]. apply Bool.eqb_prop in A. subst c. specialize (IH reg B). cbn [app length firstn]. f_equal.
    rewrite IH at 1. cbn [repeat]. replace (false :: repeat false (length w)) with (repeat false (length w) ++ [false]) by (rewrite <- repeat_cons; reflexivity).
    rewrite app_assoc, (firstn_app (length w) (reg ++ repeat false (length w)) [false]). rewrite app_length, repeat_length. replace (length w - (length reg + length w)) with 0 by lia. cbn [firstn]. now rewrite app_nil_r.
Qed.
Lemma starts_prefix : forall w more, starts w (w ++ more) = true.
Proof. induction w as [|b w IH]; intros; [reflexivity|]. cbn [app starts]. rewrite Bool.eqb_reflx. apply IH. Qed.
Lemma starts_zeros : forall reg k, starts (reg ++ repeat false k) reg = true.
Proof.
  induction reg as [|b r IH]; intros k; cbn [app starts].
  - induction k; [reflexivity|]. cbn. exact IHk.
  - rewrite Bool.eqb_reflx. apply IH.
Qed.

(** Among the words that agree with the bits at hand, the one with zeros is the shortest. *)
Lemma zeros_give_the_shortest : forall lens s s' reg k c, roomy lens -> has_code lens s -> has_code lens s' ->
  code_of lens s = reg ++ c -> code_of lens s' = reg ++ repeat false k -> nth s' lens 0 <= nth s lens 0.
Proof.
  intros lens s s' reg k c R H H' E E'. destruct (Nat.le_gt_cases (nth s' lens 0) (nth s lens 0)) as [|L]; [assumption|exfalso].
  pose proof (longer_is_larger lens s s' H H' L) as G.
  pose proof (f_equal (@length bool) E) as EL. rewrite app_length, code_len in EL.
  pose proof (f_equal (@length bool) E') as EL'. rewrite app_length, repeat_length, code_len in EL'.
  rewrite <- (big_code lens s R H), <- (big_code lens s' R H'), E, E', !big_app, big_zeros, repeat_length in G.
  set (d := nth s' lens 0 - nth s lens 0) in *. replace k with (length c + d) in G by lia. rewrite Nat.pow_add_r in G.
  assert (0 < 2 ^ d) by (apply Nat.neq_0_lt_0, Nat.pow_nonzero; lia). nia.
Qed.

(** A full code has a word for all bits. *)
Lemma symbol_at : forall lens n x, 1 <= n -> x < how_many lens n -> exists s, has_code lens s /\ nth s lens 0 = n /\ how_many (firstn s lens) n = x.
Proof.
  induction lens as [|l r IH]; intros n x Hn Hx; [cbn in Hx; lia|]. rewrite how_many_cons in Hx.
  destruct (Nat.eqb_spec n l) as [->|N].
  - destruct x as [|x].
    + exists 0. split; [split; [cbn; lia|cbn; lia]|]. split; reflexivity.
    + destruct (IH l x Hn ltac:(lia)) as (s & [A B] & C & D). exists (S s). split; [split; [cbn; lia|exact B]|]. split; [exact C|].
      cbn [firstn]. rewrite how_many_cons, Nat.eqb_refl, D. reflexivity.
  - destruct (IH n x Hn ltac:(lia)) as (s & [A B] & C & D). exists (S s). split; [split; [cbn; lia|exact B]|]. split; [exact C|].
    cbn [firstn]. rewrite how_many_cons, D. destruct (Nat.eqb_spec n l); [lia|reflexivity].
Qed.
Lemma a_length_for : forall lens x m, x < filled lens m -> exists l, 1 <= l <= m /\
  first_code lens l * 2 ^ (m - l) <= x /\ x < filled lens l * 2 ^ (m - l).
Proof.
  intros lens x m. revert x. induction m as [|m IH]; intros x H; [cbn in H; lia|].
  destruct (Nat.lt_ge_cases x (2 * filled lens m)) as [L|L].
  - destruct (IH (x / 2)) as (l & A & B & C). { apply Nat.div_lt_upper_bound; lia. }
    exists l. split; [lia|]. replace (S m - l) with (S (m - l)) by lia. rewrite Nat.pow_succ_r'.
    pose proof (Nat.div_mod x 2 ltac:(lia)). pose proof (Nat.mod_upper_bound x 2 ltac:(lia)). split; nia.
  - exists (S m). split; [lia|]. rewrite Nat.sub_diag, first_code_filled. cbn [Nat.pow]. split; lia.
Qed.
Lemma a_word_for : forall lens reg, full lens -> longest lens <> 0 -> length reg <= longest lens ->
  exists s, has_code lens s /\ starts (code_of lens s) reg = true.
Proof.
  intros lens reg F Z L. set (m := longest lens) in *.
  set (x := big (reg ++ repeat false (m - length reg))).
  assert (length (reg ++ repeat false (m - length reg)) = m) as Lx by (rewrite app_length, repeat_length; lia).
  assert (x < filled lens m) as Hx by (fold m in F; unfold full in F; fold m in F; rewrite F; unfold x; rewrite <- Lx at 2; apply big_bound).
  destruct (a_length_for lens x m Hx) as (l & Hl & A & B).
  assert (0 < 2 ^ (m - l)) as P by (apply Nat.neq_0_lt_0, Nat.pow_nonzero; lia).
  assert (first_code lens l <= x / 2 ^ (m - l) < filled lens l) as [A' B'].
  { split; [apply Nat.div_le_lower_bound; lia|apply Nat.div_lt_upper_bound; lia]. }
  destruct (symbol_at lens l (x / 2 ^ (m - l) - first_code lens l)) as (s & Hs & El & Er); [lia|rewrite filled_first in B' by lia; lia|].
  exists s. split; [exact Hs|].
  assert (roomy lens) as R by (apply room_from_top; fold m; unfold full in F; fold m in F; lia).
  assert (value lens s = x / 2 ^ (m - l)) as V by (unfold value; rewrite El, Er; lia).
  assert (code_of lens s = firstn l (reg ++ repeat false (m - length reg))) as E.
  { apply big_inj; [rewrite code_len, firstn_length_le by lia; exact El|].
    rewrite (big_code lens s R Hs), V. unfold x. rewrite <- (firstn_skipn l (reg ++ repeat false (m - length reg))) at 1.
    rewrite big_app, skipn_length, Lx. rewrite Nat.div_add_l by lia. rewrite Nat.div_small; [lia|].
    replace (m - l) with (length (skipn l (reg ++ repeat false (m - length reg)))) by (rewrite skipn_length; lia). apply big_bound. }
  rewrite E. clear - E. destruct (Nat.le_gt_cases l (length reg)) as [Q|Q].
  - rewrite firstn_app. replace (l - length reg) with 0 by lia. cbn [firstn]. rewrite app_nil_r. rewrite <- (firstn_skipn l reg) at 2. apply starts_prefix.
  - rewrite firstn_app, firstn_all2 by lia.
    assert (forall j k, firstn j (repeat false k) = repeat false (Nat.min j k)) as FR.
    { induction j; intros [|k]; cbn; try reflexivity. now rewrite IHj. }
    rewrite FR. apply starts_zeros.
Qed.

Section Reading.
Context (e : err).

Lemma need_ok : forall inp n reg, n <= length (left_bits reg inp) ->
  exists reg' inp', need e n reg inp = Ok (reg', inp') /\ left_bits reg' inp' = left_bits reg inp /\ n <= length reg' /\
    (exists c, reg' = reg ++ c) /\ length inp' <= length inp /\
    (n <= length reg -> reg' = reg /\ inp' = inp) /\ (length reg < n -> length reg' < n + 8 /\ length inp' < length inp).
Proof.
  induction inp as [|b inp IH]; intros n reg H; cbn [need].
  - unfold left_bits in H. rewrite app_nil_r in H. replace (n <=? length reg) with true by (symmetry; now apply Nat.leb_le).
    exists reg, []. repeat split; try lia. exists []. now rewrite app_nil_r.
  - destruct (Nat.leb_spec n (length reg)) as [L|L].
    + exists reg, (b :: inp). repeat split; try lia. exists []. now rewrite app_nil_r.
    + assert (left_bits (reg ++ bits_of b) inp = left_bits reg (b :: inp)) as E by (unfold left_bits; now rewrite all_bits_cons, app_assoc).
      destruct (IH n (reg ++ bits_of b)) as (reg' & inp' & A & B & C & (c & D) & F & G1 & G2). { now rewrite E. }
      exists reg', inp'. rewrite B, E. rewrite app_length, bits_of_len in G1, G2.
      repeat split; try assumption; try (cbn; lia).
      * exists (bits_of b ++ c). now rewrite D, app_assoc.
      * destruct (Nat.le_gt_cases n (length reg + 8)) as [Q|Q].
        -- destruct (G1 Q) as [-> ->]. rewrite app_length, bits_of_len. lia.
        -- destruct (G2 Q). assumption.
Qed.

(** Numbers, low bit first *)
Lemma get_bits_ok : forall n v reg inp more, v < 2 ^ n -> left_bits reg inp = low_first n v ++ more ->
  exists reg' inp', get_bits e n reg inp = Ok (v, reg', inp') /\ left_bits reg' inp' = more /\
    (forall K, 8 <= K -> length reg < K -> length reg' < K).
Proof.
  intros n v reg inp more Hv E. destruct (need_ok inp n reg) as (reg1 & inp1 & A & B & C & _ & _ & G1 & G2).
  { rewrite E, app_length, low_first_len. lia. }
  assert (firstn n reg1 = low_first n v /\ left_bits (skipn n reg1) inp1 = more) as [F1 F2].
  { unfold left_bits in *. rewrite E in B. rewrite <- (firstn_skipn n reg1), <- app_assoc in B. apply app_inj_len in B; [exact B|]. rewrite firstn_length_le, low_first_len; lia. }
  exists (skipn n reg1), inp1. unfold get_bits. rewrite A. cbn [bind]. rewrite F1, num_low_first by exact Hv. split; [reflexivity|]. split; [exact F2|].
  intros K HK HL. rewrite skipn_length. destruct (Nat.le_gt_cases n (length reg)) as [Q|Q]; [destruct (G1 Q) as [-> _]; lia|destruct (G2 Q); lia].
Qed.

(** ** Symbols *)
Record table_for (lens : list nat) (t : table) : Prop := {
  tf_complete : complete lens;
  tf_min : shortest lens <= h_min t;
  tf_codes : forall w v, In (w, v) (h_codes t) <-> (has_code lens v /\ w = code_of lens v)
}.

Lemma huff_sym_ok : forall lens t, table_for lens t -> forall fuel n s reg inp more,
  has_code lens s -> left_bits reg inp = code_of lens s ++ more -> n <= length (left_bits reg inp) -> shortest lens <= n ->
  length inp + (if n <=? length reg then 1 else 0) < fuel ->
  exists reg' inp', huff_sym e fuel t n reg inp = Ok (s, reg', inp') /\ left_bits reg' inp' = more /\
    (length reg' < 8 \/ length reg' + length (code_of lens s) < n + 8 \/ length reg' + length (code_of lens s) = length reg).
Proof.
  intros lens t [TC TM TT] fuel. pose proof (complete_roomy lens TC) as R.
  induction fuel as [|f IH]; intros n s reg inp more Hs E Hn Hsh Hf; [lia|]. cbn [huff_sym].
  destruct (need_ok inp n reg Hn) as (reg1 & inp1 & A & B & C & _ & Li & G1 & G2). rewrite A. cbn [bind].
  assert (length reg1 < n + 8 \/ length reg1 = length reg) as BD.
  { destruct (Nat.le_gt_cases n (length reg)) as [Q|Q]; [destruct (G1 Q) as [-> _]; now right|destruct (G2 Q); now left]. }
  rewrite E in B.
  (* how the bits at hand and the word compare *)
  assert ((exists c, reg1 = code_of lens s ++ c) \/ (exists c, c <> [] /\ code_of lens s = reg1 ++ c)) as Cmp.
  { unfold left_bits in B. destruct (Nat.le_gt_cases (length (code_of lens s)) (length reg1)) as [Q|Q].
    - left. exists (skipn (length (code_of lens s)) reg1). rewrite <- (firstn_skipn (length (code_of lens s)) reg1) at 1. f_equal.
      rewrite <- (firstn_skipn (length (code_of lens s)) reg1), <- app_assoc in B. apply app_inj_len in B as [B1 _]; [exact B1|]. now apply firstn_length_le.
    - right. exists (skipn (length reg1) (code_of lens s)). split.
      + intros Z. pose proof (skipn_length (length reg1) (code_of lens s)) as SL. rewrite Z in SL. cbn in SL. lia.
      + rewrite <- (firstn_skipn (length reg1) (code_of lens s)) at 1. f_equal.
        rewrite <- (firstn_skipn (length reg1) (code_of lens s)), <- app_assoc in B. symmetry in B. apply app_inj_len in B as [B1 _]; [exact B1|]. apply firstn_length_le. lia. }
  destruct (entry_for (h_codes t) reg1) as [[w v]|] eqn:Ent.
  - unfold entry_for in Ent. apply find_some in Ent as [I St]. cbn [fst] in St. apply TT in I as [Hv ->].
    apply starts_spec in St.
    destruct (Nat.leb_spec (length (code_of lens v)) (length reg1)) as [Q|Q].
    + assert (prefix (code_of lens v) reg1) as [d Ed].
      { rewrite firstn_app in St. replace (length (code_of lens v) - length reg1) with 0 in St by lia. cbn [firstn] in St. rewrite app_nil_r in St.
        exists (skipn (length (code_of lens v)) reg1). rewrite <- (firstn_skipn (length (code_of lens v)) reg1) at 1. now rewrite <- St. }
      assert (v = s) as ->.
      { destruct Cmp as [[c Ec]|(c & _ & Ec)].
        - destruct (Nat.le_gt_cases (length (code_of lens v)) (length (code_of lens s))) as [W|W].
          + apply (code_prefix_free lens v s R Hv Hs). exists (skipn (length (code_of lens v)) (code_of lens s)).
            rewrite <- (firstn_skipn (length (code_of lens v)) (code_of lens s)) at 1. f_equal.
            rewrite Ed in Ec. rewrite <- (firstn_skipn (length (code_of lens v)) (code_of lens s)), <- app_assoc in Ec. apply app_inj_len in Ec as [Ec _]; [now symmetry|]. symmetry. now apply firstn_length_le.
          + symmetry. apply (code_prefix_free lens s v R Hs Hv). exists (skipn (length (code_of lens s)) (code_of lens v)).
            rewrite <- (firstn_skipn (length (code_of lens s)) (code_of lens v)) at 1. f_equal.
            rewrite Ed in Ec. rewrite <- (firstn_skipn (length (code_of lens s)) (code_of lens v)), <- app_assoc in Ec. apply app_inj_len in Ec as [Ec _]; [exact Ec|]. apply firstn_length_le. lia.
        - apply (code_prefix_free lens v s R Hv Hs). exists (d ++ c). now rewrite Ec, Ed, <- app_assoc. }
      exists (skipn (length (code_of lens s)) reg1), inp1. split; [reflexivity|]. split.
      * unfold left_bits in B |- *. rewrite Ed, <- app_assoc in B. apply app_inv_head in B. rewrite Ed, skipn_app, skipn_all, Nat.sub_diag. cbn [skipn app]. exact B.
      * rewrite skipn_length. destruct BD as [BD|BD]; [right; left; lia|right; right; lia].
    + (* a longer word: more bits are needed *)
      assert (code_of lens v = reg1 ++ repeat false (length (code_of lens v) - length reg1)) as Ev.
      { rewrite St at 1. rewrite firstn_app, firstn_all2 by lia. f_equal.
        assert (forall j k, j <= k -> firstn j (repeat false k) = repeat false j) as FR by (induction j; intros [|k] W; cbn; try reflexivity; [lia|now rewrite IHj by lia]).
        apply FR. lia. }
      destruct Cmp as [[c Ec]|(c & Nc & Ec)].
      { exfalso. assert (s = v) as <- by (apply (code_prefix_free lens s v R Hs Hv); exists (c ++ repeat false (length (code_of lens v) - length reg1)); rewrite Ev at 1; rewrite Ec, <- app_assoc; reflexivity).
        rewrite Ec, app_length in Q. lia. }
      pose proof (zeros_give_the_shortest lens s v reg1 _ c R Hs Hv Ec Ev) as Sh.
      assert (left_bits reg1 inp1 = code_of lens s ++ more) as B' by exact B.
      destruct (IH (length (code_of lens v)) s reg1 inp1 more Hs B') as (reg2 & inp2 & X & Y & Z).
      * rewrite B', app_length, !code_len. lia.
      * rewrite code_len. apply shortest_le; [apply nth_In, Hv|apply Hv].
      * replace (length (code_of lens v) <=? length reg1) with false by (symmetry; apply Nat.leb_gt; lia).
        destruct (Nat.leb_spec n (length reg)) as [W|W]; [lia|]. destruct (G2 W). lia.
      * exists reg2, inp2. split; [exact X|]. split; [exact Y|].
        rewrite !code_len in *. destruct Z as [Z|[Z|Z]]; [left; exact Z|left; lia|].
        pose proof (f_equal (@length bool) Ec) as El. rewrite app_length, code_len in El.
        destruct c; [congruence|]. cbn in El. lia.
  - exfalso. unfold entry_for in Ent.
    assert (forall s', has_code lens s' -> starts (code_of lens s') reg1 = false) as None'.
    { intros s' H'. exact (find_none _ _ Ent _ (proj2 (TT _ _) (conj H' eq_refl))). }
    destruct Cmp as [[c Ec]|(c & Nc & Ec)].
    + specialize (None' s Hs). rewrite Ec, starts_prefix in None'. discriminate.
    + assert (length reg1 < longest lens) as Lr.
      { pose proof (f_equal (@length bool) Ec) as El. rewrite app_length, code_len in El. pose proof (longest_in lens _ (nth_In lens 0 (proj1 Hs))). destruct c; [congruence|]. cbn in El. lia. }
      destruct (complete_full lens TC) as [F|[(i & j & EE)|(i & EE)]].
      * destruct (a_word_for lens reg1 F ltac:(lia) ltac:(lia)) as (s' & H' & St). rewrite None' in St by exact H'. discriminate.
      * assert (shortest lens <= n /\ 1 <= shortest lens) as [S1 S2].
        { split; [exact Hsh|]. destruct (shortest_le lens (nth s lens 0) (nth_In lens 0 (proj1 Hs)) (proj2 Hs)). lia. }
        rewrite EE, single_longest in Lr. lia.
      * rewrite EE, longest_zeros in Lr. lia.
Qed.
Lemma read_sym_ok : forall lens t s reg inp more, table_for lens t ->
  has_code lens s -> left_bits reg inp = code_of lens s ++ more -> h_min t <= length (left_bits reg inp) ->
  exists reg' inp', read_sym e t reg inp = Ok (s, reg', inp') /\ left_bits reg' inp' = more /\
    (length reg' < 8 \/ length reg' + length (code_of lens s) < h_min t + 8 \/ length reg' + length (code_of lens s) = length reg).
Proof.
  intros lens t s reg inp more T H E M. unfold read_sym. apply (huff_sym_ok lens t T); try assumption; [apply T|]. destruct (h_min t <=? length reg); lia.
Qed.
End Reading.

(** ** Lengths, distances, copies *)
Lemma firstn_exact : forall {A} n (a b : list A), length a = n -> firstn n (a ++ b) = a.
Proof. intros A n a b <-. rewrite firstn_app, Nat.sub_diag, firstn_all. apply app_nil_r. Qed.
Lemma skipn_exact : forall {A} n (a b : list A), length a = n -> skipn n (a ++ b) = b.
Proof. intros A n a b <-. now rewrite skipn_app, Nat.sub_diag, skipn_all. Qed.
Lemma length_codes_base : forall ls le lb, In (ls, le, lb) length_codes -> length_base ls = Some (lb, le) /\ 257 <= ls < 286.
Proof.
  assert (Forall (fun '(ls, le, lb) => length_base ls = Some (lb, le) /\ 257 <= ls < 286) length_codes) as F.
  { unfold length_codes. repeat constructor. }
  intros ls le lb I. exact (proj1 (Forall_forall _ _) F _ I).
Qed.
Lemma distance_codes_base : forall ds de db, In (ds, de, db) distance_codes ->
  ds < 30 /\ ((ds < 4 /\ de = 0 /\ db = ds + 1) \/ (4 <= ds /\ de = (ds - 2) / 2 /\ db = 2 ^ (de + 1) + 1 + ds mod 2 * 2 ^ de)).
Proof.
  assert (forallb (fun '(ds, de, db) => (ds <? 30) && (((ds <? 4) && (de =? 0) && (db =? ds + 1)) ||
      ((4 <=? ds) && (de =? (ds - 2) / 2) && (db =? 2 ^ (de + 1) + 1 + ds mod 2 * 2 ^ de)))) distance_codes = true) as F by (vm_compute; reflexivity).
  intros ds de db I. pose proof (proj1 (forallb_forall _ _) F _ I) as X. cbn beta iota in X.
  apply andb_prop in X as [X1 X2]. apply Nat.ltb_lt in X1. split; [exact X1|].
  apply orb_prop in X2 as [X|X]; [left|right]; apply andb_prop in X as [X X3]; apply andb_prop in X as [X4 X5]; apply Nat.eqb_eq in X3; apply Nat.eqb_eq in X5.
  - apply Nat.ltb_lt in X4. now repeat split.
  - apply Nat.leb_le in X4. now repeat split.
Qed.
Lemma write_copy_ok : forall before copied dist, 1 <= dist <= length before ->
  (forall i, i < length copied -> nth (length before + i) (before ++ copied) x00 = nth (length before + i - dist) (before ++ copied) x00) ->
  write_copy (length copied) dist before = before ++ copied.
Proof.
  intros before copied dist D H.
  assert (forall k j, j + k = length copied -> write_copy k dist (before ++ firstn j copied) = before ++ copied) as G.
  { induction k; intros j E; cbn [write_copy].
    - now rewrite firstn_all2 by lia.
    - replace ((before ++ firstn j copied) ++ [nth (length (before ++ firstn j copied) - dist) (before ++ firstn j copied) x00]) with (before ++ firstn (S j) copied); [apply IHk; lia|].
      rewrite <- app_assoc. f_equal. rewrite app_length, firstn_length_le by lia.
      assert (nth (length before + j - dist) (before ++ firstn j copied) x00 = nth j copied x00) as Q.
      { transitivity (nth (length before + j - dist) (before ++ copied) x00).
        - rewrite <- (firstn_skipn j copied) at 2. rewrite app_assoc. symmetry. apply app_nth1. rewrite app_length, firstn_length_le by lia. lia.
        - rewrite <- H by lia. rewrite app_nth2 by lia. f_equal. lia. }
      rewrite Q. clear - E. assert (j < length copied) as L by lia. clear E. revert j L.
      induction copied as [|x r IH]; intros j L; [cbn in L; lia|]. destruct j; [reflexivity|]. cbn [firstn nth app]. f_equal. apply (IH j). cbn in L. lia. }
  specialize (G (length copied) 0 eq_refl). cbn [firstn] in G. now rewrite app_nil_r in G.
Qed.
Lemma byte_of_to_nat : forall b, byte_of (Byte.to_nat b) = b.
Proof. destruct b; reflexivity. Qed.
Lemma to_nat_bound : forall b, Byte.to_nat b < 256.
Proof. intros b. pose proof (proj1 (Nat.ltb_lt (Byte.to_nat b) 256)) as H. apply H. destruct b; reflexivity. Qed.

Section Blocks.
Context (e : err).

Lemma read_length_ok : forall ls le lb lx reg inp more, In (ls, le, lb) length_codes -> lx < 2 ^ le ->
  left_bits reg inp = low_first le lx ++ more ->
  exists reg' inp', read_length e ls reg inp = Ok (lb + lx, reg', inp') /\ left_bits reg' inp' = more /\ (forall K, 8 <= K -> length reg < K -> length reg' < K).
Proof.
  intros ls le lb lx reg inp more I L E. destruct (length_codes_base _ _ _ I) as [Hb _]. unfold read_length. rewrite Hb.
  destruct (get_bits_ok e le lx reg inp more L E) as (reg' & inp' & A & B & C). rewrite A. cbn [bind]. exists reg', inp'. now repeat split.
Qed.

(** How the distances are read. *)
Definition reads_distances (td : option table) (dcode : nat -> list bool -> Prop) : Prop :=
  forall s w reg inp more, s < 30 -> dcode s w -> left_bits reg inp = w ++ more ->
  exists reg' inp', (match td with
     | None => let* (reg, inp) := need e 5 reg inp in Ok (num (rev (firstn 5 reg)), skipn 5 reg, inp)
     | Some t => read_sym e t reg inp
     end) = Ok (s, reg', inp') /\ left_bits reg' inp' = more /\ (forall K, 8 <= K -> length reg < K -> length reg' < K).
Lemma fixed_distances : reads_distances None fixed_dist.
Proof.
  intros s w reg inp more Hs [_ ->] E.
  destruct (need_ok e inp 5 reg) as (reg1 & inp1 & A & B & C & _ & _ & G1 & G2).
  { rewrite E, app_length. unfold high_first. rewrite rev_length, low_first_len. lia. }
  rewrite A. cbn [bind].
  assert (firstn 5 reg1 = high_first 5 s /\ left_bits (skipn 5 reg1) inp1 = more) as [F1 F2].
  { unfold left_bits in *. rewrite E in B. rewrite <- (firstn_skipn 5 reg1), <- app_assoc in B. apply app_inj_len in B; [exact B|]. rewrite firstn_length_le by lia. unfold high_first. now rewrite rev_length, low_first_len. }
  exists (skipn 5 reg1), inp1. rewrite F1. unfold high_first. rewrite rev_involutive, num_low_first by (cbn; lia). split; [reflexivity|]. split; [exact F2|].
  intros K HK HL. rewrite skipn_length. destruct (Nat.le_gt_cases 5 (length reg)) as [Q|Q]; [destruct (G1 Q) as [-> _]; lia|destruct (G2 Q); lia].
Qed.
Lemma coded_distances : forall dist t, table_for dist t -> h_min t = shortest dist -> reads_distances (Some t) (coded_by dist).
Proof.
  intros dist t T M s w reg inp more _ [Hs ->] E.
  assert (h_min t <= length (code_of dist s)) as Q by (rewrite M, code_len; apply shortest_le; [apply nth_In, Hs|apply Hs]).
  destruct (read_sym_ok e dist t s reg inp more T Hs E) as (reg' & inp' & A & B & C); [rewrite E, app_length; lia|].
  exists reg', inp'. split; [exact A|]. split; [exact B|]. intros K HK HL. lia.
Qed.
Lemma read_distance_ok : forall td dcode ds de db dx w reg inp more, reads_distances td dcode ->
  In (ds, de, db) distance_codes -> dx < 2 ^ de -> dcode ds w -> left_bits reg inp = w ++ low_first de dx ++ more ->
  exists reg' inp', read_distance e td reg inp = Ok (db + dx, reg', inp') /\ left_bits reg' inp' = more /\ (forall K, 8 <= K -> length reg < K -> length reg' < K).
Proof.
  intros td dcode ds de db dx w reg inp more R I L W E. destruct (distance_codes_base _ _ _ I) as [Hd Hc].
  destruct (R ds w reg inp _ Hd W E) as (reg1 & inp1 & A & B & C). unfold read_distance. rewrite A. cbn [bind].
  destruct Hc as [(H4 & -> & ->)|(H4 & -> & ->)].
  - replace (ds <? 4) with true by (symmetry; now apply Nat.ltb_lt). cbn in L. replace dx with 0 by lia. rewrite Nat.add_0_r. exists reg1, inp1. now repeat split.
  - replace (ds <? 4) with false by (symmetry; apply Nat.ltb_ge; lia). replace (ds <? 30) with true by (symmetry; apply Nat.ltb_lt; lia).
    destruct (get_bits_ok e _ dx reg1 inp1 more L B) as (reg2 & inp2 & A2 & B2 & C2). rewrite A2. cbn [bind].
    exists reg2, inp2. split; [f_equal; f_equal; f_equal; lia|]. split; [exact B2|]. intros K HK HL. apply C2; [exact HK|]. now apply C.
Qed.

(** ** The tokens of a block *)
Lemma tokens_bits_len : forall lit dcode ts tb, tokens_bits lit dcode ts tb -> nth 256 lit 0 <= length tb /\ has_code lit 256.
Proof. intros lit dcode ts tb H. induction H as [H|t ts a b _ _ [IH1 IH2]]; [rewrite code_len; now split|]. rewrite app_length. split; [lia|assumption]. Qed.
Lemma huff_block_ok : forall lit tl td dcode, table_for lit tl -> h_min tl = nth 256 lit 0 -> reads_distances td dcode ->
  forall ts tb, tokens_bits lit dcode ts tb -> forall before out, says before ts out ->
  forall fuel reg inp more, left_bits reg inp = tb ++ more -> length reg < nth 256 lit 0 + 8 -> length (left_bits reg inp) < fuel ->
  exists reg' inp', huff_block e fuel tl td reg inp before = (out, Ok (reg', inp')) /\ left_bits reg' inp' = more /\ length reg' < 8.
Proof.
  intros lit tl td dcode T M R ts tb H. set (L := nth 256 lit 0) in *.
  induction H as [H|t ts a b Ht Hts IH]; intros before out Hs fuel reg inp more E Hl Hf.
  - inversion Hs; subst. destruct fuel as [|f]; [lia|]. cbn [huff_block].
    destruct (read_sym_ok e lit tl 256 reg inp more T H E) as (reg' & inp' & A & B & C); [rewrite E, app_length, code_len; fold L; lia|].
    rewrite A. replace (256 <? 256) with false by reflexivity. rewrite Nat.eqb_refl. exists reg', inp'. split; [reflexivity|]. split; [exact B|].
    rewrite code_len in C. fold L in C. lia.
  - destruct (tokens_bits_len _ _ _ _ Hts) as [Hb H256]. fold L in Hb.
    assert (1 <= L) as L1 by (pose proof (proj2 H256); unfold L; lia).
    destruct fuel as [|f]; [lia|]. cbn [huff_block]. destruct Ht as [x Hx|ls le lb lx ds de db dx w I1 Lx Hc I2 Dx Hw].
    + rewrite <- app_assoc in E.
      destruct (read_sym_ok e lit tl _ reg inp _ T Hx E) as (reg' & inp' & A & B & C); [rewrite E, !app_length; lia|].
      rewrite A. pose proof (to_nat_bound x). replace (Byte.to_nat x <? 256) with true by (symmetry; now apply Nat.ltb_lt). rewrite byte_of_to_nat.
      inversion Hs; subst.
      apply (IH _ _ ltac:(eassumption) f reg' inp' more B); [lia|].
      rewrite B. rewrite E, app_length, code_len in Hf. pose proof (proj2 Hx). lia.
    + rewrite <- !app_assoc in E.
      destruct (read_sym_ok e lit tl _ reg inp _ T Hc E) as (reg1 & inp1 & A & B & C); [rewrite E, !app_length; lia|].
      rewrite A. destruct (length_codes_base _ _ _ I1) as [_ Hls].
      replace (ls <? 256) with false by (symmetry; apply Nat.ltb_ge; lia). replace (ls =? 256) with false by (symmetry; apply Nat.eqb_neq; lia).
      destruct (read_length_ok ls le lb lx reg1 inp1 _ I1 Lx B) as (reg2 & inp2 & A2 & B2 & C2). rewrite A2. cbn [bind].
      destruct (read_distance_ok td dcode ds de db dx w reg2 inp2 _ R I2 Dx Hw B2) as (reg3 & inp3 & A3 & B3 & C3). rewrite A3. cbn [bind].
      inversion Hs as [| |before' len dist copied ts' out' Hd Hlen Hcp Hrest]; subst.
      replace (length before <? db + dx) with false by (symmetry; apply Nat.ltb_ge; lia).
      rewrite <- Hlen in Hcp |- *. rewrite (write_copy_ok before copied (db + dx) Hd Hcp).
      apply (IH _ _ Hrest f reg3 inp3 more B3).
      * apply C3; [lia|]. apply C2; [lia|]. lia.
      * rewrite B3. rewrite E, !app_length, code_len in Hf. pose proof (proj2 Hc). rewrite app_length. lia.
Qed.

(** ** Code lengths *)
Lemma table_from_build : forall lens t, complete lens -> build lens = Some t -> table_for lens t /\ h_min t = shortest lens.
Proof.
  intros lens t C E. destruct (build_complete lens C) as (t' & E' & M & W). assert (t = t') as -> by congruence.
  split; [|exact M]. constructor; [exact C|rewrite M; lia|exact W].
Qed.
Lemma spells_grow : forall acc rs out, spells acc rs out -> length acc <= length out.
Proof. intros acc rs out H. induction H; [lia| | |]; repeat rewrite app_length in *; cbn [length] in *; lia. Qed.
Lemma read_lens_ok : forall cl t, table_for cl t -> h_min t = shortest cl ->
  forall rs rb, runs_bits cl rs rb -> forall acc out, spells acc rs out ->
  forall fuel reg inp more, left_bits reg inp = rb ++ more -> length out <= fuel + length acc ->
  exists reg' inp', read_lens e fuel t (length out) acc reg inp = Ok (out, reg', inp') /\ left_bits reg' inp' = more /\ (forall K, 8 <= K -> length reg < K -> length reg' < K).
Proof.
  intros cl t T M rs rb H. induction H as [|r rs a b Hr Hrs IH]; intros acc out Hs fuel reg inp more E Hf.
  - inversion Hs; subst. unfold read_lens. destruct fuel; rewrite Nat.leb_refl; exists reg, inp; now repeat split.
  - assert (forall s, has_code cl s -> forall reg inp rest, left_bits reg inp = code_of cl s ++ rest ->
      exists reg' inp', read_sym e t reg inp = Ok (s, reg', inp') /\ left_bits reg' inp' = rest /\ (forall K, 8 <= K -> length reg < K -> length reg' < K)) as SYM.
    { intros s Hc reg0 inp0 rest E0.
      assert (h_min t <= length (code_of cl s)) as Q by (rewrite M, code_len; apply shortest_le; [apply nth_In, Hc|apply Hc]).
      destruct (read_sym_ok e cl t s reg0 inp0 rest T Hc E0) as (reg' & inp' & A & B & C); [rewrite E0, app_length; lia|].
      exists reg', inp'. split; [exact A|]. split; [exact B|]. intros K HK HL. lia. }
    assert (length acc < length out) as Lt.
    { inversion Hs; subst; match goal with X : spells _ _ _ |- _ => pose proof (spells_grow _ _ _ X) as G end; repeat rewrite app_length in *; repeat rewrite repeat_length in *; cbn [length] in *; try lia;
      inversion Hr; subst; lia. }
    destruct fuel as [|f]; [lia|]. cbn [read_lens]. replace (length out <=? length acc) with false by (symmetry; apply Nat.leb_gt; lia).
    inversion Hr as [l Hl Hc E1 E2|k Hk Hc E1 E2|k Hk Hc E1 E2|k Hk Hc E1 E2]; subst r a; rewrite <- ?app_assoc in E.
    + destruct (SYM _ Hc _ _ _ E) as (reg1 & inp1 & A & B & C). rewrite A. cbn [bind].
      replace (l <? 16) with true by (symmetry; now apply Nat.ltb_lt).
      inversion Hs; subst. destruct (IH _ _ ltac:(eassumption) f reg1 inp1 more B) as (reg2 & inp2 & A2 & B2 & C2); [rewrite app_length; cbn; lia|].
      exists reg2, inp2. split; [exact A2|]. split; [exact B2|]. intros K HK HL. apply C2; [exact HK|]. now apply C.
    + destruct (SYM _ Hc _ _ _ E) as (reg1 & inp1 & A & B & C). rewrite A. cbn [bind].
      change (16 <? 16) with false. change (16 =? 16) with true. cbn iota.
      inversion Hs as [|?|before l k' rs' out' Hsp E3|?]; subst.
      replace (length (before ++ [l]) =? 0) with false by (symmetry; apply Nat.eqb_neq; rewrite app_length; cbn; lia).
      destruct (get_bits_ok e 2 (k - 3) reg1 inp1 (b ++ more)) as (reg2 & inp2 & A2 & B2 & C2); [cbn; lia|exact B|]. rewrite A2. cbn [bind].
      replace (3 + (k - 3)) with k by lia. pose proof (spells_grow _ _ _ Hsp) as G. rewrite !app_length, repeat_length in G. cbn [length] in G.
      replace (length out <? length (before ++ [l]) + k) with false by (symmetry; apply Nat.ltb_ge; rewrite app_length; cbn [length]; lia).
      rewrite last_last, <- app_assoc.
      destruct (IH _ _ Hsp f reg2 inp2 more B2) as (reg3 & inp3 & A3 & B3 & C3).
      { rewrite app_length in Hf. rewrite !app_length, repeat_length. cbn [length] in *. lia. }
      exists reg3, inp3. split; [exact A3|]. split; [exact B3|]. intros K HK HL. apply C3; [exact HK|]. apply C2; [exact HK|]. now apply C.
    + destruct (SYM _ Hc _ _ _ E) as (reg1 & inp1 & A & B & C). rewrite A. cbn [bind].
      change (17 <? 16) with false. change (17 =? 16) with false. change (17 =? 17) with true. cbn iota.
      inversion Hs as [|?|?|before k' rs' out' Hsp E3]; subst.
      destruct (get_bits_ok e 3 (k - 3) reg1 inp1 (b ++ more)) as (reg2 & inp2 & A2 & B2 & C2); [cbn; lia|exact B|]. rewrite A2. cbn [bind].
      replace (3 + (k - 3)) with k by lia. pose proof (spells_grow _ _ _ Hsp) as G. rewrite app_length, repeat_length in G.
      replace (length out <? length acc + k) with false by (symmetry; apply Nat.ltb_ge; lia).
      destruct (IH _ _ Hsp f reg2 inp2 more B2) as (reg3 & inp3 & A3 & B3 & C3).
      { rewrite app_length, repeat_length. lia. }
      exists reg3, inp3. split; [exact A3|]. split; [exact B3|]. intros K HK HL. apply C3; [exact HK|]. apply C2; [exact HK|]. now apply C.
    + destruct (SYM _ Hc _ _ _ E) as (reg1 & inp1 & A & B & C). rewrite A. cbn [bind].
      change (18 <? 16) with false. change (18 =? 16) with false. change (18 =? 17) with false. cbn iota.
      inversion Hs as [|?|?|before k' rs' out' Hsp E3]; subst.
      destruct (get_bits_ok e 7 (k - 11) reg1 inp1 (b ++ more)) as (reg2 & inp2 & A2 & B2 & C2); [cbn; lia|exact B|]. rewrite A2. cbn [bind].
      replace (11 + (k - 11)) with k by lia. pose proof (spells_grow _ _ _ Hsp) as G. rewrite app_length, repeat_length in G.
      replace (length out <? length acc + k) with false by (symmetry; apply Nat.ltb_ge; lia).
      destruct (IH _ _ Hsp f reg2 inp2 more B2) as (reg3 & inp3 & A3 & B3 & C3).
      { rewrite app_length, repeat_length. lia. }
      exists reg3, inp3. split; [exact A3|]. split; [exact B3|]. intros K HK HL. apply C3; [exact HK|]. apply C2; [exact HK|]. now apply C.
Qed.
Lemma read_clens_ok : forall vs reg inp more, (forall v, In v vs -> v < 8) -> left_bits reg inp = flat_map (low_first 3) vs ++ more ->
  exists reg' inp', read_clens e (length vs) reg inp = Ok (vs, reg', inp') /\ left_bits reg' inp' = more /\ (forall K, 8 <= K -> length reg < K -> length reg' < K).
Proof.
  induction vs as [|v vs IH]; intros reg inp more H E. { exists reg, inp. now repeat split. }
  cbn [flat_map] in E. rewrite <- app_assoc in E. cbn [length read_clens].
  destruct (get_bits_ok e 3 v reg inp _ (H v (or_introl eq_refl)) E) as (reg1 & inp1 & A & B & C). rewrite A. cbn [bind].
  destruct (IH reg1 inp1 more (fun x I => H x (or_intror I)) B) as (reg2 & inp2 & A2 & B2 & C2). rewrite A2. cbn [bind].
  exists reg2, inp2. split; [reflexivity|]. split; [exact B2|]. intros K HK HL. apply C2; [exact HK|]. now apply C.
Qed.
Lemma codebits_ok : forall vs cl, in_order vs cl -> codebits vs = cl.
Proof.
  intros vs cl [L H]. unfold codebits. apply (nth_ext _ _ 0 0); [rewrite map_length, seq_length; lia|].
  intros i Hi. rewrite map_length, seq_length in Hi.
  set (f := fun i => nth (position i code_order) vs 0). transitivity (nth i (map f (seq 0 19)) (f 0)); [apply nth_indep; rewrite map_length, seq_length; exact Hi|].
  rewrite map_nth, seq_nth by exact Hi. cbn [Nat.add]. unfold f. change code_order with clen_order.
  assert (position i clen_order < 19 /\ nth (position i clen_order) clen_order 0 = i) as [P1 P2].
  { do 19 (destruct i as [|i]; [cbn; split; [lia|reflexivity]|]). lia. }
  rewrite <- (H _ P1), P2. reflexivity.
Qed.
Lemma read_huffman_ok : forall lit dist hb reg inp more, dynamic_header lit dist hb -> left_bits reg inp = hb ++ more ->
  exists tl td reg' inp', read_huffman e reg inp = Ok (tl, td, reg', inp') /\ left_bits reg' inp' = more /\
    table_for lit tl /\ h_min tl = Nat.max (shortest lit) (nth 256 lit 0) /\ table_for dist td /\ h_min td = shortest dist /\ (length reg < 8 -> length reg' < 8).
Proof.
  intros lit dist hb reg inp more H E. destruct H as [lit dist vs cl rs rbits HL HD HV V8 IO CC CL CD RB SP].
  rewrite <- !app_assoc in E.
  destruct (need_ok e inp 14 reg) as (reg1 & inp1 & A & B & C & _ & _ & G1 & G2). { rewrite E, !app_length, !low_first_len. lia. }
  unfold read_huffman. rewrite A. cbn [bind].
  assert (exists r, reg1 = low_first 5 (length lit - 257) ++ low_first 5 (length dist - 1) ++ low_first 4 (length vs - 4) ++ r /\
    left_bits r inp1 = flat_map (low_first 3) vs ++ rbits ++ more) as (r & Er & Hr).
  { unfold left_bits in *. rewrite E in B. exists (skipn 14 reg1).
    assert (firstn 14 reg1 = low_first 5 (length lit - 257) ++ low_first 5 (length dist - 1) ++ low_first 4 (length vs - 4) /\
            skipn 14 reg1 ++ all_bits inp1 = flat_map (low_first 3) vs ++ rbits ++ more) as [F1 F2].
    { rewrite <- (firstn_skipn 14 reg1), <- app_assoc in B.
      replace (low_first 5 (length lit - 257) ++ low_first 5 (length dist - 1) ++ low_first 4 (length vs - 4) ++ flat_map (low_first 3) vs ++ rbits ++ more)
        with ((low_first 5 (length lit - 257) ++ low_first 5 (length dist - 1) ++ low_first 4 (length vs - 4)) ++ flat_map (low_first 3) vs ++ rbits ++ more) in B by (now rewrite <- !app_assoc).
      apply app_inj_len in B; [exact B|]. rewrite firstn_length_le by lia. now rewrite !app_length, !low_first_len. }
    split; [|exact F2]. rewrite <- (firstn_skipn 14 reg1) at 1. rewrite F1, <- !app_assoc. reflexivity. }
  rewrite Er.
  replace (skipn 10 (low_first 5 (length lit - 257) ++ low_first 5 (length dist - 1) ++ low_first 4 (length vs - 4) ++ r)) with (low_first 4 (length vs - 4) ++ r)
    by (rewrite app_assoc; symmetry; apply skipn_exact; now rewrite app_length, !low_first_len).
  assert (skipn 14 (low_first 5 (length lit - 257) ++ low_first 5 (length dist - 1) ++ low_first 4 (length vs - 4) ++ r) = r) as X4
    by (rewrite !app_assoc; apply skipn_exact; now rewrite !app_length, !low_first_len).
  rewrite X4, (skipn_exact 5 (low_first 5 _)), !firstn_exact by (now rewrite low_first_len).
  rewrite !num_low_first by (cbn; lia).
  replace (length lit - 257 + 257) with (length lit) by lia. replace (length dist - 1 + 1) with (length dist) by lia. replace (length vs - 4 + 4) with (length vs) by lia.
  replace (286 <? length lit) with false by (symmetry; apply Nat.ltb_ge; lia). replace (30 <? length dist) with false by (symmetry; apply Nat.ltb_ge; lia).
  destruct (read_clens_ok vs r inp1 _ V8 Hr) as (reg2 & inp2 & A2 & B2 & C2). rewrite A2. cbn [bind]. rewrite (codebits_ok vs cl IO).
  destruct (build_complete cl CC) as (t & Et & _). rewrite Et. destruct (table_from_build cl t CC Et) as [T Tm].
  destruct (read_lens_ok cl t T Tm rs rbits RB [] _ SP (length lit + length dist) reg2 inp2 more B2) as (reg3 & inp3 & A3 & B3 & C3). { rewrite app_length. lia. }
  rewrite app_length in A3. rewrite A3. cbn [bind].
  rewrite firstn_app, Nat.sub_diag, firstn_all, skipn_app, Nat.sub_diag, skipn_all. cbn [firstn skipn app]. rewrite app_nil_r.
  destruct (build_complete lit CL) as (tl & El & _). destruct (build_complete dist CD) as (td & Ed & _). rewrite El, Ed.
  destruct (table_from_build lit tl CL El) as [Tl Ml]. destruct (table_from_build dist td CD Ed) as [Td Md].
  eexists _, td, reg3, inp3. split; [reflexivity|]. split; [exact B3|]. split; [|split; [cbn [h_min]; now rewrite Ml|split; [exact Td|split; [exact Md|]]]].
  - constructor; cbn [h_min h_codes]; [exact CL|rewrite Ml; lia|apply Tl].
  - intros Hl. apply C3; [lia|]. apply C2; [lia|].
    rewrite <- X4, <- Er, skipn_length. destruct (Nat.le_gt_cases 14 (length reg)) as [Q|Q]; [lia|destruct (G2 Q); lia].
Qed.

(** ** Blocks *)
Lemma fixed_complete : complete fixed_lens.
Proof. left. exists 9. split; [|vm_compute; reflexivity]. intros l I. unfold fixed_lens in I. rewrite !in_app_iff in I. destruct I as [I|[I|[I|I]]]; apply repeat_spec in I; lia. Qed.
Lemma fixed_table_ok : table_for fixed_lens fixed_table /\ h_min fixed_table = 7 /\ nth 256 fixed_lens 0 = 7.
Proof.
  unfold fixed_table. destruct (build_complete fixed_lens fixed_complete) as (t & E & _). rewrite E.
  destruct (table_from_build _ _ fixed_complete E) as [T M]. split; [exact T|]. rewrite M. split; vm_compute; reflexivity.
Qed.
Lemma two_bytes : forall a b n, n < 2 ^ 16 -> bits_of a ++ bits_of b = low_first 16 n -> Byte.to_nat a + 256 * Byte.to_nat b = n.
Proof.
  intros a b n H E. rewrite <- (num_low_first 16 n H), <- E.
  assert (forall x y, num (x ++ y) = num x + 2 ^ length x * num y) as NA.
  { induction x as [|c x IH]; intros y; cbn [num app length]; [cbn; lia|]. rewrite IH, Nat.pow_succ_r'. lia. }
  assert (forall x, num (bits_of x) = Byte.to_nat x) as NB by (destruct x; reflexivity).
  rewrite NA, bits_of_len, !NB. reflexivity.
Qed.
Lemma complement : forall a c, bits_of c = map negb (bits_of a) -> Byte.to_nat a + Byte.to_nat c = 255.
Proof.
  intros a c E. assert (forall x, num (bits_of x) = Byte.to_nat x) as NB by (destruct x; reflexivity).
  rewrite <- !NB, E. destruct a; reflexivity.
Qed.
Lemma bits_of_inj : forall a b, bits_of a = bits_of b -> a = b.
Proof.
  intros a b H. assert (forall x, num (bits_of x) = Byte.to_nat x) as NB by (destruct x; reflexivity).
  rewrite <- (byte_of_to_nat a), <- (byte_of_to_nat b), <- !NB. now rewrite H.
Qed.
Lemma all_bits_prefix : forall d inp more, all_bits inp = all_bits d ++ more -> exists r, inp = d ++ r /\ all_bits r = more.
Proof.
  induction d as [|b d IH]; intros inp more E; [exists inp; now split|].
  destruct inp as [|c inp]. { apply (f_equal (@length bool)) in E. rewrite app_length, all_bits_cons, app_length, bits_of_len in E. cbn in E. lia. }
  rewrite !all_bits_cons, <- app_assoc in E. apply app_inj_len in E as [E1 E2]; [|now rewrite !bits_of_len].
  apply bits_of_inj in E1 as ->. destruct (IH inp more E2) as (r & -> & Er). exists r. now split.
Qed.
Lemma all_bits_inj : forall a b, all_bits a = all_bits b -> a = b.
Proof.
  intros a b E. destruct (all_bits_prefix b a [] ltac:(now rewrite app_nil_r)) as (r & -> & Er). destruct r; [apply app_nil_r|].
  rewrite all_bits_cons in Er. apply (f_equal (@length bool)) in Er. rewrite app_length, bits_of_len in Er. cbn in Er. lia.
Qed.

Lemma data_block_ok : forall data inp more before, length data < 2 ^ 16 ->
  all_bits inp = low_first 16 (length data) ++ map negb (low_first 16 (length data)) ++ all_bits data ++ more ->
  exists inp', data_block e inp before = (before ++ data, Ok inp') /\ all_bits inp' = more.
Proof.
  intros data inp more before L E.
  pose proof (f_equal (@length bool) E) as EL. rewrite !app_length, map_length, !low_first_len, !all_bits_len in EL.
  destruct inp as [|a [|b [|c [|d inp]]]]; cbn [length] in EL; try lia.
  rewrite !all_bits_cons in E.
  assert (bits_of a ++ bits_of b = low_first 16 (length data) /\ bits_of c ++ bits_of d ++ all_bits inp = map negb (low_first 16 (length data)) ++ all_bits data ++ more) as [E1 E2].
  { rewrite app_assoc in E. apply app_inj_len in E; [exact E|]. now rewrite app_length, !bits_of_len, low_first_len. }
  assert (bits_of c ++ bits_of d = map negb (low_first 16 (length data)) /\ all_bits inp = all_bits data ++ more) as [E3 E4].
  { rewrite app_assoc in E2. apply app_inj_len in E2; [exact E2|]. now rewrite app_length, !bits_of_len, map_length, low_first_len. }
  rewrite <- E1, map_app in E3. apply app_inj_len in E3 as [E5 E6]; [|now rewrite map_length, !bits_of_len].
  pose proof (two_bytes a b (length data) L E1) as N. apply complement in E5. apply complement in E6.
  unfold data_block. rewrite N, E5, E6, !Nat.eqb_refl. cbn [andb negb].
  destruct (all_bits_prefix data inp more E4) as (r & -> & Er).
  replace (length (data ++ r) <? length data) with false by (symmetry; apply Nat.ltb_ge; rewrite app_length; lia).
  rewrite firstn_app, Nat.sub_diag, firstn_all, skipn_app, Nat.sub_diag, skipn_all. cbn [firstn skipn app]. rewrite app_nil_r. exists r. now split.
Qed.

Lemma blocks_ok : forall pos before bits out, deflated pos before bits out ->
  forall fuel reg inp more T, left_bits reg inp = bits ++ more -> length reg < 8 -> pos + length (left_bits reg inp) = 8 * T -> length (left_bits reg inp) < fuel ->
  exists reg' inp', blocks e fuel reg inp before = (out, Ok inp') /\ left_bits reg' inp' = more /\ length reg' < 8.
Proof.
  (* one block *)
  assert (forall pos before b out reg inp more T final, block_bits (S pos) before b out ->
    left_bits reg inp = (final : bool) :: b ++ more -> length reg < 8 -> pos + length (left_bits reg inp) = 8 * T ->
    exists reg1 inp1 reg' inp', need e 3 reg inp = Ok (reg1, inp1) /\ nth 0 reg1 false = final /\
      (match num (firstn 2 (skipn 1 reg1)) with
       | 0 => let '(o, r) := data_block e inp1 before in (o, map_res (fun i => ([], i)) r)
       | 1 => huff_block e (S (bits_left (skipn 3 reg1) inp1)) fixed_table None (skipn 3 reg1) inp1 before
       | 2 => match read_huffman e (skipn 3 reg1) inp1 with
              | Ok (tl, td, reg, inp) => huff_block e (S (bits_left reg inp)) tl (Some td) reg inp before
              | Err x => (before, Err x)
              | Panic => (before, Panic)
              | OutOfFuel => (before, OutOfFuel)
              end
       | _ => (before, Err ECorrupt)
       end) = (out, Ok (reg', inp')) /\ left_bits reg' inp' = more /\ length reg' < 8) as ONE.
  { intros pos before b out reg inp more T final H E Hl Ha.
    assert (exists t1 t2 b', b = t1 :: t2 :: b') as (t1 & t2 & b' & ->) by (destruct H; cbn [app]; eauto).
    destruct (need_ok e inp 3 reg) as (reg1 & inp1 & A & B & C & _ & _ & G1 & G2). { rewrite E. cbn. lia. }
    assert (length reg1 < 11) as L1 by (destruct (Nat.le_gt_cases 3 (length reg)) as [Q|Q]; [destruct (G1 Q) as [-> _]; lia|destruct (G2 Q); lia]).
    pose proof (f_equal (@length bool) B) as BL.
    rewrite E in B. destruct reg1 as [|x [|y [|z reg2]]]; cbn [length] in C; try lia.
    unfold left_bits in B. cbn [app] in B.
    assert (x = final /\ y = t1 /\ z = t2 /\ reg2 ++ all_bits inp1 = b' ++ more) as (-> & -> & -> & B') by (injection B; intros; subst; repeat split; assumption).
    fold (left_bits reg2 inp1) in B'. cbn [length] in L1.
    exists (final :: t1 :: t2 :: reg2), inp1. cbn [firstn skipn nth].
    assert (forall ls f l, left_bits ls l = left_bits ls l -> length (left_bits ls l) < S (bits_left ls l) + f) as FU.
    { intros ls f l _. unfold left_bits, bits_left. rewrite app_length, all_bits_len. lia. }
    remember (t1 :: t2 :: b') as bb eqn:EB. destruct H as [pad data P1 P2 P3|ts tb out HT HS|lit dist hb ts tb out HH HT HS];
      pose proof (f_equal (hd false) EB) as EB1; pose proof (f_equal (fun l => nth 1 l false) EB) as EB2; apply (f_equal (skipn 2)) in EB;
      cbn [app hd nth] in EB1, EB2; subst t1 t2; match type of EB with skipn 2 ?l = _ => rewrite (skipn_exact 2 [_; _]) in EB by reflexivity end; cbn [skipn] in EB; cbn [num bit Nat.mul Nat.add].
    - (* stored *)
      assert (length pad = length reg2) as PL.
      { unfold left_bits in BL, Ha. repeat rewrite app_length in BL. repeat rewrite app_length in Ha. rewrite !all_bits_len in BL. rewrite all_bits_len in Ha. cbn [length] in BL.
        pose proof (Nat.div_mod (S pos + 2 + length pad) 8 ltac:(lia)). lia. }
      rewrite <- EB in B'. unfold left_bits in B'. rewrite <- app_assoc in B'. symmetry in B'. apply app_inj_len in B' as [_ B']; [|exact PL].
      rewrite <- !app_assoc in B'. destruct (data_block_ok data inp1 more before P3 (eq_sym B')) as (inp' & D1 & D2).
      exists [], inp'. split; [exact A|]. split; [reflexivity|]. rewrite D1. cbn [map_res bind]. split; [reflexivity|]. split; [exact D2|cbn; lia].
    - subst b'.
      destruct fixed_table_ok as (FT & FM & FN).
      destruct (huff_block_ok fixed_lens fixed_table None fixed_dist FT ltac:(congruence) fixed_distances ts tb HT before out HS (S (bits_left reg2 inp1)) reg2 inp1 more B') as (reg' & inp' & X & Y & Z).
      { rewrite FN. lia. } { specialize (FU reg2 0 inp1 eq_refl). lia. }
      exists reg', inp'. now repeat split.
    - subst b'. rewrite <- app_assoc in B'.
      destruct (read_huffman_ok lit dist hb reg2 inp1 _ HH B') as (tl & td & reg3 & inp3 & R1 & R2 & R3 & R4 & R5 & R6 & R7).
      rewrite R1.
      destruct (tokens_bits_len _ _ _ _ HT) as [_ H256].
      assert (h_min tl = nth 256 lit 0) as HM.
      { rewrite R4. destruct (shortest_le lit (nth 256 lit 0) (nth_In lit 0 (proj1 H256)) (proj2 H256)). lia. }
      destruct (huff_block_ok lit tl (Some td) (coded_by dist) R3 HM (coded_distances dist td R5 R6) ts tb HT before out HS (S (bits_left reg3 inp3)) reg3 inp3 more R2) as (reg' & inp' & X & Y & Z).
      { specialize (R7 ltac:(lia)). lia. } { specialize (FU reg3 0 inp3 eq_refl). lia. }
      exists reg', inp'. now repeat split. }
  intros pos before bits out H. induction H as [pos before b out H|pos before b mid bs out H Hd IH]; intros fuel reg inp more T E Hl Ha Hf.
  - cbn [app] in E. destruct (ONE pos before b out reg inp more T true H E Hl Ha) as (reg1 & inp1 & reg' & inp' & A & B & C & D & F).
    destruct fuel as [|f]; [lia|]. cbn [blocks]. rewrite A, B, C. exists reg', inp'. now repeat split.
  - cbn [app] in E. rewrite <- app_assoc in E. destruct (ONE pos before b mid reg inp _ T false H E Hl Ha) as (reg1 & inp1 & reg' & inp' & A & B & C & D & F).
    destruct fuel as [|f]; [lia|]. cbn [blocks]. rewrite A, B, C.
    pose proof (f_equal (@length bool) E) as EL. pose proof (f_equal (@length bool) D) as DL. cbn [length] in EL. rewrite app_length in EL.
    apply (IH f reg' inp' more T); [exact D|exact F| |]; lia.
Qed.
End Blocks.

Theorem inflate_ok : forall data d rest e, deflate_of data d -> inflate (mk (d ++ rest) e) = (data, Ok rest).
Proof.
  intros data d rest e (bits & pad & E & Lp & H). unfold inflate. cbn [mk st_data st_err].
  assert (left_bits [] (d ++ rest) = bits ++ (pad ++ all_bits rest)) as E' by (unfold left_bits; cbn [app]; now rewrite all_bits_app, E, <- app_assoc).
  destruct (blocks_ok e 0 [] bits data H (S (8 * length (d ++ rest))) [] (d ++ rest) (pad ++ all_bits rest) (length (d ++ rest)) E') as (reg' & inp' & A & B & C).
  - cbn; lia.
  - unfold left_bits. cbn [app]. rewrite all_bits_len. lia.
  - unfold left_bits. cbn [app]. rewrite all_bits_len. lia.
  - rewrite A. f_equal. f_equal. unfold left_bits in B.
    assert (length reg' = length pad) as L.
    { apply (f_equal (@length bool)) in B. rewrite !app_length, !all_bits_len in B. lia. }
    apply app_inj_len in B as [_ B]; [|exact L]. now apply all_bits_inj.
Qed.
