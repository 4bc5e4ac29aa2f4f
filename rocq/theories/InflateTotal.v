(** Decompression always ends: with the end of the data, a corruption, or the error of the input. *)
From Verif Require Import Base GoStr Reader Inflate InflateSpec InflateFacts InflateSound.
From Coq Require Import PeanoNat Lia.

Section Total.
Context (e : err).
Definition ends {A} (r : res A) : Prop :=
  match r with Ok _ => True | Err y => y = ECorrupt \/ y = no_eof e | _ => False end.

Lemma ends_bind : forall {A C} (r : res A) (f : A -> res C), ends r -> (forall x, r = Ok x -> ends (f x)) -> ends (bind r f).
Proof. intros A C r f H F. destruct r; cbn in *; auto. Qed.

Lemma need_ends : forall inp n reg, ends (need e n reg inp).
Proof. induction inp as [|b inp IH]; intros n reg; cbn [need]; destruct (n <=? length reg); cbn; auto. Qed.
Lemma need_takes : forall inp n reg reg' inp', need e n reg inp = Ok (reg', inp') ->
  length inp' + (if n <=? length reg then 0 else 1) <= length inp.
Proof.
  induction inp as [|b inp IH]; intros n reg reg' inp' H; cbn [need] in H; destruct (Nat.leb_spec n (length reg)); try discriminate.
  - assert (inp' = []) as -> by congruence. cbn. lia.
  - assert (inp' = b :: inp) as -> by congruence. lia.
  - apply IH in H. cbn [length]. destruct (n <=? length (reg ++ bits_of b)); lia.
Qed.
Lemma get_bits_ends : forall n reg inp, ends (get_bits e n reg inp).
Proof. intros. unfold get_bits. apply ends_bind; [apply need_ends|]. intros [r i] _. exact I. Qed.
Lemma huff_sym_ends : forall t f n reg inp, length inp + (if n <=? length reg then 1 else 0) < f -> ends (huff_sym e f t n reg inp).
Proof.
  intros t. induction f as [|f IH]; intros n reg inp L; [lia|]. cbn [huff_sym].
  apply ends_bind; [apply need_ends|]. intros [r i] E. apply need_takes in E.
  destruct (entry_for (h_codes t) r) as [[w v]|]; [|cbn; auto]. destruct (Nat.leb_spec (length w) (length r)) as [|Q]; [exact I|].
  apply IH. replace (length w <=? length r) with false by (symmetry; apply Nat.leb_gt; exact Q). destruct (n <=? length reg); lia.
Qed.
Lemma read_sym_ends : forall t reg inp, ends (read_sym e t reg inp).
Proof. intros. apply huff_sym_ends. destruct (h_min t <=? length reg); lia. Qed.
Lemma read_length_ends : forall v reg inp, ends (read_length e v reg inp).
Proof.
  intros. unfold read_length. destruct (length_base v) as [[b n]|]; [|cbn; auto]. apply ends_bind; [apply get_bits_ends|]. intros [[x r] i] _. exact I.
Qed.
Lemma read_distance_ends : forall td reg inp, ends (read_distance e td reg inp).
Proof.
  intros. unfold read_distance. apply ends_bind.
  - destruct td; [apply read_sym_ends|]. apply ends_bind; [apply need_ends|]. intros [r i] _. exact I.
  - intros [[d r] i] _. destruct (d <? 4); [exact I|]. destruct (d <? 30); [|cbn; auto]. apply ends_bind; [apply get_bits_ends|]. intros [[x r2] i2] _. exact I.
Qed.
Lemma bits_left_len : forall reg inp, length (left_bits reg inp) = bits_left reg inp.
Proof. intros. unfold left_bits, bits_left. now rewrite app_length, all_bits_len. Qed.
Lemma huff_block_ends : forall lit tl td dcode, table_for lit tl -> distances_read e td dcode ->
  forall f reg inp out, bits_left reg inp < f -> ends (snd (huff_block e f tl td reg inp out)).
Proof.
  intros lit tl td dcode T R. induction f as [|f IH]; intros reg inp out L; [lia|]. cbn [huff_block].
  pose proof (read_sym_ends tl reg inp) as S. destruct (read_sym e tl reg inp) as [[[v r] i]|y| |] eqn:E; cbn [ends] in S; try contradiction; [|exact S].
  destruct (read_sym_inv e lit tl v reg inp r i T E) as [Hv B]. apply (f_equal (@length bool)) in B. rewrite app_length, !bits_left_len in B.
  assert (length (code_of lit v) = nth v lit 0) as LW by (unfold code_of, high_first; now rewrite rev_length, low_first_len).
  pose proof (proj2 Hv) as NZ.
  destruct (v <? 256) eqn:V1; [apply IH; lia|]. apply Nat.ltb_ge in V1. destruct (Nat.eqb_spec v 256) as [|V2]; [exact I|].
  pose proof (read_length_ends v r i) as S1. destruct (read_length e v r i) as [[[len r1] i1]|y| |] eqn:E1; cbn [bind ends] in *; try contradiction; [|exact S1].
  pose proof (read_distance_ends td r1 i1) as S2. destruct (read_distance e td r1 i1) as [[[dist r2] i2]|y| |] eqn:E2; cbn [bind ends] in *; try contradiction; [|exact S2].
  destruct (length out <? dist); [cbn; auto|]. apply IH.
  destruct (read_length_inv e v len r i r1 i1 ltac:(lia) E1) as (le & lb & lx & _ & _ & _ & B1). apply (f_equal (@length bool)) in B1. rewrite app_length, !bits_left_len in B1.
  destruct (read_distance_inv e td dcode dist r1 i1 r2 i2 R E2) as (ds & de & db & dx & w & _ & _ & _ & _ & B2). apply (f_equal (@length bool)) in B2. rewrite !app_length, !bits_left_len in B2. lia.
Qed.
Lemma read_clens_ends : forall k reg inp, ends (read_clens e k reg inp).
Proof.
  induction k as [|k IH]; intros reg inp; [exact I|]. cbn [read_clens]. apply ends_bind; [apply get_bits_ends|]. intros [[v r] i] _.
  apply ends_bind; [apply IH|]. intros [[vs r2] i2] _. exact I.
Qed.
Lemma read_lens_ends : forall t n f acc reg inp, n <= f + length acc -> ends (read_lens e f t n acc reg inp).
Proof.
  intros t n. induction f as [|f IH]; intros acc reg inp L; cbn [read_lens].
  - destruct (Nat.leb_spec n (length acc)); [exact I|lia].
  - destruct (Nat.leb_spec n (length acc)) as [|G]; [exact I|]. apply ends_bind; [apply read_sym_ends|]. intros [[x r] i] _.
    assert (forall rep nb b, 1 <= rep -> ends (let* (k, r, i) := get_bits e nb r i in
        if n <? length acc + (rep + k) then Err ECorrupt else read_lens e f t n (acc ++ repeat b (rep + k)) r i)) as RUN.
    { intros rep nb b P. apply ends_bind; [apply get_bits_ends|]. intros [[k r2] i2] _. destruct (n <? length acc + (rep + k)); [cbn; auto|].
      apply IH. rewrite app_length, repeat_length. lia. }
    destruct (x <? 16); [apply IH; rewrite app_length; cbn; lia|].
    destruct (x =? 16); [destruct (length acc =? 0); [cbn; auto|apply RUN; lia]|]. destruct (x =? 17); apply RUN; lia.
Qed.
Lemma read_huffman_ends : forall reg inp, ends (read_huffman e reg inp).
Proof.
  intros. unfold read_huffman. apply ends_bind; [apply need_ends|]. intros [r i] _.
  destruct (286 <? _); [cbn; auto|]. destruct (30 <? _); [cbn; auto|]. apply ends_bind; [apply read_clens_ends|]. intros [[vs r2] i2] _.
  destruct (build (codebits vs)); [|cbn; auto]. apply ends_bind; [apply read_lens_ends; cbn [length]; lia|]. intros [[lens r3] i3] _.
  destruct (build (firstn _ lens)); [|cbn; auto]. destruct (build (skipn _ lens)); cbn; auto.
Qed.
Lemma data_block_ends : forall inp out, ends (snd (data_block e inp out)).
Proof.
  intros inp out. unfold data_block. destruct inp as [|a [|b [|c [|d inp]]]]; try (cbn; auto; fail).
  destruct (negb _); [cbn; auto|]. destruct (length inp <? _); cbn; auto.
Qed.
Lemma data_block_takes : forall inp out out' inp', data_block e inp out = (out', Ok inp') -> length inp' <= length inp.
Proof.
  intros inp out out' inp' H. unfold data_block in H. destruct inp as [|a [|b [|c [|d inp]]]]; try discriminate.
  destruct (negb _); [discriminate|]. destruct (length inp <? _); [discriminate|]. injection H as _ <-. rewrite skipn_length. cbn [length]. lia.
Qed.
Lemma blocks_ends : forall f reg inp out, bits_left reg inp < f -> ends (snd (blocks e f reg inp out)).
Proof.
  induction f as [|f IH]; intros reg inp out L; [lia|]. cbn [blocks].
  pose proof (need_ends inp 3 reg) as S0. destruct (need e 3 reg inp) as [[r i]|y| |] eqn:E; cbn [ends] in S0; try contradiction; [|exact S0].
  destruct (need_inv e inp 3 reg r i E) as (_ & B & C). apply (f_equal (@length bool)) in B. rewrite !bits_left_len in B.
  assert (bits_left (skipn 3 r) i + 3 = bits_left r i) as B3 by (unfold bits_left; rewrite skipn_length; lia).
  set (r3 := skipn 3 r) in *.
  set (br := match num (firstn 2 (skipn 1 r)) with 0 => _ | _ => _ end).
  assert (ends (snd br) /\ forall reg' inp', snd br = Ok (reg', inp') -> bits_left reg' inp' <= bits_left r3 i) as [X Y].
  { unfold br. destruct (num (firstn 2 (skipn 1 r))) as [|[|[|k]]].
    - pose proof (data_block_ends i out) as S1. destruct (data_block e i out) as [o x] eqn:D. cbn [snd] in *. destruct x as [q| | |]; cbn in *; try contradiction; split; auto; try discriminate.
      intros reg' inp' H. injection H as <- <-. apply data_block_takes in D. unfold bits_left. cbn [length]. lia.
    - destruct fixed_table_ok as (FT & _). split; [apply (huff_block_ends fixed_lens fixed_table None fixed_dist FT (fixed_distances_inv e)); lia|].
      intros reg' inp' H. destruct (huff_block e (S (bits_left r3 i)) fixed_table None r3 i out) as [o x] eqn:D. cbn [snd] in H. subst x.
      destruct (huff_block_inv e fixed_lens fixed_table None fixed_dist FT ltac:(vm_compute; lia) (fixed_distances_inv e) _ _ _ _ _ _ _ D) as (ts & tb & _ & _ & Q).
      apply (f_equal (@length bool)) in Q. rewrite app_length, !bits_left_len in Q. lia.
    - pose proof (read_huffman_ends r3 i) as S1. destruct (read_huffman e r3 i) as [[[[tl td] r4] i4]|y| |] eqn:RH; cbn [ends snd] in *; try contradiction; [|split; [exact S1|discriminate]].
      destruct (read_huffman_inv e r3 i tl td r4 i4 RH) as (lit & dist & hb & D1 & D2 & D3 & D4). apply (f_equal (@length bool)) in D2. rewrite app_length, !bits_left_len in D2.
      assert (length lit <= 288) as LL by (inversion D1; lia).
      split; [apply (huff_block_ends lit tl (Some td) (coded_by dist) D3 (coded_distances_inv e dist td D4)); lia|].
      intros reg' inp' H. destruct (huff_block e (S (bits_left r4 i4)) tl (Some td) r4 i4 out) as [o x] eqn:D. cbn [snd] in H. subst x.
      destruct (huff_block_inv e lit tl (Some td) (coded_by dist) D3 LL (coded_distances_inv e dist td D4) _ _ _ _ _ _ _ D) as (ts & tb & _ & _ & Q).
      apply (f_equal (@length bool)) in Q. rewrite app_length, !bits_left_len in Q. lia.
    - cbn. split; [auto|discriminate]. }
  destruct br as [o x]. cbn [snd] in X, Y. destruct x as [[r4 i4]|y| |]; cbn [ends] in X; try contradiction; [|exact X].
  destruct (nth 0 r false); [exact I|]. apply IH. specialize (Y r4 i4 eq_refl). lia.
Qed.
End Total.

Theorem inflate_ends : forall z e, ends e (snd (inflate (mk z e))).
Proof. intros z e. unfold inflate. cbn [mk st_data st_err]. apply blocks_ends. unfold bits_left. cbn [length]. lia. Qed.
