(** The model of go-cid agrees with CidSpec.v. *)
From Verif Require Import Base GoStr Cid CidSpec.

Lemma uvarint_aux_ok n w r : varint n w -> forall i s x,
  i + length w <= 9 -> (0 < i -> (0 < n)%N) ->
  uvarint_aux i s x (w ++ r) = Some ((x + N.shiftl n s)%N, i + length w).
Proof.
  induction 1 as [n c E L|n m c w L P V IH E]; intros i s x Hi Hn.
  - cbn [app uvarint_aux]. rewrite E. destruct (N.ltb_spec n 128); [|lia]. cbn [length] in *.
    destruct (Nat.ltb_spec 9 i); [lia|]. destruct (Nat.eqb_spec i 9); [lia|]. cbn [orb andb].
    destruct (Nat.ltb_spec 0 i) as [P|P].
    + specialize (Hn P). destruct (N.eqb_spec n 0); [lia|]. cbn [andb]. do 2 f_equal. lia.
    + rewrite andb_false_r. do 2 f_equal. lia.
  - cbn [app uvarint_aux]. destruct (N.ltb_spec (Byte.to_N c) 128); [lia|]. cbn [length] in *.
    rewrite IH by lia. do 2 f_equal; [|lia]. subst n.
    rewrite !N.shiftl_mul_pow2, N.pow_add_r. change (2 ^ 7)%N with 128%N. lia.
Qed.

Lemma uvarint_ok n w r : varint n w -> length w <= 9 -> uvarint (w ++ r) = Some (n, length w).
Proof.
  intros V L. unfold uvarint. rewrite (uvarint_aux_ok n w r V) by lia. f_equal. rewrite N.shiftl_0_r. f_equal; lia.
Qed.

Lemma skipn_exact {A} (w r : list A) : skipn (length w) (w ++ r) = r.
Proof. induction w; cbn; auto. Qed.

Lemma uvarint_skip_ok n w r : varint n w -> length w <= 9 -> uvarint_skip (w ++ r) = r.
Proof. intros V L. unfold uvarint_skip. rewrite (uvarint_ok n w r V L). apply skipn_exact. Qed.

Lemma varint_one : varint 1 [x01].
Proof. apply vi_last; reflexivity. Qed.

Lemma v1_not_v0 r : cid_is_v0 (x01 :: r) = false.
Proof. unfold cid_is_v0. destruct r; [reflexivity|]. now rewrite !andb_false_r. Qed.

Lemma cid_hash_ok c h : is_cid c h -> cid_hash c = h.
Proof.
  unfold cid_hash. intros [(codec & w & V & L & ->)|(d & L & -> & ->)].
  - rewrite v1_not_v0. change (x01 :: w ++ h) with ([x01] ++ (w ++ h)). rewrite (uvarint_skip_ok 1 [x01] _ varint_one) by (cbn; lia).
    now rewrite (uvarint_skip_ok codec w h V L).
  - unfold cid_is_v0. cbn [length]. rewrite L. reflexivity.
Qed.

Lemma cid_prefix_v1 codec code w v rest :
  forall (c : bytes), varint codec w -> length w <= 9 -> forall hw n, varint code hw -> length hw <= 9 -> varint n v -> length v <= 9 ->
  c = x01 :: w ++ hw ++ v ++ rest ->
  cid_prefix c = Ok {| px_version := 1; px_codec := codec; px_mhtype := code; px_mhlen := n |}.
Proof.
  intros c V L hw n Vh Lh Vv Lv ->. unfold cid_prefix. rewrite v1_not_v0.
  change (x01 :: w ++ hw ++ v ++ rest) with ([x01] ++ (w ++ hw ++ v ++ rest)).
  rewrite (uvarint_ok 1 [x01] _ varint_one) by (cbn; lia). cbn [length]. cbv zeta.
  change (skipn 1 ([x01] ++ (w ++ hw ++ v ++ rest))) with (w ++ hw ++ v ++ rest).
  rewrite (uvarint_ok codec w _ V L), skipn_exact, (uvarint_ok code hw _ Vh Lh), skipn_exact, (uvarint_ok n v _ Vv Lv). reflexivity.
Qed.

Lemma cid_prefix_v0 h c : cid_v0 h c -> cid_prefix c = Ok {| px_version := 0; px_codec := 112; px_mhtype := 18; px_mhlen := 32 |}.
Proof. intros (d & L & -> & ->). unfold cid_prefix, cid_is_v0. cbn [length]. rewrite L. reflexivity. Qed.
