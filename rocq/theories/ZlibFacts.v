(** The zlib reader reads the zlib format. *)
From Verif Require Import Base GoStr Cid Types Nodes Reader Bufio Person Assemble Decode Inflate InflateSpec InflateFacts InflateSound InflateTotal Zlib.
From Coq Require Import PeanoNat Lia ZArith.

(** ** Adler-32 *)
Local Open Scope Z_scope.
Definition raw_add (s : Z * Z) (x : byte) : Z * Z := (fst s + val x, snd s + (fst s + val x)).
Lemma val_bound : forall b, 0 <= val b <= 255.
Proof. intros b. unfold val. pose proof (Byte.to_N_bounded b). lia. Qed.
Lemma raw_fst : forall p s, fst (fold_left raw_add p s) = fst s + sum (map val p).
Proof. induction p as [|x p IH]; intros s; cbn [fold_left map sum]; [lia|]. rewrite IH. cbn [raw_add fst]. lia. Qed.
Lemma sum_add : forall (f : nat -> Z) c l, sum (map (fun k => c + f k) l) = Z.of_nat (length l) * c + sum (map f l).
Proof. induction l as [|x l IH]; cbn [map sum length]; [lia|]. rewrite IH. lia. Qed.
Lemma raw_snd : forall p s, snd (fold_left raw_add p s) = snd s + sum (map (fun k => fst s + sum (map val (firstn k p))) (seq 1 (length p))).
Proof.
  induction p as [|x p IH]; intros s; cbn [fold_left length seq map sum]; [lia|]. rewrite IH. cbn [raw_add fst snd].
  rewrite <- (seq_shift (length p) 1), map_map. rewrite (sum_add (fun k => sum (map val (firstn k p)))).
  rewrite (map_ext (fun k => fst s + sum (map val (firstn (S k) (x :: p)))) (fun k => (fst s + val x) + sum (map val (firstn k p)))) by (intros; cbn [firstn map sum]; lia).
  rewrite (sum_add (fun k => sum (map val (firstn k p)))). cbn [firstn map sum]. lia.
Qed.
Definition both (f : Z -> Z) (s : Z * Z) : Z * Z := (f (fst s), f (snd s)).
Definition zz (s : N * N) : Z * Z := (Z.of_N (fst s), Z.of_N (snd s)).
Notation md := (fun x => x mod 65521).
Lemma raw_mod : forall p s, both md (fold_left raw_add p (both md s)) = both md (fold_left raw_add p s).
Proof.
  induction p as [|x p IH]; intros s; cbn [fold_left].
  - unfold both. cbn [fst snd]. now rewrite !Zmod_mod.
  - rewrite <- IH. rewrite <- (IH (raw_add s x)). f_equal. f_equal. unfold both, raw_add. cbn [fst snd]. f_equal.
    + now rewrite Zplus_mod_idemp_l.
    + rewrite (Zplus_mod (snd s mod 65521)), Zmod_mod, (Zplus_mod (fst s mod 65521)), Zmod_mod, <- (Zplus_mod (fst s)), <- Zplus_mod. reflexivity.
Qed.
(** No overflow within 5552 bytes. *)
Lemma no_overflow : forall p s k, 0 <= k -> k + Z.of_nat (length p) <= 5552 ->
  Z.of_N (fst s) <= 65520 + 255 * k -> 2 * Z.of_N (snd s) <= 2 * 65520 + 2 * 65520 * k + 255 * (k * (k + 1)) ->
  zz (fold_left adler_add p s) = fold_left raw_add p (zz s).
Proof.
  induction p as [|x p IH]; intros s k K L A B; [reflexivity|]. cbn [fold_left length] in *.
  assert (zz (adler_add s x) = raw_add (zz s) x) as E.
  { pose proof (val_bound x) as V. unfold val in V. unfold adler_add, raw_add, zz, u32, val. cbn [fst snd].
    assert (k <= 5551) as K2 by lia. assert (k * (k + 1) <= 5551 * 5552) as Q by (apply Z.mul_le_mono_nonneg; lia).
    f_equal.
    - rewrite N2Z.inj_mod, N2Z.inj_add. apply Z.mod_small. change (Z.of_N (2 ^ 32)) with 4294967296. lia.
    - rewrite N2Z.inj_mod, N2Z.inj_add, N2Z.inj_mod, N2Z.inj_add. change (Z.of_N (2 ^ 32)) with 4294967296.
      rewrite (Z.mod_small (Z.of_N (fst s) + _)) by lia. apply Z.mod_small. lia. }
  rewrite <- E. assert (fst (zz (adler_add s x)) = fst (raw_add (zz s) x)) as E1 by now rewrite E. assert (snd (zz (adler_add s x)) = snd (raw_add (zz s) x)) as E2 by now rewrite E.
  cbn [zz raw_add fst snd] in E1, E2. pose proof (val_bound x) as V. apply (IH _ (k + 1)); lia.
Qed.
Lemma chunks_raw : forall f p s, (length p <= f)%nat -> Z.of_N (fst s) <= 65520 -> Z.of_N (snd s) <= 65520 ->
  zz (adler_chunks f s p) = both md (fold_left raw_add p (zz s)).
Proof.
  assert (forall s, Z.of_N (fst s) <= 65520 -> Z.of_N (snd s) <= 65520 -> zz s = both md (zz s)) as SM.
  { intros s A B. unfold both, zz. cbn [fst snd]. rewrite !Z.mod_small by lia. reflexivity. }
  induction f as [|f IH]; intros p s L A B.
  - destruct p; [|cbn in L; lia]. cbn [adler_chunks fold_left]. now apply SM.
  - destruct p as [|x p]; [cbn [adler_chunks fold_left]; now apply SM|]. cbn [adler_chunks].
    set (q := x :: p) in *. set (s' := fold_left adler_add (firstn nmax q) s).
    assert (length (firstn nmax q) <= nmax)%nat as LN by (rewrite firstn_length; lia).
    assert (Z.of_nat nmax = 5552) as NM by (unfold nmax; lia).
    assert (zz s' = fold_left raw_add (firstn nmax q) (zz s)) as E by (apply (no_overflow _ s 0); lia).
    assert (zz (fst s' mod 65521, snd s' mod 65521)%N = both md (zz s')) as M by (unfold zz, both; cbn [fst snd]; now rewrite !N2Z.inj_mod).
    rewrite IH.
    + rewrite M, E, raw_mod. rewrite <- fold_left_app. now rewrite firstn_skipn.
    + rewrite skipn_length. assert (1 <= nmax)%nat by lia. unfold q in *. cbn [length] in *. lia.
    + cbn [fst]. rewrite N2Z.inj_mod. pose proof (Z.mod_pos_bound (Z.of_N (fst s')) 65521). change (Z.of_N 65521) with 65521. lia.
    + cbn [snd]. rewrite N2Z.inj_mod. pose proof (Z.mod_pos_bound (Z.of_N (snd s')) 65521). change (Z.of_N 65521) with 65521. lia.
Qed.
Lemma adler_update_raw : forall d p, Z.of_N (d mod 2 ^ 16) <= 65520 -> Z.of_N (d / 2 ^ 16) <= 65520 ->
  let r := both md (fold_left raw_add p (zz (d mod 2 ^ 16, d / 2 ^ 16)%N)) in
  Z.of_N (adler_update d p) = snd r * 65536 + fst r.
Proof.
  intros d p A B r. unfold adler_update. pose proof (chunks_raw (length p) p (d mod 2 ^ 16, d / 2 ^ 16)%N (le_n _) A B) as E. fold r in E.
  destruct (adler_chunks (length p) (d mod 2 ^ 16, d / 2 ^ 16)%N p) as [s1 s2]. unfold zz in E. cbn [fst snd] in *.
  assert (Z.of_N s1 = fst r) as E1 by now rewrite <- E. assert (Z.of_N s2 = snd r) as E2 by now rewrite <- E.
  assert (0 <= snd r < 65521) by (unfold r, both; cbn [snd]; apply Z.mod_pos_bound; lia).
  rewrite N2Z.inj_add. unfold u32. rewrite N2Z.inj_mod, N2Z.inj_mul, E1, E2. change (Z.of_N (2 ^ 32)) with 4294967296. change (Z.of_N (2 ^ 16)) with 65536.
  rewrite Z.mod_small by lia. lia.
Qed.
Lemma adler32_spec : forall p, Z.of_N (adler32 p) = adler p.
Proof.
  intros p. unfold adler32. rewrite adler_update_raw by (vm_compute; discriminate). unfold adler, adler_a, adler_b, both. cbn [fst snd].
  rewrite raw_fst, raw_snd. reflexivity.
Qed.
(** The digest may be updated piece by piece. *)
Lemma adler_pieces : forall a b, adler_update (adler_update 1 a) b = adler32 (a ++ b).
Proof.
  intros a b. apply N2Z.inj. rewrite adler32_spec. pose proof (adler32_spec a) as E. unfold adler32 in E.
  assert (0 <= adler_a a < 65521 /\ 0 <= adler_b a < 65521) as [A1 A2] by (split; apply Z.mod_pos_bound; lia).
  assert (Z.of_N (adler_update 1 a mod 2 ^ 16) = adler_a a) as M.
  { rewrite N2Z.inj_mod, E. unfold adler. change (Z.of_N (2 ^ 16)) with 65536. rewrite Z.add_comm, Z_mod_plus_full. apply Z.mod_small. lia. }
  assert (Z.of_N (adler_update 1 a / 2 ^ 16) = adler_b a) as D.
  { rewrite N2Z.inj_div, E. unfold adler. change (Z.of_N (2 ^ 16)) with 65536. rewrite Z.add_comm, Z_div_plus_full by lia. rewrite Z.div_small by lia. lia. }
  rewrite adler_update_raw by lia. unfold zz. cbn [fst snd]. rewrite M, D.
  assert (both md (1, 0 + 0) = (1, 0)) as Q by reflexivity.
  assert ((adler_a a, adler_b a) = both md (fold_left raw_add a (1, 0))) as E0.
  { unfold both. rewrite raw_fst, raw_snd. reflexivity. }
  rewrite E0, raw_mod, <- fold_left_app. unfold adler, adler_a, adler_b, both. cbn [fst snd]. rewrite raw_fst, raw_snd. reflexivity.
Qed.
Lemma uint32_be_spec : forall a b c d, Z.of_N (uint32_be a b c d) = big_endian [a; b; c; d].
Proof. intros. unfold uint32_be, big_endian, val. cbn [fold_left]. rewrite !N2Z.inj_add, !N2Z.inj_mul, !N2Z.inj_add, !N2Z.inj_mul, !N2Z.inj_add, !N2Z.inj_mul. lia. Qed.
Local Close Scope Z_scope.

(** ** The container *)
Lemma method_bits : forall b, (N.land (Byte.to_N b) 15 =? 8)%N = (val b mod 16 =? 8)%Z.
Proof. destruct b; reflexivity. Qed.
Lemma window_bits : forall b, (7 <? N.shiftr (Byte.to_N b) 4)%N = negb (val b / 16 <=? 7)%Z.
Proof. destruct b; reflexivity. Qed.
Lemma dict_bit : forall b, negb (N.land (Byte.to_N b) 32 =? 0)%N = Z.testbit (val b) 5.
Proof. destruct b; reflexivity. Qed.
Lemma head_check : forall a b, ((Byte.to_N a * 256 + Byte.to_N b) mod 31 =? 0)%N = ((val a * 256 + val b) mod 31 =? 0)%Z.
Proof.
  intros a b. unfold val. replace (Z.of_N (Byte.to_N a) * 256 + Z.of_N (Byte.to_N b))%Z with (Z.of_N (Byte.to_N a * 256 + Byte.to_N b)) by lia.
  change 31%Z with (Z.of_N 31). rewrite <- N2Z.inj_mod. destruct (_ mod 31)%N; reflexivity.
Qed.
Lemma four : forall b : bytes, length b = 4 -> exists w x y z, b = [w; x; y; z].
Proof. intros [|w [|x [|y [|z [|? b]]]]] H; try discriminate. now exists w, x, y, z. Qed.
Lemma check_ok : forall a b c d data, (uint32_be a b c d =? adler32 data)%N = (big_endian [a; b; c; d] =? adler data)%Z.
Proof.
  intros. rewrite <- uint32_be_spec, <- adler32_spec. destruct (N.eqb_spec (uint32_be a b c d) (adler32 data)), (Z.eqb_spec (Z.of_N (uint32_be a b c d)) (Z.of_N (adler32 data))); auto; exfalso; [congruence|]. apply n. now apply N2Z.inj.
Qed.

Lemma zlib_new_ok : forall h rest e, zlib_head h -> zlib_new (mk (h ++ rest) e) = Ok (mk rest e).
Proof.
  intros h rest e H. inversion H as [cmf flg dict M W C D E]. subst h. cbn [app]. unfold zlib_new. cbn [mk st_data st_err].
  rewrite method_bits, window_bits, head_check, dict_bit, M, C. replace (val cmf / 16 <=? 7)%Z with true by (symmetry; now apply Z.leb_le). cbn [Z.eqb Pos.eqb negb orb].
  destruct (Z.testbit (val flg) 5).
  - destruct D as [D1 D2]. destruct (four dict D1) as (w & x & y & z & ->). cbn [app]. rewrite check_ok, D2, Z.eqb_refl. reflexivity.
  - subst dict. reflexivity.
Qed.
Lemma zlib_new_inv : forall z e r, zlib_new (mk z e) = Ok r -> exists h rest, z = h ++ rest /\ zlib_head h /\ r = mk rest e.
Proof.
  intros z e r H. unfold zlib_new in H. cbn [mk st_data st_err] in H. destruct z as [|cmf [|flg rest]]; try discriminate.
  rewrite method_bits, window_bits, head_check, dict_bit in H.
  destruct (Z.eqb_spec (val cmf mod 16) 8) as [M|]; [|discriminate]. destruct (Z.leb_spec (val cmf / 16) 7) as [W|]; [|discriminate].
  destruct (Z.eqb_spec ((val cmf * 256 + val flg) mod 31) 0) as [C|]; [|discriminate]. cbn [negb orb] in H.
  destruct (Z.testbit (val flg) 5) eqn:T.
  - destruct rest as [|a [|b [|c [|d rest]]]]; try discriminate. rewrite check_ok in H.
    destruct (Z.eqb_spec (big_endian [a; b; c; d]) (adler [])) as [D|]; [|discriminate]. injection H as <-.
    exists ([cmf; flg] ++ [a; b; c; d]), rest. split; [reflexivity|]. split; [|reflexivity]. constructor; auto. rewrite T. now split.
  - injection H as <-. exists ([cmf; flg] ++ []), rest. split; [reflexivity|]. split; [|reflexivity]. constructor; auto. now rewrite T.
Qed.
(** Opening fails with one of three errors. *)
Lemma zlib_new_ends : forall z e, match zlib_new (mk z e) with
  | Ok _ => True | Err x => x = EZlibHeader \/ x = EZlibDictionary \/ x = no_eof e | _ => False end.
Proof.
  intros z e. unfold zlib_new. cbn [mk st_data st_err]. destruct z as [|cmf [|flg rest]]; auto. destruct (_ || _); auto. destruct (negb _); auto.
  destruct rest as [|a [|b [|c [|d rest]]]]; auto. destruct (_ =? _)%N; auto.
Qed.
Lemma zlib_read_whole : forall data d check more e, deflate_of data d -> length check = 4 ->
  zlib_read (mk (d ++ check ++ more) e) = Ok (data, if (big_endian check =? adler data)%Z then EEOF else EZlibChecksum).
Proof.
  intros data d check more e H L. unfold zlib_read. rewrite (inflate_ok _ _ _ _ H). destruct (four check L) as (w & x & y & z & ->). cbn [app]. now rewrite check_ok.
Qed.
Lemma zlib_read_cut : forall data d check e, deflate_of data d -> length check < 4 ->
  zlib_read (mk (d ++ check) e) = Ok (data, no_eof e).
Proof.
  intros data d check e H L. unfold zlib_read. rewrite (inflate_ok _ _ _ _ H). destruct check as [|? [|? [|? [|? ?]]]]; try reflexivity. cbn in L. lia.
Qed.
Lemma no_eof_not : forall e, no_eof e <> EEOF.
Proof. intros e. unfold no_eof. destruct (is_eof e) eqn:E; [discriminate|]. intros ->. discriminate. Qed.
Lemma zlib_read_inv : forall r e data, zlib_read (mk r e) = Ok (data, EEOF) ->
  exists d check more, r = d ++ check ++ more /\ deflate_of data d /\ length check = 4 /\ big_endian check = adler data.
Proof.
  intros r e data H. unfold zlib_read in H. pose proof (inflate_ends r e) as N. destruct (inflate (mk r e)) as [out x] eqn:E. cbn [snd] in N.
  destruct x as [rest|x| |]; try discriminate.
  - destruct (inflate_inv _ _ _ _ E) as (d & -> & D). destruct rest as [|a [|b [|c [|y rest]]]]; try (exfalso; eapply no_eof_not; injection H as _ H; exact H).
    rewrite check_ok in H. destruct (Z.eqb_spec (big_endian [a; b; c; y]) (adler out)) as [Q|]; [|discriminate]. injection H as ->.
    exists d, [a; b; c; y], rest. now repeat split.
  - exfalso. injection H as _ ->. destruct N as [N|N]; [discriminate|]. symmetry in N. now apply no_eof_not in N.
Qed.
(** Reading ends, with EOF or one of three errors. *)
Lemma zlib_read_ends : forall r e, exists out x, zlib_read (mk r e) = Ok (out, x) /\
  (x = EEOF \/ x = EZlibChecksum \/ x = ECorrupt \/ x = no_eof e).
Proof.
  intros r e. unfold zlib_read. pose proof (inflate_ends r e) as N. destruct (inflate (mk r e)) as [out x]. cbn [snd] in N. destruct x as [rest|x| |]; try contradiction; exists out.
  - destruct rest as [|a [|b [|c [|d rest]]]]; try (eexists; split; [reflexivity|auto]; fail). destruct (_ =? _)%N; eexists; split; auto.
  - eexists; split; [reflexivity|]. destruct N; auto.
Qed.

(** All of it. *)
Lemma zlib_run_iff : forall z e data, zlib_run (mk z e) = Ok (data, EEOF) <-> exists z' more, z = z' ++ more /\ zlib_of data z'.
Proof.
  intros z e data. unfold zlib_run. split.
  - intros H. destruct (zlib_new (mk z e)) as [r| | |] eqn:E; try discriminate. destruct (zlib_new_inv _ _ _ E) as (h & rest & -> & Hh & ->). cbn [bind] in H.
    destruct (zlib_read_inv _ _ _ H) as (d & check & more & -> & D & L & C). exists (h ++ d ++ check), more. split; [now rewrite <- !app_assoc|].
    exists h, d, check. now repeat split.
  - intros (z' & more & -> & h & d & check & -> & Hh & D & L & C). rewrite <- !app_assoc. rewrite zlib_new_ok by exact Hh. cbn [bind].
    rewrite (zlib_read_whole data d check more e D L). now rewrite C, Z.eqb_refl.
Qed.
