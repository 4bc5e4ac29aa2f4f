(** C43: the memory of a growing buffer follows the data received, whatever size the
    header declares. *)
From Verif Require Import Base GoStr Cid Types Assemble Reader Decode Bufio ReaderSpec Spec SafeOps SafeBufio NumFacts Transfer BufferMem.

Local Notation received b now := (Z.of_nat (remaining b) - Z.of_nat (remaining now))%Z.

(** ** A blob *)

Lemma grow_bound rnd extra n len cap c : rounding rnd -> (0 <= n <= 512)%Z -> (0 <= len <= cap)%Z ->
  buffer_grow rnd extra n len cap = Ok c ->
  (len + n <= c /\ (c <= cap \/ c <= 4 * len + 3072))%Z.
Proof.
  intros HR Hn Hl. unfold buffer_grow.
  destruct (Z.leb_spec n (cap - len)); [intros [= <-]; lia|].
  destruct ((cap =? 0)%Z && (n <=? 64)%Z) eqn:E.
  - intros [= <-]. apply andb_prop in E as [E1 E2]. apply Z.eqb_eq in E1. apply Z.leb_le in E2. lia.
  - destruct (max_int - cap - n <? cap)%Z; [discriminate|].
    set (x := (2 * cap + (if extra then n else 0))%Z).
    assert (0 <= x <= 2 * len + 1536)%Z by (unfold x; destruct extra; lia). clearbody x.
    intros Q. assert (c = rnd (Z.max (len + n) x)) as -> by congruence.
    pose proof (HR (Z.max (len + n) x)). lia.
Qed.

Lemma grow_ok rnd extra n len cap : (0 <= n <= 512)%Z -> (0 <= len <= cap)%Z -> (len < 2 ^ 60)%Z ->
  exists c, buffer_grow rnd extra n len cap = Ok c.
Proof.
  intros Hn Hl Hs. unfold buffer_grow.
  destruct (Z.leb_spec n (cap - len)); [eauto|].
  destruct ((cap =? 0)%Z && (n <=? 64)%Z); [eauto|].
  destruct (Z.ltb_spec (max_int - cap - n) cap) as [L|L]; [|eauto].
  unfold max_int in L. change (2 ^ 63)%Z with (8 * 2 ^ 60)%Z in L. change (2 ^ 60)%Z with 1152921504606846976%Z in *. lia.
Qed.

Lemma read_from_bound rnd extra (HR : rounding rnd) fuel : forall n held cap acc b,
  wf_reader b -> (0 <= held)%Z -> (held + Z.of_nat (length acc) <= cap <= 4 * (held + Z.of_nat (length acc)) + 3072)%Z ->
  Forall (fun '(now, cap) => 0 <= cap <= 4 * (held + Z.of_nat (length acc) + received b now) + 3072)%Z
    (snd (buffer_read_from rnd extra fuel n held cap acc b)).
Proof.
  induction fuel as [|f IH]; intros n held cap acc b W Hh Hc; [constructor|]. cbn [buffer_read_from].
  destruct (buffer_grow rnd extra min_read _ cap) as [c| | |] eqn:G; try constructor.
  apply grow_bound in G as [G1 G2]; [|assumption|unfold min_read; lia|lia]. unfold min_read in G1.
  destruct (Z.leb_spec n 0); [cbn [snd]; constructor; [lia|constructor]|].
  set (len := (held + Z.of_nat (length acc))%Z) in *.
  pose proof (buf_read_any (Z.to_nat (Z.min n (c - len))) b W ltac:(lia)) as F.
  destruct (buf_read _ b) as [[d e] b1]. destruct F as (S1 & F2 & _ & _).
  pose proof (step_remaining _ _ _ W S1) as SR.
  destruct e as [e|]; [cbn [snd]; constructor; [lia|constructor]|].
  specialize (IH (n - Z.of_nat (length d))%Z held c (acc ++ d) b1 (proj1 S1) Hh).
  destruct (buffer_read_from rnd extra f _ held c (acc ++ d) b1) as [r tr]. cbn [snd] in *.
  rewrite app_length in IH.
  constructor; [lia|]. eapply Forall_impl; [|apply IH; lia].
  intros [now k]. cbn beta iota. lia.
Qed.

Lemma dec_aux_length f : forall n k, (n < 10 ^ N.of_nat k)%N -> 0 < k -> length (dec_aux f n) <= k.
Proof.
  induction f as [|f IH]; intros n k H K; cbn [dec_aux]; [cbn; lia|].
  destruct (N.ltb_spec n 10); [cbn; lia|]. rewrite app_length. cbn [length].
  destruct k as [|k]; [lia|]. destruct k as [|k]; [cbn in H; lia|].
  assert (length (dec_aux f (n / 10)) <= Datatypes.S k); [|lia]. apply IH; [|lia].
  apply N.div_lt_upper_bound; [lia|]. rewrite <- N.pow_succ_r'. now rewrite <- Nat2N.inj_succ.
Qed.

Lemma prefix_length z : (0 <= z)%Z -> int_range z -> length (bs "blob " ++ dec_Z z ++ [NUL]) <= 25.
Proof.
  intros H0 [_ H]. unfold dec_Z. destruct (Z.ltb_spec z 0); [lia|].
  repeat rewrite app_length. change (length (bs "blob ")) with 5. change (length [NUL]) with 1.
  assert (length (dec (Z.to_N z)) <= 19); [|lia]. apply dec_aux_length; [|lia].
  change (10 ^ N.of_nat 19)%N with 10000000000000000000%N. lia.
Qed.

Lemma number_range {S V} (ops : rdops S V) s z s1 : read_number ops s = Ok (z, s1) -> int_range z.
Proof.
  unfold read_number. intros E. apply bind_ok in E as ([[l e] s2] & _ & E).
  destruct e; [discriminate|]. apply bind_ok in E as (x & _ & E). apply bind_ok in E as (y & E' & E).
  injection E as <- _. now apply atoi_iff in E'.
Qed.

Lemma blob_buffer_bound rnd extra pre n b : rounding rnd -> wf_reader b -> length pre <= 25 ->
  Forall (fun '(now, cap) => 0 <= cap <= 4 * received b now + 3172)%Z (snd (blob_buffer rnd extra pre n b)).
Proof.
  intros HR W L. unfold blob_buffer.
  destruct (buffer_grow rnd extra (Z.of_nat (length pre)) 0 0) as [c| | |] eqn:G; try constructor.
  apply grow_bound in G as [G1 G2]; [|assumption|lia|lia].
  pose proof (read_from_bound rnd extra HR (rounds b) n (Z.of_nat (length pre)) c [] b W ltac:(lia)) as F.
  destruct (buffer_read_from rnd extra _ n _ c [] b) as [r tr]. cbn [snd length] in *.
  constructor; [lia|]. eapply Forall_impl; [|apply F; lia]. intros [now k]. cbn beta iota. lia.
Qed.

(** For every rounding of capacities, both growth rules, every reader, every declared
    size and every moment of the run (also when it ends with an error), the capacity of
    the buffer is at most four times the bytes taken from the reader plus a constant. *)
Theorem blob_memory_follows_the_data : forall rnd extra pa pc k b,
  rounding rnd -> wf_reader b ->
  Forall (fun '(now, cap) => 0 <= cap <= 4 * received b now + 3172)%Z
    (snd (decode_blob_traced rnd extra pa pc k b)).
Proof.
  intros rnd extra pa pc k b HR W. unfold decode_blob_traced.
  pose proof (ok_read_number _ _ _ (bufio_contract pa pc) b W) as O.
  destruct (read_number (bufio_ops pa pc) b) as [[z b1]| | |] eqn:E; try constructor.
  destruct O as [W1 M]. apply number_range in E.
  destruct (Z.ltb_spec z 0); [constructor|].
  pose proof (blob_buffer_bound rnd extra _ z b1 HR W1 (prefix_length z ltac:(lia) E)) as F.
  destruct (blob_buffer rnd extra _ z b1) as [r tr]. cbn [snd] in *.
  eapply Forall_impl; [|exact F]. intros [now c]. cbn beta iota. lia.
Qed.
Print Assumptions blob_memory_follows_the_data.

(** The decoder with its buffer is the decoder of the other theorems, for some way of
    offering room to the reader. *)

Lemma copy_loop_ext p q fuel : forall i n acc b, (forall j l, i <= j -> p j l = q j l) ->
  copy_loop p fuel i n acc b = copy_loop q fuel i n acc b.
Proof.
  induction fuel as [|f IH]; intros i n acc b H; [reflexivity|]. cbn [copy_loop].
  rewrite (H i (length acc) (le_n _)). destruct (n <=? 0)%Z; [reflexivity|].
  destruct (buf_read _ b) as [[c e] b1]. destruct e; [reflexivity|]. apply IH. intros; apply H; lia.
Qed.

Lemma read_from_is_copy rnd extra (HR : rounding rnd) fuel : forall i n held cap acc b,
  wf_reader b -> (0 <= held)%Z -> (held + Z.of_nat (length acc) <= cap)%Z ->
  (held + Z.of_nat (length acc) + Z.of_nat (remaining b) < 2 ^ 60)%Z ->
  exists pc, fst (buffer_read_from rnd extra fuel n held cap acc b) = copy_loop pc fuel i n acc b.
Proof.
  induction fuel as [|f IH]; intros i n held cap acc b W Hh Hc Hs; [exists (fun _ _ => 0); reflexivity|].
  cbn [buffer_read_from]. set (len := (held + Z.of_nat (length acc))%Z) in *.
  destruct (grow_ok rnd extra min_read len cap) as [c G]; [unfold min_read; lia|lia|lia|]. rewrite G.
  apply grow_bound in G as [G _]; [|assumption|unfold min_read; lia|lia]. unfold min_read in G.
  destruct (Z.leb_spec n 0) as [N|N].
  { exists (fun _ _ => 0). cbn [copy_loop fst]. apply Z.leb_le in N. now rewrite N. }
  assert (exists r, Datatypes.S r = Z.to_nat (c - len)) as [r Er] by (exists (Z.to_nat (c - len) - 1); lia).
  assert ((if (n <? Z.of_nat (Datatypes.S r))%Z then Z.to_nat n else Datatypes.S r) = Z.to_nat (Z.min n (c - len))) as Em
    by (destruct (Z.ltb_spec n (Z.of_nat (Datatypes.S r))); lia).
  pose proof (buf_read_any (Z.to_nat (Z.min n (c - len))) b W ltac:(lia)) as F.
  destruct (buf_read _ b) as [[d e] b1] eqn:Er1. destruct F as (S1 & F2 & _ & _).
  pose proof (step_remaining _ _ _ W S1) as SR.
  apply Z.leb_gt in N.
  destruct e as [e|].
  - exists (fun _ _ => r). cbn [copy_loop fst]. now rewrite N, Em, Er1.
  - destruct (IH (Datatypes.S i) (n - Z.of_nat (length d))%Z held c (acc ++ d) b1 (proj1 S1) Hh) as [pc E].
    { rewrite app_length. lia. }
    { rewrite app_length. lia. }
    exists (fun j l => if j =? i then r else pc j l). cbn [copy_loop]. rewrite N, Nat.eqb_refl, Em, Er1.
    destruct (buffer_read_from rnd extra f _ held c (acc ++ d) b1) as [x tr]. cbn [fst] in *. rewrite E.
    apply copy_loop_ext. intros j l L. destruct (Nat.eqb_spec j i); [lia|reflexivity].
Qed.

Lemma read_number_policy pa pc pc' b : read_number (bufio_ops pa pc) b = read_number (bufio_ops pa pc') b.
Proof. reflexivity. Qed.

Theorem blob_memory_model_is_the_decoder : forall rnd extra pa pc k b,
  rounding rnd -> wf_reader b -> (Z.of_nat (remaining b) < 2 ^ 59)%Z ->
  exists pc', fst (decode_blob_traced rnd extra pa pc k b) = decode_blob (bufio_ops pa pc') k b.
Proof.
  intros rnd extra pa pc k b HR W Hs. unfold decode_blob_traced, decode_blob.
  pose proof (ok_read_number _ _ _ (bufio_contract pa pc) b W) as O.
  destruct (read_number (bufio_ops pa pc) b) as [[z b1]| | |] eqn:E;
    try (exists pc; rewrite E; reflexivity).
  destruct O as [W1 M].
  destruct (Z.ltb_spec z 0) as [Z0|Z0].
  { exists pc. rewrite E. cbn [bind]. apply Z.ltb_lt in Z0. now rewrite Z0. }
  pose proof (prefix_length z Z0 (number_range _ _ _ _ E)) as L.
  set (pre := bs "blob " ++ dec_Z z ++ [NUL]) in *. unfold blob_buffer.
  destruct (grow_ok rnd extra (Z.of_nat (length pre)) 0 0) as [c G]; [lia|lia|reflexivity|]. rewrite G.
  apply grow_bound in G as [G _]; [|assumption|lia|lia].
  destruct (read_from_is_copy rnd extra HR (rounds b1) 0 z (Z.of_nat (length pre)) c [] b1 W1) as [pc' E'].
  { lia. } { cbn [length]. lia. } { cbn [length]. change (2 ^ 60)%Z with (2 * 2 ^ 59)%Z. change (2 ^ 59)%Z with 576460752303423488%Z in *. lia. }
  exists pc'. rewrite (read_number_policy pa pc' pc), E. cbn [bind]. apply Z.ltb_ge in Z0. rewrite Z0.
  destruct (buffer_read_from rnd extra _ z _ c [] b1) as [r tr]. cbn [fst] in *. subst r. reflexivity.
Qed.
Print Assumptions blob_memory_model_is_the_decoder.

(** A declared size of 2^63-1 and three bytes of data: the buffer never exceeds 1074 bytes. *)
Definition greedy_blob : bufrd :=
  new_reader 64 (chunks [bs "9223372036854775807" ++ [NUL] ++ bs "abc"] EEOF).

Lemma exact_rounding : rounding (fun c => c).
Proof. intros c. lia. Qed.

Example blob_memory_applies :
  wf_reader greedy_blob /\ (Z.of_nat (remaining greedy_blob) < 2 ^ 59)%Z /\
  fst (decode_blob_traced (fun c => c) false (fun _ _ => 0) (fun _ _ => 0) BBlob greedy_blob) = Err EUnexpectedEOF /\
  map snd (snd (decode_blob_traced (fun c => c) false (fun _ _ => 0) (fun _ _ => 0) BBlob greedy_blob)) = [64; 537; 1074]%Z.
Proof.
  split; [apply wf_new; [lia|]|split; [reflexivity|split; [vm_compute; reflexivity|vm_compute; reflexivity]]].
  split; [discriminate|cbn; intuition discriminate].
Qed.

(** ** The message of a commit or a tag *)

Lemma read_all_bound app (HA : appending app) fuel : forall cap acc b,
  wf_reader b -> (Z.of_nat (length acc) <= cap)%Z -> (0 < cap <= 4 * Z.of_nat (length acc) + 512)%Z ->
  Forall (fun '(now, cap) => 0 < cap <= 4 * (Z.of_nat (length acc) + received b now) + 512)%Z
    (snd (read_all_mem app fuel cap acc b)).
Proof.
  induction fuel as [|f IH]; intros cap acc b W Hl Hc; [constructor|]. cbn [read_all_mem].
  set (len := Z.of_nat (length acc)) in *.
  set (c := if (len =? cap)%Z then app cap else cap).
  assert (len < c /\ c <= 4 * len + 512)%Z as [C1 C2].
  { unfold c. pose proof (HA cap). destruct (Z.eqb_spec len cap); lia. }
  clearbody c.
  pose proof (buf_read_any (Z.to_nat (c - len)) b W ltac:(lia)) as F.
  destruct (buf_read _ b) as [[d e] b1]. destruct F as (S1 & F2 & _ & _).
  pose proof (step_remaining _ _ _ W S1) as SR.
  destruct e as [e|]; [cbn [snd]; constructor; [lia|constructor]|].
  specialize (IH c (acc ++ d) b1 (proj1 S1)). rewrite app_length in IH.
  destruct (read_all_mem app f c (acc ++ d) b1) as [r tr]. cbn [snd] in *.
  constructor; [lia|]. eapply Forall_impl; [|apply IH; lia]. intros [now k]. cbn beta iota. lia.
Qed.

Theorem message_memory_follows_the_data : forall app b,
  appending app -> wf_reader b ->
  Forall (fun '(now, cap) => 0 < cap <= 4 * received b now + 512)%Z (snd (message_buffer app b)).
Proof.
  intros app b HA W. eapply Forall_impl; [|apply (read_all_bound app HA (rounds b) 512 [] b W); cbn; lia].
  intros [now c]. cbn [length]. lia.
Qed.
Print Assumptions message_memory_follows_the_data.

Lemma read_all_loop_ext p q fuel : forall i acc b, (forall j l, i <= j -> p j l = q j l) ->
  read_all_loop p fuel i acc b = read_all_loop q fuel i acc b.
Proof.
  induction fuel as [|f IH]; intros i acc b H; [reflexivity|]. cbn [read_all_loop].
  rewrite (H i (length acc) (le_n _)).
  destruct (buf_read _ b) as [[c e] b1]. destruct e; [reflexivity|]. apply IH. intros; apply H; lia.
Qed.

Lemma read_all_mem_is_read_all app (HA : appending app) fuel : forall i cap acc b,
  wf_reader b -> (Z.of_nat (length acc) <= cap)%Z -> (0 < cap)%Z ->
  exists pa, fst (read_all_mem app fuel cap acc b) = read_all_loop pa fuel i acc b.
Proof.
  induction fuel as [|f IH]; intros i cap acc b W Hl Hc; [exists (fun _ _ => 0); reflexivity|].
  cbn [read_all_mem]. set (len := Z.of_nat (length acc)) in *.
  set (c := if (len =? cap)%Z then app cap else cap).
  assert (len < c)%Z as C1 by (unfold c; pose proof (HA cap); destruct (Z.eqb_spec len cap); lia).
  clearbody c.
  assert (exists r, Datatypes.S r = Z.to_nat (c - len)) as [r Er] by (exists (Z.to_nat (c - len) - 1); lia).
  pose proof (buf_read_any (Z.to_nat (c - len)) b W ltac:(lia)) as F.
  destruct (buf_read _ b) as [[d e] b1] eqn:Er1. destruct F as (S1 & F2 & _ & _).
  destruct e as [e|].
  - exists (fun _ _ => r). cbn [read_all_loop fst]. now rewrite Er, Er1.
  - destruct (IH (Datatypes.S i) c (acc ++ d) b1 (proj1 S1)) as [pa E]; [rewrite app_length; lia|lia|].
    exists (fun j l => if j =? i then r else pa j l). cbn [read_all_loop]. rewrite Nat.eqb_refl, Er, Er1.
    destruct (read_all_mem app f c (acc ++ d) b1) as [x tr]. cbn [fst] in *. rewrite E.
    apply read_all_loop_ext. intros j l L. destruct (Nat.eqb_spec j i); [lia|reflexivity].
Qed.

Theorem message_memory_model_is_the_reader : forall app pc b,
  appending app -> wf_reader b ->
  exists pa, fst (message_buffer app b) = rd_all (bufio_ops pa pc) b.
Proof.
  intros app pc b HA W.
  destruct (read_all_mem_is_read_all app HA (rounds b) 0 512 [] b W) as [pa E]; [cbn; lia..|].
  exists pa. exact E.
Qed.
Print Assumptions message_memory_model_is_the_reader.

Lemma doubling : appending (fun c => 2 * c)%Z.
Proof. intros c. lia. Qed.

Example message_memory_applies :
  let b := new_reader 64 (chunks [repeat NL 700] EEOF) in
  wf_reader b /\
  nodup Z.eq_dec (map snd (snd (message_buffer (fun c => 2 * c)%Z b))) = [512; 1024]%Z /\
  (exists b', fst (message_buffer (fun c => 2 * c)%Z b) = Ok (repeat NL 700, None, b')).
Proof.
  split; [apply wf_new; [lia|]|split; [vm_compute; reflexivity|eexists; vm_compute; reflexivity]].
  split; [discriminate|cbn; intuition discriminate].
Qed.
