(** C77: the bits of the assemblers of structs are the set of the fields they were given: a key is refused exactly when it
    is no field or was given before, and Finish tells exactly the fields that are missing. *)
From Coq Require Import NArith Lia.
From Verif Require Import Base GoStr Types Methods MethodsSpec Protos ProtosSpec FieldBits FieldBitsSpec.
From Verif Require Builder Props_protos.
Local Open Scope N_scope.

(** ** Bits *)
Lemma land_one : forall s i, (N.land s (2 ^ i) =? 0) = negb (N.testbit s i).
Proof.
  intros s i. destruct (N.testbit s i) eqn:E; cbn.
  - apply N.eqb_neq. intros H. assert (Q : N.testbit (N.land s (2 ^ i)) i = true) by (now rewrite N.land_spec, N.pow2_bits_true, E).
    rewrite H in Q. now rewrite N.bits_0 in Q.
  - apply N.eqb_eq. apply N.bits_inj. intros j. rewrite N.land_spec, N.bits_0, N.pow2_bits_eqb.
    destruct (N.eqb_spec i j); [subst; now rewrite E|apply Bool.andb_false_r].
Qed.
Lemma add_one : forall s i j, N.testbit s i = false -> N.testbit (s + 2 ^ i) j = (i =? j) || N.testbit s j.
Proof.
  intros s i j E. rewrite N.add_nocarry_lxor.
  - rewrite N.lxor_spec, N.pow2_bits_eqb. destruct (N.eqb_spec i j) as [->|]; [now rewrite E|]. now destruct (N.testbit s j).
  - apply N.eqb_eq. now rewrite land_one, E.
Qed.
Definition inside (m s : num) : bool := N.land s m =? m.
Lemma inside_spec : forall m s, inside m s = true <-> forall i, N.testbit m i = true -> N.testbit s i = true.
Proof.
  intros m s. unfold inside. rewrite N.eqb_eq. split.
  - intros H i M. rewrite <- H, N.land_spec in M. now apply Bool.andb_true_iff in M.
  - intros H. apply N.bits_inj. intros i. rewrite N.land_spec. specialize (H i). destruct (N.testbit m i); [now rewrite H|apply Bool.andb_false_r].
Qed.
Lemma inside_lor : forall a b s, inside (N.lor a b) s = inside a s && inside b s.
Proof.
  intros a b s. apply Bool.eq_true_iff_eq. rewrite Bool.andb_true_iff, !inside_spec. split.
  - intros H. split; intros i M; apply H; rewrite N.lor_spec, M; now rewrite ?Bool.orb_true_r.
  - intros [A B] i M. rewrite N.lor_spec in M. apply Bool.orb_true_iff in M as [M|M]; auto.
Qed.
Lemma inside_one : forall s i, inside (2 ^ i) s = N.testbit s i.
Proof.
  intros s i. apply Bool.eq_true_iff_eq. rewrite inside_spec. split.
  - intros H. apply H, N.pow2_bits_true.
  - intros H j M. rewrite N.pow2_bits_eqb in M. apply N.eqb_eq in M. now subst.
Qed.

(** ** The invariant: bit [i] is set when the key of field [i] was taken *)
Definition holds (t : tyname) (s : num) (seen : list bytes) : Prop :=
  forall i, N.testbit s (N.of_nat i) = match nth_error (names t) i with Some k => taken seen k | None => false end.

Definition case_for (a : gotype) (k : bytes) := find (fun x => gotype_eqb (c_of x) a && beqb (c_key x) k) cases.
Lemma case_of : forall r w t k, is_struct t = true ->
  match case_for (key_view (the_assembler r t) w) k with
  | Some x => exists i, nth_error (names t) i = Some k /\ bit (c_tests x) = 2 ^ N.of_nat i /\ bit (c_adds x) = 2 ^ N.of_nat i /\
                        field_name (fst (c_tells x)) (snd (c_tells x)) = k
  | None => taken (names t) k = false
  end.
Proof.
  intros r w t k S. destruct t; try discriminate S; clear S; unfold case_for, names;
    destruct r, w; lazy -[beqb bs bit field_name N.pow taken map fields nth_error];
    repeat match goal with |- context [beqb (bs ?x) k] => destruct (beqb_spec (bs x) k) as [E|?]; [subst k|] end;
    cbn [c_tests c_adds c_tells fst snd fields map nth_error].
  all: try (unfold taken; cbn [fields map fst existsb]; rewrite !beqb_neq by (intro; subst; congruence); reflexivity).
  all: first [exists 0%nat; repeat split; reflexivity | exists 1%nat; repeat split; reflexivity | exists 2%nat; repeat split; reflexivity
    | exists 3%nat; repeat split; reflexivity | exists 4%nat; repeat split; reflexivity | exists 5%nat; repeat split; reflexivity
    | exists 6%nat; repeat split; reflexivity | exists 7%nat; repeat split; reflexivity | exists 8%nat; repeat split; reflexivity].
Qed.

Lemma nth_taken : forall l i k, nth_error l i = Some k -> taken l k = true.
Proof.
  intros l i k H. apply existsb_exists. exists k. split; [eapply nth_error_In; exact H|apply beqb_refl].
Qed.
Lemma mark_holds : forall r w t s seen k, is_struct t = true -> holds t s seen ->
  match mark (key_view (the_assembler r t) w) s k with
  | Ok s' => answer t seen k = Ok tt /\ holds t s' (k :: seen)
  | Err e => answer t seen k = Err e
  | _ => False
  end.
Proof.
  intros r w t s seen k S H. pose proof (case_of r w t k S) as Q. unfold mark. fold (case_for (key_view (the_assembler r t) w) k).
  destruct (case_for _ k) as [x|].
  - destruct Q as (i & N & T & A & F). rewrite T, A, F, land_one. pose proof (H i) as Hi. rewrite N in Hi.
    unfold answer. rewrite (nth_taken _ _ _ N). cbn [negb]. rewrite <- Hi.
    destruct (N.testbit s (N.of_nat i)) eqn:E; cbn [negb]; [reflexivity|]. split; [reflexivity|].
    intros j. rewrite add_one by exact E. rewrite (H j).
    destruct (nth_error (names t) j) as [k'|] eqn:J.
    + unfold taken at 2. cbn [existsb]. f_equal. destruct (beqb_spec k' k) as [->|D].
      * apply N.eqb_eq. f_equal. eapply NoDup_nth_error; [apply Props_protos.fields_distinct| |exact (eq_trans N (eq_sym J))].
        apply nth_error_Some. unfold names in N. rewrite N. discriminate.
      * apply N.eqb_neq. intros Q. apply D. apply Nnat.Nat2N.inj in Q. subst j. congruence.
    + rewrite Bool.orb_false_r. apply N.eqb_neq. intros Q. apply Nnat.Nat2N.inj in Q. subst j. congruence.
  - unfold answer. now rewrite Q.
Qed.

Lemma offer_holds : forall ks r t s seen, is_struct t = true -> holds t s seen ->
  fst (offer (the_assembler r t) s ks) = fst (answers t seen (map snd ks)) /\
  holds t (snd (offer (the_assembler r t) s ks)) (snd (answers t seen (map snd ks))).
Proof.
  induction ks as [|[w k] ks IH]; intros r t s seen S H; [split; [reflexivity|exact H]|].
  cbn [offer map answers snd]. pose proof (mark_holds r w t s seen k S H) as Q.
  destruct (mark (key_view (the_assembler r t) w) s k) as [s'|e| |]; try contradiction.
  - destruct Q as [-> H']. specialize (IH r t s' (k :: seen) S H').
    destruct (offer _ s' ks), (answers t (k :: seen) _). cbn in *. destruct IH as [-> IH]. split; [reflexivity|exact IH].
  - rewrite Q. specialize (IH r t s seen S H).
    destruct (offer _ s ks), (answers t seen _). cbn in *. destruct IH as [-> IH]. split; [reflexivity|exact IH].
Qed.

Lemma finish_tells : forall r t s seen, is_struct t = true ->
  (forall i k, nth_error (names t) i = Some k -> N.testbit s (N.of_nat i) = taken seen k) ->
  finish (the_assembler r t) s = verdict t seen.
Proof.
  intros r t s seen S B. destruct t; try discriminate S; clear S.
  - assert (F : finish (the_assembler r TCommit) s =
      if inside (N.lor (2^0) (N.lor (2^1) (N.lor (2^2) (N.lor (2^7) (2^8))))) s then Ok tt
      else Err (EMissing (concat [if N.land s (2^0) =? 0 then [bs "tree"] else []; if N.land s (2^1) =? 0 then [bs "parents"] else []; if N.land s (2^2) =? 0 then [bs "message"] else []; if N.land s (2^7) =? 0 then [bs "mergetag"] else []; if N.land s (2^8) =? 0 then [bs "other"] else []]))).
    { destruct r; unfold finish, inside; cbn -[N.land N.eqb bs];
      destruct (N.land s 391 =? 391), (N.land s 1 =? 0), (N.land s 2 =? 0), (N.land s 4 =? 0), (N.land s 128 =? 0), (N.land s 256 =? 0); reflexivity. }
    rewrite F, !inside_lor, !inside_one, !land_one. clear F.
    pose proof (B 0%nat _ eq_refl) as B0; pose proof (B 1%nat _ eq_refl) as B1; pose proof (B 2%nat _ eq_refl) as B2; pose proof (B 7%nat _ eq_refl) as B7; pose proof (B 8%nat _ eq_refl) as B8.
    cbn [N.of_nat Pos.of_succ_nat Pos.succ] in *. rewrite B0, B1, B2, B7, B8.
    unfold verdict. replace (required TCommit) with [bs "tree"; bs "parents"; bs "message"; bs "mergetag"; bs "other"] by (vm_compute; reflexivity).
    cbn [filter fst]. destruct (taken seen (bs "tree")), (taken seen (bs "parents")), (taken seen (bs "message")), (taken seen (bs "mergetag")), (taken seen (bs "other")); reflexivity.
  - assert (F : finish (the_assembler r TPersonInfo) s =
      if inside (N.lor (2^0) (N.lor (2^1) (N.lor (2^2) (2^3)))) s then Ok tt
      else Err (EMissing (concat [if N.land s (2^0) =? 0 then [bs "date"] else []; if N.land s (2^1) =? 0 then [bs "timezone"] else []; if N.land s (2^2) =? 0 then [bs "email"] else []; if N.land s (2^3) =? 0 then [bs "name"] else []]))).
    { destruct r; unfold finish, inside; cbn -[N.land N.eqb bs];
      destruct (N.land s 15 =? 15), (N.land s 1 =? 0), (N.land s 2 =? 0), (N.land s 4 =? 0), (N.land s 8 =? 0); reflexivity. }
    rewrite F, !inside_lor, !inside_one, !land_one. clear F.
    pose proof (B 0%nat _ eq_refl) as B0; pose proof (B 1%nat _ eq_refl) as B1; pose proof (B 2%nat _ eq_refl) as B2; pose proof (B 3%nat _ eq_refl) as B3.
    cbn [N.of_nat Pos.of_succ_nat Pos.succ] in *. rewrite B0, B1, B2, B3.
    unfold verdict. replace (required TPersonInfo) with [bs "date"; bs "timezone"; bs "email"; bs "name"] by (vm_compute; reflexivity).
    cbn [filter fst]. destruct (taken seen (bs "date")), (taken seen (bs "timezone")), (taken seen (bs "email")), (taken seen (bs "name")); reflexivity.
  - assert (F : finish (the_assembler r TTag) s =
      if inside (N.lor (2^0) (N.lor (2^1) (N.lor (2^2) (N.lor (2^3) (2^4))))) s then Ok tt
      else Err (EMissing (concat [if N.land s (2^0) =? 0 then [bs "object"] else []; if N.land s (2^1) =? 0 then [bs "type"] else []; if N.land s (2^2) =? 0 then [bs "tag"] else []; if N.land s (2^3) =? 0 then [bs "tagger"] else []; if N.land s (2^4) =? 0 then [bs "message"] else []]))).
    { destruct r; unfold finish, inside; cbn -[N.land N.eqb bs];
      destruct (N.land s 31 =? 31), (N.land s 1 =? 0), (N.land s 2 =? 0), (N.land s 4 =? 0), (N.land s 8 =? 0), (N.land s 16 =? 0); reflexivity. }
    rewrite F, !inside_lor, !inside_one, !land_one. clear F.
    pose proof (B 0%nat _ eq_refl) as B0; pose proof (B 1%nat _ eq_refl) as B1; pose proof (B 2%nat _ eq_refl) as B2; pose proof (B 3%nat _ eq_refl) as B3; pose proof (B 4%nat _ eq_refl) as B4.
    cbn [N.of_nat Pos.of_succ_nat Pos.succ] in *. rewrite B0, B1, B2, B3, B4.
    unfold verdict. replace (required TTag) with [bs "object"; bs "type"; bs "tag"; bs "tagger"; bs "message"] by (vm_compute; reflexivity).
    cbn [filter fst]. destruct (taken seen (bs "object")), (taken seen (bs "type")), (taken seen (bs "tag")), (taken seen (bs "tagger")), (taken seen (bs "message")); reflexivity.
  - assert (F : finish (the_assembler r TTreeEntry) s =
      if inside (N.lor (2^0) (2^1)) s then Ok tt
      else Err (EMissing (concat [if N.land s (2^0) =? 0 then [bs "mode"] else []; if N.land s (2^1) =? 0 then [bs "hash"] else []]))).
    { destruct r; unfold finish, inside; cbn -[N.land N.eqb bs];
      destruct (N.land s 3 =? 3), (N.land s 1 =? 0), (N.land s 2 =? 0); reflexivity. }
    rewrite F, !inside_lor, !inside_one, !land_one. clear F.
    pose proof (B 0%nat _ eq_refl) as B0; pose proof (B 1%nat _ eq_refl) as B1.
    cbn [N.of_nat Pos.of_succ_nat Pos.succ] in *. rewrite B0, B1.
    unfold verdict. replace (required TTreeEntry) with [bs "mode"; bs "hash"] by (vm_compute; reflexivity).
    cbn [filter fst]. destruct (taken seen (bs "mode")), (taken seen (bs "hash")); reflexivity.
Qed.

Lemma finish_holds : forall r t s seen, is_struct t = true -> holds t s seen ->
  finish (the_assembler r t) s = verdict t seen.
Proof. intros r t s seen S H. apply finish_tells; [exact S|]. intros i k E. now rewrite (H i), E. Qed.

Lemma nothing_held : forall t, holds t 0 [].
Proof. intros t i. rewrite N.bits_0. now destruct (nth_error (names t) i). Qed.

(** ** The theorems *)

(** Any keys offered to a new assembler of a struct, in any order and by AssembleEntry or by the assembler of keys: the answers are
    those of a set of keys, and Finish after them tells what the set has not. *)
Theorem bits_are_sets : forall r t ks, is_struct t = true ->
  fst (offer (the_assembler r t) 0 ks) = fst (answers t [] (map snd ks)) /\
  finish (the_assembler r t) (snd (offer (the_assembler r t) 0 ks)) = verdict t (snd (answers t [] (map snd ks))).
Proof.
  intros r t ks S. destruct (offer_holds ks r t 0 [] S (nothing_held t)) as [A H]. split; [exact A|]. now apply finish_holds.
Qed.
Print Assumptions bits_are_sets.

Lemma answers_distinct : forall t ks seen, NoDup seen -> incl seen (names t) ->
  NoDup (snd (answers t seen ks)) /\ incl (snd (answers t seen ks)) (names t).
Proof.
  induction ks as [|k ks IH]; intros seen D I; [split; assumption|]. cbn [answers].
  assert (Q : forall l x, taken l x = true <-> In x l).
  { intros l x. unfold taken. rewrite existsb_exists. split.
    - intros (y & Hy & E). now apply Props_protos.beqb_eq in E as ->.
    - intros Hx. exists x. split; [exact Hx|apply beqb_refl]. }
  unfold answer. destruct (taken (names t) k) eqn:N; cbn [negb].
  - destruct (taken seen k) eqn:T.
    + specialize (IH seen D I). destruct (answers t seen ks). exact IH.
    + specialize (IH (k :: seen)). destruct (answers t (k :: seen) ks). apply IH.
      * constructor; [|exact D]. intros C. apply Q in C. congruence.
      * apply incl_cons; [now apply Q|exact I].
  - specialize (IH seen D I). destruct (answers t seen ks). exact IH.
Qed.

Definition accepted (ks : list bytes) (rs : list (res unit)) : list bytes :=
  map fst (filter (fun x => match snd x with Ok _ => true | _ => false end) (combine ks rs)).
Lemma answers_accepted : forall t ks seen, snd (answers t seen ks) = rev (accepted ks (fst (answers t seen ks))) ++ seen.
Proof.
  induction ks as [|k ks IH]; intros seen; [reflexivity|]. cbn [answers].
  destruct (answer t seen k) as [u|e| |]; unfold accepted;
    match goal with |- context [answers t ?x ks] => specialize (IH x); destruct (answers t x ks) as [rs sn]; cbn in *; rewrite IH; unfold accepted end;
    cbn; rewrite <- ?app_assoc; reflexivity.
Qed.

(** So no key is taken twice, and only keys of fields are. *)
Theorem no_key_is_taken_twice : forall r t ks, is_struct t = true ->
  let taken_keys := accepted (map snd ks) (fst (offer (the_assembler r t) 0 ks)) in
  NoDup taken_keys /\ incl taken_keys (names t).
Proof.
  intros r t ks S. cbn zeta. rewrite (proj1 (bits_are_sets r t ks S)).
  destruct (answers_distinct t (map snd ks) [] (NoDup_nil _) (incl_nil_l _)) as [D I].
  rewrite answers_accepted, app_nil_r in D, I. split.
  - apply NoDup_rev in D. now rewrite rev_involutive in D.
  - intros k K. apply I. now apply in_rev in K.
Qed.
Print Assumptions no_key_is_taken_twice.

(** The number stays below 2^9: no int of Go is too small for it. *)
Theorem bits_stay_small : forall r t ks, is_struct t = true -> snd (offer (the_assembler r t) 0 ks) < 2 ^ 9.
Proof.
  intros r t ks S. destruct (offer_holds ks r t 0 [] S (nothing_held t)) as [_ H].
  set (s := snd (offer _ 0 ks)) in *. clearbody s.
  destruct (N.eq_dec s 0) as [->|Z]; [reflexivity|].
  apply N.log2_lt_pow2; [lia|]. destruct (N.lt_ge_cases (N.log2 s) 9) as [L|L]; [exact L|exfalso].
  pose proof (N.bit_log2 s Z) as T. specialize (H (N.to_nat (N.log2 s))). rewrite N2Nat.id, T in H.
  assert (E : nth_error (names t) (N.to_nat (N.log2 s)) = None).
  { apply nth_error_None. assert (length (names t) <= 9)%nat by (destruct t; cbn; lia). lia. }
  rewrite E in H. discriminate H.
Qed.
Print Assumptions bits_stay_small.

(** An error for an invalid key tells the name of the type, also when the assembler of keys gives it. *)
Theorem invalid_keys_tell_the_type : forall r t w, is_struct t = true ->
  invalid_name (key_view (the_assembler r t) w) = Some (full_name (if r then ReprAssembler else Assembler) t).
Proof. intros r t w S; destruct t; try discriminate S; destruct r, w; reflexivity. Qed.
Print Assumptions invalid_keys_tell_the_type.

Lemma index_of : forall (fs : list Builder.field) i k, NoDup (map Builder.f_name fs) -> nth_error (map Builder.f_name fs) i = Some k ->
  Builder.field_index fs k = Some i.
Proof.
  induction fs as [|f fs IH]; intros i k D E; [destruct i; discriminate E|].
  cbn [Builder.field_index map] in *. inversion_clear D. destruct i as [|i]; cbn in E.
  - inversion E; subst. now rewrite beqb_refl.
  - destruct (beqb_spec (Builder.f_name f) k) as [Q|Q].
    + exfalso. apply H. rewrite Q. eapply nth_error_In; exact E.
    + now rewrite (IH i k).
Qed.
Lemma no_index : forall (fs : list Builder.field) k, taken (map Builder.f_name fs) k = false -> Builder.field_index fs k = None.
Proof.
  induction fs as [|f fs IH]; intros k T; [reflexivity|]. cbn [Builder.field_index]. unfold taken in T. cbn [map existsb] in T.
  apply Bool.orb_false_iff in T as [A B]. destruct (beqb_spec (Builder.f_name f) k) as [Q|Q].
  - rewrite <- Q, beqb_refl in A. discriminate A.
  - now rewrite (IH k B).
Qed.

(** The builders with states (Builder.v) keep a list of numbers of fields where the code has bits.  As long as the list has
    the numbers of the bits that are set, both refuse the same keys, stay alike, and find the struct complete alike. *)
Definition alike (s : num) (l : list nat) : Prop := forall i, N.testbit s (N.of_nat i) = Builder.mem_nat i l.
Theorem bits_are_the_lists_of_the_builders : forall r w t fs s l k, Props_protos.states_of t = Builder.TStruct fs -> alike s l ->
  match Builder.field_index fs k with
  | None => mark (key_view (the_assembler r t) w) s k = Err (EInvalidKey k)
  | Some i =>
      if Builder.mem_nat i l then mark (key_view (the_assembler r t) w) s k = Err (ERepeatedKey k)
      else exists s', mark (key_view (the_assembler r t) w) s k = Ok s' /\ alike s' (i :: l)
  end /\
  (finish (the_assembler r t) s = Ok tt <-> Builder.sufficient fs l = true).
Proof.
  intros r w t fs s l k ST AL.
  assert (S : is_struct t = true) by (destruct t; try discriminate ST; reflexivity).
  assert (NM : names t = map Builder.f_name fs) by (destruct t; inversion ST; reflexivity).
  assert (D : NoDup (names t)) by apply Props_protos.fields_distinct.
  split.
  - pose proof (case_of r w t k S) as Q. unfold mark. fold (case_for (key_view (the_assembler r t) w) k).
    destruct (case_for _ k) as [x|].
    + destruct Q as (i & N & T & A & F). rewrite T, A, F, land_one, (AL i). rewrite NM in N, D.
      rewrite (index_of _ _ _ D N).
      destruct (Builder.mem_nat i l) eqn:E; cbn [negb]; [reflexivity|].
      eexists. split; [reflexivity|]. intros j. rewrite add_one by (now rewrite (AL i)). rewrite (AL j).
      unfold Builder.mem_nat at 2. cbn [existsb]. f_equal.
      destruct (Nat.eqb_spec j i) as [->|D']; [apply N.eqb_refl|]. apply N.eqb_neq. intros Q. apply Nnat.Nat2N.inj in Q. congruence.
    + rewrite NM in Q. now rewrite (no_index _ _ Q).
  - set (seen := map (fun i => nth i (names t) []) (filter (fun i => Nat.ltb i (length (names t))) l)).
    assert (B : forall i k, nth_error (names t) i = Some k -> Builder.mem_nat i l = taken seen k).
    { intros i k' E. apply Bool.eq_true_iff_eq. unfold Builder.mem_nat, taken. rewrite !existsb_exists.
      assert (L : (i < length (names t))%nat) by (apply nth_error_Some; congruence).
      split.
      - intros (j & J & E'). apply Nat.eqb_eq in E'. subst j. exists k'. split; [|apply beqb_refl].
        apply in_map_iff. exists i. split; [now apply nth_error_nth|]. apply filter_In. split; [exact J|now apply Nat.ltb_lt].
      - intros (y & Y & E'). apply Props_protos.beqb_eq in E'. subst y. apply in_map_iff in Y as (j & N & J).
        apply filter_In in J as [J L']. apply Nat.ltb_lt in L'. exists j. split; [exact J|]. apply Nat.eqb_eq.
        apply (proj1 (NoDup_nth_error _) D); [exact L|]. rewrite E. symmetry. rewrite <- N. now apply nth_error_nth'. }
    rewrite (finish_tells r t s seen S) by (intros i k' E; rewrite (AL i); now apply B).
    clearbody seen. clear D NM AL S.
    destruct t; inversion ST; subst fs; clear ST; unfold verdict;
    match goal with |- context [required ?t] =>
      let l := eval vm_compute in (required t) in
      let m := eval vm_compute in (names t) in
      replace (required t) with l by (vm_compute; reflexivity); replace (names t) with m in B by (vm_compute; reflexivity) end;
    pose proof (B 0%nat _ eq_refl) as B0; pose proof (B 1%nat _ eq_refl) as B1;
    try pose proof (B 2%nat _ eq_refl) as B2; try pose proof (B 3%nat _ eq_refl) as B3; try pose proof (B 4%nat _ eq_refl) as B4;
    try pose proof (B 7%nat _ eq_refl) as B7; try pose proof (B 8%nat _ eq_refl) as B8;
    unfold Builder.sufficient; cbn [length seq forallb Builder.kind_at nth_error Builder.f_kind fst snd Builder.required filter];
    repeat match goal with H : Builder.mem_nat _ l = _ |- _ => rewrite H; clear H end;
    repeat match goal with |- context [taken seen ?x] => destruct (taken seen x); cbn end;
    split; intros; try reflexivity; discriminate.
Qed.
Print Assumptions bits_are_the_lists_of_the_builders.

(** ** Examples *)
Example keys_offered : offer (Assembler, TCommit) 0 [(false, bs "tree"); (true, bs "tree"); (true, bs "author"); (false, bs "size"); (true, bs "other")] =
  ([Ok tt; Err (ERepeatedKey (bs "tree")); Ok tt; Err (EInvalidKey (bs "size")); Ok tt], 265) /\
  finish (Assembler, TCommit) 265 = Err (EMissing [bs "parents"; bs "message"; bs "mergetag"]).
Proof. split; reflexivity. Qed.
Example a_complete_entry : finish (ReprAssembler, TTreeEntry) (snd (offer (ReprAssembler, TTreeEntry) 0 [(true, bs "hash"); (false, bs "mode")])) = Ok tt.
Proof. reflexivity. Qed.
Example a_list_of_a_builder : alike 265 [8; 3; 0]%nat.
Proof.
  intros i. do 9 (destruct i as [|i]; [reflexivity|]). rewrite N.bits_above_log2; [|change (N.log2 265) with 8; lia].
  reflexivity.
Qed.
