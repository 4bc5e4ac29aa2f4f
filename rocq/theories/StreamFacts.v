(** Facts about the stream semantics of the reader operations. *)
From Verif Require Import Base GoStr Reader Spec.

Lemma cut_app d l r : ~ In d l -> cut d (l ++ d :: r) = Some (l ++ [d], r).
Proof.
  induction l as [|x l IH]; intros H; cbn [app cut].
  - now rewrite byte_eqb_refl.
  - rewrite byte_eqb_neq by (intros ->; apply H; now left).
    rewrite IH; [reflexivity|]. intros I; apply H; now right.
Qed.

Lemma cut_none d l : ~ In d l -> cut d l = None.
Proof.
  induction l as [|x l IH]; intros H; cbn [cut]; auto.
  rewrite byte_eqb_neq by (intros ->; apply H; now left).
  rewrite IH; auto. intros I; apply H; now right.
Qed.

Lemma cut_some d b l r : cut d b = Some (l, r) ->
  exists l', l = l' ++ [d] /\ b = l' ++ d :: r /\ ~ In d l'.
Proof.
  revert l r; induction b as [|x b IH]; intros l r H; [discriminate|]. cbn [cut] in H.
  destruct (byte_eqb_spec x d) as [->|N].
  - injection H as <- <-. exists []. repeat split; auto.
  - destruct (cut d b) as [[l1 r1]|]; [|discriminate]. injection H as <- <-.
    destruct (IH _ _ eq_refl) as (l' & -> & -> & I). exists (x :: l'). repeat split; auto.
    intros [?|?]; auto.
Qed.

Lemma cut_none_inv d b : cut d b = None -> ~ In d b.
Proof.
  induction b as [|x b IH]; cbn [cut]; intros H; [intros []|].
  destruct (byte_eqb_spec x d) as [->|N]; [discriminate|].
  destruct (cut d b) as [[? ?]|]; [discriminate|]. intros [?|?]; auto. now apply IH.
Qed.

Lemma drop_eol_plain l : ~ ends_with CR l -> drop_eol (l ++ [NL]) = l.
Proof.
  intros H. unfold drop_eol. rewrite rev_app_distr. cbn [rev app]. rewrite byte_eqb_refl.
  destruct (rev_case l) as [->|(l' & x & ->)]; [reflexivity|].
  rewrite rev_app_distr. cbn [rev app].
  rewrite byte_eqb_neq by (intros ->; apply H; now exists l').
  rewrite <- (rev_involutive l') at 2. now rewrite rev_involutive.
Qed.

Lemma drop_eol_cr l : drop_eol (l ++ [CR; NL]) = l.
Proof.
  unfold drop_eol. rewrite rev_app_distr. cbn [rev app]. rewrite !byte_eqb_refl. apply rev_involutive.
Qed.

Lemma stream_string_app d l r e : ~ In d l ->
  stream_string d (mk (l ++ d :: r) e) = Ok (l ++ [d], None, mk r e).
Proof. intros H. unfold stream_string, mk; cbn [st_data st_err]. now rewrite cut_app. Qed.

Lemma stream_string_none d l e : ~ In d l ->
  stream_string d (mk l e) = Ok (l, Some e, mk [] e).
Proof. intros H. unfold stream_string, mk; cbn [st_data st_err]. now rewrite cut_none. Qed.

(** A line that fits in the buffer, with its newline. *)
Lemma stream_line_full B l r e : ~ In NL l -> length l < B ->
  stream_line B (mk (l ++ NL :: r) e) = Ok (drop_eol (l ++ [NL]), None, mk r e).
Proof.
  intros H L. unfold stream_line, mk; cbn [st_data st_err].
  assert (firstn B (l ++ NL :: r) = l ++ NL :: firstn (B - S (length l)) r) as F.
  { rewrite firstn_app, firstn_all2 by lia. f_equal.
    destruct (B - length l) as [|k] eqn:K; [lia|]. cbn [firstn]. do 2 f_equal. lia. }
  assert (skipn B (l ++ NL :: r) = skipn (B - S (length l)) r) as K.
  { rewrite skipn_app, skipn_all2 by lia. cbn [app].
    destruct (B - length l) as [|k] eqn:K; [lia|]. cbn [skipn]. f_equal. lia. }
  destruct (l ++ NL :: r) as [|x d] eqn:E; [destruct l; discriminate|].
  rewrite F, cut_app by assumption. rewrite K, firstn_skipn. reflexivity.
Qed.

Lemma stream_line_ok B l r e : line_ok B l ->
  stream_line B (mk (l ++ NL :: r) e) = Ok (l, None, mk r e).
Proof. intros (H & C & L). rewrite stream_line_full by assumption. now rewrite drop_eol_plain. Qed.

Lemma stream_line_end B e : stream_line B (mk [] e) = Ok ([], Some e, mk [] e).
Proof. reflexivity. Qed.

(** A last line without newline. *)
Lemma stream_line_last B l e : ~ In NL l -> l <> [] -> length l < B ->
  stream_line B (mk l e) = Ok (l, None, mk [] e).
Proof.
  intros H N L. unfold stream_line, mk; cbn [st_data st_err].
  destruct l as [|x l']; [congruence|].
  rewrite firstn_all2 by lia. rewrite cut_none by assumption.
  destruct (Nat.leb_spec B (length (x :: l'))); [lia|]. reflexivity.
Qed.

(** Progress: every successful line read consumes something. *)
Lemma removelast_length {A} (l : list A) : length (removelast l) = length l - 1.
Proof.
  destruct (rev_case l) as [->|(l' & x & ->)]; [reflexivity|].
  rewrite removelast_last, app_length. cbn; lia.
Qed.

Lemma stream_line_cases B s : 2 <= B ->
  (st_data s = [] /\ stream_line B s = Ok ([], Some (st_err s), s)) \/
  (exists l s', stream_line B s = Ok (l, None, s') /\ st_err s' = st_err s /\
                length (st_data s') < length (st_data s)).
Proof.
  intros HB. unfold stream_line. destruct (st_data s) as [|x d] eqn:E; [left; auto|right].
  rewrite <- E. destruct (cut NL (firstn B (st_data s))) as [[l r]|] eqn:C.
  - eexists _, _. split; [reflexivity|]. cbn. split; [reflexivity|].
    apply cut_some in C as (l' & -> & F & _).
    assert (length (st_data s) = length (firstn B (st_data s)) + length (skipn B (st_data s))) as L.
    { rewrite <- app_length, firstn_skipn. reflexivity. }
    rewrite L, F, !app_length. cbn [length]. lia.
  - destruct (Nat.leb_spec B (length (st_data s))).
    + destruct (byte_eqb (last (firstn B (st_data s)) x00) CR);
        eexists _, _; (split; [reflexivity|]); cbn; split; auto; rewrite skipn_length; lia.
    + eexists _, _. split; [reflexivity|]. cbn. split; auto. rewrite E; cbn; lia.
Qed.

Lemma stream_string_cases d s :
  (exists l r, ~ In d l /\ st_data s = l ++ d :: r /\
    stream_string d s = Ok (l ++ [d], None, mk r (st_err s))) \/
  (~ In d (st_data s) /\ stream_string d s = Ok (st_data s, Some (st_err s), mk [] (st_err s))).
Proof.
  unfold stream_string. destruct (cut d (st_data s)) as [[l r]|] eqn:C.
  - left. apply cut_some in C as (l' & -> & E & H). eauto 10.
  - right. split; auto. now apply cut_none_inv.
Qed.

Lemma takeZ_all b : forall n r, n = Z.of_nat (length b) -> takeZ n (b ++ r) = b.
Proof.
  induction b as [|x b IH]; intros n r ->.
  - cbn. destruct r; reflexivity.
  - cbn [app takeZ length]. destruct (Z.leb_spec (Z.of_nat (S (length b))) 0); [lia|].
    rewrite IH; [reflexivity|lia].
Qed.
Lemma dropZ_all b : forall n r, n = Z.of_nat (length b) -> dropZ n (b ++ r) = r.
Proof.
  induction b as [|x b IH]; intros n r ->.
  - cbn. destruct r; reflexivity.
  - cbn [app dropZ length]. destruct (Z.leb_spec (Z.of_nat (S (length b))) 0); [lia|].
    apply IH; lia.
Qed.
Lemma takeZ_firstn b : forall n, (0 <= n)%Z -> takeZ n b = firstn (Z.to_nat n) b.
Proof.
  induction b as [|x b IH]; intros n H; cbn [takeZ]; [now rewrite firstn_nil|].
  destruct (Z.leb_spec n 0); [now replace n with 0%Z by lia|].
  rewrite IH by lia. replace (Z.to_nat n) with (S (Z.to_nat (n - 1))) by lia. reflexivity.
Qed.
Lemma dropZ_skipn b : forall n, (0 <= n)%Z -> dropZ n b = skipn (Z.to_nat n) b.
Proof.
  induction b as [|x b IH]; intros n H; cbn [dropZ]; [now rewrite skipn_nil|].
  destruct (Z.leb_spec n 0); [now replace n with 0%Z by lia|].
  rewrite IH by lia. replace (Z.to_nat n) with (S (Z.to_nat (n - 1))) by lia. reflexivity.
Qed.
