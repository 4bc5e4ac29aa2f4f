(** Decoding agrees with the specification of HeaderSpec.v, in both directions. *)
From Verif Require Import Base GoStr Cid Types Nodes Reader Person Assemble Decode Encode Spec HeaderSpec
  StreamFacts PersonFacts DecodeFacts RoundTrip CommitFacts.

(** ** Hashes *)
Lemma hex_val_lower c : hex_val (lower c) = hex_val c.
Proof. destruct c; reflexivity. Qed.

Lemma hex_decode_lower h : forall r, hex_decode (map lower h) = Ok r -> hex_decode h = Ok r.
Proof.
  assert (forall n h, length h <= n -> forall r, hex_decode (map lower h) = Ok r -> hex_decode h = Ok r) as H.
  { induction n as [|n IH]; intros [|p [|q t]] L r E; cbn in *; try lia; auto.
    - rewrite hex_val_lower in E. destruct (hex_val p); discriminate.
    - rewrite !hex_val_lower in E. destruct (hex_val p); [|discriminate]. destruct (hex_val q); [|discriminate].
      apply bind_ok in E as (x & Ex & E). rewrite (IH t ltac:(lia) x Ex). exact E. }
  intros r. eapply H. constructor.
Qed.

Lemma hex_text_decode h sha : hex_text h sha -> hex_decode h = Ok sha.
Proof. intros H. apply hex_decode_lower. rewrite H. apply hex_decode_encode. Qed.

Lemma hex_digits_lower p q a b : hex_val p = Some a -> hex_val q = Some b ->
  lower p = hex_digit (Byte.to_N (byte_of_N (16 * a + b)) / 16) /\
  lower q = hex_digit (Byte.to_N (byte_of_N (16 * a + b)) mod 16).
Proof.
  intros Ha Hb. destruct p; try discriminate Ha; injection Ha as <-; destruct q; try discriminate Hb; injection Hb as <-;
    split; vm_compute; reflexivity.
Qed.

Lemma hex_decode_text h sha : hex_decode h = Ok sha <-> hex_text h sha.
Proof.
  split; [|apply hex_text_decode]. unfold hex_text. revert sha.
  assert (forall n h, length h <= n -> forall sha, hex_decode h = Ok sha -> map lower h = hex_encode sha) as H.
  { induction n as [|n IH]; intros [|p [|q t]] L r E; cbn in L; try lia; cbn [hex_decode] in E.
    - injection E as <-. reflexivity.
    - injection E as <-. reflexivity.
    - destruct (hex_val p); discriminate.
    - destruct (hex_val p) as [a|] eqn:Ha; [|discriminate]. destruct (hex_val q) as [b|] eqn:Hb; [|discriminate].
      apply bind_ok in E as (x & Ex & E). injection E as <-. cbn [map hex_encode].
      destruct (hex_digits_lower p q a b Ha Hb) as [-> ->]. now rewrite (IH t ltac:(lia) x Ex). }
  intros sha. apply (H (length h) h (le_n _)).
Qed.

(** ** Persons *)
Lemma unlt_strip w : unlt w = strip_lt w.
Proof. destruct w as [|[] w]; reflexivity. Qed.

Lemma map_unlt ws : map unlt ws = map strip_lt ws.
Proof. apply map_ext. apply unlt_strip. Qed.

Lemma nscan_blanks bl : forall rest, (forall w, In w bl -> w = []) -> nscan (bl ++ rest) [] = nscan rest [].
Proof.
  induction bl as [|w bl IH]; intros rest H; [reflexivity|]. rewrite (H w) by now left. cbn [app nscan length Nat.ltb Nat.leb].
  apply IH. intros; apply H; now right.
Qed.

Lemma nscan_name_words bl ws r rest :
  (forall w, In w bl -> w = []) -> (forall w vs, ws = w :: vs -> w <> []) -> (forall w, In w ws -> ~ starts_with LT w) ->
  nscan (bl ++ ws ++ (LT :: r) :: rest) [] = Some ((LT :: r) :: rest, spaced ws).
Proof.
  intros Hb Hf Hw. rewrite nscan_blanks by assumption. destruct ws as [|w ws].
  - cbn [app nscan]. now rewrite byte_eqb_refl.
  - destruct w as [|c w]; [now specialize (Hf [] ws eq_refl)|]. cbn [app nscan].
    destruct (byte_eqb_spec c LT) as [->|_]; [exfalso; apply (Hw (LT :: w)); [now left|now exists w]|].
    rewrite nscan_run; [|discriminate|intros; apply Hw; now right].
    cbn [nscan]. rewrite byte_eqb_refl, spaced_cons. lnorm. reflexivity.
Qed.

Lemma email_last es e : e ++ [GT] = join SP (map strip_lt es) -> es <> [] ->
  exists ws l, es = ws ++ [l] /\ ends_gt (strip_lt l) = true /\ e = spaced (map strip_lt ws) ++ removelast (strip_lt l).
Proof.
  intros E N. destruct (rev_case es) as [->|(ws & l & ->)]; [congruence|]. exists ws, l.
  rewrite map_app in E. cbn [map] in E. rewrite <- spaced_snoc_join in E.
  destruct (rev_case (strip_lt l)) as [X|(q & x & X)]; rewrite X in *.
  - exfalso. rewrite app_nil_r in E. destruct (rev_case ws) as [->|(ws' & z & ->)].
    + cbn in E. destruct e; discriminate E.
    + rewrite map_app, spaced_app in E. cbn [map] in E. rewrite spaced_cons, spaced_nil in E.
      rewrite app_nil_r, app_assoc in E. apply app_inj_tail in E as [_ E]. discriminate E.
  - rewrite app_assoc in E. apply app_inj_tail in E as [-> <-]. rewrite ends_gt_snoc, removelast_last. auto.
Qed.

Lemma finish_person_nth nm em r p : p_name p = nm -> p_email p = em ->
  p_date p = nth 0 r [] -> p_timezone p = nth 1 r [] -> finish_person nm em r = p.
Proof. destruct p as [d z e n]; cbn. intros <- <- -> ->. destruct r as [|x [|y r]]; reflexivity. Qed.

Lemma person_line_iff line p : parse_person line = Ok p <-> person_line line p.
Proof.
  rewrite parse_person_scan. unfold person_line. change (words line) with (split_on SP line).
  pose proof (split_on_no_sep SP line) as NS. split.
  - destruct (split_on SP line) as [|p0 [|p1 [|p2 ps]]]; try discriminate. set (parts := p1 :: p2 :: ps) in *.
    destruct (nscan parts []) as [[r1 name]|] eqn:N; [|discriminate].
    destruct (escan r1 []) as [[r2 email]|] eqn:M; [|discriminate].
    intros E; injection E as <-.
    assert (forall w, In w parts -> ~ In SP w) as NSp by (intros; apply NS; now right).
    apply nscan_result in N as (sk & ws & Ep & L & A & _ & K & -> & (r & rest' & R)); [|assumption].
    apply escan_result in M as (es & l & Er & Em & El & ->). cbn [app] in *.
    exists p0, sk, ws, (es ++ [l]), r2. split; [|split; [|split; [|split; [|split; [|split; [|split]]]]]]; auto.
    + rewrite Ep, Er. lnorm. reflexivity.
    + cbn. lia.
    + intros w vs ->. destruct (A eq_refl) as [X|(? & ? & X & Y)]; [discriminate X|]. now injection X as <- <-.
    + rewrite R in Er. destruct es as [|e0 es]; cbn [app] in *; injection Er as <- _; do 2 eexists; (split; [reflexivity|]); now exists r.
    + intros pre w w' post Q G. rewrite unlt_strip in G. apply ends_gt_spec in G.
      rewrite Em in G; [discriminate|]. destruct (rev_case (w' :: post)) as [X|(q & z & X)]; [discriminate|].
      rewrite X in Q. rewrite app_comm_cons, app_assoc in Q. apply app_inj_tail in Q as [-> _]. rewrite in_app_iff. right; now left.
    + destruct (finish_fields (removelast (spaced ws)) (spaced (map strip_lt es) ++ removelast (strip_lt l)) r2) as [-> ->].
      rewrite removelast_spaced, map_unlt, map_app. cbn [map]. rewrite <- spaced_snoc_join, <- app_assoc.
      split; [reflexivity|]. split.
      * f_equal. apply ends_gt_spec in El as [q ->]. now rewrite removelast_last.
      * destruct r2 as [|d [|z r2]]; auto.
  - intros (p0 & bl & ws & es & more & Ep & L3 & Hb & Hf & Hw & (e0 & es' & -> & [r ->]) & Hg & Hn & He & Hd & Hz).
    rewrite Ep in *. rewrite map_unlt in He.
    destruct (email_last _ _ He ltac:(discriminate)) as (vs & l & Ev & Gl & Ee).
    destruct (bl ++ ws ++ ((LT :: r) :: es') ++ more) as [|p1 [|p2 ps]] eqn:Eq; [cbn in L3; lia..|].
    rewrite <- Eq. cbn [app]. rewrite (nscan_name_words bl ws r) by assumption.
    change ((LT :: r) :: es' ++ more) with (((LT :: r) :: es') ++ more). rewrite Ev, <- app_assoc.
    rewrite escan_run.
    2:{ intros w I. apply in_split in I as (a & b & ->). apply Bool.not_true_is_false. rewrite ends_gt_spec, <- unlt_strip.
        destruct (b ++ [l]) as [|w' post] eqn:Q; [destruct b; discriminate|].
        apply (Hg a w w' post). rewrite Ev, <- app_assoc. cbn [app]. now rewrite Q. }
    cbn [app escan]. rewrite Gl. f_equal. apply finish_person_nth; auto. now rewrite removelast_spaced.
Qed.

(** ** Lines *)
Lemma cut_some d x l r : cut d x = Some (l, r) -> exists p, l = p ++ [d] /\ x = l ++ r /\ ~ In d p.
Proof.
  revert l r. induction x as [|c x IH]; intros l r E; [discriminate|]. cbn [cut] in E.
  destruct (byte_eqb_spec c d) as [->|N].
  - injection E as <- <-. exists []. repeat split; auto.
  - destruct (cut d x) as [[l' r']|] eqn:C; [|discriminate]. injection E as <- <-.
    destruct (IH _ _ eq_refl) as (p & -> & -> & Np). exists (c :: p). repeat split; auto.
    intros [->|I]; auto.
Qed.

Lemma cut_none_inv d x : cut d x = None -> ~ In d x.
Proof.
  induction x as [|c x IH]; [auto|]. cbn [cut]. destruct (byte_eqb_spec c d) as [->|N]; [discriminate|].
  destruct (cut d x) as [[]|]; [discriminate|]. intros _ [->|I]; auto. now apply IH.
Qed.

Section B.
Context (B : nat) (HB : 64 <= B).
Notation ops := (stream_ops B).
Let HB2 : 2 <= B. Proof. lia. Qed.

Lemma drop_eol_cr l : drop_eol (l ++ [CR; NL]) = l.
Proof.
  unfold drop_eol. change [CR; NL] with ([CR] ++ [NL]). rewrite app_assoc, rev_unit. rewrite byte_eqb_refl, rev_unit, byte_eqb_refl.
  apply rev_involutive.
Qed.

Lemma takes_line d l r e : takes B d l r -> stream_line B (mk d e) = Ok (l, None, mk r e).
Proof.
  intros T. destruct T as [l r N C L|l r N L|l X N L|l r N C L|l r N L].
  - now apply stream_line_ok.
  - change ([CR; NL] ++ r) with ([CR] ++ NL :: r). rewrite app_assoc. rewrite stream_line_full.
    + rewrite <- app_assoc. cbn [app]. now rewrite drop_eol_cr.
    + rewrite in_app_iff. cbn. intuition discriminate.
    + rewrite app_length. cbn. lia.
  - now apply stream_line_last.
  - unfold stream_line. cbn [mk st_data st_err]. destruct (l ++ r) as [|x d] eqn:Ed.
    { apply app_eq_nil in Ed as [-> _]. cbn in L. lia. }
    rewrite <- Ed. rewrite firstn_app_exact, skipn_app_exact by (now symmetry). rewrite cut_none by assumption.
    rewrite app_length. destruct (Nat.leb_spec B (length l + length r)); [|lia]. cbv zeta.
    destruct (rev_case l) as [->|(q & z & ->)]; [cbn in L; lia|]. rewrite last_last.
    destruct (byte_eqb_spec z CR) as [->|_]; [|reflexivity]. exfalso. apply C. now exists q.
  - unfold stream_line. cbn [mk st_data st_err]. destruct (l ++ [CR] ++ r) as [|x d] eqn:Ed.
    { apply app_eq_nil in Ed as [_ Ed]. discriminate Ed. }
    rewrite <- Ed. rewrite app_assoc.
    assert (B = length (l ++ [CR])) as LB by (rewrite app_length; cbn; lia).
    rewrite firstn_app_exact, skipn_app_exact by assumption. rewrite cut_none by (rewrite in_app_iff; cbn; intuition discriminate).
    rewrite (app_length (l ++ [CR])). destruct (Nat.leb_spec B (length (l ++ [CR]) + length r)); [|lia]. cbv zeta.
    rewrite last_last, byte_eqb_refl, removelast_last. reflexivity.
Qed.

Lemma line_takes d l r e : stream_line B (mk d e) = Ok (l, None, r) -> takes B d l (st_data r) /\ r = mk (st_data r) e.
Proof.
  unfold stream_line. cbn [mk st_data st_err]. destruct d as [|x d0]; [discriminate|].
  remember (x :: d0) as d eqn:Ed.
  destruct (cut NL (firstn B d)) as [[l0 r0]|] eqn:C.
  - intros E. apply cut_some in C as (p & -> & Ef & Np). assert (d = p ++ [NL] ++ r0 ++ skipn B d) as Dd.
    { rewrite <- (firstn_skipn B d) at 1. rewrite Ef. lnorm. reflexivity. }
    assert (length p < B) as Lp.
    { apply (f_equal (@length _)) in Ef. rewrite firstn_length, !app_length in Ef. cbn in Ef. lia. }
    set (rr := r0 ++ skipn B d) in *. clearbody rr. injection E as <- <-. cbn [st_data]. split; [|reflexivity].
    rewrite Dd. destruct (rev_case p) as [->|(q & z & ->)].
    + change (drop_eol ([] ++ [NL])) with (@nil byte). apply takes_nl; auto. intros [[|? ?] ?]; discriminate.
    + destruct (byte_eqb_spec z CR) as [->|Nz].
      * rewrite <- !app_assoc. cbn [app]. rewrite drop_eol_cr. change (q ++ CR :: NL :: rr) with (q ++ [CR; NL] ++ rr).
        rewrite app_length in Lp. cbn in Lp. apply takes_crnl; [|lia]. intros I. apply Np. rewrite in_app_iff. now left.
      * assert (~ ends_with CR (q ++ [z])) as Nc.
        { intros [w Q]. apply app_inj_tail in Q as [_ Q]. congruence. }
        rewrite drop_eol_plain by assumption. now apply takes_nl.
  - apply cut_none_inv in C. destruct (Nat.leb_spec B (length d)) as [L|L].
    + assert (length (firstn B d) = B) as Lf by (rewrite firstn_length; lia).
      assert (d = firstn B d ++ skipn B d) as Dd by (now rewrite firstn_skipn).
      cbv zeta. set (f := firstn B d) in *. set (rr := skipn B d) in *. clearbody f rr. rewrite Dd.
      destruct (rev_case f) as [->|(q & z & ->)]; [cbn in Lf; lia|]. rewrite last_last.
      destruct (byte_eqb_spec z CR) as [->|Nz]; intros E; injection E as <- <-; cbn [st_data mk]; (split; [|reflexivity]).
      * rewrite removelast_last, <- app_assoc. rewrite app_length in Lf. cbn in Lf. apply takes_cut_cr; [|lia].
        intros I. apply C. rewrite in_app_iff. now left.
      * apply takes_cut; auto. intros [w Q]. apply app_inj_tail in Q as [_ Q]. congruence.
    + intros E. injection E as <- <-. cbn [st_data mk]. split; [|reflexivity]. rewrite firstn_all2 in C by lia.
      apply takes_last; auto. subst d. discriminate.
Qed.

Lemma takes_shorter d l r : takes B d l r -> length r < length d.
Proof.
  intros T. destruct T; rewrite ?app_length; cbn [length app]; try lia.
  destruct l; [congruence|cbn; lia].
Qed.

Lemma takes_nil l r : ~ takes B [] l r.
Proof. intros T. apply takes_shorter in T. cbn in T. lia. Qed.

Lemma takes_det d l r l' r' : takes B d l r -> takes B d l' r' -> l' = l /\ r' = r.
Proof.
  intros T T'. apply (takes_line d l r EEOF) in T. apply (takes_line d l' r' EEOF) in T'.
  rewrite T in T'. injection T' as -> ->. auto.
Qed.

Lemma reads_cons d l r l' ls x : takes B d l r -> (reads B d (l' :: ls) x <-> l' = l /\ reads B r ls x).
Proof.
  intros T. split.
  - intros R. inversion R as [|? ? d1 ? ? T1 R1]; subst. destruct (takes_det _ _ _ _ _ T T1) as [-> ->]. auto.
  - intros [-> R]. econstructor; eassumption.
Qed.

Lemma reads_nil_inv l ls x : ~ reads B [] (l :: ls) x.
Proof. intros R. inversion R as [|? ? d1 ? ? T1 R1]; subst. now apply takes_nil in T1. Qed.

Lemma reads_cons_inv d l ls x : reads B d (l :: ls) x -> exists d1, takes B d l d1 /\ reads B d1 ls x.
Proof. intros R. inversion R; subst. eauto. Qed.

Lemma reads_none_iff d x : reads B d [] x <-> x = d.
Proof. split; [intros R; now inversion R|intros ->; constructor]. Qed.

Lemma reads_app d ls ls' x : reads B d (ls ++ ls') x <-> exists d1, reads B d ls d1 /\ reads B d1 ls' x.
Proof.
  revert d. induction ls as [|l ls IH]; intros d; cbn [app].
  - split; [intros R; exists d; split; [constructor|exact R]|intros (d1 & R & R1)]. apply reads_none_iff in R. now subst.
  - split.
    + intros R. inversion R as [|? ? d1 ? ? T1 R1]; subst. apply IH in R1 as (d2 & A & C). exists d2. split; auto. econstructor; eassumption.
    + intros (d2 & A & C). inversion A as [|? ? d1 ? ? T1 R1]; subst. econstructor; [eassumption|]. apply IH. eauto.
Qed.

Lemma reads_longer d ls x : reads B d ls x -> length x + length ls <= length d.
Proof. induction 1 as [|d l d1 ls r T R IH]; [cbn; lia|]. apply takes_shorter in T. cbn [length]. lia. Qed.

(** A line, or the end. *)
Lemma next_line d e :
  (d = [] /\ stream_line B (mk d e) = Ok ([], Some e, mk [] e)) \/
  (exists l r, takes B d l r /\ length r < length d /\ stream_line B (mk d e) = Ok (l, None, mk r e)).
Proof.
  destruct (stream_line_cases B (mk d e) HB2) as [[E R]|(l & s1 & R & E1 & L1)].
  - left. cbn in E. subst d. auto.
  - right. destruct (line_takes _ _ _ _ R) as [T Es]. exists l, (st_data s1). split; [exact T|].
    split; [eapply takes_shorter; eassumption|]. now rewrite Es in R.
Qed.

(** ** Signatures *)
Lemma gpgsig_loop_iff e : forall f d sig out s', length d < f ->
  (gpgsig_loop ops f sig (mk d e) = Ok (out, s') <->
   exists ss r, reads B d (ss ++ [pgp_end]) r /\ ~ In pgp_end ss /\ out = sig ++ unlines ss /\ s' = mk r e).
Proof.
  induction f as [|f IH]; intros d sig out s' L; [lia|]. cbn [gpgsig_loop]. change (rd_line ops) with (stream_line B).
  destruct (next_line d e) as [[-> R]|(l & r & T & Lr & R)]; rewrite R; cbn [bind].
  - split; [discriminate|]. intros ([|? ?] & r & Q & _); now apply reads_nil_inv in Q.
  - change (rd_deref ops (mk r e) l) with l. change (bs " -----END PGP SIGNATURE-----") with pgp_end.
    destruct (beqb_spec l pgp_end) as [->|N].
    + split.
      * intros Q. assert (sig = out /\ mk r e = s') as [<- <-] by (split; congruence). exists [], r.
        split; [econstructor; [exact T|constructor]|]. split; [auto|]. now rewrite app_nil_r.
      * intros ([|l ss] & r' & Q & NI & -> & ->); cbn [app] in Q; apply (reads_cons _ _ _ _ _ _ T) in Q as [El Q].
        -- apply reads_none_iff in Q. subst. now rewrite app_nil_r.
        -- exfalso. apply NI. now left.
    + rewrite (IH r) by lia. split.
      * intros (ss & r' & Q & NI & -> & ->). exists (l :: ss), r'. cbn [app]. split; [apply (reads_cons _ _ _ _ _ _ T); auto|].
        split; [intros [->|I]; auto|]. split; [|reflexivity]. rewrite unlines_cons. lnorm. reflexivity.
      * intros ([|l' ss] & r' & Q & NI & -> & ->); cbn [app] in Q; apply (reads_cons _ _ _ _ _ _ T) in Q as [El Q]; [congruence|].
        subst l'. exists ss, r'. split; [exact Q|]. split; [intros I; apply NI; now right|]. split; [|reflexivity].
        rewrite unlines_cons. lnorm. reflexivity.
Qed.

Lemma prefix_begins p l : has_prefix p l = true <-> begins_with p l.
Proof. apply has_prefix_spec. Qed.

Lemma decode_gpgsig_iff d e out s' :
  decode_gpgsig ops (mk d e) = Ok (out, s') <->
  exists first ss r, reads B d (first :: ss ++ [pgp_end]) r /\ signature_ok (first, ss) /\
    out = unlines (first :: ss) /\ s' = mk r e.
Proof.
  unfold decode_gpgsig. change (rd_line ops) with (stream_line B).
  destruct (next_line d e) as [[-> R]|(l & r & T & Lr & R)]; rewrite R; cbn [bind].
  - split; [discriminate|]. intros (f & ss & r & Q & _). now apply reads_nil_inv in Q.
  - change (rd_deref ops (mk r e) l) with l. cbv zeta. change (rd_fuel ops (mk r e)) with (S (length r)).
    assert (forall sig, (fst sig = bs " " \/ begins_with (bs " Version: ") (fst sig) \/ begins_with (bs " Comment: ") (fst sig)) ->
      signature_ok sig <-> ~ In pgp_end (snd sig)) as SO by (unfold signature_ok; tauto).
    assert (fst (l, @nil bytes) = bs " " \/ begins_with (bs " Version: ") l \/ begins_with (bs " Comment: ") l ->
      (gpgsig_loop ops (S (length r)) (l ++ [NL]) (mk r e) = Ok (out, s') <->
       exists first ss r0, reads B d (first :: ss ++ [pgp_end]) r0 /\ signature_ok (first, ss) /\
         out = unlines (first :: ss) /\ s' = mk r0 e)) as K.
    { intros F. rewrite gpgsig_loop_iff by lia. split.
      - intros (ss & r' & Q & NI & -> & ->). exists l, ss, r'. split; [apply (reads_cons _ _ _ _ _ _ T); auto|].
        split; [apply SO; auto|]. rewrite unlines_cons. lnorm. auto.
      - intros (f & ss & r' & Q & [_ NI] & -> & ->). apply (reads_cons _ _ _ _ _ _ T) in Q as [-> Q].
        exists ss, r'. rewrite unlines_cons. lnorm. auto. }
    destruct (beqb_spec l (bs " ")) as [->|N]; cbn [negb].
    + apply K. now left.
    + destruct (has_prefix (bs " Version: ") l) eqn:V; [|destruct (has_prefix (bs " Comment: ") l) eqn:C]; cbn [orb].
      * apply K. right. left. now apply prefix_begins.
      * apply K. right. right. now apply prefix_begins.
      * split; [discriminate|]. intros (f & ss & r' & Q & [F _] & _). apply (reads_cons _ _ _ _ _ _ T) in Q as [-> Q]. cbn [fst] in F.
        destruct F as [F|[F|F]]; [congruence|apply prefix_begins in F; congruence..].
Qed.

(** ** Merge tags *)
Lemma starts_SP l : has_prefix (bs " ") l = true <-> starts_with SP l.
Proof. rewrite prefix_begins. reflexivity. Qed.

Lemma mergetag_msg_iff e : forall f d msg out v s', length d < f ->
  (mergetag_msg_loop ops f msg (mk d e) = Ok (out, v, s') <->
   exists ls r, reads B d (ls ++ [v]) r /\ (forall l, In l ls -> starts_with SP l) /\ ~ starts_with SP v /\
     out = msg ++ unlines ls /\ s' = mk r e).
Proof.
  induction f as [|f IH]; intros d msg out v s' L; [lia|]. cbn [mergetag_msg_loop]. change (rd_line ops) with (stream_line B).
  destruct (next_line d e) as [[-> R]|(l & r & T & Lr & R)]; rewrite R; cbn [bind].
  - split; [discriminate|]. intros ([|? ?] & r & Q & _); now apply reads_nil_inv in Q.
  - change (rd_deref ops (mk r e) l) with l. destruct (has_prefix (bs " ") l) eqn:P; cbn [negb].
    + apply starts_SP in P. rewrite (IH r) by lia. split.
      * intros (ls & r' & Q & H & Nv & -> & ->). exists (l :: ls), r'. cbn [app]. split; [apply (reads_cons _ _ _ _ _ _ T); auto|].
        split; [intros x [<-|I]; auto|]. split; [exact Nv|]. rewrite unlines_cons. lnorm. auto.
      * intros ([|l' ls] & r' & Q & H & Nv & -> & ->); cbn [app] in Q; apply (reads_cons _ _ _ _ _ _ T) in Q as [El Q]; [congruence|].
        subst l'. exists ls, r'. split; [exact Q|]. split; [intros; apply H; now right|]. split; [exact Nv|].
        rewrite unlines_cons. lnorm. auto.
    + assert (~ starts_with SP l) as NP by (rewrite <- starts_SP, P; discriminate). split.
      * intros Q. injection Q as <- <- <-. exists [], r. split; [econstructor; [exact T|constructor]|]. split; [intros ? []|].
        split; [exact NP|]. now rewrite app_nil_r.
      * intros ([|l' ls] & r' & Q & H & Nv & -> & ->); cbn [app] in Q; apply (reads_cons _ _ _ _ _ _ T) in Q as [El Q].
        -- apply reads_none_iff in Q. subst. now rewrite app_nil_r.
        -- exfalso. apply NP. subst. apply H. now left.
Qed.

Definition with_msg (t : tag) (m : bytes) : tag :=
  {| t_object := t_object t; t_type := t_type t; t_tag := t_tag t; t_tagger := t_tagger t; t_message := m |}.

Lemma mline_fold_msg ms : forall t m, fold_left mline_apply ms (with_msg t m) = with_msg (fold_left mline_apply ms t) m.
Proof.
  induction ms as [|x ms IH]; intros t m; [reflexivity|]. cbn [fold_left].
  replace (mline_apply (with_msg t m) x) with (with_msg (mline_apply t x) m); [apply IH|]. destruct x; reflexivity.
Qed.

(** One header line. *)
Lemma mergetag_header_mline m out : mline_ok m -> mergetag_header out (mline_text m) = Ok (mline_apply out m).
Proof.
  destruct m as [x|x|x p|l]; cbn [mline_ok mline_text mline_apply]; intros H.
  - reflexivity.
  - reflexivity.
  - unfold mergetag_header. change (has_prefix (bs " type ") (bs " tagger " ++ x)) with false. cbn iota.
    change (has_prefix (bs " tag ") (bs " tagger " ++ x)) with false. cbn iota.
    rewrite has_prefix_app. change (go_from 1 (bs " tagger " ++ x)) with (Ok (bs "tagger " ++ x)). cbn [bind].
    apply person_line_iff in H. rewrite H. reflexivity.
  - destruct H as (N & H1 & H2 & H3). unfold mergetag_header.
    rewrite <- prefix_begins in H1, H2, H3. apply Bool.not_true_is_false in H1, H2, H3. now rewrite H1, H2, H3.
Qed.

Lemma mergetag_header_inv out line out' : line <> bs " " -> mergetag_header out line = Ok out' ->
  exists m, mline_ok m /\ mline_text m = line /\ out' = mline_apply out m.
Proof.
  intros N. unfold mergetag_header.
  destruct (has_prefix (bs " type ") line) eqn:H1.
  { destruct (go_from_prefix _ _ 6 H1 eq_refl) as (r & -> & ->). cbn [bind]. intros E.
    exists (MType r). split; [exact Logic.I|]. split; [reflexivity|]. cbn [mline_apply]. congruence. }
  destruct (has_prefix (bs " tag ") line) eqn:H2.
  { destruct (go_from_prefix _ _ 5 H2 eq_refl) as (r & -> & ->). cbn [bind]. intros E.
    exists (MTag r). split; [exact Logic.I|]. split; [reflexivity|]. cbn [mline_apply]. congruence. }
  destruct (has_prefix (bs " tagger ") line) eqn:H3.
  { apply has_prefix_spec in H3 as [r ->]. change (go_from 1 (bs " tagger " ++ r)) with (Ok (bs "tagger " ++ r)). cbn [bind].
    intros E. apply bind_ok in E as (p & Ep & E). exists (MTagger r p). split; [now apply person_line_iff|]. split; [reflexivity|].
    cbn [mline_apply]. congruence. }
  intros E. exists (MIgnored line). split; [|split; [reflexivity|cbn [mline_apply]; congruence]].
  cbn [mline_ok]. rewrite <- !prefix_begins. rewrite H1, H2, H3. repeat split; auto; discriminate.
Qed.

Lemma mline_not_blank m : mline_ok m -> mline_text m <> bs " ".
Proof. destruct m; cbn [mline_ok mline_text]; intros H; try discriminate. apply H. Qed.

Lemma mergetag_loop_iff : forall f d out t rest s', length d < f ->
  (mergetag_loop ops f out (mk d EEOF) = Ok (t, rest, s') <->
   (exists ms, reads B d (map mline_text ms) [] /\ (forall m, In m ms -> mline_ok m) /\
      t = fold_left mline_apply ms out /\ rest = None /\ s' = mk [] EEOF) \/
   (exists ms msg nx r, reads B d (map mline_text ms ++ [bs " "] ++ msg ++ [nx]) r /\
      (forall m, In m ms -> mline_ok m) /\ (forall l, In l msg -> starts_with SP l) /\ ~ starts_with SP nx /\
      t = with_msg (fold_left mline_apply ms out) (unlines msg) /\ rest = Some nx /\ s' = mk r EEOF)).
Proof.
  induction f as [|f IH]; intros d out t rest s' L; [lia|]. rewrite mergetag_loop_unfold.
  destruct (next_line d EEOF) as [[-> R]|(l & r & T & Lr & R)]; rewrite R; cbn [bind is_eof].
  - split.
    + intros E. injection E as <- <- <-. left. exists []. split; [constructor|]. split; [intros ? []|auto].
    + intros [(ms & Q & _ & -> & -> & ->)|(ms & msg & nx & r & Q & _)].
      * destruct ms; [reflexivity|]. cbn [map] in Q. now apply reads_nil_inv in Q.
      * destruct ms; cbn [map app] in Q; now apply reads_nil_inv in Q.
  - destruct (beqb_spec l (bs " ")) as [->|N].
    + cbn [mk st_data]. split.
      * intros E. apply bind_ok in E as ([[msg v] s2] & E1 & E). injection E as <- <- <-.
        apply mergetag_msg_iff in E1 as (ls & r' & Q & H & Nv & -> & ->); [|lia].
        right. exists [], ls, v, r'. cbn [map app]. split; [apply (reads_cons _ _ _ _ _ _ T); auto|].
        split; [intros ? []|auto].
      * intros [(ms & Q & Hm & _)|(ms & msg & nx & r' & Q & Hm & Hs & Nn & -> & -> & ->)].
        -- destruct ms as [|m ms]; cbn [map] in Q; [inversion Q; subst; cbn in Lr; lia|].
           apply (reads_cons _ _ _ _ _ _ T) in Q as [X _]. exfalso. apply (mline_not_blank m); auto. apply Hm. now left.
        -- destruct ms as [|m ms]; cbn [map app] in Q; apply (reads_cons _ _ _ _ _ _ T) in Q as [X Q].
           2:{ exfalso. apply (mline_not_blank m); auto. apply Hm. now left. }
           assert (mergetag_msg_loop ops (S (length r)) [] (mk r EEOF) = Ok (unlines msg, nx, mk r' EEOF)) as ->; [|reflexivity].
           apply mergetag_msg_iff; [lia|]. exists msg, r'. auto.
    + split.
      * intros E. apply bind_ok in E as (out' & E1 & E). apply mergetag_header_inv in E1 as (m & Hm & Em & ->); [|exact N].
        apply IH in E; [|lia]. destruct E as [(ms & Q & H & -> & -> & ->)|(ms & msg & nx & r' & Q & H & Hs & Nn & -> & -> & ->)].
        -- left. exists (m :: ms). cbn [map fold_left]. split; [apply (reads_cons _ _ _ _ _ _ T); auto|]. split; auto. intros x [<-|I]; auto.
        -- right. exists (m :: ms), msg, nx, r'. cbn [map fold_left app]. split; [apply (reads_cons _ _ _ _ _ _ T); auto|].
           split; auto. intros x [<-|I]; auto.
      * intros [(ms & Q & Hm & -> & -> & ->)|(ms & msg & nx & r' & Q & Hm & Hs & Nn & -> & -> & ->)].
        -- destruct ms as [|m ms]; cbn [map] in Q; [inversion Q; subst; cbn in Lr; lia|].
           apply (reads_cons _ _ _ _ _ _ T) in Q as [<- Q]. rewrite mergetag_header_mline by (apply Hm; now left). cbn [bind fold_left].
           apply IH; [lia|]. left. exists ms. split; [exact Q|]. split; auto. intros; apply Hm; now right.
        -- destruct ms as [|m ms]; cbn [map app] in Q; apply (reads_cons _ _ _ _ _ _ T) in Q as [X Q]; [congruence|]. subst l.
           rewrite mergetag_header_mline by (apply Hm; now left). cbn [bind fold_left].
           apply IH; [lia|]. right. exists ms, msg, nx, r'. split; [exact Q|]. split; auto. intros; apply Hm; now right.
Qed.

(** ** Commits *)
Definition run_from (c : commit) (l d : bytes) : res commit :=
  let* (c', s) := commit_step B c l (mk d EEOF) in commit_run B c' s.

Lemma run_takes c d l r : takes B d l r -> commit_run B c (mk d EEOF) = run_from c l r.
Proof.
  intros T. apply commit_run_line; [exact HB2|now apply takes_line|]. cbn. eapply takes_shorter; eassumption.
Qed.

Lemma step_simple c k l s : block_ok k -> block_lines k = [l] -> commit_step B c l s = Ok (apply_block c k, s).
Proof.
  intros Hk El. destruct k as [h sha|h sha|x p|x p|x|h sha ms msg|x first ss|l']; cbn [block_lines block_ok apply_block] in *;
    try (pose proof (f_equal (hd []) El) as El'; cbn [hd] in El'; subst l).
  - destruct Hk as [Ht Hs]. unfold commit_step. cbn [commit_line]. change (rd_deref ops s ?l) with l. cbv zeta.
    rewrite has_prefix_app, go_from_app by reflexivity. cbn [bind]. rewrite (hex_text_decode _ _ Ht). cbn [bind].
    rewrite sha_to_cid_ok by assumption. reflexivity.
  - destruct Hk as [Ht Hs]. unfold commit_step. cbn [commit_line]. change (rd_deref ops s ?l) with l. cbv zeta.
    change (has_prefix (bs "tree ") (bs "parent " ++ h)) with false. cbn iota.
    rewrite has_prefix_app, go_from_app by reflexivity. cbn [bind]. rewrite (hex_text_decode _ _ Ht). cbn [bind].
    rewrite sha_to_cid_ok by assumption. reflexivity.
  - apply person_line_iff in Hk. unfold commit_step. cbn [commit_line]. change (rd_deref ops s ?l) with l. cbv zeta.
    change (has_prefix (bs "tree ") (bs "author " ++ x)) with false. cbn iota.
    change (has_prefix (bs "parent ") (bs "author " ++ x)) with false. cbn iota.
    rewrite has_prefix_app, Hk. reflexivity.
  - apply person_line_iff in Hk. unfold commit_step. cbn [commit_line]. change (rd_deref ops s ?l) with l. cbv zeta.
    change (has_prefix (bs "tree ") (bs "committer " ++ x)) with false. cbn iota.
    change (has_prefix (bs "parent ") (bs "committer " ++ x)) with false. cbn iota.
    change (has_prefix (bs "author ") (bs "committer " ++ x)) with false. cbn iota.
    rewrite has_prefix_app, Hk. reflexivity.
  - reflexivity.
  - destruct ms; discriminate El.
  - destruct ss; discriminate El.
  - destruct Hk. now apply step_other.
Qed.

Lemma step_signature c x s :
  commit_step B c (bs "gpgsig " ++ x) s = let* (sig, s1) := decode_gpgsig ops s in Ok (with_signature c sig, s1).
Proof. reflexivity. Qed.

Lemma from_mergetag c h d c'' :
  run_from c (bs "mergetag object " ++ h) d = Ok c'' <->
  exists sha, hex_text h sha /\ is_sha sha /\
   ((exists ms, reads B d (map mline_text ms) [] /\ (forall m, In m ms -> mline_ok m) /\
       c'' = with_mergetags c [mtag_value sha ms []]) \/
    (exists ms msg nx r, reads B d (map mline_text ms ++ [bs " "] ++ msg ++ [nx]) r /\
       (forall m, In m ms -> mline_ok m) /\ (forall l, In l msg -> starts_with SP l) /\ ~ starts_with SP nx /\
       run_from (with_mergetags c [mtag_value sha ms (unlines msg)]) nx r = Ok c'')).
Proof.
  unfold run_from at 1, commit_step.
  assert (forall s, commit_line ops (S (length (st_data s))) c (bs "mergetag object " ++ h) s =
    (let* sha := hex_decode h in
     let* (mt, r, s1) := read_merge_tag ops sha s in
     match r with
     | Some v => commit_line ops (length (st_data s)) (with_mergetags c [mt]) v s1
     | None => Ok (with_mergetags c [mt], s1)
     end)) as U.
  { intros s. change (commit_line ops (S (length (st_data s))) c (bs "mergetag object " ++ h) s) with
    (let* h := go_from 16 (bs "mergetag object " ++ h) in
     let* sha := hex_decode h in
     let* (mt, r, s1) := read_merge_tag ops sha s in
     match r with
     | Some v => commit_line ops (length (st_data s)) (with_mergetags c [mt]) v s1
     | None => Ok (with_mergetags c [mt], s1)
     end). now rewrite go_from_app by reflexivity. }
  rewrite U. clear U. cbn [mk st_data].
  assert (forall sha ms m, fold_left mline_apply ms {| t_object := git_link sha; t_type := []; t_tag := []; t_tagger := zero_person; t_message := m |} = mtag_value sha ms m) as V by reflexivity.
  assert (forall sha ms m, with_msg (fold_left mline_apply ms {| t_object := git_link sha; t_type := []; t_tag := []; t_tagger := zero_person; t_message := [] |}) m = mtag_value sha ms m) as W.
  { intros sha ms m. rewrite <- mline_fold_msg. reflexivity. }
  assert (forall mt nx r, length r < length d -> commit_line ops (length d) (with_mergetags c [mt]) nx (mk r EEOF) =
    commit_step B (with_mergetags c [mt]) nx (mk r EEOF)) as F.
  { intros mt nx r Lr. apply (commit_line_good B HB2); cbn; lia. }
  split.
  - intros E. apply bind_ok in E as ([c1 s1] & E1 & E). apply bind_ok in E1 as (sha & Eh & E1).
    apply bind_ok in E1 as ([[mt rest] s2] & Em & E1). unfold read_merge_tag in Em. apply bind_ok in Em as (cd & Ec & Em).
    apply sha_to_cid_inv in Ec as [Ls ->]. change (rd_fuel ops (mk d EEOF)) with (S (length d)) in Em.
    apply mergetag_loop_iff in Em; [|lia]. exists sha. split; [now apply hex_decode_text|]. split; [exact Ls|].
    change (LCid (x01 :: x78 :: x11 :: x14 :: sha)) with (git_link sha) in Em.
    destruct Em as [(ms & Q & Hm & -> & -> & ->)|(ms & msg & nx & r & Q & Hm & Hs & Nn & -> & -> & ->)].
    + injection E1 as <- <-. left. exists ms. split; [exact Q|]. split; [exact Hm|]. rewrite V in E. cbn in E. congruence.
    + right. exists ms, msg, nx, r. rewrite W in E1. do 4 (split; [assumption|]).
      rewrite F in E1. { unfold run_from. rewrite E1. exact E. }
      apply reads_longer in Q. rewrite !app_length in Q; cbn [length] in Q; lia.
  - intros (sha & Ht & Hs & H). rewrite (hex_text_decode _ _ Ht). cbn [bind]. unfold read_merge_tag.
    rewrite sha_to_cid_ok by exact Hs. cbn [bind]. change (rd_fuel ops (mk d EEOF)) with (S (length d)).
    change (LCid (x01 :: x78 :: x11 :: x14 :: sha)) with (git_link sha).
    destruct H as [(ms & Q & Hm & ->)|(ms & msg & nx & r & Q & Hm & Hsp & Nn & R)].
    + match goal with |- context [mergetag_loop ops ?f ?o ?s] =>
        assert (mergetag_loop ops f o s = Ok (mtag_value sha ms [], None, mk [] EEOF)) as -> end.
      { apply mergetag_loop_iff; [lia|]. left. exists ms. auto. }
      reflexivity.
    + match goal with |- context [mergetag_loop ops ?f ?o ?s] =>
        assert (mergetag_loop ops f o s = Ok (mtag_value sha ms (unlines msg), Some nx, mk r EEOF)) as -> end.
      { apply mergetag_loop_iff; [lia|]. right. exists ms, msg, nx, r. rewrite W. auto 10. }
      cbn [bind]. rewrite F; [exact R|]. apply reads_longer in Q. rewrite !app_length in Q; cbn [length] in Q; lia.
Qed.

(** From a commit under construction. *)
Definition means_from (c : commit) (d : bytes) (c'' : commit) : Prop :=
  exists ks en, reads B d (header_lines ks ++ ending_lines en) (ending_rest en) /\
    (forall k, In k ks -> block_ok k) /\ ending_ok en /\ mergetags_end ks en /\
    c'' = apply_ending (fold_left apply_block ks c) en.
(** The same, the next line taken. *)
Definition means_line (c : commit) (l d : bytes) (c'' : commit) : Prop :=
  exists ks en ls, header_lines ks ++ ending_lines en = l :: ls /\ reads B d ls (ending_rest en) /\
    (forall k, In k ks -> block_ok k) /\ ending_ok en /\ mergetags_end ks en /\
    c'' = apply_ending (fold_left apply_block ks c) en.

Lemma means_line_takes c d l r c'' : takes B d l r -> means_line c l r c'' -> means_from c d c''.
Proof.
  intros T (ks & en & ls & E & R & H). exists ks, en. split; [|exact H]. rewrite E. econstructor; eassumption.
Qed.

Lemma mergetags_end_cons k ks en : (forall h sha ms msg, k <> KMergetag h sha ms msg) ->
  mergetags_end (k :: ks) en <-> mergetags_end ks en.
Proof. destruct k; cbn; intros H; try tauto. now specialize (H _ _ _ _ eq_refl). Qed.

Lemma means_block c k d ls r c'' : block_ok k -> (forall h sha ms msg, k <> KMergetag h sha ms msg) ->
  block_lines k = ls -> reads B d ls r -> means_from (apply_block c k) r c'' -> means_from c d c''.
Proof.
  intros Hk Nk <- R (ks & en & R2 & Hks & He & Hm & ->). exists (k :: ks), en.
  split; [unfold header_lines; cbn [map concat]; rewrite <- app_assoc; apply reads_app; eauto|].
  split; [intros x [<-|I]; auto|]. split; [exact He|]. split; [now apply mergetags_end_cons|reflexivity].
Qed.

Lemma means_simple c k l d c'' : block_ok k -> (forall h sha ms msg, k <> KMergetag h sha ms msg) ->
  block_lines k = [l] -> means_from (apply_block c k) d c'' -> means_line c l d c''.
Proof.
  intros Hk Nk E (ks & en & R2 & Hks & He & Hm & ->). exists (k :: ks), en, (header_lines ks ++ ending_lines en).
  split; [unfold header_lines; cbn [map concat]; rewrite E; reflexivity|]. split; [exact R2|].
  split; [intros x [<-|I]; auto|]. split; [exact He|]. split; [now apply mergetags_end_cons|reflexivity].
Qed.

Lemma run_sound : forall n d, length d <= n ->
  (forall c c'', commit_run B c (mk d EEOF) = Ok c'' -> means_from c d c'') /\
  (forall c l c'', run_from c l d = Ok c'' -> means_line c l d c'').
Proof.
  induction n as [n IH] using lt_wf_ind. intros d Ld.
  assert (forall c c'', commit_run B c (mk d EEOF) = Ok c'' -> means_from c d c'') as A.
  { intros c c'' E. destruct (next_line d EEOF) as [[-> R]|(l & r & T & Lr & R)].
    - rewrite commit_run_end in E. injection E as <-. exists [], EndNone. split; [constructor|]. split; [intros ? []|]. cbn; auto.
    - rewrite (run_takes _ _ _ _ T) in E. eapply means_line_takes; [exact T|]. eapply (IH (length r)); [lia|lia|exact E]. }
  split; [exact A|]. intros c l c'' E.
  assert (forall k, block_ok k -> (forall h sha ms msg, k <> KMergetag h sha ms msg) -> block_lines k = [l] -> means_line c l d c'') as SI.
  { intros k Hk Nk El. eapply means_simple; eauto. apply A. unfold run_from in E. rewrite (step_simple c k) in E by assumption. exact E. }
  unfold run_from, commit_step in E. cbn [commit_line] in E. change (rd_deref ops ?s l) with l in E. cbv zeta in E.
  destruct (has_prefix (bs "tree ") l) eqn:H1.
  { destruct (go_from_prefix _ _ 5 H1 eq_refl) as (h & El & G). rewrite G in E. cbn [bind] in E.
    apply bind_ok in E as ([c1 s1] & E & _). apply bind_ok in E as (sha & Eh & E). apply bind_ok in E as (cd & Ec & _).
    apply sha_to_cid_inv in Ec as [Ls _]. apply (SI (KTree h sha)); [split; [now apply hex_decode_text|exact Ls]|discriminate|cbn [block_lines]; congruence]. }
  destruct (has_prefix (bs "parent ") l) eqn:H2.
  { destruct (go_from_prefix _ _ 7 H2 eq_refl) as (h & El & G). rewrite G in E. cbn [bind] in E.
    apply bind_ok in E as ([c1 s1] & E & _). apply bind_ok in E as (sha & Eh & E). apply bind_ok in E as (cd & Ec & _).
    apply sha_to_cid_inv in Ec as [Ls _]. apply (SI (KParent h sha)); [split; [now apply hex_decode_text|exact Ls]|discriminate|cbn [block_lines]; congruence]. }
  destruct (has_prefix (bs "author ") l) eqn:H3.
  { apply has_prefix_spec in H3 as [x El].
    apply bind_ok in E as ([c1 s1] & E & _). apply bind_ok in E as (p & Ep & E). rewrite El in Ep.
    apply (SI (KAuthor x p)); [now apply person_line_iff|discriminate|cbn [block_lines]; congruence]. }
  destruct (has_prefix (bs "committer ") l) eqn:H4.
  { apply has_prefix_spec in H4 as [x El].
    apply bind_ok in E as ([c1 s1] & E & _). apply bind_ok in E as (p & Ep & E). rewrite El in Ep.
    apply (SI (KCommitter x p)); [now apply person_line_iff|discriminate|cbn [block_lines]; congruence]. }
  destruct (has_prefix (bs "encoding ") l) eqn:H5.
  { apply has_prefix_spec in H5 as [x El]. apply (SI (KEncoding x)); [exact Logic.I|discriminate|cbn [block_lines]; congruence]. }
  destruct (has_prefix (bs "mergetag object ") l) eqn:H6.
  { apply has_prefix_spec in H6 as [h El].
    assert (run_from c (bs "mergetag object " ++ h) d = Ok c'') as E2.
    { rewrite <- El. unfold run_from, commit_step. cbn [commit_line]. change (rd_deref ops ?s l) with l. cbv zeta.
      rewrite H1, H2, H3, H4, H5. replace (has_prefix (bs "mergetag object ") l) with true by (rewrite El, has_prefix_app; reflexivity). exact E. }
    clear E. apply from_mergetag in E2 as (sha & Ht & Hs & [(ms & Q & Hm & ->)|(ms & msg & nx & r & Q & Hm & Hsp & Nn & R)]).
    - exists [], (EndMergetag h sha ms), (map mline_text ms). rewrite El. split; [reflexivity|]. split; [exact Q|]. split; [intros ? []|]. cbn; auto.
    - apply (IH (length r)) in R as (ks & en & ls & Els & R & Hks & He & Hme & ->); [| |lia].
      2:{ apply reads_longer in Q. rewrite !app_length in Q; cbn [length] in Q; lia. }
      exists (KMergetag h sha ms msg :: ks), en, (map mline_text ms ++ [bs " "] ++ msg ++ nx :: ls).
      split; [|split; [|split; [|split; [|split]]]].
      + unfold header_lines in *. cbn [map concat block_lines]. rewrite <- app_assoc, Els, El. lnorm. reflexivity.
      + replace (map mline_text ms ++ [bs " "] ++ msg ++ nx :: ls) with ((map mline_text ms ++ [bs " "] ++ msg ++ [nx]) ++ ls) by (lnorm; reflexivity).
        apply reads_app. eauto.
      + intros x [<-|I]; [|auto]. cbn [block_ok]. auto.
      + exact He.
      + cbn [mergetags_end]. split; [|exact Hme]. destruct ks as [|k ks].
        * intros ->. discriminate Els.
        * destruct k; auto. cbn in Els. injection Els as -> _. exact Nn.
      + reflexivity. }
  destruct (has_prefix (bs "gpgsig ") l) eqn:H7.
  { apply has_prefix_spec in H7 as [x El]. apply bind_ok in E as ([c1 s1] & E & E3). apply bind_ok in E as ([sig s2] & Es & E).
    injection E as <- <-. apply decode_gpgsig_iff in Es as (first & ss & r & Q & Hs & -> & ->).
    assert (means_from (apply_block c (KSignature x first ss)) r c'') as (ks & en & R2 & Hks & He & Hm & ->).
    { eapply (IH (length r)); [|lia|exact E3]. apply reads_longer in Q. cbn in Q. rewrite app_length in Q. cbn in Q. lia. }
    exists (KSignature x first ss :: ks), en, ((first :: ss ++ [pgp_end]) ++ header_lines ks ++ ending_lines en).
    split; [|split; [|split; [|split; [|split]]]]; auto.
    - unfold header_lines. cbn [map concat block_lines]. rewrite El. lnorm. reflexivity.
    - apply reads_app. eauto.
    - intros y [<-|I]; auto. }
  destruct (Nat.eqb_spec (length l) 0) as [L0|L0].
  { destruct l; [|discriminate L0]. change (rd_all ops) with stream_all in E. cbn in E. injection E as <-.
    exists [], (EndMessage d), []. split; [reflexivity|]. split; [constructor|]. split; [intros ? []|]. cbn; auto. }
  apply (SI (KOther l)); [|discriminate|reflexivity]. split; [intros ->; now apply L0|].
  intros (w & Iw & [r ->]). unfold header_words in Iw. cbn [In] in Iw.
  decompose [or] Iw; try contradiction; subst w; rewrite has_prefix_app in *; discriminate.
Qed.

Lemma run_complete : forall ks en c d,
  reads B d (header_lines ks ++ ending_lines en) (ending_rest en) ->
  (forall k, In k ks -> block_ok k) -> ending_ok en -> mergetags_end ks en ->
  commit_run B c (mk d EEOF) = Ok (apply_ending (fold_left apply_block ks c) en).
Proof.
  induction ks as [|k ks IH]; intros en c d R Hk He Hm.
  - cbn [fold_left]. cbn in R. destruct en as [|msg|h sha ms]; cbn [ending_lines ending_rest apply_ending] in *.
    + apply reads_none_iff in R. subst d. reflexivity.
    + apply reads_cons_inv in R as (d1 & T1 & R1). apply reads_none_iff in R1. subst d1. rewrite (run_takes _ _ _ _ T1). reflexivity.
    + apply reads_cons_inv in R as (d1 & T1 & R1). rewrite (run_takes _ _ _ _ T1). apply from_mergetag.
      destruct He as (Ht & Hs & Hms). exists sha. split; [exact Ht|]. split; [exact Hs|]. left. eauto.
  - unfold header_lines in R. cbn [map concat] in R. rewrite <- app_assoc in R. apply reads_app in R as (d1 & R1 & R).
    assert (commit_run B (apply_block c k) (mk d1 EEOF) = Ok (apply_ending (fold_left apply_block (k :: ks) c) en) ->
            (forall nx r, takes B d1 nx r -> (forall h sha ms msg, k = KMergetag h sha ms msg -> ~ starts_with SP nx) ->
             commit_run B c (mk d EEOF) = Ok (apply_ending (fold_left apply_block (k :: ks) c) en)) /\
            ((forall h sha ms msg, k <> KMergetag h sha ms msg) ->
             commit_run B c (mk d EEOF) = Ok (apply_ending (fold_left apply_block (k :: ks) c) en))) as K.
    { intros E. assert (block_ok k) as Ok1 by (apply Hk; now left).
      assert ((forall h sha ms msg, k <> KMergetag h sha ms msg) ->
             commit_run B c (mk d EEOF) = Ok (apply_ending (fold_left apply_block (k :: ks) c) en)) as P2.
      { intros Nk. destruct k as [h sha|h sha|x p|x p|x|h sha ms msg|x first ss|l];
          try (cbn [block_lines] in R1; apply reads_cons_inv in R1 as (d2 & T1 & R2); apply reads_none_iff in R2; subst d2;
               rewrite (run_takes _ _ _ _ T1); unfold run_from; erewrite step_simple by (try eassumption; reflexivity); exact E).
        - now specialize (Nk _ _ _ _ eq_refl).
        - change (reads B d ((bs "gpgsig " ++ x) :: first :: ss ++ [pgp_end]) d1) in R1. apply reads_cons_inv in R1 as (d2 & T1 & R2). rewrite (run_takes _ _ _ _ T1).
          unfold run_from. rewrite step_signature.
          assert (decode_gpgsig ops (mk d2 EEOF) = Ok (unlines (first :: ss), mk d1 EEOF)) as ->; [|exact E].
          apply decode_gpgsig_iff. exists first, ss, d1. auto. }
      split; [|exact P2]. intros nx r T Nn. destruct k as [h sha|h sha|x p|x p|x|h sha ms msg|x first ss|l]; try (apply P2; discriminate).
      change (reads B d ((bs "mergetag object " ++ h) :: map mline_text ms ++ bs " " :: msg) d1) in R1. apply reads_cons_inv in R1 as (d2 & T1 & R2). rewrite (run_takes _ _ _ _ T1).
      apply from_mergetag. destruct Ok1 as (Ht & Hs & Hms & Hsp). exists sha. split; [exact Ht|]. split; [exact Hs|]. right.
      exists ms, msg, nx, r. split.
      { replace (map mline_text ms ++ [bs " "] ++ msg ++ [nx]) with ((map mline_text ms ++ bs " " :: msg) ++ [nx]) by (lnorm; reflexivity).
        apply reads_app. exists d1. split; [exact R2|]. econstructor; [exact T|constructor]. }
      split; [exact Hms|]. split; [exact Hsp|]. split; [eapply Nn; reflexivity|].
      rewrite <- (run_takes _ _ _ _ T). exact E. }
    cbn [fold_left]. destruct K as [K1 K2].
    { apply IH; auto; [intros; apply Hk; now right|]. destruct k; cbn [mergetags_end] in Hm; tauto. }
    destruct k as [h sha|h sha|x p|x p|x|h sha ms msg|x first ss|l]; try (apply K2; discriminate).
    clear K2. cbn [mergetags_end] in Hm. destruct Hm as [Hm _].
    fold (header_lines ks) in R.
    destruct (header_lines ks ++ ending_lines en) as [|nx ls] eqn:El.
    + exfalso. destruct ks as [|k ks]; [destruct en; [now apply Hm|discriminate El|discriminate El]|].
      unfold header_lines in El. cbn [map concat] in El. destruct k; discriminate El.
    + apply reads_cons_inv in R as (d2 & T1 & R2). apply (K1 _ _ T1). intros h' sha' ms' msg' _.
      destruct ks as [|k ks].
      * destruct en; cbn in El; try discriminate El; injection El as <- _; intros [q Q]; discriminate Q.
      * unfold header_lines in El. cbn [map concat] in El. destruct k; cbn in El; injection El as <- _;
          try (intros [q Q]; discriminate Q). exact Hm.
Qed.

Lemma commit_run_iff d c : commit_run B zero_commit (mk d EEOF) = Ok c <-> commit_means B d c.
Proof.
  split.
  - intros E. now apply (run_sound (length d) d (le_n _)).
  - intros (ks & en & R & Hk & He & Hm & ->). now apply run_complete.
Qed.

(** ** Tags *)
Lemma tline_fold_msg ts : forall t m, fold_left tline_apply ts (with_msg t m) = with_msg (fold_left tline_apply ts t) m.
Proof.
  induction ts as [|x ts IH]; intros t m; [reflexivity|]. cbn [fold_left].
  replace (tline_apply (with_msg t m) x) with (with_msg (tline_apply t x) m); [apply IH|]. destruct x; reflexivity.
Qed.

Definition printed_line (x : tline) : list bytes := match x with TIgnored l => [l] | _ => [] end.

Lemma tag_header_tline x out : tline_ok x -> tag_header out (tline_text x) = Ok (tline_apply out x, printed_line x).
Proof.
  destruct x as [h sha|x|x|x p|l]; cbn [tline_ok tline_text tline_apply printed_line]; intros H.
  - destruct H as [Ht Hs]. unfold tag_header. rewrite has_prefix_app, go_from_app by reflexivity. cbn [bind].
    rewrite (hex_text_decode _ _ Ht). cbn [bind]. rewrite sha_to_cid_ok by assumption. reflexivity.
  - reflexivity.
  - reflexivity.
  - unfold tag_header. change (has_prefix (bs "object ") (bs "tagger " ++ x)) with false. cbn iota.
    change (has_prefix (bs "tag ") (bs "tagger " ++ x)) with false. cbn iota. rewrite has_prefix_app.
    apply person_line_iff in H. rewrite H. reflexivity.
  - destruct H as [N H]. unfold tag_header.
    assert (forall w, In w tag_words -> has_prefix w l = false) as K.
    { intros w I. apply Bool.not_true_is_false. rewrite prefix_begins. auto. }
    rewrite !K by (cbn; tauto). reflexivity.
Qed.

Lemma tag_header_inv out line out' pr : line <> [] -> tag_header out line = Ok (out', pr) ->
  exists x, tline_ok x /\ tline_text x = line /\ out' = tline_apply out x /\ pr = printed_line x.
Proof.
  intros N. unfold tag_header.
  destruct (has_prefix (bs "object ") line) eqn:H1.
  { destruct (go_from_prefix _ _ 7 H1 eq_refl) as (h & -> & ->). cbn [bind]. intros E.
    apply bind_ok in E as (sha & Eh & E). apply bind_ok in E as (cd & Ec & E). apply sha_to_cid_inv in Ec as [Ls ->].
    exists (TObject h sha). split; [split; [now apply hex_decode_text|exact Ls]|]. split; [reflexivity|].
    cbn [tline_apply printed_line]. change (git_link sha) with (LCid (x01 :: x78 :: x11 :: x14 :: sha)). split; congruence. }
  destruct (has_prefix (bs "tag ") line) eqn:H2.
  { destruct (go_from_prefix _ _ 4 H2 eq_refl) as (r & -> & ->). cbn [bind]. intros E.
    exists (TTag r). split; [exact Logic.I|]. split; [reflexivity|]. cbn [tline_apply printed_line]. split; congruence. }
  destruct (has_prefix (bs "tagger ") line) eqn:H3.
  { apply has_prefix_spec in H3 as [r ->]. intros E. apply bind_ok in E as (p & Ep & E).
    exists (TTagger r p). split; [now apply person_line_iff|]. split; [reflexivity|]. cbn [tline_apply printed_line]. split; congruence. }
  destruct (has_prefix (bs "type ") line) eqn:H4.
  { destruct (go_from_prefix _ _ 5 H4 eq_refl) as (r & -> & ->). cbn [bind]. intros E.
    exists (TType r). split; [exact Logic.I|]. split; [reflexivity|]. cbn [tline_apply printed_line]. split; congruence. }
  intros E. exists (TIgnored line). split; [|split; [reflexivity|cbn [tline_apply printed_line]; split; congruence]].
  cbn [tline_ok]. split; [exact N|]. intros w I. rewrite <- prefix_begins. unfold tag_words in I. cbn [In] in I.
  decompose [or] I; try contradiction; subst w; congruence.
Qed.

Lemma tline_not_blank x : tline_ok x -> tline_text x <> [].
Proof. destruct x; cbn [tline_ok tline_text]; intros H; try discriminate. apply H. Qed.

Lemma tag_run_takes out pr d l r : takes B d l r -> l <> [] ->
  tag_run B out pr (mk d EEOF) = let* (out', p) := tag_header out l in tag_run B out' (pr ++ p) (mk r EEOF).
Proof.
  intros T N. destruct l as [|x l]; [congruence|]. apply tag_run_line; [exact HB2|now apply takes_line|].
  cbn. eapply takes_shorter; eassumption.
Qed.

Lemma tag_run_takes_blank out pr d r : takes B d [] r -> tag_run B out pr (mk d EEOF) = Ok (with_msg out r, pr).
Proof.
  intros T. rewrite (tag_run_blank B HB2 out pr (mk d EEOF) (mk r EEOF)); [reflexivity|now apply takes_line|reflexivity|].
  cbn. eapply takes_shorter; eassumption.
Qed.

Definition msg_line (m : option bytes) : list bytes := match m with Some _ => [[]] | None => [] end.
Definition msg_text (m : option bytes) : bytes := match m with Some m => m | None => [] end.
Definition set_msg (t : tag) (m : option bytes) : tag := match m with Some m => with_msg t m | None => t end.

Lemma tag_run_sound : forall n d out pr t pr', length d <= n ->
  tag_run B out pr (mk d EEOF) = Ok (t, pr') ->
  exists ts m, reads B d (map tline_text ts ++ msg_line m) (msg_text m) /\ (forall x, In x ts -> tline_ok x) /\
    t = set_msg (fold_left tline_apply ts out) m /\ pr' = pr ++ ignored ts.
Proof.
  induction n as [n IH] using lt_wf_ind. intros d out pr t pr' Ld E.
  destruct (next_line d EEOF) as [[-> R]|(l & r & T & Lr & R)].
  - rewrite tag_run_end in E. injection E as <- <-. exists [], None. split; [constructor|]. split; [intros ? []|]. cbn. now rewrite app_nil_r.
  - destruct l as [|c l].
    + rewrite (tag_run_takes_blank _ _ _ _ T) in E. injection E as <- <-. exists [], (Some r). cbn.
      split; [econstructor; [exact T|constructor]|]. split; [intros ? []|]. now rewrite app_nil_r.
    + rewrite (tag_run_takes _ _ _ _ _ T) in E by discriminate. apply bind_ok in E as ([out' p] & E1 & E).
      apply tag_header_inv in E1 as (x & Hx & Ex & -> & ->); [|discriminate].
      apply (IH (length r)) in E as (ts & m & Q & Hts & -> & ->); [|lia|lia].
      exists (x :: ts), m. cbn [map app fold_left]. split; [rewrite Ex; econstructor; eassumption|].
      split; [intros y [<-|I]; auto|]. split; [reflexivity|]. unfold ignored. cbn [map concat]. now rewrite <- app_assoc.
Qed.

Lemma tag_run_complete ts m : forall d out pr,
  reads B d (map tline_text ts ++ msg_line m) (msg_text m) -> (forall x, In x ts -> tline_ok x) ->
  tag_run B out pr (mk d EEOF) = Ok (set_msg (fold_left tline_apply ts out) m, pr ++ ignored ts).
Proof.
  induction ts as [|x ts IH]; intros d out pr R H; cbn [map app fold_left] in *.
  - change (ignored []) with (@nil bytes). rewrite app_nil_r. destruct m as [m|]; cbn [msg_line msg_text set_msg] in *.
    + apply reads_cons_inv in R as (d1 & T & R). apply reads_none_iff in R. subst d1. now apply tag_run_takes_blank.
    + apply reads_none_iff in R. subst d. reflexivity.
  - apply reads_cons_inv in R as (d1 & T & R). assert (tline_ok x) as Hx by (apply H; now left).
    rewrite (tag_run_takes _ _ _ _ _ T) by (now apply tline_not_blank). rewrite tag_header_tline by exact Hx. cbn [bind].
    rewrite IH; [|exact R|intros; apply H; now right]. unfold ignored. cbn [map concat]. now rewrite <- app_assoc.
Qed.

Lemma tag_run_iff d t pr : tag_run B zero_tag [] (mk d EEOF) = Ok (t, pr) <-> tag_means B d t pr.
Proof.
  assert (forall ts m, set_msg (fold_left tline_apply ts zero_tag) m = tag_of ts (msg_text m)) as V.
  { intros ts [m|]; [|reflexivity]. cbn [set_msg msg_text]. rewrite <- tline_fold_msg. reflexivity. }
  split.
  - intros E. apply (tag_run_sound (length d)) in E as (ts & m & Q & H & -> & ->); [|lia].
    exists ts, m. rewrite V. auto.
  - intros (ts & m & Q & H & -> & ->). rewrite (tag_run_complete ts m); auto. now rewrite V.
Qed.

(** ** Trees *)
Lemma split_at c (d : bytes) : ~ In c d \/ exists p r, d = p ++ [c] ++ r /\ ~ In c p.
Proof.
  destruct (cut c d) as [[l r]|] eqn:E.
  - apply cut_some in E as (p & -> & -> & N). right. exists p, r. rewrite <- app_assoc. auto.
  - left. now apply cut_none_inv.
Qed.

(** One entry, or the end. *)
Lemma next_entry d :
  (exists t r, entry_ok t /\ d = entry_text t ++ r /\
     decode_tree_entry ops (mk d EEOF) = Ok (ge_name t, {| e_mode := ge_mode t; e_hash := git_link (ge_sha t) |}, mk r EEOF)) \/
  (incomplete d /\ decode_tree_entry ops (mk d EEOF) = Err EEOF) \/
  (~ incomplete d /\ (forall t r, entry_ok t -> d <> entry_text t ++ r) /\ decode_tree_entry ops (mk d EEOF) = Err EUnexpectedEOF).
Proof.
  destruct (split_at SP d) as [N|(mode & d1 & -> & Nm)].
  - right; left. split; [now left|]. unfold decode_tree_entry. change (rd_string ops) with stream_string.
    rewrite stream_string_none by assumption. reflexivity.
  - destruct (split_at NUL d1) as [N|(name & d2 & -> & Nn)].
    + right; left. split; [right; left; eauto|]. unfold decode_tree_entry. change (rd_string ops) with stream_string. cbn [app].
      rewrite stream_string_app by assumption. cbn [bind]. rewrite go_drop_last_snoc. cbn [bind].
      rewrite stream_string_none by assumption. reflexivity.
    + assert (forall k, decode_tree_entry ops (mk (mode ++ [SP] ++ name ++ [NUL] ++ d2) EEOF) = k ->
        (20 <= length d2 /\ k = Ok (name, {| e_mode := mode; e_hash := git_link (firstn 20 d2) |}, mk (skipn 20 d2) EEOF)) \/
        (d2 = [] /\ k = Err EEOF) \/ (0 < length d2 < 20 /\ k = Err EUnexpectedEOF)) as K.
      { intros k <-. unfold decode_tree_entry. change (rd_string ops) with stream_string. change (rd_full ops) with stream_full. cbn [app].
        rewrite stream_string_app by assumption. cbn [bind]. rewrite go_drop_last_snoc. cbn [bind].
        rewrite stream_string_app by assumption. cbn [bind]. rewrite go_drop_last_snoc. cbn [bind].
        unfold stream_full. cbn [mk st_data st_err]. destruct (Nat.leb_spec 20 (length d2)) as [L|L].
        - left. split; [exact L|]. cbn [bind]. rewrite sha_to_cid_ok by (rewrite firstn_length; lia). reflexivity.
        - destruct d2 as [|c d2]; [right; left; auto|]. right; right. cbn [length] in *. split; [lia|reflexivity]. }
      specialize (K _ eq_refl). destruct K as [[L K]|[[-> K]|[L K]]].
      * left. exists (mode, name, firstn 20 d2), (skipn 20 d2). split; [|split; [|exact K]].
        -- split; [exact Nm|]. split; [exact Nn|]. unfold is_sha, ge_sha. cbn [snd]. rewrite firstn_length. lia.
        -- unfold entry_text, ge_mode, ge_name, ge_sha. cbn [fst snd]. rewrite <- !app_assoc. now rewrite firstn_skipn.
      * right; left. split; [|exact K]. right; right. exists mode, name. rewrite app_nil_r. auto.
      * right; right.
        assert (forall (c : byte) (p q x y : bytes), ~ In c p -> ~ In c q -> p ++ [c] ++ x = q ++ [c] ++ y -> p = q /\ x = y) as U.
        { intros c p. induction p as [|a p IHp]; intros [|a' q] x y Hp Hq E; cbn [app] in E.
          - injection E as ->. auto.
          - exfalso. injection E as <- _. apply Hq. now left.
          - exfalso. injection E as -> _. apply Hp. now left.
          - injection E as -> E. apply IHp in E as [-> ->]; auto; [intros I; apply Hp; now right|intros I; apply Hq; now right]. }
        split; [|split; [|exact K]].
        -- intros [N|[(m' & n' & E & Hm & Hn)|(m' & n' & E & Hm & Hn)]].
           ++ apply N. rewrite !in_app_iff. right; left; now left.
           ++ apply U in E as [-> E]; auto. apply Hn. rewrite <- E, !in_app_iff. right; left; now left.
           ++ apply U in E as [-> E]; auto. change (n' ++ [NUL]) with (n' ++ [NUL] ++ []) in E. apply U in E as [_ ->]; auto. cbn in L. lia.
        -- intros t r (Hm & Hn & Hs) E. unfold entry_text in E. rewrite <- !app_assoc in E.
           apply U in E as [_ E]; auto. apply U in E as [_ ->]; auto. unfold is_sha in Hs. rewrite app_length in L. lia.
Qed.

Lemma tree_run_sound : forall n d es t, length d <= n -> NoDup (map ge_name es) ->
  tree_run B (tree_value es) (mk d EEOF) = Ok t ->
  exists es' cutoff, d = tree_text es' ++ cutoff /\ (forall e, In e es' -> entry_ok e) /\ NoDup (map ge_name (es ++ es')) /\
    incomplete cutoff /\ t = tree_value (es ++ es').
Proof.
  induction n as [n IH] using lt_wf_ind. intros d es t Ld ND E.
  destruct (next_entry d) as [(x & r & Hx & -> & R)|[[Hi R]|(_ & _ & R)]].
  - rewrite (tree_run_entry B HB2 _ _ _ _ _ R) in E. apply bind_ok in E as (t' & E1 & E).
    assert (~ In (ge_name x) (map ge_name es)) as Nx.
    { intros I. unfold tree_insert in E1. destruct (assoc (ge_name x) (tr_m (tree_value es))) eqn:A; [discriminate|].
      cbn [tree_value tr_m] in A. rewrite <- map_fst_entry_value in I. apply in_map_iff in I as ((k, v) & Ek & I). cbn in Ek. subst k.
      apply in_rev in I. clear - A I. revert A I. generalize (rev (map entry_value es)) as l. induction l as [|[k' v'] l IHl]; intros A I; [contradiction|].
      cbn [assoc] in A. destruct I as [I|I]; [injection I as -> _; rewrite beqb_refl in A; discriminate A|].
      destruct (beqb _ _); [discriminate A|auto]. }
    pose proof (tree_insert_value es x Nx) as TI. unfold entry_value in TI. cbn [snd fst] in TI.
    rewrite TI in E1. injection E1 as <-.
    apply (IH (length r)) in E as (es' & cutoff & -> & Hes & ND' & Hi & ->).
    + exists (x :: es'), cutoff. split; [unfold tree_text; cbn [map concat]; now rewrite <- app_assoc|].
      split; [intros y [<-|I]; auto|]. rewrite <- app_assoc in *. auto.
    + unfold entry_text in Ld. rewrite !app_length in Ld. cbn [length] in Ld. lia.
    + lia.
    + rewrite map_app. cbn [map]. apply NoDup_rev in ND. rewrite <- (rev_involutive (map ge_name es ++ _)). apply NoDup_rev.
      rewrite rev_unit. constructor; [now rewrite <- in_rev|exact ND].
  - unfold tree_run in E. cbn [tree_loop] in E. rewrite R in E. injection E as <-.
    exists [], d. rewrite app_nil_r. split; [reflexivity|]. split; [intros ? []|]. auto.
  - unfold tree_run in E. cbn [tree_loop] in E. rewrite R in E. discriminate.
Qed.

Lemma incomplete_not_entry d t r : incomplete d -> entry_ok t -> d <> entry_text t ++ r.
Proof.
  intros Hi Ht ->. pose proof (decode_tree_entry_text B HB t r EEOF Ht) as E.
  destruct (next_entry (entry_text t ++ r)) as [(x & q & Hx & Eq & R)|[[_ R]|(H & _)]]; [|congruence|contradiction].
  destruct Ht as (Hm & Hn & Hs). unfold entry_text, is_sha in *.
  assert (forall (c : byte) (p q x y : bytes), ~ In c p -> ~ In c q -> p ++ [c] ++ x = q ++ [c] ++ y -> p = q /\ x = y) as U.
  { intros c p. induction p as [|a p IHp]; intros [|a' q'] x' y Hp Hq E'; cbn [app] in E'.
    - injection E' as ->. auto.
    - exfalso. injection E' as <- _. apply Hq. now left.
    - exfalso. injection E' as -> _. apply Hp. now left.
    - injection E' as -> E'. apply IHp in E' as [-> ->]; auto; [intros I; apply Hp; now right|intros I; apply Hq; now right]. }
  rewrite <- !app_assoc in Hi.
  destruct Hi as [N|[(m' & n' & E' & Hm' & Hn')|(m' & n' & E' & Hm' & Hn')]].
  - apply N. rewrite !in_app_iff. right; left; now left.
  - apply U in E' as [_ E']; auto. apply Hn'. rewrite <- E', !in_app_iff. right; left; now left.
  - apply U in E' as [_ E']; auto. change (n' ++ [NUL]) with (n' ++ [NUL] ++ []) in E'. apply U in E' as [_ E']; auto.
    apply (f_equal (@length _)) in E'. rewrite app_length in E'. cbn in E'. lia.
Qed.

Lemma tree_run_iff d t : tree_run B zero_tree (mk d EEOF) = Ok t <-> tree_means d t.
Proof.
  change zero_tree with (tree_value []). split.
  - intros E. apply (tree_run_sound (length d)) in E as (es & cutoff & -> & He & ND & Hi & ->); [|lia|constructor].
    exists es, cutoff. split; [reflexivity|]. split; [split; [exact He|exact ND]|]. auto.
  - intros (es & cutoff & -> & [He Hd] & Hi & ->). rewrite (tree_run_entries B HB) by auto. cbn [app].
    destruct (next_entry cutoff) as [(x & q & Hx & -> & R)|[[_ R]|(H & _)]]; [|unfold tree_run; cbn [tree_loop]; rewrite R; reflexivity|contradiction].
    exfalso. now apply (incomplete_not_entry (entry_text x ++ q) x q).
Qed.

End B.
