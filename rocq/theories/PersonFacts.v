(** Proofs about personinfo.go. *)
From Verif Require Import Base GoStr Types Person Spec Cid.

(** ** The loops of [parse_person] as structural scans *)

Fixpoint nscan (suf : list bytes) (name : bytes) : option (list bytes * bytes) :=
  match suf with
  | [] => None
  | part :: r =>
      match part with
      | [] => nscan r (if 0 <? length name then name ++ [SP] else name)
      | c :: _ => if byte_eqb c LT then Some (suf, name)
                  else nscan r (name ++ part ++ [SP])
      end
  end.

Definition strip_lt (w : bytes) : bytes :=
  match w with c :: r => if byte_eqb c LT then r else w | [] => [] end.

Definition ends_gt (w : bytes) : bool :=
  match rev w with c :: _ => byte_eqb c GT | [] => false end.

Fixpoint escan (suf : list bytes) (email : bytes) : option (list bytes * bytes) :=
  match suf with
  | [] => None
  | part0 :: r =>
      let part := strip_lt part0 in
      if ends_gt part then Some (r, email ++ removelast part)
      else escan r (email ++ part ++ [SP])
  end.

Lemma ends_gt_spec w : ends_gt w = true <-> ends_with GT w.
Proof.
  unfold ends_gt, ends_with. destruct (rev_case w) as [->|(l & x & ->)].
  - cbn. split; [discriminate|]. intros [r H]. destruct r; discriminate.
  - rewrite rev_app_distr. cbn. destruct (byte_eqb_spec x GT) as [->|N]; split; eauto; try discriminate.
    intros [r H]. apply app_inj_tail in H as [_ ?]. congruence.
Qed.

Lemma go_at_app_head {A} (pre suf : list A) x :
  go_at (pre ++ x :: suf) (length pre) = Ok x.
Proof. unfold go_at. rewrite nth_error_app2, Nat.sub_diag by lia. reflexivity. Qed.

Lemma snoc_shift {A} (pre : list A) x suf : pre ++ x :: suf = (pre ++ [x]) ++ suf.
Proof. now rewrite <- app_assoc. Qed.

Lemma name_loop_scan line suf : forall pre fuel name, length suf < fuel ->
  person_name_loop line fuel (pre ++ suf) (length pre) name =
  match nscan suf name with
  | None => Err (EPersonInvalid line)
  | Some (rest, nm) => Ok (length (pre ++ suf) - length rest, nm)
  end.
Proof.
  induction suf as [|part r IH]; intros pre fuel name L; (destruct fuel as [|fuel]; [cbn in L; lia|]); cbn [person_name_loop].
  - rewrite app_nil_r, Nat.eqb_refl. reflexivity.
  - cbn [length] in L. destruct (Nat.eqb_spec (length pre) (length (pre ++ part :: r))) as [E|_].
    { rewrite app_length in E; cbn [length] in E; lia. }
    rewrite go_at_app_head. cbn [bind].
    destruct part as [|c part]; cbn [length Nat.eqb negb].
    + cbn [nscan]. rewrite (snoc_shift pre).
      replace (S (length pre)) with (length (pre ++ [[]])) by (rewrite app_length; cbn; lia).
      destruct (0 <? length name); apply IH; lia.
    + cbn [go_at nth_error bind nscan]. unfold go_at; cbn [nth_error bind].
      destruct (byte_eqb c LT).
      * do 2 f_equal. rewrite app_length. cbn [length]. lia.
      * rewrite (snoc_shift pre).
        replace (S (length pre)) with (length (pre ++ [c :: part])) by (rewrite app_length; cbn; lia).
        apply IH; lia.
Qed.

Lemma strip_lt_go part0 :
  (if 0 <? length part0 then
     let* c := go_at part0 0 in
     if byte_eqb c LT then go_from 1 part0 else Ok part0
   else Ok part0) = Ok (strip_lt part0).
Proof.
  destruct part0 as [|c r]; [reflexivity|]. cbn [length Nat.ltb Nat.leb]. unfold go_at; cbn [nth_error bind strip_lt].
  destruct (byte_eqb c LT); reflexivity.
Qed.

Lemma ends_gt_go part :
  (if 0 <? length part then
     let* c := go_at part (length part - 1) in Ok (byte_eqb c GT)
   else Ok false) = Ok (ends_gt part).
Proof.
  destruct (rev_case part) as [->|(l & x & ->)]; [reflexivity|].
  unfold ends_gt. rewrite rev_app_distr. cbn [rev app].
  rewrite app_length; cbn [length].
  destruct (Nat.ltb_spec 0 (length l + 1)); [|lia].
  unfold go_at. rewrite nth_error_app2 by lia.
  replace (length l + 1 - 1 - length l) with 0 by lia. reflexivity.
Qed.

Lemma email_loop_scan line suf : forall pre fuel email, length suf < fuel ->
  person_email_loop line fuel (pre ++ suf) (length pre) email =
  match escan suf email with
  | None => Err (EPersonInvalid line)
  | Some (rest, em) => Ok (length (pre ++ suf) - length rest, em)
  end.
Proof.
  induction suf as [|part r IH]; intros pre fuel email L; (destruct fuel as [|fuel]; [cbn in L; lia|]); cbn [person_email_loop].
  - rewrite app_nil_r, Nat.eqb_refl. reflexivity.
  - cbn [length] in L. destruct (Nat.eqb_spec (length pre) (length (pre ++ part :: r))) as [E|_].
    { rewrite app_length in E; cbn [length] in E; lia. }
    rewrite go_at_app_head. cbn [bind]. rewrite strip_lt_go. cbn [bind]. rewrite ends_gt_go. cbn [bind escan].
    destruct (ends_gt (strip_lt part)) eqn:G.
    + assert (strip_lt part <> []) as NE by (intros X; rewrite X in G; discriminate).
      unfold go_drop_last. destruct (strip_lt part) eqn:SL; [congruence|]. cbn [bind].
      do 2 f_equal. rewrite app_length; cbn [length]; lia.
    + rewrite (snoc_shift pre).
      replace (S (length pre)) with (length (pre ++ [part])) by (rewrite app_length; cbn; lia).
      apply IH; lia.
Qed.

Definition finish_person (nm em : bytes) (rest : list bytes) : person :=
  match rest with
  | [] => {| p_date := []; p_timezone := []; p_email := em; p_name := nm |}
  | [d] => {| p_date := d; p_timezone := []; p_email := em; p_name := nm |}
  | d :: z :: _ => {| p_date := d; p_timezone := z; p_email := em; p_name := nm |}
  end.

Lemma nscan_suffix suf : forall name rest nm, nscan suf name = Some (rest, nm) ->
  exists pre, suf = pre ++ rest.
Proof.
  induction suf as [|part r IH]; intros name rest nm H; [discriminate|]. cbn [nscan] in H.
  destruct part as [|c part].
  - apply IH in H as [pre ->]. now exists ([] :: pre).
  - destruct (byte_eqb c LT).
    + injection H as <- <-. now exists [].
    + apply IH in H as [pre ->]. now exists ((c :: part) :: pre).
Qed.

Lemma escan_suffix suf : forall em rest em', escan suf em = Some (rest, em') ->
  exists pre, suf = pre ++ rest.
Proof.
  induction suf as [|part r IH]; intros em rest em' H; [discriminate|]. cbn [escan] in H.
  destruct (ends_gt (strip_lt part)).
  - injection H as <- <-. now exists [part].
  - apply IH in H as [pre ->]. now exists (part :: pre).
Qed.

(** [parse_person] without indices. *)
Lemma parse_person_scan line :
  parse_person line =
  match split_on SP line with
  | _ :: ((_ :: _ :: _) as parts) =>
      match nscan parts [] with
      | None => Err (EPersonInvalid line)
      | Some (r1, name) =>
          match escan r1 [] with
          | None => Err (EPersonInvalid line)
          | Some (r2, email) => Ok (finish_person (removelast name) email r2)
          end
      end
  | _ => Err (EPersonFormat line)
  end.
Proof.
  unfold parse_person. set (ps := split_on SP line).
  destruct ps as [|p0 parts] eqn:E; [now apply split_on_nonempty in E|].
  destruct parts as [|p1 [|p2 parts]]; [reflexivity..|].
  set (tl := p1 :: p2 :: parts) in *.
  destruct (Nat.ltb_spec (length (p0 :: tl)) 3) as [L|_]; [subst tl; cbn in L; lia|].
  rewrite (name_loop_scan line tl [p0]) by (cbn; lia). cbn [app].
  destruct (nscan tl []) as [[r1 name]|] eqn:N; [|reflexivity]. cbn [bind].
  assert ((if negb (length name =? 0) then go_drop_last name else Ok []) = Ok (removelast name)) as ->.
  { destruct name; reflexivity. }
  cbn [bind].
  apply nscan_suffix in N as [pre N].
  replace (p0 :: tl) with ((p0 :: pre) ++ r1) by (rewrite N; reflexivity).
  replace (length ((p0 :: pre) ++ r1) - length r1) with (length (p0 :: pre)) by (rewrite app_length; lia).
  rewrite email_loop_scan by (rewrite app_length; lia).
  destruct (escan r1 []) as [[r2 email]|] eqn:M; [|reflexivity]. cbn [bind].
  apply escan_suffix in M as [pre' M].
  rewrite M, app_assoc. set (q := (p0 :: pre) ++ pre').
  replace (length (q ++ r2) - length r2) with (length q) by (rewrite app_length; lia).
  destruct r2 as [|d r2].
  - rewrite app_nil_r, Nat.eqb_refl. reflexivity.
  - destruct (Nat.eqb_spec (length q) (length (q ++ d :: r2))) as [X|_].
    { rewrite app_length in X; cbn [length] in X; lia. }
    rewrite go_at_app_head. cbn [bind].
    destruct r2 as [|z r2].
    + rewrite app_length; cbn [length]. rewrite Nat.add_1_r, Nat.eqb_refl. reflexivity.
    + destruct (Nat.eqb_spec (S (length q)) (length (q ++ d :: z :: r2))) as [X|_].
      { rewrite app_length in X; cbn [length] in X; lia. }
      rewrite (snoc_shift q).
      replace (S (length q)) with (length (q ++ [d])) by (rewrite app_length; cbn; lia).
      rewrite go_at_app_head. reflexivity.
Qed.

Lemma parse_person_safe line : safe (parse_person line).
Proof.
  rewrite parse_person_scan.
  destruct (split_on SP line) as [|? [|? [|? ?]]]; try exact I.
  destruct (nscan _ _) as [[? ?]|]; [|exact I].
  destruct (escan _ _) as [[? ?]|]; exact I.
Qed.

(** ** What scanning yields *)

(** Words each followed by a space. *)
Definition spaced (ws : list bytes) : bytes := concat (map (fun w => w ++ [SP]) ws).

Lemma spaced_nil : spaced [] = [].
Proof. reflexivity. Qed.
Lemma spaced_cons w ws : spaced (w :: ws) = w ++ [SP] ++ spaced ws.
Proof. unfold spaced. cbn [map concat]. now rewrite <- app_assoc. Qed.

Lemma spaced_app a b : spaced (a ++ b) = spaced a ++ spaced b.
Proof. unfold spaced. now rewrite map_app, concat_app. Qed.

Lemma spaced_join ws : ws <> [] -> spaced ws = join SP ws ++ [SP].
Proof.
  induction ws as [|w ws IH]; intros N; [congruence|].
  destruct ws as [|v ws]; [unfold spaced; cbn; now rewrite app_nil_r|].
  change (spaced (w :: v :: ws)) with ((w ++ [SP]) ++ spaced (v :: ws)).
  rewrite IH by discriminate. rewrite join_cons, <- !app_assoc. reflexivity.
Qed.

Lemma spaced_snoc_join vs l : spaced vs ++ l = join SP (vs ++ [l]).
Proof.
  induction vs as [|v vs IH]; [reflexivity|].
  cbn [app]. destruct (vs ++ [l]) eqn:F; [destruct vs; discriminate|].
  rewrite join_cons, <- IH, spaced_cons. lnorm. reflexivity.
Qed.

Lemma removelast_spaced ws : removelast (spaced ws) = join SP ws.
Proof.
  destruct ws as [|w ws]; [reflexivity|].
  rewrite spaced_join by discriminate. apply removelast_last.
Qed.

(** Non-starting-with-'<' words are accumulated, once something was. *)
Lemma nscan_run ws : forall acc rest, acc <> [] ->
  (forall w, In w ws -> ~ starts_with LT w) ->
  nscan (ws ++ rest) acc = nscan rest (acc ++ spaced ws).
Proof.
  induction ws as [|w ws IH]; intros acc rest A H; cbn [app].
  - cbn [map]; rewrite spaced_nil, app_nil_r; reflexivity.
  - cbn [nscan]. destruct w as [|c w].
    + destruct acc as [|a acc]; [congruence|]. cbn [length Nat.ltb Nat.leb].
      rewrite IH; [|destruct acc; discriminate|intros; apply H; now right].
      rewrite spaced_cons; lnorm; reflexivity.
    + destruct (byte_eqb_spec c LT) as [->|_].
      { exfalso. apply (H (LT :: w)); [now left|]. now exists w. }
      rewrite IH; [|destruct acc; discriminate|intros; apply H; now right].
      cbn [map]; rewrite spaced_cons; lnorm; reflexivity.
Qed.

(** Result of the name scan. *)
Lemma nscan_result suf : forall acc rest nm, (forall w, In w suf -> ~ In SP w) ->
  nscan suf acc = Some (rest, nm) ->
  exists skipped ws,
    suf = skipped ++ ws ++ rest /\
    (forall w, In w ws -> ~ starts_with LT w) /\
    (acc = [] -> ws = [] \/ exists w ws', ws = w :: ws' /\ w <> []) /\
    (acc <> [] -> skipped = []) /\
    (forall w, In w skipped -> w = []) /\
    nm = acc ++ spaced ws /\ (exists r rest', rest = (LT :: r) :: rest').
Proof.
  induction suf as [|part r IH]; intros acc rest nm NS H; [discriminate|]. cbn [nscan] in H.
  assert (forall w, In w r -> ~ In SP w) as NS' by (intros; apply NS; now right).
  destruct part as [|c part].
  - destruct acc as [|a acc].
    + cbn in H. apply IH in H as (sk & ws & E & L & A & _ & K & Eq & R); [|assumption].
      exists ([] :: sk), ws. repeat split; auto.
      * rewrite E; reflexivity.
      * congruence.
      * intros w [<-|I]; auto.
    + cbn [length Nat.ltb Nat.leb] in H.
      apply IH in H as (sk & ws & E & L & A & B & K & Eq & R); [|assumption].
      rewrite B in E by (destruct acc; discriminate).
      exists [], ([] :: ws). repeat split; auto.
      * rewrite E; reflexivity.
      * intros w [<-|I]; [intros [? X]; discriminate|auto].
      * congruence.
      * intros w [].
      * rewrite Eq. rewrite spaced_cons; lnorm; reflexivity.
  - destruct (byte_eqb_spec c LT) as [->|Nc].
    + injection H as <- <-. exists [], []. repeat split; auto; try (intros ? []).
      * now rewrite app_nil_r.
      * eauto.
    + apply IH in H as (sk & ws & E & L & A & B & K & Eq & R); [|assumption].
      rewrite B in E by (destruct acc; discriminate).
      exists [], ((c :: part) :: ws). repeat split; auto.
      * rewrite E; reflexivity.
      * intros w [<-|I]; [intros [? X]; congruence|auto].
      * intros _. right. exists (c :: part), ws. split; [reflexivity|discriminate].
      * intros w [].
      * rewrite Eq. cbn [map]; rewrite spaced_cons; lnorm; reflexivity.
Qed.

Lemma escan_run ws : forall acc rest,
  (forall w, In w ws -> ends_gt (strip_lt w) = false) ->
  escan (ws ++ rest) acc = escan rest (acc ++ spaced (map strip_lt ws)).
Proof.
  induction ws as [|w ws IH]; intros acc rest H; cbn [app].
  - cbn [map]; rewrite spaced_nil, app_nil_r; reflexivity.
  - cbn [escan]. rewrite H by now left. rewrite IH by (intros; apply H; now right).
    cbn [map]; rewrite spaced_cons; lnorm; reflexivity.
Qed.

Lemma escan_result suf : forall acc rest em, escan suf acc = Some (rest, em) ->
  exists ws l, suf = ws ++ l :: rest /\
    (forall w, In w ws -> ends_gt (strip_lt w) = false) /\
    ends_gt (strip_lt l) = true /\
    em = acc ++ spaced (map strip_lt ws) ++ removelast (strip_lt l).
Proof.
  induction suf as [|part r IH]; intros acc rest em H; [discriminate|]. cbn [escan] in H.
  destruct (ends_gt (strip_lt part)) eqn:G.
  - injection H as <- <-. exists [], part. repeat split; auto. intros ? [].
  - apply IH in H as (ws & l & -> & A & B & ->). exists (part :: ws), l. repeat split; auto.
    + intros w [<-|I]; auto.
    + cbn [map]; rewrite spaced_cons; lnorm; reflexivity.
Qed.

(** ** Words *)

Lemma words_join s : join SP (words s) = s.
Proof. apply join_split. Qed.

Lemma words_spaced_snoc ws l : (forall w, In w (ws ++ [l]) -> ~ In SP w) ->
  words (spaced ws ++ l) = ws ++ [l].
Proof.
  intros H. unfold words.
  replace (spaced ws ++ l) with (join SP (ws ++ [l])); [apply split_join; [destruct ws; discriminate|assumption]|].
  clear H. induction ws as [|w ws IH]; [reflexivity|].
  cbn [app]. destruct (ws ++ [l]) eqn:E; [destruct ws; discriminate|].
  rewrite join_cons, IH.
  cbn [map]; rewrite spaced_cons; lnorm; reflexivity.
Qed.

Lemma words_cases e : exists ws l, words e = ws ++ [l] /\ e = spaced ws ++ l /\ forall w, In w (words e) -> ~ In SP w.
Proof.
  destruct (rev_case (words e)) as [E|(ws & l & E)]; [now apply split_on_nonempty in E|].
  exists ws, l. repeat split; auto.
  - rewrite <- (words_join e), E. clear E. induction ws as [|w ws IH]; [reflexivity|].
    cbn [app]. destruct (ws ++ [l]) eqn:F; [destruct ws; discriminate|].
    rewrite join_cons, IH. cbn [map]; rewrite spaced_cons; lnorm; reflexivity.
  - apply split_on_no_sep.
Qed.

Lemma removelast_no_sp w : ~ In SP w -> ~ In SP (removelast w).
Proof.
  intros H I. apply H. clear H. induction w as [|a w IH]; [assumption|].
  cbn in I. destruct w; [destruct I|]. destruct I as [->|I]; [now left|right; auto].
Qed.

Lemma strip_lt_no_sp w : ~ In SP w -> ~ In SP (strip_lt w).
Proof.
  destruct w as [|c r]; cbn; auto. destruct (byte_eqb c LT); cbn; auto.
Qed.

Lemma finish_fields nm em r :
  p_name (finish_person nm em r) = nm /\ p_email (finish_person nm em r) = em.
Proof. destruct r as [|d [|z r]]; auto. Qed.

(** Everything [parse_person] returns satisfies these. *)
Lemma parse_person_facts line p : parse_person line = Ok p ->
  name_ok (p_name p) /\
  (forall pre w post, words (p_email p) = pre ++ w :: post -> post <> [] -> ~ ends_with GT w) /\
  ~ In SP (p_date p) /\ ~ In SP (p_timezone p).
Proof.
  rewrite parse_person_scan. pose proof (split_on_no_sep SP line) as NS.
  destruct (split_on SP line) as [|p0 [|p1 [|p2 ps]]]; try discriminate.
  set (parts := p1 :: p2 :: ps) in *.
  destruct (nscan parts []) as [[r1 name]|] eqn:N; [|discriminate].
  destruct (escan r1 []) as [[r2 email]|] eqn:M; [|discriminate].
  intros E; injection E as <-.
  assert (forall w, In w parts -> ~ In SP w) as NSp by (intros; apply NS; now right).
  apply nscan_result in N as (sk & ws & Ep & L & A & _ & _ & -> & _); [|assumption].
  apply escan_result in M as (es & l & -> & Em & El & ->).
  cbn [app] in *.
  assert (forall w, In w ws -> ~ In SP w) as NSw.
  { intros w I. apply NSp. rewrite Ep, !in_app_iff. auto. }
  assert (forall w, In w (es ++ l :: r2) -> ~ In SP w) as NSe.
  { intros w I. apply NSp. rewrite Ep, !in_app_iff. rewrite in_app_iff in I. auto. }
  destruct (finish_fields (removelast (spaced ws)) (spaced (map strip_lt es) ++ removelast (strip_lt l)) r2) as [-> ->].
  rewrite removelast_spaced. repeat split.
  - destruct (A eq_refl) as [->|(w & ws' & -> & Nw)]; intros [r X].
    + discriminate.
    + destruct w as [|c w]; [congruence|]. assert (c = SP) as ->.
      { destruct ws'; [cbn in X; congruence|rewrite join_cons in X; cbn in X; congruence]. }
      apply (NSw (SP :: w)); now left.
  - destruct ws as [|w0 ws]; [cbn; intros w [<-|[]] [? ?]; discriminate|].
    unfold words. rewrite split_join; auto. discriminate.
  - intros pre w post Hw Hp Hg. rewrite words_spaced_snoc in Hw.
    2:{ intros v. rewrite in_app_iff, in_map_iff. intros [(u & <- & I)|[<-|[]]].
        - apply strip_lt_no_sp, NSe. rewrite in_app_iff; auto.
        - apply removelast_no_sp, strip_lt_no_sp, NSe. rewrite in_app_iff; right; now left. }
    assert (In w (map strip_lt es)) as I.
    { destruct (rev_case post) as [->|(post' & z & ->)]; [congruence|].
      rewrite app_comm_cons, app_assoc in Hw. apply app_inj_tail in Hw as [-> _].
      rewrite in_app_iff; right; now left. }
    apply in_map_iff in I as (u & <- & I). apply ends_gt_spec in Hg. rewrite Em in Hg by assumption. discriminate.
  - destruct r2 as [|d [|z r2]]; cbn; auto; apply NSe; rewrite in_app_iff; right; right; now left.
  - destruct r2 as [|d [|z r2]]; cbn; auto; apply NSe; rewrite in_app_iff; right; right; right; now left.
Qed.

(** ** Parsing what was written *)

Lemma split_cons_word c w ws : ~ In SP (c :: w) ->
  split_on SP (c :: join SP (w :: ws)) =
  match split_on SP (join SP (w :: ws)) with q :: qs => (c :: q) :: qs | [] => [] end.
Proof.
  intros H. cbn [split_on]. rewrite byte_eqb_neq by (intros ->; apply H; now left).
  destruct (split_on SP (join SP (w :: ws))) eqn:E; [now apply split_on_nonempty in E|reflexivity].
Qed.

(** The parts of a written person after the name. *)
Definition tail_words (p : person) : list bytes :=
  match p_date p with [] => [] | d => [d] end ++ match p_timezone p with [] => [] | z => [z] end.

(** The words of a written person. *)
Lemma split_person_text label p e0 es :
  ~ In SP label -> ~ In SP (p_date p) -> ~ In SP (p_timezone p) ->
  words (p_email p) = e0 :: es ->
  split_on SP (label ++ [SP] ++ person_text p) =
  label :: words (p_name p) ++
    match rev es with
    | [] => [LT :: e0 ++ [GT]]
    | l :: ms => (LT :: e0) :: rev ms ++ [l ++ [GT]]
    end ++ tail_words p.
Proof.
  intros Hl Hd Hz He. cbn [app]. rewrite split_on_app, split_on_none by assumption. cbn [app].
  f_equal. unfold person_text. change (bs " <") with [SP; LT]. cbn [app].
  rewrite split_on_app. f_equal.
  assert (forall w, In w (e0 :: es) -> ~ In SP w) as NS.
  { rewrite <- He. apply split_on_no_sep. }
  assert (forall X ws, split_on SP X = ws -> forall c, c <> SP ->
     split_on SP (c :: X) = match ws with q :: qs => (c :: q) :: qs | [] => [[c]] end) as Hcons.
  { intros X ws <- c Nc. cbn [split_on]. now rewrite byte_eqb_neq. }
  (* the tail: ">" then date and timezone *)
  assert (forall m, ~ In SP m ->
    split_on SP (m ++ bs ">" ++ match p_date p with [] => [] | d => [SP] ++ d end
                  ++ match p_timezone p with [] => [] | z => [SP] ++ z end)
    = (m ++ [GT]) :: tail_words p) as Ht.
  { intros m Hm. unfold tail_words. change (bs ">") with [GT].
    assert (~ In SP (m ++ [GT])) as Hm'.
    { rewrite in_app_iff. intros [?|[?|[]]]; [auto|discriminate]. }
    destruct (p_date p) as [|d0 d], (p_timezone p) as [|z0 z]; cbn [app].
    - now apply split_on_none.
    - replace (m ++ GT :: SP :: z0 :: z) with ((m ++ [GT]) ++ SP :: (z0 :: z)) by now rewrite <- app_assoc.
      rewrite split_on_app, !split_on_none by assumption. reflexivity.
    - rewrite app_nil_r.
      replace (m ++ GT :: SP :: d0 :: d) with ((m ++ [GT]) ++ SP :: (d0 :: d)) by now rewrite <- app_assoc.
      rewrite split_on_app, !split_on_none by assumption. reflexivity.
    - replace (m ++ GT :: SP :: d0 :: d ++ SP :: z0 :: z) with ((m ++ [GT]) ++ SP :: ((d0 :: d) ++ SP :: (z0 :: z)))
        by (rewrite <- app_assoc; reflexivity).
      rewrite !split_on_app, !split_on_none by assumption. reflexivity. }
  rewrite <- (words_join (p_email p)), He. clear He.
  assert (forall rest, split_on SP (join SP (e0 :: es) ++ rest) =
    match rev es with
    | [] => split_on SP (e0 ++ rest)
    | l :: ms => e0 :: rev ms ++ split_on SP (l ++ rest)
    end) as Hj.
  { intros rest. destruct (rev_case es) as [->|(ms & l & ->)]; [reflexivity|].
    rewrite rev_app_distr. cbn [rev app]. rewrite rev_involutive.
    assert (forall ws, ws <> [] -> (forall w, In w ws -> ~ In SP w) ->
      split_on SP (join SP (ws ++ [l]) ++ rest) = ws ++ split_on SP (l ++ rest)) as G.
    { clear. induction ws as [|w ws IH]; intros N H; [congruence|].
      destruct ws as [|v ws].
      - cbn [app join]. rewrite <- app_assoc. cbn [app]. rewrite split_on_app, split_on_none; [reflexivity|apply H; now left].
      - cbn [app]. rewrite join_cons, <- app_assoc. cbn [app]. rewrite split_on_app, split_on_none by (apply H; now left).
        cbn [app]. f_equal. apply IH; [discriminate|]. intros; apply H; now right. }
    rewrite app_comm_cons. rewrite G; [reflexivity|discriminate|].
    intros w I. apply NS. destruct I as [<-|I]; [now left|right]. rewrite in_app_iff; auto. }
  destruct (rev es) as [|l ms] eqn:Er.
  - erewrite Hcons; [|rewrite Hj; apply Ht; apply NS; now left|discriminate]. reflexivity.
  - erewrite Hcons; [|rewrite Hj, Ht; [reflexivity|]|discriminate].
    + cbn [app]. now rewrite <- app_assoc.
    + apply NS. right. apply in_rev. rewrite Er. now left.
Qed.

Lemma ends_gt_snoc w : ends_gt (w ++ [GT]) = true.
Proof. apply ends_gt_spec. now exists w. Qed.

Lemma strip_lt_snoc_gt w : strip_lt (w ++ [GT]) = strip_lt w ++ [GT].
Proof. destruct w as [|c r]; [reflexivity|]. cbn [app strip_lt]. destruct (byte_eqb c LT); reflexivity. Qed.

Lemma ends_gt_strip w : ends_gt (strip_lt w) = true -> ends_gt w = true.
Proof.
  rewrite !ends_gt_spec. intros [r H]. destruct w as [|c w]; [destruct r; discriminate|]. cbn in H.
  destruct (byte_eqb c LT); [|now exists r]. exists (c :: r). now rewrite H.
Qed.

Lemma nscan_name n rest r0 rest' : name_ok n -> rest = (LT :: r0) :: rest' ->
  nscan (words n ++ rest) [] = Some (rest, match n with [] => [] | _ => n ++ [SP] end).
Proof.
  intros [H1 H2] ->. destruct n as [|c n]; [reflexivity|].
  destruct (words (c :: n)) as [|w ws] eqn:E; [now apply split_on_nonempty in E|].
  assert (w <> []) as Nw.
  { intros ->. apply H1. pose proof (words_join (c :: n)) as J. rewrite E in J.
    destruct ws; [discriminate|]. rewrite join_cons in J. cbn in J. injection J as <- _. now eexists. }
  cbn [app nscan]. destruct w as [|x w]; [congruence|].
  destruct (byte_eqb_spec x LT) as [->|_].
  { exfalso. apply (H2 (LT :: w)); [now left|now exists w]. }
  rewrite nscan_run; [|discriminate|intros v I; apply H2; now right].
  cbn [app nscan]. rewrite byte_eqb_refl. do 2 f_equal.
  transitivity (spaced ((x :: w) :: ws)); [rewrite spaced_cons; lnorm; reflexivity|].
  rewrite spaced_join by discriminate. rewrite <- E, words_join. reflexivity.
Qed.

(** Parsing what was written for a person whose name is good and whose email does
    not end too early: only the '<' at the start of later email words get lost. *)
Lemma parse_person_text label p e0 es :
  ~ In SP label -> name_ok (p_name p) ->
  (forall pre w post, words (p_email p) = pre ++ w :: post -> post <> [] -> ~ ends_with GT w) ->
  ~ In SP (p_date p) -> ~ In SP (p_timezone p) ->
  words (p_email p) = e0 :: es ->
  parse_person (label ++ [SP] ++ person_text p) =
  Ok (finish_person (p_name p) (join SP (e0 :: map strip_lt es)) (tail_words p)).
Proof.
  intros Hl Hn Hg Hd Hz He. rewrite parse_person_scan, (split_person_text label p e0 es) by assumption.
  set (T := match rev es with [] => _ | _ => _ end).
  assert (exists r0 rest', T ++ tail_words p = (LT :: r0) :: rest') as (r0 & rest' & ET).
  { unfold T. destruct (rev es); cbn; eauto. }
  assert (exists a b c, words (p_name p) ++ T ++ tail_words p = a :: b :: c) as (a & b & c & Ew).
  { rewrite ET. destruct (words (p_name p)) as [|w ws] eqn:E; [now apply split_on_nonempty in E|].
    destruct ws; cbn; eauto. }
  rewrite Ew, <- Ew. rewrite (nscan_name _ _ r0 rest') by assumption.
  assert (removelast (match p_name p with [] => [] | _ :: _ => p_name p ++ [SP] end) = p_name p) as ->.
  { destruct (p_name p); [reflexivity|]. apply removelast_last. }
  assert (escan (T ++ tail_words p) [] = Some (tail_words p, join SP (e0 :: map strip_lt es))) as ->; [|reflexivity].
  unfold T. destruct (rev_case es) as [->|(ms & l & ->)].
  - cbn [rev app escan strip_lt byte_eqb].
    change (byte_eqb LT LT) with true. cbn iota. rewrite ends_gt_snoc. rewrite removelast_last. reflexivity.
  - rewrite rev_app_distr. cbn [rev app]. rewrite rev_involutive.
    match goal with |- escan ?x _ = _ =>
      replace x with (((LT :: e0) :: ms) ++ (l ++ [GT]) :: tail_words p) by (lnorm; reflexivity) end.
    assert (forall w, In w (e0 :: ms) -> ends_gt w = false) as Hms.
    { intros w I. destruct (ends_gt w) eqn:G; [|reflexivity]. apply ends_gt_spec in G.
      apply in_split in I as (x & y & E). exfalso.
      apply (Hg x w (y ++ [l])); [|destruct y; discriminate|assumption].
      rewrite He. rewrite (app_comm_cons ms [l] e0), E, <- app_assoc. reflexivity. }
    rewrite escan_run.
    + cbn [app escan]. rewrite strip_lt_snoc_gt, ends_gt_snoc, removelast_last. do 2 f_equal.
      cbn [map strip_lt]. change (byte_eqb LT LT) with true. cbn iota. rewrite map_app. cbn [map].
      apply (spaced_snoc_join (e0 :: map strip_lt ms)).
    + intros w [<-|I].
      * cbn. apply Hms. now left.
      * destruct (ends_gt (strip_lt w)) eqn:G; [|reflexivity]. apply ends_gt_strip in G.
        rewrite Hms in G; [discriminate|now right].
Qed.

Lemma strip_lt_id w : strip_lt w = w <-> ~ starts_with LT w.
Proof.
  destruct w as [|c r]; cbn.
  - split; auto. intros _ [? ?]; discriminate.
  - destruct (byte_eqb_spec c LT) as [->|N]; split; auto.
    + intros E. exfalso. assert (length r = length (LT :: r)) as X by now rewrite <- E. cbn in X; lia.
    + intros H. exfalso. apply H. now exists r.
    + intros _ [x E]. congruence.
Qed.

Lemma strip_join e0 es : (forall w, In w (e0 :: es) -> ~ In SP w) ->
  join SP (e0 :: map strip_lt es) = join SP (e0 :: es) -> map strip_lt es = es.
Proof.
  intros NS E. apply (f_equal (split_on SP)) in E. rewrite !split_join in E; try discriminate; auto.
  - now injection E.
  - intros w [<-|I]; [apply NS; now left|]. apply in_map_iff in I as (u & <- & I).
    apply strip_lt_no_sp, NS. now right.
Qed.

Theorem person_roundtrip label p : ~ In SP label ->
  (parse_person (label ++ [SP] ++ person_text p) = Ok p <-> person_ok p).
Proof.
  intros Hl. destruct (words (p_email p)) as [|e0 es] eqn:He; [now apply split_on_nonempty in He|].
  assert (forall w, In w (e0 :: es) -> ~ In SP w) as NS.
  { rewrite <- He. apply split_on_no_sep. }
  split.
  - intros H. destruct (parse_person_facts _ _ H) as (Hn & Hg & Hd & Hz).
    rewrite (parse_person_text label p e0 es) in H by assumption.
    assert (finish_person (p_name p) (join SP (e0 :: map strip_lt es)) (tail_words p) = p) as H' by congruence.
    clear H; rename H' into H. pose proof (finish_fields (p_name p) (join SP (e0 :: map strip_lt es)) (tail_words p)) as [_ F].
    rewrite H in F. rewrite <- (words_join (p_email p)), He in F. symmetry in F. apply strip_join in F; [|assumption].
    repeat split; auto; try apply Hn.
    + intros pre w post E Np Hs. rewrite He in E. destruct pre as [|q pre]; [congruence|].
      injection E as <- ->. rewrite map_app in F. cbn [map] in F.
      assert (length pre = length (map strip_lt pre)) as Lm by (now rewrite map_length).
      apply (f_equal (fun l => nth (length pre) l [])) in F.
      rewrite app_nth2 in F by (rewrite map_length; lia). rewrite app_nth2 in F by lia.
      rewrite map_length, Nat.sub_diag in F. cbn in F. apply strip_lt_id in F. auto.
    + intros D. unfold tail_words in H. rewrite D in H. destruct (p_timezone p) as [|z0 z] eqn:Z; [reflexivity|].
      cbn in H. apply (f_equal p_date) in H. cbn in H. congruence.
  - intros (Hn & [Hg Hs] & Hd & Hz & Hdz).
    rewrite (parse_person_text label p e0 es) by assumption. f_equal.
    assert (map strip_lt es = es) as ->.
    { transitivity (map (fun w => w) es); [|apply map_id]. apply map_ext_in. intros w I. apply strip_lt_id.
      apply in_split in I as (x & y & ->). apply (Hs (e0 :: x) w y); [exact He|discriminate]. }
    rewrite <- He, words_join. unfold tail_words. destruct p as [d z em nm]. cbn [p_date p_timezone p_name p_email] in *.
    destruct d, z; try reflexivity. now discriminate Hdz.
Qed.

Lemma git_string_text p : git_string p = person_text p.
Proof. unfold git_string, person_text. destruct (p_date p), (p_timezone p); reflexivity. Qed.
