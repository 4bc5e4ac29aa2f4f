(** Proofs about [EncodeCost.v]. *)
From Verif Require Import Base GoStr Cid Types Nodes Person Assemble Encode Cost CostFacts EncodeCost EncodeCostSpec CutFacts.
From Coq Require Import Lia.

Section Facts.
Context (grow bgrow : nat -> nat -> nat) (pool hint : nat -> nat).

(** ** Printing *)
Lemma snd_append_all pieces : forall b, exists cap,
  snd (append_all grow pieces b) = Ok {| b_text := b_text b ++ concat pieces; b_cap := cap |}.
Proof.
  induction pieces as [|p r IH]; intros b.
  - exists (b_cap b). cbn. rewrite app_nil_r. now destruct b.
  - cbn [append_all concat]. unfold cbind, write. cbv zeta.
    destruct (_ <=? _); cbn [at_cost snd fst]; edestruct IH as [cap E]; exists cap; rewrite E; cbn [b_text]; now rewrite app_assoc.
Qed.
Lemma append_all_cost pieces : growing grow -> forall b, built b ->
  within (bsaved b + 6 * length (concat pieces)) bsaved built (append_all grow pieces b).
Proof.
  intros G. induction pieces as [|p r IH]; intros b Hb.
  - unfold within. cbn. split; [exact Hb|lia].
  - cbn [append_all concat]. rewrite app_length, Nat.mul_add_distr_l, Nat.add_assoc. eapply within_bind.
    + apply (within_more _ (6 * length (concat r))), written; assumption.
    + intros a _ Ha. apply IH, Ha.
Qed.
Lemma formatted_text pieces : exists cap, snd (formatted grow pool pieces) = Ok {| b_text := concat pieces; b_cap := cap |}.
Proof. destruct (snd_append_all pieces {| b_text := []; b_cap := pool (length pieces) |}) as [cap E]. exists cap. exact E. Qed.
Lemma formatted_cost pieces : growing grow -> fst (formatted grow pool pieces) <= 6 * length (concat pieces).
Proof.
  intros G. pose proof (append_all_cost pieces G {| b_text := []; b_cap := pool (length pieces) |} (Nat.le_0_l _)) as A.
  unfold within in A. destruct (formatted_text pieces) as [cap E]. unfold formatted in *. rewrite E in A. destruct A as [_ A].
  unfold bsaved at 2 in A. cbn [b_text length saved] in A. unfold saved in A. lia.
Qed.
Lemma formatted_least pieces : length (concat pieces) <= fst (formatted grow pool pieces).
Proof.
  unfold formatted. generalize {| b_text := []; b_cap := pool (length pieces) |}. induction pieces as [|p r IH]; intros b; [apply Nat.le_0_l|].
  cbn [append_all concat]. unfold cbind, write. cbv zeta.
  rewrite app_length. destruct (_ <=? _); cbn [at_cost snd fst]; match goal with |- context [append_all grow r ?b] => specialize (IH b) end; lia.
Qed.

(** [x] writes to [buf] what [r] says, at a cost of at most [W] for each byte written, [k] of it
    spent before. *)
Context (L W : nat) (H : Prop).
Hypothesis Hgrow : H -> growing grow /\ growing bgrow.
Hypothesis HW : 24 + L <= W.
Definition prints (k : nat) (buf : builder) (r : res bytes) (x : costed builder) : Prop :=
  match snd x with
  | Ok b => exists m, r = Ok m /\ b_text b = b_text buf ++ m /\
      (H -> built buf -> built b /\ k + fst x + bsaved b <= bsaved buf + W * length m)
  | Err e => r = Err e
  | Panic => r = Panic
  | OutOfFuel => r = OutOfFuel
  end.

Lemma prints_nothing buf : prints 0 buf (Ok []) (free (Ok buf)).
Proof. unfold prints. cbn. exists []. rewrite app_nil_r. split; [reflexivity|]. split; [reflexivity|]. intros _ B. split; [exact B|lia]. Qed.
Lemma prints_then k buf r1 r2 x f :
  prints k buf r1 x -> (forall b, prints 0 b r2 (f b)) -> prints k buf (let* a := r1 in let* c := r2 in Ok (a ++ c)) (cbind x f).
Proof.
  unfold prints, cbind. intros P F. destruct (snd x) as [b|e| |]; cbn [snd fst]; [|now subst r1..].
  destruct P as (m & -> & T & C). specialize (F b). cbn [bind]. destruct (snd (f b)) as [b2|e| |]; [|now subst r2..].
  destruct F as (m2 & -> & T2 & C2). exists (m ++ m2). cbn [bind]. split; [reflexivity|]. split; [now rewrite T2, T, app_assoc|].
  intros h B. destruct (C h B) as [B1 C1]. destruct (C2 h B1) as [B2 C3]. split; [exact B2|]. rewrite app_length. lia.
Qed.
(** first a value, then the writing *)
Lemma prints_after {A} k buf (y : costed A) r f :
  (forall a, snd y = Ok a -> prints (k + fst y) buf (r a) (f a)) -> prints k buf (bind (snd y) r) (cbind y f).
Proof.
  unfold prints, cbind. intros F. destruct (snd y) as [a|e| |]; cbn [snd fst bind]; try reflexivity. specialize (F a eq_refl).
  destruct (snd (f a)) as [b|e| |]; auto. destruct F as (m & -> & T & C). exists m. split; [reflexivity|]. split; [exact T|].
  intros h B. destruct (C h B) as [B1 C1]. split; [exact B1|lia].
Qed.
Lemma prints_print k buf pieces m : concat pieces = m -> (H -> k + 12 * length m <= W * length m) ->
  prints k buf (Ok m) (fprint grow bgrow pool pieces buf).
Proof.
  intros <- K. unfold prints, fprint, cbind. destruct (formatted_text pieces) as [cap E]. rewrite E. cbn [snd fst b_text].
  pose proof (fun G => formatted_cost pieces G) as FC. set (m := concat pieces) in *.
  assert (exists c, snd (write bgrow buf m) = Ok {| b_text := b_text buf ++ m; b_cap := c |}) as [c Ew].
  { unfold write, at_cost. cbv zeta. destruct (_ <=? _); eexists; reflexivity. }
  rewrite Ew. exists m. split; [reflexivity|]. split; [reflexivity|]. intros h B. destruct (Hgrow h) as [G1 G2].
  pose proof (written bgrow buf m G2 B) as Wr. unfold within in Wr. rewrite Ew in Wr. destruct Wr as [B' Wr]. split; [exact B'|].
  specialize (FC G1). specialize (K h). lia.
Qed.
Lemma prints_write k buf m : (H -> k + 6 * length m <= W * length m) -> prints k buf (Ok m) (write bgrow buf m).
Proof.
  intros K. unfold prints.
  assert (exists c, snd (write bgrow buf m) = Ok {| b_text := b_text buf ++ m; b_cap := c |}) as [c Ew].
  { unfold write, at_cost. cbv zeta. destruct (_ <=? _); eexists; reflexivity. }
  rewrite Ew. exists m. split; [reflexivity|]. split; [reflexivity|]. intros h B. destruct (Hgrow h) as [G1 G2].
  pose proof (written bgrow buf m G2 B) as Wr. unfold within in Wr. rewrite Ew in Wr. destruct Wr as [B' Wr]. split; [exact B'|].
  specialize (K h). lia.
Qed.
Lemma prints_same k buf r r' x : r = r' -> prints k buf r x -> prints k buf r' x.
Proof. now intros ->. Qed.
Lemma bytes_pay (m : bytes) : 0 + 12 * length m <= W * length m.
Proof. cbn [Nat.add]. apply Nat.mul_le_mono_r. lia. Qed.

Lemma prints_line {A} buf r1 r2 (y : costed A) f g :
  prints 0 buf r1 (let! a := y in f a) -> (forall b, prints 0 b r2 (g b)) ->
  prints 0 buf (let* a := r1 in let* c := r2 in Ok (a ++ c)) (let! a := y in let! b := f a in g b).
Proof.
  intros P F. match goal with |- prints _ _ _ ?x => assert (x = cbind (cbind y (fun a => f a)) g) as ->; [|now apply prints_then] end.
  unfold cbind. destruct (snd y) as [a| | |]; cbn [snd fst]; try reflexivity. destruct (snd (f a)); cbn [snd fst]; [now rewrite Nat.add_assoc|reflexivity..].
Qed.

(** ** People *)
Lemma append_one_most n c k c' : append_one grow n c = (k, c') -> k <= n + 1.
Proof. unfold append_one. destruct (n <? c); intros E; injection E as <- _; lia. Qed.
Lemma git_string_same p : snd (git_string_c grow pool p) = Ok (git_string p) /\
  (growing grow -> fst (git_string_c grow pool p) <= 7 * length (git_string p) + 40).
Proof.
  unfold git_string_c, git_string, add_verb.
  destruct (beqb (p_date p) []); cbn [cbind free at_cost snd fst];
    [|destruct (append_one grow (length [p_name p; p_email p]) 2) as [n1 c1] eqn:A1; cbn [cbind at_cost snd fst]];
    (destruct (beqb (p_timezone p) []); cbn [cbind free at_cost snd fst];
      [|match goal with |- context [append_one grow ?a ?b] => destruct (append_one grow a b) as [n2 c2] eqn:A2 end; cbn [cbind at_cost snd fst]]);
    unfold sprintf;
    match goal with |- context [formatted grow pool ?ps] =>
      destruct (formatted_text ps) as [cap E]; pose proof (formatted_cost ps) as FC; unfold cbind, at_cost; rewrite E; cbn [snd fst b_text];
      match goal with |- _ = Ok ?g /\ _ => assert (concat ps = g) as EM by (cbn; repeat rewrite app_nil_r; reflexivity); rewrite EM in *; set (M := g) in * end end;
    (split; [reflexivity|]; intros G; specialize (FC G);
     repeat match goal with A : append_one grow ?n ?c = (?k, ?c') |- _ => apply append_one_most in A end;
     clearbody M; match type of FC with ?f <= _ => set (F := f) in * end; clearbody F; repeat rewrite app_length in *; change (length (bs "%s <%s>")) with 7 in *; change (length (bs " %s")) with 3 in *; cbn [length app Nat.add] in *; lia).
Qed.

(** ** Links *)
Lemma sha_length c h : cid_to_sha c = Ok h -> length h = 20.
Proof. unfold cid_to_sha. cbv zeta. destruct (Nat.leb_spec 20 (length (cid_hash c))); [|discriminate]. intros E. injection E as <-. rewrite skipn_length. lia. Qed.
Lemma link_hex_same l : snd (link_hex_c l) = (let* h := link_sha l in Ok (hex_encode h)).
Proof. destruct l as [|c|n]; try reflexivity. unfold link_hex_c, link_sha_c, sha_of_cid_c, cbind, at_cost. cbn [link_sha snd fst]. now destruct (cid_to_sha c). Qed.
Lemma link_hex_cost l x : short L l -> snd (link_hex_c l) = Ok x -> fst (link_hex_c l) <= L + 2 * length x.
Proof.
  destruct l as [|c|n]; try (cbn; lia). cbn [short]. intros S. unfold link_hex_c, link_sha_c, sha_of_cid_c, cbind, at_cost. cbn [snd fst].
  destruct (cid_to_sha c) as [h|e| |]; cbn [snd fst]; try lia. intros X. injection X as <-. rewrite hex_encode_length. lia.
Qed.

(** ** Lines.  A budget of [L] and of 12 for each byte beyond the printing itself. *)
Lemma pay k (m : bytes) : k <= L + 12 * length m -> 1 <= length m -> k + 12 * length m <= W * length m.
Proof.
  intros A B. transitivity ((24 + L) * length m); [|apply Nat.mul_le_mono_r; lia]. rewrite Nat.mul_add_distr_r.
  assert (L * 1 <= L * length m) by (apply Nat.mul_le_mono_l; lia). lia.
Qed.
Lemma link_line a f l buf : (H -> short L l) -> 5 <= length a ->
  (forall h, concat (printf [] f [h]) = a ++ h ++ [NL]) ->
  prints 0 buf (let* h := link_sha l in Ok (a ++ hex_encode h ++ [NL])) (let! h := link_hex_c l in fprintf grow bgrow pool f [h] buf).
Proof.
  intros S A F. eapply prints_same; [|eapply (prints_after _ _ _ (fun x => Ok (a ++ x ++ [NL])))].
  - rewrite link_hex_same. now destruct (link_sha l).
  - intros x E. apply prints_print; [apply F|]. intros h. pose proof (link_hex_cost l x (S h) E). apply pay; repeat (progress (cbn [length]; repeat rewrite app_length)); cbn [length]; lia.
Qed.
Lemma person_line a z f p buf : 5 <= length a ->
  (forall g, concat (printf [] f [g]) = a ++ g ++ z) ->
  prints 0 buf (Ok (a ++ git_string p ++ z)) (let! g := git_string_c grow pool p in fprintf grow bgrow pool f [g] buf).
Proof.
  intros A F. destruct (git_string_same p) as [E C]. eapply prints_same; [|eapply (prints_after _ _ _ (fun x => Ok (a ++ x ++ z)))].
  - now rewrite E.
  - intros x E'. rewrite E in E'. injection E' as <-. apply prints_print; [apply F|]. intros h. specialize (C (proj1 (Hgrow h))).
    apply pay; repeat rewrite app_length; lia.
Qed.
Lemma person_ptr_line a f p buf : 5 <= length a ->
  (forall g, concat (printf [] f [g]) = a ++ g ++ [NL]) ->
  prints 0 buf (let* g := git_string_ptr p in Ok (a ++ g ++ [NL])) (let! g := git_string_ptr_c grow pool p in fprintf grow bgrow pool f [g] buf).
Proof. intros A F. destruct p as [p|]; [now apply person_line|reflexivity]. Qed.
Lemma prints_each {A} (f : A -> builder -> costed builder) (r : A -> res bytes) l :
  (forall x b, In x l -> prints 0 b (r x) (f x b)) -> forall buf, prints 0 buf (concat_res r l) (each f l buf).
Proof.
  induction l as [|x l IH]; intros F buf; [apply prints_nothing|]. cbn [each concat_res].
  apply prints_then; [apply F; now left|]. intros b. apply IH. intros y b' I. apply F. now right.
Qed.

(** ** Commits *)
Ltac text := intros; cbn; repeat rewrite app_nil_r; repeat (rewrite <- app_assoc; cbn [app]); reflexivity.
Ltac printed m := apply (prints_print 0 _ _ m); [text|intros _; apply bytes_pay].
Lemma prints_mergetag t buf : (H -> short L (t_object t)) -> prints 0 buf (mergetag_body t) (print_mergetag grow bgrow pool t buf).
Proof.
  intros S. unfold print_mergetag. eapply prints_same; cycle 1.
  - eapply prints_line; [apply (link_line (bs "mergetag object ")); [exact S|cbn; lia|text]|intros b1].
    eapply prints_then; [printed (bs " type " ++ t_type t ++ [NL])|intros b2].
    eapply prints_then; [printed (bs " tag " ++ t_tag t ++ [NL])|intros b3].
    eapply prints_line; [apply (person_line (bs " tagger ") ([NL] ++ bs " " ++ [NL])); [cbn; lia|text]|intros b4].
    printed (t_message t).
  - unfold mergetag_body. destruct (link_sha (t_object t)); try reflexivity. cbn [bind]. f_equal. repeat rewrite <- app_assoc. reflexivity.
Qed.
Lemma prints_encoding e buf : prints 0 buf (Ok match e with Some e => bs "encoding " ++ e ++ [NL] | None => [] end) (print_encoding grow bgrow pool e buf).
Proof. destruct e as [e|]; [printed (bs "encoding " ++ e ++ [NL])|apply prints_nothing]. Qed.
Lemma prints_signature e buf :
  prints 0 buf (Ok match e with Some s => bs "gpgsig -----BEGIN PGP SIGNATURE-----" ++ [NL] ++ s ++ bs " -----END PGP SIGNATURE-----" ++ [NL] | None => [] end)
    (print_signature grow bgrow pool e buf).
Proof.
  destruct e as [e|]; [|apply prints_nothing]. unfold print_signature, fprintln. eapply prints_same; cycle 1.
  - eapply prints_then; [printed (bs "gpgsig -----BEGIN PGP SIGNATURE-----" ++ [NL])|intros b1].
    eapply prints_then; [printed e|intros b2]. printed (bs " -----END PGP SIGNATURE-----" ++ [NL]).
  - cbn [bind]. f_equal.
Qed.
Lemma concat_lines (l : list bytes) : concat_res (fun l => Ok (l ++ [NL])) l = Ok (concat (map (fun l => l ++ [NL]) l)).
Proof. induction l as [|x l IH]; [reflexivity|]. cbn [concat_res map concat bind]. now rewrite IH. Qed.
Lemma prints_commit c buf : (H -> Forall (short L) (commit_cids c)) -> prints 0 buf (commit_body c) (print_commit grow bgrow pool c buf).
Proof.
  intros S.
  assert (H -> short L (c_tree c)) as S1 by (intros h; specialize (S h); now inversion S).
  assert (forall l, In l (c_parents c) -> H -> short L l) as S2.
  { intros l I h. specialize (S h). rewrite Forall_forall in S. apply S. right. apply in_or_app. now left. }
  assert (forall t, In t (c_mergetag c) -> H -> short L (t_object t)) as S3.
  { intros t I h. specialize (S h). rewrite Forall_forall in S. apply S. right. apply in_or_app. right. apply in_flat_map. exists t. split; [exact I|now left]. }
  unfold print_commit. eapply prints_same; cycle 1.
  - eapply prints_line; [apply (link_line (bs "tree ")); [exact S1|cbn; lia|text]|intros b1].
    eapply prints_then; [apply (prints_each _ parent_body); intros l b I; apply (link_line (bs "parent ")); [now apply S2|cbn; lia|text]|intros b2].
    eapply prints_line; [apply (person_ptr_line (bs "author ")); [cbn; lia|text]|intros b3].
    eapply prints_line; [apply (person_ptr_line (bs "committer ")); [cbn; lia|text]|intros b4].
    eapply prints_then; [apply prints_encoding|intros b5].
    eapply prints_then; [apply (prints_each _ mergetag_body); intros t b I; apply prints_mergetag; now apply S3|intros b6].
    eapply prints_then; [apply prints_signature|intros b7].
    eapply prints_then; [apply (prints_each _ (fun l => Ok (l ++ [NL]))); intros l b I; printed (l ++ [NL])|intros b8].
    printed ([NL] ++ c_message c).
  - unfold commit_body. rewrite concat_lines. destruct (link_sha (c_tree c)); try reflexivity. cbn [bind].
    destruct (concat_res parent_body (c_parents c)); try reflexivity. cbn [bind].
    destruct (git_string_ptr (c_author c)); try reflexivity. cbn [bind].
    destruct (git_string_ptr (c_committer c)); try reflexivity. cbn [bind].
    destruct (concat_res mergetag_body (c_mergetag c)); try reflexivity. cbn [bind].
    f_equal. repeat rewrite <- app_assoc. reflexivity.
Qed.

(** ** Trees *)
Lemma cbind_free {A C} (a : A) (f : A -> costed C) : cbind (free (Ok a)) f = f a.
Proof. unfold cbind, free. cbn [snd fst Nat.add]. now destruct (f a). Qed.
Ltac value := match goal with |- prints _ _ _ (cbind (free ?x) _) => destruct x eqn:?; [rewrite cbind_free; cbn [bind]|reflexivity..] end.
Lemma prints_tree_entry name te buf :
  (H -> forall ha l, lookup_by_string te (bs "hash") = Ok ha -> as_link ha = Ok l -> short L l) ->
  prints 0 buf (tree_entry_body name te) (print_tree_entry grow bgrow pool name te buf).
Proof.
  intros S. unfold tree_entry_body, print_tree_entry. do 3 value. rename a0 into ms, a1 into ha.
  eapply prints_same; cycle 1.
  - eapply prints_then; [printed (ms ++ [SP] ++ name ++ [NUL])|intros b1].
    instantiate (1 := let* hal := as_link ha in match hal with LCid c => cid_to_sha c | _ => Panic end).
    value. rename a0 into l. destruct l as [|c|x]; try reflexivity.
    eapply (prints_same _ _ (bind (snd (sha_of_cid_c c)) (fun h => Ok h))); [cbn; now destruct (cid_to_sha c)|].
    apply prints_after. intros h E. apply prints_write. intros hh. pose proof (sha_length c h E) as E20. rewrite E20. cbn [fst sha_of_cid_c at_cost Nat.add].
    assert (short L (LCid c)) as SS by (eapply (S hh); first [reflexivity|eassumption]). cbn [short] in SS.
    transitivity ((24 + L) * 20); [lia|apply Nat.mul_le_mono_r; lia].
  - cbn [bind]. destruct (as_link ha) as [l| | |]; try reflexivity. destruct l as [|c|x]; try reflexivity. cbn [bind].
    destruct (cid_to_sha c); try reflexivity. cbn [bind]. f_equal. repeat rewrite <- app_assoc. reflexivity.
Qed.
Lemma prints_tree_entries kvs :
  (H -> forall k te ha l, In (k, te) kvs -> lookup_by_string te (bs "hash") = Ok ha -> as_link ha = Ok l -> short L l) ->
  forall buf, prints 0 buf (tree_entries_body kvs) (print_tree_entries grow bgrow pool kvs buf).
Proof.
  induction kvs as [|[k te] r IH]; intros S buf; [apply prints_nothing|]. cbn [tree_entries_body print_tree_entries]. value.
  apply prints_then; [|apply IH; intros h k' te' ha l I; apply (S h k'); now right].
  apply prints_tree_entry. intros h ha l. apply (S h k). now left.
Qed.

(** ** Tags *)
Lemma prints_tagger n buf :
  prints 0 buf (match lookup_by_string n (bs "tagger") with
     | Ok tn => if is_null tn then Ok []
                else let* p := assign_person false tn in
                     Ok (bs "tagger " ++ git_string p ++ [NL])
     | Err _ => Ok []
     | Panic => Panic
     | OutOfFuel => OutOfFuel
     end) (print_tagger grow bgrow pool n buf).
Proof.
  unfold print_tagger. destruct (lookup_by_string n (bs "tagger")) as [tn|e| |]; [|apply prints_nothing|reflexivity..].
  destruct (is_null tn); [apply prints_nothing|]. value. apply (person_line (bs "tagger ")); [cbn; lia|text].
Qed.
Lemma prints_tag n buf :
  (H -> forall o l, lookup_by_string n (bs "object") = Ok o -> as_link o = Ok l -> short L l) ->
  prints 0 buf (tag_body n) (print_tag grow bgrow pool n buf).
Proof.
  intros S. unfold tag_body, print_tag. do 8 value.
  eapply prints_same; cycle 1.
  - eapply prints_line; [apply (link_line (bs "object ")); [|cbn; lia|text]|intros b1].
    { intros h. eapply (S h); first [reflexivity|eassumption]. }
    eapply prints_then; [printed (bs "type " ++ a2 ++ [NL])|intros b2].
    eapply prints_then; [printed (bs "tag " ++ a4 ++ [NL])|intros b3].
    eapply prints_then; [apply prints_tagger|intros b4].
    instantiate (1 := Ok (if beqb a6 [] then [] else NL :: a6)).
    destruct (beqb a6 []); [apply prints_nothing|]. printed (NL :: a6).
  - destruct (link_sha a0); try reflexivity. cbn [bind].
    match goal with |- context [match lookup_by_string n (bs "tagger") with _ => _ end] => idtac end.
    destruct (match lookup_by_string n (bs "tagger") with Ok tn => if is_null tn then Ok [] else let* p := assign_person false tn in Ok (bs "tagger " ++ git_string p ++ [NL]) | Err _ => Ok [] | Panic => Panic | OutOfFuel => OutOfFuel end); try reflexivity.
    cbn [bind]. f_equal. repeat rewrite <- app_assoc. reflexivity.
Qed.
End Facts.

(** ** The links that are written are those of the node *)
Section Links.
Context (P : link -> Prop) (Pnil : P LNil).
Definition good (n : node) : Prop := Forall P (all_links n).
Lemma good_link n l : good n -> as_link n = Ok l -> P l.
Proof. unfold good. destruct n; cbn; try discriminate; intros G E; injection E as <-; now inversion G. Qed.
Lemma good_part n kvs k v : good n -> map_entries n = Some kvs -> In (k, v) kvs -> good v.
Proof.
  unfold good. intros G E I.
  destruct n; try discriminate E; injection E as <-; cbn [all_links] in G; rewrite Forall_forall in *;
    try solve [repeat (destruct I as [I|I]; [injection I as <- <-; cbn; firstorder|]); destruct I].
  - intros l Il. apply G. apply in_flat_map. exists (k, v). split; [exact I|]. apply in_or_app. now right.
  - repeat (destruct I as [I|I]; [injection I as <- <-|]); try destruct I; cbn [all_links opt_node];
      try (now intros l []); intros l Il; try (apply G; right; apply in_or_app; now (left + right)).
    + destruct Il as [<-|[]]. apply G. now left.
    + destruct (c_author c); destruct Il.
    + destruct (c_committer c); destruct Il.
    + destruct (c_encoding c); destruct Il.
    + destruct (c_signature c); destruct Il.
  - destruct (c_author c), (c_committer c), (c_encoding c), (c_signature c); cbn [app] in I;
    (repeat (destruct I as [I|I]; [injection I as <- <-; cbn [all_links];
       (intros lk Il; first [now destruct Il | (apply G; right; apply in_or_app; now (left + right)) | (destruct Il as [<-|[]]; apply G; now left)])|]); destruct I).
  - apply in_map_iff in I. destruct I as ([a e] & I & J). injection I as <- <-. cbn. intros l [<-|[]]. apply G. apply in_map_iff. now exists (a, e).
  - apply in_map_iff in I. destruct I as ([a e] & I & J). injection I as <- <-. cbn. intros l [<-|[]]. apply G. apply in_map_iff. now exists (a, e).
Qed.
Lemma good_item n l v : good n -> list_items n = Some l -> In v l -> good v.
Proof.
  unfold good. intros G E I. destruct n; try discriminate E; injection E as <-; cbn [all_links] in G; rewrite Forall_forall in *.
  - intros x Ix. apply G. apply in_flat_map. now exists v.
  - apply in_map_iff in I. destruct I as (t & <- & I). intros x Ix. apply G. apply in_flat_map. now exists t.
  - apply in_map_iff in I. destruct I as (t & <- & I). intros x Ix. apply G. apply in_flat_map. now exists t.
  - apply in_map_iff in I. destruct I as (t & <- & I). intros x [].
  - apply in_map_iff in I. destruct I as (t & <- & I). intros x [].
  - apply in_map_iff in I. destruct I as (t & <- & I). intros x [<-|[]]. now apply G.
  - apply in_map_iff in I. destruct I as (t & <- & I). intros x [<-|[]]. now apply G.
Qed.
Lemma struct_loop_keeps {S} (Q : S -> Prop) fields set :
  (forall i v w w', good v -> Q w -> set i v w = Ok w' -> Q w') ->
  forall kvs seen w seen' w', (forall k v, In (k, v) kvs -> good v) -> Q w -> struct_loop fields set kvs seen w = Ok (seen', w') -> Q w'.
Proof.
  intros F. induction kvs as [|[k v] r IH]; intros seen w seen' w' G Qw E; [injection E as _ <-; exact Qw|].
  cbn [struct_loop] in E. destruct (as_string k) as [ks| | |]; try discriminate E. cbn [bind] in E.
  destruct (field_index ks fields 0); [|discriminate]. destruct (existsb _ _); [discriminate|].
  destruct (set n v w) as [w1| | |] eqn:Es; try discriminate E. cbn [bind] in E. eapply IH; [|eapply F|exact E]; [|eapply G; now left|exact Qw|exact Es].
  intros k' v' I. eapply G. right. exact I.
Qed.
Lemma struct_assign_keeps {S} (Q : S -> Prop) fields required set n kvs w w' :
  (forall i v w w', good v -> Q w -> set i v w = Ok w' -> Q w') ->
  good n -> map_entries n = Some kvs -> Q w -> struct_assign fields required set kvs w = Ok w' -> Q w'.
Proof.
  intros F G M Qw E. unfold struct_assign in E. destruct (struct_loop fields set kvs [] w) as [[seen w1]| | |] eqn:El; try discriminate E.
  cbn [bind] in E. destruct (missing_fields _ _ _); [|discriminate]. injection E as <-.
  eapply struct_loop_keeps; [exact F| |exact Qw|exact El]. intros k v Iv. exact (good_part _ _ _ _ G M Iv).
Qed.
Lemma assign_list_keeps {S} (Q : S -> Prop) f n l :
  (forall v x, good v -> f v = Ok x -> Q x) -> good n -> assign_list f n = Ok l -> Forall Q l.
Proof.
  intros F G. unfold assign_list. destruct (list_items n) as [vs|] eqn:E; [|discriminate].
  assert (forall v, In v vs -> good v) as Gv by (intros v Iv; exact (good_item _ _ _ G E Iv)).
  clear E G. revert l. induction vs as [|v vs IH]; intros l E; [injection E as <-; constructor|].
  cbn [assign_items] in E. destruct (f v) as [x| | |] eqn:Ef; try discriminate E. cbn [bind] in E.
  destruct (assign_items f vs) as [xs| | |]; try discriminate E. injection E as <-. constructor; [eapply F; [apply Gv; now left|exact Ef]|].
  apply IH; [|reflexivity]. intros v' I. apply Gv. now right.
Qed.
Lemma assign_tag_good n t : good n -> assign_tag n = Ok t -> P (t_object t).
Proof.
  intros G E. assert (forall kvs, map_entries n = Some kvs -> struct_assign tag_fields [0; 1; 2; 3; 4] set_tag kvs zero_tag = Ok t -> P (t_object t)) as A.
  { intros kvs M. apply (struct_assign_keeps (fun t => P (t_object t)) _ _ _ n); try assumption. intros i v w w' Gv Qw Es.
    do 5 (try (destruct i as [|i]; [cbn [set_tag] in Es; match type of Es with bind ?x _ = _ => destruct x eqn:Ev; try discriminate Es end; injection Es as <-; cbn; try assumption|])).
    - eapply good_link; [exact Gv|exact Ev].
    - discriminate. }
  unfold assign_tag in E. destruct n; try (destruct (map_entries _) eqn:M; [now apply (A _ eq_refl)|discriminate]).
  injection E as <-. unfold good in G. cbn in G. now inversion G.
Qed.
Lemma flat_tags l : Forall (fun t => P (t_object t)) l -> Forall P (flat_map tag_cids l).
Proof. induction 1; cbn; [constructor|]. now constructor. Qed.
Lemma assign_commit_good n c : good n -> assign_commit n = Ok c -> Forall P (commit_cids c).
Proof.
  intros G E. assert (forall kvs, map_entries n = Some kvs -> struct_assign commit_fields [0; 1; 2; 7; 8] set_commit kvs zero_commit = Ok c -> Forall P (commit_cids c)) as A.
  { intros kvs M. apply (struct_assign_keeps (fun c => Forall P (commit_cids c)) _ _ _ n); try assumption; [|now repeat constructor]. intros i v w w' Gv Qw Es.
    unfold commit_cids in *. inversion Qw as [|x y Q1 Q2]; subst x y. apply Forall_app in Q2. destruct Q2 as [Q2 Q3].
    do 9 (try (destruct i as [|i]; [cbn [set_commit] in Es; match type of Es with bind ?x _ = _ => destruct x eqn:Ev; try discriminate Es end; injection Es as <-; cbn; constructor; try assumption; try (apply Forall_app; split; try assumption)|])).
    - eapply good_link; [exact Gv|exact Ev].
    - unfold assign_link_list in Ev. destruct v; try (eapply assign_list_keeps; [|exact Gv|exact Ev]; intros; eapply good_link; eassumption).
      injection Ev as <-. exact Gv.
    - apply flat_tags. unfold assign_tag_list in Ev. destruct v; try (eapply assign_list_keeps; [|exact Gv|exact Ev]; intros; eapply assign_tag_good; eassumption).
      injection Ev as <-. unfold good in Gv. cbn [all_links] in Gv. clear -Gv. induction l as [|t l IH]; [constructor|]. cbn in Gv. inversion Gv; subst. constructor; [assumption|now apply IH].
    - discriminate. }
  unfold assign_commit in E. destruct n; try (destruct (map_entries _) eqn:M; [now apply (A _ eq_refl)|discriminate]).
  injection E as <-. exact G.
Qed.
Lemma gen_lookup_in k kvs v : gen_lookup k kvs = Ok v -> exists k', In (k', v) kvs.
Proof.
  induction kvs as [|[k1 v1] r IH]; [discriminate|]. cbn [gen_lookup]. intros E.
  assert (v1 = v \/ gen_lookup k r = Ok v) as [->|E'].
  { destruct (as_string k1); try now right. destruct (beqb k a); [left; now injection E|now right]. }
  - exists k1. now left.
  - destruct (IH E') as [k' I]. exists k'. now right.
Qed.
End Links.

(** ** Encode *)
Section Encode.
Context (grow bgrow : nat -> nat -> nat) (pool hint : nat -> nat).

Lemma framed_same W H t r x : prints W H 0 empty_builder r x ->
  snd (let! buf := x in free (Ok (Framed t (b_text buf)))) = (let* b := r in Ok (Framed t b)).
Proof. unfold prints, cbind. destruct (snd x) as [b|e| |]; cbn; [|now intros ->..]. intros (m & -> & T & _). cbn. now rewrite T. Qed.
Lemma framed_cost W (H : Prop) t r x body : H -> prints W H 0 empty_builder r x -> r = Ok body ->
  fst (let! buf := x in free (Ok (Framed t (b_text buf)))) <= W * length body.
Proof.
  intros h Pr E. subst r. unfold prints, cbind in *. destruct (snd x) as [b|e| |]; try discriminate. destruct Pr as (m & Em & T & C). injection Em as <-.
  destruct (C h (Nat.le_0_l _)) as [_ C']. unfold bsaved at 2 in C'. cbn [empty_builder b_text b_cap length] in C'. unfold saved in C'. cbn [fst free]. lia.
Qed.

Lemma nogrow : False -> growing grow /\ growing bgrow. Proof. intros []. Qed.
Lemma no_short {A : Prop} : False -> A. Proof. intros []. Qed.
Lemma commit_node_same n : snd (encode_commit_c grow bgrow pool hint n) = encode_commit n.
Proof.
  unfold encode_commit_c, encode_commit. destruct (assign_commit n) as [c| | |]; try reflexivity.
  unfold cbind at 1. cbn [at_cost snd]. apply (framed_same 24 False). apply (prints_commit grow bgrow pool 0 24 False nogrow (Nat.le_refl _)). intros [].
Qed.
Lemma tree_node_same n : snd (encode_tree_c grow bgrow pool n) = encode_tree n.
Proof.
  unfold encode_tree_c, encode_tree, tree_body. destruct (map_entries n) as [kvs|]; [|reflexivity].
  apply (framed_same 24 False). apply (prints_tree_entries grow bgrow pool 0 24 False nogrow (Nat.le_refl _)). intros [].
Qed.
Lemma tag_node_same n : snd (encode_tag_c grow bgrow pool n) = encode_tag n.
Proof. apply (framed_same 24 False). apply (prints_tag grow bgrow pool 0 24 False nogrow (Nat.le_refl _)). intros []. Qed.
Lemma blob_node_same n : snd (encode_blob_c n) = encode_blob n.
Proof. unfold encode_blob_c, encode_blob. now destruct (as_bytes n). Qed.
Lemma encode_node_same n : snd (encode_node_c grow bgrow pool hint n) = encode_node n.
Proof.
  unfold encode_node_c, encode_node.
  destruct n; try reflexivity; try apply commit_node_same; try apply tree_node_same; try apply tag_node_same; try apply blob_node_same; cbn [node_kind];
    try apply commit_node_same; try apply tree_node_same; try apply tag_node_same; try apply blob_node_same;
    (match goal with |- context [map_entries ?n] => destruct (map_entries n) as [[|[k v] r]|]; try reflexivity end;
     destruct (as_string k); try reflexivity; rewrite cbind_free; cbn [bind]; destruct (existsb _ _); [apply tag_node_same|apply commit_node_same]).
Qed.
Lemma encode_same {W} (wr : writer W) n w : snd (encode_c grow bgrow pool hint wr n w) = encode wr n w.
Proof. unfold encode_c, encode. rewrite encode_node_same. now destruct (encode_node n). Qed.

(** the lists that AssignNode appends to *)
Lemma appends_most : growing grow -> forall todo n cap, n <= cap -> appends grow todo n cap <= saved n cap + 6 * todo.
Proof.
  intros G. induction todo as [|t IH]; intros n cap E; [cbn; lia|]. cbn [appends]. pose proof (appended grow n cap G E) as A.
  destruct (append_one grow n cap) as [k cap']. destruct A as [A B]. specialize (IH _ _ B). lia.
Qed.
Lemma parents_least l b : concat_res parent_body l = Ok b -> length l <= length b.
Proof.
  revert b. induction l as [|x l IH]; intros b E; [apply Nat.le_0_l|]. cbn [concat_res] in E. unfold parent_body at 1 in E.
  destruct (link_sha x); try discriminate E. cbn [bind] in E. destruct (concat_res parent_body l) as [b'| | |]; try discriminate E. injection E as <-.
  specialize (IH b' eq_refl). repeat (progress (cbn [length]; repeat rewrite app_length)); cbn [length]; lia.
Qed.
Lemma mergetags_least l b : concat_res mergetag_body l = Ok b -> length l <= length b.
Proof.
  revert b. induction l as [|x l IH]; intros b E; [apply Nat.le_0_l|]. cbn [concat_res] in E. unfold mergetag_body at 1 in E.
  destruct (link_sha (t_object x)); try discriminate E. cbn [bind] in E. destruct (concat_res mergetag_body l) as [b'| | |]; try discriminate E. injection E as <-.
  specialize (IH b' eq_refl). repeat (progress (cbn [length]; repeat rewrite app_length)); cbn [length]; lia.
Qed.
Lemma others_least (l : list bytes) : length l <= length (concat (map (fun l => l ++ [NL]) l)).
Proof. induction l as [|x l IH]; [apply Nat.le_0_l|]. cbn [map concat length]. repeat rewrite app_length. cbn [length]. lia. Qed.
Lemma lists_least c b : commit_body c = Ok b -> length (c_parents c) + length (c_mergetag c) + length (c_other c) <= length b.
Proof.
  unfold commit_body. intros E. destruct (link_sha (c_tree c)); try discriminate E. cbn [bind] in E.
  destruct (concat_res parent_body (c_parents c)) as [b1| | |] eqn:E1; try discriminate E. cbn [bind] in E.
  destruct (git_string_ptr (c_author c)); try discriminate E. cbn [bind] in E. destruct (git_string_ptr (c_committer c)); try discriminate E. cbn [bind] in E.
  destruct (concat_res mergetag_body (c_mergetag c)) as [b2| | |] eqn:E2; try discriminate E. injection E as <-.
  apply parents_least in E1. apply mergetags_least in E2. pose proof (others_least (c_other c)). repeat (progress (cbn [length]; repeat rewrite app_length)); cbn [length]; lia.
Qed.

Context (G : growing grow) (G' : growing bgrow) (L : nat).
Notation K := (24 + L).
Lemma gg : True -> growing grow /\ growing bgrow. Proof. intros _. now split. Qed.
Definition framed_most (x : encoded) : nat := match x with Raw _ => 0 | Framed _ b => (30 + L) * length b end.
Lemma commit_node_cost n x : good (short L) n -> encode_commit n = Ok x -> fst (encode_commit_c grow bgrow pool hint n) <= framed_most x.
Proof.
  intros S E. unfold encode_commit_c, encode_commit in *. pose proof (assign_commit_good (short L) I n) as A.
  destruct (assign_commit n) as [c| | |]; try discriminate E. specialize (A c S eq_refl).
  destruct (commit_body c) as [body| | |] eqn:Eb; try discriminate E. injection E as <-. cbn [framed_most].
  pose proof (framed_cost _ _ (bs "commit") _ _ body I (prints_commit grow bgrow pool L K True gg (Nat.le_refl _) c empty_builder (fun _ => A)) Eb) as C.
  pose proof (lists_least _ _ Eb) as Ll.
  pose proof (appends_most G (length (c_parents c)) 0 (hint 0) (Nat.le_0_l _)). pose proof (appends_most G (length (c_mergetag c)) 0 (hint 1) (Nat.le_0_l _)).
  pose proof (appends_most G (length (c_other c)) 0 (hint 2) (Nat.le_0_l _)). unfold saved in *.
  assert (assign_cost grow hint n c <= 6 * length body) as Al by (unfold assign_cost, lists_cost; destruct (is_commit n); lia).
  unfold cbind at 1. cbn [snd fst at_cost]. lia.
Qed.
Lemma tree_node_cost n x : good (short L) n -> encode_tree n = Ok x ->
  match n with NTree _ | NTreeR _ => True | _ => map_entries n = None end -> fst (encode_tree_c grow bgrow pool n) <= framed_most x.
Proof.
  intros S E Tn. unfold encode_tree_c, encode_tree, tree_body in *. destruct (map_entries n) as [kvs|] eqn:M; [|discriminate].
  destruct (tree_entries_body kvs) as [body| | |] eqn:Eb; try discriminate E. injection E as <-. cbn [framed_most].
  refine (Nat.le_trans _ _ _ (framed_cost K True (bs "tree") _ _ body I (prints_tree_entries grow bgrow pool L K True gg (Nat.le_refl _) kvs _ empty_builder) Eb) _); [|apply Nat.mul_le_mono_r; lia].
  intros _ k te ha l Ik El Ea. pose proof (good_part (short L) n kvs k te S M Ik) as Ge.
  destruct n; try discriminate Tn; injection M as <-; apply in_map_iff in Ik; destruct Ik as ([a e] & Ik & J); injection Ik as <- <-;
    (injection El as <-; injection Ea as <-; unfold good in Ge; cbn in Ge; now inversion Ge).
Qed.
Lemma good_object n o : good (short L) n -> lookup_by_string n (bs "object") = Ok o ->
  match n with NTree _ | NTreeR _ => False | _ => True end -> good (short L) o.
Proof.
  intros S E Tn. destruct n; try discriminate E; try contradiction Tn.
  - cbn [lookup_by_string] in E. destruct (gen_lookup_in _ _ _ E) as [k Ik]. exact (good_part (short L) (NGenMap kvs) kvs k o S eq_refl Ik).
  - injection E as <-. exact S.
  - injection E as <-. exact S.
Qed.
Lemma tag_node_cost n x : good (short L) n -> encode_tag n = Ok x ->
  match n with NTree _ | NTreeR _ => False | _ => True end -> fst (encode_tag_c grow bgrow pool n) <= framed_most x.
Proof.
  intros S E Tn. unfold encode_tag_c, encode_tag in *. destruct (tag_body n) as [body| | |] eqn:Eb; try discriminate E. injection E as <-. cbn [framed_most].
  refine (Nat.le_trans _ _ _ (framed_cost K True (bs "tag") _ _ body I (prints_tag grow bgrow pool L K True gg (Nat.le_refl _) n empty_builder _) Eb) _); [|apply Nat.mul_le_mono_r; lia].
  intros _ o l Eo El. eapply good_link; [exact (good_object _ _ S Eo Tn)|exact El].
Qed.
Lemma blob_node_cost n : fst (encode_blob_c n) = 0.
Proof. unfold encode_blob_c. now destruct (as_bytes n). Qed.
Lemma encode_node_cost n x : good (short L) n -> encode_node n = Ok x -> fst (encode_node_c grow bgrow pool hint n) <= framed_most x.
Proof.
  intros S E. unfold encode_node_c, encode_node in *.
  destruct n; try discriminate E; try (rewrite blob_node_cost; apply Nat.le_0_l); cbn [node_kind] in *;
    try (rewrite blob_node_cost; apply Nat.le_0_l);
    try (apply commit_node_cost; assumption); try (apply tree_node_cost; [assumption..|reflexivity || exact I]); try (apply tag_node_cost; [assumption..|exact I]);
    (match type of E with context [map_entries ?n] => destruct (map_entries n) as [[|[k v] r]|]; try discriminate E end;
     destruct (as_string k) as [rk| | |]; try discriminate E; rewrite cbind_free; cbn [bind] in E; destruct (existsb _ _);
     [apply tag_node_cost; [assumption..|exact I]|apply commit_node_cost; assumption]).
Qed.
Lemma header_pieces t b : concat [t ++ [SP]; dec (lenN b); [NUL]] = header t b.
Proof. cbn [concat]. unfold header. now rewrite <- app_assoc. Qed.
Lemma encode_cost {W} (wr : writer W) n w out : good (short L) n -> encode_bytes n = Ok out -> fst (encode_c grow bgrow pool hint wr n w) <= (32 + L) * length out.
Proof.
  intros S E. pose proof (encode_node_same n) as Sn. pose proof (encode_node_cost n) as C. unfold encode_c. rewrite Sn.
  unfold encode_bytes, encode in E. destruct (encode_node n) as [x|e| |]; try discriminate E. specialize (C x S eq_refl). cbn [fst].
  destruct x as [b|t body]; cbn [framed_most] in C; cbn [fst write_encoded_c].
  - cbn [write_encoded buffer_writer] in E. injection E as <-. cbn [app]. lia.
  - assert (length out = length (header t body) + length body) as El.
    { cbn [write_encoded buffer_writer] in E. unfold buffer_write_to in E. cbn [app] in E. destruct body as [|c body']; [injection E as <-; cbn [length]; lia|].
      cbn [buffer_writer] in E. rewrite Nat.ltb_irrefl, Nat.eqb_refl in E. injection E as <-. now rewrite app_length. }
    pose proof (formatted_cost grow pool [t ++ [SP]; dec (lenN body); [NUL]] G) as FC. rewrite header_pieces in FC. rewrite El.
    destruct (wr (header t body) w) as [[m [e|]] w1]; nia.
Qed.
End Encode.
