(** C56: exactly what is loaded as it was stored, and following the links of stored objects. *)
From Verif Require Import Base GoStr Cid Types Nodes Reader Bufio Person Assemble Decode DecodeEnd Encode Spec HeaderSpec NormalSpec SurviveSpec
  ReaderSpec StreamFacts RoundTrip CommitFacts Checks Sim BufioFacts SafeOps SafeBufio Transfer DecodeEndFacts Sha1 LinkSystem
  Props_entry Props_roundtrip Props_link Props_survive Typed.

(** ** Specification *)

(** The links of an object, and the type of object they lead to if the schema says so
    (schema.ipldsch: Tree_Link, Commit_Link; the other links are of type Link). *)
Inductive link_in : node -> link -> option bkind -> Prop :=
| li_tree c : link_in (NCommit c) (c_tree c) (Some BTree)
| li_parent c p : In p (c_parents c) -> link_in (NCommit c) p (Some BCommit)
| li_mergetag c t : In t (c_mergetag c) -> link_in (NCommit c) (t_object t) None
| li_object t : link_in (NTag t) (t_object t) None
| li_entry t name e : In (name, e) (tr_t t) -> link_in (NTree t) (e_hash e) None.

(** A builder is of the type of the object, or takes anything. *)
Definition takes (k : option bkind) (n : node) : Prop := match k with Some k => object_kind n k | None => True end.

(** What such a builder makes of the object: it is the object; but a builder that takes
    anything is given the bytes of a blob, not the blob. *)
Definition seen (k : option bkind) (n : node) : node :=
  match k, n with None, NBlob text => NGenBytes text | _, _ => n end.

(** [repository]: the storage opens every object of [has] under its hash; [has n text] only
    if the text survives as the node. *)
Definition repository (sha1 : bytes -> bytes) (B : nat) (open : link -> option source) (has : node -> bytes -> Prop) : Prop :=
  forall n text, has n text ->
    survives B n text /\ exists src, open (hash_link sha1 text) = Some src /\ hands_out src text.

(** Every link of an object leads to an object of the right type. *)
Definition complete (sha1 : bytes -> bytes) (has : node -> bytes -> Prop) : Prop :=
  forall n text l k, has n text -> link_in n l k -> exists m mtext, has m mtext /\ l = hash_link sha1 mtext /\ takes k m.

(** A link is loaded with the builder of the type it leads to, any builder for others. *)
Definition fetch (sha1 : bytes -> bytes) (B : nat) (pa pc : nat -> nat -> nat) (open : link -> option source) (k : option bkind) (l : link) : option loaded :=
  match open l with
  | Some src => Some (load sha1 false B pa pc (match k with Some k => k | None => BAny end) l src)
  | None => None
  end.

(** A walk: load a link, pick any link of the node, load it, and so on.  [rs] are the
    answers in order. *)
Inductive walk (get : option bkind -> link -> option loaded) : option bkind -> link -> list (option loaded) -> Prop :=
| walk_stop k l : walk get k l [get k l]
| walk_step k l n l' k' rs : get k l = Some (Loaded n) -> link_in n l' k' -> walk get k' l' rs -> walk get k l (Some (Loaded n) :: rs).

(** ** Proofs *)
Lemma given_seen k n : takes k n -> (exists k', object_kind n k') -> given (match k with Some k => k | None => BAny end) n = Ok (seen k n).
Proof.
  intros T [k' K]. destruct k as [k|]; cbn in T; [now rewrite (given_same _ _ T)|]. now destruct n.
Qed.
Lemma survivors_kind B n text : survives B n text -> exists k, object_kind n k /\ k <> BAny.
Proof. intros []; eexists; (split; [reflexivity|discriminate]). Qed.

Lemma survivor_pulled B pa pc k src n text b : 2 <= B -> survives B n text -> hands_out src text -> takes k n ->
  decode_into_end (bufio_ops pa pc) (match k with Some k => k | None => BAny end) (new_reader B src) = Ok (seen k n, b) -> pulled src (b_src b) = text.
Proof.
  intros HB SF HO K E. destruct (pulled_facts B pa pc _ src text _ b HB HO E) as (unread & Q1 & _ & [->|(size & content & extra & Q & Ns & _ & BB)]).
  { now rewrite app_nil_r in Q1. }
  assert (exists content', n = NBlob (git_object (bs "blob") content') /\ text = git_object (bs "blob") content') as (content' & -> & ->).
  { destruct SF as [content' F|es F O|g F O|g O]; [eauto|exfalso..]; destruct k as [k|]; cbn in K; subst; cbn in BB; discriminate. }
  assert (git_object (bs "blob") content = git_object (bs "blob") content') as G.
  { destruct k as [k|]; [cbn in K; subst k|]; cbn [build_bytes seen] in BB; congruence. }
  rewrite !blob_object in G. apply first_nul in G as [_ ->]; [|apply dec_no_nul|apply dec_no_nul].
  rewrite Q in Q1. rewrite blob_object in Q1.
  replace ((bs "blob " ++ size ++ [NUL] ++ content' ++ extra) ++ unread) with (bs "blob " ++ size ++ [NUL] ++ content' ++ extra ++ unread) in Q1 by (lnorm; reflexivity).
  apply first_nul in Q1 as [Q1 Q2]; [|apply dec_no_nul|exact Ns].
  rewrite <- (app_nil_r content') in Q2 at 1. apply app_inv_head in Q2. symmetry in Q2. apply app_eq_nil in Q2 as [-> ->].
  rewrite Q, app_nil_r, <- Q1. reflexivity.
Qed.

Lemma survivor_loads sha1 trusted B pa pc k n text src : is_sha1 sha1 -> 64 <= B -> survives B n text -> takes k n -> hands_out src text ->
  load sha1 trusted B pa pc (match k with Some k => k | None => BAny end) (hash_link sha1 text) src = Loaded (seen k n).
Proof.
  intros HS HB SF K HO. unfold hash_link. rewrite (load_git trusted sha1 B pa pc _ _ src text ltac:(lia) (HS _) HO).
  destruct (proj2 (exactly_these_objects_survive B pa pc _ text n HB (hands_out_delivers B _ _ HO)) SF) as [P _].
  destruct (survivors_kind _ _ _ SF) as (k' & K' & _).
  pose proof (decoding_into_a_builder _ _ (bufio_ops pa pc) (match k with Some k => k | None => BAny end) (new_reader B src)) as M.
  rewrite P in M. cbn [bind] in M. rewrite (given_seen k n K (ex_intro _ k' K')) in M.
  rewrite <- (decode_into_end_is_decode_into _ _ _ _ (hands_out_wf B _ _ ltac:(lia) HO)) in M.
  destruct (decode_into_end _ _ _) as [[n' b]| | |] eqn:E; try discriminate. cbn in M. assert (n' = seen k n) as -> by congruence.
  rewrite (survivor_pulled B pa pc k src n text b ltac:(lia) SF HO K E). rewrite check_git, beqb_refl by exact HS. now destruct trusted.
Qed.

(** C56.  A stored node is loaded as it was exactly if it survives: whatever the source, and
    whether or not the storage is trusted. *)
Theorem exactly_survivors_load : forall sha1 trusted B pa pc k n text src,
  is_sha1 sha1 -> 64 <= B -> object_kind n k -> encode_bytes n = Ok text -> hands_out src text ->
  store sha1 buffer_writer [] n = Stored (hash_link sha1 text) text /\
  (load sha1 trusted B pa pc k (hash_link sha1 text) src = Loaded n <-> survives B n text).
Proof.
  intros sha1 trusted B pa pc k n text src HS HB K O HO. split; [now apply (storing_follows_encoding sha1 n HS)|]. split.
  - unfold hash_link. rewrite (load_git trusted sha1 B pa pc k _ src text ltac:(lia) (HS _) HO). intros L.
    assert (decode_into (bufio_ops pa pc) k (new_reader B src) = Ok n) as M.
    { rewrite <- (decode_into_end_is_decode_into _ _ _ _ (hands_out_wf B _ _ ltac:(lia) HO)).
      destruct (decode_into_end _ _ _) as [[n' b]| | |]; try discriminate.
      - destruct trusted; [cbn; congruence|]. rewrite check_git in L by exact HS. destruct (beqb _ _); [cbn; congruence|discriminate].
      - destruct trusted; [discriminate|]. rewrite check_git in L by exact HS. destruct (beqb _ _); discriminate. }
    rewrite decoding_into_a_builder in M. apply bind_ok in M as (n' & P & G).
    assert (n' = n) as ->.
    { destruct (parsed_kind _ _ _ P) as (k' & K' & _). assert (forall a c : bkind, {a = c} + {a <> c}) as dec by decide equality.
      destruct (dec k k') as [->|Nk]; [rewrite (given_same _ _ K') in G; congruence|exfalso].
      assert (k <> BAny) as Na by (intros ->; destruct n; cbn in K; (contradiction || discriminate)).
      destruct (dec k BTree) as [->|Nt]; [destruct (dec k' BCommit) as [->|]; [rewrite given_crash in G by auto; discriminate|];
        destruct (dec k' BTag) as [->|]; [rewrite given_crash in G by auto; discriminate|]|];
        destruct (given_other _ k' n' K' Nk Na) as [e X]; try (rewrite X in G; discriminate); intros [? [?|?]]; contradiction. }
    apply (exactly_these_objects_survive B pa pc (new_reader B src) text n HB (hands_out_delivers B _ _ HO)). auto.
  - intros V. assert (object_kind n k) as K2 by exact K. apply (survivor_loads sha1 trusted B pa pc (Some k) n text src HS HB V K2 HO).
Qed.
Print Assumptions exactly_survivors_load.

(** Read back without a link system: the corollary for Encode and ParseObject. *)
Theorem exactly_these_nodes_are_read_back : forall B pa pc b n text,
  64 <= B -> encode_bytes n = Ok text -> delivers B true b (mk text EEOF) ->
  (parse_object (bufio_ops pa pc) b = Ok n <-> survives B n text).
Proof.
  intros B pa pc b n text HB O D. rewrite <- (exactly_these_objects_survive B pa pc b text n HB D). intuition.
Qed.
Print Assumptions exactly_these_nodes_are_read_back.

(** In a complete repository every load of every walk finds the object that was stored. *)
Theorem walks_find_what_was_stored : forall sha1 B pa pc open has,
  is_sha1 sha1 -> 64 <= B -> repository sha1 B open has -> complete sha1 has ->
  forall n text k rs, has n text -> takes k n ->
  walk (fetch sha1 B pa pc open) k (hash_link sha1 text) rs ->
  Forall (fun r => exists m mtext k', has m mtext /\ takes k' m /\ r = Some (Loaded (seen k' m))) rs.
Proof.
  intros sha1 B pa pc open has HS HB R C n text k rs Hn K W.
  assert (forall n text k, has n text -> takes k n -> fetch sha1 B pa pc open k (hash_link sha1 text) = Some (Loaded (seen k n))) as L.
  { clear - HS HB R. intros n text k H K. destruct (R n text H) as (V & src & O & HO). unfold fetch. rewrite O. f_equal. now apply survivor_loads. }
  remember (hash_link sha1 text) as l eqn:El. revert n text Hn K El. induction W as [k l|k l m l' k' rs G I W IH]; intros n text Hn K ->.
  - constructor; [|constructor]. exists n, text, k. auto.
  - pose proof G as G'. rewrite (L n text k Hn K) in G'. assert (m = seen k n) as -> by congruence. constructor; [exists n, text, k; auto|].
    assert (link_in n l' k') as I'.
    { destruct k as [k|]; [exact I|]. destruct n; try exact I. inversion I. }
    destruct (C n text l' k' Hn I') as (m & mtext & Hm & -> & Km). eapply IH; eauto.
Qed.
Print Assumptions walks_find_what_was_stored.

(** What a walk sees is stored again under the link it was loaded from. *)
Theorem what_is_loaded_keeps_its_link : forall sha1 trusted B pa pc k n text src m,
  is_sha1 sha1 -> 64 <= B -> survives B n text -> takes k n -> hands_out src text ->
  load sha1 trusted B pa pc (match k with Some k => k | None => BAny end) (hash_link sha1 text) src = Loaded m ->
  compute_link sha1 m = Ok (hash_link sha1 text).
Proof.
  intros sha1 trusted B pa pc k n text src m HS HB V K HO L. rewrite (survivor_loads sha1 trusted B pa pc k n text src HS HB V K HO) in L.
  assert (m = seen k n) as -> by congruence. rewrite (computed_links_are_stored_links sha1 _ HS).
  assert (encode_bytes (seen k n) = encode_bytes n) as -> by (destruct k, n; reflexivity).
  destruct (proj2 (exactly_these_objects_survive B pa pc _ text n HB (hands_out_delivers B _ _ HO)) V) as [_ ->]. reflexivity.
Qed.
Print Assumptions what_is_loaded_keeps_its_link.

(** The nodes at the links of an object say what they lead to: [k] of [link_in] is the
    answer of LinkTargetNodePrototype. *)
Theorem links_say_what_they_lead_to :
  (forall c, exists m, lookup_by_string (NCommit c) (bs "tree") = Ok m /\ as_link m = Ok (c_tree c) /\ link_target m = Some BTree) /\
  (forall c p, In p (c_parents c) <-> exists l i m, lookup_by_string (NCommit c) (bs "parents") = Ok l /\ lookup_by_index l i = Ok m /\
     as_link m = Ok p /\ link_target m = Some BCommit) /\
  (forall t, exists m, lookup_by_string (NTag t) (bs "object") = Ok m /\ as_link m = Ok (t_object t) /\ link_target m = None) /\
  (forall e, exists m, lookup_by_string (NEntry e) (bs "hash") = Ok m /\ as_link m = Ok (e_hash e) /\ link_target m = None).
Proof.
  split; [|split; [|split]]; try (intros x; eexists; repeat split; reflexivity).
  intros c p. split.
  - intros I. apply In_nth_error in I as [i I]. assert (i < length (c_parents c)) as L by (apply nth_error_Some; congruence).
    exists (NCommitLinkList (c_parents c)), (Z.of_nat i), (NCommitLink p). split; [reflexivity|]. split; [|split; reflexivity].
    cbn [lookup_by_index]. unfold go_list_index. destruct (Z.leb_spec (Z.of_nat (length (c_parents c))) (Z.of_nat i)); [lia|].
    destruct (Z.ltb_spec (Z.of_nat i) 0); [lia|]. unfold go_at. rewrite Nat2Z.id, I. reflexivity.
  - intros (l & i & m & Hl & Hm & Hp & _). assert (l = NCommitLinkList (c_parents c)) as -> by (cbn in Hl; congruence).
    cbn [lookup_by_index] in Hm. unfold go_list_index in Hm. destruct (_ <=? _)%Z; [discriminate|]. destruct (_ <? _)%Z; [discriminate|].
    unfold go_at in Hm. destruct (nth_error (c_parents c) (Z.to_nat i)) as [q|] eqn:E; [|discriminate]. cbn in Hm. injection Hm as <-. cbn in Hp.
    injection Hp as ->. now apply nth_error_In in E.
Qed.
Print Assumptions links_say_what_they_lead_to.

(** ** A repository: two files in two trees, two commits and a tag, in a buffer of 80 bytes *)
Definition r_file1 : bytes := git_object (bs "blob") (bs "hello").
Definition r_file2 : bytes := git_object (bs "blob") [].
Definition r_dir : list gentry := Eval vm_compute in [(bs "100644", bs "b", sha1 r_file2)].
Definition r_dir_text : bytes := git_object (bs "tree") (tree_text r_dir).
Definition r_top : list gentry := Eval vm_compute in [(bs "100644", bs "a", sha1 r_file1); (bs "40000", bs "d", sha1 r_dir_text)].
Definition r_top_text : bytes := git_object (bs "tree") (tree_text r_top).
Definition r_commit (tree : bytes) (parents : list bytes) (message : bytes) : gcommit :=
  {| gc_tree := tree; gc_parents := parents; gc_author := sample_person; gc_committer := sample_person; gc_encoding := None; gc_mergetags := [];
     gc_signature := None; gc_other := []; gc_message := message |}.
Definition r_first : gcommit := Eval vm_compute in r_commit (sha1 r_dir_text) [] (bs "first").
Definition r_first_text : bytes := git_object (bs "commit") (commit_text r_first).
Definition r_second : gcommit := Eval vm_compute in r_commit (sha1 r_top_text) [sha1 r_first_text] (bs "second").
Definition r_second_text : bytes := git_object (bs "commit") (commit_text r_second).
Definition r_tag : gtag := Eval vm_compute in
  {| gt_object := sha1 r_second_text; gt_type := bs "commit"; gt_tag := bs "v1"; gt_tagger := sample_person; gt_message := bs "m" |}.
Definition r_tag_text : bytes := git_object (bs "tag") (tag_text_short r_tag).

Definition r_objects : list (node * bytes) :=
  [(NBlob r_file1, r_file1); (NBlob r_file2, r_file2); (NTree (tree_value r_dir), r_dir_text); (NTree (tree_value r_top), r_top_text);
   (NCommit (commit_value r_first), r_first_text); (NCommit (commit_value r_second), r_second_text); (NTag (tag_value r_tag), r_tag_text)].
Definition r_has (n : node) (text : bytes) : Prop := In (n, text) r_objects.
Definition r_open (l : link) : option source :=
  match l with
  | LCid c => match find (fun o => beqb (git_cid (sha1 (snd o))) c) r_objects with Some o => Some (chunks [snd o] EEOF) | None => None end
  | _ => None
  end.

Lemma r_opens : forall o, In o r_objects -> r_open (hash_link sha1 (snd o)) = Some (chunks [snd o] EEOF).
Proof. intros o I. repeat (destruct I as [<-|I]; [vm_compute; reflexivity|]). destruct I. Qed.
Lemma r_commit_survives g : commit_okb 80 g = true -> fits (commit_text g) -> survives 80 (NCommit (commit_value g)) (git_object (bs "commit") (commit_text g)).
Proof.
  intros C F. constructor; [exact F|]. apply commit_okb_ok in C. destruct C as (C1 & C2 & C3 & C4 & C5 & C6 & C7 & C8 & C9). split.
  - unfold commit_ok. do 8 (split; [assumption|]). intros l I. eapply line_ok_mono; [|apply (C9 l I)]. lia.
  - intros l I. apply C9. revert I. unfold tight_lines, commit_lines. rewrite !in_app_iff. intuition.
    right; right; right; right; left. apply in_concat in H as (x & I & J). apply in_map_iff in I as (m & <- & I). apply in_concat.
    exists (mergetag_lines m). split; [now apply in_map|]. revert J. unfold mergetag_tight_lines, mergetag_lines. cbn [In app]. intuition.
Qed.
Lemma r_fits b : (length b <? 1000) = true -> fits b.
Proof. intros H%Nat.ltb_lt. unfold fits. lia. Qed.

Example walks_find_what_was_stored_applies :
  repository sha1 80 r_open r_has /\ complete sha1 r_has /\ r_has (NTag (tag_value r_tag)) r_tag_text /\
  walk (fetch sha1 80 (fun _ _ => 0) (fun _ _ => 0) r_open) (Some BTag) (hash_link sha1 r_tag_text)
    (map (fun n => Some (Loaded n))
       [NTag (tag_value r_tag); NCommit (commit_value r_second); NCommit (commit_value r_first); NTree (tree_value r_dir); NGenBytes r_file2]).
Proof.
  split; [|split; [|split; [unfold r_has, r_objects; cbn [In]; tauto|]]].
  - intros n text H. split.
    + unfold r_has, r_objects in H. cbn [In] in H.
      decompose [or] H; clear H; try contradiction; match goal with H : (_, _) = (n, text) |- _ => injection H as <- <- end.
      * constructor. now apply r_fits.
      * constructor. now apply r_fits.
      * constructor; [now apply r_fits|now apply tree_okb_ok].
      * constructor; [now apply r_fits|now apply tree_okb_ok].
      * apply r_commit_survives; [vm_compute; reflexivity|now apply r_fits].
      * apply r_commit_survives; [vm_compute; reflexivity|now apply r_fits].
      * constructor. split; [reflexivity|]. split; [apply person_okb_ok; vm_compute; reflexivity|]. split; [|split]; apply line_okb_ok; vm_compute; reflexivity.
    + exists (chunks [text] EEOF). split; [apply (r_opens _ H)|]. rewrite <- (app_nil_r text) at 2. apply (chunks_hand_out [text]).
      constructor; [|constructor]. intros ->. unfold r_has, r_objects in H. cbn [In] in H. decompose [or] H; (contradiction || discriminate).
  - intros n text l k H I. unfold r_has, r_objects in H. cbn [In] in H.
    assert (forall m mtext, In (m, mtext) r_objects -> l = hash_link sha1 mtext -> takes k m -> exists m mtext, r_has m mtext /\ l = hash_link sha1 mtext /\ takes k m) as X by (intros; eexists; eexists; eauto).
    decompose [or] H; clear H; try contradiction; match goal with H : (_, _) = (n, text) |- _ => injection H as <- <- end; inversion I; subst; clear I.
    all: repeat match goal with H : In _ _ |- _ => vm_compute in H; repeat (destruct H as [H|H]; [revert H|]); try contradiction; intros H end.
    all: try match goal with H : (_, _) = (_, _) |- _ => injection H as <- <- end; try match goal with H : LCid _ = ?x |- _ => is_var x; subst x end.
    + apply (X (NBlob r_file2) r_file2); [do 1 right; left; reflexivity|vm_compute; reflexivity|exact Logic.I || reflexivity].
    + apply (X (NBlob r_file1) r_file1); [left; reflexivity|vm_compute; reflexivity|exact Logic.I || reflexivity].
    + apply (X (NTree (tree_value r_dir)) r_dir_text); [do 2 right; left; reflexivity|vm_compute; reflexivity|exact Logic.I || reflexivity].
    + apply (X (NTree (tree_value r_dir)) r_dir_text); [do 2 right; left; reflexivity|vm_compute; reflexivity|exact Logic.I || reflexivity].
    + apply (X (NTree (tree_value r_top)) r_top_text); [do 3 right; left; reflexivity|vm_compute; reflexivity|exact Logic.I || reflexivity].
    + apply (X (NCommit (commit_value r_first)) r_first_text); [do 4 right; left; reflexivity|vm_compute; reflexivity|exact Logic.I || reflexivity].
    + apply (X (NCommit (commit_value r_second)) r_second_text); [do 5 right; left; reflexivity|vm_compute; reflexivity|exact Logic.I || reflexivity].
  - cbn [map].
    eapply walk_step; [vm_compute; reflexivity|apply li_object|].
    eapply walk_step; [vm_compute; reflexivity|apply li_parent; left; reflexivity|].
    eapply walk_step; [vm_compute; reflexivity|apply li_tree|].
    eapply walk_step; [vm_compute; reflexivity|eapply li_entry; left; reflexivity|].
    match goal with |- walk ?g ?k ?l [?r] => replace r with (g k l) by (vm_compute; reflexivity) end. constructor.
Qed.
