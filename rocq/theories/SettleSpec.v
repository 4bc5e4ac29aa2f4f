(** Specification: what becomes of persons, commits and tags that are written and read again
    and again.  Nothing here refers to the decoders or encoders. *)
From Verif Require Import Base GoStr Cid Types Spec.

(** ** Persons

    Every time, the words of the email but the first lose a '<' in front, and a timezone
    without a date becomes the date. *)
Fixpoint brackets (w : bytes) : nat := match w with x3c :: r => S (brackets r) | _ => 0 end.   (* '<' *)
Fixpoint drop_brackets (k : nat) (w : bytes) : bytes :=
  match k, w with S k, x3c :: r => drop_brackets k r | _, _ => w end.
Definition email_after (k : nat) (email : bytes) : bytes :=
  match words email with first :: later => join SP (first :: map (drop_brackets k) later) | [] => [] end.
Definition person_after (k : nat) (p : person) : person :=
  {| p_name := p_name p;
     p_email := email_after k (p_email p);
     p_date := match k, p_date p with S _, [] => p_timezone p | _, d => d end;
     p_timezone := match k, p_date p with S _, [] => [] | _, _ => p_timezone p end |}.

(** How often it has to be written and read until nothing changes any more. *)
Definition most (l : list nat) : nat := fold_right Nat.max 0 l.
Definition person_rounds (p : person) : nat :=
  Nat.max (most (map brackets (tl (words (p_email p)))))
          (match p_date p, p_timezone p with [], _ :: _ => 1 | _, _ => 0 end).

(** ** Tags *)
Definition tag_after (k : nat) (t : tag) : tag :=
  {| t_object := t_object t; t_type := t_type t; t_tag := t_tag t;
     t_tagger := person_after k (t_tagger t); t_message := t_message t |}.
Definition tag_rounds (t : tag) : nat := person_rounds (t_tagger t).

(** ** Commits

    The unknown lines are written after the merge tags.  If no signature comes between, the
    first of them that start with a space are read as lines of the message of the last
    merge tag. *)
Fixpoint indented (ls : list bytes) : list bytes * list bytes :=
  match ls with
  | (x20 :: _) as l :: ls' => let '(a, b) := indented ls' in (l :: a, b)   (* ' ' *)
  | _ => ([], ls)
  end.
Definition add_lines (t : tag) (ls : list bytes) : tag :=
  {| t_object := t_object t; t_type := t_type t; t_tag := t_tag t; t_tagger := t_tagger t; t_message := t_message t ++ unlines ls |}.
Fixpoint add_to_last (ts : list tag) (ls : list bytes) : list tag :=
  match ts with
  | [] => []
  | [t] => [add_lines t ls]
  | t :: ts' => t :: add_to_last ts' ls
  end.
(** The lines that change hands. *)
Definition taken (c : commit) : list bytes :=
  match c_mergetag c, c_signature c with _ :: _, None => fst (indented (c_other c)) | _, _ => [] end.
Definition commit_after (k : nat) (c : commit) : commit :=
  let moved := match k with 0 => [] | S _ => taken c end in
  {| c_tree := c_tree c; c_parents := c_parents c; c_message := c_message c;
     c_author := option_map (person_after k) (c_author c);
     c_committer := option_map (person_after k) (c_committer c);
     c_encoding := c_encoding c; c_signature := c_signature c;
     c_mergetag := map (tag_after k) (add_to_last (c_mergetag c) moved);
     c_other := skipn (length moved) (c_other c) |}.
Definition commit_rounds (c : commit) : nat :=
  most ([match c_author c with Some p => person_rounds p | None => 0 end;
         match c_committer c with Some p => person_rounds p | None => 0 end;
         match taken c with [] => 0 | _ => 1 end]
        ++ map tag_rounds (c_mergetag c)).
