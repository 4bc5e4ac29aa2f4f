(** C08, C09: person lines. *)
From Verif Require Import Base GoStr Types Person Spec PersonFacts.

(** C08.  A person line is "<label> <text>". *)
Theorem person_line_survives_iff : forall (label : bytes) (p : person),
  ~ In SP label ->
  (parse_person (label ++ [SP] ++ person_text p) = Ok p <-> person_ok p).
Proof. exact person_roundtrip. Qed.
Print Assumptions person_line_survives_iff.

(** C08: and what the encoder writes for a person is that text. *)
Theorem person_written_as_text : forall p, git_string p = person_text p.
Proof. exact git_string_text. Qed.
Print Assumptions person_written_as_text.

Example person_line_survives_iff_applies :
  let p := {| p_name := bs "A  U. Thor >x"; p_email := bs "a b@c<d"; p_date := bs "123"; p_timezone := bs "+0200" |} in
  ~ In SP (bs "author") /\ person_ok p /\
  parse_person (bs "author A  U. Thor >x <a b@c<d> 123 +0200") = Ok p.
Proof.
  intros p. assert (~ In SP (bs "author")) as HL by (cbn; intuition discriminate).
  assert (parse_person (bs "author" ++ [SP] ++ person_text p) = Ok p) as E by (vm_compute; reflexivity).
  split; [exact HL|]. split; [now apply (person_roundtrip _ _ HL)|exact E].
Qed.

(** A person that does not survive: the name holds a word starting with '<'. *)
Example person_line_lost :
  let p := {| p_name := bs "A <B"; p_email := bs "a"; p_date := bs "1"; p_timezone := bs "+0" |} in
  ~ person_ok p /\ parse_person (bs "author" ++ [SP] ++ person_text p) <> Ok p.
Proof.
  intros p. assert (~ In SP (bs "author")) as HL by (cbn; intuition discriminate).
  assert (parse_person (bs "author" ++ [SP] ++ person_text p) <> Ok p) as E by (vm_compute; discriminate).
  split; [|exact E]. intros K. apply E. now apply (person_roundtrip _ _ HL).
Qed.

(** C09 *)
Theorem person_parsing_is_total : forall line : bytes,
  (exists p, parse_person line = Ok p) \/ (exists e, parse_person line = Err e).
Proof.
  intros line. pose proof (parse_person_safe line) as H.
  destruct (parse_person line); cbn in H; eauto; contradiction.
Qed.
Print Assumptions person_parsing_is_total.

Example person_parsing_is_total_applies :
  (exists p, parse_person (bs "x < >") = Ok p) /\ (exists e, parse_person (bs "x y") = Err e).
Proof. split; eexists; vm_compute; reflexivity. Qed.
