(** personinfo.go *)
From Verif Require Import Base GoStr Types.

(** personinfo.go:22-36: the loop over the words of the name.  [at] is the index,
    [fuel] bounds the iterations. *)
Fixpoint person_name_loop (line : bytes) (fuel : nat) (parts : list bytes) (at_ : nat) (name : bytes)
  : res (nat * bytes) :=
  match fuel with
  | O => OutOfFuel
  | S f =>
      if at_ =? length parts then Err (EPersonInvalid line)
      else
        let* part := go_at parts at_ in
        if negb (length part =? 0) then
          let* c := go_at part 0 in
          if byte_eqb c LT then Ok (at_, name)
          else person_name_loop line f parts (S at_) (name ++ part ++ [SP])
        else if 0 <? length name then person_name_loop line f parts (S at_) (name ++ [SP])
        else person_name_loop line f parts (S at_) name
  end.

(** personinfo.go:42-60: the loop over the words of the email. *)
Fixpoint person_email_loop (line : bytes) (fuel : nat) (parts : list bytes) (at_ : nat) (email : bytes)
  : res (nat * bytes) :=
  match fuel with
  | O => OutOfFuel
  | S f =>
      if at_ =? length parts then Err (EPersonInvalid line)
      else
        let* part0 := go_at parts at_ in
        let* part :=
          (if 0 <? length part0 then
             let* c := go_at part0 0 in
             if byte_eqb c LT then go_from 1 part0 else Ok part0
           else Ok part0) in
        let* stop :=
          (if 0 <? length part then
             let* c := go_at part (length part - 1) in Ok (byte_eqb c GT)
           else Ok false) in
        if stop : bool then
          let* p := go_drop_last part in
          Ok (S at_, email ++ p)
        else person_email_loop line f parts (S at_) (email ++ part ++ [SP])
  end.

(** personinfo.go:9-74 *)
Definition parse_person (line : bytes) : res person :=
  let parts := split_on SP line in
  let n := length parts in
  if n <? 3 then Err (EPersonFormat line)
  else
    let* (at1, name) := person_name_loop line (S n) parts 1 [] in
    let* pname := (if negb (length name =? 0) then go_drop_last name else Ok []) in
    let* (at2, email) := person_email_loop line (S n) parts at1 [] in
    if at2 =? n then
      Ok {| p_date := []; p_timezone := []; p_email := email; p_name := pname |}
    else
      let* date := go_at parts at2 in
      let at3 := S at2 in
      if at3 =? n then
        Ok {| p_date := date; p_timezone := []; p_email := email; p_name := pname |}
      else
        let* tz := go_at parts at3 in
        Ok {| p_date := date; p_timezone := tz; p_email := email; p_name := pname |}.

(** personinfo.go:76-89 *)
Definition git_string (p : person) : bytes :=
  p_name p ++ bs " <" ++ p_email p ++ bs ">"
  ++ (if beqb (p_date p) [] then [] else SP :: p_date p)
  ++ (if beqb (p_timezone p) [] then [] else SP :: p_timezone p).

(** [c.author.v.GitString()] where [v] may be the nil pointer: [GitString] has a
    value receiver, so the call dereferences it. *)
Definition git_string_ptr (p : option person) : res bytes :=
  match p with Some p => Ok (git_string p) | None => Panic end.
