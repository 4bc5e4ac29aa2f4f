(** What a struct is to remember of the keys it was given.  For C77. *)
From Verif Require Import Base Types Methods MethodsSpec Protos ProtosSpec.

(** gen/gen.go:51-54: the third argument of SpawnStructField *)
Definition optional (t : tyname) (k : bytes) : bool :=
  match t with
  | TCommit => existsb (beqb k) [bs "author"; bs "committer"; bs "encoding"; bs "signature"]
  | _ => false
  end.
Definition names (t : tyname) : list bytes := map fst (fields t).
Definition required (t : tyname) : list bytes := filter (fun k => negb (optional t k)) (names t).

(** The keys it has taken are a list.  A key that no field has is invalid, one that was taken is repeated, another is
    taken. *)
Definition taken (seen : list bytes) (k : bytes) : bool := existsb (beqb k) seen.
Definition answer (t : tyname) (seen : list bytes) (k : bytes) : res unit :=
  if negb (taken (names t) k) then Err (EInvalidKey k)
  else if taken seen k then Err (ERepeatedKey k)
  else Ok tt.
Fixpoint answers (t : tyname) (seen : list bytes) (ks : list bytes) : list (res unit) * list bytes :=
  match ks with
  | [] => ([], seen)
  | k :: ks =>
      let r := answer t seen k in
      let '(rs, seen') := answers t (match r with Ok _ => k :: seen | _ => seen end) ks in (r :: rs, seen')
  end.
(** In the end the struct is complete, or the error names what is missing, in the order of the schema. *)
Definition verdict (t : tyname) (seen : list bytes) : res unit :=
  match filter (fun k => negb (taken seen k)) (required t) with
  | [] => Ok tt
  | ms => Err (EMissing ms)
  end.
