(** Byte strings, errors and the result type of modelled Go functions. *)
From Coq Require Export List Bool Arith NArith ZArith Lia.
From Coq Require Export Init.Byte.
From Coq Require Import Strings.String Strings.Byte.
Export ListNotations.
Export Coq.Strings.String.StringSyntax.

Notation bytes := (list byte).

(** String literals as byte strings. *)
Definition bs (s : string) : bytes := list_byte_of_string s.
Arguments bs s%string_scope.

Definition byte_eqb (a b : byte) : bool := Byte.eqb a b.

Lemma byte_eqb_spec a b : reflect (a = b) (byte_eqb a b).
Proof.
  unfold byte_eqb. destruct (Byte.eqb a b) eqn:E.
  - constructor. now apply Byte.byte_dec_bl.
  - constructor. intros ->. rewrite (Byte.byte_dec_lb (x:=b) (y:=b) eq_refl) in E. discriminate.
Qed.

Lemma byte_eqb_refl a : byte_eqb a a = true.
Proof. destruct (byte_eqb_spec a a); congruence. Qed.

Lemma byte_eqb_neq a b : a <> b -> byte_eqb a b = false.
Proof. destruct (byte_eqb_spec a b); congruence. Qed.

Definition byte_eq_dec : forall a b : byte, {a = b} + {a <> b}.
Proof.
  intros a b. destruct (byte_eqb a b) eqn:E; [left|right];
    destruct (byte_eqb_spec a b); congruence.
Defined.

(** Equality of byte strings (Go [==] on strings, [bytes.Equal]). *)
Fixpoint beqb (a b : bytes) : bool :=
  match a, b with
  | [], [] => true
  | x :: a', y :: b' => byte_eqb x y && beqb a' b'
  | _, _ => false
  end.

Lemma beqb_spec a b : reflect (a = b) (beqb a b).
Proof.
  revert b; induction a as [|x a IH]; intros [|y b]; cbn; try (constructor; congruence).
  destruct (byte_eqb_spec x y); cbn.
  - destruct (IH b); constructor; congruence.
  - constructor; congruence.
Qed.

Lemma beqb_refl a : beqb a a = true.
Proof. destruct (beqb_spec a a); congruence. Qed.

Lemma beqb_neq a b : a <> b -> beqb a b = false.
Proof. destruct (beqb_spec a b); congruence. Qed.

Definition bytes_eq_dec : forall a b : bytes, {a = b} + {a <> b} := list_eq_dec byte_eq_dec.

(** Named bytes. *)
Definition SP : byte := x20.
Definition NL : byte := x0a.
Definition CR : byte := x0d.
Definition NUL : byte := x00.
Definition LT : byte := x3c.
Definition GT : byte := x3e.

(** ** Errors

    Only the identity of an error matters here; an error holds what its text shows of the
    input, and Quote.v has the texts.  [EOther] carries the identity of an error made by a
    foreign reader or writer. *)
Inductive err : Type :=
| EEOF                      (* io.EOF *)
| EUnexpectedEOF            (* io.ErrUnexpectedEOF *)
| EShortWrite               (* io.ErrShortWrite *)
| ENoProgress               (* io.ErrNoProgress *)
| EBufferFull               (* bufio.ErrBufferFull *)
| EOther (n : nat)          (* an error of the underlying reader or writer *)
| ESyntax                   (* strconv.ErrSyntax *)
| ERange                    (* strconv.ErrRange *)
| ENumber (s : bytes) (e : err) (* strconv.NumError, made by strconv.Atoi of [s] *)
| EHexByte (b : byte)       (* hex.InvalidByteError *)
| EHexLength                (* hex.ErrLength *)
| EShaLength (n : nat)      (* util.go:19 *)
| ENegativeSize (z : Z)     (* blob.go:19 *)
| EPersonFormat (l : bytes) (* personinfo.go:12 *)
| EPersonInvalid (l : bytes)(* personinfo.go:24 and 44 *)
| EGpgFirstLine             (* commit.go:141 *)
| EUnknownType (s : bytes)  (* unmarshal.go:34 and 67 *)
| EInvalidCidPrefix         (* helper.go:23 *)
| EUnrecognizedNode         (* marshal.go:49 *)
| EWrongKind                (* ipld.ErrWrongKind *)
| ERepeatedKey (k : bytes)  (* ipld.ErrRepeatedMapKey *)
| EInvalidKey (k : bytes)   (* schema.ErrInvalidKey / ErrNoSuchField *)
| EMissing (ks : list bytes)(* schema.ErrMissingRequiredField *)
| ENotExists                (* ipld.ErrNotExists *)
| EOverread                 (* ipld.ErrIteratorOverread *)
| ENotCommit (e : err)      (* commit.go:168 *)
| EZlib (n : nat).          (* an error of compress/zlib *)

Definition err_eq_dec : forall a b : err, {a = b} + {a <> b}.
Proof.
  decide equality; try apply Nat.eq_dec; try apply Z.eq_dec;
    try apply byte_eq_dec; try apply bytes_eq_dec; apply (list_eq_dec bytes_eq_dec).
Defined.

Definition is_eof (e : err) : bool := match e with EEOF => true | _ => false end.

Lemma is_eof_true e : is_eof e = true -> e = EEOF.
Proof. destruct e; cbn; congruence. Qed.

(** ** Results of modelled functions

    [Panic]: the Go code panics.  [OutOfFuel]: the fuel given to a modelled loop
    ran out (no Go counterpart; every statement excludes it). *)
Inductive res (A : Type) : Type :=
| Ok (a : A)
| Err (e : err)
| Panic
| OutOfFuel.
Arguments Ok {A} a.
Arguments Err {A} e.
Arguments Panic {A}.
Arguments OutOfFuel {A}.

Definition bind {A B} (r : res A) (f : A -> res B) : res B :=
  match r with
  | Ok a => f a
  | Err e => Err e
  | Panic => Panic
  | OutOfFuel => OutOfFuel
  end.

Notation "'let*' x ':=' r 'in' k" := (bind r (fun x => k))
  (at level 200, x pattern, right associativity).

Definition map_res {A B} (f : A -> B) (r : res A) : res B := bind r (fun a => Ok (f a)).

Lemma bind_ok {A B} (r : res A) (f : A -> res B) b :
  bind r f = Ok b -> exists a, r = Ok a /\ f a = Ok b.
Proof. destruct r; cbn; try discriminate. eauto. Qed.

(** [safe r]: the call returned, with a value or an error. *)
Definition safe {A} (r : res A) : Prop :=
  match r with Ok _ | Err _ => True | Panic | OutOfFuel => False end.

Lemma safe_bind {A B} (r : res A) (f : A -> res B) :
  safe r -> (forall a, r = Ok a -> safe (f a)) -> safe (bind r f).
Proof. destruct r; cbn; intros; auto. Qed.

(** ** List facts *)

Lemma firstn_app_exact {A} (a b : list A) n : n = List.length a -> firstn n (a ++ b) = a.
Proof. intros ->. rewrite firstn_app, firstn_all, Nat.sub_diag. cbn. apply app_nil_r. Qed.

Lemma skipn_app_exact {A} (a b : list A) n : n = List.length a -> skipn n (a ++ b) = b.
Proof. intros ->. rewrite skipn_app, skipn_all, Nat.sub_diag. reflexivity. Qed.

Lemma last_app1 {A} (l : list A) x d : last (l ++ [x]) d = x.
Proof. apply last_last. Qed.

Lemma rev_case {A} (l : list A) : l = [] \/ exists l' x, l = l' ++ [x].
Proof. induction l using rev_ind; [left|right]; eauto. Qed.

(** Number of bytes as [N]. *)
Definition lenN (b : bytes) : N := N.of_nat (List.length b).

(** Right-associate appends. *)
Ltac lnorm := cbn [app]; repeat (rewrite <- app_assoc; cbn [app]).
