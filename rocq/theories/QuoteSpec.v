(** Specification: UTF-8, plain text, and reading a quoted string. *)
From Verif Require Import Base GoStr.

(** Unicode scalar values and their UTF-8 encodings *)
Definition scalar (r : N) : Prop := (r < 55296 \/ (57344 <= r /\ r < 1114112))%N.
Definition utf8 (r : N) : bytes :=
  map byte_of_N
    (if (r <? 128)%N then [r]
     else if (r <? 2048)%N then [192 + r / 64; 128 + r mod 64]
     else if (r <? 65536)%N then [224 + r / 4096; 128 + (r / 64) mod 64; 128 + r mod 64]
     else [240 + r / 262144; 128 + (r / 4096) mod 64; 128 + (r / 64) mod 64; 128 + r mod 64])%N.
Inductive valid_utf8 : bytes -> Prop :=
| vu_nil : valid_utf8 []
| vu_rune r s : scalar r -> valid_utf8 s -> valid_utf8 (utf8 r ++ s).

(** One line without control characters *)
Definition plain (s : bytes) : Prop := forall b, In b s -> (32 <= Byte.to_N b /\ Byte.to_N b <> 127)%N.

(** Reading what is between double quotes, as in a Go string literal: an escape stands for a byte or
    for the encoding of a rune, any other byte for itself.  [Some (s, rest)]: the string is [s], and
    [rest] comes after its closing quote. *)
Definition hex_number (ds : bytes) : option N :=
  fold_left (fun a d => match a, hex_val d with Some a, Some d => Some (16 * a + d)%N | _, _ => None end) ds (Some 0%N).
Definition adds (p : option bytes) (r : option (bytes * bytes)) : option (bytes * bytes) :=
  match p, r with Some p, Some (s, rest) => Some (p ++ s, rest) | _, _ => None end.
Definition simple_escape (c : byte) : option bytes :=
  match Byte.to_N c with
  | 34%N | 92%N => Some [c]                               (* double quote, backslash *)
  | 97%N => Some [x07] | 98%N => Some [x08] | 102%N => Some [x0c] | 110%N => Some [x0a]
  | 114%N => Some [x0d] | 116%N => Some [x09] | 118%N => Some [x0b]
  | _ => None
  end.
Fixpoint read_quoted (s : bytes) : option (bytes * bytes) :=
  match s with
  | [] => None
  | c :: s1 =>
      if Byte.eqb c x22 then Some ([], s1)
      else if Byte.eqb c x5c then
        match s1 with
        | [] => None
        | k :: s2 =>
            if Byte.eqb k x78 then                        (* \xHH: a byte *)
              match s2 with
              | a :: b :: s3 => adds (option_map (fun n => [byte_of_N n]) (hex_number [a; b])) (read_quoted s3)
              | _ => None
              end
            else if Byte.eqb k x75 then                   (* \uHHHH: a rune *)
              match s2 with
              | a :: b :: c :: d :: s3 => adds (option_map utf8 (hex_number [a; b; c; d])) (read_quoted s3)
              | _ => None
              end
            else if Byte.eqb k x55 then                   (* \UHHHHHHHH: a rune *)
              match s2 with
              | a :: b :: c :: d :: e :: f :: g :: h :: s3 => adds (option_map utf8 (hex_number [a; b; c; d; e; f; g; h])) (read_quoted s3)
              | _ => None
              end
            else adds (simple_escape k) (read_quoted s2)
        end
      else adds (Some [c]) (read_quoted s1)
  end.
Definition unquote (s : bytes) : option (bytes * bytes) :=
  match s with
  | c :: s' => if Byte.eqb c x22 then read_quoted s' else None
  | [] => None
  end.
