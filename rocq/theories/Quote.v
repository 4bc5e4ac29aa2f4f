(** The texts of errors: [strconv.Quote], and the messages of the decoders.

    strconv.Quote is modelled after the library (strconv/quote.go, unicode/utf8), which was not
    available; which runes are printable is a parameter. *)
From Verif Require Import Base GoStr Cid Types Person QuoteSpec.

(** utf8.DecodeRuneInString; [None] stands for (RuneError, 1): the first byte begins no
    encoding of a rune. *)
Definition within (lo hi x : N) : bool := (lo <=? x)%N && (x <=? hi)%N.
Definition decode_rune (s : bytes) : option (N * nat) :=
  match s with
  | [] => None
  | b0 :: s1 =>
      let x0 := Byte.to_N b0 in
      if (x0 <? 128)%N then Some (x0, 1)
      else match s1 with
           | [] => None
           | b1 :: s2 =>
               let x1 := Byte.to_N b1 in
               if within 194 223 x0 then
                 if within 128 191 x1 then Some (((x0 - 192) * 64 + (x1 - 128))%N, 2) else None
               else match s2 with
                    | [] => None
                    | b2 :: s3 =>
                        let x2 := Byte.to_N b2 in
                        if within 224 239 x0 then
                          if within (if (x0 =? 224)%N then 160 else 128) (if (x0 =? 237)%N then 159 else 191) x1
                             && within 128 191 x2
                          then Some ((((x0 - 224) * 64 + (x1 - 128)) * 64 + (x2 - 128))%N, 3)
                          else None
                        else match s3 with
                             | [] => None
                             | b3 :: _ =>
                                 let x3 := Byte.to_N b3 in
                                 if within 240 244 x0
                                    && within (if (x0 =? 240)%N then 144 else 128) (if (x0 =? 244)%N then 143 else 191) x1
                                    && within 128 191 x2 && within 128 191 x3
                                 then Some (((((x0 - 240) * 64 + (x1 - 128)) * 64 + (x2 - 128)) * 64 + (x3 - 128))%N, 4)
                                 else None
                             end
                    end
           end
  end.

(** The last [k] hexadecimal digits of [n] *)
Fixpoint hex_digits (k : nat) (n : N) : bytes :=
  match k with
  | O => []
  | S k' => hex_digits k' (n / 16) ++ [hex_digit (n mod 16)]
  end.

Section Quote.
(** strconv.IsPrint *)
Variable printable : N -> bool.

(** strconv.appendEscapedRune, for a double quote, neither ASCIIonly nor graphicOnly *)
Definition escape_rune (r : N) : bytes :=
  if (r =? 34)%N || (r =? 92)%N then [x5c; byte_of_N r]
  else if printable r then utf8 r
  else match r with
       | 7%N => [x5c; x61] | 8%N => [x5c; x62] | 12%N => [x5c; x66] | 10%N => [x5c; x6e]
       | 13%N => [x5c; x72] | 9%N => [x5c; x74] | 11%N => [x5c; x76]
       | _ => if (r <? 32)%N || (r =? 127)%N then [x5c; x78] ++ hex_digits 2 r
              else if (r <? 65536)%N then [x5c; x75] ++ hex_digits 4 r
              else [x5c; x55] ++ hex_digits 8 r
       end.

(** strconv.appendQuotedWith: the loop *)
Fixpoint quote_loop (fuel : nat) (s : bytes) : bytes :=
  match fuel, s with
  | S f, b :: s1 =>
      match decode_rune s with
      | None => [x5c; x78] ++ hex_digits 2 (Byte.to_N b) ++ quote_loop f s1
      | Some (r, width) => escape_rune r ++ quote_loop f (skipn width s)
      end
  | _, _ => []
  end.
(** strconv.Quote, and fmt's %q of a string or a slice of bytes *)
Definition quote (s : bytes) : bytes := [x22] ++ quote_loop (length s) s ++ [x22].

(** hex.InvalidByteError.Error: fmt's %#U of the byte as a rune *)
Definition upper (c : byte) : byte := if within 97 102 (Byte.to_N c) then byte_of_N (Byte.to_N c - 32) else c.
Definition byte_message (b : byte) : bytes :=
  bs "encoding/hex: invalid byte: U+" ++ map upper (hex_digits 4 (Byte.to_N b))
  ++ (if printable (Byte.to_N b) then bs " '" ++ utf8 (Byte.to_N b) ++ bs "'" else []).
(** The text of an error of decoding: those of this package (blob.go:19, commit.go:141, helper.go:23,
    personinfo.go:12, 24, 44, unmarshal.go:34, 67, util.go:19), of io, bufio, strconv (NumError.Error for
    strconv.Atoi, helper.go:52) and encoding/hex, and of datamodel.ErrRepeatedMapKey for a key of this
    package, which fmt's %q shows as a pointer to a struct.  [None]: any other error; decoders pass on
    those of the reader that is given to them. *)
Definition message (e : err) : option bytes :=
  match e with
  | EEOF => Some (bs "EOF")
  | EUnexpectedEOF => Some (bs "unexpected EOF")
  | ENoProgress => Some (bs "multiple Read calls return no data or error")
  | EPersonFormat line => Some (bs "incorrectly formatted person info line: " ++ quote line)
  | EPersonInvalid line => Some (bs "invalid personInfo: " ++ quote line)
  | ENumber s ESyntax => Some (bs "strconv.Atoi: parsing " ++ quote s ++ bs ": invalid syntax")
  | ENumber s ERange => Some (bs "strconv.Atoi: parsing " ++ quote s ++ bs ": value out of range")
  | EUnknownType typ => Some (bs "unrecognized object type: " ++ quote typ)
  | EHexByte b => Some (byte_message b)
  | EHexLength => Some (bs "encoding/hex: odd length hex string")
  | EShaLength n => Some (bs "invalid git sha of " ++ dec (N.of_nat n) ++ bs " bytes, expected 20")
  | ENegativeSize z => Some (bs "invalid blob size: " ++ dec_Z z)
  | EGpgFirstLine => Some (bs "expected first line of sig to be a single space or version")
  | ERepeatedKey k => Some (bs "cannot repeat map key &{" ++ quote k ++ bs "}")
  | EInvalidCidPrefix => Some (bs "invalid CID prefix")
  | _ => None
  end.
End Quote.
