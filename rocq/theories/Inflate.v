(** compress/flate, the reader: RFC 1951 decompression, as helper.go:31 uses it through
    zlib.NewReader.

    Library code; its source was not at hand.  The input is a stream: bytes, then an error.
    The result is all the bytes that Read delivers, and what comes after them: the rest of
    the input if Read reports EOF, or another error.

    Simplifications: the position in a CorruptInputError is left out; the output window of
    32768 bytes is the whole output (no distance reaches further back); the two-level lookup
    table of a Huffman code is the list of its code words. *)
From Verif Require Import Base GoStr Reader.

(** Errors of compress/zlib and compress/flate. *)
Definition EZlibHeader := EZlib 0.        (* zlib.ErrHeader *)
Definition EZlibDictionary := EZlib 1.    (* zlib.ErrDictionary *)
Definition EZlibChecksum := EZlib 2.      (* zlib.ErrChecksum *)
Definition ECorrupt := EZlib 3.           (* flate.CorruptInputError *)

(** inflate.go, noEOF *)
Definition no_eof (e : err) : err := if is_eof e then EUnexpectedEOF else e.

(** The bits of a byte, least significant first. *)
Definition bits_of (b : byte) : list bool :=
  let '(b0, (b1, (b2, (b3, (b4, (b5, (b6, b7))))))) := Byte.to_bits b in [b0; b1; b2; b3; b4; b5; b6; b7].
Definition bit (b : bool) : nat := if b then 1 else 0.
(** The number with these bits, least significant first. *)
Fixpoint num (l : list bool) : nat := match l with [] => 0 | b :: r => bit b + 2 * num r end.

(** The low [n] bits of [v], most significant first: bits.Reverse16 of a code, as the table
    is indexed by bits in the order they come. *)
Fixpoint codeword (n v : nat) : list bool :=
  match n with 0 => [] | S n' => codeword n' (v / 2) ++ [Nat.odd v] end.

(** ** huffmanDecoder *)
Record table := { h_min : nat; h_codes : list (list bool * nat) }.
(** count[n] *)
Definition count (lens : list nat) (n : nat) : nat := length (filter (Nat.eqb n) lens).
(** [for i := min; i <= max; i++ { code <<= 1; nextcode[i] = code; code += count[i] }], started
    at length 1: the lengths below [min] have no codes.  [k] more lengths, [i] the next. *)
Fixpoint next_codes (lens : list nat) (k i code : nat) (next : nat -> nat) : nat * (nat -> nat) :=
  match k with
  | 0 => (code, next)
  | S k' => let code := 2 * code in
            next_codes lens k' (S i) (code + count lens i) (fun n => if n =? i then code else next n)
  end.
(** [for i, n := range lengths { if n == 0 { continue }; code := nextcode[n]; nextcode[n]++; ... }] *)
Fixpoint assign_codes (next : nat -> nat) (lens : list nat) (i : nat) : list (list bool * nat) :=
  match lens with
  | [] => []
  | 0 :: r => assign_codes next r (S i)
  | n :: r => (codeword n (next n), i) :: assign_codes (fun m => if m =? n then S (next m) else next m) r (S i)
  end.
Definition longest (lens : list nat) : nat := fold_right Nat.max 0 lens.
Definition shortest (lens : list nat) : nat :=
  fold_right (fun n m => if n =? 0 then m else if (m =? 0) || (n <? m) then n else m) 0 lens.
(** init *)
Definition build (lens : list nat) : option table :=
  let mx := longest lens in
  if mx =? 0 then Some {| h_min := 0; h_codes := [] |}
  else
    let '(code, next) := next_codes lens mx 1 0 (fun _ => 0) in
    if negb (code =? 2 ^ mx) && negb ((code =? 1) && (mx =? 1)) then None
    else Some {| h_min := shortest lens; h_codes := assign_codes next lens 0 |}.

(** The entry of the table: the code word that the bits start with; bits that have not come yet are 0. *)
Fixpoint starts (w reg : list bool) : bool :=
  match w with
  | [] => true
  | b :: w' => match reg with
               | [] => negb b && starts w' []
               | c :: reg' => Bool.eqb b c && starts w' reg'
               end
  end.
Definition entry_for (cs : list (list bool * nat)) (reg : list bool) : option (list bool * nat) :=
  find (fun c => starts (fst c) reg) cs.

Section Inflate.
Context (e : err).     (* what follows the input *)

(** [for f.nb < n { moreBits }]: [reg] is the register [f.b], of [f.nb] bits *)
Fixpoint need (n : nat) (reg : list bool) (inp : bytes) {struct inp} : res (list bool * bytes) :=
  if n <=? length reg then Ok (reg, inp)
  else match inp with
       | [] => Err (no_eof e)
       | b :: inp' => need n (reg ++ bits_of b) inp'
       end.
(** [int(f.b & (1<<n - 1)); f.b >>= n; f.nb -= n] *)
Definition get_bits (n : nat) (reg : list bool) (inp : bytes) : res (nat * list bool * bytes) :=
  let* (reg, inp) := need n reg inp in
  Ok (num (firstn n reg), skipn n reg, inp).

(** huffSym *)
Fixpoint huff_sym (fuel : nat) (t : table) (n : nat) (reg : list bool) (inp : bytes) : res (nat * list bool * bytes) :=
  match fuel with
  | O => OutOfFuel
  | S f =>
      let* (reg, inp) := need n reg inp in
      match entry_for (h_codes t) reg with
      | None => Err ECorrupt
      | Some (w, v) =>
          if length w <=? length reg then Ok (v, skipn (length w) reg, inp)
          else huff_sym f t (length w) reg inp
      end
  end.
Definition read_sym (t : table) (reg : list bool) (inp : bytes) := huff_sym (S (S (length inp))) t (h_min t) reg inp.

(** ** readHuffman *)
Definition code_order : list nat := [16; 17; 18; 0; 8; 7; 9; 6; 10; 5; 11; 4; 12; 3; 13; 2; 14; 1; 15].
(** [f.codebits[codeOrder[i]] = int(f.b & 0x7)], for [k] values *)
Fixpoint read_clens (k : nat) (reg : list bool) (inp : bytes) : res (list nat * list bool * bytes) :=
  match k with
  | 0 => Ok ([], reg, inp)
  | S k' =>
      let* (v, reg, inp) := get_bits 3 reg inp in
      let* (vs, reg, inp) := read_clens k' reg inp in
      Ok (v :: vs, reg, inp)
  end.
Fixpoint position (x : nat) (l : list nat) : nat :=
  match l with [] => 0 | y :: r => if x =? y then 0 else S (position x r) end.
Definition codebits (vs : list nat) : list nat := map (fun i => nth (position i code_order) vs 0) (seq 0 19).
(** [for i, n := 0, nlit+ndist; i < n; { ... }]: [acc] is f.bits[0:i] *)
Fixpoint read_lens (fuel : nat) (t : table) (n : nat) (acc : list nat) (reg : list bool) (inp : bytes)
  : res (list nat * list bool * bytes) :=
  if n <=? length acc then Ok (acc, reg, inp)
  else match fuel with
  | O => OutOfFuel
  | S f =>
      let* (x, reg, inp) := read_sym t reg inp in
      let run (rep nb b : nat) :=
        let* (k, reg, inp) := get_bits nb reg inp in
        if n <? length acc + (rep + k) then Err ECorrupt
        else read_lens f t n (acc ++ repeat b (rep + k)) reg inp in
      if x <? 16 then read_lens f t n (acc ++ [x]) reg inp
      else if x =? 16 then (if length acc =? 0 then Err ECorrupt else run 3 2 (last acc 0))
      else if x =? 17 then run 3 3 0
      else run 11 7 0
  end.
Definition read_huffman (reg : list bool) (inp : bytes) : res (table * table * list bool * bytes) :=
  let* (reg, inp) := need 14 reg inp in
  let nlit := num (firstn 5 reg) + 257 in
  let ndist := num (firstn 5 (skipn 5 reg)) + 1 in
  let nclen := num (firstn 4 (skipn 10 reg)) + 4 in
  let reg := skipn 14 reg in
  if 286 <? nlit then Err ECorrupt
  else if 30 <? ndist then Err ECorrupt
  else
    let* (vs, reg, inp) := read_clens nclen reg inp in
    match build (codebits vs) with
    | None => Err ECorrupt
    | Some t =>
        let* (lens, reg, inp) := read_lens (nlit + ndist) t (nlit + ndist) [] reg inp in
        match build (firstn nlit lens), build (skipn nlit lens) with
        | Some t1, Some t2 =>
            (* at least as many bits as the end-of-block code are read at a time *)
            Ok ({| h_min := Nat.max (h_min t1) (nth 256 (firstn nlit lens) 0); h_codes := h_codes t1 |}, t2, reg, inp)
        | _, _ => Err ECorrupt
        end
    end.

(** ** huffmanBlock *)
(** The length for the symbol [v]: base and number of extra bits. *)
Definition length_base (v : nat) : option (nat * nat) :=
  if v <? 265 then Some (v - (257 - 3), 0)
  else if v <? 269 then Some (v * 2 - (265 * 2 - 11), 1)
  else if v <? 273 then Some (v * 4 - (269 * 4 - 19), 2)
  else if v <? 277 then Some (v * 8 - (273 * 8 - 35), 3)
  else if v <? 281 then Some (v * 16 - (277 * 16 - 67), 4)
  else if v <? 285 then Some (v * 32 - (281 * 32 - 131), 5)
  else if v <? 286 then Some (258, 0)
  else None.
Definition read_length (v : nat) (reg : list bool) (inp : bytes) : res (nat * list bool * bytes) :=
  match length_base v with
  | None => Err ECorrupt
  | Some (base, n) => let* (x, reg, inp) := get_bits n reg inp in Ok (base + x, reg, inp)
  end.
(** [td = None]: the fixed code, five bits, most significant first. *)
Definition read_distance (td : option table) (reg : list bool) (inp : bytes) : res (nat * list bool * bytes) :=
  let* (d, reg, inp) :=
    (match td with
     | None => let* (reg, inp) := need 5 reg inp in Ok (num (rev (firstn 5 reg)), skipn 5 reg, inp)
     | Some t => read_sym t reg inp
     end) in
  if d <? 4 then Ok (d + 1, reg, inp)
  else if d <? 30 then
    let nb := (d - 2) / 2 in
    let* (x, reg, inp) := get_bits nb reg inp in
    Ok (2 ^ (nb + 1) + 1 + (d mod 2 * 2 ^ nb + x), reg, inp)
  else Err ECorrupt.
(** dict_decoder.go, writeCopy, byte by byte *)
Fixpoint write_copy (len dist : nat) (out : bytes) : bytes :=
  match len with 0 => out | S l => write_copy l dist (out ++ [nth (length out - dist) out x00]) end.
Definition byte_of (v : nat) : byte := match Byte.of_nat v with Some b => b | None => x00 end.
Fixpoint huff_block (fuel : nat) (tl : table) (td : option table) (reg : list bool) (inp : bytes) (out : bytes)
  : bytes * res (list bool * bytes) :=
  match fuel with
  | O => (out, OutOfFuel)
  | S f =>
      match read_sym tl reg inp with
      | Ok (v, reg, inp) =>
          if v <? 256 then huff_block f tl td reg inp (out ++ [byte_of v])
          else if v =? 256 then (out, Ok (reg, inp))
          else
            match (let* (len, reg, inp) := read_length v reg inp in
                   let* (dist, reg, inp) := read_distance td reg inp in
                   if length out <? dist then Err ECorrupt else Ok (len, dist, reg, inp)) with
            | Ok (len, dist, reg, inp) => huff_block f tl td reg inp (write_copy len dist out)
            | Err x => (out, Err x)
            | Panic => (out, Panic)
            | OutOfFuel => (out, OutOfFuel)
            end
      | Err x => (out, Err x)
      | Panic => (out, Panic)
      | OutOfFuel => (out, OutOfFuel)
      end
  end.

(** fixedHuffmanDecoderInit *)
Definition fixed_lens : list nat := repeat 8 144 ++ repeat 9 112 ++ repeat 7 24 ++ repeat 8 8.
Definition fixed_table : table :=
  match build fixed_lens with Some t => t | None => {| h_min := 0; h_codes := [] |} end.

(** dataBlock, copyData *)
Definition data_block (inp : bytes) (out : bytes) : bytes * res bytes :=
  match inp with
  | a :: b :: c :: d :: inp =>
      let n := Byte.to_nat a + 256 * Byte.to_nat b in
      if negb ((Byte.to_nat a + Byte.to_nat c =? 255) && (Byte.to_nat b + Byte.to_nat d =? 255)) then   (* uint16(nn) != uint16(^n) *) (out, Err ECorrupt)
      else if length inp <? n then (out ++ inp, Err (no_eof e))
      else (out ++ firstn n inp, Ok (skipn n inp))
  | _ => (out, Err (no_eof e))
  end.

(** nextBlock, finishBlock.  A round takes at least three bits. *)
Definition bits_left (reg : list bool) (inp : bytes) : nat := length reg + 8 * length inp.
Fixpoint blocks (fuel : nat) (reg : list bool) (inp : bytes) (out : bytes) : bytes * res bytes :=
  match fuel with
  | O => (out, OutOfFuel)
  | S f =>
      match need 3 reg inp with
      | Ok (reg, inp) =>
          let final := nth 0 reg false in
          let typ := num (firstn 2 (skipn 1 reg)) in
          let reg := skipn 3 reg in
          let '(out, r) :=
            (match typ with
             | 0 => let '(out, r) := data_block inp out in (out, map_res (fun inp => ([], inp)) r)
             | 1 => huff_block (S (bits_left reg inp)) fixed_table None reg inp out
             | 2 => match read_huffman reg inp with
                    | Ok (tl, td, reg, inp) => huff_block (S (bits_left reg inp)) tl (Some td) reg inp out
                    | Err x => (out, Err x)
                    | Panic => (out, Panic)
                    | OutOfFuel => (out, OutOfFuel)
                    end
             | _ => (out, Err ECorrupt)
             end) in
          match r with
          | Ok (reg, inp) => if final then (out, Ok inp) else blocks f reg inp out
          | Err x => (out, Err x)
          | Panic => (out, Panic)
          | OutOfFuel => (out, OutOfFuel)
          end
      | Err x => (out, Err x)
      | Panic => (out, Panic)
      | OutOfFuel => (out, OutOfFuel)
      end
  end.
End Inflate.

(** flate.NewReader on a stream: all bytes Read delivers, then the rest of the input (EOF) or an error *)
Definition inflate (s : stream) : bytes * res bytes :=
  blocks (st_err s) (S (8 * length (st_data s))) [] (st_data s) [].
