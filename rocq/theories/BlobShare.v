(** Blobs with their arrays: who sees a write into the bytes of a blob.

    [_Blob] (ipldsch_types.go:56, [struct{ x []byte }]) holds a slice.  Strings and CIDs of Go cannot be
    written to, so blobs are the only nodes of this package with bytes that a client can write to.
    Elsewhere in the model a blob is its bytes; here it is a slice of an array, and arrays, blobs,
    builders and the slices in the client's hands are kept in one world. *)
From Verif Require Import Base GoStr Cid Types Nodes Reader Assemble Decode TreeHeap.
From Verif Require Builder.
Import Builder (maybe(..), verdict(..)).

(** A slice: array, first index, length.  Its capacity reaches to the end of the array (slices cut with
    three indices are left out). *)
Record slice := Sl { s_arr : nat; s_off : nat; s_len : nat }.
(** The nil slice, on array 0, which has no bytes. *)
Definition nil_slice : slice := Sl 0 0 0.

(** [w_mem]: the arrays.  [w_cells]: every [_Blob] there is, by number, which stands for its address.
    [w_bld]: each builder, its [w] and its [*m].  [w_held]: the slices that came into the client's
    hands, [w_known]: the addresses of the blobs that did; the client forgets nothing. *)
Record world := W { w_mem : list bytes; w_cells : list slice; w_bld : list (nat * maybe);
                    w_held : list slice; w_known : list nat }.
Definition start : world := W [[]] [] [] [] [].

(** The bytes of a slice, and of the blob at an address. *)
Definition window (mem : list bytes) (s : slice) : bytes := firstn (s_len s) (skipn (s_off s) (nth (s_arr s) mem [])).
Definition cell_of (w : world) (p : nat) : slice := nth p (w_cells w) nil_slice.
Definition content (w : world) (p : nat) : bytes := window (w_mem w) (cell_of w p).

(** The client's own operations on slices, and the calls of the package.  Slices, blobs and builders are
    given by their place in [w_held], [w_known] and [w_bld]. *)
Inductive bcall :=
| BMake (b : bytes)                     (* s := []byte(b) *)
| BSlice (i lo hi : nat)                (* s[lo:hi] *)
| BSet (i j : nat) (v : byte)           (* s[j] = v *)
| BAppend (i : nat) (v : byte)          (* append(s, v) *)
| BFromBytes (i : nat)                  (* Type.Blob.FromBytes(s) *)
| BAsBytes (p : nat)                    (* n.AsBytes(), n.Bytes() *)
| BEncode (p : nat)                     (* Encode(n, w), where [w] is the client's *)
| BParse (i : nat)                      (* ParseObjectFromBuffer(s) *)
| BNew                                  (* Type.Blob.NewBuilder() *)
| BReset (k : nat)                      (* nb.Reset() *)
| BAssignBytes (k i : nat)              (* nb.AssignBytes(s), and nb.AssignNode of a node of another package *)
| BAssignBlob (k p : nat)               (* nb.AssignNode(n) *)
| BAssignNull (k : nat)                 (* nb.AssignNull() *)
| BDecode (k i : nat)                   (* Decode(nb, bytes.NewReader(s)) *)
| BBuild (k : nat).                     (* nb.Build() *)

(** How many spare bytes an array gets when append or a bytes.Buffer makes a new one. *)
Section Steps.
Variables (B : nat) (spare : nat -> nat).

Definition new_array (b : bytes) : bytes := b ++ repeat x00 (spare (length b)).

(** _Blob__Assembler.AssignBytes (168-176) and AssignNode of a [*_Blob] (184-192): the slice is kept *)
Definition give (k : nat) (s : slice) (w : world) : verdict * world :=
  match nth_error (w_bld w) k with
  | Some (p, MAbsent) =>
      (OK, W (w_mem w) (set_nth p s (w_cells w)) (set_nth k (p, MValue) (w_bld w)) (w_held w) (w_known w))
  | _ => (PANIC, w)
  end.

Definition bstep (c : bcall) (w : world) : verdict * world :=
  let '(W mem cells bld held known) := w in
  match c with
  | BMake b => (OK, W (mem ++ [b]) cells bld (held ++ [Sl (length mem) 0 (length b)]) known)
  | BSlice i lo hi =>
      match nth_error held i with
      | Some s => if (lo <=? hi) && (s_off s + hi <=? length (nth (s_arr s) mem []))
                  then (OK, W mem cells bld (held ++ [Sl (s_arr s) (s_off s + lo) (hi - lo)]) known)
                  else (PANIC, w)
      | None => (PANIC, w)
      end
  | BSet i j v =>
      match nth_error held i with
      | Some s => if j <? s_len s
                  then (OK, W (set_nth (s_arr s) (set_nth (s_off s + j) v (nth (s_arr s) mem [])) mem) cells bld held known)
                  else (PANIC, w)
      | None => (PANIC, w)
      end
  | BAppend i v =>
      match nth_error held i with
      | Some s => if s_off s + s_len s <? length (nth (s_arr s) mem [])
                  then (OK, W (set_nth (s_arr s) (set_nth (s_off s + s_len s) v (nth (s_arr s) mem [])) mem) cells bld
                              (held ++ [Sl (s_arr s) (s_off s) (S (s_len s))]) known)
                  else (OK, W (mem ++ [new_array (window mem s ++ [v])]) cells bld
                              (held ++ [Sl (length mem) 0 (S (s_len s))]) known)
      | None => (PANIC, w)
      end
  | BFromBytes i =>                                              (* 14-17 *)
      match nth_error held i with
      | Some s => (OK, W mem (cells ++ [s]) bld held (known ++ [length cells]))
      | None => (PANIC, w)
      end
  | BAsBytes i | BEncode i =>                                    (* 11-13, 98-100; blob.go:46-54 *)
      match nth_error known i with
      | Some p => (OK, W mem cells bld (held ++ [cell_of w p]) known)
      | None => (PANIC, w)
      end
  | BParse i =>                                                  (* helper.go:41-43; blob.go:13-44 *)
      match nth_error held i with
      | Some s =>
          match parse_object_from_buffer B (window mem s) with
          | Ok (NBlob b) =>
              (OK, W (mem ++ [new_array b]) (cells ++ [Sl (length mem) 0 (length b)]) bld held (known ++ [length cells]))
          | Ok _ => (OK, w)
          | Err _ => (ERR, w)
          | Panic | OutOfFuel => (PANIC, w)
          end
      | None => (PANIC, w)
      end
  | BNew => (OK, W mem (cells ++ [nil_slice]) (bld ++ [(length cells, MAbsent)]) held known)   (* 110-114, 126-130 *)
  | BReset k =>                                                  (* 126-130 *)
      match nth_error bld k with
      | Some _ => (OK, W mem (cells ++ [nil_slice]) (set_nth k (length cells, MAbsent) bld) held known)
      | None => (PANIC, w)
      end
  | BAssignBytes k i =>                                          (* 168-176, 193-197 *)
      match nth_error held i with
      | Some s => give k s w
      | None => (PANIC, w)
      end
  | BAssignBlob k i =>                                           (* 180-192 *)
      match nth_error known i with
      | Some p => give k (cell_of w p) w
      | None => (PANIC, w)
      end
  | BAssignNull k =>                                             (* 144-155: no builder has [allowNull] *)
      match nth_error bld k with
      | Some (_, MAbsent) => (ERR, w)
      | _ => (PANIC, w)
      end
  | BDecode k i =>                                               (* unmarshal.go:12-37; blob.go:13-44 *)
      match nth_error held i with
      | Some s =>
          match decode_into (stream_ops B) BBlob (mk (window mem s) EEOF) with
          | Ok (NBlob b) => give k (Sl (length mem) 0 (length b)) (W (mem ++ [new_array b]) cells bld held known)
          | Ok _ => (OK, w)
          | Err _ => (ERR, w)
          | Panic | OutOfFuel => (PANIC, w)
          end
      | None => (PANIC, w)
      end
  | BBuild k =>                                                  (* 120-125 *)
      match nth_error bld k with
      | Some (p, MValue) => (OK, W mem cells bld held (known ++ [p]))
      | _ => (PANIC, w)
      end
  end.

(** What Encode hands to the writer, in one call of Write (blob.go:52). *)
Definition written (c : bcall) (w : world) : option bytes :=
  match c with
  | BEncode i => match nth_error (w_known w) i with Some p => Some (content w p) | None => None end
  | _ => None
  end.

Fixpoint brun (cs : list bcall) (w : world) : world :=
  match cs with
  | [] => w
  | c :: r => brun r (snd (bstep c w))
  end.
End Steps.
