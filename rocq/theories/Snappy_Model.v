(** Model of util/compress.go:76-83: SnappyEncode and SnappyDecode.

    github.com/golang/snappy (Encode, Decode: encode.go, decode.go, encode_other.go, decode_other.go) is implemented from its published Go code; the assembler
    versions for amd64 and arm64 do the same.  A Go panic (an index out of range) is None.  Little-endian loads are sums instead of | of shifted bytes, which is the
    same because the bits are disjoint; ints do not wrap because every value stays below 2^33. *)
From stdpp Require Import gmap list.
From Coq Require Import ZArith.
From Verif Require Import GoInt.
Local Open Scope Z_scope.

(** The number in little-endian bytes (encoding/binary; util/compress.go:77,81). *)
Definition le (bs : list Z) : Z := foldr (fun b a => b + 256 * a) 0 bs.
(** load32 ([n] = 4) and load64 ([n] = 8) (snappy/encode_other.go; util/compress.go:77). *)
Definition load (n : nat) (b : list Z) (i : Z) : option Z :=
  if i <? 0 then None
  else let w := take n (drop (Z.to_nat i) b) in if (length w =? n)%nat then Some (le w) else None.
(** binary.PutUvarint (encoding/binary; util/compress.go:77). *)
Fixpoint PutUvarint (fuel : nat) (x : Z) : list Z :=
  match fuel with
  | O => []
  | S fuel => if x <? 128 then [u8 x] else Z.lor (u8 x) 128 :: PutUvarint fuel (Z.shiftr x 7)
  end.
(** emitLiteral (snappy/encode_other.go; util/compress.go:77). *)
Definition emitLiteral (lit : list Z) : list Z :=
  let n := Z.of_nat (length lit) - 1 in
  if n <? 60 then u8 (Z.shiftl (u8 n) 2) :: lit
  else if n <? 256 then 240 :: u8 n :: lit
  else 244 :: u8 n :: u8 (Z.shiftr n 8) :: lit.
(** emitCopy (snappy/encode_other.go; util/compress.go:77): the loop while length >= 68, then the rest. *)
Fixpoint emitCopy (fuel : nat) (offset length : Z) : list Z :=
  let lo := u8 offset in let hi := u8 (Z.shiftr offset 8) in
  let last l := if (12 <=? l) || (2048 <=? offset) then [Z.lor (u8 (Z.shiftl (u8 (l - 1)) 2)) 2; lo; hi]
                else [Z.lor (Z.lor (u8 (Z.shiftl hi 5)) (u8 (Z.shiftl (u8 (l - 4)) 2))) 1; lo] in
  match fuel with
  | S fuel =>
      if 68 <=? length then 254 :: lo :: hi :: emitCopy fuel offset (length - 64)
      else if 64 <? length then 238 :: lo :: hi :: last (length - 60)
      else last length
  | O => last length
  end.
(** hash (snappy/encode_other.go; util/compress.go:77). *)
Definition hash (u shift : Z) : Z := Z.shiftr (u32 (u * 506832829)) shift.
(** The loop that sets shift in encodeBlock (snappy/encode_other.go; util/compress.go:77). *)
Fixpoint shiftLoop (fuel : nat) (tableSize n shift : Z) : Z :=
  match fuel with
  | O => shift
  | S fuel => if (tableSize <? 16384) && (tableSize <? n) then shiftLoop fuel (tableSize * 2) n (shift - 1) else shift
  end.
(** The array table of encodeBlock; what is not in it is 0 (snappy/encode_other.go; util/compress.go:77). *)
Definition tbl : Type := gmap Z Z.
(** table[h & tableMask] (snappy/encode_other.go; util/compress.go:77). *)
Definition tget (t : tbl) (h : Z) : Z := default 0 (t !! Z.land h 16383).
(** table[h & tableMask] = uint16(s) (snappy/encode_other.go; util/compress.go:77). *)
Definition tset (t : tbl) (h s : Z) : tbl := <[Z.land h 16383 := s mod 65536]> t.
(** The search for a match in encodeBlock (snappy/encode_other.go; util/compress.go:77): Some None is goto emitRemainder; otherwise s, candidate, nextHash and table. *)
Fixpoint search (fuel : nat) (src : list Z) (shift sLimit skip s nextHash : Z) (table : tbl) : option (option (Z * Z * Z * tbl)) :=
  match fuel with
  | O => None
  | S fuel =>
      let between := Z.shiftr skip 5 in
      let nextS := s + between in
      if sLimit <? nextS then Some None
      else
        let candidate := tget table nextHash in
        let table := tset table nextHash s in
        match load 4 src nextS, load 4 src s, load 4 src candidate with
        | Some x, Some a, Some b =>
            if a =? b then Some (Some (s, candidate, hash x shift, table))
            else search fuel src shift sLimit (skip + between) nextS (hash x shift) table
        | _, _, _ => None
        end
  end.
(** How far the match goes on: for i := candidate + 4; s < len(src) && src[i] == src[s]; ... (snappy/encode_other.go; util/compress.go:77). *)
Fixpoint extend (a b : list Z) : nat :=
  match a, b with
  | x :: a, y :: b => if x =? y then S (extend a b) else O
  | _, _ => O
  end.
(** The loop that emits copies in encodeBlock (snappy/encode_other.go; util/compress.go:77): the output, nextEmit, and None for goto emitRemainder or s, nextHash and
    table. *)
Fixpoint copies (fuel : nat) (src : list Z) (shift sLimit s candidate : Z) (table : tbl) (d : list Z) : option (list Z * Z * option (Z * Z * tbl)) :=
  match fuel with
  | O => None
  | S fuel =>
      let base := s in
      let s := s + 4 + Z.of_nat (extend (drop (Z.to_nat (candidate + 4)) src) (drop (Z.to_nat (s + 4)) src)) in
      let d := d ++ emitCopy (Z.to_nat (s - base)) (base - candidate) (s - base) in
      if sLimit <=? s then Some (d, s, None)
      else
        match load 8 src (s - 1) with
        | Some x =>
            let table := tset table (hash (u32 x) shift) (s - 1) in
            let currHash := hash (u32 (Z.shiftr x 8)) shift in
            let candidate := tget table currHash in
            let table := tset table currHash s in
            match load 4 src candidate with
            | Some y =>
                if u32 (Z.shiftr x 8) =? y then copies fuel src shift sLimit s candidate table d
                else Some (d, s, Some (s + 1, hash (u32 (Z.shiftr x 16)) shift, table))
            | None => None
            end
        | None => None
        end
  end.
(** The slice src[a:b] (snappy/encode_other.go; util/compress.go:77). *)
Definition sub (src : list Z) (a b : Z) : list Z := take (Z.to_nat (b - a)) (drop (Z.to_nat a) src).
(** emitRemainder in encodeBlock (snappy/encode_other.go; util/compress.go:77). *)
Definition emitRemainder (src : list Z) (nextEmit : Z) (d : list Z) : list Z :=
  if nextEmit <? Z.of_nat (length src) then d ++ emitLiteral (drop (Z.to_nat nextEmit) src) else d.
(** The outer loop of encodeBlock (snappy/encode_other.go; util/compress.go:77). *)
Fixpoint mainLoop (fuel : nat) (src : list Z) (shift sLimit nextEmit s nextHash : Z) (table : tbl) (d : list Z) : option (list Z) :=
  match fuel with
  | O => None
  | S fuel =>
      match search (S (length src)) src shift sLimit 32 s nextHash table with
      | None => None
      | Some None => Some (emitRemainder src nextEmit d)
      | Some (Some (s, candidate, _, table)) =>
          match copies (S (length src)) src shift sLimit s candidate table (d ++ emitLiteral (sub src nextEmit s)) with
          | None => None
          | Some (d, nextEmit, None) => Some (emitRemainder src nextEmit d)
          | Some (d, nextEmit, Some (s, nextHash, table)) => mainLoop fuel src shift sLimit nextEmit s nextHash table d
          end
      end
  end.
(** encodeBlock (snappy/encode_other.go; util/compress.go:77). *)
Definition encodeBlock (src : list Z) : option (list Z) :=
  let shift := shiftLoop 16 256 (Z.of_nat (length src)) 24 in
  match load 4 src 1 with
  | Some x => mainLoop (S (length src)) src shift (Z.of_nat (length src) - 15) 0 1 (hash x shift) ∅ []
  | None => None
  end.
(** The loop over the blocks in Encode (snappy/encode.go; util/compress.go:77): 65536 bytes each. *)
Fixpoint blocks (fuel : nat) (src : list Z) : option (list Z) :=
  match fuel, src with
  | _, [] => Some []
  | O, _ => None
  | S fuel, _ =>
      let p := take (Z.to_nat 65536) src in
      match (if Z.of_nat (length p) <? 17 then Some (emitLiteral p) else encodeBlock p), blocks fuel (drop (Z.to_nat 65536) src) with
      | Some d, Some r => Some (d ++ r)
      | _, _ => None
      end
  end.
(** MaxEncodedLen (snappy/encode.go; util/compress.go:77); None is -1. *)
Definition MaxEncodedLen (n : Z) : option Z :=
  if 4294967295 <? n then None
  else if 4294967295 <? 32 + n + n / 6 then None
  else Some (32 + n + n / 6).
(** util/compress.go:76-78 [SnappyEncode], snappy.Encode of a nil destination: None is a panic (ErrTooLarge). *)
Definition SnappyEncode (src : list Z) : option (list Z) :=
  match MaxEncodedLen (Z.of_nat (length src)) with
  | None => None
  | Some _ => match blocks (S (length src)) src with Some d => Some (PutUvarint 10 (Z.of_nat (length src)) ++ d) | None => None end
  end.

(** binary.Uvarint (encoding/binary; util/compress.go:81): the value and the number of bytes, None when it is not positive. *)
Fixpoint Uvarint (buf : list Z) (i x s : Z) : option (Z * Z) :=
  match buf with
  | [] => None
  | b :: buf =>
      if i =? 10 then None
      else if b <? 128 then if (i =? 9) && (1 <? b) then None else Some (Z.lor x (u64 (Z.shiftl b s)), i + 1)
      else Uvarint buf (i + 1) (Z.lor x (u64 (Z.shiftl (Z.land b 127) s))) (s + 7)
  end.
(** decodedLen on a 64 bit machine (snappy/decode.go; util/compress.go:81). *)
Definition decodedLen (src : list Z) : option (Z * Z) :=
  match Uvarint src 0 0 0 with
  | Some (v, n) => if 4294967295 <? v then None else Some (v, n)
  | None => None
  end.
(** The copy of [length] bytes from [offset] bytes back, byte by byte (snappy/decode_other.go; util/compress.go:81).  Simplification: without an overlap Go uses copy, with the same result. *)
Fixpoint copyBack (n offset : nat) (dst : list Z) : list Z :=
  match n with
  | O => dst
  | S n => copyBack n offset (dst ++ [nth (length dst - offset) dst 0])
  end.
(** decode (snappy/decode_other.go; util/compress.go:81): [src] is what is left of the input, [dst] the bytes written so far of [dLen]; None is an error. *)
Fixpoint decode (fuel : nat) (dLen : Z) (src dst : list Z) : option (list Z) :=
  match fuel with
  | O => None
  | S fuel =>
      let d := Z.of_nat (length dst) in
      let literal x src :=
        let l := x + 1 in
        if (dLen - d <? l) || (Z.of_nat (length src) <? l) then None
        else decode fuel dLen (drop (Z.to_nat l) src) (dst ++ take (Z.to_nat l) src) in
      let copy l offset src :=
        if (offset <=? 0) || (d <? offset) || (dLen - d <? l) then None
        else decode fuel dLen src (copyBack (Z.to_nat l) (Z.to_nat offset) dst) in
      match src with
      | [] => if d =? dLen then Some dst else None
      | t :: src =>
          let tag := Z.land t 3 in
          if tag =? 0 then
            let x := Z.shiftr t 2 in
            if x <? 60 then literal x src
            else let n := Z.to_nat (x - 59) in
                 if (length src <? n)%nat then None else literal (le (take n src)) (drop n src)
          else if tag =? 1 then
            match src with
            | b :: src => copy (4 + Z.land (Z.shiftr t 2) 7) (Z.lor (Z.shiftl (Z.land t 224) 3) b) src
            | _ => None
            end
          else
            let n := if tag =? 2 then 2%nat else 4%nat in
            if (length src <? n)%nat then None else copy (1 + Z.shiftr t 2) (le (take n src)) (drop n src)
      end
  end.
(** snappy.Decode into a nil destination (snappy/decode.go; util/compress.go:81): None is an error. *)
Definition Decode (src : list Z) : option (list Z) :=
  match decodedLen src with
  | Some (dLen, s) => decode (S (length src)) dLen (drop (Z.to_nat s) src) []
  | None => None
  end.
(** util/compress.go:80-83 [SnappyDecode]: the error is dropped; nil is [], and so is what Decode gives for no bytes (dst[:0] of nil). *)
Definition SnappyDecode (src : list Z) : list Z := default [] (Decode src).
