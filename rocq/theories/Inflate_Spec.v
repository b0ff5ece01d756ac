(** The formats zlib (RFC 1950), deflate (RFC 1951) and gzip (RFC 1952), as relations between bytes and the data they stand for;
    nothing of the model is used but, for writers, the names of the stages at which a sink is looked at. *)
From stdpp Require Import list.
From Coq Require Import ZArith.
From Verif Require Crc_Spec Compress_Model.
Local Open Scope Z_scope.

Definition sum (l : list Z) : Z := fold_right Z.add 0 l.
(** A number in [k] bits, the lowest first (RFC 1951, 3.1.1). *)
Definition num (k : nat) (v : Z) : list bool := map (fun i => Z.testbit v (Z.of_nat i)) (seq 0 k).
(** The bits of some bytes, in the order of transmission. *)
Definition bits (bs : list Z) : list bool := flat_map (num 8) bs.
(** Bytes. *)
Definition bytes (bs : list Z) : Prop := Forall (fun b => 0 <= b < 256) bs.

(** ** Huffman codes (RFC 1951, 3.2.2), given by the lengths of the codes; length 0 is no code *)

Definition len (lens : list nat) (s : nat) : nat := nth s lens 0%nat.
(** Shorter codes come first, and among codes of the same length those of the lower symbols. *)
Definition before (lens : list nat) (t s : nat) : bool :=
  (0 <? len lens t)%nat && ((len lens t <? len lens s)%nat || ((len lens t =? len lens s)%nat && (t <? s)%nat)).
(** The code of [s], as a number: all the room (in units of codes of its length) taken by the codes that come before it. *)
Definition code (lens : list nat) (s : nat) : Z :=
  sum (map (fun t => if before lens t s then 2 ^ Z.of_nat (len lens s - len lens t) else 0) (seq 0 (length lens))).
(** The code of [s] in bits, the highest first. *)
Definition word (lens : list nat) (s : nat) (w : list bool) : Prop :=
  (0 < len lens s)%nat /\ w = rev (num (len lens s) (code lens s)).
(** The room all codes take, of 2^15. *)
Definition room (lens : list nat) : Z := sum (map (fun n => if (n =? 0)%nat then 0 else 2 ^ (15 - Z.of_nat n)) lens).
(** Lengths that make a code: up to 15, and either all room is taken, or there is just one code, of one bit, or none. *)
Definition usable (lens : list nat) : Prop :=
  Forall (fun n => (n <= 15)%nat) lens /\
  (room lens = 2 ^ 15 \/ (exists a b, lens = repeat 0%nat a ++ [1%nat] ++ repeat 0%nat b) \/ lens = repeat 0%nat (length lens)).

(** ** Compressed data (RFC 1951, 3.2.5) *)

(** Base and extra bits for the symbols from 257: a length ... *)
Definition lengths : list (Z * nat) :=
  combine [3; 4; 5; 6; 7; 8; 9; 10; 11; 13; 15; 17; 19; 23; 27; 31; 35; 43; 51; 59; 67; 83; 99; 115; 131; 163; 195; 227; 258]
          [0; 0; 0; 0; 0; 0; 0; 0; 1; 1; 1; 1; 2; 2; 2; 2; 3; 3; 3; 3; 4; 4; 4; 4; 5; 5; 5; 5; 0]%nat.
(** ... and for the symbols of the second code: a distance. *)
Definition distances : list (Z * nat) :=
  combine [1; 2; 3; 4; 5; 7; 9; 13; 17; 25; 33; 49; 65; 97; 129; 193; 257; 385; 513; 769; 1025; 1537; 2049; 3073; 4097; 6145; 8193; 12289; 16385; 24577]
          [0; 0; 0; 0; 1; 1; 2; 2; 3; 3; 4; 4; 5; 5; 6; 6; 7; 7; 8; 8; 9; 9; 10; 10; 11; 11; 12; 12; 13; 13]%nat.
(** [w] is a number of the table: the code of its row, and the extra bits. *)
Definition entry (lens : list nat) (first : nat) (table : list (Z * nat)) (w : list bool) (n : Z) : Prop :=
  exists i base k c e, nth_error table i = Some (base, k) /\ word lens (first + i) c /\ 0 <= e < 2 ^ Z.of_nat k /\
    w = c ++ num k e /\ n = base + e.
(** One byte, from [d] bytes back. *)
Definition again (d : Z) (out : list Z) : list Z := out ++ [nth (Z.to_nat (Z.of_nat (length out) - d)) out 0].
(** [symbols ll dl out w res]: the symbols in [w], up to and with the end of the block, turn the output [out] to [res]. *)
Inductive symbols (ll dl : list nat) : list Z -> list bool -> list Z -> Prop :=
| s_end out w : word ll 256 w -> symbols ll dl out w out
| s_literal out v w ws res : 0 <= v < 256 -> word ll (Z.to_nat v) w -> symbols ll dl (out ++ [v]) ws res -> symbols ll dl out (w ++ ws) res
| s_match out l d wl wd ws res : entry ll 257 lengths wl l -> entry dl 0 distances wd d ->
    1 <= d <= Z.of_nat (length out) -> d <= 32768 ->
    symbols ll dl (Nat.iter (Z.to_nat l) (again d) out) ws res -> symbols ll dl out (wl ++ wd ++ ws) res.

(** ** Blocks *)

(** The lengths of the fixed codes (RFC 1951, 3.2.6). *)
Definition fixed_ll : list nat := (repeat 8 144 ++ repeat 9 112 ++ repeat 7 24 ++ repeat 8 8)%nat.
Definition fixed_dl : list nat := repeat 5%nat 32.
(** The order of the lengths for the code of lengths (RFC 1951, 3.2.7). *)
Definition order : list nat := [16; 17; 18; 0; 8; 7; 9; 6; 10; 5; 11; 4; 12; 3; 13; 2; 14; 1; 15]%nat.
(** [runs cl acc w res]: the symbols in [w] extend the list of lengths [acc] to [res]. *)
Inductive runs (cl : list nat) : list nat -> list bool -> list nat -> Prop :=
| r_end acc : runs cl acc [] acc
| r_length acc n w ws res : (n < 16)%nat -> word cl n w -> runs cl (acc ++ [n]) ws res -> runs cl acc (w ++ ws) res
| r_again acc n e w ws res : 0 <= e < 4 -> word cl 16 w -> runs cl ((acc ++ [n]) ++ repeat n (3 + Z.to_nat e)) ws res ->
    runs cl (acc ++ [n]) (w ++ num 2 e ++ ws) res
| r_zeros acc e w ws res : 0 <= e < 8 -> word cl 17 w -> runs cl (acc ++ repeat 0%nat (3 + Z.to_nat e)) ws res ->
    runs cl acc (w ++ num 3 e ++ ws) res
| r_more_zeros acc e w ws res : 0 <= e < 128 -> word cl 18 w -> runs cl (acc ++ repeat 0%nat (11 + Z.to_nat e)) ws res ->
    runs cl acc (w ++ num 7 e ++ ws) res.
(** [w] describes the two codes of a block. *)
Definition described (w : list bool) (ll dl : list nat) : Prop :=
  exists hclen cls cl ws,
    257 <= Z.of_nat (length ll) <= 286 /\ 1 <= Z.of_nat (length dl) <= 30 /\ Z.of_nat (length cls) = hclen + 4 /\ 0 <= hclen < 16 /\
    Forall (fun n => (n < 8)%nat) cls /\ length cl = 19%nat /\
    (forall i, (i < 19)%nat -> len cl (nth i order 0%nat) = nth i cls 0%nat) /\
    usable cl /\ runs cl [] ws (ll ++ dl) /\ usable ll /\ usable dl /\
    w = num 5 (Z.of_nat (length ll) - 257) ++ num 5 (Z.of_nat (length dl) - 1) ++ num 4 hclen ++ flat_map (fun n => num 3 (Z.of_nat n)) cls ++ ws.
(** [block p out w res]: a block, from its two bits for the kind, the first of which is bit [p] of the stream. *)
Inductive block (p : nat) (out : list Z) : list bool -> list Z -> Prop :=
| b_stored pad x n : ((p + 2 + length pad) mod 8 = 0)%nat -> (length pad < 8)%nat -> Z.of_nat (length x) = n -> n < 65536 -> bytes x ->
    block p out (num 2 0 ++ pad ++ num 16 n ++ num 16 (65535 - n) ++ bits x) (out ++ x)
| b_fixed w res : symbols fixed_ll fixed_dl out w res -> block p out (num 2 1 ++ w) res
| b_dynamic ll dl h w res : described h ll dl -> symbols ll dl out w res -> block p out (num 2 2 ++ h ++ w) res.
(** [blocks p out w res]: blocks that are not the last, from bit [p] on. *)
Inductive blocks : nat -> list Z -> list bool -> list Z -> Prop :=
| bs_none p out : blocks p out [] out
| bs_more p out w mid ws res : block (S p) out w mid -> blocks (p + length (false :: w)) mid ws res -> blocks p out (false :: w ++ ws) res.
(** A whole stream: blocks and the last one. *)
Definition deflated (w : list bool) (x : list Z) : Prop :=
  exists ws mid wl, blocks 0 [] ws mid /\ block (S (length ws)) mid wl x /\ w = ws ++ true :: wl.
(** The same in bytes: the last byte is filled up. *)
Definition deflate (s x : list Z) : Prop := bytes s /\ exists w fill, bits s = w ++ fill /\ (length fill < 8)%nat /\ deflated w x.

(** ** zlib streams (RFC 1950) *)

(** Adler-32: the sum of the bytes plus 1, and the sum of these sums, modulo 65521. *)
Definition adler32 (x : list Z) : Z :=
  sum (map (fun k => 1 + sum (firstn k x)) (seq 1 (length x))) mod 65521 * 65536 + (1 + sum x) mod 65521.
(** A number in [k] bytes, the highest first. *)
Definition big (k : nat) (v : Z) : list Z := rev (Crc_Spec.le_bytes k v).
(** The two bytes in front: method 8, a window of up to 2^15 (that distances stay within it is not asked for), a multiple of 31; and with bit 5 of the second the checksum of the
    dictionary, here of the empty one. *)
Definition zheader (h : list Z) : Prop :=
  exists cinfo flg, 0 <= cinfo <= 7 /\ 0 <= flg < 256 /\ ((16 * cinfo + 8) * 256 + flg) mod 31 = 0 /\
    h = [16 * cinfo + 8; flg] ++ (if Z.testbit flg 5 then big 4 (adler32 []) else []).
Definition zlib (s x : list Z) : Prop :=
  exists h d, s = h ++ d ++ big 4 (adler32 x) /\ zheader h /\ deflate d x.

(** ** gzip files (RFC 1952) *)

(** CRC-32 (ISO 3309) as four bytes, and the length modulo 2^32. *)
Definition crc32 (x : list Z) (c : Z) : Prop := Crc_Spec.is_crc_w 32 Crc_Spec.ieee802_3 x c.
(** A string of up to 511 bytes (more are not accepted) that are not zero, and a zero. *)
Definition zstring (s : list Z) : Prop := exists t, s = t ++ [0] /\ (length t <= 511)%nat /\ Forall (fun b => b <> 0) t /\ bytes t.
(** A field of the header that is there if its flag is set. *)
Definition optional (flag : bool) (field : list Z -> Prop) (s : list Z) : Prop := if flag then field s else s = [].
(** The header: ten bytes, then the optional fields; the checksum of the header is the low half of its CRC-32. *)
Definition gheader (h : list Z) : Prop :=
  exists flg rest extra name comment hcrc,
    length rest = 6%nat /\ bytes (flg :: rest) /\
    optional (Z.testbit flg 2) (fun s => exists e, bytes e /\ Z.of_nat (length e) < 65536 /\ s = Crc_Spec.le_bytes 2 (Z.of_nat (length e)) ++ e) extra /\
    optional (Z.testbit flg 3) zstring name /\ optional (Z.testbit flg 4) zstring comment /\
    optional (Z.testbit flg 1) (fun s => exists c, crc32 (([31; 139; 8; flg] ++ rest) ++ extra ++ name ++ comment) c /\ s = Crc_Spec.le_bytes 2 c) hcrc /\
    h = ([31; 139; 8; flg] ++ rest) ++ extra ++ name ++ comment ++ hcrc.
(** A member: header, data, checksum and length. *)
Definition member (s x : list Z) : Prop :=
  exists h d c, s = h ++ d ++ Crc_Spec.le_bytes 4 c ++ Crc_Spec.le_bytes 4 (Z.of_nat (length x)) /\ gheader h /\ deflate d x /\ crc32 x c.
(** A file: members one behind the other. *)
Inductive gzip : list Z -> list Z -> Prop :=
| g_one s x : member s x -> gzip s x
| g_more s x ss xs : member s x -> gzip ss xs -> gzip (s ++ ss) (x ++ xs).

(** ** Writers *)

(** What a writer of such streams has put into its sink: after Close a whole stream; after Flush the header and whole blocks for
    all data; before that the header and a beginning of blocks for a part of the data, which is kept back in part. *)
Record emits (header : list Z -> Prop) (whole : list Z -> list Z -> Prop) (out : Z -> list Z -> Compress_Model.stage -> list Z) : Prop := {
  em_closed : forall lv x st, bytes x -> st = Compress_Model.Closed \/ st = Compress_Model.FlushedClosed -> whole (out lv x st) x;
  em_flushed : forall lv x, bytes x -> exists h s, out lv x Compress_Model.Flushed = h ++ s /\ header h /\ bytes s /\ blocks 0 [] (bits s) x;
  em_written : forall lv x, bytes x -> exists h s w y, out lv x Compress_Model.Written = h ++ s /\ header h /\ bytes s /\
    bits s `prefix_of` w /\ blocks 0 [] w y /\ y `prefix_of` x /\ (x <> [] -> y <> x)
}.
