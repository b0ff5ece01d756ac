(** Model of util.Blake2b (util/encode.go:155-163): BLAKE2b-256 without a key, as published (RFC 7693).  The package
    golang.org/x/crypto/blake2b is not part of /repo; these definitions stand for New256(nil), Write and Sum.  MD5 and SHA1
    (util/encode.go:39-57) are in Hash_Model and Util_Model. *)
From stdpp Require Import list.
From Coq Require Import ZArith.
From Verif Require Import GoInt Hash_Model.
Local Open Scope Z_scope.

(** Rotation of a 64-bit word to the right (RFC 7693 section 2.3; util/encode.go:160). *)
Definition rotr64 (x n : Z) : Z := u64 (Z.lor (Z.shiftr x n) (Z.shiftl x (64 - n))).
(** The initialization vector (RFC 7693 section 2.6; util/encode.go:156). *)
Definition b2_iv : list Z :=
  [7640891576956012808; 13503953896175478587; 4354685564936845355; 11912009170470909681;
   5840696475078001361; 11170449401992604703; 2270897969802886507; 6620516959819538809].
(** The message schedule (RFC 7693 section 2.7), rounds 0 to 9; rounds 10 and 11 repeat 0 and 1 (util/encode.go:160). *)
Definition b2_sigma : list (list nat) :=
  [[0; 1; 2; 3; 4; 5; 6; 7; 8; 9; 10; 11; 12; 13; 14; 15]; [14; 10; 4; 8; 9; 15; 13; 6; 1; 12; 0; 2; 11; 7; 5; 3];
   [11; 8; 12; 0; 5; 2; 15; 13; 10; 14; 3; 6; 7; 1; 9; 4]; [7; 9; 3; 1; 13; 12; 11; 14; 2; 6; 5; 10; 4; 0; 15; 8];
   [9; 0; 5; 7; 2; 4; 10; 15; 14; 1; 11; 12; 6; 8; 3; 13]; [2; 12; 6; 10; 0; 11; 8; 3; 4; 13; 7; 5; 15; 14; 1; 9];
   [12; 5; 1; 15; 14; 13; 4; 10; 0; 7; 6; 3; 9; 2; 8; 11]; [13; 11; 7; 14; 12; 1; 3; 9; 5; 0; 15; 4; 8; 6; 2; 10];
   [6; 15; 14; 9; 11; 3; 0; 8; 12; 2; 13; 7; 1; 4; 10; 5]; [10; 2; 8; 4; 7; 6; 1; 5; 15; 11; 9; 14; 3; 12; 13; 0]]%nat.
(** The mixing function G (RFC 7693 section 3.1; util/encode.go:160). *)
Definition b2_G (v : list Z) (abcd : nat * nat * nat * nat) (x y : Z) : list Z :=
  let '(a, b, c, d) := abcd in
  let at_ i w := nth i w 0 in
  let v := <[a := u64 (at_ a v + at_ b v + x)]> v in
  let v := <[d := rotr64 (Z.lxor (at_ d v) (at_ a v)) 32]> v in
  let v := <[c := u64 (at_ c v + at_ d v)]> v in
  let v := <[b := rotr64 (Z.lxor (at_ b v) (at_ c v)) 24]> v in
  let v := <[a := u64 (at_ a v + at_ b v + y)]> v in
  let v := <[d := rotr64 (Z.lxor (at_ d v) (at_ a v)) 16]> v in
  let v := <[c := u64 (at_ c v + at_ d v)]> v in
  <[b := rotr64 (Z.lxor (at_ b v) (at_ c v)) 63]> v.
(** The eight calls of G in a round (RFC 7693 section 3.2; util/encode.go:160). *)
Definition b2_lanes : list (nat * nat * nat * nat) :=
  [(0, 4, 8, 12); (1, 5, 9, 13); (2, 6, 10, 14); (3, 7, 11, 15); (0, 5, 10, 15); (1, 6, 11, 12); (2, 7, 8, 13); (3, 4, 9, 14)]%nat.
(** One round (RFC 7693 section 3.2; util/encode.go:160). *)
Definition b2_round (m : list Z) (v : list Z) (i : nat) : list Z :=
  let s := nth (i mod 10) b2_sigma [] in
  fold_left (fun v (j : nat) => b2_G v (nth j b2_lanes (0, 0, 0, 0)%nat) (nth (nth (2 * j) s 0%nat) m 0) (nth (nth (2 * j + 1) s 0%nat) m 0))
    (seq 0 8) v.
(** The compression function F on a block of 128 bytes; [t] bytes so far, [fin] on the last block (RFC 7693 section 3.2;
    util/encode.go:160-162). *)
Definition b2_F (h : list Z) (blk : list Z) (t : Z) (fin : bool) : list Z :=
  let m := map le_val (pieces 16 8 blk) in
  let v := h ++ b2_iv in
  let v := <[12%nat := Z.lxor (nth 12 v 0) (u64 t)]> v in
  let v := <[13%nat := Z.lxor (nth 13 v 0) (u64 (Z.shiftr t 64))]> v in
  let v := if fin then <[14%nat := Z.lxor (nth 14 v 0) 18446744073709551615]> v else v in
  let v := fold_left (b2_round m) (seq 0 12) v in
  map (fun i => Z.lxor (nth i h 0) (Z.lxor (nth i v 0) (nth (i + 8) v 0))) (seq 0 8).
(** The parameter block for a digest of 32 bytes and no key is xored into the first word (RFC 7693 section 3.3;
    util/encode.go:156). *)
Definition b2_init : list Z := <[0%nat := Z.lxor (nth 0 b2_iv 0) 16842784]> b2_iv.
(** All blocks: the last one, which may be short and is empty only for the empty input, is filled up with zeros and marked
    (RFC 7693 section 3.3; util/encode.go:160-162).  [fuel]: one step per block. *)
Fixpoint b2_loop (fuel : nat) (h : list Z) (t : Z) (m : list Z) : list Z :=
  match fuel with
  | O => h
  | S fuel =>
      if (length m <=? 128)%nat then b2_F h (m ++ repeat 0 (128 - length m)) (t + Z.of_nat (length m)) true
      else b2_loop fuel (b2_F h (firstn 128 m) (t + 128) false) (t + 128) (skipn 128 m)
  end.
(** util/encode.go:155-163 [Blake2b]: the digest and whether the error is non-nil; New256 fails only for a key that is too
    long, and the key is nil.  The call of Sum256 (161) has no effect. *)
Definition Blake2b (input : list Z) : list Z * bool :=
  (flat_map (le_bytes 8) (firstn 4 (b2_loop (S (length input)) b2_init 0 input)), false).

(** Checked against another implementation: the empty input, "abc", one full block, and one byte more. *)
Example blake2b_vectors :
  (Blake2b []).1 = [14; 87; 81; 192; 38; 229; 67; 178; 232; 171; 46; 176; 96; 153; 218; 161; 209; 229; 223; 71; 119; 143; 119; 135; 250; 171; 69; 205; 241; 47; 227; 168] /\
  (Blake2b [97; 98; 99]).1 = [189; 221; 129; 60; 99; 66; 57; 114; 49; 113; 239; 63; 238; 152; 87; 155; 148; 150; 78; 59; 177; 203; 62; 66; 114; 98; 200; 192; 104; 213; 35; 25] /\
  (Blake2b (map Z.of_nat (seq 0 128))).1 = [195; 88; 47; 113; 235; 178; 190; 102; 250; 93; 215; 80; 248; 11; 170; 233; 117; 84; 243; 176; 21; 102; 60; 139; 227; 119; 207; 203; 36; 136; 193; 209] /\
  (Blake2b (map Z.of_nat (seq 0 129))).1 = [247; 243; 196; 107; 162; 86; 79; 244; 196; 193; 98; 218; 31; 91; 96; 95; 159; 28; 74; 166; 162; 6; 82; 169; 249; 163; 55; 193; 162; 245; 185; 201].
Proof. vm_compute. auto. Qed.
