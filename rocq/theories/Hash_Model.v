(** MD5, SHA-1 and SHA-256 as published (RFC 1321, FIPS 180-4), on byte strings.  The Go packages crypto/md5, crypto/sha1 and
    crypto/sha256 are not part of /repo; these definitions stand for their Sum, as used by keystore/aes.go:60-73 and
    util/encode.go:39-57. *)
From Coq Require Import ZArith List.
From Verif Require Import GoInt.
Import ListNotations.
Local Open Scope Z_scope.

(** Rotation of a 32-bit word (RFC 1321 section 2; used through keystore/aes.go:62). *)
Definition rotl (x n : Z) : Z := u32 (Z.lor (Z.shiftl x n) (Z.shiftr x (32 - n))).
(** Rotation to the right (FIPS 180-4 section 3.2; keystore/aes.go:68). *)
Definition rotr (x n : Z) : Z := rotl x (32 - n).
(** Bitwise complement of a 32-bit word (RFC 1321 section 2; keystore/aes.go:62). *)
Definition not32 (x : Z) : Z := Z.lxor x 4294967295.
(** [w] bytes of [n], least significant first (RFC 1321 section 2; keystore/aes.go:62). *)
Fixpoint le_bytes (w : nat) (n : Z) : list Z := match w with O => [] | S w => u8 n :: le_bytes w (Z.shiftr n 8) end.
(** The number of little-endian bytes (RFC 1321 section 2; keystore/aes.go:62). *)
Fixpoint le_val (bs : list Z) : Z := match bs with [] => 0 | b :: bs => b + 256 * le_val bs end.
(** Big-endian versions (FIPS 180-4 section 3.1; keystore/aes.go:68). *)
Definition be_bytes (w : nat) (n : Z) : list Z := rev (le_bytes w n).
(** See [be_bytes] (FIPS 180-4 section 3.1; keystore/aes.go:68). *)
Definition be_val (bs : list Z) : Z := le_val (rev bs).
(** Lists cut into pieces of [k], as often as they come out whole; the padded message has no rest (RFC 1321 section 3.4; keystore/aes.go:62). *)
Fixpoint pieces (n k : nat) (l : list Z) : list (list Z) := match n with O => [] | S n => firstn k l :: pieces n k (skipn k l) end.
(** 0x80, zeros, and the length in bits on 8 bytes, up to a multiple of 64 (RFC 1321 sections 3.1-3.2; FIPS 180-4 section 5.1.1; keystore/aes.go:62). *)
Definition padded (len8 : list Z) (m : list Z) : list Z :=
  m ++ [128] ++ repeat 0 (Z.to_nat ((55 - Z.of_nat (length m)) mod 64)) ++ len8.
(** The blocks of a padded message (RFC 1321 section 3.4; keystore/aes.go:62). *)
Definition blocks (p : list Z) : list (list Z) := pieces (length p / 64) 64 p.

(** RFC 1321 section 3.4: the table T and the shifts (keystore/aes.go:62). *)
Definition md5_K : list Z :=
  [3614090360; 3905402710; 606105819; 3250441966; 4118548399; 1200080426; 2821735955; 4249261313; 1770035416; 2336552879;
   4294925233; 2304563134; 1804603682; 4254626195; 2792965006; 1236535329; 4129170786; 3225465664; 643717713; 3921069994;
   3593408605; 38016083; 3634488961; 3889429448; 568446438; 3275163606; 4107603335; 1163531501; 2850285829; 4243563512;
   1735328473; 2368359562; 4294588738; 2272392833; 1839030562; 4259657740; 2763975236; 1272893353; 4139469664; 3200236656;
   681279174; 3936430074; 3572445317; 76029189; 3654602809; 3873151461; 530742520; 3299628645; 4096336452; 1126891415;
   2878612391; 4237533241; 1700485571; 2399980690; 4293915773; 2240044497; 1873313359; 4264355552; 2734768916; 1309151649;
   4149444226; 3174756917; 718787259; 3951481745].
(** RFC 1321 section 3.4 (keystore/aes.go:62). *)
Definition md5_S : list Z := [7; 12; 17; 22; 7; 12; 17; 22; 7; 12; 17; 22; 7; 12; 17; 22; 5; 9; 14; 20; 5; 9; 14; 20; 5; 9; 14; 20; 5; 9; 14; 20;
   4; 11; 16; 23; 4; 11; 16; 23; 4; 11; 16; 23; 4; 11; 16; 23; 6; 10; 15; 21; 6; 10; 15; 21; 6; 10; 15; 21; 6; 10; 15; 21].
(** One of the 64 operations (RFC 1321 section 3.4; keystore/aes.go:62). *)
Definition md5_op (M : list Z) (s : Z * Z * Z * Z) (i : nat) : Z * Z * Z * Z :=
  let '(a, b, c, d) := s in
  let '(f, g) :=
    if (i <? 16)%nat then (Z.lor (Z.land b c) (Z.land (not32 b) d), i)
    else if (i <? 32)%nat then (Z.lor (Z.land d b) (Z.land (not32 d) c), (5 * i + 1) mod 16)%nat
    else if (i <? 48)%nat then (Z.lxor b (Z.lxor c d), (3 * i + 5) mod 16)%nat
    else (Z.lxor c (Z.lor b (not32 d)), (7 * i) mod 16)%nat in
  let f := u32 (f + a + nth i md5_K 0 + nth g M 0) in
  (d, u32 (b + rotl f (nth i md5_S 0)), b, c).
(** One block (RFC 1321 section 3.4; keystore/aes.go:62). *)
Definition md5_block (s : Z * Z * Z * Z) (blk : list Z) : Z * Z * Z * Z :=
  let M := map le_val (pieces 16 4 blk) in
  let '(a0, b0, c0, d0) := s in
  let '(a, b, c, d) := fold_left (md5_op M) (seq 0 64) s in
  (u32 (a0 + a), u32 (b0 + b), u32 (c0 + c), u32 (d0 + d)).
(** The digest (RFC 1321; keystore/aes.go:60-64, util/encode.go:39-43). *)
Definition md5 (m : list Z) : list Z :=
  let p := padded (le_bytes 8 (8 * Z.of_nat (length m))) m in
  let '(a, b, c, d) := fold_left md5_block (blocks p) (1732584193, 4023233417, 2562383102, 271733878) in
  le_bytes 4 a ++ le_bytes 4 b ++ le_bytes 4 c ++ le_bytes 4 d.

(** The message schedule, [n] words to go; the last 16 words, latest first (FIPS 180-4 sections 6.1.2 and 6.2.2; keystore/aes.go:68). *)
Fixpoint schedule (next : list Z -> Z) (n : nat) (w : list Z) : list Z :=
  match n with O => rev w | S n => schedule next n (next w :: w) end.

(** FIPS 180-4 section 4.1.1 and 4.2.1, SHA-1 (util/encode.go:48-57). *)
Definition sha1_next (w : list Z) : Z := rotl (Z.lxor (nth 2 w 0) (Z.lxor (nth 7 w 0) (Z.lxor (nth 13 w 0) (nth 15 w 0)))) 1.
(** FIPS 180-4 section 6.1.2 (util/encode.go:48-57). *)
Definition sha1_op (s : Z * Z * Z * Z * Z) (iw : nat * Z) : Z * Z * Z * Z * Z :=
  let '(a, b, c, d, e) := s in
  let '(i, w) := iw in
  let '(f, k) :=
    if (i <? 20)%nat then (Z.lxor (Z.land b c) (Z.land (not32 b) d), 1518500249)
    else if (i <? 40)%nat then (Z.lxor b (Z.lxor c d), 1859775393)
    else if (i <? 60)%nat then (Z.lxor (Z.land b c) (Z.lxor (Z.land b d) (Z.land c d)), 2400959708)
    else (Z.lxor b (Z.lxor c d), 3395469782) in
  (u32 (rotl a 5 + f + e + k + w), a, rotl b 30, c, d).
(** FIPS 180-4 section 6.1.2 (util/encode.go:48-57). *)
Definition sha1_block (s : Z * Z * Z * Z * Z) (blk : list Z) : Z * Z * Z * Z * Z :=
  let W := schedule sha1_next 64 (rev (map be_val (pieces 16 4 blk))) in
  let '(a0, b0, c0, d0, e0) := s in
  let '(a, b, c, d, e) := fold_left sha1_op (combine (seq 0 80) W) s in
  (u32 (a0 + a), u32 (b0 + b), u32 (c0 + c), u32 (d0 + d), u32 (e0 + e)).
(** The digest (FIPS 180-4; util/encode.go:48-57). *)
Definition sha1 (m : list Z) : list Z :=
  let p := padded (be_bytes 8 (8 * Z.of_nat (length m))) m in
  let '(a, b, c, d, e) := fold_left sha1_block (blocks p) (1732584193, 4023233417, 2562383102, 271733878, 3285377520) in
  be_bytes 4 a ++ be_bytes 4 b ++ be_bytes 4 c ++ be_bytes 4 d ++ be_bytes 4 e.

(** FIPS 180-4 section 4.2.2 (keystore/aes.go:66-70). *)
Definition sha256_K : list Z :=
  [1116352408; 1899447441; 3049323471; 3921009573; 961987163; 1508970993; 2453635748; 2870763221; 3624381080; 310598401;
   607225278; 1426881987; 1925078388; 2162078206; 2614888103; 3248222580; 3835390401; 4022224774; 264347078; 604807628;
   770255983; 1249150122; 1555081692; 1996064986; 2554220882; 2821834349; 2952996808; 3210313671; 3336571891; 3584528711;
   113926993; 338241895; 666307205; 773529912; 1294757372; 1396182291; 1695183700; 1986661051; 2177026350; 2456956037;
   2730485921; 2820302411; 3259730800; 3345764771; 3516065817; 3600352804; 4094571909; 275423344; 430227734; 506948616;
   659060556; 883997877; 958139571; 1322822218; 1537002063; 1747873779; 1955562222; 2024104815; 2227730452; 2361852424;
   2428436474; 2756734187; 3204031479; 3329325298].
(** FIPS 180-4 section 6.2.2 step 1 (keystore/aes.go:66-70). *)
Definition sha256_next (w : list Z) : Z :=
  let x := nth 1 w 0 in let y := nth 14 w 0 in
  u32 (Z.lxor (rotr x 17) (Z.lxor (rotr x 19) (Z.shiftr x 10)) + nth 6 w 0 + Z.lxor (rotr y 7) (Z.lxor (rotr y 18) (Z.shiftr y 3)) + nth 15 w 0).
(** FIPS 180-4 section 6.2.2 step 3 (keystore/aes.go:66-70).  The state is a, b, c, d, e, f, g, h. *)
Definition sha256_op (s : list Z) (kw : Z * Z) : list Z :=
  let a := nth 0 s 0 in let b := nth 1 s 0 in let c := nth 2 s 0 in let d := nth 3 s 0 in
  let e := nth 4 s 0 in let f := nth 5 s 0 in let g := nth 6 s 0 in let h := nth 7 s 0 in
  let t1 := h + Z.lxor (rotr e 6) (Z.lxor (rotr e 11) (rotr e 25)) + Z.lxor (Z.land e f) (Z.land (not32 e) g) + fst kw + snd kw in
  let t2 := Z.lxor (rotr a 2) (Z.lxor (rotr a 13) (rotr a 22)) + Z.lxor (Z.land a b) (Z.lxor (Z.land a c) (Z.land b c)) in
  [u32 (t1 + t2); a; b; c; u32 (d + t1); e; f; g].
(** FIPS 180-4 section 6.2.2 (keystore/aes.go:66-70). *)
Definition sha256_block (s : list Z) (blk : list Z) : list Z :=
  let W := schedule sha256_next 48 (rev (map be_val (pieces 16 4 blk))) in
  map (fun xy => u32 (fst xy + snd xy)) (combine s (fold_left sha256_op (combine sha256_K W) s)).
(** The digest (FIPS 180-4; keystore/aes.go:66-70). *)
Definition sha256 (m : list Z) : list Z :=
  let p := padded (be_bytes 8 (8 * Z.of_nat (length m))) m in
  flat_map (be_bytes 4) (fold_left sha256_block (blocks p) [1779033703; 3144134277; 1013904242; 2773480762; 1359893119; 2600822924; 528734635; 1541459225]).

(** Published test vectors for md5: the empty string, "abc", and a message of more than one block. *)
Example md5_vectors : md5 [] = [212; 29; 140; 217; 143; 0; 178; 4; 233; 128; 9; 152; 236; 248; 66; 126] /\
  md5 [97; 98; 99] = [144; 1; 80; 152; 60; 210; 79; 176; 214; 150; 63; 125; 40; 225; 127; 114] /\
  md5 (flat_map (fun _ => [49; 50; 51; 52; 53; 54; 55; 56; 57; 48]) (seq 0 8)) = [87; 237; 244; 162; 43; 227; 201; 85; 172; 73; 218; 46; 33; 7; 182; 122].
Proof. vm_compute. auto. Qed.
(** Published test vectors for sha1: the empty string, "abc", and a message of more than one block. *)
Example sha1_vectors : sha1 [] = [218; 57; 163; 238; 94; 107; 75; 13; 50; 85; 191; 239; 149; 96; 24; 144; 175; 216; 7; 9] /\
  sha1 [97; 98; 99] = [169; 153; 62; 54; 71; 6; 129; 106; 186; 62; 37; 113; 120; 80; 194; 108; 156; 208; 216; 157] /\
  sha1 (flat_map (fun _ => [49; 50; 51; 52; 53; 54; 55; 56; 57; 48]) (seq 0 8)) = [80; 171; 245; 112; 106; 21; 9; 144; 160; 139; 44; 94; 164; 15; 160; 229; 133; 85; 71; 50].
Proof. vm_compute. auto. Qed.
(** Published test vectors for sha256: the empty string, "abc", and a message of more than one block. *)
Example sha256_vectors : sha256 [] = [227; 176; 196; 66; 152; 252; 28; 20; 154; 251; 244; 200; 153; 111; 185; 36; 39; 174; 65; 228; 100; 155; 147; 76; 164; 149; 153; 27; 120; 82; 184; 85] /\
  sha256 [97; 98; 99] = [186; 120; 22; 191; 143; 1; 207; 234; 65; 65; 64; 222; 93; 174; 34; 35; 176; 3; 97; 163; 150; 23; 122; 156; 180; 16; 255; 97; 242; 0; 21; 173] /\
  sha256 (flat_map (fun _ => [49; 50; 51; 52; 53; 54; 55; 56; 57; 48]) (seq 0 8)) = [243; 113; 188; 74; 49; 31; 43; 0; 158; 239; 149; 45; 216; 60; 168; 14; 43; 96; 2; 108; 142; 147; 85; 146; 208; 249; 195; 8; 69; 60; 129; 62].
Proof. vm_compute. auto. Qed.
