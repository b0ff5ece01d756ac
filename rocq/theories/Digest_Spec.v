(** What is claimed of MD5, SHA1, Md5Str, Sha1Str and Blake2b. *)
From stdpp Require Import list.
From Coq Require Import ZArith.
From Verif Require Import GoInt Hash_Model Digest_Model.
Local Open Scope Z_scope.

(** Words of 32 and 64 bits. *)
Definition is_u32 (x : Z) : Prop := 0 <= x < 2 ^ 32.
Definition is_u64 (x : Z) : Prop := 0 <= x < 2 ^ 64.

(** Two different inputs of a compression function with one output; inputs are in range. *)
Definition md5_compression_collision : Prop :=
  exists a b c d blk a' b' c' d' blk',
    Forall is_u32 [a; b; c; d] /\ Forall is_u32 [a'; b'; c'; d'] /\ is_bytes blk /\ is_bytes blk' /\
    length blk = 64%nat /\ length blk' = 64%nat /\
    (a, b, c, d, blk) <> (a', b', c', d', blk') /\ md5_block (a, b, c, d) blk = md5_block (a', b', c', d') blk'.
Definition sha1_compression_collision : Prop :=
  exists a b c d e blk a' b' c' d' e' blk',
    Forall is_u32 [a; b; c; d; e] /\ Forall is_u32 [a'; b'; c'; d'; e'] /\ is_bytes blk /\ is_bytes blk' /\
    length blk = 64%nat /\ length blk' = 64%nat /\
    (a, b, c, d, e, blk) <> (a', b', c', d', e', blk') /\ sha1_block (a, b, c, d, e) blk = sha1_block (a', b', c', d', e') blk'.
(** For BLAKE2b the digest is the first half of the last output, so only that half collides. *)
Definition blake2b_compression_collision : Prop :=
  exists h blk t fin h' blk' t' fin',
    length h = 8%nat /\ length h' = 8%nat /\ Forall is_u64 h /\ Forall is_u64 h' /\ is_bytes blk /\ is_bytes blk' /\ length blk = 128%nat /\ length blk' = 128%nat /\
    0 <= t < 2 ^ 63 /\ 0 <= t' < 2 ^ 63 /\
    (h, blk, t, fin) <> (h', blk', t', fin') /\ firstn 4 (b2_F h blk t fin) = firstn 4 (b2_F h' blk' t' fin').

(** What follows a message of [n] bytes in the padded message: one bit, the fewest zeros, and the length. *)
Definition tail_md5 (n : nat) : list Z := 128 :: repeat 0 (Z.to_nat ((55 - Z.of_nat n) mod 64)) ++ le_bytes 8 (8 * Z.of_nat n).
Definition tail_sha1 (n : nat) : list Z := 128 :: repeat 0 (Z.to_nat ((55 - Z.of_nat n) mod 64)) ++ be_bytes 8 (8 * Z.of_nat n).

(** Blocks of 64 bytes hashed on from a digest, made without anything else. *)
Definition md5_from (digest rest : list Z) : list Z :=
  let w i := le_val (firstn 4 (skipn (4 * i) digest)) in
  let '(a, b, c, d) := fold_left md5_block (blocks rest) (w 0%nat, w 1%nat, w 2%nat, w 3%nat) in
  le_bytes 4 a ++ le_bytes 4 b ++ le_bytes 4 c ++ le_bytes 4 d.
Definition sha1_from (digest rest : list Z) : list Z :=
  let w i := be_val (firstn 4 (skipn (4 * i) digest)) in
  let '(a, b, c, d, e) := fold_left sha1_block (blocks rest) (w 0%nat, w 1%nat, w 2%nat, w 3%nat, w 4%nat) in
  be_bytes 4 a ++ be_bytes 4 b ++ be_bytes 4 c ++ be_bytes 4 d ++ be_bytes 4 e.

(** Two strings of 128 bytes with one MD5 digest (X. Wang, H. Yu, How to Break MD5 and Other Hash Functions, 2005). *)
Definition wang1 : list Z :=
  [209; 49; 221; 2; 197; 230; 238; 196; 105; 61; 154; 6; 152; 175; 249; 92; 47; 202; 181; 135; 18; 70; 126; 171; 64; 4; 88;
   62; 184; 251; 127; 137; 85; 173; 52; 6; 9; 244; 179; 2; 131; 228; 136; 131; 37; 113; 65; 90; 8; 81; 37; 232; 247; 205;
   201; 159; 217; 29; 189; 242; 128; 55; 60; 91; 216; 130; 62; 49; 86; 52; 143; 91; 174; 109; 172; 212; 54; 201; 25; 198;
   221; 83; 226; 180; 135; 218; 3; 253; 2; 57; 99; 6; 210; 72; 205; 160; 233; 159; 51; 66; 15; 87; 126; 232; 206; 84; 182;
   112; 128; 168; 13; 30; 198; 152; 33; 188; 182; 168; 131; 147; 150; 249; 101; 43; 111; 247; 42; 112].
(** See [wang1]. *)
Definition wang2 : list Z :=
  [209; 49; 221; 2; 197; 230; 238; 196; 105; 61; 154; 6; 152; 175; 249; 92; 47; 202; 181; 7; 18; 70; 126; 171; 64; 4; 88;
   62; 184; 251; 127; 137; 85; 173; 52; 6; 9; 244; 179; 2; 131; 228; 136; 131; 37; 241; 65; 90; 8; 81; 37; 232; 247; 205;
   201; 159; 217; 29; 189; 114; 128; 55; 60; 91; 216; 130; 62; 49; 86; 52; 143; 91; 174; 109; 172; 212; 54; 201; 25; 198;
   221; 83; 226; 52; 135; 218; 3; 253; 2; 57; 99; 6; 210; 72; 205; 160; 233; 159; 51; 66; 15; 87; 126; 232; 206; 84; 182;
   112; 128; 40; 13; 30; 198; 152; 33; 188; 182; 168; 131; 147; 150; 249; 101; 171; 111; 247; 42; 112].
(** The common start of the two files of M. Stevens and others, The First Collision for Full SHA-1, 2017. *)
Definition shat0 : list Z :=
  [37; 80; 68; 70; 45; 49; 46; 51; 10; 37; 226; 227; 207; 211; 10; 10; 10; 49; 32; 48; 32; 111; 98; 106; 10; 60; 60; 47;
   87; 105; 100; 116; 104; 32; 50; 32; 48; 32; 82; 47; 72; 101; 105; 103; 104; 116; 32; 51; 32; 48; 32; 82; 47; 84; 121;
   112; 101; 32; 52; 32; 48; 32; 82; 47; 83; 117; 98; 116; 121; 112; 101; 32; 53; 32; 48; 32; 82; 47; 70; 105; 108; 116;
   101; 114; 32; 54; 32; 48; 32; 82; 47; 67; 111; 108; 111; 114; 83; 112; 97; 99; 101; 32; 55; 32; 48; 32; 82; 47; 76; 101;
   110; 103; 116; 104; 32; 56; 32; 48; 32; 82; 47; 66; 105; 116; 115; 80; 101; 114; 67; 111; 109; 112; 111; 110; 101; 110;
   116; 32; 56; 62; 62; 10; 115; 116; 114; 101; 97; 109; 10; 255; 216; 255; 254; 0; 36; 83; 72; 65; 45; 49; 32; 105; 115;
   32; 100; 101; 97; 100; 33; 33; 33; 33; 33; 133; 47; 236; 9; 35; 57; 117; 156; 57; 177; 161; 198; 60; 76; 151; 225; 255;
   254; 1].
(** Two continuations of [shat0] with one SHA-1 digest. *)
Definition shat1 : list Z :=
  [127; 70; 220; 147; 166; 182; 126; 1; 59; 2; 154; 170; 29; 178; 86; 11; 69; 202; 103; 214; 136; 199; 248; 75; 140; 76;
   121; 31; 224; 43; 61; 246; 20; 248; 109; 177; 105; 9; 1; 197; 107; 69; 193; 83; 10; 254; 223; 183; 96; 56; 233; 114;
   114; 47; 231; 173; 114; 143; 14; 73; 4; 224; 70; 194; 48; 87; 15; 233; 212; 19; 152; 171; 225; 46; 245; 188; 148; 43;
   227; 53; 66; 164; 128; 45; 152; 181; 215; 15; 42; 51; 46; 195; 127; 172; 53; 20; 231; 77; 220; 15; 44; 193; 168; 116;
   205; 12; 120; 48; 90; 33; 86; 100; 97; 48; 151; 137; 96; 107; 208; 191; 63; 152; 205; 168; 4; 70; 41; 161].
(** See [shat1]. *)
Definition shat2 : list Z :=
  [115; 70; 220; 145; 102; 182; 126; 17; 143; 2; 154; 182; 33; 178; 86; 15; 249; 202; 103; 204; 168; 199; 248; 91; 168; 76;
   121; 3; 12; 43; 61; 226; 24; 248; 109; 179; 169; 9; 1; 213; 223; 69; 193; 79; 38; 254; 223; 179; 220; 56; 233; 106; 194;
   47; 231; 189; 114; 143; 14; 69; 188; 224; 70; 210; 60; 87; 15; 235; 20; 19; 152; 187; 85; 46; 245; 160; 168; 43; 227;
   49; 254; 164; 128; 55; 184; 181; 215; 31; 14; 51; 46; 223; 147; 172; 53; 0; 235; 77; 220; 13; 236; 193; 168; 100; 121;
   12; 120; 44; 118; 33; 86; 96; 221; 48; 151; 145; 208; 107; 208; 175; 63; 152; 205; 164; 188; 70; 41; 177].
