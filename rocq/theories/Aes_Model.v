(** AES-256 as published (FIPS 197) and the model of keystore/aes.go.

    The Go packages crypto/aes and crypto/cipher are not part of /repo; [aes_encrypt], [aes_decrypt] and the CBC functions stand for them.
    Blocks are lists of 16 bytes in the order of the input, which is column by column. *)
From stdpp Require Import list.
From Coq Require Import ZArith.
From Verif Require Import GoInt GoSlice Hash_Model.
Local Open Scope Z_scope.

(** FIPS 197 figure 7 (keystore/aes.go:30). *)
Definition sbox : list Z :=
  [99; 124; 119; 123; 242; 107; 111; 197; 48; 1; 103; 43; 254; 215; 171; 118; 202; 130; 201; 125; 250; 89; 71; 240;
   173; 212; 162; 175; 156; 164; 114; 192; 183; 253; 147; 38; 54; 63; 247; 204; 52; 165; 229; 241; 113; 216; 49; 21;
   4; 199; 35; 195; 24; 150; 5; 154; 7; 18; 128; 226; 235; 39; 178; 117; 9; 131; 44; 26; 27; 110; 90; 160;
   82; 59; 214; 179; 41; 227; 47; 132; 83; 209; 0; 237; 32; 252; 177; 91; 106; 203; 190; 57; 74; 76; 88; 207;
   208; 239; 170; 251; 67; 77; 51; 133; 69; 249; 2; 127; 80; 60; 159; 168; 81; 163; 64; 143; 146; 157; 56; 245;
   188; 182; 218; 33; 16; 255; 243; 210; 205; 12; 19; 236; 95; 151; 68; 23; 196; 167; 126; 61; 100; 93; 25; 115;
   96; 129; 79; 220; 34; 42; 144; 136; 70; 238; 184; 20; 222; 94; 11; 219; 224; 50; 58; 10; 73; 6; 36; 92;
   194; 211; 172; 98; 145; 149; 228; 121; 231; 200; 55; 109; 141; 213; 78; 169; 108; 86; 244; 234; 101; 122; 174; 8;
   186; 120; 37; 46; 28; 166; 180; 198; 232; 221; 116; 31; 75; 189; 139; 138; 112; 62; 181; 102; 72; 3; 246; 14;
   97; 53; 87; 185; 134; 193; 29; 158; 225; 248; 152; 17; 105; 217; 142; 148; 155; 30; 135; 233; 206; 85; 40; 223;
   140; 161; 137; 13; 191; 230; 66; 104; 65; 153; 45; 15; 176; 84; 187; 22].
(** FIPS 197 figure 14 (keystore/aes.go:45). *)
Definition inv_sbox : list Z :=
  [82; 9; 106; 213; 48; 54; 165; 56; 191; 64; 163; 158; 129; 243; 215; 251; 124; 227; 57; 130; 155; 47; 255; 135;
   52; 142; 67; 68; 196; 222; 233; 203; 84; 123; 148; 50; 166; 194; 35; 61; 238; 76; 149; 11; 66; 250; 195; 78;
   8; 46; 161; 102; 40; 217; 36; 178; 118; 91; 162; 73; 109; 139; 209; 37; 114; 248; 246; 100; 134; 104; 152; 22;
   212; 164; 92; 204; 93; 101; 182; 146; 108; 112; 72; 80; 253; 237; 185; 218; 94; 21; 70; 87; 167; 141; 157; 132;
   144; 216; 171; 0; 140; 188; 211; 10; 247; 228; 88; 5; 184; 179; 69; 6; 208; 44; 30; 143; 202; 63; 15; 2;
   193; 175; 189; 3; 1; 19; 138; 107; 58; 145; 17; 65; 79; 103; 220; 234; 151; 242; 207; 206; 240; 180; 230; 115;
   150; 172; 116; 34; 231; 173; 53; 133; 226; 249; 55; 232; 28; 117; 223; 110; 71; 241; 26; 113; 29; 41; 197; 137;
   111; 183; 98; 14; 170; 24; 190; 27; 252; 86; 62; 75; 198; 210; 121; 32; 154; 219; 192; 254; 120; 205; 90; 244;
   31; 221; 168; 51; 136; 7; 199; 49; 177; 18; 16; 89; 39; 128; 236; 95; 96; 81; 127; 169; 25; 181; 74; 13;
   45; 229; 122; 159; 147; 201; 156; 239; 160; 224; 59; 77; 174; 42; 245; 176; 200; 235; 187; 60; 131; 83; 153; 97;
   23; 43; 4; 126; 186; 119; 214; 38; 225; 105; 20; 99; 85; 33; 12; 125].
(** FIPS 197 section 4.2.1: multiplication by x modulo x^8 + x^4 + x^3 + x + 1 (keystore/aes.go:30). *)
Definition xtime (b : Z) : Z := if 128 <=? b then Z.lxor (2 * b) 283 else 2 * b.
(** FIPS 197 section 4.2: multiplication by a constant of four bits (keystore/aes.go:30). *)
Definition gmul (c b : Z) : Z :=
  let x2 := xtime b in let x4 := xtime x2 in let x8 := xtime x4 in
  Z.lxor (if Z.testbit c 0 then b else 0) (Z.lxor (if Z.testbit c 1 then x2 else 0) (Z.lxor (if Z.testbit c 2 then x4 else 0) (if Z.testbit c 3 then x8 else 0))).
(** Byte-wise exclusive or (FIPS 197 section 5.1.4; keystore/aes.go:36). *)
Definition xorl (a b : list Z) : list Z := zip_with Z.lxor a b.
(** FIPS 197 section 5.1.1 (keystore/aes.go:30). *)
Definition sub_bytes (tab : list Z) (s : list Z) : list Z := (fun b => nth (Z.to_nat b) tab 0) <$> s.
(** The bytes of [s] in the order [p] (FIPS 197 section 5.1.2; keystore/aes.go:30). *)
Definition permute (p : list nat) (s : list Z) : list Z := (fun i => nth i s 0) <$> p.
(** FIPS 197 section 5.1.2: row r is shifted by r (keystore/aes.go:30). *)
Definition shift_rows : list nat := [0; 5; 10; 15; 4; 9; 14; 3; 8; 13; 2; 7; 12; 1; 6; 11]%nat.
(** FIPS 197 section 5.3.1 (keystore/aes.go:45). *)
Definition inv_shift_rows : list nat := [0; 13; 10; 7; 4; 1; 14; 11; 8; 5; 2; 15; 12; 9; 6; 3]%nat.
(** One column times the circulant matrix of first row [m0 m1 m2 m3] (FIPS 197 sections 5.1.3 and 5.3.3; keystore/aes.go:30). *)
Definition mix_column (m0 m1 m2 m3 : Z) (c : list Z) : list Z :=
  let dot a b c' d := Z.lxor (gmul a (nth 0 c 0)) (Z.lxor (gmul b (nth 1 c 0)) (Z.lxor (gmul c' (nth 2 c 0)) (gmul d (nth 3 c 0)))) in
  [dot m0 m1 m2 m3; dot m3 m0 m1 m2; dot m2 m3 m0 m1; dot m1 m2 m3 m0].
(** The four columns (FIPS 197 sections 5.1.3 and 5.3.3; keystore/aes.go:30). *)
Definition mix_columns (m0 m1 m2 m3 : Z) (s : list Z) : list Z :=
  mix_column m0 m1 m2 m3 (take 4 s) ++ mix_column m0 m1 m2 m3 (take 4 (drop 4 s)) ++
  mix_column m0 m1 m2 m3 (take 4 (drop 8 s)) ++ mix_column m0 m1 m2 m3 (take 4 (drop 12 s)).
(** FIPS 197 section 5.2: the words of the key schedule, latest first; [n] words to go, the next one has number [i] (keystore/aes.go:30). *)
Fixpoint expand (n : nat) (i : nat) (rcon : Z) (w : list (list Z)) : list (list Z) :=
  match n with
  | O => w
  | S n =>
      let t := nth 0 w [] in
      let old := nth 7 w [] in
      if (i mod 8 =? 0)%nat then expand n (S i) (xtime rcon) (xorl old (xorl (sub_bytes sbox (permute [1; 2; 3; 0]%nat t)) [rcon; 0; 0; 0]) :: w)
      else if (i mod 8 =? 4)%nat then expand n (S i) rcon (xorl old (sub_bytes sbox t) :: w)
      else expand n (S i) rcon (xorl old t :: w)
  end.
(** The 15 round keys of 16 bytes (FIPS 197 section 5.2; keystore/aes.go:30). *)
Definition round_keys (key : list Z) : list (list Z) :=
  pieces 15 16 (concat (rev (expand 52 8 1 (rev (pieces 8 4 key))))).
(** FIPS 197 section 5.1: the 13 middle rounds and the last one (keystore/aes.go:36). *)
Fixpoint enc_rounds (ks : list (list Z)) (s : list Z) : list Z :=
  match ks with
  | [] => s
  | [k] => xorl (permute shift_rows (sub_bytes sbox s)) k
  | k :: ks => enc_rounds ks (xorl (mix_columns 2 3 1 1 (permute shift_rows (sub_bytes sbox s))) k)
  end.
(** FIPS 197 section 5.1 (keystore/aes.go:36). *)
Definition aes_encrypt (key blk : list Z) : list Z :=
  match round_keys key with [] => [] | k :: ks => enc_rounds ks (xorl blk k) end.
(** FIPS 197 section 5.3: the rounds backwards (keystore/aes.go:47). *)
Fixpoint dec_rounds (ks : list (list Z)) (s : list Z) : list Z :=
  match ks with
  | [] => s
  | [k] => sub_bytes inv_sbox (permute inv_shift_rows (xorl s k))
  | k :: ks => sub_bytes inv_sbox (permute inv_shift_rows (mix_columns 14 11 13 9 (xorl (dec_rounds ks s) k)))
  end.
(** FIPS 197 section 5.3 (keystore/aes.go:47). *)
Definition aes_decrypt (key blk : list Z) : list Z :=
  match round_keys key with [] => [] | k :: ks => xorl (dec_rounds ks blk) k end.

(** FIPS 197 appendix C.3. *)
Example aes256_vector :
  let key := Z.of_nat <$> seq 0 32 in
  let pt := (fun i => 17 * Z.of_nat i) <$> seq 0 16 in
  let ct := [142; 162; 183; 202; 81; 103; 69; 191; 234; 252; 73; 144; 75; 73; 96; 137] in
  aes_encrypt key pt = ct /\ aes_decrypt key ct = pt.
Proof. vm_compute. auto. Qed.

(** cipher.NewCBCEncrypter(c, iv).CryptBlocks on full blocks, [n] of them to go (keystore/aes.go:35-36). *)
Fixpoint cbc_encrypt (n : nat) (key iv src : list Z) : list Z :=
  match n with O => [] | S n => let c := aes_encrypt key (xorl (take 16 src) iv) in c ++ cbc_encrypt n key c (drop 16 src) end.
(** cipher.NewCBCDecrypter(c, iv).CryptBlocks (keystore/aes.go:45-47). *)
Fixpoint cbc_decrypt (n : nat) (key iv src : list Z) : list Z :=
  match n with O => [] | S n => xorl (aes_decrypt key (take 16 src)) iv ++ cbc_decrypt n key (take 16 src) (drop 16 src) end.

(** keystore/aes.go:16-21 [Aes]. *)
Record aes := Aes { commonKey256 : list Z; commonIV : list Z }.
(** keystore/aes.go:23-28 [NewAes]; the digests fill the arrays exactly. *)
Definition NewAes (iv key : list Z) : aes := Aes (sha256 key) (md5 iv).
(** keystore/aes.go:33: the padding. *)
Definition pad (len : nat) : list Z := let k := (16 - len mod 16)%nat in replicate k (Z.of_nat k).
(** keystore/aes.go:30-42 [EncrypterCbc] of the slice [src]: append, then encrypt in place.  [grow] is what append leaves to spare.
    aes.NewCipher does not fail for keys of 32 bytes. *)
Definition EncrypterCbc (a : aes) (h : list (list Z)) (src : slc) (grow : nat) : list (list Z) * slc :=
  let '(h1, r) := append h src (pad (slen src)) grow in
  (wr h1 (sarr r) (soff r) (cbc_encrypt (slen r / 16) (commonKey256 a) (commonIV a) (rd h1 r)), r).
(** keystore/aes.go:44-54 [DecrypterCbc]; [None] is a panic: of CryptBlocks when the length is not a multiple of 16, of the index -1, of
    the slice bounds. *)
Definition DecrypterCbc (a : aes) (h : list (list Z)) (bs : slc) : option (list (list Z) * slc) :=
  let src := rd h bs in
  let n := length src in
  if (n mod 16 =? 0)%nat then
    let '(h1, r) := mk h (cbc_decrypt (n / 16) (commonKey256 a) (commonIV a) src) 0 in
    match last (rd h1 r) with
    | None => None
    | Some b => if Z.of_nat n <? b then None else Some (h1, SL (sarr r) (soff r) (slen r - Z.to_nat b) (scap r))
    end
  else None.
(** keystore/aes.go:56-58 [AesEncrypter]. *)
Definition AesEncrypter (h : list (list Z)) (src : slc) (key : list Z) (grow : nat) := EncrypterCbc (NewAes key key) h src grow.
(** keystore/aes.go:60-62 [AesDecrypter]. *)
Definition AesDecrypter (h : list (list Z)) (bs : slc) (key : list Z) := DecrypterCbc (NewAes key key) h bs.
