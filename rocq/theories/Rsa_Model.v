(** Model of keystore/key.go:93-151: RsaEncrypt, RsaDecrypt and their ByBytes forms.

    crypto/rsa (EncryptPKCS1v15, DecryptPKCS1v15 of Go 1.23) is implemented from its published code.  encoding/pem and crypto/x509 are parameters; an
    implementation of the part the built-in keys need is in Rsa_Default.v. *)
From stdpp Require Import list.
From Coq Require Import ZArith.
From Verif Require Import GoInt Util_Model.
Local Open Scope Z_scope.

(** rsa.PublicKey (crypto/rsa; keystore/key.go:115). *)
Record pubkey := Pub { pub_n : Z; pub_e : Z }.
(** rsa.PrivateKey (crypto/rsa; keystore/key.go:142).  Simplification: the precomputed values for the Chinese remainder theorem are left out, see [decrypt]. *)
Record privkey := Priv { priv_n : Z; priv_e : Z; priv_d : Z; priv_primes : list Z }.
(** What x509.ParsePKIXPublicKey answers (keystore/key.go:114): an error, an RSA key, or a key of another kind. *)
Inductive pkix := PkixErr | PkixRsa (k : pubkey) | PkixOther.
(** encoding/pem and crypto/x509: the bytes of the first block, None when there is none (keystore/key.go:113,141); the public key in a block (114); the
    private key in a block, None for an error (142). *)
Record lib := Lib { pem : list Z -> option (list Z); parsePub : list Z -> pkix; parsePriv : list Z -> option privkey }.

(** big.Int.BitLen of a number that is not negative (math/big; keystore/key.go:116,143 via crypto/rsa). *)
Definition BitLen (n : Z) : Z := if n <=? 0 then 0 else Z.log2 n + 1.
(** PublicKey.Size (crypto/rsa; keystore/key.go:116,143). *)
Definition Size (n : Z) : Z := (BitLen n + 7) / 8.
(** big-endian bytes to a number (bigmod.Nat.SetBytes; keystore/key.go:116,143). *)
Definition SetBytes (bs : list Z) : Z := fold_left (fun a b => a * 256 + b) bs 0.
(** A number as [k] big-endian bytes (bigmod.Nat.Bytes; keystore/key.go:116,143). *)
Fixpoint Bytes (k : nat) (x : Z) : list Z := match k with O => [] | S k => Bytes k (x / 256) ++ [x mod 256] end.
(** [x] to the power of [e] modulo [n], by squaring (bigmod.Nat.Exp; keystore/key.go:116,143). *)
Fixpoint powmod_pos (x : Z) (e : positive) (n : Z) : Z :=
  match e with
  | xH => x mod n
  | xO e => powmod_pos ((x * x) mod n) e n
  | xI e => (x * powmod_pos ((x * x) mod n) e n) mod n
  end.
(** See [powmod_pos] (keystore/key.go:116,143). *)
Definition powmod (x e n : Z) : Z := match e with Zpos e => powmod_pos x e n | _ => 1 mod n end.
(** checkPub (crypto/rsa; keystore/key.go:116,143): true when the key is fine. *)
Definition checkPub (e : Z) : bool := (2 <=? e) && (e <=? 2^31 - 1).
(** bigmod.NewModulusFromBig and SetBytes (crypto/internal/bigmod; keystore/key.go:116,143): None when the modulus is even or not positive, when the bytes do not
    fit into the words of the modulus, or when their value is not below it. *)
Definition toNat (n : Z) (bs : list Z) : option Z :=
  if (n <=? 0) || Z.even n then None
  else if 8 * ((BitLen n + 63) / 64) <? Z.of_nat (length bs) then None
  else if SetBytes bs <? n then Some (SetBytes bs) else None.
(** encrypt (crypto/rsa; keystore/key.go:116). *)
Definition encrypt (k : pubkey) (em : list Z) : option (list Z) :=
  match toNat (pub_n k) em with
  | Some m => Some (Bytes (Z.to_nat (Size (pub_n k))) (powmod m (pub_e k) (pub_n k)))
  | None => None
  end.
(** The loop of nonZeroRandomBytes for one byte (crypto/rsa; keystore/key.go:116): read again while it is 0; None when the source is at its end. *)
Fixpoint nonZeroByte (b : Z) (rnd : list Z) : option (Z * list Z) :=
  if b =? 0 then match rnd with [] => None | c :: r => nonZeroByte (Z.lxor c 66) r end else Some (b, rnd).
(** See [nonZeroByte] (crypto/rsa; keystore/key.go:116). *)
Fixpoint nonZeroLoop (s rnd : list Z) : option (list Z) :=
  match s with
  | [] => Some []
  | b :: s =>
      match nonZeroByte b rnd with
      | Some (b, rnd) => match nonZeroLoop s rnd with Some s => Some (b :: s) | None => None end
      | None => None
      end
  end.
(** nonZeroRandomBytes (crypto/rsa; keystore/key.go:116): [n] bytes. *)
Definition nonZeroRandomBytes (n : nat) (rnd : list Z) : option (list Z) :=
  if (length rnd <? n)%nat then None else nonZeroLoop (take n rnd) (drop n rnd).
(** rsa.EncryptPKCS1v15 (crypto/rsa; keystore/key.go:116); None is an error.  [rnd]: what rand.Reader gives, after the byte that may be read first. *)
Definition EncryptPKCS1v15 (rnd : list Z) (k : pubkey) (msg : list Z) : option (list Z) :=
  if negb (checkPub (pub_e k)) then None
  else
    let size := Size (pub_n k) in
    if size - 11 <? Z.of_nat (length msg) then None
    else match nonZeroRandomBytes (Z.to_nat (size - 3 - Z.of_nat (length msg))) rnd with
         | Some ps => encrypt k ([0; 2] ++ ps ++ [0] ++ msg)
         | None => None
         end.
(** decrypt (crypto/rsa; keystore/key.go:143).  Simplification: for two primes Go computes this power modulo each of them and combines the results. *)
Definition decrypt (k : privkey) (ct : list Z) : option (list Z) :=
  match toNat (priv_n k) ct with
  | Some c => Some (Bytes (Z.to_nat (Size (priv_n k))) (powmod c (priv_d k) (priv_n k)))
  | None => None
  end.
(** The search for the 0 behind the padding in decryptPKCS1v15 (crypto/rsa; keystore/key.go:143): index, lookingForIndex. *)
Fixpoint findZero (i index : Z) (looking : bool) (em : list Z) : Z * bool :=
  match em with
  | [] => (index, looking)
  | b :: em => findZero (i + 1) (if looking && (b =? 0) then i else index) (if b =? 0 then false else looking) em
  end.
(** rsa.DecryptPKCS1v15 (crypto/rsa; keystore/key.go:143); None is an error. *)
Definition DecryptPKCS1v15 (k : privkey) (ct : list Z) : option (list Z) :=
  if negb (checkPub (priv_e k)) then None
  else if Size (priv_n k) <? 11 then None
  else match decrypt k ct with
       | None => None
       | Some em =>
           let '(index, looking) := findZero 2 0 true (drop 2 em) in
           if (nth 0 em 0 =? 0) && (nth 1 em 0 =? 2) && negb looking && (10 <=? index) then Some (drop (Z.to_nat (index + 1)) em) else None
       end.

(** The results of key.go: the bytes (nil is []) and whether err is not nil. *)
Definition rsares : Type := list Z * bool.
(** keystore/key.go:111-119 [RsaEncryptByBytes].  Without a block or with a key of another kind it panics, and _recovr leaves the results as they are: nil, nil. *)
Definition RsaEncryptByBytes (l : lib) (rnd msg publickeyBs : list Z) : rsares :=
  match pem l publickeyBs with
  | None => ([], false)
  | Some blk =>
      match parsePub l blk with
      | PkixRsa k => match EncryptPKCS1v15 rnd k msg with Some c => (c, false) | None => ([], true) end
      | PkixErr => ([], false)
      | PkixOther => ([], false)
      end
  end.
(** keystore/key.go:139-146 [RsaDecryptByBytes]. *)
Definition RsaDecryptByBytes (l : lib) (ct privateBs : list Z) : rsares :=
  match pem l privateBs with
  | None => ([], false)
  | Some blk =>
      match parsePriv l blk with
      | Some k => match DecryptPKCS1v15 k ct with Some m => (m, false) | None => ([], true) end
      | None => ([], false)
      end
  end.
(** The file system: os.Stat and os.ReadFile, None for an error (keystore/key.go:97-98,125-126). *)
Record fsys := Fsys { fstat : list Z -> stat_result; readFile : list Z -> option (list Z) }.
(** The key to use (keystore/key.go:95-107, 123-135): that of the file, or the built-in one for the path ""; None is an error. *)
Definition keyOf (fs : fsys) (path default : list Z) : option (list Z) :=
  match path with
  | [] => Some default
  | _ => if IsFileExist path (fstat fs) then readFile fs path else None
  end.
(** keystore/key.go:93-109 [RsaEncrypt]; [dflt] is defaultPubKey. *)
Definition RsaEncrypt (l : lib) (dflt : list Z) (fs : fsys) (rnd msg path : list Z) : rsares :=
  match keyOf fs path dflt with Some buf => RsaEncryptByBytes l rnd msg buf | None => ([], true) end.
(** keystore/key.go:121-137 [RsaDecrypt]; [dflt] is defaultPriKey. *)
Definition RsaDecrypt (l : lib) (dflt : list Z) (fs : fsys) (ct path : list Z) : rsares :=
  match keyOf fs path dflt with Some buf => RsaDecryptByBytes l ct buf | None => ([], true) end.
