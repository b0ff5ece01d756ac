(** What AES-256-CBC with PKCS#7 padding is (NIST SP 800-38A section 6.2, RFC 5652 section 6.3), on top of the block cipher. *)
From stdpp Require Import list.
From Coq Require Import ZArith Lia.
From Verif Require Import Aes_Model.
Local Open Scope Z_scope.

(** The block with number [i]. *)
Definition blk (i : nat) (l : list Z) : list Z := take 16 (drop (16 * i) l).
(** The block before, or the initialisation vector. *)
Definition before (iv : list Z) (c : list Z) (i : nat) : list Z := match i with O => iv | S j => blk j c end.
(** [p] is [src] followed by k bytes of value k, 1 <= k <= 16, up to a multiple of 16. *)
Definition padded_to (src p : list Z) : Prop :=
  exists k, (1 <= k <= 16)%nat /\ p = src ++ replicate k (Z.of_nat k) /\ (length p mod 16 = 0)%nat.
(** [c] is the encryption of [p]: every block is the cipher applied to the block of [p] xor the block of [c] before. *)
Definition cbc_encryption (key iv p c : list Z) : Prop :=
  length c = length p /\
  forall i, (16 * i < length p)%nat -> blk i c = aes_encrypt key (zip_with Z.lxor (blk i p) (before iv c i)).
(** [p] is the decryption of [c]. *)
Definition cbc_decryption (key iv c p : list Z) : Prop :=
  length p = length c /\
  forall i, (16 * i < length c)%nat -> blk i p = zip_with Z.lxor (aes_decrypt key (blk i c)) (before iv c i).
(** A key of 32 bytes and an initialisation vector of 16. *)
Definition good (a : aes) : Prop :=
  (length (commonKey256 a) = 32%nat /\ Forall (fun b => 0 <= b < 256) (commonKey256 a)) /\
  (length (commonIV a) = 16%nat /\ Forall (fun b => 0 <= b < 256) (commonIV a)).
