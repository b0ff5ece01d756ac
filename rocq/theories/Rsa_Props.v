(** C103 to C105: RSA of the key store. *)
From stdpp Require Import list.
From Coq Require Import ZArith Znumtheory Lia.
From Verif Require Import GoInt Util_Model Rsa_Model Rsa_Spec Rsa_Proofs Rsa_Default.
From Verif Require Prime_P Prime_Q.
Local Open Scope Z_scope.

(** [bs] is a text in which the library finds this key. *)
Definition public_text (l : lib) (bs : list Z) (n e : Z) : Prop := exists blk, pem l bs = Some blk /\ parsePub l blk = PkixRsa (Pub n e).
Definition private_text (l : lib) (bs : list Z) (n e d : Z) (primes : list Z) : Prop := exists blk, pem l bs = Some blk /\ parsePriv l blk = Some (Priv n e d primes).

(** C103.  With a key pair of [k] bytes every message of at most k - 11 bytes is encrypted to k bytes, without an error, whatever the random bytes; and decrypting
    gives exactly the message. *)
Theorem c103_rsa_round_trip : forall l pubtext privtext n e d primes k msg rnd,
  public_text l pubtext n e -> private_text l privtext n e d primes -> rsa_pair n e d primes -> 2 <= e < 2^31 -> bytes_of_modulus n k ->
  Forall isbyte msg -> Forall isbyte rnd -> enough_random k rnd -> (length msg + 11 <= k)%nat ->
  exists ct, RsaEncryptByBytes l rnd msg pubtext = (ct, false) /\ length ct = k /\ RsaDecryptByBytes l ct privtext = (msg, false).
Proof.
  intros l pubtext privtext n e d primes k msg rnd (b1 & P1 & P2) (b2 & V1 & V2) H He Hk Hm Hr Hen Hl. assert (checkPub e = true) as Hc by (unfold checkPub; lia).
  destruct (encrypt_succeeds n e k rnd msg Hk (rsa_pair_odd _ _ _ _ H) Hc Hm Hr Hen Hl) as [ct E]. destruct (round_trip n e d primes k rnd msg ct H Hc Hk Hm Hr E) as [Hlen D].
  exists ct. unfold RsaEncryptByBytes, RsaDecryptByBytes. rewrite P1, P2, E, V1, V2, D. auto.
Qed.
Print Assumptions c103_rsa_round_trip.
(** C103.  A longer message is an error and nothing is encrypted. *)
Theorem c103_too_long : forall l pubtext n e k msg rnd, public_text l pubtext n e -> bytes_of_modulus n k -> (k < length msg + 11)%nat ->
  RsaEncryptByBytes l rnd msg pubtext = ([], true).
Proof. intros l pubtext n e k msg rnd (b & P1 & P2) Hk Hl. unfold RsaEncryptByBytes. rewrite P1, P2, (encrypt_long n e k rnd msg Hk Hl). reflexivity. Qed.
Print Assumptions c103_too_long.
(** C103.  Decrypting k bytes gives a message exactly if their number, raised to d modulo n, is that message properly padded; everything else is an error. *)
Theorem c103_decrypt_exactly : forall l privtext n e d primes k ct, private_text l privtext n e d primes -> rsa_pair n e d primes -> 2 <= e < 2^31 ->
  bytes_of_modulus n k -> length ct = k -> Forall isbyte ct ->
  (forall msg, RsaDecryptByBytes l ct privtext = (msg, false) <->
     number ct < n /\ exists em, padded k msg em /\ Forall isbyte msg /\ number em = number ct ^ d mod n) /\
  ((forall msg, RsaDecryptByBytes l ct privtext <> (msg, false)) -> RsaDecryptByBytes l ct privtext = ([], true)).
Proof.
  intros l privtext n e d primes k ct (b & V1 & V2) H He Hk Hl Hct. unfold RsaDecryptByBytes. rewrite V1, V2. assert (checkPub e = true) as Hc by (unfold checkPub; lia).
  pose proof (rsa_pair_pos _ _ _ _ H) as Hn. pose proof H as (_ & _ & _ & _ & Hd). split.
  - intros msg. split.
    + destruct (DecryptPKCS1v15 _ ct) as [m|] eqn:E; [|discriminate]. intros [= ->]. destruct (decrypt_inv _ _ _ _ _ _ _ Hk E) as [Hlt Hpad]. split; [exact Hlt|].
      pose proof (powmod_bound (number ct) d n Hn ltac:(lia)) as Hb. exists (Bytes k (powmod (number ct) d n)). split; [exact Hpad|]. split.
      * pose proof (Bytes_isbyte k (powmod (number ct) d n)) as Hf. destruct Hpad as (ps & Eq & _). rewrite Eq in Hf. apply Forall_app in Hf as [_ Hf]. apply Forall_app in Hf as [_ Hf].
        apply Forall_app in Hf as [_ Hf]. exact Hf.
      * rewrite Bytes_number by (destruct Hk; lia). apply powmod_spec; lia.
    + intros (Hlt & em & Hpad & Hm & Heq). destruct (padded_bound k n msg em Hk Hm Hpad) as [Hem _].
      rewrite (decrypt_padded n e d primes k ct em msg); try assumption; [reflexivity|exact (rsa_pair_odd _ _ _ _ H)|]. rewrite powmod_spec by lia. congruence.
  - intros Hno. destruct (DecryptPKCS1v15 _ ct) as [m|]; [|reflexivity]. exfalso. apply (Hno m). reflexivity.
Qed.
Print Assumptions c103_decrypt_exactly.
(** C103.  RsaEncrypt and RsaDecrypt use the key in the file named, the built-in one for no name, and a file that is missing or cannot be read is an error. *)
Theorem c103_key_files : forall l dpub dpriv fs rnd msg path,
  (path = [] -> RsaEncrypt l dpub fs rnd msg path = RsaEncryptByBytes l rnd msg dpub /\ RsaDecrypt l dpriv fs msg path = RsaDecryptByBytes l msg dpriv) /\
  (path <> [] -> forall text, fstat fs path = StatOk -> readFile fs path = Some text ->
     RsaEncrypt l dpub fs rnd msg path = RsaEncryptByBytes l rnd msg text /\ RsaDecrypt l dpriv fs msg path = RsaDecryptByBytes l msg text) /\
  (path <> [] -> fstat fs path = StatNotExist \/ readFile fs path = None ->
     RsaEncrypt l dpub fs rnd msg path = ([], true) /\ RsaDecrypt l dpriv fs msg path = ([], true)).
Proof.
  intros l dpub dpriv fs rnd msg path. unfold RsaEncrypt, RsaDecrypt, keyOf, IsFileExist. repeat split; intros.
  - subst. reflexivity.
  - subst. reflexivity.
  - destruct path; [contradiction|]. rewrite H0, H1. reflexivity.
  - destruct path; [contradiction|]. rewrite H0, H1. reflexivity.
  - destruct path; [contradiction|]. destruct H0 as [->|E]; [reflexivity|]. destruct (fstat fs _); rewrite ?E; reflexivity.
  - destruct path; [contradiction|]. destruct H0 as [->|E]; [reflexivity|]. destruct (fstat fs _); rewrite ?E; reflexivity.
Qed.
Print Assumptions c103_key_files.
(** A key of eight primes and sixteen bytes; a message of five bytes is encrypted and decrypted. *)
Definition ex_primes : list Z := [65521; 65519; 65497; 65479; 65449; 65447; 65437; 65423].
Definition ex_n : Z := 337611956425919840995258239704451685661.
Definition ex_d : Z := 6799687573975308418105723553.
Definition ex_lib : lib := Lib (fun b => Some b) (fun _ => PkixRsa (Pub ex_n 65537)) (fun _ => Some (Priv ex_n 65537 ex_d ex_primes)).
Example c103_ex_key : rsa_pair ex_n 65537 ex_d ex_primes /\ bytes_of_modulus ex_n 16 /\ public_text ex_lib [1] ex_n 65537 /\ private_text ex_lib [2] ex_n 65537 ex_d ex_primes.
Proof.
  split; [|split; [split; [lia|vm_compute; split; [discriminate|reflexivity]]|split; eexists; split; reflexivity]]. split; [vm_compute; reflexivity|]. split; [apply (bool_decide_unpack _); vm_compute; exact I|].
  split; [|split; reflexivity].
  intros p Hp. assert (forallb (fun p => trial p && negb (p =? 2) && ((65537 * ex_d - 1) mod (p - 1) =? 0)) ex_primes = true) as E by (vm_compute; reflexivity).
  rewrite forallb_forall in E. specialize (E p). apply elem_of_list_In in Hp. specialize (E Hp). apply andb_prop in E as [E E3]. apply andb_prop in E as [E1 E2]. apply trial_prime in E1.
  split; [exact E1|]. split; [lia|]. apply Z.mod_divide; [destruct E1; lia|lia].
Qed.
Example c103_ex : let rnd := [7; 0; 9; 1; 2; 3; 4; 5; 66; 8] in
  let c := RsaEncryptByBytes ex_lib rnd [104; 101; 108; 108; 111] [1] in
  length c.1 = 16%nat /\ c.2 = false /\ RsaDecryptByBytes ex_lib c.1 [2] = ([104; 101; 108; 108; 111], false) /\
  RsaEncryptByBytes ex_lib rnd [104; 101; 108; 108; 111; 33] [1] = ([], true) /\ RsaDecryptByBytes ex_lib (repeat 1 16) [2] = ([], true).
Proof. vm_compute. repeat split; reflexivity. Qed.

(** C104 is false: with a text that holds no RSA key both return nil and no error, whatever the message. *)
Theorem c104_errors_reported_refuted : forall l msg rnd text,
  (pem l text = None \/ (exists blk, pem l text = Some blk /\ (parsePub l blk = PkixErr \/ parsePub l blk = PkixOther)) -> RsaEncryptByBytes l rnd msg text = ([], false)) /\
  (pem l text = None \/ (exists blk, pem l text = Some blk /\ parsePriv l blk = None) -> RsaDecryptByBytes l msg text = ([], false)).
Proof.
  intros l msg rnd text. unfold RsaEncryptByBytes, RsaDecryptByBytes. split.
  - intros [->|(blk & -> & [->| ->])]; reflexivity.
  - intros [->|(blk & -> & ->)]; reflexivity.
Qed.
Print Assumptions c104_errors_reported_refuted.
(** C104, what does hold: with a text that holds an RSA key, encrypting without an error gives bytes that decrypt to the message, and an error gives no bytes.
    Missing: texts without an RSA key. *)
Theorem c104_errors_reported_partial : forall l pubtext privtext n e d primes msg rnd ct err,
  public_text l pubtext n e -> private_text l privtext n e d primes -> rsa_pair n e d primes -> 2 <= e < 2^31 -> Forall isbyte msg -> Forall isbyte rnd ->
  RsaEncryptByBytes l rnd msg pubtext = (ct, err) ->
  (err = false -> RsaDecryptByBytes l ct privtext = (msg, false)) /\ (err = true -> ct = []).
Proof.
  intros l pubtext privtext n e d primes msg rnd ct err (b1 & P1 & P2) (b2 & V1 & V2) H He Hm Hr. assert (checkPub e = true) as Hc by (unfold checkPub; lia).
  destruct (bytes_exist n (rsa_pair_pos _ _ _ _ H)) as [k Hk]. unfold RsaEncryptByBytes, RsaDecryptByBytes. rewrite P1, P2, V1, V2.
  destruct (EncryptPKCS1v15 rnd (Pub n e) msg) as [c|] eqn:E; intros [= <- <-]; split; try discriminate; try reflexivity; intros _.
  destruct (round_trip n e d primes k rnd msg c H Hc Hk Hm Hr E) as [_ D]. rewrite D. reflexivity.
Qed.
Print Assumptions c104_errors_reported_partial.
(** "hello" is no key; nor is the private key where the public one is wanted, nor the other way round. *)
Example c104_ex : RsaEncryptByBytes golib [] [1; 2; 3] ([104; 101; 108; 108; 111]) = ([], false) /\ RsaEncryptByBytes golib [] [1; 2; 3] defaultPriKey = ([], false) /\
  RsaDecryptByBytes golib [1; 2; 3] defaultPubKey = ([], false).
Proof. vm_compute. auto. Qed.

(** C105.  The built-in keys: they are read, and belong together; the two numbers of the private key are prime (Prime_P.v, Prime_Q.v); every message of at most 117 bytes
    encrypted by RsaEncrypt(msg, "") is returned by RsaDecrypt(ct, ""). *)
Definition default_n : Z := match ParsePKIXPublicKey (default [] (pem_Decode defaultPubKey)) with PkixRsa k => pub_n k | _ => 0 end.
Definition default_priv : privkey := default (Priv 0 0 0 []) (ParsePKCS1PrivateKey (default [] (pem_Decode defaultPriKey))).
Lemma default_public : public_text golib defaultPubKey default_n 65537.
Proof. exists (default [] (pem_Decode defaultPubKey)). split; vm_compute; reflexivity. Qed.
Lemma default_private : private_text golib defaultPriKey default_n 65537 (priv_d default_priv) (priv_primes default_priv).
Proof. exists (default [] (pem_Decode defaultPriKey)). split; vm_compute; reflexivity. Qed.
Lemma default_size : bytes_of_modulus default_n 128.
Proof. split; [lia|]. vm_compute. split; [discriminate|reflexivity]. Qed.
Lemma default_primes p : p ∈ priv_primes default_priv -> prime p.
Proof.
  assert (priv_primes default_priv = [10356339571033877687291353999015341104247505257597738817068466955638021030731132514440510225090638927702817664496574271692211181948751876058029451361501209;
    10127611528874017620803064559261990278220507336969453722041019573104765777810120691669951595857299124373915310040752098460681066185353851744991241695891301]) as -> by (vm_compute; reflexivity).
  intros [->|[->|H]%elem_of_cons]%elem_of_cons; [exact Prime_P.prime_p|exact Prime_Q.prime_q|destruct (not_elem_of_nil _ H)].
Qed.
Lemma default_keys_if : (forall p, p ∈ priv_primes default_priv -> prime p) -> forall fs msg rnd,
  Forall isbyte msg -> Forall isbyte rnd -> enough_random 128 rnd -> (length msg <= 117)%nat ->
  exists ct, RsaEncrypt golib defaultPubKey fs rnd msg [] = (ct, false) /\ RsaDecrypt golib defaultPriKey fs ct [] = (msg, false).
Proof.
  intros Hp fs msg rnd Hm Hr Hen Hl. unfold RsaEncrypt, RsaDecrypt, keyOf.
  destruct (c103_rsa_round_trip golib defaultPubKey defaultPriKey default_n 65537 (priv_d default_priv) (priv_primes default_priv) 128 msg rnd) as (ct & E & _ & D);
    [exact default_public|exact default_private| |clear; lia|exact default_size|exact Hm|exact Hr|exact Hen|clear - Hl; lia|exists ct; split; [exact E|exact D]].
  split; [vm_compute; reflexivity|]. split; [apply (bool_decide_unpack _); vm_compute; exact I|]. split; [|split; [reflexivity|vm_compute; reflexivity]].
  intros p Hin. split; [apply Hp; assumption|].
  assert (forallb (fun p => (2 <? p) && ((65537 * priv_d default_priv - 1) mod (p - 1) =? 0)) (priv_primes default_priv) = true) as E by (vm_compute; reflexivity).
  rewrite forallb_forall in E. apply elem_of_list_In in Hin. specialize (E p Hin). apply andb_prop in E as [E1 E2]. apply Z.ltb_lt in E1. apply Z.eqb_eq in E2.
  split; [clear - E1; lia|]. apply Z.mod_divide; [clear - E1; lia|exact E2].
Qed.
Theorem c105_default_keys : forall fs msg rnd, Forall isbyte msg -> Forall isbyte rnd -> enough_random 128 rnd -> (length msg <= 117)%nat ->
  exists ct, RsaEncrypt golib defaultPubKey fs rnd msg [] = (ct, false) /\ RsaDecrypt golib defaultPriKey fs ct [] = (msg, false).
Proof. exact (default_keys_if default_primes). Qed.
Print Assumptions c105_default_keys.
(** The private key is two numbers of 512 bits. *)
Example c105_ex : Z.log2 <$> priv_primes default_priv = [511; 511] /\ prod (priv_primes default_priv) = default_n.
Proof. vm_compute. auto. Qed.
