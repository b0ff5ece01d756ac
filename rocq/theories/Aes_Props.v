(** Properties C14-C16: AES-CBC of keystore/aes.go. *)
From stdpp Require Import list.
From Coq Require Import ZArith Lia.
From Verif Require Import GoInt GoSlice Hash_Model Aes_Model Aes_Spec Aes_Proofs.
Local Open Scope Z_scope.
Ltac evalto t E := let v := eval vm_compute in t in assert (E : t = v) by (vm_compute; reflexivity).

(** C14. Decryption under the same iv and key strings returns the plaintext, whatever the slice and whatever append leaves to spare. *)
Theorem c14_aes_round_trip : forall iv key h src grow, wf h src -> is_bytes (rd h src) ->
  let r := EncrypterCbc (NewAes iv key) h src grow in
  length (rd r.1 r.2) = (16 * (slen src / 16 + 1))%nat /\
  exists h2 r2, DecrypterCbc (NewAes iv key) r.1 r.2 = Some (h2, r2) /\ rd h2 r2 = rd h src.
Proof.
  intros iv key h src g Hw Hb r. destruct (round_trip (NewAes iv key) h src g (good_new iv key) Hw Hb) as (h2 & r2 & H1 & H2 & H3).
  split; [exact H3|]. exists h2, r2. auto.
Qed.
Print Assumptions c14_aes_round_trip.
(** C14. The same for the functions that take one string for both. *)
Theorem c14_aes_round_trip_one_string : forall key h src grow, wf h src -> is_bytes (rd h src) ->
  let r := AesEncrypter h src key grow in
  length (rd r.1 r.2) = (16 * (slen src / 16 + 1))%nat /\
  exists h2 r2, AesDecrypter r.1 r.2 key = Some (h2, r2) /\ rd h2 r2 = rd h src.
Proof. intros key h src g. exact (c14_aes_round_trip key key h src g). Qed.
Print Assumptions c14_aes_round_trip_one_string.
(** C14. What is sent is AES-256 in CBC mode of the plaintext padded as in PKCS#7, under SHA-256 of the key string and MD5 of the iv
    string: any other implementation of these reads it. *)
Theorem c14_aes_is_standard_cbc : forall iv key h src grow, wf h src -> is_bytes (rd h src) ->
  let r := EncrypterCbc (NewAes iv key) h src grow in
  exists p, padded_to (rd h src) p /\ cbc_encryption (sha256 key) (md5 iv) p (rd r.1 r.2) /\ (forall p', padded_to (rd h src) p' -> p' = p).
Proof.
  intros iv key h src g Hw Hb r. destruct (encrypter_rd (NewAes iv key) h src g (good_new iv key) Hw Hb) as (H1 & H2 & H3 & H4 & H5). fold r in H1, H2, H5.
  assert (Hp : padded_to (rd h src) (rd h src ++ pad (slen src))) by (rewrite <- (rd_length h src Hw); apply pad_spec).
  eexists. split; [exact Hp|]. split.
  - rewrite H1. destruct (good_new iv key) as [[Hk1 Hk2] [Hi1 Hi2]]. apply (cbc_encrypt_spec (commonKey256 (NewAes iv key)) _ (commonIV (NewAes iv key)) _ Hk2 Hk1 (conj Hi2 Hi1) H4).
    rewrite H3, Nat.div_mul by lia. reflexivity.
  - intros p' Hp'. exact (padded_to_unique _ _ _ Hp' Hp).
Qed.
Print Assumptions c14_aes_is_standard_cbc.
(** "attack at dawn!!" (16 bytes: a whole block of padding) under "key"; the ciphertext is openssl's. *)
Example c14_ex :
  let src := [97; 116; 116; 97; 99; 107; 32; 97; 116; 32; 100; 97; 119; 110; 33; 33] in
  let h := [src] in
  let r := AesEncrypter h (SL 0 0 16 16) [107; 101; 121] 5 in
  rd r.1 r.2 = [19; 180; 221; 153; 79; 173; 60; 238; 3; 251; 28; 225; 245; 73; 43; 17; 48; 166; 189; 122; 129; 214; 215; 246; 239; 232; 109; 38; 57; 75; 205; 224] /\
  match AesDecrypter r.1 r.2 [107; 101; 121] with Some (h2, r2) => rd h2 r2 = src | None => False end.
Proof. vm_compute. auto. Qed.

(** C15. DecrypterCbc of any bytes: with p the CBC decryption, the result is p without as many bytes as its last byte says; the function
    panics when there is no last byte, when the blocks are not whole, and when there are not as many bytes; it does nothing else.  The
    result is a new array; nothing visible before changes. *)
Theorem c15_aes_decrypt_any_input : forall a h bs, good a -> wf h bs -> is_bytes (rd h bs) ->
  let n := length (rd h bs) in
  ((n = 0 \/ n mod 16 <> 0)%nat -> DecrypterCbc a h bs = None) /\
  ((0 < n /\ n mod 16 = 0)%nat -> exists p b, cbc_decryption (commonKey256 a) (commonIV a) (rd h bs) p /\ last p = Some b /\ 0 <= b < 256 /\
    (Z.of_nat n < b -> DecrypterCbc a h bs = None) /\
    (b <= Z.of_nat n -> exists h2 r2, DecrypterCbc a h bs = Some (h2, r2) /\ rd h2 r2 = take (n - Z.to_nat b) p /\
       forall t, wf h t -> rd h2 t = rd h t /\ sarr r2 <> sarr t)).
Proof.
  intros a h bs Hg Hw Hb n. unfold n. rewrite rd_length by exact Hw. destruct (decrypter_spec a h bs Hg Hw) as (D1 & D2 & D3). split; [intros [H|H]; auto|].
  intros [Hn Hm]. destruct (D3 Hm) as (D4 & D5 & D6). specialize (D5 Hb). set (p := cbc_decrypt (slen bs / 16) (commonKey256 a) (commonIV a) (rd h bs)) in *.
  pose proof (proj1 D4) as Hl. rewrite rd_length in Hl by exact Hw. destruct (last p) as [b|] eqn:Hlast; [|apply last_None in Hlast; rewrite Hlast in Hl; cbn in Hl; lia].
  assert (Hu : 0 <= b < 256). { apply last_Some in Hlast as [l' Hp]. rewrite Hp in D5. apply Forall_app in D5 as [_ D5]. apply Forall_cons in D5 as [D5 _]. exact D5. }
  exists p, b. split; [exact D4|]. split; [exact Hlast|]. split; [exact Hu|]. rewrite (D6 b eq_refl). split.
  - intros H. destruct (Z.ltb_spec (Z.of_nat (slen bs)) b); [reflexivity|lia].
  - intros H. destruct (Z.ltb_spec (Z.of_nat (slen bs)) b); [lia|]. eexists _, _. split; [reflexivity|]. split; [unfold rd; cbn [sarr soff slen]; rewrite array_new, drop_0; reflexivity|].
    intros t (Ht & _). split; [apply rd_app; exact Ht|cbn [sarr]; lia].
Qed.
Print Assumptions c15_aes_decrypt_any_input.
(** C15. So damaged data is not always noticed: there is a ciphertext of EncrypterCbc and a changed copy of it that DecrypterCbc accepts,
    with another plaintext. *)
Theorem c15_aes_no_authentication : exists key src c c' h2 r2 h3 r3,
  (let r := AesEncrypter [src] (SL 0 0 (length src) (length src)) key 0 in rd r.1 r.2 = c) /\
  c' <> c /\
  AesDecrypter [c] (SL 0 0 (length c) (length c)) key = Some (h2, r2) /\ rd h2 r2 = src /\
  AesDecrypter [c'] (SL 0 0 (length c') (length c')) key = Some (h3, r3) /\ rd h3 r3 <> src.
Proof.
  set (src := [97; 116; 116; 97; 99; 107; 32; 97; 116; 32; 100; 97; 119; 110; 33; 33]).
  set (c := [19; 180; 221; 153; 79; 173; 60; 238; 3; 251; 28; 225; 245; 73; 43; 17; 48; 166; 189; 122; 129; 214; 215; 246; 239; 232; 109; 38; 57; 75; 205; 224]).
  evalto (AesDecrypter [c] (SL 0 0 32 32) [107; 101; 121]) E. evalto (AesDecrypter [<[0%nat := 48]> c] (SL 0 0 32 32) [107; 101; 121]) E'.
  exists [107; 101; 121], src, c, (<[0%nat := 48]> c). eexists _, _, _, _. split; [vm_compute; reflexivity|]. split; [vm_compute; discriminate|].
  split; [exact E|]. split; [vm_compute; reflexivity|]. split; [exact E'|]. vm_compute. discriminate.
Qed.
Print Assumptions c15_aes_no_authentication.
(** 16 zeros decrypt to something ending in a byte above 16: DecrypterCbc panics, as for 15 bytes and for none; the encryption of 16 bytes
    ending in 0 comes back whole, that of 16 bytes ending in 16 comes back empty. *)
Example c15_ex : let a := NewAes [] [107; 101; 121] in
  good a /\ DecrypterCbc a [replicate 16 0] (SL 0 0 16 16) = None /\ DecrypterCbc a [replicate 16 0] (SL 0 0 15 16) = None /\ DecrypterCbc a [replicate 16 0] (SL 0 0 0 16) = None /\
  (let p := [1; 2; 3; 4; 5; 6; 7; 8; 9; 10; 11; 12; 13; 14; 15; 0] in
   let c := cbc_encrypt 1 (commonKey256 a) (commonIV a) p in
   match DecrypterCbc a [c] (SL 0 0 16 16) with Some (h2, r2) => rd h2 r2 = p | None => False end) /\
  (let p := [1; 2; 3; 4; 5; 6; 7; 8; 9; 10; 11; 12; 13; 14; 15; 16] in
   let c := cbc_encrypt 1 (commonKey256 a) (commonIV a) p in
   match DecrypterCbc a [c] (SL 0 0 16 16) with Some (h2, r2) => rd h2 r2 = [] | None => False end).
Proof. split; [apply good_new|]. vm_compute. auto. Qed.

(** C16 is false of the code: with room behind the slice, the caller's bytes are overwritten by the ciphertext. *)
Theorem c16_aes_encrypt_preserves_src_refuted : exists iv key h src grow, wf h src /\ is_bytes (rd h src) /\
  rd (EncrypterCbc (NewAes iv key) h src grow).1 src <> rd h src.
Proof.
  exists [], [107], [[1; 2; 3] ++ replicate 20 0], (SL 0 0 3 23), 0%nat. split; [vm_compute; repeat split; lia|]. split.
  - change (is_bytes [1; 2; 3]). unfold is_bytes. rewrite !Forall_cons. unfold is_u8. repeat split; try lia. constructor.
  - vm_compute. discriminate.
Qed.
Print Assumptions c16_aes_encrypt_preserves_src_refuted.
(** C16, exactly when: if the capacity leaves no room for the padding, every slice keeps its bytes, the caller's too. *)
Theorem c16_aes_encrypt_no_room_partial : forall a h src grow t, good a -> wf h src -> is_bytes (rd h src) -> wf h t ->
  (scap src < 16 * (slen src / 16 + 1))%nat ->
  rd (EncrypterCbc a h src grow).1 t = rd h t.
Proof.
  intros a h src g t Hg Hw Hb Ht Hcap. unfold EncrypterCbc, append. rewrite decide_False by (rewrite pad_length; pose proof (pad_total (slen src)); lia).
  cbn [fst]. destruct Ht as (Ht & _). cbn [sarr]. rewrite rd_wr_ne by lia. apply rd_app. exact Ht.
Qed.
Print Assumptions c16_aes_encrypt_no_room_partial.
(** C16, and otherwise: the result is the caller's own memory, from the same place on, so the caller's slice holds the beginning of the
    ciphertext; slices of other arrays, and of the part of this array not reached, keep their bytes. *)
Theorem c16_aes_encrypt_room_overwrites_partial : forall a h src grow, good a -> wf h src -> is_bytes (rd h src) ->
  (16 * (slen src / 16 + 1) <= scap src)%nat ->
  let r := EncrypterCbc a h src grow in
  rd r.1 src = take (slen src) (rd r.1 r.2) /\ sarr r.2 = sarr src /\ soff r.2 = soff src /\
  (forall t, wf h t -> (sarr t <> sarr src \/ soff t + slen t <= soff src)%nat -> rd r.1 t = rd h t).
Proof.
  intros a h src g Hg Hw Hb Hcap r. assert (Hr : sarr r.2 = sarr src /\ soff r.2 = soff src /\ slen r.2 = (16 * (slen src / 16 + 1))%nat).
  { unfold r, EncrypterCbc, append. pose proof (pad_total (slen src)). rewrite decide_True by (rewrite pad_length; lia). cbn [fst snd sarr soff slen]. rewrite pad_length. repeat split; lia. }
  destruct Hr as (H1 & H2 & H3). split; [|split; [exact H1|split; [exact H2|]]].
  - unfold rd. rewrite H1, H2, take_take. f_equal. pose proof (pad_total (slen src)). lia.
  - intros t Ht Hor. unfold r, EncrypterCbc, append. pose proof (pad_total (slen src)) as Hpt. rewrite decide_True by (rewrite pad_length; lia). cbn [fst sarr soff].
    destruct Hw as (W1 & W2 & W3), Ht as (T1 & T2 & T3). destruct (decide (sarr t = sarr src)) as [E|E].
    + destruct Hor as [?|Hor]; [contradiction|]. rewrite <- E. rewrite rd_wr_below; [apply rd_wr_below; [exact T1|lia|rewrite E; lia]|rewrite wr_length; exact T1|lia|].
      rewrite array_wr by exact T1. rewrite over_length by (rewrite pad_length, E; lia). rewrite E. lia.
    + rewrite !rd_wr_ne by exact E. reflexivity.
Qed.
Print Assumptions c16_aes_encrypt_room_overwrites_partial.
(** A caller encrypts the first three of 23 bytes they hold. *)
Example c16_ex : let h := [[1; 2; 3] ++ replicate 20 9] in
  let r := EncrypterCbc (NewAes [] [107]) h (SL 0 0 3 23) 0 in
  wf h (SL 0 0 3 23) /\ rd h (SL 0 0 3 23) = [1; 2; 3] /\ rd r.1 (SL 0 0 3 23) = take 3 (rd r.1 r.2) /\ rd r.1 (SL 0 0 3 23) <> [1; 2; 3] /\
  (let r' := EncrypterCbc (NewAes [] [107]) h (SL 0 0 3 15) 0 in rd r'.1 (SL 0 0 3 15) = [1; 2; 3]).
Proof. split; [vm_compute; repeat split; lia|]. vm_compute. repeat split; congruence. Qed.
