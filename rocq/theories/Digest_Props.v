(** Properties C132-C134: the digests of util/encode.go (MD5, Md5Str, SHA1, Sha1Str, Blake2b) and what is built on them. *)
From stdpp Require Import list.
From Coq Require Import ZArith Lia.
From Verif Require Import GoInt Hash_Model Util_Model Aes_Model Aes_Proofs Util_Proofs Keystore_Model Digest_Model Digest_Spec Digest_Proofs.
Local Open Scope Z_scope.

(** C132 is false of MD5: after the two strings of [wang1] and [wang2], every common continuation gives two different inputs
    with one digest and one Md5Str. *)
Theorem c132_md5_tells_apart_refuted : forall x,
  wang1 ++ x <> wang2 ++ x /\ is_bytes wang1 /\ is_bytes wang2 /\
  md5 (wang1 ++ x) = md5 (wang2 ++ x) /\ Md5Str (wang1 ++ x) = Md5Str (wang2 ++ x).
Proof.
  intros x. assert (E : md5 (wang1 ++ x) = md5 (wang2 ++ x)).
  { rewrite !md5_out. f_equal.
    apply (mdh_common md5_block md5_init ok4 (le_bytes 8) md5_block_ok (Compress_Proofs.le_bytes_length 8) (fun n => proj1 (le_bytes_ok 8 n)) le_bytes_inj 2); [reflexivity|reflexivity|].
    vm_compute. reflexivity. }
  split.
  { intros E2. apply app_inv_tail in E2. discriminate. }
  split; [repeat constructor; cbv; intuition discriminate|]. split; [repeat constructor; cbv; intuition discriminate|].
  split; [exact E|]. unfold Md5Str. rewrite E. reflexivity.
Qed.
Print Assumptions c132_md5_tells_apart_refuted.
(** C132 is false of SHA1: likewise after the two strings of 320 bytes of [shat1] and [shat2]. *)
Theorem c132_sha1_tells_apart_refuted : forall x,
  shat0 ++ shat1 ++ x <> shat0 ++ shat2 ++ x /\ is_bytes (shat0 ++ shat1) /\ is_bytes (shat0 ++ shat2) /\
  sha1 (shat0 ++ shat1 ++ x) = sha1 (shat0 ++ shat2 ++ x) /\ Sha1Str (shat0 ++ shat1 ++ x) = Sha1Str (shat0 ++ shat2 ++ x).
Proof.
  intros x. assert (E : sha1 (shat0 ++ shat1 ++ x) = sha1 (shat0 ++ shat2 ++ x)).
  { rewrite !sha1_out. f_equal. rewrite !(app_assoc shat0).
    apply (mdh_common sha1_block sha1_init ok5 (be_bytes 8) sha1_block_ok (Compress_Proofs.be_bytes_length 8) (fun n => proj1 (be_bytes_ok 8 n)) be_bytes_inj 5); [reflexivity|reflexivity|].
    vm_compute. reflexivity. }
  split.
  { intros E2. rewrite !(app_assoc shat0) in E2. apply app_inv_tail in E2. discriminate. }
  split; [repeat constructor; cbv; intuition discriminate|]. split; [repeat constructor; cbv; intuition discriminate|].
  split; [exact E|]. unfold Sha1Str. rewrite E. reflexivity.
Qed.
Print Assumptions c132_sha1_tells_apart_refuted.
(** C132. What it means for the key store and for AES: two different passwords leave one and the same store and file, and two
    different iv strings make one and the same Aes. *)
Theorem c132_password_and_iv_refuted : forall x z o sec name ty s key,
  wang1 ++ x <> wang2 ++ x /\
  PutUser z o sec name (wang1 ++ x) ty s = PutUser z o sec name (wang2 ++ x) ty s /\
  NewAes (wang1 ++ x) key = NewAes (wang2 ++ x) key.
Proof.
  intros x z o sec name ty s key. destruct (c132_md5_tells_apart_refuted x) as (H & _ & _ & E & E').
  split; [exact H|]. unfold PutUser, NewAes. rewrite E, E'. split; reflexivity.
Qed.
Print Assumptions c132_password_and_iv_refuted.
(** C132, what does hold: a collision of MD5 or SHA1 is never due to the way messages are padded and cut; it comes with a
    collision of the compression function.  (Missing: that there is none.) *)
Theorem c132_md5_collision_partial : forall m m', is_bytes m -> is_bytes m' ->
  Z.of_nat (length m) < 2 ^ 61 -> Z.of_nat (length m') < 2 ^ 61 ->
  m <> m' -> md5 m = md5 m' -> md5_compression_collision.
Proof.
  intros m m' Hb Hb' Hl Hl' Hn E. rewrite !md5_out in E. apply out4_inj in E; [|apply mdh4_ok|apply mdh4_ok].
  destruct (mdh_collision md5_block md5_init ok4 (le_bytes 8) md5_init_ok md5_block_ok (Compress_Proofs.le_bytes_length 8)
    (fun n => proj1 (le_bytes_ok 8 n)) le_bytes_inj m m' Hb Hb' Hl Hl' Hn E)
    as ([[[a b] c] d] & k & [[[a' b'] c'] d'] & k' & H1 & H2 & H3 & H4 & H5 & H6 & H7 & H8).
  exists a, b, c, d, k, a', b', c', d', k'. repeat (split; [assumption|]). exact H8.
Qed.
Print Assumptions c132_md5_collision_partial.
(** C132, SHA1. *)
Theorem c132_sha1_collision_partial : forall m m', is_bytes m -> is_bytes m' ->
  Z.of_nat (length m) < 2 ^ 61 -> Z.of_nat (length m') < 2 ^ 61 ->
  m <> m' -> sha1 m = sha1 m' -> sha1_compression_collision.
Proof.
  intros m m' Hb Hb' Hl Hl' Hn E. rewrite !sha1_out in E. apply out5_inj in E; [|apply mdh5_ok|apply mdh5_ok].
  destruct (mdh_collision sha1_block sha1_init ok5 (be_bytes 8) sha1_init_ok sha1_block_ok (Compress_Proofs.be_bytes_length 8)
    (fun n => proj1 (be_bytes_ok 8 n)) be_bytes_inj m m' Hb Hb' Hl Hl' Hn E)
    as ([[[[a b] c] d] e] & k & [[[[a' b'] c'] d'] e'] & k' & H1 & H2 & H3 & H4 & H5 & H6 & H7 & H8).
  exists a, b, c, d, e, k, a', b', c', d', e', k'. repeat (split; [assumption|]). exact H8.
Qed.
Print Assumptions c132_sha1_collision_partial.
Example c132_ex : md5 wang1 = [121; 5; 64; 37; 37; 95; 177; 162; 110; 75; 196; 34; 174; 245; 78; 180] /\ md5 wang2 = md5 wang1 /\
  Z.of_nat (length wang1) < 2 ^ 61 /\ md5_compression_collision.
Proof.
  destruct (c132_md5_tells_apart_refuted []) as (Hn & H1 & H2 & E & _). rewrite !app_nil_r in *.
  split; [vm_compute; reflexivity|]. split; [symmetry; exact E|]. split; [reflexivity|].
  apply (c132_md5_collision_partial wang1 wang2 H1 H2); auto; reflexivity.
Qed.

(** C133. Whoever knows the digest and the length of a message, but not the message, computes the digest of a longer one: the
    message, its padding, and any [x]. *)
Theorem c133_md5_extension : forall m x,
  md5 (m ++ tail_md5 (length m) ++ x) = md5_from (md5 m) (x ++ tail_md5 (length m + length (tail_md5 (length m)) + length x)).
Proof.
  intros m x. rewrite !md5_out, md5_from_out by apply mdh4_ok. f_equal.
  change (tail_md5 (length m)) with (tl (le_bytes 8) (length m)).
  rewrite (mdh_extend md5_block md5_init ok4 (le_bytes 8) md5_block_ok (Compress_Proofs.le_bytes_length 8) (fun n => proj1 (le_bytes_ok 8 n)) le_bytes_inj).
  do 3 f_equal. change (tl (le_bytes 8)) with tail_md5. f_equal. rewrite !app_length. lia.
Qed.
Print Assumptions c133_md5_extension.
(** C133, SHA1. *)
Theorem c133_sha1_extension : forall m x,
  sha1 (m ++ tail_sha1 (length m) ++ x) = sha1_from (sha1 m) (x ++ tail_sha1 (length m + length (tail_sha1 (length m)) + length x)).
Proof.
  intros m x. rewrite !sha1_out, sha1_from_out by apply mdh5_ok. f_equal.
  change (tail_sha1 (length m)) with (tl (be_bytes 8) (length m)).
  rewrite (mdh_extend sha1_block sha1_init ok5 (be_bytes 8) sha1_block_ok (Compress_Proofs.be_bytes_length 8) (fun n => proj1 (be_bytes_ok 8 n)) be_bytes_inj).
  do 3 f_equal. change (tl (be_bytes 8)) with tail_sha1. f_equal. rewrite !app_length. lia.
Qed.
Print Assumptions c133_sha1_extension.
(** The secret "key", known only by its length 3 and its digest, followed by the padding and "x". *)
Example c133_ex : md5_from (md5 [107; 101; 121]) ([120] ++ tail_md5 65) = md5 ([107; 101; 121] ++ tail_md5 3 ++ [120]) /\
  length (tail_md5 3) = 61%nat /\ Md5Str [107; 101; 121] <> Md5Str ([107; 101; 121] ++ tail_md5 3 ++ [120]).
Proof. split; [vm_compute; reflexivity|]. split; [reflexivity|]. vm_compute. discriminate. Qed.

(** C134. Blake2b never reports an error and always gives 32 bytes. *)
Theorem c134_blake2b_total : forall m, (Blake2b m).2 = false /\ is_bytes (Blake2b m).1 /\ length (Blake2b m).1 = 32%nat.
Proof.
  intros m. split; [reflexivity|]. unfold Blake2b. cbn [fst].
  pose proof (b2_loop_length (S (length m)) b2_init 0 m (proj1 b2_init_ok)) as H. revert H. generalize (b2_loop (S (length m)) b2_init 0 m).
  intros l H. do 4 (destruct l as [|? l]; [discriminate|]). cbn [firstn flat_map].
  split; [repeat (apply app_ok; [apply le_bytes_ok|])|]; [constructor|].
  rewrite !app_length, !(proj2 (le_bytes_ok 8 _)). reflexivity.
Qed.
Print Assumptions c134_blake2b_total.
(** C134. Two inputs with one digest always come with a collision of the compression function, cut down to the 32 bytes of the
    digest: inputs that differ only in zero bytes at their end, or where one is the start of the other, are told apart by the
    counter.  Inputs below 2^63 bytes, as all Go slices. *)
Theorem c134_blake2b_collision : forall m m', is_bytes m -> is_bytes m' ->
  Z.of_nat (length m) < 2 ^ 63 -> Z.of_nat (length m') < 2 ^ 63 ->
  m <> m' -> (Blake2b m).1 = (Blake2b m').1 -> blake2b_compression_collision.
Proof.
  intros m m' Hb Hb' Hl Hl' Hn E. unfold Blake2b in E. cbn [fst] in E. destruct b2_init_ok as [I1 I2].
  apply flat_le_inj in E.
  2, 3: apply Forall_take, b2_loop_ok; exact I2.
  2: rewrite !firstn_length, !b2_loop_length by exact I1; reflexivity.
  destruct (decide (length m = length m')) as [El|El].
  - rewrite <- El in E. apply (b2_same (S (length m)) b2_init b2_init 0 m m'); auto; try lia. congruence.
  - destruct (b2_last (S (length m)) b2_init 0 m) as (h & b & H1 & H2 & H3 & H4 & H5); auto; try lia.
    destruct (b2_last (S (length m')) b2_init 0 m') as (h' & b' & H1' & H2' & H3' & H4' & H5'); auto; try lia.
    rewrite H5, H5' in E. exists h, b, (0 + Z.of_nat (length m)), true, h', b', (0 + Z.of_nat (length m')), true.
    repeat (split; [first [assumption|lia]|]). split; [|exact E]. intros [= _ _ E2]. lia.
Qed.
Print Assumptions c134_blake2b_collision.
Example c134_ex : (Blake2b []).1 <> (Blake2b [0]).1 /\ (Blake2b [97; 98; 99]).1 =
  [189; 221; 129; 60; 99; 66; 57; 114; 49; 113; 239; 63; 238; 152; 87; 155; 148; 150; 78; 59; 177; 203; 62; 66; 114; 98; 200; 192; 104; 213; 35; 25].
Proof. split; [vm_compute; discriminate|vm_compute; reflexivity]. Qed.
