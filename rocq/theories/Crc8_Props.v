(** Properties C07-C08: CRC8 of util/encode.go. *)
From Coq Require Import ZArith List Bool Lia.
From Verif Require Import GoInt Num_Spec Crc8_Model Crc8_Spec Crc8_Proofs.
Import ListNotations.
Local Open Scope Z_scope.

(** C07. CRC8 is the remainder of M(x)*x^8 by x^8+x^2+x+1, and there is only one such value. *)
Theorem c07_crc8_is_polynomial_remainder :
  forall m, is_bytes m -> is_crc m (CRC8 m) /\ (forall c, is_crc m c -> c = CRC8 m).
Proof.
  intros m Hm. split; [exact (crc8_is_crc m Hm)|].
  intros c Hc. exact (is_crc_unique m c _ Hc (crc8_is_crc m Hm)).
Qed.
Print Assumptions c07_crc8_is_polynomial_remainder.

(** C07. The checksum of a concatenation depends on the first part only through its checksum. *)
Theorem c07_crc8_incremental :
  forall a a' b, CRC8 a = CRC8 a' -> CRC8 (a ++ b) = CRC8 (a' ++ b).
Proof.
  assert (G : forall a b r, crc8_loop (a ++ b) r = crc8_loop b (crc8_loop a r))
    by (induction a; intros; cbn; auto).
  intros a a' b H. unfold CRC8 in *. rewrite !G, H. reflexivity.
Qed.
Print Assumptions c07_crc8_incremental.

(** C07. Appending the checksum makes the checksum zero. *)
Theorem c07_crc8_residue : forall m, CRC8 (m ++ [CRC8 m]) = 0.
Proof.
  assert (G : forall a b r, crc8_loop (a ++ b) r = crc8_loop b (crc8_loop a r))
    by (induction a; intros; cbn; auto).
  intros m. unfold CRC8. rewrite G. cbn [crc8_loop]. rewrite Z.lxor_nilpotent. reflexivity.
Qed.
Print Assumptions c07_crc8_residue.
Example c07_ex : CRC8 [49; 50; 51; 52; 53; 54; 55; 56; 57] = 244 (* the CRC-8 check value 0xF4 *)
  /\ CRC8 [49; 50; 51; 52; 53; 54; 55; 56; 57; 244] = 0.
Proof. vm_compute. auto. Qed.

(** C08. Any error confined to 8 consecutive bit positions is detected. *)
Theorem c08_crc8_detects_bursts :
  forall m m' e k, is_bytes m -> is_bytes m' -> 0 < e < 256 -> 0 <= k ->
    error_pattern m m' = Z.shiftl e k -> CRC8 m <> CRC8 m'.
Proof.
  intros m m' e k Hm Hm' He Hk HE H.
  destruct (same_crc_divides m m' Hm Hm' H) as [q [Hq E]].
  rewrite HE in E. exact (burst_detected e k q Hq He Hk E).
Qed.
Print Assumptions c08_crc8_detects_bursts.

(** C08. Any odd number of flipped bits is detected. *)
Theorem c08_crc8_detects_odd_errors :
  forall m m', is_bytes m -> is_bytes m' -> odd_weight (error_pattern m m') = true -> CRC8 m <> CRC8 m'.
Proof.
  intros m m' Hm Hm' Ho H.
  destruct (same_crc_divides m m' Hm Hm' H) as [q [Hq E]].
  rewrite <- E, timesP_even_weight in Ho by exact Hq. discriminate.
Qed.
Print Assumptions c08_crc8_detects_odd_errors.

(** C08. Any two flipped bits less than 127 positions apart are detected. *)
Theorem c08_crc8_detects_two_bits :
  forall m m' d k, is_bytes m -> is_bytes m' -> 0 < d < 127 -> 0 <= k ->
    error_pattern m m' = Z.shiftl (1 + 2^d) k -> CRC8 m <> CRC8 m'.
Proof.
  intros m m' d k Hm Hm' Hd Hk HE H.
  destruct (same_crc_divides m m' Hm Hm' H) as [q [Hq E]].
  rewrite HE in E. exact (two_bits_detected d k q Hq Hd Hk E).
Qed.
Print Assumptions c08_crc8_detects_two_bits.
Example c08_ex : error_pattern [1; 2; 3] [1; 66; 2] = Z.shiftl 1 14 + 1
  /\ odd_weight (error_pattern [7; 0] [0; 0]) = true
  /\ error_pattern [1; 255; 0] [1; 240; 128] = Z.shiftl (15 * 2 + 1) 7.
Proof. vm_compute. auto. Qed.

(** The distance bound is sharp: two bits 127 apart go unnoticed. *)
Theorem c08_crc8_misses_distance_127_refuted :
  exists m m', is_bytes m /\ is_bytes m' /\ length m = length m' /\
    error_pattern m m' = 1 + 2^127 /\ CRC8 m = CRC8 m'.
Proof.
  exists (128 :: repeat 0 14 ++ [1]), (repeat 0 16). repeat split; try (vm_compute; reflexivity).
  all: repeat (constructor; [unfold is_u8; lia|]); constructor.
Qed.
Print Assumptions c08_crc8_misses_distance_127_refuted.
