(** Facts about the CRC64 the ring uses. *)
From stdpp Require Import prelude.
From Coq Require Import ZArith Lia.
From Verif Require Import GoInt CHash_Model CHash_Spec.
Local Open Scope Z_scope.

Lemma crc_bit_alt c : crc_bit c = Z.lxor (Z.shiftr c 1) (if Z.odd c then ecma else 0).
Proof. unfold crc_bit. destruct (Z.odd c); auto. rewrite Z.lxor_0_r. auto. Qed.

Lemma odd_lxor a b : Z.odd (Z.lxor a b) = xorb (Z.odd a) (Z.odd b).
Proof. rewrite <- !Z.bit0_odd, Z.lxor_spec. auto. Qed.

Lemma lxor_swap4 a b c d : Z.lxor (Z.lxor a b) (Z.lxor c d) = Z.lxor (Z.lxor a c) (Z.lxor b d).
Proof. rewrite !Z.lxor_assoc. f_equal. rewrite <- !Z.lxor_assoc. f_equal. apply Z.lxor_comm. Qed.

Lemma crc_bit_lxor a b : crc_bit (Z.lxor a b) = Z.lxor (crc_bit a) (crc_bit b).
Proof.
  rewrite !crc_bit_alt, Z.shiftr_lxor, odd_lxor, lxor_swap4. f_equal.
  destruct (Z.odd a), (Z.odd b); cbn [xorb]; rewrite ?Z.lxor_nilpotent, ?Z.lxor_0_r, ?Z.lxor_0_l; auto.
Qed.

Lemma crc_iter_lxor n a b : Nat.iter n crc_bit (Z.lxor a b) = Z.lxor (Nat.iter n crc_bit a) (Nat.iter n crc_bit b).
Proof. induction n as [|n IH]; [auto|]. cbn [Nat.iter]. unfold Nat.iter in *. cbn. rewrite IH. apply crc_bit_lxor. Qed.

Lemma crc_byte_lxor c c' b b' : crc_byte (Z.lxor c c') (Z.lxor b b') = Z.lxor (crc_byte c b) (crc_byte c' b').
Proof. unfold crc_byte. rewrite <- crc_iter_lxor. f_equal. apply lxor_swap4. Qed.

Lemma crc_raw_lxor bs : forall bs' c c', length bs = length bs' ->
  crc_raw (Z.lxor c c') (zip_with Z.lxor bs bs') = Z.lxor (crc_raw c bs) (crc_raw c' bs').
Proof.
  induction bs as [|b bs IH]; intros [|b' bs'] c c' E; try discriminate; auto.
  unfold crc_raw in *. cbn [fold_left zip_with]. rewrite crc_byte_lxor. apply IH. cbn in E. lia.
Qed.

Lemma crc64_lxor bs bs' : length bs = length bs' ->
  Z.lxor (crc64 bs) (crc64 bs') = crc_raw 0 (zip_with Z.lxor bs bs').
Proof.
  intros E. rewrite <- (Z.lxor_nilpotent (2^64 - 1)), (crc_raw_lxor bs bs') by auto. unfold crc64.
  rewrite lxor_swap4, Z.lxor_nilpotent, Z.lxor_0_r. auto.
Qed.

Lemma u8_lxor a b : u8 (Z.lxor a b) = Z.lxor (u8 a) (u8 b).
Proof.
  unfold u8. rewrite <- !Z.land_ones by lia. apply Z.bits_inj'. intros n Hn.
  rewrite !Z.land_spec, !Z.lxor_spec, !Z.land_spec. destruct (Z.testbit (Z.ones 8) n); [rewrite !andb_true_r|rewrite !andb_false_r]; auto.
Qed.

Lemma int64ToBytes_lxor a b : int64ToBytes (Z.lxor a b) = zip_with Z.lxor (int64ToBytes a) (int64ToBytes b).
Proof. unfold int64ToBytes. cbn [map zip_with]. rewrite !Z.shiftr_lxor, !u8_lxor. auto. Qed.

Lemma zip_app (a b c d : list Z) : length a = length c ->
  zip_with Z.lxor (a ++ b) (c ++ d) = zip_with Z.lxor a c ++ zip_with Z.lxor b d.
Proof. apply zip_with_app. Qed.

(** The difference between a node and its partner. *)
Definition delta : Z := 8025316695516917427.

Lemma points_lxor i i' k k' :
  Z.lxor (point crc64 i k) (point crc64 i' k') = crc_raw 0 (int64ToBytes (Z.lxor i i') ++ int64ToBytes (Z.lxor k k')).
Proof.
  unfold point. rewrite crc64_lxor by reflexivity. rewrite zip_app by reflexivity. rewrite <- !int64ToBytes_lxor. auto.
Qed.

Lemma partner_points k : point crc64 0 (Z.lxor k delta) = point crc64 1 k /\ point crc64 1 (Z.lxor k delta) = point crc64 0 k.
Proof.
  split; apply Z.lxor_eq; rewrite points_lxor; rewrite (Z.lxor_comm k delta), Z.lxor_assoc, Z.lxor_nilpotent, Z.lxor_0_r;
    vm_compute; reflexivity.
Qed.

(** *** range *)
Lemma lxor_u64 a b : is_u64 a -> is_u64 b -> is_u64 (Z.lxor a b).
Proof.
  unfold is_u64. intros Ha Hb. assert (0 <= Z.lxor a b) by (apply Z.lxor_nonneg; lia). split; [auto|].
  destruct (Z.eq_dec (Z.lxor a b) 0) as [->|]; [lia|]. apply Z.log2_lt_pow2; [lia|].
  pose proof (Z.log2_lxor a b ltac:(lia) ltac:(lia)).
  assert (forall x, 0 <= x < 2^64 -> Z.log2 x < 64).
  { intros x Hx. destruct (Z.eq_dec x 0) as [->|]; [cbn; lia|]. apply Z.log2_lt_pow2; lia. }
  pose proof (H1 a Ha). pose proof (H1 b Hb). lia.
Qed.

Lemma crc_bit_u64 c : is_u64 c -> is_u64 (crc_bit c).
Proof.
  intros Hc. rewrite crc_bit_alt. apply lxor_u64.
  - unfold is_u64 in *. rewrite Z.shiftr_div_pow2 by lia. split; [apply Z.div_pos; lia|]. apply Z.div_lt_upper_bound; lia.
  - destruct (Z.odd c); unfold is_u64, ecma; lia.
Qed.

Lemma crc_iter_u64 n c : is_u64 c -> is_u64 (Nat.iter n crc_bit c).
Proof. intros Hc. induction n as [|n IH]; [auto|]. apply crc_bit_u64, IH. Qed.

Lemma crc_byte_u64 c b : is_u64 c -> is_u64 b -> is_u64 (crc_byte c b).
Proof. intros Hc Hb. apply crc_iter_u64, lxor_u64; auto. Qed.

Lemma crc_raw_u64 bs : forall c, is_u64 c -> is_bytes bs -> is_u64 (crc_raw c bs).
Proof.
  induction bs as [|b bs IH]; intros c Hc Hb; [auto|]. apply Forall_cons in Hb as [Hb Hbs]. unfold crc_raw. cbn [fold_left]. apply IH; auto.
  apply crc_byte_u64; auto. unfold is_u8, is_u64 in *. lia.
Qed.

Lemma crc64_u64 bs : is_bytes bs -> is_u64 (crc64 bs).
Proof. intros Hb. apply lxor_u64; [apply crc_raw_u64; auto; unfold is_u64; lia|unfold is_u64; lia]. Qed.

Lemma int64ToBytes_bytes n : is_bytes (int64ToBytes n).
Proof. unfold int64ToBytes, is_bytes. cbn [map]. repeat constructor; apply u8_range. Qed.

(** *** the CRC of the last eight bytes is injective *)
(** a step backwards from a small register is a shift *)
Lemma crc_bit_small c m : is_u64 c -> 0 <= m < 64 -> crc_bit c < 2^m -> c = 2 * crc_bit c.
Proof.
  intros Hc Hm Hlt. unfold crc_bit in *. pose proof (Z.div_mod c 2 ltac:(lia)) as Hd.
  rewrite Zmod_odd in Hd. destruct (Z.odd c) eqn:Eo.
  - exfalso. rewrite Z.shiftr_div_pow2 in Hlt by lia. change (2^1) with 2 in Hlt.
    assert (Hb : Z.testbit (Z.lxor (c / 2) ecma) 63 = true).
    { rewrite Z.lxor_spec. replace (Z.testbit (c / 2) 63) with false; [reflexivity|]. symmetry.
      unfold is_u64 in Hc. apply Z.bits_above_log2; [lia|].
      destruct (Z.eq_dec (c / 2) 0) as [->|]; [cbn; lia|]. apply Z.log2_lt_pow2; lia. }
    assert (Hp : 0 <= Z.lxor (c / 2) ecma) by (apply Z.lxor_nonneg; unfold is_u64, ecma in *; lia).
    rewrite Z.testbit_true in Hb by lia. rewrite Z.div_small in Hb; [discriminate|].
    split; [auto|]. apply Z.lt_le_trans with (2^m); [auto|]. apply Z.pow_le_mono_r; lia.
  - rewrite Z.shiftr_div_pow2 by lia. change (2^1) with 2. lia.
Qed.

Lemma crc_iter_small n : forall c m, is_u64 c -> 0 <= m -> m + Z.of_nat n <= 64 ->
  Nat.iter n crc_bit c < 2^m -> c = 2^(Z.of_nat n) * Nat.iter n crc_bit c.
Proof.
  induction n as [|n IH]; intros c m Hc Hm Hmn Hlt.
  - cbn [Nat.iter] in *. rewrite Z.mul_1_l. auto.
  - replace (Nat.iter (S n) crc_bit c) with (crc_bit (Nat.iter n crc_bit c)) in * by reflexivity.
    assert (HE : Nat.iter n crc_bit c = 2 * crc_bit (Nat.iter n crc_bit c)).
    { apply crc_bit_small with m; auto; [apply crc_iter_u64; auto|lia]. }
    rewrite Nat2Z.inj_succ, Z.pow_succ_r by lia. set (y := crc_bit (Nat.iter n crc_bit c)) in *.
    rewrite (IH c (m + 1)); auto; [|lia|lia|].
    + rewrite HE at 1. lia.
    + rewrite HE. rewrite Z.pow_add_r by lia. lia.
Qed.

(** if the remaining bytes take the register to 0, it was their little-endian value *)
Fixpoint le (bs : list Z) : Z := match bs with [] => 0 | b :: r => b + 256 * le r end.

Lemma le_bound bs : is_bytes bs -> 0 <= le bs < 2^(8 * Z.of_nat (length bs)).
Proof.
  induction bs as [|b bs IH]; intros Hb; [cbn; lia|]. apply Forall_cons in Hb as [Hb Hbs]. specialize (IH Hbs).
  cbn [le length]. rewrite Nat2Z.inj_succ. replace (8 * Z.succ (Z.of_nat (length bs))) with (8 + 8 * Z.of_nat (length bs)) by lia.
  rewrite Z.pow_add_r by lia. change (2^8) with 256. unfold is_u8 in Hb. change (2^8) with 256 in Hb. lia.
Qed.

Lemma lxor_byte a b : is_u8 b -> 0 <= a -> Z.lxor (256 * a) b = 256 * a + b.
Proof.
  intros Hb Ha. unfold is_u8 in Hb. rewrite Z.add_nocarry_lxor; auto. apply Z.bits_inj'. intros n Hn.
  rewrite Z.land_spec, Z.bits_0. replace (256 * a) with (Z.shiftl a 8) by (rewrite Z.shiftl_mul_pow2 by lia; lia).
  rewrite Z.shiftl_spec by auto. destruct (Z.lt_ge_cases n 8).
  - rewrite Z.testbit_neg_r by lia. auto.
  - destruct (Z.eq_dec b 0) as [->|]; [rewrite Z.bits_0, andb_false_r; auto|].
    rewrite (Z.bits_above_log2 b n), andb_false_r; [auto|lia|].
    apply Z.lt_le_trans with 8; [apply Z.log2_lt_pow2; lia|auto].
Qed.

Lemma lxor_inv a b c : Z.lxor a b = c -> a = Z.lxor c b.
Proof. intros <-. rewrite Z.lxor_assoc, Z.lxor_nilpotent, Z.lxor_0_r. auto. Qed.

Lemma crc_raw_zero bs : forall c, is_u64 c -> is_bytes bs -> (length bs <= 8)%nat -> crc_raw c bs = 0 -> c = le bs.
Proof.
  induction bs as [|b bs IH]; intros c Hc Hb Hl H0; [auto|].
  apply Forall_cons in Hb as [Hb Hbs]. cbn [length] in Hl.
  assert (Hb64 : is_u64 b) by (unfold is_u8, is_u64 in *; lia).
  assert (HI : crc_byte c b = le bs).
  { apply IH; auto; [apply crc_byte_u64; auto|lia]. }
  pose proof (le_bound bs Hbs) as HL. unfold crc_byte in HI.
  assert (HE : Z.lxor c b = 2^8 * le bs).
  { rewrite <- HI. apply (crc_iter_small 8 _ (8 * Z.of_nat (length bs))); [apply lxor_u64; auto|lia| |rewrite HI; lia]. lia. }
  apply lxor_inv in HE. change (2^8) with 256 in HE. rewrite lxor_byte in HE by (auto; lia). cbn [le]. lia.
Qed.

Lemma le_zero bs : is_bytes bs -> le bs = 0 -> Forall (fun b => b = 0) bs.
Proof.
  induction bs as [|b bs IH]; intros Hb H0; [constructor|]. apply Forall_cons in Hb as [Hb Hbs].
  pose proof (le_bound bs Hbs). cbn in H0. unfold is_u8 in Hb. constructor; [lia|]. apply IH; auto. lia.
Qed.

Lemma int64ToBytes_zero n : Forall (fun b => b = 0) (int64ToBytes n) -> n mod 2^64 = 0.
Proof.
  unfold int64ToBytes. cbn [map]. intros HF. apply Z.bits_inj'. intros i Hi.
  rewrite Z.bits_0. destruct (Z.lt_ge_cases i 64) as [Hlt|Hge]; [|rewrite Z.mod_pow2_bits_high by lia; auto].
  rewrite Z.mod_pow2_bits_low by lia.
  assert (HB : u8 (Z.shiftr n (8 * (i / 8))) = 0).
  { pose proof (Z.div_pos i 8 Hi ltac:(lia)). pose proof (Z.div_lt_upper_bound i 8 8 ltac:(lia) ltac:(lia)).
    rewrite !Forall_cons in HF. destruct HF as (B0 & B1 & B2 & B3 & B4 & B5 & B6 & B7 & _).
    assert (HC : i / 8 = 0 \/ i / 8 = 1 \/ i / 8 = 2 \/ i / 8 = 3 \/ i / 8 = 4 \/ i / 8 = 5 \/ i / 8 = 6 \/ i / 8 = 7) by lia.
    repeat destruct HC as [->|HC]; try rewrite HC; assumption. }
  assert (HT : Z.testbit (u8 (Z.shiftr n (8 * (i / 8)))) (i mod 8) = false) by (rewrite HB; apply Z.bits_0).
  pose proof (Z.mod_pos_bound i 8 ltac:(lia)). unfold u8 in HT. rewrite Z.mod_pow2_bits_low, Z.shiftr_spec in HT by lia.
  rewrite <- HT. f_equal. pose proof (Z.div_mod i 8). lia.
Qed.

Lemma crc_raw_app bs bs' c : crc_raw c (bs ++ bs') = crc_raw (crc_raw c bs) bs'.
Proof. apply fold_left_app. Qed.
Lemma crc_raw_zeros : crc_raw 0 (int64ToBytes 0) = 0.
Proof. vm_compute. reflexivity. Qed.
Lemma crc_prefix_zero n : crc_raw 0 (int64ToBytes 0 ++ int64ToBytes n) = 0 -> crc_raw 0 (int64ToBytes n) = 0.
Proof. rewrite crc_raw_app, crc_raw_zeros. exact (fun H => H). Qed.
Lemma int64ToBytes_length n : length (int64ToBytes n) = 8%nat.
Proof. reflexivity. Qed.
Lemma crc_eight_zero n : crc_raw 0 (int64ToBytes n) = 0 -> n mod 2^64 = 0.
Proof.
  intros HZ. apply crc_raw_zero in HZ; [|unfold is_u64; lia|apply int64ToBytes_bytes|rewrite int64ToBytes_length; lia].
  symmetry in HZ. apply le_zero in HZ; [|apply int64ToBytes_bytes]. apply int64ToBytes_zero. exact HZ.
Qed.

Lemma lxor_mod_zero k k' : is_i64 k -> is_i64 k' -> Z.lxor k k' mod 2^64 = 0 -> k = k'.
Proof.
  intros Hk Hk' HZ.
  assert (HE : k mod 2^64 = k' mod 2^64).
  { apply Z.lxor_eq. rewrite <- HZ. rewrite <- !Z.land_ones by lia. apply Z.bits_inj'. intros n Hn.
    rewrite !Z.land_spec, !Z.lxor_spec, !Z.land_spec.
    destruct (Z.testbit (Z.ones 64) n); [rewrite !andb_true_r|rewrite !andb_false_r]; auto. }
  rewrite <- (wrapS_id 64 k), <- (wrapS_id 64 k') by (unfold is_i64 in *; lia). apply wrapS_eq_mod; [lia|auto].
Qed.

(** With one replica two int64 nodes never share a point. *)
Lemma point_inj i k k' : is_i64 k -> is_i64 k' -> point crc64 i k = point crc64 i k' -> k = k'.
Proof.
  intros Hk Hk' E. apply lxor_mod_zero; [exact Hk|exact Hk'|]. apply crc_eight_zero, crc_prefix_zero.
  pose proof (points_lxor i i k k') as HP. rewrite E, !Z.lxor_nilpotent in HP. symmetry. exact HP.
Qed.

Lemma lxor_delta_i64 k : is_i64 k -> is_i64 (Z.lxor k delta).
Proof.
  unfold is_i64. intros Hk.
  assert (Hb : forall z, (-2^63 <= z < 2^63) <-> 0 <= Z.lxor z (Z.shiftr z 63) < 2^63 /\ (Z.shiftr z 63 = 0 \/ Z.shiftr z 63 = -1)).
  { intros z. rewrite Z.shiftr_div_pow2 by lia. split.
    - intros Hz. destruct (Z.lt_ge_cases z 0).
      + assert (z / 2^63 = -1) as ->. { symmetry. apply Z.div_unique_pos with (z + 2^63); lia. }
        rewrite Z.lxor_m1_r. unfold Z.lnot. lia.
      + rewrite Z.div_small by lia. rewrite Z.lxor_0_r. lia.
    - intros [H1 [E|E]]; rewrite E in H1.
      + rewrite Z.lxor_0_r in H1. lia.
      + rewrite Z.lxor_m1_r in H1. unfold Z.lnot in H1. lia. }
  apply Hb in Hk as [H1 H2]. apply Hb. rewrite Z.shiftr_lxor. change (Z.shiftr delta 63) with 0. rewrite Z.lxor_0_r.
  split; [|auto]. rewrite Z.lxor_assoc, (Z.lxor_comm delta), <- Z.lxor_assoc.
  set (a := Z.lxor k (Z.shiftr k 63)) in *.
  assert (0 <= Z.lxor a delta) by (apply Z.lxor_nonneg; unfold delta; lia). split; [auto|].
  destruct (Z.eq_dec (Z.lxor a delta) 0) as [->|]; [lia|]. apply Z.log2_lt_pow2; [lia|].
  pose proof (Z.log2_lxor a delta ltac:(lia) ltac:(unfold delta; lia)) as HL.
  assert (Z.log2 delta = 62) as Hd by (vm_compute; reflexivity). rewrite Hd in HL.
  assert (Z.log2 a < 63). { destruct (Z.eq_dec a 0) as [->|]; [cbn; lia|]. apply Z.log2_lt_pow2; lia. } lia.
Qed.
