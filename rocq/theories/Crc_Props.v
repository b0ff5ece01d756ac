(** Properties C112-C115: CRC32 and CRC64 of util/encode.go. *)
From Coq Require Import ZArith List Bool Lia ZifyBool ZifyNat Znumtheory MSets.MSetPositive.
From Verif Require Import GoInt Crc_Model Crc_Spec Crc_Proofs CrcCode_Proofs CrcStd_Proofs.
From Verif Require CHash_Model.
Import ListNotations.
Local Open Scope Z_scope.

(** ** The two generators *)
Definition mid32 : list Z := [6; 9; 10; 16; 20; 21; 22; 24; 25; 27; 28; 30; 31].
Definition mid64 : list Z :=
  [2; 7; 9; 10; 11; 12; 17; 18; 19; 24; 25; 26; 27; 29; 31; 32; 33; 35; 37; 40; 41; 42; 43; 45; 47; 51; 52; 54; 55; 57; 60; 63].
Definition gmid32 : list Z := [1; 2; 4; 5; 7; 8; 10; 11; 12; 16; 22; 23; 26].
Definition gmid64 : list Z :=
  [1; 4; 7; 9; 10; 12; 13; 17; 19; 21; 22; 23; 24; 27; 29; 31; 32; 33; 35; 37; 38; 39; 40; 45; 46; 47; 52; 53; 54; 55; 57; 62].
Lemma w32 : 8 <= 32. Proof. lia. Qed.
Lemma w64 : 8 <= 64. Proof. lia. Qed.
Lemma mid32_ok : Forall (fun e => 0 < e < 32) mid32. Proof. repeat constructor. Qed.
Lemma mid64_ok : Forall (fun e => 0 < e < 64) mid64. Proof. repeat constructor. Qed.
Lemma P32_ok : pmul 1 (0 :: mid32 ++ [32]) = 2 * ieee_poly + 1. Proof. vm_compute. reflexivity. Qed.
Lemma P64_ok : pmul 1 (0 :: mid64 ++ [64]) = 2 * ecma_poly + 1. Proof. vm_compute. reflexivity. Qed.
Lemma top32 : Z.testbit ieee_poly (32 - 1) = true. Proof. vm_compute. reflexivity. Qed.
Lemma top64 : Z.testbit ecma_poly (64 - 1) = true. Proof. vm_compute. reflexivity. Qed.
Lemma in_rng n a : (forallb (fun e => (0 <? e) && (e <? n)) a = true) -> Forall (fun e => 0 < e < n) a.
Proof. intros H. rewrite forallb_forall in H. apply Forall_forall. intros x Hx. apply H in Hx. lia. Qed.

(** C112. CRC32 is the ISO 3309 / IEEE 802.3 checksum of the message, and there is only one such value. *)
Theorem c112_crc32_is_standard :
  forall m, is_bytes m -> is_crc_w 32 ieee802_3 m (CRC32 m) /\ (forall c, is_crc_w 32 ieee802_3 m c -> c = CRC32 m).
Proof.
  assert (A : forall m, is_bytes m -> is_crc_w 32 ieee802_3 m (CRC32 m)).
  { intros m B. rewrite CRC32_it by auto.
    apply (it_is_crc 32 ieee_poly ieee802_3 mid32 w32 poly32_rng mid32_ok P32_ok eq_refl m B). }
  intros m B. split; [auto|]. intros c Hc.
  apply (is_crc_w_unique 32 ieee802_3 gmid32 w32 eq_refl (in_rng 32 gmid32 eq_refl) m); auto.
Qed.
Print Assumptions c112_crc32_is_standard.

(** C112. The same for CRC64 and ECMA-182. *)
Theorem c112_crc64_is_standard :
  forall m, is_bytes m -> is_crc_w 64 ecma182 m (CRC64 m) /\ (forall c, is_crc_w 64 ecma182 m c -> c = CRC64 m).
Proof.
  assert (A : forall m, is_bytes m -> is_crc_w 64 ecma182 m (CRC64 m)).
  { intros m B. rewrite CRC64_it by auto.
    apply (it_is_crc 64 ecma_poly ecma182 mid64 w64 poly64_rng mid64_ok P64_ok eq_refl m B). }
  intros m B. split; [auto|]. intros c Hc.
  apply (is_crc_w_unique 64 ecma182 gmid64 w64 eq_refl (in_rng 64 gmid64 eq_refl) m); auto.
Qed.
Print Assumptions c112_crc64_is_standard.

Lemma it_split poly a b o : 
  Nat.iter (8 * length (a ++ b)) (tab_bit poly) (Z.lxor o (lev (a ++ b))) =
  Nat.iter (8 * length b) (tab_bit poly) (Z.lxor (Nat.iter (8 * length a) (tab_bit poly) (Z.lxor o (lev a))) (lev b)).
Proof.
  rewrite lev_app, app_length. replace (8 * (length a + length b))%nat with (8 * length b + 8 * length a)%nat by lia.
  rewrite it_add, <- Z.lxor_assoc, (it_lxor poly _ (Z.lxor o (lev a))).
  replace (8 * Z.of_nat (length a)) with (Z.of_nat (8 * length a)) by lia. rewrite it_shift. reflexivity.
Qed.

(** C112. What follows a prefix sees the prefix only through its checksum, whatever the prefix's length. *)
Theorem c112_incremental : forall a a' b, is_bytes a -> is_bytes a' -> is_bytes b ->
  (CRC32 a = CRC32 a' -> CRC32 (a ++ b) = CRC32 (a' ++ b)) /\ (CRC64 a = CRC64 a' -> CRC64 (a ++ b) = CRC64 (a' ++ b)).
Proof.
  intros a a' b Ha Ha' Hb.
  assert (B : is_bytes (a ++ b)) by (apply Forall_app; auto). assert (B' : is_bytes (a' ++ b)) by (apply Forall_app; auto).
  split; intros E.
  - rewrite !CRC32_it, !it_split by auto. rewrite !CRC32_it in E by auto. apply (f_equal not32) in E.
    rewrite !not32_invol in E. rewrite E. reflexivity.
  - rewrite !CRC64_it, !it_split by auto. rewrite !CRC64_it in E by auto. apply (f_equal not64) in E.
    unfold not64 in E. rewrite !Z.lxor_assoc, !Z.lxor_nilpotent, !Z.lxor_0_r in E. rewrite E. reflexivity.
Qed.
Print Assumptions c112_incremental.

Lemma le_bytes_ok n : forall z, 0 <= z < 256^Z.of_nat n -> is_bytes (le_bytes n z) /\ lev (le_bytes n z) = z /\ length (le_bytes n z) = n.
Proof.
  induction n as [|n IH]; intros z Hz; cbn [le_bytes].
  - change (256^Z.of_nat 0) with 1 in Hz. split; [constructor|]. split; [cbn; lia|reflexivity].
  - destruct (IH (z / 256)) as (I1 & I2 & I3).
    { replace (Z.of_nat (S n)) with (1 + Z.of_nat n) in Hz by lia. rewrite Z.pow_add_r in Hz by lia. change (256^1) with 256 in Hz.
      split; [apply Z.div_pos; lia|apply Z.div_lt_upper_bound; lia]. }
    split; [constructor; [unfold is_u8; change (2^8) with 256; apply Z.mod_pos_bound; lia|auto]|].
    split; [|cbn [length]; lia]. cbn [lev]. rewrite I2. symmetry.
    replace (z / 256) with (Z.shiftr z 8) by (rewrite Z.shiftr_div_pow2 by lia; reflexivity). apply (u8_split z).
Qed.

(** C112. Appending the checksum little-endian gives a fixed residue, so a receiver can check message and checksum at once. *)
Theorem c112_residue : forall m, is_bytes m ->
  CRC32 (m ++ le_bytes 4 (CRC32 m)) = 0x2144DF1C /\ CRC64 (m ++ le_bytes 8 (CRC64 m)) = 0xB66A73654282CAC0.
Proof.
  intros m B.
  destruct (c112_crc32_is_standard m B) as [[R32 _] _]. destruct (c112_crc64_is_standard m B) as [[R64 _] _].
  destruct (le_bytes_ok 4 _ R32) as (B1 & L1 & N1). destruct (le_bytes_ok 8 _ R64) as (B2 & L2 & N2).
  split.
  - rewrite CRC32_it by (apply Forall_app; auto). rewrite it_split, L1, N1.
    rewrite (CRC32_it m B). unfold not32.
    rewrite <- Z.lxor_assoc, Z.lxor_nilpotent, Z.lxor_0_l. vm_compute. reflexivity.
  - rewrite CRC64_it by (apply Forall_app; auto). rewrite it_split, L2, N2.
    rewrite (CRC64_it m B). unfold not64.
    rewrite <- Z.lxor_assoc, Z.lxor_nilpotent, Z.lxor_0_l. vm_compute. reflexivity.
Qed.
Print Assumptions c112_residue.

(** C112. The consistent-hash ring's hash (modelled bit by bit in CHash_Model) is this same CRC64. *)
Theorem c112_consistenthash_uses_crc64 : forall m, is_bytes m -> CHash_Model.crc64 m = CRC64 m.
Proof.
  intros m B. rewrite CRC64_it by auto. unfold CHash_Model.crc64, not64. f_equal.
  unfold CHash_Model.crc_raw. generalize (2^64 - 1).
  assert (X : forall c, CHash_Model.crc_bit c = tab_bit ecma_poly c) by (intros c; rewrite tab_bit_alt; reflexivity).
  assert (Y : forall k c, Nat.iter k CHash_Model.crc_bit c = Nat.iter k (tab_bit ecma_poly) c).
  { induction k as [|k IH]; intros c; [reflexivity|].
    change (CHash_Model.crc_bit (Nat.iter k CHash_Model.crc_bit c) = tab_bit ecma_poly (Nat.iter k (tab_bit ecma_poly) c)).
    rewrite IH. apply X. }
  induction B as [|v m Hv B IH]; intros r; cbn [fold_left].
  - cbn [lev]. rewrite Z.lxor_0_r. reflexivity.
  - rewrite IH. unfold CHash_Model.crc_byte. rewrite Y. change (v :: m) with ([v] ++ m). rewrite it_split.
    cbn [lev length]. rewrite Z.shiftl_0_l, Z.lxor_0_r. reflexivity.
Qed.
Print Assumptions c112_consistenthash_uses_crc64.

Example c112_ex : CRC32 [49; 50; 51; 52; 53; 54; 55; 56; 57] = 0xCBF43926
  /\ CRC64 [49; 50; 51; 52; 53; 54; 55; 56; 57] = 0x995DC9BBDF1939FA
  /\ CRC32 (map Z.of_nat (seq 0 100)) = 1489580789 (* the sliced path; value from an independent implementation *)
  /\ CRC32 [49; 50; 51; 52; 53; 54; 55; 56; 57; 0x26; 0x39; 0xF4; 0xCB] = 0x2144DF1C.
Proof. vm_compute. auto. Qed.

Lemma not32_inj a b : not32 a = not32 b -> a = b.
Proof. intros E. rewrite <- (not32_invol a), E. apply not32_invol. Qed.
Lemma not64_inj a b : not64 a = not64 b -> a = b.
Proof.
  assert (I : forall c, not64 (not64 c) = c) by (intros; unfold not64; rewrite Z.lxor_assoc, Z.lxor_nilpotent, Z.lxor_0_r; reflexivity).
  intros E. rewrite <- (I a), E. apply I.
Qed.

Lemma crc32_same m m' ps : is_bytes m -> is_bytes m' -> flipped m m' ps -> CRC32 m = CRC32 m' ->
  exists q, 0 <= q /\ xpat ps = pmul q (0 :: mid32 ++ [32]).
Proof.
  intros B B' F E. rewrite !CRC32_it in E by auto. apply not32_inj in E.
  apply (flips_multiple 32 ieee_poly mid32 w32 poly32_rng mid32_ok P32_ok m m' ps B B' F E).
Qed.
Lemma crc64_same m m' ps : is_bytes m -> is_bytes m' -> flipped m m' ps -> CRC64 m = CRC64 m' ->
  exists q, 0 <= q /\ xpat ps = pmul q (0 :: mid64 ++ [64]).
Proof.
  intros B B' F E. rewrite !CRC64_it in E by auto. apply not64_inj in E.
  apply (flips_multiple 64 ecma_poly mid64 w64 poly64_rng mid64_ok P64_ok m m' ps B B' F E).
Qed.

(** C113. CRC32 detects every error confined to 32 consecutive bits. *)
Theorem c113_crc32_detects_bursts : forall m m' ps k, is_bytes m -> is_bytes m' -> flipped m m' ps -> ps <> [] ->
  (forall p, In p ps -> (k <= p < k + 32)%nat) -> CRC32 m <> CRC32 m'.
Proof.
  intros m m' ps k B B' F Hne Hk E. destruct (crc32_same m m' ps B B' F E) as (q & Hq & X).
  exact (burst_detected 32 mid32 w32 mid32_ok ps k q (proj1 (proj2 F)) Hne Hk Hq X).
Qed.
Print Assumptions c113_crc32_detects_bursts.

Lemma order32 : unit_exp 32 mid32 (2^32 - 1) /\ forall d, 0 < d < 2^32 - 1 -> ~ unit_exp 32 mid32 d.
Proof.
  assert (U : unit_exp 32 mid32 (2^32 - 1)).
  { split; [discriminate|]. destruct (powx_spec 32 ieee_poly mid32 w32 mid32_ok poly32_rng P32_ok (2^32 - 1)) as [C _].
    assert (X : powx 32 ieee_poly (2^32 - 1) = 1) by (vm_compute; reflexivity). rewrite X in C. exact C. }
  split; [exact U|].
  apply (order_exact 32 mid32 w32 mid32_ok [3; 5; 17; 257; 65537]); [reflexivity|exact U| |reflexivity|].
  - repeat apply Forall_cons; try apply Forall_nil; apply prime_check_spec; vm_compute; reflexivity.
  - assert (G : forall p, powx 32 ieee_poly p <> 1 -> (0 <=? powx 32 ieee_poly p) && (powx 32 ieee_poly p <? 2^32) = true ->
        ~ unit_exp 32 mid32 (Zpos p)).
    { intros p H1 H2 [_ C]. revert C. apply (powx_not_one 32 ieee_poly mid32 w32 mid32_ok poly32_rng P32_ok); [lia|auto]. }
    intros p [<-|[<-|[<-|[<-|[<-|[]]]]]].
    + change ((2^32 - 1) / 3) with 1431655765. apply G; vm_compute; [discriminate|reflexivity].
    + change ((2^32 - 1) / 5) with 858993459. apply G; vm_compute; [discriminate|reflexivity].
    + change ((2^32 - 1) / 17) with 252645135. apply G; vm_compute; [discriminate|reflexivity].
    + change ((2^32 - 1) / 257) with 16711935. apply G; vm_compute; [discriminate|reflexivity].
    + change ((2^32 - 1) / 65537) with 65535. apply G; vm_compute; [discriminate|reflexivity].
Qed.

(** C113. CRC32 detects any two flipped bits less than 2^32 - 1 bits (512 MiB) apart. *)
Theorem c113_crc32_detects_two_bits : forall m m' i j, is_bytes m -> is_bytes m' -> flipped m m' [i; j] ->
  (i < j)%nat -> Z.of_nat j - Z.of_nat i < 2^32 - 1 -> CRC32 m <> CRC32 m'.
Proof.
  intros m m' i j B B' F L D E. destruct (crc32_same m m' _ B B' F E) as (q & Hq & X).
  apply (two_unit 32 mid32 w32 mid32_ok i j q L Hq) in X. revert X. apply (proj2 order32). lia.
Qed.
Print Assumptions c113_crc32_detects_two_bits.

(** C113. CRC32 detects any three flipped bits of a message of at most 11454 bytes: any three within 91639 bits. *)
Theorem c113_crc32_detects_three_bits : forall m m' i j k, is_bytes m -> is_bytes m' -> flipped m m' [i; j; k] ->
  (i < j < k)%nat -> Z.of_nat k - Z.of_nat i < 91639 -> CRC32 m <> CRC32 m'.
Proof.
  intros m m' i j k B B' F L D E. destruct (crc32_same m m' _ B B' F E) as (q & Hq & X).
  assert (N : no_triple 32 ieee_poly (Z.to_nat 91638) 2 PositiveSet.empty = true) by (vm_compute; reflexivity).
  revert X. apply (three_detected 32 ieee_poly mid32 w32 poly32_rng mid32_ok P32_ok (Z.to_nat 91638) i j k q N L); [|exact Hq].
  clear N. lia.
Qed.
Print Assumptions c113_crc32_detects_three_bits.

(** Two messages that differ in the first bit and in bit 8(n+1)+t. *)
Definition far (n t : nat) : list Z := 1 :: repeat 0 n ++ [2^Z.of_nat t].
Definition zeros (n : nat) : list Z := repeat 0 (n + 2).
Lemma zeros_bytes n : is_bytes (repeat 0 n).
Proof. induction n; cbn [repeat]; constructor; auto. unfold is_u8. lia. Qed.
Lemma lev_zeros n : lev (repeat 0 n) = 0.
Proof. induction n as [|n IH]; cbn [repeat lev]; [reflexivity|]. rewrite IH. reflexivity. Qed.
Lemma far_bytes n t : (t < 8)%nat -> is_bytes (far n t).
Proof.
  intros Ht. constructor; [unfold is_u8; lia|]. apply Forall_app. split; [apply zeros_bytes|].
  constructor; [|constructor]. split; [apply Z.pow_nonneg; lia|apply Z.pow_lt_mono_r; lia].
Qed.
Lemma lev_far n t : lev (far n t) = xpat [0%nat; (8 * (n + 1) + t)%nat].
Proof.
  unfold far. change (1 :: repeat 0 n ++ [2^Z.of_nat t]) with (([1] ++ repeat 0 n) ++ [2^Z.of_nat t]).
  rewrite lev_app, lev_app, lev_zeros, Z.shiftl_0_l, Z.lxor_0_r. unfold xpat. cbn [map fold_right].
  rewrite Z.lxor_0_r. f_equal. cbn [lev]. rewrite Z.shiftl_0_l, Z.lxor_0_r, app_length, repeat_length.
  change (length [1]) with 1%nat.
  rewrite Z.shiftl_mul_pow2, <- Z.pow_add_r by lia. f_equal. lia.
Qed.
Lemma far_flipped n t : (t < 8)%nat -> flipped (far n t) (zeros n) [0%nat; (8 * (n + 1) + t)%nat].
Proof.
  intros Ht. assert (N : NoDup [0%nat; (8 * (n + 1) + t)%nat]).
  { constructor; [intros [X|[]]; lia|]. constructor; [intros []|constructor]. }
  split; [|split; [exact N|]].
  - unfold far, zeros. cbn [length]. rewrite app_length, !repeat_length. cbn [length]. lia.
  - intros p. rewrite <- !lev_bit by (apply far_bytes || apply zeros_bytes; auto). unfold zeros. rewrite lev_zeros, lev_far, Z.bits_0.
    rewrite <- (xpat_bit 32 w32 _ N p). destruct (Z.testbit _ (Z.of_nat p)); intuition congruence.
Qed.
Lemma far_multiple w poly mid n t : 8 <= w -> 0 <= poly < 2^w -> Forall (fun e => 0 < e < w) mid ->
  pmul 1 (0 :: mid ++ [w]) = 2 * poly + 1 -> (t < 8)%nat -> unit_exp w mid (Z.of_nat (8 * (n + 1) + t)) ->
  Nat.iter (8 * length (far n t)) (tab_bit poly) (Z.lxor (2^w - 1) (lev (far n t))) =
  Nat.iter (8 * length (zeros n)) (tab_bit poly) (Z.lxor (2^w - 1) (lev (zeros n))).
Proof.
  intros Hw Hp Hm HP Ht U. destruct (unit_two _ _ _ U) as (q & Hq & E).
  destruct (far_flipped n t Ht) as [HL _]. rewrite <- HL.
  pose proof (far_bytes n t Ht) as B. pose proof (lev_nn _ B) as L0. pose proof (lev_lt _ B) as L1.
  assert (W : 0 < 2^w) by (apply Z.pow_pos_nonneg; lia).
  assert (K : 0 < 2^(8 * Z.of_nat (length (far n t)))) by (apply Z.pow_pos_nonneg; lia).
  replace (w + Z.of_nat (8 * length (far n t))) with (w + 8 * Z.of_nat (length (far n t))) by lia.
  apply (multiple_same w poly mid Hw Hp Hm HP _ _ _ q).
  - replace (Z.of_nat (8 * length (far n t))) with (8 * Z.of_nat (length (far n t))) by lia.
    apply xlt; [lia|split; [lia|]|split; [lia|]]; rewrite Z.pow_add_r by lia; nia.
  - replace (Z.of_nat (8 * length (far n t))) with (8 * Z.of_nat (length (far n t))) by lia.
    unfold zeros. rewrite lev_zeros, Z.lxor_0_r, Z.pow_add_r by lia. split; [lia|]. nia.
  - exact Hq.
  - rewrite <- E. unfold zeros. rewrite lev_zeros, lev_far. unfold xpat. cbn [map fold_right]. rewrite !Z.lxor_0_r.
    change (2^Z.of_nat 0) with 1. xsolve.
Qed.

(** C113. The bound is sharp: two flipped bits 2^32 - 1 apart go unnoticed. *)
Theorem c113_crc32_misses_distance_refuted : exists m m' i j, is_bytes m /\ is_bytes m' /\ flipped m m' [i; j] /\
  Z.of_nat j - Z.of_nat i = 2^32 - 1 /\ CRC32 m = CRC32 m'.
Proof.
  set (n := Z.to_nat (2^29 - 2)). exists (far n 7), (zeros n), 0%nat, (8 * (n + 1) + 7)%nat.
  assert (D : Z.of_nat (8 * (n + 1) + 7) = 2^32 - 1) by (unfold n; lia). clearbody n.
  assert (B : is_bytes (far n 7)) by (apply far_bytes; lia). assert (B' : is_bytes (zeros n)) by apply zeros_bytes.
  split; [exact B|]. split; [exact B'|]. split; [apply far_flipped; lia|]. split; [lia|].
  rewrite !CRC32_it by auto. f_equal.
  apply (far_multiple 32 ieee_poly mid32); [exact w32|exact poly32_rng|exact mid32_ok|exact P32_ok|lia|].
  rewrite D. exact (proj1 order32).
Qed.
Print Assumptions c113_crc32_misses_distance_refuted.

(** C113. Unlike CRC8 and CRC64, CRC32 does not detect every odd number of flipped bits: fifteen can cancel. *)
Theorem c113_crc32_misses_odd_refuted : exists m m' ps, is_bytes m /\ is_bytes m' /\ flipped m m' ps /\
  Nat.odd (length ps) = true /\ CRC32 m = CRC32 m'.
Proof.
  exists [65; 6; 113; 219; 1], [0; 0; 0; 0; 0], (map Z.to_nat (0 :: mid32 ++ [32])).
  assert (B : is_bytes [65; 6; 113; 219; 1]) by (repeat (constructor; [unfold is_u8; lia|]); constructor).
  assert (B' : is_bytes [0; 0; 0; 0; 0]) by (repeat (constructor; [unfold is_u8; lia|]); constructor).
  assert (N : NoDup (map Z.to_nat (0 :: mid32 ++ [32]))).
  { cbn [map app mid32]. repeat (apply NoDup_cons; [let H := fresh in intros H; cbn [In] in H; vm_compute in H; intuition discriminate|]). apply NoDup_nil. }
  split; [exact B|]. split; [exact B'|]. split; [|split; vm_compute; reflexivity].
  split; [reflexivity|]. split; [exact N|]. intros p. rewrite <- (xpat_bit 32 w32 _ N p), <- !lev_bit by auto.
  replace (xpat (map Z.to_nat (0 :: mid32 ++ [32]))) with (lev [65; 6; 113; 219; 1]) by (vm_compute; reflexivity).
  change (lev [0; 0; 0; 0; 0]) with 0. rewrite Z.bits_0. destruct (Z.testbit _ (Z.of_nat p)); intuition congruence.
Qed.
Print Assumptions c113_crc32_misses_odd_refuted.

(** Deciding [flipped] by listing the positions, for the examples. *)
Lemma flipped_check m m' ps : forallb (fun b => (0 <=? b) && (b <? 256)) (m ++ m') = true -> length m = length m' ->
  NoDup ps -> Z.lxor (lev m) (lev m') = xpat ps -> is_bytes m /\ is_bytes m' /\ flipped m m' ps.
Proof.
  intros H L N E. assert (BB : is_bytes (m ++ m')).
  { apply Forall_forall. rewrite forallb_forall in H. intros x Hx. apply H in Hx. unfold is_u8. change (2^8) with 256. lia. }
  apply Forall_app in BB as [B B']. split; [exact B|]. split; [exact B'|]. split; [auto|]. split; [auto|].
  intros p. rewrite <- (xpat_bit 32 w32 ps N p), <- E, Z.lxor_spec, !lev_bit by auto.
  destruct (msg_bit m p), (msg_bit m' p); cbn; intuition congruence.
Qed.
Example c113_ex : flipped [1; 2; 3] [0; 2; 131] [0%nat; 23%nat] /\ flipped [1; 2; 3; 0] [0; 2; 131; 2] [0%nat; 23%nat; 25%nat]
  /\ CRC32 [1; 2; 3; 0] <> CRC32 [0; 2; 131; 2].
Proof.
  split; [|split].
  - apply flipped_check; try reflexivity. repeat (constructor; [intros X; cbn [In] in X; intuition discriminate|]). constructor.
  - apply flipped_check; try reflexivity. repeat (constructor; [intros X; cbn [In] in X; intuition discriminate|]). constructor.
  - vm_compute. discriminate.
Qed.

(** C114. CRC64 detects every error confined to 64 consecutive bits. *)
Theorem c114_crc64_detects_bursts : forall m m' ps k, is_bytes m -> is_bytes m' -> flipped m m' ps -> ps <> [] ->
  (forall p, In p ps -> (k <= p < k + 64)%nat) -> CRC64 m <> CRC64 m'.
Proof.
  intros m m' ps k B B' F Hne Hk E. destruct (crc64_same m m' ps B B' F E) as (q & Hq & X).
  exact (burst_detected 64 mid64 w64 mid64_ok ps k q (proj1 (proj2 F)) Hne Hk Hq X).
Qed.
Print Assumptions c114_crc64_detects_bursts.

(** C114. CRC64 detects any odd number of flipped bits. *)
Theorem c114_crc64_detects_odd_errors : forall m m' ps, is_bytes m -> is_bytes m' -> flipped m m' ps ->
  Nat.odd (length ps) = true -> CRC64 m <> CRC64 m'.
Proof.
  intros m m' ps B B' F Ho E. destruct (crc64_same m m' ps B B' F E) as (q & Hq & X).
  exact (odd_detected 64 mid64 w64 mid64_ok ps q eq_refl Ho Hq X).
Qed.
Print Assumptions c114_crc64_detects_odd_errors.

Lemma order64 : unit_exp 64 mid64 8589606914 /\ forall d, 0 < d < 8589606914 -> ~ unit_exp 64 mid64 d.
Proof.
  assert (U : unit_exp 64 mid64 8589606914).
  { split; [discriminate|]. destruct (powx_spec 64 ecma_poly mid64 w64 mid64_ok poly64_rng P64_ok 8589606914) as [C _].
    assert (X : powx 64 ecma_poly 8589606914 = 1) by (vm_compute; reflexivity). rewrite X in C. exact C. }
  split; [exact U|].
  apply (order_exact 64 mid64 w64 mid64_ok [2; 7; 31; 151; 131071]); [reflexivity|exact U| |reflexivity|].
  - repeat apply Forall_cons; try apply Forall_nil; apply prime_check_spec; vm_compute; reflexivity.
  - assert (G : forall p, powx 64 ecma_poly p <> 1 -> (0 <=? powx 64 ecma_poly p) && (powx 64 ecma_poly p <? 2^64) = true ->
        ~ unit_exp 64 mid64 (Zpos p)).
    { intros p H1 H2 [_ C]. revert C. apply (powx_not_one 64 ecma_poly mid64 w64 mid64_ok poly64_rng P64_ok); [lia|auto]. }
    intros p [<-|[<-|[<-|[<-|[<-|[]]]]]].
    + change (8589606914 / 2) with 4294803457. apply G; vm_compute; [discriminate|reflexivity].
    + change (8589606914 / 7) with 1227086702. apply G; vm_compute; [discriminate|reflexivity].
    + change (8589606914 / 31) with 277084094. apply G; vm_compute; [discriminate|reflexivity].
    + change (8589606914 / 151) with 56884814. apply G; vm_compute; [discriminate|reflexivity].
    + change (8589606914 / 131071) with 65534. apply G; vm_compute; [discriminate|reflexivity].
Qed.

(** C114. CRC64 detects any two flipped bits less than 8589606914 bits (about 1 GiB) apart. *)
Theorem c114_crc64_detects_two_bits : forall m m' i j, is_bytes m -> is_bytes m' -> flipped m m' [i; j] ->
  (i < j)%nat -> Z.of_nat j - Z.of_nat i < 8589606914 -> CRC64 m <> CRC64 m'.
Proof.
  intros m m' i j B B' F L D E. destruct (crc64_same m m' _ B B' F E) as (q & Hq & X).
  apply (two_unit 64 mid64 w64 mid64_ok i j q L Hq) in X. revert X. apply (proj2 order64). lia.
Qed.
Print Assumptions c114_crc64_detects_two_bits.

(** C114. The bound is sharp. *)
Theorem c114_crc64_misses_distance_refuted : exists m m' i j, is_bytes m /\ is_bytes m' /\ flipped m m' [i; j] /\
  Z.of_nat j - Z.of_nat i = 8589606914 /\ CRC64 m = CRC64 m'.
Proof.
  set (n := Z.to_nat 1073700863). exists (far n 2), (zeros n), 0%nat, (8 * (n + 1) + 2)%nat.
  assert (D : Z.of_nat (8 * (n + 1) + 2) = 8589606914) by (unfold n; lia). clearbody n.
  assert (B : is_bytes (far n 2)) by (apply far_bytes; lia). assert (B' : is_bytes (zeros n)) by apply zeros_bytes.
  split; [exact B|]. split; [exact B'|]. split; [apply far_flipped; lia|]. split; [lia|].
  rewrite !CRC64_it by auto. f_equal.
  apply (far_multiple 64 ecma_poly mid64); [exact w64|exact poly64_rng|exact mid64_ok|exact P64_ok|lia|].
  rewrite D. exact (proj1 order64).
Qed.
Print Assumptions c114_crc64_misses_distance_refuted.
Example c114_ex : flipped [1; 2; 3] [0; 2; 131] [0%nat; 23%nat] /\ flipped [1; 2; 3; 0] [0; 2; 131; 2] [0%nat; 23%nat; 25%nat]
  /\ CRC64 [1; 2; 3; 0] <> CRC64 [0; 2; 131; 2].
Proof. split; [apply c113_ex|]. split; [apply c113_ex|]. vm_compute. discriminate. Qed.

Lemma forge w poly o n m c : 8 <= w -> w = 8 * Z.of_nat n -> 0 <= poly < 2^w -> Z.testbit poly (w - 1) = true -> is_bytes m ->
  0 <= o < 2^w -> 0 <= c < 2^w -> exists s, is_bytes s /\ length s = n /\
    Nat.iter (8 * length (m ++ s)) (tab_bit poly) (Z.lxor o (lev (m ++ s))) = c.
Proof.
  intros Hw Hn Hp Ht B Ho Hc.
  destruct (it_onto w poly Hw Hp Ht (8 * n) c Hc) as (a & Ha & E).
  set (r := Nat.iter (8 * length m) (tab_bit poly) (Z.lxor o (lev m))).
  assert (Hr : 0 <= r < 2^w).
  { apply (it_range w poly Hw Hp). pose proof (lev_nn m B). pose proof (lev_lt m B).
    assert (0 < 2^w) by (apply Z.pow_pos_nonneg; lia).
    assert (0 < 2^(8 * Z.of_nat (length m))) by (apply Z.pow_pos_nonneg; lia).
    replace (Z.of_nat (8 * length m)) with (8 * Z.of_nat (length m)) by lia.
    apply xlt; [lia|split; [lia|]|split; [lia|]]; rewrite Z.pow_add_r by lia; nia. }
  assert (Hx : 0 <= Z.lxor r a < 256^Z.of_nat n).
  { replace (256^Z.of_nat n) with (2^w); [apply xlt; lia|]. rewrite Hn. change 256 with (2^8). rewrite <- Z.pow_mul_r by lia. reflexivity. }
  destruct (le_bytes_ok n _ Hx) as (B2 & L2 & N2).
  exists (le_bytes n (Z.lxor r a)). split; [auto|]. split; [auto|]. rewrite it_split. fold r. rewrite L2, N2, <- E. f_equal. xsolve.
Qed.

Lemma same_suffix_flips m s s' : is_bytes m -> is_bytes s -> is_bytes s' -> length s = length s' -> s <> s' ->
  exists ps, flipped (m ++ s) (m ++ s') ps /\ ps <> [] /\ forall p, In p ps -> (8 * length m <= p < 8 * length m + 8 * length s)%nat.
Proof.
  intros B Bs Bs' L Hne.
  set (f := fun p => negb (Bool.eqb (msg_bit (m ++ s) p) (msg_bit (m ++ s') p))).
  exists (filter f (seq 0 (8 * length (m ++ s)))).
  assert (Out : forall p, (8 * length (m ++ s) <= p)%nat -> f p = false).
  { intros p Hp. unfold f, msg_bit. rewrite !nth_overflow; [rewrite !Z.bits_0; reflexivity|..].
    all: rewrite app_length in *; apply Nat.div_le_lower_bound; lia. }
  assert (Low : forall p, (p < 8 * length m)%nat -> f p = false).
  { intros p Hp. unfold f, msg_bit. assert (p / 8 < length m)%nat by (apply Nat.div_lt_upper_bound; lia).
    rewrite !app_nth1 by auto. rewrite eqb_reflx. reflexivity. }
  assert (FF : forall p, msg_bit (m ++ s) p <> msg_bit (m ++ s') p <-> f p = true).
  { intros p. unfold f. destruct (msg_bit (m ++ s) p), (msg_bit (m ++ s') p); cbn; intuition congruence. }
  split; [split; [rewrite !app_length; lia|split; [apply NoDup_filter, seq_NoDup|]]|split].
  - intros p. rewrite FF, filter_In, in_seq. split; [|tauto]. intros H. split; [|auto].
    destruct (Nat.lt_ge_cases p (8 * length (m ++ s))); [lia|]. rewrite Out in H by auto. discriminate.
  - intros E. apply Hne. apply app_inv_head with m.
    assert (Q : forall p, f p = false).
    { intros p. destruct (f p) eqn:X; [|reflexivity]. exfalso.
      assert (In p (filter f (seq 0 (8 * length (m ++ s))))); [|rewrite E in H; contradiction].
      apply filter_In. rewrite in_seq. split; [|auto]. destruct (Nat.lt_ge_cases p (8 * length (m ++ s))); [lia|]. rewrite Out in X by auto. discriminate. }
    apply nth_ext with 0 0; [rewrite !app_length; lia|]. intros n Hn.
    apply Z.bits_inj'. intros i Hi. assert (R : forall l, is_bytes l -> 0 <= nth n l 0 < 2^8).
    { intros l Bl. destruct (Nat.lt_ge_cases n (length l)); [|rewrite nth_overflow by auto; lia].
      unfold is_bytes in Bl. rewrite Forall_forall in Bl. apply Bl, nth_In. auto. }
    assert (B1 : is_bytes (m ++ s)) by (apply Forall_app; auto). assert (B2 : is_bytes (m ++ s')) by (apply Forall_app; auto).
    destruct (Z_lt_ge_dec i 8); [|rewrite !(high_bits _ 8) by (auto || lia); reflexivity].
    specialize (Q (Z.to_nat i + n * 8)%nat). unfold f, msg_bit in Q.
    rewrite Nat.div_add, Nat.mod_add, Nat.div_small, Nat.mod_small, Nat.add_0_l, Z2Nat.id in Q by lia.
    apply negb_false_iff, eqb_prop in Q. exact Q.
  - intros p Hp. apply filter_In in Hp as [Hp1 Hp2]. apply in_seq in Hp1. rewrite app_length in Hp1.
    destruct (Nat.lt_ge_cases p (8 * length m)); [rewrite Low in Hp2 by auto; discriminate|lia].
Qed.

(** C115. A CRC says nothing about intent: for every message and every wanted checksum there is exactly one 4-byte
    (8-byte) suffix that produces it. *)
Theorem c115_crc32_suffix : forall m c, is_bytes m -> 0 <= c < 2^32 ->
  exists s, is_bytes s /\ length s = 4%nat /\ CRC32 (m ++ s) = c /\
    forall s', is_bytes s' -> length s' = 4%nat -> CRC32 (m ++ s') = c -> s' = s.
Proof.
  intros m c B Hc.
  destruct (forge 32 ieee_poly (2^32 - 1) 4 m (not32 c) w32 eq_refl poly32_rng top32 B ltac:(lia)) as (s & Bs & Ls & E).
  { unfold not32. apply xlt; lia. }
  assert (X : CRC32 (m ++ s) = c).
  { rewrite CRC32_it by (apply Forall_app; auto). rewrite E. apply not32_invol. }
  exists s. split; [auto|]. split; [auto|]. split; [exact X|]. intros s' Bs' Ls' X'.
  destruct (list_eq_dec Z.eq_dec s' s) as [|Hne]; [auto|exfalso].
  destruct (same_suffix_flips m s' s B Bs' Bs ltac:(lia) Hne) as (ps & F & Hps & W). rewrite Ls' in W.
  apply (c113_crc32_detects_bursts (m ++ s') (m ++ s) ps (8 * length m)); [apply Forall_app; auto..|exact F|exact Hps|exact W|congruence].
Qed.
Print Assumptions c115_crc32_suffix.

(** C115. The same for CRC64. *)
Theorem c115_crc64_suffix : forall m c, is_bytes m -> 0 <= c < 2^64 ->
  exists s, is_bytes s /\ length s = 8%nat /\ CRC64 (m ++ s) = c /\
    forall s', is_bytes s' -> length s' = 8%nat -> CRC64 (m ++ s') = c -> s' = s.
Proof.
  intros m c B Hc.
  destruct (forge 64 ecma_poly (2^64 - 1) 8 m (not64 c) w64 eq_refl poly64_rng top64 B ltac:(lia)) as (s & Bs & Ls & E).
  { unfold not64. apply xlt; lia. }
  assert (X : CRC64 (m ++ s) = c).
  { rewrite CRC64_it by (apply Forall_app; auto). rewrite E. unfold not64. rewrite Z.lxor_assoc, Z.lxor_nilpotent, Z.lxor_0_r. reflexivity. }
  exists s. split; [auto|]. split; [auto|]. split; [exact X|]. intros s' Bs' Ls' X'.
  destruct (list_eq_dec Z.eq_dec s' s) as [|Hne]; [auto|exfalso].
  destruct (same_suffix_flips m s' s B Bs' Bs ltac:(lia) Hne) as (ps & F & Hps & W). rewrite Ls' in W.
  apply (c114_crc64_detects_bursts (m ++ s') (m ++ s) ps (8 * length m)); [apply Forall_app; auto..|exact F|exact Hps|exact W|congruence].
Qed.
Print Assumptions c115_crc64_suffix.
Example c115_ex : CRC32 ([104; 105] ++ [111; 242; 183; 222]) = 0xDEADBEEF
  /\ CRC32 [0xFF; 0xFF; 0xFF; 0xFF] = 0xFFFFFFFF.
Proof. vm_compute. auto. Qed.
