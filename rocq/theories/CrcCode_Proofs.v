(** From the code of CRC32 and CRC64 to the register, and from the register to the standards. *)
From Coq Require Import ZArith List Bool Lia ZifyBool ZifyNat Znumtheory.
From Verif Require Import GoInt Crc_Model Crc_Spec Crc_Proofs.
Import ListNotations.
Local Open Scope Z_scope.

(** The message as one number, first byte lowest. *)
Fixpoint lev (m : list Z) : Z := match m with [] => 0 | v :: m => Z.lxor v (Z.shiftl (lev m) 8) end.

Lemma u8_byte v : is_u8 v -> 0 <= v < 256.
Proof. unfold is_u8. change (2^8) with 256. auto. Qed.

Lemma lev_nn m : is_bytes m -> 0 <= lev m.
Proof. induction 1 as [|v m Hv H IH]; cbn [lev]; [lia|]. apply u8_byte in Hv. apply xnn; [lia|apply shiftl_nn; lia]. Qed.

Lemma lev_bit m : is_bytes m -> forall p, Z.testbit (lev m) (Z.of_nat p) = msg_bit m p.
Proof.
  induction 1 as [|v m Hv H IH]; intros p; cbn [lev]; unfold msg_bit.
  - rewrite Z.bits_0. destruct (p / 8)%nat; symmetry; apply Z.bits_0.
  - apply u8_byte in Hv. rewrite Z.lxor_spec. destruct (Nat.lt_ge_cases p 8) as [L|L].
    + rewrite Nat.div_small, Nat.mod_small by lia. rewrite Z.shiftl_spec, (Z.testbit_neg_r (lev m)) by lia. apply xorb_false_r.
    + rewrite (high_bits v 8) by (change (2^8) with 256; lia). rewrite xorb_false_l, Z.shiftl_spec by lia.
      replace (Z.of_nat p - 8) with (Z.of_nat (p - 8)) by lia. rewrite IH. unfold msg_bit.
      replace p with ((p - 8) + 1 * 8)%nat at 3 4 by lia. rewrite Nat.div_add, Nat.mod_add by lia.
      rewrite Nat.add_1_r. reflexivity.
Qed.

Lemma lev_lt m : is_bytes m -> lev m < 2^(8 * Z.of_nat (length m)).
Proof.
  intros H. apply lt_pow_bits; [lia|apply lev_nn; auto|]. intros i Hi.
  rewrite <- (Z2Nat.id i) by lia. rewrite lev_bit by auto. unfold msg_bit.
  rewrite nth_overflow; [apply Z.bits_0|]. apply Nat.div_le_lower_bound; lia.
Qed.

Lemma lev_app a b : lev (a ++ b) = Z.lxor (lev a) (Z.shiftl (lev b) (8 * Z.of_nat (length a))).
Proof.
  induction a as [|v a IH]; cbn [lev app length]; [rewrite Z.shiftl_0_r, Z.lxor_0_l; reflexivity|].
  rewrite IH, Z.shiftl_lxor, Z.shiftl_shiftl by lia. rewrite Z.lxor_assoc. do 3 f_equal. lia.
Qed.

(** ** The byte loop *)
Section Loop.
Variables (w poly : Z).
Hypothesis Hw : 8 <= w.
Hypothesis Hpoly : 0 <= poly < 2^w.
Notation it k c := (Nat.iter k (tab_bit poly) c).
Notation tab := (make_table poly).

Lemma at_table i : 0 <= i < 256 -> at_ tab i = it 8 i.
Proof.
  intros Hi. unfold at_, make_table.
  rewrite (nth_indep _ 0 (it 8 (Z.of_nat 0))) by (rewrite map_length, seq_length; lia).
  rewrite (map_nth (fun i => it 8 (Z.of_nat i))), seq_nth by lia. rewrite Nat.add_0_l, Z2Nat.id by lia. reflexivity.
Qed.

Lemma u8_split c : c = Z.lxor (u8 c) (Z.shiftl (Z.shiftr c 8) 8).
Proof.
  unfold u8. apply Z.bits_inj'. intros i Hi. rewrite Z.lxor_spec, Z.shiftl_spec by lia.
  destruct (Z_lt_ge_dec i 8).
  - rewrite (Z.testbit_neg_r (Z.shiftr c 8)), xorb_false_r by lia. rewrite Z.mod_pow2_bits_low by lia. reflexivity.
  - rewrite Z.mod_pow2_bits_high, Z.shiftr_spec, xorb_false_l by lia. f_equal. lia.
Qed.
Lemma u8_rng c : 0 <= u8 c < 256.
Proof. unfold u8. change (2^8) with 256. apply Z.mod_pos_bound. lia. Qed.

Lemma byte_step r v : 0 <= v < 256 -> Z.lxor (at_ tab (Z.lxor (u8 r) v)) (Z.shiftr r 8) = it 8 (Z.lxor r v).
Proof.
  intros Hv. assert (H : 0 <= Z.lxor (u8 r) v < 2^8) by (apply xlt; [lia|apply u8_rng|exact Hv]).
  rewrite at_table by exact H. rewrite <- (it_shift poly 8 (Z.shiftr r 8)) at 1.
  rewrite <- it_lxor. f_equal. rewrite (u8_split r) at 3. change (Z.of_nat 8) with 8. xsolve.
Qed.

Lemma byte_loop_it m : is_bytes m -> forall r, byte_loop tab m r = it (8 * length m) (Z.lxor r (lev m)).
Proof.
  induction 1 as [|v m Hv H IH]; intros r; cbn [byte_loop lev length].
  - rewrite Z.lxor_0_r. reflexivity.
  - rewrite byte_step by (apply u8_byte; auto). rewrite IH.
    transitivity (it (8 * length m) (it 8 (Z.lxor r (Z.lxor v (Z.shiftl (lev m) 8))))).
    + f_equal. rewrite <- Z.lxor_assoc, (it_lxor poly 8 (Z.lxor r v)). pose proof (it_shift poly 8 (lev m)) as X. change (Z.of_nat 8) with 8 in X. rewrite X. reflexivity.
    + rewrite <- it_add. f_equal. lia.
Qed.

(** ** The sliced loops *)
Lemma slice_next_it c : 0 <= c -> slice_next tab c = it 8 c.
Proof.
  intros Hc. unfold slice_next. change 255 with (Z.ones 8). rewrite Z.land_ones by lia.
  pose proof (byte_step c 0 ltac:(lia)) as B. rewrite !Z.lxor_0_r in B. exact B.
Qed.

Lemma iter_slice j : forall c, 0 <= c -> Nat.iter j (slice_next tab) c = it (8 * j) c.
Proof.
  induction j as [|j IH]; intros c Hc; [reflexivity|].
  change (slice_next tab (Nat.iter j (slice_next tab) c) = it (8 * S j) c). rewrite IH by auto.
  rewrite slice_next_it by (apply (it_nn w poly); auto). rewrite <- it_add. f_equal. lia.
Qed.

Lemma at_slice j i : (j < 8)%nat -> 0 <= i < 256 -> at_ (nth j (slice_tables tab) []) i = it (8 * (j + 1)) i.
Proof.
  intros Hj Hi. unfold slice_tables.
  rewrite (nth_indep _ [] (slice_table tab 0)) by (rewrite map_length, seq_length; lia).
  rewrite map_nth, seq_nth, Nat.add_0_l by lia. unfold at_ at 1, slice_table.
  set (f := fun i => Nat.iter j (slice_next tab) (at_ tab (Z.of_nat i))).
  rewrite (nth_indep _ 0 (f 0%nat)) by (rewrite map_length, seq_length; lia).
  rewrite (map_nth f), seq_nth by lia. unfold f. rewrite Nat.add_0_l, Z2Nat.id, at_table by lia.
  rewrite iter_slice by (apply (it_nn w poly); [auto..|lia]). rewrite <- it_add. f_equal. lia.
Qed.

End Loop.

Definition byte_at (c k : Z) : Z := Z.land (Z.shiftr c k) 255.
Lemma byte_at_rng c k : 0 <= byte_at c k < 256.
Proof. unfold byte_at. change 255 with (Z.ones 8). rewrite Z.land_ones by lia. apply Z.mod_pos_bound. lia. Qed.

Lemma lor_lxor_disj a b k : 0 <= k -> 0 <= a < 2^k -> Z.lor a (Z.shiftl b k) = Z.lxor a (Z.shiftl b k).
Proof.
  intros Hk Ha. apply Z.bits_inj'. intros i Hi. rewrite Z.lxor_spec, Z.lor_spec, Z.shiftl_spec by lia.
  destruct (Z_lt_ge_dec i k).
  - rewrite (Z.testbit_neg_r b) by lia. destruct (Z.testbit a i); reflexivity.
  - rewrite (high_bits a k) by lia. destruct (Z.testbit b (i - k)); reflexivity.
Qed.

Lemma shiftl_rng b j k : 0 <= j -> 0 <= b < 256 -> j + 8 <= k -> 0 <= Z.shiftl b j < 2^k.
Proof.
  intros Hj Hb Hk. split; [apply shiftl_nn; lia|]. apply Z.lt_le_trans with (2^(j+8)).
  - rewrite Z.shiftl_mul_pow2, Z.pow_add_r by lia. change (2^8) with 256.
    assert (0 < 2^j) by (apply Z.pow_pos_nonneg; lia). nia.
  - apply Z.pow_le_mono_r; lia.
Qed.

(** Bytes of a number of four / eight bytes. *)
Lemma split_bytes n : forall c, 0 <= c < 2^(8 * Z.of_nat n) ->
  c = lev (map (fun j => byte_at c (8 * Z.of_nat j)) (seq 0 n)).
Proof.
  induction n as [|n IH]; intros c Hc.
  - change (2 ^ (8 * Z.of_nat 0)) with 1 in Hc. cbn. lia.
  - cbn [seq map lev]. rewrite <- seq_shift, map_map.
    rewrite (u8_split c) at 1. f_equal.
    + unfold byte_at. change (8 * Z.of_nat 0) with 0. rewrite Z.shiftr_0_r. change 255 with (Z.ones 8).
      rewrite Z.land_ones by lia. reflexivity.
    + f_equal. rewrite (IH (Z.shiftr c 8)) at 1.
      * f_equal. apply map_ext. intros j. unfold byte_at. rewrite Z.shiftr_shiftr by lia. do 2 f_equal. lia.
      * rewrite Z.shiftr_div_pow2 by lia. change (2^8) with 256.
        replace (8 * Z.of_nat (S n)) with (8 + 8 * Z.of_nat n) in Hc by lia. rewrite Z.pow_add_r in Hc by lia.
        change (2^8) with 256 in Hc. split; [apply Z.div_pos; lia|apply Z.div_lt_upper_bound; lia].
Qed.

Lemma top_byte n c : 0 <= c < 2^(8 * Z.of_nat n + 8) -> byte_at c (8 * Z.of_nat n) = Z.shiftr c (8 * Z.of_nat n).
Proof.
  intros Hc. unfold byte_at. change 255 with (Z.ones 8). rewrite Z.land_ones by lia. apply Z.mod_small.
  rewrite Z.shiftr_div_pow2 by lia. rewrite Z.pow_add_r in Hc by lia.
  assert (0 < 2^(8 * Z.of_nat n)) by (apply Z.pow_pos_nonneg; lia).
  split; [apply Z.div_pos; lia|apply Z.div_lt_upper_bound; lia].
Qed.

Lemma lev8 a0 a1 a2 a3 a4 a5 a6 a7 : lev [a0; a1; a2; a3; a4; a5; a6; a7] =
  Z.lxor (Z.shiftl a0 (8 * Z.of_nat 0)) (Z.lxor (Z.shiftl a1 (8 * Z.of_nat 1)) (Z.lxor (Z.shiftl a2 (8 * Z.of_nat 2))
  (Z.lxor (Z.shiftl a3 (8 * Z.of_nat 3)) (Z.lxor (Z.shiftl a4 (8 * Z.of_nat 4)) (Z.lxor (Z.shiftl a5 (8 * Z.of_nat 5))
  (Z.lxor (Z.shiftl a6 (8 * Z.of_nat 6)) (Z.shiftl a7 (8 * Z.of_nat 7)))))))).
Proof.
  cbn [lev]. rewrite Z.shiftl_0_l, Z.lxor_0_r, !Z.shiftl_lxor, !Z.shiftl_shiftl by lia.
  change (8 * Z.of_nat 0) with 0. rewrite Z.shiftl_0_r. reflexivity.
Qed.

Lemma bytes8 a0 a1 a2 a3 a4 a5 a6 a7 r : is_bytes (a0 :: a1 :: a2 :: a3 :: a4 :: a5 :: a6 :: a7 :: r) ->
  (0 <= a0 < 256 /\ 0 <= a1 < 256 /\ 0 <= a2 < 256 /\ 0 <= a3 < 256 /\ 0 <= a4 < 256 /\ 0 <= a5 < 256 /\ 0 <= a6 < 256 /\ 0 <= a7 < 256)
  /\ is_bytes r.
Proof.
  unfold is_bytes. intros H. repeat match goal with H : Forall _ (_ :: _) |- _ => inversion H; subst; clear H end.
  repeat match goal with H : is_u8 _ |- _ => apply u8_byte in H end. auto 10.
Qed.

Lemma lor4 a0 a1 a2 a3 : 0 <= a0 < 256 -> 0 <= a1 < 256 -> 0 <= a2 < 256 -> 0 <= a3 < 256 ->
  Z.lor (Z.lor (Z.lor a0 (Z.shiftl a1 8)) (Z.shiftl a2 16)) (Z.shiftl a3 24) = lev [a0; a1; a2; a3] /\
  0 <= lev [a0; a1; a2; a3] < 2^32.
Proof.
  intros. assert (B : is_bytes [a0; a1; a2; a3]) by (repeat constructor; unfold is_u8; change (2^8) with 256; lia).
  split; [|split; [apply lev_nn; auto|apply (lev_lt _ B)]].
  assert (E8 : Z.lor a0 (Z.shiftl a1 8) = Z.lxor a0 (Z.shiftl a1 8)) by (apply lor_lxor_disj; [lia|change (2^8) with 256; lia]).
  assert (R16 : 0 <= Z.lxor a0 (Z.shiftl a1 8) < 2^16).
  { apply xlt; [lia| |apply shiftl_rng; lia]. change (2^16) with 65536. lia. }
  rewrite E8, (lor_lxor_disj _ a2 16) by lia.
  assert (R24 : 0 <= Z.lxor (Z.lxor a0 (Z.shiftl a1 8)) (Z.shiftl a2 16) < 2^24).
  { apply xlt; [lia| |apply shiftl_rng; lia]. split; [lia|]. apply Z.lt_trans with (2^16); [lia|reflexivity]. }
  rewrite (lor_lxor_disj _ a3 24) by lia.
  cbn [lev]. rewrite Z.shiftl_0_l, Z.lxor_0_r, !Z.shiftl_lxor, !Z.shiftl_shiftl by lia.
  change (8 + 8) with 16. change (8 + 16) with 24. change (16 + 8) with 24. rewrite !Z.lxor_assoc. reflexivity.
Qed.

Lemma lor8 a0 a1 a2 a3 a4 a5 a6 a7 : is_bytes [a0; a1; a2; a3; a4; a5; a6; a7] ->
  Z.lor (Z.lor (Z.lor (Z.lor (Z.lor (Z.lor (Z.lor a0 (Z.shiftl a1 8)) (Z.shiftl a2 16)) (Z.shiftl a3 24)) (Z.shiftl a4 32))
    (Z.shiftl a5 40)) (Z.shiftl a6 48)) (Z.shiftl a7 56) = lev [a0; a1; a2; a3; a4; a5; a6; a7] /\
  0 <= lev [a0; a1; a2; a3; a4; a5; a6; a7] < 2^64.
Proof.
  intros B. destruct (bytes8 _ _ _ _ _ _ _ _ _ B) as [(? & ? & ? & ? & ? & ? & ? & ?) _].
  split; [|split; [apply lev_nn; auto|apply (lev_lt _ B)]].
  destruct (lor4 a0 a1 a2 a3) as [E R]; auto. rewrite E.
  rewrite (lor_lxor_disj _ a4 32) by lia.
  assert (R40 : 0 <= Z.lxor (lev [a0; a1; a2; a3]) (Z.shiftl a4 32) < 2^40).
  { apply xlt; [lia| |apply shiftl_rng; lia]. split; [lia|]. apply Z.lt_trans with (2^32); [lia|reflexivity]. }
  rewrite (lor_lxor_disj _ a5 40) by lia.
  assert (R48 : 0 <= Z.lxor (Z.lxor (lev [a0; a1; a2; a3]) (Z.shiftl a4 32)) (Z.shiftl a5 40) < 2^48).
  { apply xlt; [lia| |apply shiftl_rng; lia]. split; [lia|]. apply Z.lt_trans with (2^40); [lia|reflexivity]. }
  rewrite (lor_lxor_disj _ a6 48) by lia.
  assert (R56 : 0 <= Z.lxor (Z.lxor (Z.lxor (lev [a0; a1; a2; a3]) (Z.shiftl a4 32)) (Z.shiftl a5 40)) (Z.shiftl a6 48) < 2^56).
  { apply xlt; [lia| |apply shiftl_rng; lia]. split; [lia|]. apply Z.lt_trans with (2^48); [lia|reflexivity]. }
  rewrite (lor_lxor_disj _ a7 56) by lia.
  change [a0; a1; a2; a3; a4; a5; a6; a7] with ([a0; a1; a2; a3] ++ [a4; a5; a6; a7]).
  rewrite lev_app. change (8 * Z.of_nat (length [a0; a1; a2; a3])) with 32.
  cbn [lev]. rewrite !Z.shiftl_0_l, !Z.lxor_0_r, !Z.shiftl_lxor, !Z.shiftl_shiftl by lia.
  rewrite !Z.lxor_assoc. reflexivity.
Qed.

Section Eat.
Variable poly : Z.
Notation it k c := (Nat.iter k (tab_bit poly) c).

Lemma it64_byte j b : (j < 8)%nat -> it 64 (Z.shiftl b (8 * Z.of_nat j)) = it (8 * (7 - j + 1)) b.
Proof.
  intros Hj. replace (8 * Z.of_nat j) with (Z.of_nat (8 * j)) by lia. rewrite it_shift_le by lia. f_equal. lia.
Qed.

Lemma it64_lev8 a0 a1 a2 a3 a4 a5 a6 a7 : it 64 (lev [a0; a1; a2; a3; a4; a5; a6; a7]) =
  Z.lxor (it (8 * (7 + 1)) a0) (Z.lxor (it (8 * (6 + 1)) a1) (Z.lxor (it (8 * (5 + 1)) a2)
  (Z.lxor (it (8 * (4 + 1)) a3) (Z.lxor (it (8 * (3 + 1)) a4) (Z.lxor (it (8 * (2 + 1)) a5)
  (Z.lxor (it (8 * (1 + 1)) a6) (it (8 * (0 + 1)) a7))))))).
Proof. rewrite lev8, !it_lxor, !it64_byte by lia. reflexivity. Qed.

(** What one pass of eight bytes must do. *)
Lemma eat8 r a0 a1 a2 a3 a4 a5 a6 a7 rest :
  it (8 * length rest) (Z.lxor (it 64 (Z.lxor r (lev [a0; a1; a2; a3; a4; a5; a6; a7]))) (lev rest)) =
  it (8 * length (a0 :: a1 :: a2 :: a3 :: a4 :: a5 :: a6 :: a7 :: rest))
     (Z.lxor r (lev (a0 :: a1 :: a2 :: a3 :: a4 :: a5 :: a6 :: a7 :: rest))).
Proof.
  change (a0 :: a1 :: a2 :: a3 :: a4 :: a5 :: a6 :: a7 :: rest) with ([a0; a1; a2; a3; a4; a5; a6; a7] ++ rest).
  rewrite lev_app, app_length. change (length [a0; a1; a2; a3; a4; a5; a6; a7]) with 8%nat.
  transitivity (it (8 * length rest) (it 64 (Z.lxor (Z.lxor r (lev [a0; a1; a2; a3; a4; a5; a6; a7])) (Z.shiftl (lev rest) (8 * Z.of_nat 8))))).
  - f_equal. rewrite (it_lxor poly 64 (Z.lxor r (lev [a0; a1; a2; a3; a4; a5; a6; a7]))).
    change (8 * Z.of_nat 8) with (Z.of_nat 64). rewrite it_shift. reflexivity.
  - rewrite <- it_add, Z.lxor_assoc. f_equal. lia.
Qed.
End Eat.

(** ** CRC32 *)
Notation it32 k c := (Nat.iter k (tab_bit ieee_poly) c).
Lemma poly32_rng : 0 <= ieee_poly < 2^32.
Proof. split; [discriminate|reflexivity]. Qed.

Lemma step32 r a0 a1 a2 a3 a4 a5 a6 a7 : is_bytes [a0; a1; a2; a3; a4; a5; a6; a7] -> 0 <= r < 2^32 ->
  let crc := Z.lxor r (Z.lor (Z.lor (Z.lor a0 (Z.shiftl a1 8)) (Z.shiftl a2 16)) (Z.shiftl a3 24)) in
  let tb j i := at_ (nth j (slice_tables (make_table ieee_poly)) []) i in
  Z.lxor (Z.lxor (Z.lxor (Z.lxor (Z.lxor (Z.lxor (Z.lxor
          (tb 0%nat a7) (tb 1%nat a6)) (tb 2%nat a5)) (tb 3%nat a4))
          (tb 4%nat (Z.shiftr crc 24))) (tb 5%nat (Z.land (Z.shiftr crc 16) 255)))
          (tb 6%nat (Z.land (Z.shiftr crc 8) 255))) (tb 7%nat (Z.land crc 255))
  = it32 64 (Z.lxor r (lev [a0; a1; a2; a3; a4; a5; a6; a7])).
Proof.
  intros B Hr crc tb. destruct (bytes8 _ _ _ _ _ _ _ _ _ B) as [(? & ? & ? & ? & ? & ? & ? & ?) _].
  destruct (lor4 a0 a1 a2 a3) as [E R]; auto.
  assert (Hc : 0 <= crc < 2^32) by (apply xlt; [lia|auto|rewrite E; auto]).
  assert (Ec : crc = Z.lxor r (lev [a0; a1; a2; a3])) by (unfold crc; rewrite E; reflexivity).
  clearbody crc. pose proof (split_bytes 4 crc Hc) as S4. cbn [seq map] in S4.
  change (8 * Z.of_nat 0) with 0 in S4. change (8 * Z.of_nat 1) with 8 in S4.
  change (8 * Z.of_nat 2) with 16 in S4. change (8 * Z.of_nat 3) with 24 in S4.
  replace (Z.land crc 255) with (byte_at crc 0) by (unfold byte_at; rewrite Z.shiftr_0_r; reflexivity).
  replace (Z.shiftr crc 24) with (byte_at crc 24) by (apply (top_byte 3); exact Hc).
  fold (byte_at crc 16) (byte_at crc 8).
  assert (HL : Z.lxor r (lev [a0; a1; a2; a3; a4; a5; a6; a7]) =
               lev [byte_at crc 0; byte_at crc 8; byte_at crc 16; byte_at crc 24; a4; a5; a6; a7]).
  { change [a0; a1; a2; a3; a4; a5; a6; a7] with ([a0; a1; a2; a3] ++ [a4; a5; a6; a7]).
    change [byte_at crc 0; byte_at crc 8; byte_at crc 16; byte_at crc 24; a4; a5; a6; a7] with
      ([byte_at crc 0; byte_at crc 8; byte_at crc 16; byte_at crc 24] ++ [a4; a5; a6; a7]).
    rewrite !lev_app, <- S4, Ec, Z.lxor_assoc. reflexivity. }
  rewrite HL, it64_lev8. unfold tb. clear S4 HL Ec.
  rewrite !(at_slice 32 ieee_poly ltac:(lia) poly32_rng) by (lia || apply byte_at_rng). xsolve.
Qed.

Lemma slice32_eq t r a0 a1 a2 a3 a4 a5 a6 a7 a8 m :
  slice_loop32 t (a0 :: a1 :: a2 :: a3 :: a4 :: a5 :: a6 :: a7 :: a8 :: m) r =
  slice_loop32 t (a8 :: m) (
  let crc := Z.lxor r (Z.lor (Z.lor (Z.lor a0 (Z.shiftl a1 8)) (Z.shiftl a2 16)) (Z.shiftl a3 24)) in
  let tb j i := at_ (nth j t []) i in
  Z.lxor (Z.lxor (Z.lxor (Z.lxor (Z.lxor (Z.lxor (Z.lxor
          (tb 0%nat a7) (tb 1%nat a6)) (tb 2%nat a5)) (tb 3%nat a4))
          (tb 4%nat (Z.shiftr crc 24))) (tb 5%nat (Z.land (Z.shiftr crc 16) 255)))
          (tb 6%nat (Z.land (Z.shiftr crc 8) 255))) (tb 7%nat (Z.land crc 255))).
Proof. reflexivity. Qed.

Lemma slice_loop32_it n : forall m r, (length m <= n)%nat -> is_bytes m -> 0 <= r < 2^32 ->
  let '(c, rest) := slice_loop32 (slice_tables (make_table ieee_poly)) m r in
  is_bytes rest /\ 0 <= c < 2^32 /\ it32 (8 * length rest) (Z.lxor c (lev rest)) = it32 (8 * length m) (Z.lxor r (lev m)).
Proof.
  induction n as [|n IH]; intros m r Hn B Hr.
  - destruct m; [|cbn in Hn; lia]. cbn [slice_loop32]. auto.
  - destruct m as [|a0 [|a1 [|a2 [|a3 [|a4 [|a5 [|a6 [|a7 [|a8 m]]]]]]]]]; try (cbn [slice_loop32]; auto; fail).
    rewrite slice32_eq. cbv zeta.
    destruct (bytes8 _ _ _ _ _ _ _ _ _ B) as [_ B'].
    assert (B8 : is_bytes [a0; a1; a2; a3; a4; a5; a6; a7]) by (change (is_bytes ([a0; a1; a2; a3; a4; a5; a6; a7] ++ a8 :: m)) in B; apply Forall_app in B; tauto).
    pose proof (step32 r a0 a1 a2 a3 a4 a5 a6 a7 B8 Hr) as S. cbv zeta in S. rewrite S.
    set (r' := it32 64 (Z.lxor r (lev [a0; a1; a2; a3; a4; a5; a6; a7]))).
    assert (Hr' : 0 <= r' < 2^32).
    { apply it_range; [lia|exact poly32_rng|]. change (32 + Z.of_nat 64) with 96. apply xlt; [lia| |].
      - split; [lia|]. apply Z.lt_trans with (2^32); [lia|reflexivity].
      - destruct (lor8 _ _ _ _ _ _ _ _ B8) as [_ ?]. split; [lia|]. apply Z.lt_trans with (2^64); [lia|reflexivity]. }
    specialize (IH (a8 :: m) r' ltac:(cbn [length] in *; lia) B' Hr').
    destruct (slice_loop32 (slice_tables (make_table ieee_poly)) (a8 :: m) r') as [c rest].
    destruct IH as (I1 & I2 & I3). split; [auto|]. split; [auto|]. rewrite I3. unfold r'. apply eat8.
Qed.

Lemma not32_invol c : not32 (not32 c) = c.
Proof. unfold not32. rewrite Z.lxor_assoc, Z.lxor_nilpotent, Z.lxor_0_r. reflexivity. Qed.

Lemma simple32_it m r : is_bytes m -> simple_update32 (make_table ieee_poly) r m = not32 (it32 (8 * length m) (Z.lxor (not32 r) (lev m))).
Proof. intros B. unfold simple_update32. rewrite (byte_loop_it 32 ieee_poly) by (exact poly32_rng || auto || lia). reflexivity. Qed.

Lemma CRC32_it m : is_bytes m -> CRC32 m = not32 (it32 (8 * length m) (Z.lxor (2^32 - 1) (lev m))).
Proof.
  intros B. unfold CRC32, slicing_update32. change (2^32 - 1) with (not32 0) at 1.
  destruct (16 <=? Z.of_nat (length m)).
  - pose proof (slice_loop32_it (length m) m (not32 0) ltac:(lia) B) as H.
    destruct (slice_loop32 (slice_tables (make_table ieee_poly)) m (not32 0)) as [c rest].
    destruct H as (H1 & H2 & H3); [split; [discriminate|reflexivity]|].
    destruct rest as [|b rest].
    + cbn [length lev] in H3. rewrite Z.lxor_0_r in H3. change (it32 (8 * 0) c) with c in H3. rewrite <- H3. reflexivity.
    + rewrite simple32_it, not32_invol by auto. rewrite H3. reflexivity.
  - destruct m as [|b m]; [reflexivity|]. rewrite simple32_it by auto. reflexivity.
Qed.

(** ** CRC64 *)
Notation it64 k c := (Nat.iter k (tab_bit ecma_poly) c).
Lemma poly64_rng : 0 <= ecma_poly < 2^64.
Proof. split; [discriminate|reflexivity]. Qed.

Lemma step64 r a0 a1 a2 a3 a4 a5 a6 a7 : is_bytes [a0; a1; a2; a3; a4; a5; a6; a7] -> 0 <= r < 2^64 ->
  let crc := Z.lxor r (Z.lor (Z.lor (Z.lor (Z.lor (Z.lor (Z.lor (Z.lor a0 (Z.shiftl a1 8)) (Z.shiftl a2 16))
                   (Z.shiftl a3 24)) (Z.shiftl a4 32)) (Z.shiftl a5 40)) (Z.shiftl a6 48)) (Z.shiftl a7 56)) in
  let tb j i := at_ (nth j (slice_tables (make_table ecma_poly)) []) i in
  Z.lxor (Z.lxor (Z.lxor (Z.lxor (Z.lxor (Z.lxor (Z.lxor
          (tb 7%nat (Z.land crc 255)) (tb 6%nat (Z.land (Z.shiftr crc 8) 255)))
          (tb 5%nat (Z.land (Z.shiftr crc 16) 255))) (tb 4%nat (Z.land (Z.shiftr crc 24) 255)))
          (tb 3%nat (Z.land (Z.shiftr crc 32) 255))) (tb 2%nat (Z.land (Z.shiftr crc 40) 255)))
          (tb 1%nat (Z.land (Z.shiftr crc 48) 255))) (tb 0%nat (Z.shiftr crc 56))
  = it64 64 (Z.lxor r (lev [a0; a1; a2; a3; a4; a5; a6; a7])).
Proof.
  intros B Hr crc tb. destruct (lor8 _ _ _ _ _ _ _ _ B) as [E R].
  assert (Hc : 0 <= crc < 2^64) by (apply xlt; [lia|auto|rewrite E; auto]).
  assert (Ec : crc = Z.lxor r (lev [a0; a1; a2; a3; a4; a5; a6; a7])) by (unfold crc; rewrite E; reflexivity).
  clearbody crc. pose proof (split_bytes 8 crc Hc) as S8. cbn [seq map] in S8.
  change (8 * Z.of_nat 0) with 0 in S8. change (8 * Z.of_nat 1) with 8 in S8.
  change (8 * Z.of_nat 2) with 16 in S8. change (8 * Z.of_nat 3) with 24 in S8.
  change (8 * Z.of_nat 4) with 32 in S8. change (8 * Z.of_nat 5) with 40 in S8.
  change (8 * Z.of_nat 6) with 48 in S8. change (8 * Z.of_nat 7) with 56 in S8.
  replace (Z.land crc 255) with (byte_at crc 0) by (unfold byte_at; rewrite Z.shiftr_0_r; reflexivity).
  replace (Z.shiftr crc 56) with (byte_at crc 56) by (apply (top_byte 7); exact Hc).
  fold (byte_at crc 8) (byte_at crc 16) (byte_at crc 24) (byte_at crc 32) (byte_at crc 40) (byte_at crc 48).
  rewrite <- Ec, S8, it64_lev8. rewrite <- S8. unfold tb. clear S8 Ec.
  rewrite !(at_slice 64 ecma_poly ltac:(lia) poly64_rng) by (lia || apply byte_at_rng). xsolve.
Qed.

Lemma slice64_eq t r a0 a1 a2 a3 a4 a5 a6 a7 a8 m :
  slice_loop64 t (a0 :: a1 :: a2 :: a3 :: a4 :: a5 :: a6 :: a7 :: a8 :: m) r =
  slice_loop64 t (a8 :: m) (
  let crc := Z.lxor r (Z.lor (Z.lor (Z.lor (Z.lor (Z.lor (Z.lor (Z.lor a0 (Z.shiftl a1 8)) (Z.shiftl a2 16))
                   (Z.shiftl a3 24)) (Z.shiftl a4 32)) (Z.shiftl a5 40)) (Z.shiftl a6 48)) (Z.shiftl a7 56)) in
  let tb j i := at_ (nth j t []) i in
  Z.lxor (Z.lxor (Z.lxor (Z.lxor (Z.lxor (Z.lxor (Z.lxor
          (tb 7%nat (Z.land crc 255)) (tb 6%nat (Z.land (Z.shiftr crc 8) 255)))
          (tb 5%nat (Z.land (Z.shiftr crc 16) 255))) (tb 4%nat (Z.land (Z.shiftr crc 24) 255)))
          (tb 3%nat (Z.land (Z.shiftr crc 32) 255))) (tb 2%nat (Z.land (Z.shiftr crc 40) 255)))
          (tb 1%nat (Z.land (Z.shiftr crc 48) 255))) (tb 0%nat (Z.shiftr crc 56))).
Proof. reflexivity. Qed.

Lemma slice_loop64_it n : forall m r, (length m <= n)%nat -> is_bytes m -> 0 <= r < 2^64 ->
  let '(c, rest) := slice_loop64 (slice_tables (make_table ecma_poly)) m r in
  is_bytes rest /\ 0 <= c < 2^64 /\ it64 (8 * length rest) (Z.lxor c (lev rest)) = it64 (8 * length m) (Z.lxor r (lev m)).
Proof.
  induction n as [|n IH]; intros m r Hn B Hr.
  - destruct m; [|cbn in Hn; lia]. cbn [slice_loop64]. auto.
  - destruct m as [|a0 [|a1 [|a2 [|a3 [|a4 [|a5 [|a6 [|a7 [|a8 m]]]]]]]]]; try (cbn [slice_loop64]; auto; fail).
    rewrite slice64_eq. cbv zeta.
    destruct (bytes8 _ _ _ _ _ _ _ _ _ B) as [_ B'].
    assert (B8 : is_bytes [a0; a1; a2; a3; a4; a5; a6; a7]) by (change (is_bytes ([a0; a1; a2; a3; a4; a5; a6; a7] ++ a8 :: m)) in B; apply Forall_app in B; tauto).
    pose proof (step64 r a0 a1 a2 a3 a4 a5 a6 a7 B8 Hr) as S. cbv zeta in S. rewrite S.
    set (r' := it64 64 (Z.lxor r (lev [a0; a1; a2; a3; a4; a5; a6; a7]))).
    assert (Hr' : 0 <= r' < 2^64).
    { apply it_range; [lia|exact poly64_rng|]. change (64 + Z.of_nat 64) with 128. apply xlt; [lia| |].
      - split; [lia|]. apply Z.lt_trans with (2^64); [lia|reflexivity].
      - destruct (lor8 _ _ _ _ _ _ _ _ B8) as [_ ?]. split; [lia|]. apply Z.lt_trans with (2^64); [lia|reflexivity]. }
    specialize (IH (a8 :: m) r' ltac:(cbn [length] in *; lia) B' Hr').
    destruct (slice_loop64 (slice_tables (make_table ecma_poly)) (a8 :: m) r') as [c rest].
    destruct IH as (I1 & I2 & I3). split; [auto|]. split; [auto|]. rewrite I3. unfold r'. apply eat8.
Qed.

Lemma CRC64_it m : is_bytes m -> CRC64 m = not64 (it64 (8 * length m) (Z.lxor (2^64 - 1) (lev m))).
Proof.
  intros B. unfold CRC64, update64. change (2^64 - 1) with (not64 0) at 1.
  destruct (64 <=? Z.of_nat (length m)).
  - pose proof (slice_loop64_it (length m) m (not64 0) ltac:(lia) B) as H.
    destruct (slice_loop64 (slice_tables (make_table ecma_poly)) m (not64 0)) as [c rest].
    destruct H as (H1 & H2 & H3); [split; [discriminate|reflexivity]|].
    rewrite (byte_loop_it 64 ecma_poly), H3 by (exact poly64_rng || auto || lia). reflexivity.
  - rewrite (byte_loop_it 64 ecma_poly) by (exact poly64_rng || auto || lia). reflexivity.
Qed.
