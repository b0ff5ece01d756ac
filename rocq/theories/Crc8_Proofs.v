(** Lemmas about CRC8. *)
From Coq Require Import ZArith List Bool Lia ZifyBool ZifyNat.
From Verif Require Import GoInt Num_Spec Num_Proofs Base58_Proofs Crc8_Model Crc8_Spec.
Import ListNotations.
Local Open Scope Z_scope.

Ltac lxor_solve := apply Z.bits_inj'; let i := fresh "i" in intros i ?; rewrite ?Z.lxor_spec, ?Z.bits_0;
  repeat match goal with |- context [Z.testbit ?x i] => destruct (Z.testbit x i); cbn [xorb] end; reflexivity.

(** ** Algebra of [timesP] *)
Lemma timesP_lxor a b : timesP (Z.lxor a b) = Z.lxor (timesP a) (timesP b).
Proof.
  unfold timesP. rewrite !Z.shiftl_lxor.
  apply Z.bits_inj'. intros i Hi. rewrite !Z.lxor_spec.
  repeat match goal with |- context [Z.testbit ?x i] => destruct (Z.testbit x i); cbn end; reflexivity.
Qed.

Lemma timesP_shiftl q k : 0 <= k -> timesP (Z.shiftl q k) = Z.shiftl (timesP q) k.
Proof.
  intros Hk. unfold timesP. rewrite !Z.shiftl_lxor, !Z.shiftl_shiftl by lia.
  rewrite !(Z.add_comm k). reflexivity.
Qed.

Lemma lxor_nonneg a b : 0 <= a -> 0 <= b -> 0 <= Z.lxor a b.
Proof. intros. apply Z.lxor_nonneg. lia. Qed.

Lemma timesP_nonneg q : 0 <= q -> 0 <= timesP q.
Proof.
  intros. unfold timesP. repeat apply lxor_nonneg; rewrite ?Z.shiftl_nonneg; lia.
Qed.

Lemma log2_lxor_lt a b : 0 <= b -> Z.log2 b < Z.log2 a -> 0 < a -> Z.log2 (Z.lxor a b) = Z.log2 a.
Proof.
  intros Hb Hl Ha. apply Z.log2_bits_unique.
  - rewrite Z.lxor_spec, Z.bit_log2, Z.bits_above_log2 by lia. reflexivity.
  - intros m Hm. rewrite Z.lxor_spec, !Z.bits_above_log2 by lia. reflexivity.
Qed.

Lemma log2_lxor_le a b : 0 <= a -> 0 <= b -> Z.log2 (Z.lxor a b) <= Z.max (Z.log2 a) (Z.log2 b).
Proof. intros. apply Z.log2_lxor; lia. Qed.

Lemma timesP_small q : 0 <= q -> timesP q < 256 -> q = 0.
Proof.
  intros Hq H. destruct (Z.eq_dec q 0) as [|Hn]; auto. exfalso.
  assert (Hl : Z.log2 (timesP q) = Z.log2 q + 8).
  { unfold timesP.
    assert (Hr : Z.log2 (Z.lxor (Z.shiftl q 2) (Z.lxor (Z.shiftl q 1) q)) <= Z.log2 q + 2).
    { etransitivity; [apply log2_lxor_le; [|apply lxor_nonneg]; rewrite ?Z.shiftl_nonneg; lia|].
      apply Z.max_lub; [rewrite Z.log2_shiftl; lia|].
      etransitivity; [apply log2_lxor_le; rewrite ?Z.shiftl_nonneg; lia|].
      rewrite Z.log2_shiftl by lia. lia. }
    rewrite log2_lxor_lt.
    - rewrite Z.log2_shiftl; lia.
    - repeat apply lxor_nonneg; rewrite ?Z.shiftl_nonneg; lia.
    - rewrite (Z.log2_shiftl q 8) by lia. lia.
    - rewrite Z.shiftl_mul_pow2 by lia. nia. }
  pose proof (Z.log2_nonneg q). pose proof (timesP_nonneg q Hq).
  assert (0 < timesP q).
  { destruct (Z.eq_dec (timesP q) 0) as [E|E]; [rewrite E in Hl; cbn in Hl; lia|lia]. }
  assert (Z.log2 (timesP q) < 8) by (apply Z.log2_lt_pow2; lia). lia.
Qed.

Lemma lxor_lt_256 a b : 0 <= a < 256 -> 0 <= b < 256 -> 0 <= Z.lxor a b < 256.
Proof.
  intros Ha Hb. split; [apply lxor_nonneg; lia|].
  destruct (Z.eq_dec (Z.lxor a b) 0) as [->|E]; [lia|].
  apply (Z.log2_lt_cancel _ (2^8)).
  pose proof (lxor_nonneg a b ltac:(lia) ltac:(lia)).
  pose proof (log2_lxor_le a b ltac:(lia) ltac:(lia)).
  change (Z.log2 (2^8)) with 8.
  assert (forall x, 0 <= x < 256 -> Z.log2 x < 8).
  { intros x Hx. destruct (Z.eq_dec x 0) as [->|]; [cbn; lia|]. apply Z.log2_lt_pow2; lia. }
  pose proof (H1 a Ha). pose proof (H1 b Hb). lia.
Qed.

(** Division with remainder by P, used only to compute witnesses. *)
Fixpoint divP (fuel : nat) (z : Z) : Z * Z :=
  match fuel with
  | O => (0, z)
  | S f => if z <? 256 then (0, z)
           else let k := Z.log2 z - 8 in
                let '(q, r) := divP f (Z.lxor z (Z.shiftl 263 k)) in (Z.lxor (Z.shiftl 1 k) q, r)
  end.

(** ** The table *)
Lemma table_entry x : 0 <= x < 256 ->
  0 <= nth (Z.to_nat x) crc8Tab 0 < 256 /\
  exists q, 0 <= q /\ Z.shiftl x 8 = Z.lxor (timesP q) (nth (Z.to_nat x) crc8Tab 0).
Proof.
  intros Hx.
  assert (H : forallb (fun x => let t := nth (Z.to_nat x) crc8Tab 0 in
     let q := fst (divP 20 (Z.shiftl x 8)) in
     (0 <=? t) && (t <? 256) && (0 <=? q) && (Z.shiftl x 8 =? Z.lxor (timesP q) t))
     (map Z.of_nat (seq 0 256)) = true) by (vm_compute; reflexivity).
  pose proof (range_forallb _ 256 H x ltac:(lia)) as H0. cbv beta zeta in H0.
  rewrite !andb_true_iff, !Z.leb_le, Z.ltb_lt, Z.eqb_eq in H0.
  split; [tauto|]. exists (fst (divP 20 (Z.shiftl x 8))). tauto.
Qed.

Lemma lxor_cancel_shuffle a b c : Z.lxor (Z.lxor a b) (Z.lxor b c) = Z.lxor a c.
Proof.
  rewrite <- Z.lxor_assoc, (Z.lxor_assoc a b b), Z.lxor_nilpotent, Z.lxor_0_r. reflexivity.
Qed.

Lemma crc8_loop_spec bs : forall pre r, is_bytes bs -> is_crc pre r -> 0 <= be_value pre ->
  is_crc (pre ++ bs) (crc8_loop bs r).
Proof.
  induction bs as [|v bs IH]; intros pre r Hb Hc Hp; cbn [crc8_loop].
  - rewrite app_nil_r. auto.
  - inversion Hb; subst. unfold is_u8 in H1. change (2^8) with 256 in H1.
    destruct Hc as [Hr [q [Hq Hqr]]].
    pose proof (lxor_lt_256 r v Hr H1) as Hx.
    destruct (table_entry _ Hx) as [Ht [q2 [Hq2 E2]]].
    replace (pre ++ v :: bs) with ((pre ++ [v]) ++ bs) by (rewrite <- app_assoc; reflexivity).
    assert (Hv : be_value (pre ++ [v]) = Z.lxor (Z.shiftl (be_value pre) 8) v).
    { rewrite be_value_app. cbn [length be_value]. change (256 ^ Z.of_nat 1) with 256.
      change (256 ^ Z.of_nat 0) with 1.
      replace (be_value pre * 256 + (v * 1 + 0)) with (Z.lor (Z.shiftl (be_value pre) 8) v)
        by (rewrite lor_shift_add by lia; lia).
      symmetry. apply Z.bits_inj'. intros i Hi. rewrite Z.lxor_spec, Z.lor_spec.
      destruct (Z_lt_ge_dec i 8).
      - rewrite Z.shiftl_spec, Z.testbit_neg_r by lia. destruct (Z.testbit v i); reflexivity.
      - rewrite (testbit_high_pos v 8 i) by lia. rewrite xorb_false_r, orb_false_r. reflexivity. }
    apply IH; auto.
    + split; auto. exists (Z.lxor (Z.shiftl q 8) q2).
      split; [apply lxor_nonneg; rewrite ?Z.shiftl_nonneg; lia|].
      rewrite Hv, Hqr, timesP_lxor, timesP_shiftl by lia.
      rewrite !Z.shiftl_lxor in *. rewrite Z.lxor_assoc, E2, <- Z.lxor_assoc. reflexivity.
    + rewrite Hv. apply lxor_nonneg; rewrite ?Z.shiftl_nonneg; lia.
Qed.

Lemma crc8_is_crc m : is_bytes m -> is_crc m (CRC8 m).
Proof.
  intros H. unfold CRC8. apply (crc8_loop_spec m [] 0); auto.
  - split; [lia|]. exists 0. split; [lia|]. reflexivity.
  - cbn. lia.
Qed.

(** ** Uniqueness of the remainder *)
Lemma timesP_rem_unique q1 q2 r1 r2 : 0 <= q1 -> 0 <= q2 -> 0 <= r1 < 256 -> 0 <= r2 < 256 ->
  Z.lxor (timesP q1) r1 = Z.lxor (timesP q2) r2 -> r1 = r2.
Proof.
  intros Hq1 Hq2 Hr1 Hr2 E.
  assert (E2 : timesP (Z.lxor q1 q2) = Z.lxor r1 r2).
  { rewrite timesP_lxor.
    replace (timesP q1) with (Z.lxor (Z.lxor (timesP q1) r1) r1) by lxor_solve.
    rewrite E. lxor_solve. }
  pose proof (lxor_lt_256 _ _ Hr1 Hr2).
  assert (Z.lxor q1 q2 = 0) by (apply timesP_small; [apply lxor_nonneg; lia|lia]).
  rewrite H0 in E2. apply Z.lxor_eq. rewrite <- E2. reflexivity.
Qed.

Lemma is_crc_unique m c1 c2 : is_crc m c1 -> is_crc m c2 -> c1 = c2.
Proof.
  intros [H1 [q1 [Q1 E1]]] [H2 [q2 [Q2 E2]]].
  apply (timesP_rem_unique q1 q2); auto. congruence.
Qed.

(** ** Equal checksums mean the error is a multiple of P *)
Lemma lxor_eq_shuffle a b c d : Z.lxor a b = c -> Z.lxor a d = Z.lxor c (Z.lxor b d).
Proof. intros <-. symmetry. apply lxor_cancel_shuffle. Qed.

Lemma timesP_even_div k : forall q e, 0 <= q -> 0 <= e -> timesP q = Z.shiftl e (Z.of_nat k) ->
  exists q', 0 <= q' /\ timesP q' = e.
Proof.
  induction k as [|k IH]; intros q e Hq He E.
  - exists q. auto.
  - assert (Hodd : Z.testbit q 0 = false).
    { assert (Hb : Z.testbit (timesP q) 0 = false).
      { rewrite E, Z.shiftl_spec, Z.testbit_neg_r by lia. reflexivity. }
      unfold timesP in Hb. rewrite !Z.lxor_spec, !Z.shiftl_spec, !Z.testbit_neg_r in Hb by lia.
      destruct (Z.testbit q 0); cbn in Hb; congruence. }
    assert (Hq2 : q = Z.shiftl (Z.div2 q) 1).
    { rewrite Z.shiftl_mul_pow2 by lia. rewrite Z.bit0_odd in Hodd.
      pose proof (Z.div2_odd q) as D. rewrite Hodd in D. cbn [Z.b2z] in D.
      change (2^1) with 2. lia. }
    apply (IH (Z.div2 q) e); auto.
    + apply Z.div2_nonneg. lia.
    + rewrite Hq2, timesP_shiftl in E by lia.
      replace (Z.of_nat (S k)) with (Z.of_nat k + 1) in E by lia.
      rewrite <- Z.shiftl_shiftl in E by lia.
      rewrite !(Z.shiftl_mul_pow2 _ 1) in E by lia. change (2^1) with 2 in E. lia.
Qed.

Lemma same_crc_divides m m' : is_bytes m -> is_bytes m' -> CRC8 m = CRC8 m' ->
  exists q, 0 <= q /\ timesP q = error_pattern m m'.
Proof.
  intros Hm Hm' E.
  destruct (crc8_is_crc m Hm) as [R1 [q1 [Q1 E1]]].
  destruct (crc8_is_crc m' Hm') as [R2 [q2 [Q2 E2]]].
  apply (timesP_even_div 8 (Z.lxor q1 q2)).
  - apply lxor_nonneg; lia.
  - apply lxor_nonneg; apply be_value_bound; auto.
  - unfold error_pattern. change (Z.of_nat 8) with 8.
    rewrite Z.shiftl_lxor, E1, E2, timesP_lxor, E.
    rewrite <- Z.lxor_assoc, (Z.lxor_assoc (timesP q1)), (Z.lxor_comm (CRC8 m')), <- Z.lxor_assoc.
    rewrite Z.lxor_assoc, Z.lxor_nilpotent, Z.lxor_0_r. reflexivity.
Qed.

(** ** The three error classes *)
Lemma burst_detected e k q : 0 <= q -> 0 < e < 256 -> 0 <= k -> timesP q <> Z.shiftl e k.
Proof.
  intros Hq He Hk E. rewrite <- (Z2Nat.id k) in E by lia.
  destruct (timesP_even_div (Z.to_nat k) q e Hq ltac:(lia) E) as [q' [Hq' E']].
  rewrite (timesP_small q') in E' by lia. cbn in E'. lia.
Qed.

Lemma parity_lxor_pos p : forall q, odd_weight (Z.lxor (Zpos p) (Zpos q)) = xorb (pos_parity p) (pos_parity q).
Proof.
  assert (S1 : forall n, odd_weight (Z.of_N (Pos.Nsucc_double n)) = negb (odd_weight (Z.of_N n)))
    by (intros [|]; reflexivity).
  assert (S2 : forall n, odd_weight (Z.of_N (Pos.Ndouble n)) = odd_weight (Z.of_N n))
    by (intros [|]; reflexivity).
  induction p as [p IH|p IH|]; intros [q|q|]; cbn [Z.lxor Pos.lxor pos_parity];
    rewrite ?S1, ?S2; try (specialize (IH q); cbn [Z.lxor] in IH; rewrite IH);
    try (cbn [Z.of_N odd_weight pos_parity]; repeat destruct (pos_parity _); reflexivity).
Qed.

Lemma odd_weight_lxor a b : 0 <= a -> 0 <= b -> odd_weight (Z.lxor a b) = xorb (odd_weight a) (odd_weight b).
Proof.
  intros Ha Hb. destruct a as [|p|p], b as [|q|q]; try lia; cbn [Z.lxor odd_weight].
  - reflexivity.
  - destruct (pos_parity q); reflexivity.
  - destruct (pos_parity p); reflexivity.
  - apply parity_lxor_pos.
Qed.

Lemma odd_weight_shiftl a k : 0 <= a -> 0 <= k -> odd_weight (Z.shiftl a k) = odd_weight a.
Proof.
  intros Ha Hk. rewrite <- (Z2Nat.id k) by lia. induction (Z.to_nat k) as [|n IH].
  - rewrite Z.shiftl_0_r. reflexivity.
  - replace (Z.of_nat (S n)) with (Z.of_nat n + 1) by lia.
    rewrite <- Z.shiftl_shiftl by lia. rewrite <- IH.
    rewrite Z.shiftl_mul_pow2 by lia. change (2^1) with 2.
    assert (0 <= Z.shiftl a (Z.of_nat n)) by (rewrite Z.shiftl_nonneg; lia).
    destruct (Z.shiftl a (Z.of_nat n)) as [|p|p]; try lia; [reflexivity|].
    rewrite Z.mul_comm. reflexivity.
Qed.

Lemma timesP_even_weight q : 0 <= q -> odd_weight (timesP q) = false.
Proof.
  intros Hq. unfold timesP.
  rewrite !odd_weight_lxor, !odd_weight_shiftl; rewrite ?Z.shiftl_nonneg;
    repeat apply lxor_nonneg; rewrite ?Z.shiftl_nonneg; try lia.
  destruct (odd_weight q); reflexivity.
Qed.

Definition not_multiple (n : nat) (z : Z) : bool :=
  let '(q, r) := divP n z in
  (0 <=? q) && (0 <=? r) && (r <? 256) && (z =? Z.lxor (timesP q) r) && negb (r =? 0).

Lemma not_multiple_spec n z q : not_multiple n z = true -> 0 <= q -> timesP q <> z.
Proof.
  intros H Hq E. unfold not_multiple in H. destruct (divP n z) as [q2 r].
  rewrite !andb_true_iff, !Z.leb_le, Z.ltb_lt, Z.eqb_eq, negb_true_iff, Z.eqb_neq in H.
  destruct H as [[[[A1 A2] A3] A4] A5]. apply A5.
  apply (timesP_rem_unique q2 q); try lia. rewrite <- A4, E, Z.lxor_0_r. reflexivity.
Qed.

Definition two_bits_ok (d : Z) : bool := (d =? 0) || not_multiple 300 (1 + 2^d).

Lemma two_bits_table : forallb two_bits_ok (map Z.of_nat (seq 0 127)) = true.
Proof. vm_compute. reflexivity. Qed.

Lemma two_bits_detected d k q : 0 <= q -> 0 < d < 127 -> 0 <= k ->
  timesP q <> Z.shiftl (1 + 2 ^ d) k.
Proof.
  intros Hq Hd Hk E. rewrite <- (Z2Nat.id k) in E by lia.
  destruct (timesP_even_div (Z.to_nat k) q (1 + 2^d) Hq ltac:(pose proof (Z.pow_nonneg 2 d); lia) E)
    as [q' [Hq' E']].
  pose proof (range_forallb _ 127 two_bits_table d ltac:(lia)) as H0.
  unfold two_bits_ok in H0. apply orb_prop in H0 as [H0|H0]; [lia|].
  exact (not_multiple_spec _ _ q' H0 Hq' E').
Qed.
