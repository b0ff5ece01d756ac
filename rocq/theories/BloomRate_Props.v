(** C142, C143: the sizes that NewBloomFilter computes, and the rate of false positives.

    [Log] stands for math.Log, with the accuracy documented for it; [E] is expectedItems, [p] falsePositiveRate.  For the rate, the hash
    values of all items are independent of each other and uniform over the bits; the rate is over all such tables.  (maphash gives 64 bits,
    which are taken modulo the number of bits.) *)
From Coq Require Import ZArith List Bool Lia Reals Lra Psatz.
From Flocq Require Import Core BinarySingleNaN.
From Verif Require Import GoInt GoFloat Bloom_Model Bloom_Spec Bloom_Proofs Bloom_Props BloomRate_Model BloomRate_Spec BloomRate_Count BloomRate_Proofs BloomRate_Upper.
Import ListNotations.
Local Open Scope R_scope.

(** Such a logarithm exists: the nearest float64. *)
Definition Log0 (x : f64) : f64 := let r := R64 (ln (B2R x)) in
  binary_normalize 53 1024 prec_ok emax_ok mode_NE (Ztrunc (scaled_mantissa radix2 (SpecFloat.fexp 53 1024) r)) (cexp radix2 (SpecFloat.fexp 53 1024) r) false.
Lemma ln_far x : is_finite x = true -> 0 < B2R (prec := 53) (emax := 1024) x -> ln (B2R x) = 0 \/ u / 2 <= Rabs (ln (B2R x)).
Proof.
  intros Hf Hx. destruct (Rtotal_order (B2R x) 1) as [H|[->|H]]; [right|left; apply ln_1|right].
  - pose proof (below_one x Hf H). pose proof (ln_bound (B2R x) Hx). pose proof u0. rewrite Rabs_left; lra.
  - pose proof (generic_format_B2R 53 1024 x) as G. assert (V : Valid_exp (SpecFloat.fexp 53 1024)) by (apply (fexp_correct 53 1024); reflexivity).
    assert (B : 1 + 2 * u <= B2R x).
    { pose proof (succ_le_lt radix2 (SpecFloat.fexp 53 1024) (bpow radix2 0) (B2R x)) as S. rewrite succ_eq_pos, ulp_bpow in S by apply bpow_ge_0. eapply Rle_trans; [|apply S; [apply generic_format_bpow; cbn; lia|exact G|exact H]].
      cbn [bpow SpecFloat.fexp]. rewrite u_val. cbn. lra. }
    pose proof u0 as U. assert (I : ln (/ B2R x) <= / B2R x - 1) by (apply ln_bound, Rinv_0_lt_compat, Hx). rewrite ln_Rinv in I by exact Hx.
    assert (L : / B2R x <= / (1 + 2 * u)) by (apply Rinv_le; lra). assert (D : / (1 + 2 * u) <= 1 - u / 2) by (apply Rmult_le_reg_r with (1 + 2 * u); [lra|rewrite Rinv_l by lra; nra]). rewrite Rabs_pos_eq; lra.
Qed.
Lemma ln_small x : is_finite x = true -> 0 < B2R (prec := 53) (emax := 1024) x -> Rabs (ln (B2R x)) <= 1000.
Proof.
  intros Hf Hx. pose proof ln2_up as U. pose proof ln2_down as D.
  assert (P : forall n, ln (bpow radix2 (Z.of_nat n)) = INR n * ln 2) by (intros n; rewrite <- ln_pow by lra; f_equal; rewrite <- (IZR_Zpower radix2) by lia; rewrite <- pow_IZR; reflexivity).
  pose proof (abs_B2R_lt_emax 53 1024 x) as H1. rewrite Rabs_pos_eq in H1 by lra.
  assert (H2 : bpow radix2 (-1074) <= B2R x) by (pose proof (abs_B2R_ge_emin 53 1024 x) as H2; rewrite Rabs_pos_eq in H2 by lra; apply H2; destruct x as [| | |]; try discriminate; [cbn in Hx; lra|reflexivity]).
  apply Rabs_le. split.
  - assert (L : ln (bpow radix2 (-1074)) <= ln (B2R x)) by (apply ln_le; [apply bpow_gt_0|exact H2]). change (-1074)%Z with (- (Z.of_nat 1074))%Z in L. rewrite bpow_opp, ln_Rinv, P in L by apply bpow_gt_0. rewrite INR_IZR_INZ in L. change (Z.of_nat 1074) with 1074%Z in L. lra.
  - assert (L : ln (B2R x) <= ln (bpow radix2 1024)) by (apply ln_le; [exact Hx|lra]). change 1024%Z with (Z.of_nat 1024) in L. rewrite P in L. rewrite INR_IZR_INZ in L. change (Z.of_nat 1024) with 1024%Z in L. lra.
Qed.
Example log_exists : log_ok Log0.
Proof.
  intros x Hf Hx. pose proof (ln_small x Hf Hx) as S. assert (V : Valid_exp (SpecFloat.fexp 53 1024)) by (apply (fexp_correct 53 1024); reflexivity). pose proof u0 as U.
  set (y := ln (B2R x)) in *. assert (G : generic_format radix2 (SpecFloat.fexp 53 1024) (R64 y)) by (apply generic_format_round; [exact V|typeclasses eauto]).
  unfold Log0. fold y. cbv zeta. pose proof (binary_normalize_correct 53 1024 prec_ok emax_ok mode_NE (Ztrunc (scaled_mantissa radix2 (SpecFloat.fexp 53 1024) (R64 y))) (cexp radix2 (SpecFloat.fexp 53 1024) (R64 y)) false) as C. cbv zeta in C.
  rewrite <- G in C. rewrite (round_generic _ _ _ _ G) in C. rewrite big_ok in C by (apply huge; lra). destruct C as (C1 & C2 & _). split; [exact C2|]. rewrite C1, u2.
  destruct (ln_far x Hf Hx) as [E|E]; fold y in E.
  - rewrite E. assert (R0 : R64 0 = 0) by (apply (R64_int 0); cbn; lia). rewrite R0. rewrite Rminus_0_r, Rabs_R0. lra.
  - destruct (R64_error y) as (e & He & ->); [apply Rle_trans with (2 := E); rewrite u_val; replace (/ 9007199254740992 / 2) with (bpow radix2 (-54)) by (change (-54)%Z with (- (54))%Z; rewrite bpow_opp; change (bpow radix2 54) with 18014398509481984; lra); apply bpow_le; lia|].
    replace (y * (1 + e) - y) with (y * e) by ring. rewrite Rabs_mult, Rmult_comm. apply Rmult_le_compat_r; [apply Rabs_pos|lra].
Qed.

(** ** C142 *)
Lemma new_fields E m k : hashCount (NewBloomFilter E m k) = clamp_k k /\ arraySize (NewBloomFilter E m k) = words m.
Proof.
  unfold NewBloomFilter, getBitIndex. destruct (gen_index _) as [[i r] p]. destruct (get_arr _ i); [auto|]. cbn [snd].
  set (x := Bloom None None None _ _ _ _). destruct (set_fields x i (Some (repeat 0%Z (Z.to_nat (arraySize x))))) as (F1 & _ & F3 & _).
  set (y := set_arr x i _) in *. destruct (set_fields y r None) as (G1 & _ & G3 & _). rewrite G1, G3, F1, F3. auto.
Qed.
Lemma new_made Log E p : log_ok Log -> (1 <= E <= 2 ^ 53)%Z -> good_p p -> let q := IZR E * - ln (B2R p) / (ln 2 * ln 2) in
  exists m, NewBloom Log E p = Made (NewBloomFilter E m (hashes_for Log E m)) /\ (0 <= m < 2 ^ 62)%Z /\ (0 <= hashes_for Log E m)%Z /\
    q * (1 - 16 * u) - 1 < IZR m <= q * (1 + 16 * u) /\
    IZR m / IZR E * ln 2 * (1 - 11 * u) - 1 < IZR (hashes_for Log E m) <= IZR m / IZR E * ln 2 * (1 + 11 * u).
Proof.
  intros HL HE Hp q. destruct (bits_ok Log HL E p HE Hp) as (m & B & Hm & Q). fold q in Q. destruct (hashes_ok Log HL E m HE Hm) as [K0 K1]. exists m. split; [|auto].
  unfold NewBloom. rewrite B. cbv zeta. pose proof (clamp_bound _ K0) as C. replace (clamp_k (hashes_for Log E m) <? 0)%Z with false by (symmetry; apply Z.ltb_ge; lia). reflexivity.
Qed.
(** The array has E ln(1/p) / (ln 2)^2 bits, rounded up to words and less than one bit and an error of float64 short of it; the number of
    hash functions is log2(1/p) rounded down, possibly one too low for few items, and within 1 to 30. *)
Theorem c142_sizes Log E p : log_ok Log -> (1 <= E <= 2 ^ 53)%Z -> good_p p ->
  let q := IZR E * - ln (B2R p) / (ln 2 * ln 2) in let l := - ln (B2R p) / ln 2 in
  exists bf, NewBloom Log E p = Made bf /\ expectedItems bf = E /\
    q * (1 - / 2 ^ 48) - 1 < 64 * IZR (arraySize bf) < q * (1 + / 2 ^ 48) + 64 /\
    (1 <= hashCount bf <= 30)%Z /\
    (IZR (hashCount bf) <= l * (1 + / 2 ^ 48) \/ hashCount bf = 1%Z) /\
    (l * (1 - / 2 ^ 48) - 1 - ln 2 / IZR E < IZR (hashCount bf) \/ hashCount bf = 30%Z).
Proof.
  intros HL HE Hp q l. destruct (new_made Log E p HL HE Hp) as (m & N & Hm & K0 & [Q1 Q2] & [K1 K2]). fold q in Q1, Q2. set (k := hashes_for Log E m) in *.
  exists (NewBloomFilter E m k). destruct (new_fields E m k) as [F1 F2]. rewrite F1, F2. split; [exact N|]. pose proof (clamp_bound k K0) as C.
  pose proof (E_R E HE) as RE. pose proof ln2_up as L1. pose proof ln2_down as L2. pose proof (minus_ln p Hp) as [P1 P2]. pose proof u0 as U.
  assert (U48 : / 2 ^ 48 = 32 * u) by (rewrite u_val; replace (2 ^ 48) with 281474976710656 by (rewrite pow_IZR; apply f_equal; vm_compute; reflexivity); lra). rewrite U48.
  assert (S2 : 0 < ln 2 * ln 2) by nra. assert (q0 : 0 < q) by (unfold q; apply Rmult_lt_0_compat; [nra|apply Rinv_0_lt_compat, S2]).
  assert (W : (m <= 64 * words m < m + 64)%Z).
  { unfold words. rewrite u64_id by (unfold is_u64; lia). pose proof (Z.div_mod (m + 64 - 1) 64 ltac:(lia)). pose proof (Z.mod_pos_bound (m + 64 - 1) 64 ltac:(lia)). lia. }
  destruct W as [W1 W2]. apply IZR_le in W1. apply IZR_lt in W2. rewrite plus_IZR in W2. rewrite mult_IZR in W1, W2.
  assert (Lq : q / IZR E * ln 2 = l) by (unfold q, l; field; lra). assert (l0 : 0 < l) by (unfold l; apply Rmult_lt_0_compat; [lra|apply Rinv_0_lt_compat; lra]).
  assert (IE : 0 < / IZR E) by (apply Rinv_0_lt_compat; lra).
  assert (Up : IZR m / IZR E * ln 2 <= l * (1 + 16 * u)).
  { rewrite <- Lq. unfold Rdiv. replace (q * / IZR E * ln 2 * (1 + 16 * u)) with (q * (1 + 16 * u) * / IZR E * ln 2) by ring. apply Rmult_le_compat_r; [lra|]. apply Rmult_le_compat_r; lra. }
  assert (Lo : l * (1 - 16 * u) - ln 2 / IZR E <= IZR m / IZR E * ln 2).
  { rewrite <- Lq. unfold Rdiv. replace (q * / IZR E * ln 2 * (1 - 16 * u) - ln 2 * / IZR E) with ((q * (1 - 16 * u) - 1) * / IZR E * ln 2) by ring. apply Rmult_le_compat_r; [lra|]. apply Rmult_le_compat_r; lra. }
  split; [|split; [|split; [exact C|split]]].
  - unfold NewBloomFilter, getBitIndex. destruct (gen_index _) as [[i r] p']. destruct (get_arr _ i); [reflexivity|]. cbn [snd]. unfold set_arr. destruct (i =? 0)%Z, (i =? 1)%Z, (r =? 0)%Z, (r =? 1)%Z; reflexivity.
  - split; nra.
  - unfold clamp_k. destruct (Z.eqb_spec k 0); [right; reflexivity|]. left. assert (IZR k <= l * (1 + 32 * u)) by (eapply Rle_trans; [exact K2|]; apply Rle_trans with (l * (1 + 16 * u) * (1 + 11 * u)); [apply Rmult_le_compat_r; lra|]; rewrite Rmult_assoc; apply Rmult_le_compat_l; nra).
    destruct (Z.ltb_spec 29 k) as [Hk|Hk]; [|assumption]. apply Rle_trans with (IZR k); [apply IZR_le; lia|assumption].
  - unfold clamp_k. assert (KL : l * (1 - 32 * u) - 1 - ln 2 / IZR E < IZR k).
    { eapply Rle_lt_trans; [|exact K1]. assert (M0 : 0 <= IZR m / IZR E * ln 2) by (apply Rmult_le_pos; [apply Rmult_le_pos; [apply IZR_le; lia|lra]|lra]).
      set (z := IZR m / IZR E * ln 2) in *. set (c := ln 2 / IZR E) in *. clearbody z c. assert (Z1 : z <= l * (11 / 10)) by nra. assert (Z2 : z * u <= l * (11 / 10) * u) by (apply Rmult_le_compat_r; lra).
      assert (Z3 : 0 < l * u) by nra. lra. }
    destruct (Z.eqb_spec k 0) as [E0|E0]; [left; rewrite E0 in KL; lra|]. destruct (Z.ltb_spec 29 k) as [Hk|Hk]; [right; reflexivity|left; exact KL].
Qed.
Print Assumptions c142_sizes.

(** A float64 that is p at least and 1 at most makes an array for p of 1/2 at most. *)
Lemma half_usable Log E p : log_ok Log -> (1 <= E <= 2 ^ 53)%Z -> good_p p -> B2R p <= / 2 ->
  exists m, NewBloom Log E p = Made (NewBloomFilter E m (hashes_for Log E m)) /\ sane E m (hashes_for Log E m).
Proof.
  intros HL HE Hp Hh. destruct (new_made Log E p HL HE Hp) as (m & N & Hm & K0 & [Q1 Q2] & _). exists m. split; [exact N|]. split; [lia|]. split; [lia|]. split; [|exact K0]. split; [|lia].
  assert (L : ln (B2R p) <= - ln 2) by (rewrite <- ln_Rinv by lra; destruct Hp as (_ & Hp & _); apply ln_le; [|exact Hh]; apply Rlt_le_trans with (2 := Hp); apply Rinv_0_lt_compat; lra).
  pose proof ln2_up as L1. pose proof ln2_down as L2. pose proof (E_R E HE) as RE. pose proof u0 as U.
  assert (B : 144 / 100 <= IZR E * - ln (B2R p) / (ln 2 * ln 2)).
  { apply Rmult_le_reg_r with (ln 2 * ln 2); [nra|]. unfold Rdiv at 2. rewrite Rmult_assoc, Rinv_l, Rmult_1_r by nra. apply Rle_trans with (1 * ln 2); [nra|]. apply Rmult_le_compat; lra. }
  assert (0 < IZR m) by nra. apply lt_IZR in H. lia.
Qed.
(** Every rate of at most 1/2 gives a filter that keeps what is added (C37). *)
Theorem c142_usable_partial Log E p (item : Type) (h : Z -> item -> Z) pre x post : log_ok Log -> (1 <= E <= 2 ^ 53)%Z -> good_p p -> B2R p <= / 2 ->
  (count (pre ++ BAdd x :: post) < 2 ^ 64)%Z -> (count post <= E)%Z ->
  exists bf, NewBloom Log E p = Made bf /\ fst (Contains h (fold_left (bstep h) (pre ++ BAdd x :: post) bf) x) = true.
Proof.
  intros HL HE Hp Hh Hc Hpost. destruct (half_usable Log E p HL HE Hp Hh) as (m & N & S). eexists. split; [exact N|]. apply (c37_no_false_negative item h E m _ pre post x S Hc Hpost).
Qed.
Print Assumptions c142_usable_partial.

(** NewBloomFilter(1, 0.9) has no bits: everything that is added is lost. *)
Definition p90 : f64 := fdiv (of_int 9) (of_int 10).
Lemma near_quot a b : (1 <= a <= 1000)%Z -> (1 <= b <= 1000)%Z -> is_finite (fdiv (of_int a) (of_int b)) = true /\ nr 2 (B2R (fdiv (of_int a) (of_int b))) (IZR a / IZR b).
Proof.
  intros Ha Hb. assert (Ra : 1 <= IZR a <= 1000) by (split; apply IZR_le; lia). assert (Rb : 1 <= IZR b <= 1000) by (split; apply IZR_le; lia).
  assert (I : / 1000 <= / IZR b <= 1) by (split; [apply Rinv_le; lra|rewrite <- Rinv_1; apply Rinv_le; lra]). assert (D : / 1000 <= IZR a / IZR b <= 1000) by (unfold Rdiv; split; nra).
  destruct (val_div (of_int a) (of_int b) (IZR a) (IZR b) (val_int a ltac:(lia)) (val_int b ltac:(lia)) ltac:(lra)) as [F V]; [apply huge; rewrite Rabs_pos_eq; lra|]. split; [exact F|]. rewrite V.
  replace 2 with (0 + 2) by lra. apply nr_R64; [lra| |apply nr_refl]. apply Rle_trans with (/ 1000); [apply Rinv_le; lra|lra].
Qed.
Theorem c142_usable_refuted Log : log_ok Log -> exists bf, NewBloom Log 1 p90 = Made bf /\ good_p p90 /\
  forall (item : Type) (h : Z -> item -> Z) x, fst (Contains h (Add h bf x) x) = false.
Proof.
  intros HL. destruct (near_quot 9 10 ltac:(lia) ltac:(lia)) as [F [V1 V2]]. fold p90 in F, V1, V2. pose proof u0 as U.
  assert (G : good_p p90) by (split; [exact F|]; split; [apply Rle_trans with (8 / 10); [lra|nra]|nra]).
  destruct (new_made Log 1 p90 HL ltac:(lia) G) as (m & N & Hm & K0 & [_ Q2] & [_ K2]).
  assert (L : ln (/ B2R p90) <= / B2R p90 - 1) by (apply ln_bound, Rinv_0_lt_compat; nra). rewrite ln_Rinv in L by nra.
  assert (I : / B2R p90 <= / (89 / 100)) by (apply Rinv_le; nra). pose proof ln2_up as L1. pose proof ln2_down as L2.
  assert (M0 : m = 0%Z).
  { assert (IZR m < 1); [|apply lt_IZR in H; lia]. eapply Rle_lt_trans; [exact Q2|]. apply Rle_lt_trans with (1 / 2 * (1 + 16 * u)); [|lra]. apply Rmult_le_compat_r; [lra|].
    apply Rmult_le_reg_r with (ln 2 * ln 2); [nra|]. unfold Rdiv at 1. rewrite Rmult_assoc, Rinv_l, Rmult_1_r by nra. nra. }
  subst m. assert (KZ : hashes_for Log 1 0 = 0%Z).
  { assert (IZR (hashes_for Log 1 0) < 1); [|apply lt_IZR in H; lia]. eapply Rle_lt_trans; [exact K2|]. unfold Rdiv. rewrite !Rmult_0_l. lra. }
  rewrite KZ in N. eexists. split; [exact N|]. split; [exact G|]. intros item h x. reflexivity.
Qed.
Print Assumptions c142_usable_refuted.
(** NewBloomFilter(0, p) panics. *)
Theorem c142_no_items_refuted Log p : log_ok Log -> good_p p -> NewBloom Log 0 p = MakePanics.
Proof.
  intros HL Hp. destruct (log2_val Log HL) as (l & Vl & Nl). destruct (logp_val Log HL p Hp) as (x & Vx & Nx). pose proof ln2_up as L1. pose proof ln2_down as L2. pose proof u0 as U.
  assert (R0 : R64 0 = 0) by (apply (R64_int 0); cbn; lia). assert (Bz : Rabs 0 <= bpow radix2 1000) by (rewrite Rabs_R0; apply bpow_ge_0).
  posn Nl Pl Bl.
  assert (N2 : nr 5 (l * l) (ln 2 * ln 2)) by (replace 5 with (2 + 2 + 1) by lra; apply nr_mul; try lra; assumption). assert (S2 : 47 / 100 <= ln 2 * ln 2 <= 49 / 100) by (split; nra). posn N2 P2 B2.
  assert (V2 : val (fmul (log2 Log) (log2 Log)) (R64 (l * l))) by (apply val_mul; [exact Vl|exact Vl|apply huge; rewrite Rabs_pos_eq; lra]). apply nr_R64 in N2; [|lra|lra]. posn N2 P3 B3.
  assert (V1 : val (fmul (fopp (of_int 0)) (Log p)) 0) by (rewrite <- R0; replace 0 with (0 * x) by ring; apply val_mul; [split; [reflexivity|reflexivity]|exact Vx|rewrite Rmult_0_l; exact Bz]).
  assert (V3 : val (fdiv (fmul (fopp (of_int 0)) (Log p)) (fmul (log2 Log) (log2 Log))) 0) by (rewrite <- R0; replace 0 with (0 / R64 (l * l)) by (field; lra); apply val_div; [exact V1|exact V2|lra|replace (0 / R64 (l * l)) with 0 by (field; lra); exact Bz]).
  unfold NewBloom, bits_for, to_uint. rewrite (proj1 V3), (Btrunc_val _ 0 V3). rewrite (Ztrunc_IZR 0). change ((0 <=? 0)%Z && (0 <? 2 ^ 64)%Z) with true. cbv iota zeta.
  unfold hashes_for. assert (fdiv (of_int 0) (of_int 0) = B754_nan) as -> by (vm_compute; reflexivity). reflexivity.
Qed.
Print Assumptions c142_no_items_refuted.

(** NewBloomFilter(100, 0.02). *)
Definition p50 : f64 := fdiv (of_int 1) (of_int 50).
Lemma p50_good : good_p p50 /\ nr 2 (B2R p50) (1 / 50).
Proof.
  destruct (near_quot 1 50 ltac:(lia) ltac:(lia)) as [F V]. fold p50 in F, V. split; [|exact V]. destruct V as [V1 V2]. pose proof u0. split; [exact F|]. split; [apply Rle_trans with (1 / 100); [lra|nra]|nra].
Qed.
Lemma p50_ln : 3859 / 1000 <= - ln (B2R p50) <= 3971 / 1000.
Proof.
  destruct p50_good as [G V]. posn V P B. destruct V as [V1 V2]. pose proof u0 as U. pose proof ln2_up as L1. pose proof ln2_down as L2.
  assert (E : B2R p50 = / 2 ^ 5 * / (5 / 4) * / (5 / 4) * (50 * B2R p50)) by (rewrite (pow_IZR 2 5); change (2 ^ Z.of_nat 5)%Z with 32%Z; lra).
  assert (L4 : forall a b c d, 0 < a -> 0 < b -> 0 < c -> 0 < d -> ln (a * b * c * d) = ln a + ln b + ln c + ln d) by (intros a b c d Ha Hb Hc Hd; assert (0 < a * b) by nra; assert (0 < a * b * c) by nra; rewrite !ln_mult by assumption; reflexivity).
  assert (I5 : 0 < / (5 / 4)) by lra. rewrite E, L4; [|apply Rinv_0_lt_compat, pow_lt; lra|exact I5|exact I5|lra]. rewrite (ln_Rinv (2 ^ 5)) by (apply pow_lt; lra). rewrite (ln_Rinv (5 / 4)) by lra. rewrite ln_pow by lra.
  assert (A1 : ln (5 / 4) <= 1 / 4) by (eapply Rle_trans; [apply ln_bound; lra|lra]).
  assert (A2 : 1 / 5 <= ln (5 / 4)) by (assert (H : ln (/ (5 / 4)) <= / (5 / 4) - 1) by (apply ln_bound, Rinv_0_lt_compat; lra); rewrite ln_Rinv in H by lra; lra).
  assert (C1 : ln (50 * B2R p50) <= / 1000) by (eapply Rle_trans; [apply ln_bound; lra|]; nra).
  assert (C2 : - / 1000 <= ln (50 * B2R p50)) by (assert (H : ln (/ (50 * B2R p50)) <= / (50 * B2R p50) - 1) by (apply ln_bound, Rinv_0_lt_compat; lra); rewrite ln_Rinv in H by lra;
    assert (/ (50 * B2R p50) <= 1 + / 1000) by (apply Rmult_le_reg_r with (50 * B2R p50); [lra|rewrite Rinv_l by lra; nra]); lra).
  rewrite INR_IZR_INZ. change (Z.of_nat 5) with 5%Z. lra.
Qed.
Lemma new_100 Log : log_ok Log -> exists m k, NewBloom Log 100 p50 = Made (NewBloomFilter 100 m k) /\ sane 100 m k /\ clamp_k k = 5%Z /\ (64 * words m = 832)%Z.
Proof.
  intros HL. destruct p50_good as [G _]. destruct (new_made Log 100 p50 HL ltac:(lia) G) as (m & N & Hm & K0 & [Q1 Q2] & [K1 K2]). exists m, (hashes_for Log 100 m). set (k := hashes_for Log 100 m) in *.
  pose proof p50_ln as [P1 P2]. pose proof ln2_up as L1. pose proof ln2_down as L2. pose proof u0 as U. assert (S2 : 478864 / 1000000 <= ln 2 * ln 2 <= 481636 / 1000000) by (split; nra).
  assert (B : 801 <= 100 * - ln (B2R p50) / (ln 2 * ln 2) <= 830).
  { split; apply Rmult_le_reg_r with (ln 2 * ln 2); try lra; unfold Rdiv; rewrite Rmult_assoc, Rinv_l, Rmult_1_r by lra; lra. }
  assert (M1 : 799 < IZR m < 831) by (split; nra). destruct M1 as [M1 M2]. apply lt_IZR in M1, M2.
  assert (M3 : 800 <= IZR m <= 830) by (split; apply IZR_le; lia).
  assert (K3 : 4 < IZR k < 6) by (unfold Rdiv in *; split; nra). destruct K3 as [K3 K4]. apply lt_IZR in K3, K4. assert (k = 5%Z) as Ek by lia.
  split; [exact N|]. split; [unfold sane; lia|]. split; [rewrite Ek; reflexivity|]. unfold words. rewrite u64_id by (unfold is_u64; lia). assert ((m + 64 - 1) / 64 = 13)%Z as ->; [|reflexivity].
  symmetry. apply (Z.div_unique_pos _ _ _ (m + 64 - 1 - 832)); lia.
Qed.
(** For 100 items at 0.02: 832 bits and 5 hash functions, and the array keeps what is added. *)
Example c142_ex : exists m k, NewBloom Log0 100 p50 = Made (NewBloomFilter 100 m k) /\ good_p p50 /\ B2R p50 <= / 2 /\ clamp_k k = 5%Z /\ (64 * words m = 832)%Z.
Proof.
  destruct (new_100 Log0 log_exists) as (m & k & N & S & K & M). destruct p50_good as [G [V1 V2]]. pose proof u0 as U. exists m, k. split; [exact N|]. split; [exact G|]. split; [nra|auto].
Qed.

(** ** C143 *)
Lemma gen_first E c : (1 <= E -> 1 <= c < 2 * E -> generation E c = if c <? E then 0 else 1)%Z.
Proof.
  intros HE Hc. unfold generation. rewrite Z.mod_small, Z.div_small by lia. destruct (Z.ltb_spec c E); [lia|]. replace (c <? 2 * E)%Z with true by (symmetry; apply Z.ltb_lt; lia). lia.
Qed.
(** All of the first 2E-1 adds are in the window. *)
Lemma window_first E N : (1 <= E)%Z -> (Z.of_nat N < 2 * E)%Z -> window E 0 N.
Proof.
  intros HE HN. unfold window. cbn [Nat.add]. intros c Hc. rewrite !gen_first by lia. destruct (Z.ltb_spec (Z.of_nat N) E), (Z.ltb_spec c E); lia.
Qed.
(** There is always a window. *)
Lemma window_exists E N : (1 <= E)%Z -> exists o w, N = (o + w)%nat /\ window E o w.
Proof.
  intros HE. set (g := (generation E (Z.of_nat N) - 1)%Z).
  assert (H : forall n, (n <= N)%nat -> exists o, (o <= n)%nat /\ forall c, (1 <= c <= Z.of_nat n)%Z -> (g <= generation E c <-> Z.of_nat o < c)%Z).
  { induction n as [|n IH]; intros Hn; [exists 0%nat; split; [lia|intros c Hc; lia]|]. destruct (IH ltac:(lia)) as (o & Ho & Hc). destruct (Z_le_gt_dec g (generation E (Z.of_nat (S n)))) as [Hg|Hg].
    - exists o. split; [lia|]. intros c H. destruct (Z.eq_dec c (Z.of_nat (S n))) as [->|Hne]; [split; lia|apply Hc; lia].
    - exists (S n). split; [lia|]. intros c H. pose proof (gen_mono E c (Z.of_nat (S n)) HE ltac:(lia)). split; lia. }
  destruct (H N (le_n N)) as (o & Ho & Hc). exists o, (N - o)%nat. split; [lia|]. unfold window. replace (o + (N - o))%nat with N by lia. exact Hc.
Qed.
(** With [w] items in the window, each bit is set with probability [s] = 1 - (1 - 1/M)^(K w).  The rate of false positives is at least the
    [K]-th power of it, and at most that of a number which is larger by less than K/M. *)
Theorem c143_rate E m k o w : sane E m k -> (Z.of_nat (o + w) < 2 ^ 64)%Z -> window E o w ->
  let K := Z.to_nat (clamp_k k) in let M := IZR (64 * words m) in let s := 1 - (1 - 1 / M) ^ (K * w) in
  s ^ K <= rate E m k (o + w) <= (s + (INR K - 1) / M * (1 - s)) ^ K.
Proof.
  intros HS HN HW K M s. split; [apply rate_ge; assumption|apply rate_upper; assumption].
Qed.
Print Assumptions c143_rate.
(** 64 bits, one hash function, one item: exactly 1/64. *)
Example c143_ex : sane 10 64 1 /\ window 10 0 1 /\ rate 10 64 1 1 = / 64.
Proof.
  split; [unfold sane; lia|]. split; [apply window_first; lia|]. pose proof (c143_rate 10 64 1 0 1 ltac:(unfold sane; lia) ltac:(lia) (window_first 10 1 ltac:(lia) ltac:(lia))) as [H1 H2].
  change (clamp_k 1) with 1%Z in *. change (64 * words 64)%Z with 64%Z in *. change (Z.to_nat 1) with 1%nat in *. cbn [Nat.mul Nat.add pow INR] in *. apply Rle_antisym; lra.
Qed.

Lemma bern x n : 0 < x -> (1 / (1 + x)) ^ n <= 1 / (1 + INR n * x).
Proof.
  intros Hx. assert (B : 1 + INR n * x <= (1 + x) ^ n) by (apply poly; exact Hx). assert (0 <= INR n * x) by (apply Rmult_le_pos; [apply pos_INR|lra]).
  unfold Rdiv. rewrite !Rmult_1_l, pow_inv by lra. apply Rinv_le; lra.
Qed.
Lemma sixteenth : (1 / (1 + 1 / 831)) ^ 62 <= 931 / 1000.
Proof.
  eapply Rle_trans; [apply bern; lra|]. rewrite INR_IZR_INZ. change (Z.of_nat 62) with 62%Z. apply Rmult_le_reg_r with (1 + 62 * (1 / 831)); [lra|]. unfold Rdiv at 1. rewrite Rmult_assoc, Rinv_l; lra.
Qed.
Lemma p931 : (931 / 1000) ^ 16 <= 319 / 1000.
Proof.
  rewrite (pow_mult _ 4 4). apply Rle_trans with ((7514 / 10000) ^ 4); [apply pow_incr; cbn [pow]; lra|]. cbn [pow]. lra.
Qed.
Lemma five_more : (1 - 1 / 832) ^ 995 <= 32 / 100.
Proof.
  assert (A : 1 - 1 / 832 = 1 / (1 + 1 / 831)) by field. rewrite A. clear A. assert (E : 995%nat = (62 * 16 + 3)%nat) by reflexivity. rewrite E, pow_add, pow_mult. clear E.
  apply Rle_trans with (319 / 1000 * 1); [|lra]. apply Rmult_le_compat; [apply pow_le, pow_le; lra|apply pow_le; lra| |].
  - apply Rle_trans with (2 := p931). apply pow_incr. split; [apply pow_le; lra|exact sixteenth].
  - rewrite <- (pow1 3). apply pow_incr. lra.
Qed.
(** NewBloomFilter(100, 0.02) after 199 different items: more than seven times the rate that was asked for. *)
Theorem c143_asked_rate_refuted Log : log_ok Log -> exists m k, NewBloom Log 100 p50 = Made (NewBloomFilter 100 m k) /\ 7 * B2R p50 < rate 100 m k 199.
Proof.
  intros HL. destruct (new_100 Log HL) as (m & k & N & S & Hk & HM). exists m, k. split; [exact N|]. pose proof (rate_ge 100 m k 0 199 S ltac:(lia) (window_first 100 199 ltac:(lia) ltac:(lia))) as R. cbv zeta in R. rewrite Hk, HM in R.
  change (Z.to_nat 5) with 5%nat in R. change (0 + 199)%nat with 199%nat in R. eapply Rlt_le_trans; [|exact R]. destruct p50_good as [_ [_ V]]. pose proof u0 as U.
  apply Rle_lt_trans with (7 * (1 / 50 * (1 + 2 * u))); [lra|]. change (5 * 199)%nat with 995%nat.
  pose proof five_more as B. remember ((1 - 1 / 832) ^ 995) as y eqn:Y. clear Y. apply Rlt_le_trans with ((680 / 1000) ^ 5); [cbn [pow]; lra|]. apply pow_incr. lra.
Qed.
Print Assumptions c143_asked_rate_refuted.

(** Rounding the number of hash functions down does it without the second generation: NewBloomFilter(1000, 0.26) after 1000 different
    items has a rate of more than 0.28. *)
Definition p26 : f64 := fdiv (of_int 26) (of_int 100).
Lemma eighth : (1 / (1 + 1 / 2879)) ^ 125 <= 959 / 1000.
Proof.
  eapply Rle_trans; [apply bern; lra|]. rewrite INR_IZR_INZ. change (Z.of_nat 125) with 125%Z. apply Rmult_le_reg_r with (1 + 125 * (1 / 2879)); [lra|]. unfold Rdiv at 1. rewrite Rmult_assoc, Rinv_l; lra.
Qed.
Lemma thousand M : 64 <= M <= 2880 -> (1 - 1 / M) ^ 1000 <= 716 / 1000.
Proof.
  intros W. assert (IM : / 2880 <= / M <= / 64) by (split; apply Rinv_le; lra). assert (A : 0 <= 1 - 1 / M <= 1 / (1 + 1 / 2879)) by (unfold Rdiv; lra).
  apply Rle_trans with ((1 / (1 + 1 / 2879)) ^ 1000); [apply pow_incr; exact A|]. assert (E : 1000%nat = (125 * 8)%nat) by reflexivity. rewrite E, pow_mult.
  apply Rle_trans with ((959 / 1000) ^ 8); [|cbn [pow]; lra]. apply pow_incr. split; [apply pow_le; lra|exact eighth].
Qed.
Theorem c143_full_refuted Log : log_ok Log -> exists m k, NewBloom Log 1000 p26 = Made (NewBloomFilter 1000 m k) /\ B2R p26 < 261 / 1000 /\ 28 / 100 < rate 1000 m k 1000.
Proof.
  intros HL. destruct (near_quot 26 100 ltac:(lia) ltac:(lia)) as [F V]. fold p26 in F, V. destruct V as [V1 V2]. pose proof u0 as U. assert (P : 2599 / 10000 <= B2R p26 <= 2601 / 10000) by lra.
  assert (G : good_p p26) by (split; [exact F|]; lra). destruct (new_made Log 1000 p26 HL ltac:(lia) G) as (m & N & Hm & K0 & [Q1 Q2] & [K1 K2]). exists m, (hashes_for Log 1000 m). set (k := hashes_for Log 1000 m) in *. clearbody k.
  split; [exact N|]. split; [lra|]. pose proof ln2_up as L1. pose proof ln2_down as L2.
  assert (Lp : ln 2 <= - ln (B2R p26) <= 1351 / 1000).
  { assert (X : B2R p26 = / (2 * 2) * (4 * B2R p26)) by field. split.
    - assert (ln (B2R p26) <= ln (/ 2)) by (apply ln_le; lra). rewrite ln_Rinv in H by lra. lra.
    - rewrite X, ln_mult, ln_Rinv, ln_mult by lra. assert (H : ln (/ (4 * B2R p26)) <= / (4 * B2R p26) - 1) by (apply ln_bound, Rinv_0_lt_compat; lra). rewrite ln_Rinv in H by lra.
      assert (/ (4 * B2R p26) <= / (4 * (2599 / 10000))) by (apply Rinv_le; lra). lra. }
  assert (S2 : 478864 / 1000000 <= ln 2 * ln 2 <= 481636 / 1000000) by (split; nra).
  assert (B : 1000 <= 1000 * - ln (B2R p26) / (ln 2 * ln 2) <= 2860) by (split; apply Rmult_le_reg_r with (ln 2 * ln 2); try lra; unfold Rdiv; rewrite Rmult_assoc, Rinv_l, Rmult_1_r by lra; lra).
  assert (M1 : 900 < IZR m < 2881) by (split; nra). destruct M1 as [M1 M2]. apply lt_IZR in M1, M2. assert (M3 : IZR m <= 2880) by (apply IZR_le; lia). assert (M4 : 0 <= IZR m) by (apply IZR_le; lia).
  assert (Kz : (k < 2)%Z) by (apply lt_IZR; eapply Rle_lt_trans; [exact K2|]; unfold Rdiv; assert (IZR m * / 1000 * ln 2 <= 19988 / 10000) by nra; assert (0 <= IZR m * / 1000 * ln 2) by nra; nra).
  assert (Ck : clamp_k k = 1%Z) by (unfold clamp_k; destruct (Z.eqb_spec k 0); [reflexivity|]; replace (29 <? k)%Z with false by (symmetry; apply Z.ltb_ge; lia); lia).
  assert (HS : sane 1000 m k) by (unfold sane; lia). pose proof (rate_ge 1000 m k 0 1000 HS ltac:(lia) (window_first 1000 1000 ltac:(lia) ltac:(lia))) as R. cbv zeta in R. rewrite Ck in R. change (Z.to_nat 1) with 1%nat in R. rewrite Nat.mul_1_l, pow_1, Nat.add_0_l in R.
  eapply Rlt_le_trans; [|exact R]. clear R.
  assert (W : 64 <= IZR (64 * words m) <= 2880).
  { unfold words. rewrite u64_id by (unfold is_u64; lia). pose proof (Z.div_mod (m + 64 - 1) 64 ltac:(lia)). pose proof (Z.mod_pos_bound (m + 64 - 1) 64 ltac:(lia)). split; apply IZR_le; lia. }
  set (M := IZR (64 * words m)) in *. clearbody M. assert (IM : / 2880 <= / M <= / 64) by (split; apply Rinv_le; lra).
  pose proof (thousand M W) as T. remember ((1 - 1 / M) ^ 1000) as y eqn:Y. clear Y. lra.
Qed.
Print Assumptions c143_full_refuted.

Lemma pow_small x n : 0 <= x <= 1 -> (1 <= n)%nat -> x ^ n <= x.
Proof.
  intros Hx Hn. destruct n as [|n]; [lia|]. cbn [pow]. assert (0 <= x ^ n <= 1); [|nra]. split; [apply pow_le; lra|]. rewrite <- (pow1 n). apply pow_incr. lra.
Qed.
(** exp (-5/4 ln 2) is 0.42. *)
Lemma exp_54 : 375 / 1000 <= exp (- (5 / 4 * ln 2)).
Proof.
  pose proof ln2_up as L1. remember (- (5 / 16 * ln 2)) as y eqn:Y. replace (- (5 / 4 * ln 2)) with (y + y + (y + y)) by (rewrite Y; field). rewrite !exp_plus. assert (E : 783 / 1000 <= exp y).
  { pose proof (exp_ineq1_le y). lra. }
  assert (E2 : 613 / 1000 <= exp y * exp y) by nra. nra.
Qed.
(** As long as at most a quarter of the expected items have been added, rates from 2^-70 to 1/2 are kept. *)
Theorem c143_quarter_partial Log E p N : log_ok Log -> (1 <= E <= 2 ^ 53)%Z -> good_p p -> / 2 ^ 70 <= B2R p <= / 2 -> (4 * Z.of_nat N <= E)%Z ->
  exists m k, NewBloom Log E p = Made (NewBloomFilter E m k) /\ rate E m k N <= B2R p.
Proof.
  intros HL HE Hp [Hl Hh] HN. destruct (new_made Log E p HL HE Hp) as (m & Nw & Hm & K0 & [Q1 Q2] & [K1 K2]). exists m, (hashes_for Log E m). split; [exact Nw|]. set (k := hashes_for Log E m) in *. clearbody k.
  assert (P0 : 0 < B2R p) by (apply Rlt_le_trans with (2 := Hl); apply Rinv_0_lt_compat, pow_lt; lra).
  assert (L : ln 2 <= - ln (B2R p)) by (assert (ln (B2R p) <= - ln 2) by (rewrite <- ln_Rinv by lra; apply ln_le; assumption); lra).
  pose proof ln2_up as L1. pose proof ln2_down as L2. pose proof (E_R E HE) as RE. pose proof u0 as U.
  set (q := IZR E * - ln (B2R p) / (ln 2 * ln 2)) in *. set (l := - ln (B2R p) / ln 2).
  assert (Eq : q = IZR E / ln 2 * l) by (unfold q, l; field; lra). assert (l1 : 1 <= l) by (unfold l; apply Rmult_le_reg_r with (ln 2); [lra|]; unfold Rdiv; rewrite Rmult_assoc, Rinv_l; lra).
  assert (Ep : B2R p = exp (- (l * ln 2))) by (unfold l; replace (- (- ln (B2R p) / ln 2 * ln 2)) with (ln (B2R p)) by (field; lra); symmetry; apply exp_ln, P0).
  assert (I2 : 144 / 100 <= / ln 2 <= 1446 / 1000) by (split; apply Rmult_le_reg_r with (ln 2); try lra; rewrite Rinv_l; lra).
  assert (l70 : l <= 70).
  { assert (H : ln (/ 2 ^ 70) <= ln (B2R p)) by (apply ln_le; [apply Rinv_0_lt_compat, pow_lt; lra|exact Hl]). rewrite ln_Rinv, ln_pow in H by (try apply pow_lt; lra). rewrite INR_IZR_INZ in H. change (Z.of_nat 70) with 70%Z in H.
    unfold l. apply Rmult_le_reg_r with (ln 2); [lra|]. unfold Rdiv. rewrite Rmult_assoc, Rinv_l by lra. lra. }
  clearbody q l. assert (Bq : 144 / 100 * IZR E <= q) by (rewrite Eq; unfold Rdiv; assert (144 / 100 * IZR E <= IZR E * / ln 2) by nra; nra).
  assert (q0 : 0 <= q) by lra. assert (qu : q * u <= q * / 1000) by (apply Rmult_le_compat_l; lra). assert (M1 : 0 < IZR m) by lra. assert (HS : sane E m k) by (apply lt_IZR in M1; split; [lia|]; split; [lia|]; split; [lia|exact K0]).
  pose proof (rate_le E m k 0 N HS ltac:(lia) (window_first E N ltac:(lia) ltac:(lia))) as R. cbv zeta in R. apply Rle_trans with (1 := R). clear R.
  assert (W : (m <= 64 * words m)%Z).
  { unfold words. rewrite u64_id by (unfold is_u64; lia). pose proof (Z.div_mod (m + 64 - 1) 64 ltac:(lia)). pose proof (Z.mod_pos_bound (m + 64 - 1) 64 ltac:(lia)). lia. }
  apply IZR_le in W. remember (IZR (64 * words m)) as M eqn:EM. clear EM. pose proof (clamp_bound k K0) as Ck. remember (Z.to_nat (clamp_k k)) as K eqn:EK.
  destruct N as [|N0]; [rewrite Nat.mul_0_r; cbn [INR]; unfold Rdiv; rewrite Rmult_0_l, pow_i by lia; lra|]. remember (S N0) as n eqn:En.
  assert (E4 : 4 <= IZR E) by (apply IZR_le; lia). assert (n1 : 1 <= INR n) by (rewrite En, S_INR; pose proof (pos_INR N0); lra).
  assert (n4 : 4 * INR n <= IZR E) by (rewrite INR_IZR_INZ, <- mult_IZR; apply IZR_le; lia).
  assert (Iq : 0 < / IZR E <= / 4) by (split; [apply Rinv_0_lt_compat; lra|apply Rinv_le; lra]).
  (* p in terms of k *)
  assert (Lk : l <= IZR k + 5 / 4).
  { assert (Lo : l * (1 - 16 * u) - ln 2 / IZR E <= IZR m / IZR E * ln 2).
    { replace (l * (1 - 16 * u) - ln 2 / IZR E) with ((q * (1 - 16 * u) - 1) / IZR E * ln 2) by (rewrite Eq; field; lra). unfold Rdiv. apply Rmult_le_compat_r; [lra|]. apply Rmult_le_compat_r; lra. }
    assert (ln 2 / IZR E <= 1736 / 10000) by (unfold Rdiv; nra).
    assert (Up : IZR m / IZR E * ln 2 <= l * (1 + 16 * u)).
    { replace (l * (1 + 16 * u)) with (q * (1 + 16 * u) / IZR E * ln 2) by (rewrite Eq; field; lra). unfold Rdiv. apply Rmult_le_compat_r; [lra|]. apply Rmult_le_compat_r; lra. }
    set (z := IZR m / IZR E * ln 2) in *. clearbody z. assert (LU : l * u <= 70 * u) by (apply Rmult_le_compat_r; lra). assert (Z7 : z <= 71) by lra. assert (ZU : z * u <= 71 * u) by (apply Rmult_le_compat_r; lra). lra. }
  assert (Pk : exp (- ((IZR k + 5 / 4) * ln 2)) <= B2R p).
  { rewrite Ep. destruct (Req_dec l (IZR k + 5 / 4)) as [->|Hne]; [lra|]. left. apply exp_increasing. assert (l < IZR k + 5 / 4) by lra. nra. }
  pose proof exp_54 as X. destruct (Z.eq_dec k 0) as [k0|k0].
  - subst k. change (clamp_k 0) with 1%Z in EK. change (Z.to_nat 1) with 1%nat in EK. subst K. rewrite Nat.mul_1_l, pow_1. apply Rle_trans with (2 := Pk). rewrite Rplus_0_l. apply Rle_trans with (2 := X).
    apply Rmult_le_reg_r with M; [lra|]. unfold Rdiv at 1. rewrite Rmult_assoc, Rinv_l by lra. nra.
  - assert (k1 : 1 <= IZR k) by (apply IZR_le; lia).
    assert (Y : 0 <= INR (K * n) / M <= 1736 / 10000).
    { split; [apply Rmult_le_pos; [apply pos_INR|left; apply Rinv_0_lt_compat; lra]|]. assert (KK : INR K <= IZR k) by (rewrite EK, INR_IZR_INZ; apply IZR_le; unfold clamp_k; destruct (Z.eqb_spec k 0), (Z.ltb_spec 29 k); lia).
      rewrite mult_INR. apply Rmult_le_reg_r with M; [lra|]. unfold Rdiv at 1. rewrite Rmult_assoc, Rinv_l, Rmult_1_r by lra. apply Rle_trans with (IZR k * INR n); [nra|].
      apply Rle_trans with (IZR m / IZR E * ln 2 * (1 + 11 * u) * INR n); [nra|]. apply Rle_trans with (1736 / 10000 * IZR m); [|lra].
      assert (G : INR n * / IZR E <= / 4) by (apply Rmult_le_reg_r with (IZR E); [lra|]; rewrite Rmult_assoc, Rinv_l; lra).
      replace (IZR m / IZR E * ln 2 * (1 + 11 * u) * INR n) with (IZR m * ((INR n * / IZR E) * (ln 2 * (1 + 11 * u)))) by (field; lra). rewrite (Rmult_comm (1736 / 10000)). apply Rmult_le_compat_l; [lra|].
      assert (0 <= INR n * / IZR E) by nra. apply Rle_trans with (/ 4 * (ln 2 * (1 + 11 * u))); [apply Rmult_le_compat_r; [nra|exact G]|]. nra. }
    apply Rle_trans with ((1736 / 10000) ^ K); [apply pow_incr; exact Y|]. destruct (Z_lt_le_dec 29 k) as [k30|k30].
    + apply Rle_trans with (2 := Hl). assert (K = 30%nat) as -> by (rewrite EK; unfold clamp_k; destruct (Z.eqb_spec k 0); [lia|]; replace (29 <? k)%Z with true by (symmetry; apply Z.ltb_lt; lia); reflexivity).
      assert (H30 : (1736 / 10000) ^ 30 = ((1736 / 10000) ^ 2) ^ 15) by (rewrite <- pow_mult; apply f_equal; reflexivity). rewrite H30. assert (H70 : 2 ^ 70 = (2 ^ 5) ^ 14) by (rewrite <- pow_mult; apply f_equal; reflexivity). rewrite H70. rewrite <- pow_inv by (apply pow_nonzero; lra).
      apply Rle_trans with ((/ 2 ^ 5) ^ 15); [apply pow_incr; cbn [pow]; lra|]. rewrite <- (tech_pow_Rmult _ 14). assert (0 < (/ 2 ^ 5) ^ 14) by (apply pow_lt, Rinv_0_lt_compat, pow_lt; lra). assert (/ 2 ^ 5 <= 1) by (cbn [pow]; lra). nra.
    + apply Rle_trans with (2 := Pk). assert (Kk : INR K = IZR k /\ (1 <= K)%nat).
      { rewrite EK. unfold clamp_k. destruct (Z.eqb_spec k 0); [lia|]. replace (29 <? k)%Z with false by (symmetry; apply Z.ltb_ge; lia). rewrite INR_IZR_INZ, Z2Nat.id by lia. split; [reflexivity|lia]. }
      destruct Kk as [Kk K1']. rewrite <- Kk. replace (- ((INR K + 5 / 4) * ln 2)) with (- (INR K * ln 2) + - (5 / 4 * ln 2)) by ring. rewrite exp_plus, exp_Ropp.
      replace (exp (INR K * ln 2)) with (2 ^ K) by (rewrite <- (exp_ln (2 ^ K)) by (apply pow_lt; lra); rewrite ln_pow by lra; reflexivity).
      assert (T : 0 < 2 ^ K) by (apply pow_lt; lra). apply Rmult_le_reg_l with (2 ^ K); [exact T|]. rewrite <- Rmult_assoc, Rinv_r, Rmult_1_l, <- Rpow_mult_distr by lra. apply Rle_trans with (2 := X).
      apply Rle_trans with (2 * (1736 / 10000)); [apply pow_small; [lra|exact K1']|lra].
Qed.
Print Assumptions c143_quarter_partial.
(** NewBloomFilter(100, 0.02) with 25 items. *)
Example c143_quarter_ex : exists m k, NewBloom Log0 100 p50 = Made (NewBloomFilter 100 m k) /\ rate 100 m k 25 <= B2R p50.
Proof.
  destruct p50_good as [G [V1 V2]]. pose proof u0 as U. apply (c143_quarter_partial Log0 100 p50 25 log_exists ltac:(lia) G); [|lia]. split; [|nra].
  apply Rle_trans with (/ 1000); [|nra]. apply Rinv_le; [lra|]. assert (H70 : 2 ^ 70 = (2 ^ 10) ^ 7) by (rewrite <- pow_mult; apply f_equal; reflexivity). rewrite H70. apply Rle_trans with (2 ^ 10); [cbn [pow]; lra|].
  rewrite <- (tech_pow_Rmult _ 6). assert (1 <= (2 ^ 10) ^ 6) by (apply pow_R1_Rle; cbn [pow]; lra). assert (0 < 2 ^ 10) by (apply pow_lt; lra). nra.
Qed.

(** ** At any time *)
Lemma made_facts Log E p : log_ok Log -> (100 <= E <= 2 ^ 53)%Z -> good_p p -> / 2 ^ 70 <= B2R p <= / 2 ->
  exists m k l, NewBloom Log E p = Made (NewBloomFilter E m k) /\ sane E m k /\ B2R p = exp (- (l * ln 2)) /\ 1 <= l <= IZR k + 101 / 100 /\
    IZR k <= l + / 1000 /\ IZR k * IZR E <= 69401 / 100000 * IZR (64 * words m) /\ 142 / 100 * (IZR E * l) <= IZR (64 * words m).
Proof.
  intros HL HE Hp [Hl Hh]. destruct (new_made Log E p HL ltac:(lia) Hp) as (m & Nw & Hm & K0 & [Q1 Q2] & [K1 K2]). set (k := hashes_for Log E m) in *. clearbody k.
  assert (P0 : 0 < B2R p) by (apply Rlt_le_trans with (2 := Hl); apply Rinv_0_lt_compat, pow_lt; lra).
  assert (L : ln 2 <= - ln (B2R p)) by (assert (ln (B2R p) <= - ln 2) by (rewrite <- ln_Rinv by lra; apply ln_le; assumption); lra).
  pose proof ln2_up as L1. pose proof ln2_down as L2. assert (RE : 100 <= IZR E) by (apply IZR_le; lia). pose proof u0 as U.
  set (q := IZR E * - ln (B2R p) / (ln 2 * ln 2)) in *. set (l := - ln (B2R p) / ln 2).
  assert (Eq : q = IZR E / ln 2 * l) by (unfold q, l; field; lra). assert (l1 : 1 <= l) by (unfold l; apply Rmult_le_reg_r with (ln 2); [lra|]; unfold Rdiv; rewrite Rmult_assoc, Rinv_l; lra).
  assert (Ep : B2R p = exp (- (l * ln 2))) by (unfold l; replace (- (- ln (B2R p) / ln 2 * ln 2)) with (ln (B2R p)) by (field; lra); symmetry; apply exp_ln, P0).
  assert (I2 : 144 / 100 <= / ln 2 <= 1446 / 1000) by (split; apply Rmult_le_reg_r with (ln 2); try lra; rewrite Rinv_l; lra).
  assert (l70 : l <= 70).
  { assert (H : ln (/ 2 ^ 70) <= ln (B2R p)) by (apply ln_le; [apply Rinv_0_lt_compat, pow_lt; lra|exact Hl]). rewrite ln_Rinv, ln_pow in H by (try apply pow_lt; lra). rewrite INR_IZR_INZ in H. change (Z.of_nat 70) with 70%Z in H.
    unfold l. apply Rmult_le_reg_r with (ln 2); [lra|]. unfold Rdiv. rewrite Rmult_assoc, Rinv_l by lra. lra. }
  clear Hl. clearbody q l. assert (El : 100 <= IZR E * l) by nra. assert (Bq : 144 / 100 * (IZR E * l) <= q) by (rewrite Eq; unfold Rdiv; nra).
  assert (q0 : 0 <= q) by lra. assert (qu : q * u <= q * / 100000) by (apply Rmult_le_compat_l; lra). assert (M1 : 0 < IZR m) by lra. assert (HS : sane E m k) by (apply lt_IZR in M1; split; [lia|]; split; [lia|]; split; [lia|exact K0]).
  assert (W : (m <= 64 * words m)%Z).
  { unfold words. rewrite u64_id by (unfold is_u64; lia). pose proof (Z.div_mod (m + 64 - 1) 64 ltac:(lia)). pose proof (Z.mod_pos_bound (m + 64 - 1) 64 ltac:(lia)). lia. }
  apply IZR_le in W. assert (IE : 0 < / IZR E <= / 100) by (split; [apply Rinv_0_lt_compat; lra|apply Rinv_le; lra]).
  assert (Lo : l * (1 - 16 * u) - ln 2 / IZR E <= IZR m / IZR E * ln 2).
  { replace (l * (1 - 16 * u) - ln 2 / IZR E) with ((q * (1 - 16 * u) - 1) / IZR E * ln 2) by (rewrite Eq; field; lra). unfold Rdiv. apply Rmult_le_compat_r; [lra|]. apply Rmult_le_compat_r; lra. }
  assert (Up : IZR m / IZR E * ln 2 <= l * (1 + 16 * u)).
  { replace (l * (1 + 16 * u)) with (q * (1 + 16 * u) / IZR E * ln 2) by (rewrite Eq; field; lra). unfold Rdiv. apply Rmult_le_compat_r; [lra|]. apply Rmult_le_compat_r; lra. }
  assert (cE : ln 2 / IZR E <= 694 / 100000) by (unfold Rdiv; nra). set (c := ln 2 / IZR E) in *.
  assert (LU : l * u <= 70 * u) by (apply Rmult_le_compat_r; lra).
  exists m, k, l. split; [exact Nw|]. split; [exact HS|]. split; [exact Ep|].
  assert (KE : IZR k * IZR E <= 69401 / 100000 * IZR m).
  { apply Rle_trans with (IZR m / IZR E * ln 2 * (1 + 11 * u) * IZR E); [apply Rmult_le_compat_r; lra|]. replace (IZR m / IZR E * ln 2 * (1 + 11 * u) * IZR E) with (ln 2 * (1 + 11 * u) * IZR m) by (field; lra). apply Rmult_le_compat_r; [lra|]. nra. }
  set (z := IZR m / IZR E * ln 2) in *. clearbody z c. assert (Z7 : z <= 71) by lra. assert (ZU : z * u <= 71 * u) by (apply Rmult_le_compat_r; lra).
  split; [split; [exact l1|lra]|]. split; [lra|]. split; lra.
Qed.
(** A bit that is not set. *)
Lemma unset M n c : 142 <= M -> INR n <= c * M -> 0 <= c -> exp (- (1008 / 1000 * c)) <= (1 - 1 / M) ^ n.
Proof.
  intros HM Hn Hc. assert (B : exp (- (1 / (M - 1))) <= 1 - 1 / M).
  { rewrite exp_Ropp. assert (X : M / (M - 1) <= exp (1 / (M - 1))) by (eapply Rle_trans; [|apply exp_ineq1_le]; right; field; lra). replace (1 - 1 / M) with (/ (M / (M - 1))) by (field; lra).
    apply Rinv_le; [|exact X]. apply Rmult_lt_0_compat; [lra|apply Rinv_0_lt_compat; lra]. }
  apply Rle_trans with (exp (- (1 / (M - 1))) ^ n); [|apply pow_incr; split; [apply Rlt_le, exp_pos|exact B]].
  assert (E : exp (- (1 / (M - 1))) ^ n = exp (- (INR n / (M - 1)))).
  { clear. induction n as [|n IH]; [cbn [pow INR]; unfold Rdiv; rewrite Rmult_0_l, Ropp_0, exp_0; reflexivity|]. cbn [pow]. rewrite IH, <- exp_plus, S_INR. f_equal. unfold Rdiv. ring. }
  rewrite E. assert (D : INR n / (M - 1) <= 1008 / 1000 * c).
  { apply Rmult_le_reg_r with (M - 1); [lra|]. unfold Rdiv at 1. rewrite Rmult_assoc, Rinv_l, Rmult_1_r by lra. nra. }
  destruct (Rle_lt_or_eq_dec _ _ D) as [D'|D']; [left; apply exp_increasing; lra|right; f_equal; lra].
Qed.
(** The base of the power, from the part of bits that are not set. *)
Lemma base_le M K n t c : 142 <= M -> 1 <= INR K -> INR K <= 695 / 100000 * M -> INR n <= c * M -> 0 <= c -> 0 <= t <= exp (- (1008 / 1000 * c)) ->
  let s := 1 - (1 - 1 / M) ^ n in 0 <= s + (INR K - 1) / M * (1 - s) <= 1 - t * (99305 / 100000).
Proof.
  intros HM HK1 HK Hn Hc Ht s. pose proof (unset M n c HM Hn Hc) as X. assert (IM : 0 < / M <= / 142) by (split; [apply Rinv_0_lt_compat; lra|apply Rinv_le; lra]).
  assert (P1 : 0 <= (1 - 1 / M) ^ n <= 1).
  { assert (Q : 0 <= 1 - 1 / M <= 1) by (unfold Rdiv; lra). split; [apply pow_le, Q|]. apply Rle_trans with (1 ^ n); [apply pow_incr, Q|rewrite pow1; lra]. }
  assert (KM : 0 <= (INR K - 1) / M <= 695 / 100000).
  { split; [apply Rmult_le_pos; lra|]. apply Rmult_le_reg_r with M; [lra|]. unfold Rdiv at 1. rewrite Rmult_assoc, Rinv_l, Rmult_1_r by lra. lra. }
  unfold s. set (y := (1 - 1 / M) ^ n) in *. set (d := (INR K - 1) / M) in *. clearbody y d. split; nra.
Qed.

Lemma half_exp : 707 / 1000 <= exp (- (ln 2 / 2)).
Proof.
  assert (E : exp (- (ln 2 / 2)) * exp (- (ln 2 / 2)) = / 2) by (rewrite <- exp_plus; replace (- (ln 2 / 2) + - (ln 2 / 2)) with (- ln 2) by field; rewrite exp_Ropp, exp_ln by lra; reflexivity).
  pose proof (exp_pos (- (ln 2 / 2))). nra.
Qed.
Lemma quarter_exp : exp (- (2 * ln 2)) = / 4.
Proof. replace (- (2 * ln 2)) with (- ln 2 + - ln 2) by ring. rewrite exp_plus, exp_Ropp, exp_ln by lra. lra. Qed.
Lemma exp_mono x y : x <= y -> exp x <= exp y.
Proof. intros [H| -> ]; [left; apply exp_increasing, H|right; reflexivity]. Qed.
Lemma clamp_ge k : (1 <= k -> clamp_k k <= k)%Z.
Proof. intros H. unfold clamp_k. destruct (Z.eqb_spec k 0); [lia|]. destruct (Z.ltb_spec 29 k); lia. Qed.
Lemma exp_pow2 K x : exp (- ((INR K + x) * ln 2)) = (/ 2) ^ K * exp (- (x * ln 2)).
Proof.
  replace (- ((INR K + x) * ln 2)) with (- (INR K * ln 2) + - (x * ln 2)) by ring. rewrite exp_plus. f_equal. rewrite exp_Ropp. replace (exp (INR K * ln 2)) with (2 ^ K) by (rewrite <- (exp_ln (2 ^ K)) by (apply pow_lt; lra); rewrite ln_pow by lra; reflexivity).
  rewrite pow_inv by lra. reflexivity.
Qed.
Lemma exp_101 : 496 / 1000 <= exp (- (101 / 100 * ln 2)).
Proof.
  pose proof ln2_up as L1. pose proof ln2_down as L2. replace (- (101 / 100 * ln 2)) with (- ln 2 + - (/ 100 * ln 2)) by field. rewrite exp_plus, exp_Ropp, exp_ln by lra. pose proof (exp_ineq1_le (- (/ 100 * ln 2))). lra.
Qed.
(** Up to half of the expected items, if these are 100 at least. *)
Theorem c143_half_partial Log E p N : log_ok Log -> (100 <= E <= 2 ^ 53)%Z -> good_p p -> / 2 ^ 50 <= B2R p <= / 2 -> (2 * Z.of_nat N <= E)%Z ->
  exists m k, NewBloom Log E p = Made (NewBloomFilter E m k) /\ rate E m k N <= B2R p.
Proof.
  intros HL HE Hp [Hl Hh] HN. assert (H70 : / 2 ^ 70 <= B2R p) by (apply Rle_trans with (2 := Hl), Rinv_le; [apply pow_lt; lra|apply Rle_pow; [lra|lia]]).
  destruct (made_facts Log E p HL HE Hp (conj H70 Hh)) as (m & k & l & Nw & HS & Ep & [l1 lk] & kl & KE & ME). exists m, k. split; [exact Nw|]. clear H70.
  pose proof HS as (_ & _ & _ & K0). pose proof (clamp_bound k K0) as Ck. assert (RE : 100 <= IZR E) by (apply IZR_le; lia). set (M := IZR (64 * words m)) in *. assert (HM : 142 <= M) by nra.
  assert (n2 : 2 * INR N <= IZR E) by (rewrite INR_IZR_INZ, <- mult_IZR; apply IZR_le; lia). pose proof ln2_up as L1. pose proof ln2_down as L2.
  destruct (Z_le_gt_dec k 1) as [k1|k1].
  - pose proof (rate_le E m k 0 N HS ltac:(lia) (window_first E N ltac:(lia) ltac:(lia))) as R. cbv zeta in R. fold M in R.
    assert (clamp_k k = 1%Z) as Eck by (unfold clamp_k in *; destruct (Z.eqb_spec k 0); [reflexivity|]; destruct (Z.ltb_spec 29 k); lia). rewrite Eck in R. change (Z.to_nat 1) with 1%nat in R. rewrite Nat.mul_1_l, pow_1, Nat.add_0_l in R.
    apply Rle_trans with (1 := R). clear R. assert (lk2 : l <= 201 / 100) by (apply IZR_le in k1; lra).
    assert (B : INR N / M <= 353 / 1000 / l).
    { apply Rmult_le_reg_r with (M * l); [nra|]. replace (INR N / M * (M * l)) with (INR N * l) by (field; lra). replace (353 / 1000 / l * (M * l)) with (353 / 1000 * M) by (field; lra). nra. }
    apply Rle_trans with (1 := B). rewrite Ep. pose proof half_exp as H2. apply Rmult_le_reg_r with l; [lra|]. unfold Rdiv at 1. rewrite Rmult_assoc, Rinv_l, Rmult_1_r by lra. destruct (Rle_lt_dec l (3 / 2)) as [Hx|Hx].
    + assert (X : exp (- (3 / 2 * ln 2)) <= exp (- (l * ln 2))) by (apply exp_mono; nra). replace (- (3 / 2 * ln 2)) with (- ln 2 + - (ln 2 / 2)) in X by field. rewrite exp_plus, exp_Ropp, exp_ln in X by lra. nra.
    + assert (X : exp (- (201 / 100 * ln 2)) <= exp (- (l * ln 2))) by (apply exp_mono; nra). replace (- (201 / 100 * ln 2)) with (- ln 2 + - (101 / 100 * ln 2)) in X by field. rewrite exp_plus, exp_Ropp, exp_ln in X by lra. pose proof exp_101. nra.
  - pose proof (rate_upper E m k 0 N HS ltac:(lia) (window_first E N ltac:(lia) ltac:(lia))) as R. cbv zeta in R. fold M in R. rewrite Nat.add_0_l in R. apply Rle_trans with (1 := R). clear R.
    remember (Z.to_nat (clamp_k k)) as K eqn:EK. assert (KK : INR K <= IZR k) by (rewrite EK, INR_IZR_INZ, Z2Nat.id by lia; apply IZR_le, clamp_ge; lia).
    assert (K1 : 1 <= INR K) by (rewrite EK, INR_IZR_INZ, Z2Nat.id by lia; apply IZR_le; lia).
    assert (Kn : INR (K * N) <= 34701 / 100000 * M) by (rewrite mult_INR; pose proof (pos_INR N); assert (INR K * INR N <= IZR k * (IZR E / 2)) by (apply Rmult_le_compat; lra); lra).
    assert (KM : INR K <= 695 / 100000 * M) by (assert (IZR k * 100 <= IZR k * IZR E) by (apply Rmult_le_compat_l; lra); lra).
    assert (T : 704 / 1000 <= exp (- (1008 / 1000 * (34701 / 100000)))).
    { pose proof half_exp as H2. set (d := 1008 / 1000 * (34701 / 100000) - ln 2 / 2). replace (- (1008 / 1000 * (34701 / 100000))) with (- (ln 2 / 2) + - d) by (unfold d; field). rewrite exp_plus.
      assert (D : 0 <= d <= 4 / 1000) by (unfold d; lra). clearbody d. pose proof (exp_ineq1_le (- d)). nra. }
    destruct (base_le M K (K * N) (704 / 1000) (34701 / 100000) HM K1 KM Kn ltac:(lra) ltac:(lra)) as [Y0 Y1]. cbv zeta in Y0, Y1. set (y := 1 - (1 - 1 / M) ^ (K * N) + (INR K - 1) / M * (1 - (1 - (1 - 1 / M) ^ (K * N)))) in *. clearbody y.
    apply Rle_trans with ((301 / 1000) ^ K); [apply pow_incr; lra|]. destruct (Z_lt_le_dec 29 k) as [k30|k30].
    + apply Rle_trans with (2 := Hl). assert (K = 30%nat) as -> by (rewrite EK; unfold clamp_k; destruct (Z.eqb_spec k 0); [lia|]; replace (29 <? k)%Z with true by (symmetry; apply Z.ltb_lt; lia); reflexivity).
      assert (H30 : (301 / 1000) ^ 30 = ((301 / 1000) ^ 3) ^ 10) by (rewrite <- pow_mult; apply f_equal; reflexivity). rewrite H30. assert (H50 : 2 ^ 50 = (2 ^ 5) ^ 10) by (rewrite <- pow_mult; apply f_equal; reflexivity). rewrite H50, <- pow_inv by (apply pow_nonzero; lra).
      apply pow_incr. cbn [pow]. lra.
    + assert (Kk : INR K = IZR k) by (rewrite EK, INR_IZR_INZ, Z2Nat.id by lia; unfold clamp_k; destruct (Z.eqb_spec k 0); [lia|]; replace (29 <? k)%Z with false by (symmetry; apply Z.ltb_ge; lia); reflexivity).
      rewrite Ep. apply Rle_trans with (exp (- ((INR K + 101 / 100) * ln 2))); [|apply exp_mono; rewrite Kk; nra]. rewrite exp_pow2. pose proof exp_101 as X.
      apply Rle_trans with ((/ 2) ^ K * (496 / 1000)); [|apply Rmult_le_compat_l; [apply pow_le; lra|exact X]]. replace (301 / 1000) with (/ 2 * (602 / 1000)) by field. rewrite Rpow_mult_distr. apply Rmult_le_compat_l; [apply pow_le; lra|].
      assert (K2 : (2 <= K)%nat) by (apply INR_le; rewrite Kk; change (INR 2) with 2; apply IZR_le; lia). destruct K as [|[|K]]; [lia|lia|]. cbn [pow]. assert (0 <= (602 / 1000) ^ K <= 1) by (split; [apply pow_le; lra|rewrite <- (pow1 K); apply pow_incr; lra]). nra.
Qed.
Print Assumptions c143_half_partial.
(** At any time, whatever has been added: for rates from 2^-30 the fifth power of the rate is at most five times the square of the rate
    asked for (0.02 becomes less than 0.29). *)
Theorem c143_always_partial Log E p N : log_ok Log -> (100 <= E <= 2 ^ 53)%Z -> good_p p -> / 2 ^ 30 <= B2R p <= / 2 -> (Z.of_nat N < 2 ^ 64)%Z ->
  exists m k, NewBloom Log E p = Made (NewBloomFilter E m k) /\ rate E m k N ^ 5 <= 5 * B2R p ^ 2.
Proof.
  intros HL HE Hp [Hl Hh] HN. assert (H70 : / 2 ^ 70 <= B2R p) by (apply Rle_trans with (2 := Hl), Rinv_le; [apply pow_lt; lra|apply Rle_pow; [lra|lia]]).
  destruct (made_facts Log E p HL HE Hp (conj H70 Hh)) as (m & k & l & Nw & HS & Ep & [l1 lk] & kl & KE & ME). exists m, k. split; [exact Nw|]. clear H70.
  destruct (window_exists E N ltac:(lia)) as (o & w & -> & HW). pose proof (window_size E o w ltac:(lia) HW) as Hw. pose proof (rate_nonneg E m k o w HS HN HW) as [R0 R1].
  pose proof HS as (_ & _ & _ & K0). pose proof (clamp_bound k K0) as Ck. assert (RE : 100 <= IZR E) by (apply IZR_le; lia). pose proof (rate_upper E m k o w HS HN HW) as R. cbv zeta in R. set (M := IZR (64 * words m)) in *. assert (HM : 142 <= M) by nra.
  assert (n2 : INR w <= 201 / 100 * IZR E) by (rewrite INR_IZR_INZ; apply IZR_le in Hw; rewrite plus_IZR, mult_IZR in Hw; lra). pose proof ln2_up as L1. pose proof ln2_down as L2. pose proof exp_101 as X.
  assert (l30 : l <= 30).
  { assert (H : ln (/ 2 ^ 30) <= ln (B2R p)) by (apply ln_le; [apply Rinv_0_lt_compat, pow_lt; lra|exact Hl]). rewrite ln_Rinv, ln_pow in H by (try apply pow_lt; lra). rewrite INR_IZR_INZ in H. change (Z.of_nat 30) with 30%Z in H. rewrite Ep, ln_exp in H. nra. }
  clear Hl. assert (k30 : (k <= 30)%Z) by (assert (IZR k < 31) by lra; apply lt_IZR in H; lia). destruct (Z.eq_dec k 0) as [k0|k0].
  - subst k. assert (P : 496 / 1000 <= B2R p) by (apply Rle_trans with (1 := X); rewrite Ep; apply exp_mono; nra). apply Rle_trans with (1 ^ 5); [apply pow_incr; lra|]. cbn [pow]. nra.
  - assert (Ec : clamp_k k = k) by (unfold clamp_k; destruct (Z.eqb_spec k 0); [lia|]; destruct (Z.ltb_spec 29 k); lia). rewrite Ec in R. remember (Z.to_nat k) as K eqn:EK. assert (KK : INR K = IZR k) by (rewrite EK, INR_IZR_INZ, Z2Nat.id by lia; reflexivity).
    assert (K1 : 1 <= INR K) by (rewrite KK; apply IZR_le; lia).
    assert (Kn : INR (K * w) <= 139497 / 100000 * M) by (rewrite mult_INR, KK; pose proof (pos_INR w); assert (IZR k * INR w <= IZR k * (201 / 100 * IZR E)) by (apply Rmult_le_compat_l; lra); lra).
    assert (KM : INR K <= 695 / 100000 * M) by (assert (IZR k * 100 <= IZR k * IZR E) by (apply Rmult_le_compat_l; lra); lra).
    assert (T : 2444 / 10000 <= exp (- (1008 / 1000 * (139497 / 100000)))).
    { pose proof quarter_exp as H2. set (d := 1008 / 1000 * (139497 / 100000) - 2 * ln 2). replace (- (1008 / 1000 * (139497 / 100000))) with (- (2 * ln 2) + - d) by (unfold d; field). rewrite exp_plus, H2.
      assert (D : 0 <= d <= 2214 / 100000) by (unfold d; lra). clearbody d. pose proof (exp_ineq1_le (- d)). lra. }
    destruct (base_le M K (K * w) (2444 / 10000) (139497 / 100000) HM K1 KM Kn ltac:(lra) ltac:(lra)) as [Y0 Y1]. cbv zeta in Y0, Y1. set (y := 1 - (1 - 1 / M) ^ (K * w) + (INR K - 1) / M * (1 - (1 - (1 - 1 / M) ^ (K * w)))) in *. clearbody y.
    apply Rle_trans with ((y ^ K) ^ 5); [apply pow_incr; lra|]. rewrite <- pow_mult, Nat.mul_comm, pow_mult. apply Rle_trans with ((/ 4) ^ K).
    { apply pow_incr. split; [apply pow_le; lra|]. apply Rle_trans with ((757 / 1000 + 4 / 10000) ^ 5); [apply pow_incr; lra|]. cbn [pow]. lra. }
    assert (P : (/ 2) ^ K * (496 / 1000) <= B2R p) by (rewrite Ep; apply Rle_trans with (exp (- ((INR K + 101 / 100) * ln 2))); [rewrite exp_pow2; apply Rmult_le_compat_l; [apply pow_le; lra|exact X]|apply exp_mono; rewrite KK; nra]).
    replace (/ 4) with (/ 2 * / 2) by lra. rewrite Rpow_mult_distr. assert (0 < (/ 2) ^ K) by (apply pow_lt; lra). set (h := (/ 2) ^ K) in *. clearbody h. cbn [pow]. rewrite Rmult_1_r. assert (h * (496 / 1000) * (h * (496 / 1000)) <= B2R p * B2R p) by (apply Rmult_le_compat; nra). nra.
Qed.
Print Assumptions c143_always_partial.
(** NewBloomFilter(100, 0.02) with 50 items, and with a million. *)
Example c143_half_ex : exists m k m' k', NewBloom Log0 100 p50 = Made (NewBloomFilter 100 m k) /\ rate 100 m k 50 <= B2R p50 /\
  NewBloom Log0 100 p50 = Made (NewBloomFilter 100 m' k') /\ rate 100 m' k' (Z.to_nat 1000000) ^ 5 <= 5 * B2R p50 ^ 2.
Proof.
  destruct p50_good as [G [V1 V2]]. pose proof u0 as U. assert (H : / 2 ^ 30 <= B2R p50 <= / 2).
  { split; [|nra]. apply Rle_trans with (/ 1000); [|nra]. apply Rinv_le; [lra|]. assert (H30 : 2 ^ 30 = (2 ^ 10) ^ 3) by (rewrite <- pow_mult; apply f_equal; reflexivity). rewrite H30. cbn [pow]. lra. }
  destruct (c143_half_partial Log0 100 p50 50 log_exists ltac:(lia) G) as (m & k & H1 & H2); [split; [|apply H]; apply Rle_trans with (2 := proj1 H), Rinv_le; [apply pow_lt; lra|apply Rle_pow; [lra|lia]]|lia|].
  destruct (c143_always_partial Log0 100 p50 (Z.to_nat 1000000) log_exists ltac:(lia) G H) as (m' & k' & H3 & H4); [rewrite Z2Nat.id; lia|]. exists m, k, m', k'. auto.
Qed.
