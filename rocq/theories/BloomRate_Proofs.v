(** Proofs about the sizes and the rate. *)
From Coq Require Import ZArith List Bool Lia Reals Lra Psatz.
From Flocq Require Import Core BinarySingleNaN.
From Verif Require Import GoInt GoFloat Bloom_Model Bloom_Spec Bloom_Proofs Bloom_Props BloomRate_Model BloomRate_Spec BloomRate_Count.
Import ListNotations.
Local Open Scope R_scope.

(** ** The rate *)
Lemma rate_covered E m k o w : sane E m k -> (Z.of_nat (o + w) < 2 ^ 64)%Z -> window E o w ->
  let K := Z.to_nat (clamp_k k) in let M := (64 * words m)%Z in
  rate E m k (o + w) = IZR (covered M (K * w) K) / (IZR M ^ (K * w) * IZR M ^ K) /\ 1 <= IZR M.
Proof.
  intros HS HN HW K M. pose proof HS as (_ & _ & Hm & Hk). pose proof (words_bound m Hm) as (HM & _). assert (HM1 : 1 <= IZR M) by (apply IZR_le; subst M; lia). split; [|exact HM1].
  unfold rate. rewrite (fp_eq E m k o w HS HN HW). fold K. fold M. replace (K * (o + w + 1))%nat with (K * o + (K * w + K))%nat by lia.
  rewrite mult_IZR, <- !pow_IZR, !pow_add. assert (P : forall n, IZR M ^ n <> 0) by (intros n; apply pow_nonzero; lra). field. repeat split; apply P.
Qed.
Lemma rate_ge E m k o w : sane E m k -> (Z.of_nat (o + w) < 2 ^ 64)%Z -> window E o w ->
  let K := Z.to_nat (clamp_k k) in let M := IZR (64 * words m) in
  (1 - (1 - 1 / M) ^ (K * w)) ^ K <= rate E m k (o + w).
Proof.
  intros HS HN HW. destruct (rate_covered E m k o w HS HN HW) as [-> HM]. pose proof HS as (_ & _ & Hm & Hk). pose proof (clamp_bound k Hk) as HK. cbv zeta in *.
  set (M := (64 * words m)%Z) in *. destruct (Z.to_nat (clamp_k k)) as [|K] eqn:EK; [lia|]. set (a := (S K * w)%nat). assert (HM0 : (0 <= M)%Z) by (apply le_IZR; lra).
  pose proof (IZR_le _ _ (covered_ge M HM0 a K)) as C. rewrite mult_IZR in C. rewrite <- !pow_IZR, mult_IZR, minus_IZR, <- !pow_IZR, minus_IZR in C.
  assert (P : forall n, 0 < IZR M ^ n) by (intros n; apply pow_lt; lra).
  apply Rmult_le_reg_r with ((IZR M ^ a) ^ S K * IZR M ^ S K); [apply Rmult_lt_0_compat; [apply pow_lt, P|apply P]|].
  replace (IZR (covered M a (S K)) / (IZR M ^ a * IZR M ^ S K) * ((IZR M ^ a) ^ S K * IZR M ^ S K)) with ((IZR M ^ a) ^ K * IZR (covered M a (S K))).
  2: { cbn [pow]. field. repeat split; first [apply Rgt_not_eq, P|lra]. }
  eapply Rle_trans; [|exact C]. right. rewrite <- !Rpow_mult_distr. f_equal. replace (1 - 1 / IZR M) with ((IZR M - 1) * / IZR M) by (field; lra). rewrite Rpow_mult_distr, pow_inv by lra.
  field. apply Rgt_not_eq, P.
Qed.
Lemma rate_le E m k o w : sane E m k -> (Z.of_nat (o + w) < 2 ^ 64)%Z -> window E o w ->
  let K := Z.to_nat (clamp_k k) in let M := IZR (64 * words m) in
  rate E m k (o + w) <= (INR (K * w) / M) ^ K.
Proof.
  intros HS HN HW. destruct (rate_covered E m k o w HS HN HW) as [-> HM]. cbv zeta in *.
  set (M := (64 * words m)%Z) in *. set (K := Z.to_nat (clamp_k k)). set (a := (K * w)%nat). assert (HM0 : (0 <= M)%Z) by (apply le_IZR; lra).
  pose proof (IZR_le _ _ (covered_le M HM0 a K)) as C. rewrite mult_IZR, <- !pow_IZR, <- INR_IZR_INZ in C.
  assert (P : forall n, 0 < IZR M ^ n) by (intros n; apply pow_lt; lra).
  unfold Rdiv at 2. rewrite Rpow_mult_distr, pow_inv by lra.
  apply Rmult_le_reg_r with (IZR M ^ a * IZR M ^ K); [apply Rmult_lt_0_compat; apply P|].
  replace (IZR (covered M a K) / (IZR M ^ a * IZR M ^ K) * (IZR M ^ a * IZR M ^ K)) with (IZR (covered M a K)) by (field; split; apply Rgt_not_eq, P).
  eapply Rle_trans; [exact C|]. right. field. apply Rgt_not_eq, P.
Qed.
Lemma filter_len {A} (p : A -> bool) l : (length (filter p l) <= length l)%nat.
Proof. induction l as [|x l IH]; cbn [filter length]; [lia|]. destruct (p x); cbn [length]; lia. Qed.
Lemma rate_nonneg E m k o w : sane E m k -> (Z.of_nat (o + w) < 2 ^ 64)%Z -> window E o w -> 0 <= rate E m k (o + w) <= 1.
Proof.
  intros HS HN HW. pose proof HS as (_ & _ & Hm & Hk). pose proof (words_bound m Hm) as (HM & _). unfold rate, false_positives. set (l := tables _ _).
  assert (E1 : ((64 * words m) ^ Z.of_nat (Z.to_nat (clamp_k k) * (o + w + 1)) = Z.of_nat (length l))%Z) by (symmetry; apply tables_length; lia). rewrite E1.
  set (f := filter _ l). assert (L : (length f <= length l)%nat) by apply filter_len. assert (P : (0 < Z.of_nat (length l))%Z) by (rewrite <- E1; apply Z.pow_pos_nonneg; lia).
  apply IZR_lt in P. split.
  - apply Rmult_le_pos; [apply IZR_le; lia|apply Rlt_le, Rinv_0_lt_compat, P].
  - apply Rmult_le_reg_r with (IZR (Z.of_nat (length l))); [exact P|]. unfold Rdiv. rewrite Rmult_assoc, Rinv_l, Rmult_1_r, Rmult_1_l by lra. apply IZR_le. lia.
Qed.

(** ** Relative errors *)
Definition nr (n r x : R) : Prop := x * (1 - n * u) <= r <= x * (1 + n * u).
Lemma u0 : 0 < u < / 1000000000000.
Proof. rewrite u_val. lra. Qed.
Lemma nr_pos n r x : 0 <= n <= 1000 -> 0 < x -> nr n r x -> 0 < r /\ x / 2 <= r <= 2 * x.
Proof. intros Hn Hx [H1 H2]. pose proof u0. assert (n * u <= / 2) by nra. nra. Qed.
Lemma nr_mul a b r s x y : 0 <= a <= 100 -> 0 <= b <= 100 -> 0 < x -> 0 < y -> nr a r x -> nr b s y -> nr (a + b + 1) (r * s) (x * y).
Proof.
  intros Ha Hb Hx Hy Hr Hs. destruct (nr_pos a r x ltac:(lra) Hx Hr) as [Pr _]. destruct (nr_pos b s y ltac:(lra) Hy Hs) as [Ps _]. destruct Hr as [R1 R2]. destruct Hs as [S1 S2]. pose proof u0 as U.
  assert (A0 : 0 <= a * u) by nra. assert (B0 : 0 <= b * u) by nra. assert (A1 : a * u <= / 1000) by nra. assert (B1 : b * u <= / 1000) by nra. assert (AB : a * u * (b * u) <= u) by nra.
  assert (XY : 0 < x * y) by nra. split.
  - apply Rle_trans with (x * (1 - a * u) * (y * (1 - b * u))); [|apply Rmult_le_compat; nra]. replace (x * (1 - a * u) * (y * (1 - b * u))) with (x * y * ((1 - a * u) * (1 - b * u))) by ring. apply Rmult_le_compat_l; [lra|]. nra.
  - apply Rle_trans with (x * (1 + a * u) * (y * (1 + b * u))); [apply Rmult_le_compat; lra|]. replace (x * (1 + a * u) * (y * (1 + b * u))) with (x * y * ((1 + a * u) * (1 + b * u))) by ring. apply Rmult_le_compat_l; [lra|]. nra.
Qed.
Lemma nr_inv b s y : 0 <= b <= 100 -> 0 < y -> nr b s y -> nr (b + 1) (/ s) (/ y).
Proof.
  intros Hb Hy Hs. destruct (nr_pos b s y ltac:(lra) Hy Hs) as [Ps _]. destruct Hs as [S1 S2]. pose proof u0 as U. assert (B0 : 0 <= b * u) by nra. assert (B1 : b * u <= / 1000) by nra. assert (B2 : b * u * (b * u) <= u / 2) by nra.
  split; apply Rmult_le_reg_r with (s * y); try nra.
  - replace (/ y * (1 - (b + 1) * u) * (s * y)) with ((1 - (b + 1) * u) * s) by (field; lra). replace (/ s * (s * y)) with y by (field; lra).
    apply Rle_trans with ((1 - (b + 1) * u) * (y * (1 + b * u))); [apply Rmult_le_compat_l; nra|]. replace ((1 - (b + 1) * u) * (y * (1 + b * u))) with (y * ((1 - (b + 1) * u) * (1 + b * u))) by ring. nra.
  - replace (/ y * (1 + (b + 1) * u) * (s * y)) with ((1 + (b + 1) * u) * s) by (field; lra). replace (/ s * (s * y)) with y by (field; lra).
    apply Rle_trans with ((1 + (b + 1) * u) * (y * (1 - b * u))); [|apply Rmult_le_compat_l; nra]. replace ((1 + (b + 1) * u) * (y * (1 - b * u))) with (y * ((1 + (b + 1) * u) * (1 - b * u))) by ring.
    assert (1 <= (1 + (b + 1) * u) * (1 - b * u)) by nra. nra.
Qed.
Lemma nr_R64 n r x : 0 <= n <= 50 -> / 1152921504606846976 <= x -> nr n r x -> nr (n + 2) (R64 r) x.
Proof.
  intros Hn Hx Hr. assert (X0 : 0 < x) by (apply Rlt_le_trans with (2 := Hx); apply Rinv_0_lt_compat; lra). destruct (nr_pos n r x ltac:(lra) X0 Hr) as [Pr [P1 P2]].
  assert (T : bpow radix2 (-1022) <= r).
  { apply Rle_trans with (/ 2305843009213693952); [|lra]. replace (/ 2305843009213693952) with (bpow radix2 (-61)) by (change (-61)%Z with (- (61))%Z; rewrite bpow_opp; f_equal). apply bpow_le. lia. }
  assert (N1 : nr 1 (R64 r) r) by (split; rewrite Rmult_1_l; [apply R64_down|apply R64_up]; exact T).
  destruct N1 as [N1 N2]. destruct Hr as [R1 R2]. pose proof u0 as U. assert (A0 : 0 <= n * u) by nra. assert (A1 : n * u <= / 1000) by nra. rewrite Rmult_1_l in N1, N2. split.
  - apply Rle_trans with (2 := N1). apply Rle_trans with (x * (1 - n * u) * (1 - u)); [|apply Rmult_le_compat_r; lra]. rewrite Rmult_assoc. apply Rmult_le_compat_l; [lra|]. nra.
  - apply Rle_trans with (1 := N2). apply Rle_trans with (x * (1 + n * u) * (1 + u)); [apply Rmult_le_compat_r; lra|]. rewrite Rmult_assoc. apply Rmult_le_compat_l; [lra|]. nra.
Qed.

(** ** Logarithms *)
Lemma ln_le x y : 0 < x -> x <= y -> ln x <= ln y.
Proof. intros Hx [H|<-]; [apply Rlt_le, ln_increasing; assumption|lra]. Qed.
Lemma dbl h a b : a <= exp h -> 0 <= a -> b <= a * a -> b <= exp (2 * h).
Proof. intros H1 H2 H3. replace (2 * h) with (h + h) by ring. rewrite exp_plus. eapply Rle_trans; [exact H3|]. apply Rmult_le_compat; assumption. Qed.
Lemma ln2_up : ln 2 <= 694 / 1000.
Proof.
  assert (H0 : 256347 / 256000 <= exp (694 / 1000 / 512)) by (eapply Rle_trans; [|apply Rlt_le, exp_ineq1; lra]; lra).
  apply (dbl _ _ (501356387 / 500000000)) in H0; [|lra|lra].
  apply (dbl _ _ (1005432907 / 1000000000)) in H0; [|lra|lra].
  apply (dbl _ _ (101089533 / 100000000)) in H0; [|lra|lra].
  apply (dbl _ _ (127738671 / 125000000)) in H0; [|lra|lra].
  apply (dbl _ _ (261074689 / 250000000)) in H0; [|lra|lra].
  apply (dbl _ _ (1090559891 / 1000000000)) in H0; [|lra|lra].
  apply (dbl _ _ (9514567 / 8000000)) in H0; [|lra|lra].
  apply (dbl _ _ (1414484143 / 1000000000)) in H0; [|lra|lra].
  apply (dbl _ _ (200076539 / 100000000)) in H0; [|lra|lra].
  rewrite <- (ln_exp (694 / 1000)). apply ln_le; [lra|].
  replace (2 * (2 * (2 * (2 * (2 * (2 * (2 * (2 * (2 * (694 / 1000 / 512)))))))))) with (694 / 1000) in H0 by field. lra.
Qed.
Lemma ln2_down : 692 / 1000 <= ln 2.
Proof.
  assert (H0 : 127827 / 128000 <= exp (- (692 / 1000 / 512))) by (eapply Rle_trans; [|apply Rlt_le, exp_ineq1; lra]; lra).
  apply (dbl _ _ (997298701 / 1000000000)) in H0; [|lra|lra].
  apply (dbl _ _ (994604699 / 1000000000)) in H0; [|lra|lra].
  apply (dbl _ _ (989238507 / 1000000000)) in H0; [|lra|lra].
  apply (dbl _ _ (978592823 / 1000000000)) in H0; [|lra|lra].
  apply (dbl _ _ (957643913 / 1000000000)) in H0; [|lra|lra].
  apply (dbl _ _ (114635233 / 125000000)) in H0; [|lra|lra].
  apply (dbl _ _ (168207829 / 200000000)) in H0; [|lra|lra].
  apply (dbl _ _ (707346843 / 1000000000)) in H0; [|lra|lra].
  apply (dbl _ _ (125084889 / 250000000)) in H0; [|lra|lra].
  rewrite <- (ln_exp (692 / 1000)). apply ln_le; [apply exp_pos|].
  replace (2 * (2 * (2 * (2 * (2 * (2 * (2 * (2 * (2 * - (692 / 1000 / 512)))))))))) with (- (692 / 1000)) in H0 by field. rewrite exp_Ropp in H0. pose proof (exp_pos (692 / 1000)) as P.
  apply Rmult_le_reg_r with (/ exp (692 / 1000)); [apply Rinv_0_lt_compat, P|]. rewrite Rinv_r by lra. lra.
Qed.
Lemma below_one x : is_finite x = true -> B2R x < 1 -> B2R (prec := 53) (emax := 1024) x <= 1 - u.
Proof.
  intros Hf Hx. pose proof (generic_format_B2R 53 1024 x) as G. assert (V : Valid_exp (SpecFloat.fexp 53 1024)) by (apply (fexp_correct 53 1024); reflexivity).
  pose proof (pred_ge_gt radix2 (SpecFloat.fexp 53 1024) (B2R x) (bpow radix2 0) G) as H. rewrite pred_bpow in H. apply H; [apply generic_format_bpow; cbn; lia|exact Hx].
Qed.
Lemma ln_bound x : 0 < x -> ln x <= x - 1.
Proof.
  intros Hx. destruct (Req_dec x 1) as [->|Hn]; [rewrite ln_1; lra|]. assert (H : ln x <> 0) by (intros E; apply Hn; rewrite <- ln_1 in E; apply ln_inv in E; lra). pose proof (exp_ineq1 (ln x) H) as P. rewrite exp_ln in P by exact Hx. lra.
Qed.

(** ** Sizes *)
Definition good_p (p : f64) : Prop := is_finite p = true /\ / 1267650600228229401496703205376 <= B2R p < 1.
Lemma minus_ln p : good_p p -> u <= - ln (B2R p) <= 70.
Proof.
  intros (Hf & Hp & H1). assert (P0 : 0 < B2R p) by (apply Rlt_le_trans with (2 := Hp); apply Rinv_0_lt_compat; lra). pose proof (below_one p Hf H1). pose proof (ln_bound (B2R p) P0). split; [lra|].
  assert (L : ln (/ 1267650600228229401496703205376) <= ln (B2R p)) by (apply ln_le; [apply Rinv_0_lt_compat; lra|exact Hp]). rewrite ln_Rinv in L by lra.
  replace 1267650600228229401496703205376 with (2 ^ 100) in L by (rewrite pow_IZR; apply f_equal; vm_compute; reflexivity). rewrite ln_pow in L by lra. rewrite INR_IZR_INZ in L. change (Z.of_nat 100) with 100%Z in L. pose proof ln2_up. lra.
Qed.
Lemma huge x : Rabs x <= 1267650600228229401496703205376 -> Rabs x <= bpow radix2 1000.
Proof.
  intros H. eapply Rle_trans; [exact H|]. change 1267650600228229401496703205376 with (IZR (Zpower radix2 100)). rewrite IZR_Zpower by lia. apply bpow_le. lia.
Qed.
Lemma nr_abs e r x : Rabs (r - x) <= e * Rabs x -> 0 <= x -> x * (1 - e) <= r <= x * (1 + e).
Proof. intros H Hx. rewrite (Rabs_pos_eq x Hx) in H. apply Rabs_le_inv in H. lra. Qed.
Tactic Notation "posn" hyp(N) ident(P) ident(B) := let W := fresh in pose proof N as W; apply nr_pos in W; [destruct W as [P B]|lra|lra].
Section sizes.
Context (Log : f64 -> f64) (HL : log_ok Log).
Lemma u2 : / 4503599627370496 = 2 * u.
Proof. rewrite u_val. lra. Qed.
Lemma log2_val : exists l, val (log2 Log) l /\ nr 2 l (ln 2).
Proof.
  pose proof (val_int 2 ltac:(cbn; lia)) as [F2 V2]. destruct (HL (of_int 2) F2 ltac:(rewrite V2; lra)) as [F B]. exists (B2R (log2 Log)). split; [split; [exact F|reflexivity]|].
  rewrite V2 in B. fold (log2 Log) in B. rewrite u2 in B. pose proof ln2_down. apply nr_abs in B; [|lra]. exact B.
Qed.
Lemma logp_val p : good_p p -> exists x, val (Log p) x /\ nr 2 (- x) (- ln (B2R p)).
Proof.
  intros Hp. pose proof (minus_ln p Hp) as [H1 H2]. destruct Hp as (Hf & Hp & Hp1). assert (P0 : 0 < B2R p) by (apply Rlt_le_trans with (2 := Hp); apply Rinv_0_lt_compat; lra).
  destruct (HL p Hf P0) as [F B]. exists (B2R (Log p)). split; [split; [exact F|reflexivity]|]. rewrite u2 in B. pose proof u0.
  apply nr_abs; [|lra]. rewrite Rabs_Ropp. replace (- B2R (Log p) - - ln (B2R p)) with (- (B2R (Log p) - ln (B2R p))) by ring. rewrite Rabs_Ropp. exact B.
Qed.
Lemma E_R E : (1 <= E <= 2 ^ 53)%Z -> 1 <= IZR E <= 9007199254740992.
Proof. intros H. split; apply IZR_le; lia. Qed.
Lemma nr_refl x : nr 0 x x.
Proof. unfold nr. lra. Qed.
Lemma u60 : / 1152921504606846976 <= u.
Proof. rewrite u_val. apply Rinv_le; lra. Qed.
Lemma bits_ok E p : (1 <= E <= 2 ^ 53)%Z -> good_p p -> let q := IZR E * - ln (B2R p) / (ln 2 * ln 2) in
  exists m, bits_for Log E p = Some m /\ (0 <= m < 2 ^ 62)%Z /\ q * (1 - 16 * u) - 1 < IZR m <= q * (1 + 16 * u).
Proof.
  intros HE Hp q. pose proof (E_R E HE) as RE. destruct log2_val as (l & Vl & Nl). destruct (logp_val p Hp) as (x & Vx & Nx). pose proof (minus_ln p Hp) as [P1 P2]. pose proof u0 as U. pose proof u60 as U60.
  pose proof ln2_up as L1. pose proof ln2_down as L2.
  assert (X0 : u <= IZR E * - ln (B2R p) <= 630503947831869440) by (split; nra).
  assert (N1 : nr 3 (IZR E * - x) (IZR E * - ln (B2R p))) by (replace 3 with (0 + 2 + 1) by lra; apply nr_mul; [lra|lra|lra|lra|apply nr_refl|exact Nx]).
  posn N1 PN10 B1.
  assert (V1 : val (fmul (fopp (of_int E)) (Log p)) (R64 (IZR E * - x))).
  { replace (IZR E * - x) with (- IZR E * x) by ring. apply val_mul; [|exact Vx|apply huge; replace (- IZR E * x) with (IZR E * - x) by ring; rewrite Rabs_pos_eq; lra].
    destruct (val_int E ltac:(lia)) as [A1 A2]. split; [unfold fopp; rewrite is_finite_Bopp; exact A1|unfold fopp; rewrite B2R_Bopp, A2; reflexivity]. }
  apply nr_R64 in N1; [|lra|lra]. posn N1 Q1 B1'.
  assert (N2 : nr 5 (l * l) (ln 2 * ln 2)) by (replace 5 with (2 + 2 + 1) by lra; apply nr_mul; try lra; assumption).
  assert (S2 : 47 / 100 <= ln 2 * ln 2 <= 49 / 100) by (split; nra).
  posn N2 PN20 B2.
  assert (V2 : val (fmul (log2 Log) (log2 Log)) (R64 (l * l))) by (apply val_mul; [exact Vl|exact Vl|apply huge; rewrite Rabs_pos_eq; lra]).
  apply nr_R64 in N2; [|lra|lra]. posn N2 Q2 B2'.
  assert (N3 : nr 14 (R64 (IZR E * - x) / R64 (l * l)) q).
  { unfold Rdiv, q. replace 14 with ((3 + 2) + (5 + 2 + 1) + 1) by lra. apply nr_mul; [lra|lra|lra|apply Rinv_0_lt_compat; lra|exact N1|]. apply nr_inv; [lra|lra|exact N2]. }
  assert (Hq : 2 * u <= q <= 1341497761344500000).
  { unfold q, Rdiv. split.
    - apply Rle_trans with (u * (100 / 49)); [lra|]. apply Rmult_le_compat; [lra|lra|lra|]. replace (100 / 49) with (/ (49 / 100)) by lra. apply Rinv_le; lra.
    - apply Rle_trans with (630503947831869440 * / (47 / 100)); [|lra]. apply Rmult_le_compat; [lra|apply Rlt_le, Rinv_0_lt_compat; lra|lra|apply Rinv_le; lra]. }
  posn N3 Q3 B3.
  assert (V3 : val (fdiv (fmul (fopp (of_int E)) (Log p)) (fmul (log2 Log) (log2 Log))) (R64 (R64 (IZR E * - x) / R64 (l * l)))) by (apply val_div; [exact V1|exact V2|lra|apply huge; rewrite Rabs_pos_eq; lra]).
  apply nr_R64 in N3; [|lra|lra]. posn N3 Q4 B4. set (r := R64 (R64 (IZR E * - x) / R64 (l * l))) in *.
  assert (T : Btrunc (fdiv (fmul (fopp (of_int E)) (Log p)) (fmul (log2 Log) (log2 Log))) = Zfloor r) by (rewrite (Btrunc_val _ r V3); apply Ztrunc_floor; lra).
  assert (Z1 : (0 <= Zfloor r < 2 ^ 62)%Z) by (split; [apply Zfloor_lub; lra|apply lt_IZR; apply Rle_lt_trans with r; [apply Zfloor_lb|change (2 ^ 62)%Z with 4611686018427387904%Z; lra]]).
  exists (Zfloor r). split; [|split; [exact Z1|]].
  - unfold bits_for, to_uint. rewrite (proj1 V3), T. replace (0 <=? Zfloor r)%Z with true by (symmetry; apply Z.leb_le; lia). replace (Zfloor r <? 2 ^ 64)%Z with true by (symmetry; apply Z.ltb_lt; lia). reflexivity.
  - pose proof (Zfloor_lb r). pose proof (Zfloor_ub r). destruct N3 as [N4 N5]. split; lra.
Qed.
Lemma hashes_ok E m : (1 <= E <= 2 ^ 53)%Z -> (0 <= m < 2 ^ 62)%Z -> let k := hashes_for Log E m in
  (0 <= k)%Z /\ IZR m / IZR E * ln 2 * (1 - 11 * u) - 1 < IZR k <= IZR m / IZR E * ln 2 * (1 + 11 * u).
Proof.
  intros HE Hm k. pose proof (E_R E HE) as RE. destruct log2_val as (l & Vl & Nl). pose proof u0 as U. pose proof u60 as U60. pose proof ln2_up as L1. pose proof ln2_down as L2.
  posn Nl Pl Bl.
  destruct (Z.eq_dec m 0) as [->|Hm0].
  - assert (K0 : k = 0%Z).
    { unfold k, hashes_for. assert (R0 : R64 0 = 0) by (apply (R64_int 0); cbn; lia).
      assert (V : val (fmul (fdiv (of_int 0) (of_int E)) (log2 Log)) 0).
      { replace 0 with (R64 (0 * l)) by (rewrite Rmult_0_l; exact R0). apply val_mul; [|exact Vl|rewrite Rmult_0_l, Rabs_R0; apply bpow_ge_0].
        replace 0 with (R64 (0 / IZR E)) by (unfold Rdiv; rewrite Rmult_0_l; exact R0). apply val_div; [apply val_int; cbn; lia|apply val_int; lia|lra|unfold Rdiv; rewrite Rmult_0_l, Rabs_R0; apply bpow_ge_0]. }
      rewrite (to_int_val _ 0 V); [apply (Zfloor_IZR 0)|lra|apply bpow_gt_0]. }
    rewrite K0. unfold Rdiv. rewrite !Rmult_0_l. split; [lia|]. lra.
  - assert (M1 : 1 <= IZR m <= 4611686018427387904) by (split; apply IZR_le; lia).
    assert (N0 : nr 2 (R64 (IZR m)) (IZR m)) by (replace 2 with (0 + 2) by lra; apply nr_R64; [lra|lra|apply nr_refl]). posn N0 P0 B0.
    assert (IE : / 9007199254740992 <= / IZR E <= 1) by (split; [apply Rinv_le; lra|rewrite <- Rinv_1; apply Rinv_le; lra]).
    assert (D : u <= IZR m / IZR E <= 4611686018427387904) by (rewrite u_val; unfold Rdiv; split; nra).
    assert (N1 : nr 4 (R64 (IZR m) / IZR E) (IZR m / IZR E)) by (unfold Rdiv; replace 4 with (2 + (0 + 1) + 1) by lra; apply nr_mul; [lra|lra|lra|lra|exact N0|apply nr_inv; [lra|lra|apply nr_refl]]).
    posn N1 P1 B1.
    assert (V1 : val (fdiv (of_int m) (of_int E)) (R64 (R64 (IZR m) / IZR E))) by (apply val_div; [apply val_of_int; lia|apply val_int; lia|lra|apply huge; rewrite Rabs_pos_eq; lra]).
    apply nr_R64 in N1; [|lra|lra]. posn N1 P1' B1'.
    assert (N2 : nr 9 (R64 (R64 (IZR m) / IZR E) * l) (IZR m / IZR E * ln 2)) by (replace 9 with ((4 + 2) + 2 + 1) by lra; apply nr_mul; [lra|lra|lra|lra|exact N1|exact Nl]).
    assert (D2 : u / 2 <= IZR m / IZR E * ln 2 <= 4611686018427387904) by (split; nra).
    posn N2 P2 B2.
    assert (V2 : val (fmul (fdiv (of_int m) (of_int E)) (log2 Log)) (R64 (R64 (R64 (IZR m) / IZR E) * l))) by (apply val_mul; [exact V1|exact Vl|apply huge; rewrite Rabs_pos_eq; lra]).
    apply nr_R64 in N2; [|lra|pose proof u_val; lra]. set (r := R64 (R64 (R64 (IZR m) / IZR E) * l)) in *.
    assert (Br : 0 <= r <= 4611686018427389904) by (destruct N2; nra).
    unfold k, hashes_for. rewrite (to_int_val _ r V2); [|lra|change (bpow radix2 63) with 9223372036854775808; lra].
    split; [apply Zfloor_lub; lra|]. pose proof (Zfloor_lb r). pose proof (Zfloor_ub r). destruct N2 as [N4 N5]. split; lra.
Qed.
End sizes.
