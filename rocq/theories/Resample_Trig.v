(** Sines and cosines: bounds on pi, on sin x / x and on the windows of the filters. *)
From Coq Require Import ZArith Reals Lra Psatz.
From Flocq Require Import Raux.
Local Open Scope R_scope.

(** ** Pi *)
Definition p64 : R := 884279719003555 / 281474976710656.
Lemma pi_near : Rabs (p64 - PI) <= / 1800000000000000.
Proof.
  destruct (PI_2_3_7_ineq 7) as [L U]. unfold p64. apply Rabs_le. cbn [Nat.mul Nat.add sum_f_R0] in L, U. unfold tg_alt, PI_2_3_7_tg, Ratan_seq in L, U. cbn [Nat.mul Nat.add pow INR] in L, U. split; lra.
Qed.
Lemma pi_R : 314159265358 / 100000000000 <= PI <= 314159265359 / 100000000000.
Proof. pose proof pi_near as H. apply Rabs_le_inv in H. unfold p64 in H. lra. Qed.

(** ** Taylor *)
Lemma sin_hi a : 0 <= a <= PI -> sin a <= a - a ^ 3 / 6 + a ^ 5 / 120.
Proof. intros [H1 H2]. destruct (sin_bound a 0 H1 H2) as [_ U]. unfold sin_approx, sin_term in U. cbn [Nat.mul Nat.add sum_f_R0 fact INR pow] in U. cbn [pow]. lra. Qed.
Lemma sin_lo a : 0 <= a <= PI -> a - a ^ 3 / 6 <= sin a.
Proof. intros [H1 H2]. destruct (sin_bound a 0 H1 H2) as [U _]. unfold sin_approx, sin_term in U. cbn [Nat.mul Nat.add sum_f_R0 fact INR pow] in U. cbn [pow]. lra. Qed.
Lemma sin_lo7 a : 0 <= a <= PI -> a - a ^ 3 / 6 + a ^ 5 / 120 - a ^ 7 / 5040 <= sin a.
Proof.
  intros [H1 H2]. destruct (sin_bound a 1 H1 H2) as [U _]. unfold sin_approx, sin_term in U. cbn [Nat.mul Nat.add sum_f_R0] in U. rewrite !INR_IZR_INZ in U. change (Z.of_nat (fact 1)) with 1%Z in U. change (Z.of_nat (fact 3)) with 6%Z in U. change (Z.of_nat (fact 5)) with 120%Z in U. change (Z.of_nat (fact 7)) with 5040%Z in U. cbn [pow] in *. lra.
Qed.
Lemma cos_hi a : - (PI / 2) <= a <= PI / 2 -> cos a <= 1 - a ^ 2 / 2 + a ^ 4 / 24.
Proof. intros [H1 H2]. destruct (cos_bound a 0 ltac:(lra) H2) as [_ U]. unfold cos_approx, cos_term in U. cbn [Nat.mul Nat.add sum_f_R0 fact INR pow] in U. cbn [pow]. lra. Qed.
Lemma cos_lo a : - (PI / 2) <= a <= PI / 2 -> 1 - a ^ 2 / 2 <= cos a.
Proof. intros [H1 H2]. destruct (cos_bound a 0 ltac:(lra) H2) as [U _]. unfold cos_approx, cos_term in U. cbn [Nat.mul Nat.add sum_f_R0 fact INR pow] in U. cbn [pow]. lra. Qed.
Lemma sin_abs_le a : 0 <= a -> Rabs (sin a) <= a.
Proof.
  intros H. destruct (Rle_dec a 1) as [L|L].
  - pose proof pi_R. pose proof (sin_lo a ltac:(lra)) as E1. pose proof (sin_hi a ltac:(lra)) as E2. cbn [pow] in *. apply Rabs_le. split; [|]; assert (0 <= a * a <= 1) by nra; assert (0 <= a * (a * a)) by nra; assert (a * (a * a) * (a * a) <= a * (a * a)) by nra; nra.
  - pose proof (SIN_bound a). apply Rabs_le. lra.
Qed.
Lemma sin_lip a b : Rabs (sin a - sin b) <= Rabs (a - b).
Proof.
  rewrite form4. rewrite !Rabs_mult. rewrite (Rabs_pos_eq 2) by lra. pose proof (COS_bound ((a + b) / 2)) as C. assert (Rabs (cos ((a + b) / 2)) <= 1) as C1 by (apply Rabs_le; lra).
  assert (Rabs (sin ((a - b) / 2)) <= Rabs (a - b) / 2) as S1.
  { destruct (Rle_dec 0 (a - b)) as [P|P].
    - rewrite (Rabs_pos_eq (a - b)) by lra. apply sin_abs_le. lra.
    - rewrite (Rabs_left (a - b)) by lra. replace ((a - b) / 2) with (- ((b - a) / 2)) by field. rewrite sin_neg, Rabs_Ropp. replace (- (a - b) / 2) with ((b - a) / 2) by field. apply sin_abs_le. lra. }
  pose proof (Rabs_pos (cos ((a + b) / 2))). pose proof (Rabs_pos (sin ((a - b) / 2))). nra.
Qed.
Lemma cos_lip a b : Rabs (cos a - cos b) <= Rabs (a - b).
Proof. rewrite <- !sin_shift. eapply Rle_trans; [apply sin_lip|]. replace (PI / 2 - a - (PI / 2 - b)) with (- (a - b)) by ring. rewrite Rabs_Ropp. lra. Qed.

(** ** sin x / x *)
Definition sc (y : R) : R := if Req_EM_T y 0 then 1 else sin y / y.
Lemma sc_0 : sc 0 = 1.
Proof. unfold sc. destruct (Req_EM_T 0 0); [reflexivity|contradiction]. Qed.
Lemma sc_pos y : 0 < y -> sc y = sin y / y.
Proof. intros H. unfold sc. destruct (Req_EM_T y 0); [lra|reflexivity]. Qed.
Lemma sc_abs y : 0 <= y -> Rabs (sc y) <= 1.
Proof.
  intros H. destruct (Req_dec y 0) as [->|N]; [rewrite sc_0, Rabs_R1; lra|]. rewrite sc_pos by lra. unfold Rdiv. rewrite Rabs_mult, (Rabs_pos_eq (/ y)) by (apply Rlt_le, Rinv_0_lt_compat; lra).
  apply (Rmult_le_reg_r y); [lra|]. rewrite Rmult_assoc, Rinv_l, Rmult_1_r, Rmult_1_l by lra. apply sin_abs_le. exact H.
Qed.
Lemma sc_near1 y : 0 <= y <= 2 -> 1 - y ^ 2 / 6 <= sc y.
Proof.
  intros H. destruct (Req_dec y 0) as [->|N]; [rewrite sc_0; lra|]. rewrite sc_pos by lra. pose proof pi_R. pose proof (sin_lo y ltac:(lra)) as E. apply (Rmult_le_reg_r y); [lra|]. unfold Rdiv at 2. rewrite Rmult_assoc, Rinv_l, Rmult_1_r by lra. cbn [pow] in *. lra.
Qed.
Lemma sc_lip_lt a b : 0 < a < b -> b <= 10 -> Rabs (sc b - sc a) <= 7 * (b - a).
Proof.
  intros Hab Hb. rewrite !sc_pos by lra.
  destruct (MVT_cor2 (fun y => sin y / y) (fun y => (cos y * y - 1 * sin y) / Rsqr y) a b ltac:(lra)) as (c & E & Hc).
  { intros c Hc. apply derivable_pt_lim_div; [apply derivable_pt_lim_sin|apply derivable_pt_lim_id|lra]. }
  rewrite E. rewrite Rabs_mult, (Rabs_pos_eq (b - a)) by lra. apply Rmult_le_compat_r; [lra|]. unfold Rdiv. rewrite Rabs_mult. assert (0 < Rsqr c) as Hq by (apply Rsqr_pos_lt; lra). rewrite (Rabs_pos_eq (/ Rsqr c)) by (apply Rlt_le, Rinv_0_lt_compat; exact Hq).
  apply (Rmult_le_reg_r (Rsqr c)); [exact Hq|]. rewrite Rmult_assoc, Rinv_l, Rmult_1_r by lra. unfold Rsqr.
  destruct (Rle_dec c 1) as [L|L].
  - pose proof pi_R. pose proof (sin_lo c ltac:(lra)) as S1. pose proof (sin_abs_le c ltac:(lra)) as S2. apply Rabs_le_inv in S2. pose proof (cos_lo c ltac:(lra)) as C1. pose proof (COS_bound c) as C2. cbn [pow] in *. apply Rabs_le. assert (0 <= c * c <= 1) by nra. assert (c * (c * c) <= c * c) by nra. assert (0 <= c * (c * c)) by nra.
    assert (c * (1 - c * (c * 1) / 2) <= c * cos c <= c * 1) by (split; apply Rmult_le_compat_l; lra). split; lra.
  - pose proof (SIN_bound c). pose proof (COS_bound c) as C2. apply Rabs_le. assert (- c <= cos c * c <= c) by nra. assert (c <= c * c) by nra. split; nra.
Qed.
Lemma sc_lip a b : 0 <= a <= 10 -> 0 <= b <= 10 -> Rabs (sc a - sc b) <= 7 * Rabs (a - b).
Proof.
  assert (forall a b, 0 <= a < b -> b <= 10 -> Rabs (sc b - sc a) <= 7 * (b - a)) as K.
  { intros x y Hx Hy. destruct (Req_dec x 0) as [->|N]; [|apply sc_lip_lt; lra]. rewrite sc_0. pose proof (sc_abs y ltac:(lra)) as A. apply Rabs_le_inv in A. destruct (Rle_dec y 2) as [L|L].
    - pose proof (sc_near1 y ltac:(lra)) as B. cbn [pow] in B. apply Rabs_le. nra.
    - apply Rabs_le. lra. }
  intros Ha Hb. destruct (Rtotal_order a b) as [L|[ -> |L]].
  - rewrite (Rabs_minus_sym (sc a)), (Rabs_minus_sym a), (Rabs_pos_eq (b - a)) by lra. apply K; lra.
  - rewrite !Rminus_diag_eq by reflexivity. rewrite !Rabs_R0. lra.
  - rewrite (Rabs_pos_eq (a - b)) by lra. apply K; lra.
Qed.
Lemma sc_mid y : 0 <= y <= 15709 / 10000 -> 6364 / 10000 <= sc y.
Proof.
  intros H. destruct (Req_dec y 0) as [->|N]; [rewrite sc_0; lra|]. rewrite sc_pos by lra. pose proof pi_R. pose proof (sin_lo7 y ltac:(lra)) as E. apply (Rmult_le_reg_r y); [lra|]. unfold Rdiv at 2. rewrite Rmult_assoc, Rinv_l, Rmult_1_r by lra. eapply Rle_trans; [|exact E].
  replace (y - y ^ 3 / 6 + y ^ 5 / 120 - y ^ 7 / 5040) with ((1 - y * y / 6 + (y * y) * (y * y) / 120 - (y * y) * (y * y) * (y * y) / 5040) * y) by field. apply Rmult_le_compat_r; [lra|].
  assert (0 <= y * y <= 246773 / 100000) as Hs by nra. set (s := y * y) in *. clearbody s. assert (0 <= s * (246773 / 100000 - s)) by nra. nra.
Qed.
Lemma ring_bound t : 0 <= t <= 1 -> 0 <= - sc (PI * (1 + t)) <= 4 * (t * (1 - t) + 5 / 1000) / (PI * (1 + t)).
Proof.
  intros H. pose proof pi_R as HP. assert (0 < PI * (1 + t)) as Hp by nra. rewrite sc_pos by exact Hp. replace (PI * (1 + t)) with (PI * t + PI) at 1 3 by ring. rewrite neg_sin. replace (- (- sin (PI * t) / (PI * (1 + t)))) with (sin (PI * t) / (PI * (1 + t))) by (unfold Rdiv; ring).
  assert (0 <= sin (PI * t)) as S0 by (apply sin_ge_0; nra).
  assert (sin (PI * t) <= 4 * (t * (1 - t) + 5 / 1000)) as S1.
  { rewrite <- cos_shift. pose proof (cos_hi (PI / 2 - PI * t) ltac:(nra)) as C. eapply Rle_trans; [exact C|]. set (r := t - / 2). replace (PI / 2 - PI * t) with (- (PI * r)) by (unfold r; field). replace (t * (1 - t)) with (/ 4 - r * r) by (unfold r; field).
    replace ((- (PI * r)) ^ 2) with (PI * PI * (r * r)) by ring. replace ((- (PI * r)) ^ 4) with (PI * PI * (PI * PI) * (r * r) * (r * r)) by ring. assert (- / 2 <= r <= / 2) as Hr by (unfold r; lra). clearbody r. assert (0 <= r * r <= / 4) as Hs by (clear - Hr; split; nra). set (s := r * r) in *. clearbody s.
    assert (98696 / 10000 <= PI * PI <= 986961 / 100000) as HP2 by nra. set (q := PI * PI) in *. clearbody q. assert (q * q <= 974093 / 10000) as Hq by nra. assert (q * q * s * s <= 974093 / 10000 * (s * s)) by nra. assert (98696 / 10000 * s <= q * s) by nra. nra. }
  split; [apply Rmult_le_pos; [exact S0|apply Rlt_le, Rinv_0_lt_compat; exact Hp]|]. apply Rmult_le_compat_r; [apply Rlt_le, Rinv_0_lt_compat; exact Hp|exact S1].
Qed.
Lemma sc_sign y : 0 <= y <= 3 -> (y <= 1 \/ 2 <= y) -> 0 <= sc (PI * y).
Proof.
  intros H D. pose proof pi_R as HP. destruct (Req_dec y 0) as [->|N]; [rewrite Rmult_0_r, sc_0; lra|]. assert (0 < PI * y) as Hp by nra. rewrite sc_pos by exact Hp. apply Rmult_le_pos; [|apply Rlt_le, Rinv_0_lt_compat; exact Hp]. destruct D as [D|D].
  - apply sin_ge_0; nra.
  - replace (PI * y) with (PI * (y - 2) + 2 * INR 1 * PI) by (cbn [INR]; ring). rewrite sin_period. apply sin_ge_0; nra.
Qed.

(** ** Windows *)
Definition V (x : R) : R := 1 - x * x / 9.
Definition kk (x : R) : R := cos (PI * x / 6).
Lemma kk_01 x : 0 <= x <= 3 -> 0 <= kk x <= 1.
Proof. intros H. pose proof pi_R. split; [apply cos_ge_0; nra|apply COS_bound]. Qed.
Lemma kk_mid x : 0 <= x <= 50001 / 100000 -> 9657 / 10000 <= kk x.
Proof. intros H. pose proof pi_R. pose proof (cos_lo (PI * x / 6) ltac:(nra)) as C. fold (kk x) in C. assert (0 <= PI * x / 6 <= 261815 / 1000000) by nra. nra. Qed.
Lemma kk_V x : 1 <= x <= 2 -> 45 / 100 <= kk x <= V x.
Proof.
  intros H. pose proof pi_R as HP. assert (52359 / 100000 <= PI * x / 6 <= 10472 / 10000) as Hs by nra. split.
  - pose proof (cos_lo (PI * x / 6) ltac:(nra)) as C. fold (kk x) in C. nra.
  - pose proof (cos_hi (PI * x / 6) ltac:(nra)) as C. fold (kk x) in C. eapply Rle_trans; [exact C|]. unfold V.
    replace ((PI * x / 6) ^ 2) with (PI * PI * (x * x) / 36) by field. replace ((PI * x / 6) ^ 4) with (PI * PI * (PI * PI) * (x * x) * (x * x) / 1296) by field. assert (1 <= x * x <= 4) as Hq by nra. set (q := x * x) in *. clearbody q.
    assert (98696 / 10000 <= PI * PI <= 986961 / 100000) as HP2 by nra. set (p := PI * PI) in *. clearbody p. assert (p * p <= 974093 / 10000) by nra. assert (p * p * q * q <= 974093 / 10000 * (q * q)) by nra. assert (98696 / 10000 * q <= p * q) by nra. nra.
Qed.
Definition is_window (k c0 : R) (W : R -> R) : Prop := (forall x, 0 <= x <= 3 -> 0 <= W x <= 1) /\ (forall x, 1 <= x <= 2 -> W x <= k * V x) /\ (forall x, 0 <= x <= 50001 / 100000 -> c0 <= 6364 / 10000 * W x).
Notation W1 := (is_window 1 (5934 / 10000)).
Notation W2 := (is_window (78 / 100) (5301 / 10000)).
Lemma w_cosine : W1 kk.
Proof. split; [exact kk_01|]. split; intros x H; [pose proof (kk_V x H); lra|pose proof (kk_mid x H); lra]. Qed.
Lemma w_hann : W1 (fun x => kk x * kk x).
Proof. split; [|split]; intros x H; [pose proof (kk_01 x H); nra|pose proof (kk_V x H); pose proof (kk_01 x ltac:(lra)); nra|pose proof (kk_mid x H); nra]. Qed.
Lemma w_hamming : W1 (fun x => 8 / 100 + 92 / 100 * (kk x * kk x)).
Proof. split; [|split]; intros x H; [pose proof (kk_01 x H); nra|pose proof (kk_V x H); pose proof (kk_01 x ltac:(lra)); nra|pose proof (kk_mid x H); nra]. Qed.
Lemma w_blackman : W2 (fun x => 36 / 100 * (kk x * kk x) + 64 / 100 * (kk x * kk x) * (kk x * kk x)).
Proof.
  split; [|split]; intros x H.
  - pose proof (kk_01 x H). assert (0 <= kk x * kk x <= 1) by nra. nra.
  - pose proof (kk_V x H) as [A B]. assert (V x <= 8 / 9) as C by (unfold V; nra). set (k := kk x) in *. set (v := V x) in *. clearbody k v. assert (k * k <= 64 / 81) by nra. assert (k * (36 / 100 * k + 64 / 100 * k * (k * k)) <= k * (78 / 100)); [|nra]. apply Rmult_le_compat_l; [lra|]. nra.
  - pose proof (kk_mid x H). assert (9325 / 10000 <= kk x * kk x) by nra. nra.
Qed.
Lemma w_welch : W1 V.
Proof. split; [|split]; intros x H; unfold V; [split; nra|lra|nra]. Qed.
Lemma w_bartlett : W2 (fun x => (3 - x) / 3).
Proof. split; [|split]; intros x H; unfold V; try lra. assert (0 <= (3 - x) * (x - 1)) by nra. nra. Qed.
Lemma w_lanczos : W1 (fun x => sc (PI * (x / 3))).
Proof.
  pose proof pi_R as HP. split; [|split]; intros x H.
  - split; [apply sc_sign; lra|]. pose proof (sc_abs (PI * (x / 3)) ltac:(nra)) as A. apply Rabs_le_inv in A. lra.
  - pose proof (kk_V x H) as [A B]. rewrite sc_pos by nra. replace (PI * (x / 3)) with (2 * (PI * x / 6)) by field. rewrite sin_2a. fold (kk x). pose proof (sin_abs_le (PI * x / 6) ltac:(nra)) as S. apply Rabs_le_inv in S. assert (0 < PI * x / 6) as P by nra.
    replace (2 * sin (PI * x / 6) * kk x / (2 * (PI * x / 6))) with (kk x * (sin (PI * x / 6) / (PI * x / 6))) by (field; lra).
    assert (sin (PI * x / 6) / (PI * x / 6) <= 1). { apply (Rmult_le_reg_r (PI * x / 6)); [exact P|]. unfold Rdiv at 1. rewrite Rmult_assoc, Rinv_l by lra. lra. } nra.
  - assert (0 <= PI * (x / 3) <= 52365 / 100000) as P by nra. pose proof (sc_near1 (PI * (x / 3)) ltac:(lra)) as E. assert (PI * (x / 3) * (PI * (x / 3)) <= 27422 / 100000) by nra. cbn [pow] in E. lra.
Qed.

(** ** The ring from 1 to 2 *)
Definition Gr (k t : R) : R := k * (12733 / 10000 * (t * (1 - t) + 5 / 1000) * (/ (1 + t) - (1 + t) / 9)).
Lemma lobe_le k c0 W t : is_window k c0 W -> 0 < t < 1 -> - (sc (PI * (1 + t)) * W (1 + t)) <= Gr k t.
Proof.
  intros (W0 & WV & _) H. pose proof pi_R as HP. destruct (ring_bound t ltac:(lra)) as [R0 R1]. specialize (W0 (1 + t) ltac:(lra)). specialize (WV (1 + t) ltac:(lra)). unfold Gr.
  assert (0 <= V (1 + t)) as HV by (unfold V; nra). assert (0 <= t * (1 - t)) as Ht by nra. assert (0 < / (1 + t)) as Hi by (apply Rinv_0_lt_compat; lra).
  assert (4 * (t * (1 - t) + 5 / 1000) / (PI * (1 + t)) <= 12733 / 10000 * (t * (1 - t) + 5 / 1000) * / (1 + t)) as Q.
  { assert (4 * / PI <= 12733 / 10000) as Q1. { apply (Rmult_le_reg_r PI); [lra|]. rewrite Rmult_assoc, Rinv_l by lra. lra. }
    unfold Rdiv. rewrite Rinv_mult. replace (4 * (t * (1 - t) + 5 * / 1000) * (/ PI * / (1 + t))) with ((4 * / PI) * ((t * (1 - t) + 5 * / 1000) * / (1 + t))) by ring. replace (12733 * / 10000 * (t * (1 - t) + 5 * / 1000) * / (1 + t)) with ((12733 / 10000) * ((t * (1 - t) + 5 * / 1000) * / (1 + t))) by (unfold Rdiv; ring).
    apply Rmult_le_compat_r; [|exact Q1]. apply Rmult_le_pos; lra. }
  replace (- (sc (PI * (1 + t)) * W (1 + t))) with (- sc (PI * (1 + t)) * W (1 + t)) by ring.
  replace (k * (12733 / 10000 * (t * (1 - t) + 5 / 1000) * (/ (1 + t) - (1 + t) / 9))) with ((12733 / 10000 * (t * (1 - t) + 5 / 1000) * / (1 + t)) * (k * V (1 + t))) by (unfold V; field; lra).
  apply Rmult_le_compat; lra.
Qed.
Lemma chord1 t : 0 <= t <= 501 / 1000 -> / (1 + t) - (1 + t) / 9 <= 8 / 9 - 7 / 9 * t + / 1000.
Proof. intros H. apply (Rmult_le_reg_r (1 + t)); [lra|]. rewrite Rmult_minus_distr_r, Rinv_l by lra. nra. Qed.
Lemma chord2 t : 499 / 1000 <= t <= 1 -> / (1 + t) - (1 + t) / 9 <= 13 / 18 - 4 / 9 * t + / 1000.
Proof. intros H. apply (Rmult_le_reg_r (1 + t)); [lra|]. rewrite Rmult_minus_distr_r, Rinv_l by lra. nra. Qed.
Lemma ring_pos t : 0 < t < 1 -> 0 <= / (1 + t) - (1 + t) / 9.
Proof. intros H. apply (Rmult_le_reg_r (1 + t)); [lra|]. rewrite Rmult_minus_distr_r, Rinv_l by lra. nra. Qed.
Lemma ring_one t : 0 < t < 1 -> 12733 / 10000 * (t * (1 - t) + 5 / 1000) * (/ (1 + t) - (1 + t) / 9) <= 184 / 1000.
Proof.
  intros H. pose proof (ring_pos t H) as P. assert (0 <= t * (1 - t) <= / 4) as Q by (clear - H; split; [nra|pose proof (Rle_0_sqr (t - / 2)) as S; unfold Rsqr in S; lra]). destruct (Rle_dec t (/ 2)) as [L|L].
  - pose proof (chord1 t ltac:(lra)) as C. set (r := / (1 + t) - (1 + t) / 9) in *. clearbody r. rewrite Rmult_assoc. assert ((t * (1 - t) + 5 / 1000) * r <= (t * (1 - t) + 5 / 1000) * (8 / 9 - 7 / 9 * t + / 1000)) as E by (apply Rmult_le_compat_l; lra).
    assert (0 <= (t - 35 / 100) * (t - 35 / 100) * (1 - 7 / 9 * t)) as N1 by (apply Rmult_le_pos; [apply Rle_0_sqr|lra]). assert (0 <= (t - 35 / 100) * (t - 35 / 100)) as N2 by apply Rle_0_sqr. nra.
  - pose proof (chord2 t ltac:(lra)) as C. assert (/ (1 + t) - (1 + t) / 9 <= 502 / 1000) as C2 by lra. set (r := / (1 + t) - (1 + t) / 9) in *. clearbody r. nra.
Qed.
Lemma ring_two a b : 0 < a < 1 -> 0 < b < 1 -> a + / 2 - / 16777216 <= b ->
  12733 / 10000 * (a * (1 - a) + 5 / 1000) * (/ (1 + a) - (1 + a) / 9) + 12733 / 10000 * (b * (1 - b) + 5 / 1000) * (/ (1 + b) - (1 + b) / 9) <= 275 / 1000.
Proof.
  intros Ha Hb H. pose proof (chord1 a ltac:(lra)) as C1. pose proof (chord2 b ltac:(lra)) as C2. assert (0 <= a * (1 - a)) as A0 by nra. assert (0 <= b * (1 - b)) as B0 by nra. pose proof (ring_pos b Hb) as P2.
  set (r := / (1 + a) - (1 + a) / 9) in *. set (s := / (1 + b) - (1 + b) / 9) in *. clearbody r s. rewrite !Rmult_assoc.
  assert ((a * (1 - a) + 5 / 1000) * r <= (a * (1 - a) + 5 / 1000) * (8 / 9 - 7 / 9 * a + / 1000)) as E1 by (apply Rmult_le_compat_l; lra).
  assert (b * (1 - b) <= 251 / 1000 - a * a) as Q.
  { replace (b * (1 - b)) with (/ 4 - (b - / 2) * (b - / 2)) by field. assert (a * a - / 1000 <= (b - / 2) * (b - / 2)); [|lra]. destruct (Rle_dec a (/ 10000)) as [L|L]; [pose proof (Rle_0_sqr (b - / 2)) as S; unfold Rsqr in S; nra|]. assert (a - / 16777216 <= b - / 2) as D by lra. nra. }
  assert ((b * (1 - b) + 5 / 1000) * s <= (256 / 1000 - a * a) * (502 / 1000 - 4 / 9 * a)) as E2 by (apply Rmult_le_compat; lra).
  assert (0 <= (a - 22 / 100) * (a - 22 / 100) * (1 - 11 / 9 * a)) as N1 by (apply Rmult_le_pos; [apply Rle_0_sqr|lra]). assert (0 <= (a - 22 / 100) * (a - 22 / 100)) as N2 by apply Rle_0_sqr.
  assert ((a * (1 - a) + 5 / 1000) * (8 / 9 - 7 / 9 * a + / 1000) + (256 / 1000 - a * a) * (502 / 1000 - 4 / 9 * a) <= 215 / 1000) by lra. lra.
Qed.
