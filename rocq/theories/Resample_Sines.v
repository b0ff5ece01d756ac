(** The kernels of the filters with sines and cosines. *)
From Coq Require Import ZArith List Bool Lia Reals Lra Psatz.
From Flocq Require Import Core BinarySingleNaN.
From Verif Require Import GoInt GoFloat Image_Model Pixel_Model Resample_Model Resample_Spec Resample_Err Resample_Mix Resample_Weights Resample_Place Resample_Classes Resample_Kernels Resample_Lobes Resample_Trig.
Import ListNotations.
Local Open Scope R_scope.

Lemma near_divn n f x k X : (1 <= n <= 1000)%Z -> near f x k -> Rabs x <= X -> 0 <= k <= 10000 -> 0 <= X <= 1000 -> near (fdiv f (of_int n)) (x / IZR n) (k / IZR n + X / IZR n + 1).
Proof.
  intros Hn (x' & Hx & Ex) HX Hk HX1. pose proof u_small as Hu. assert (1 <= IZR n) as HnR by (apply IZR_le; lia). assert (0 < / IZR n <= 1) as Hi. { split; [apply Rinv_0_lt_compat; lra|]. apply (Rmult_le_reg_r (IZR n)); [lra|]. rewrite Rinv_l; lra. }
  assert (Rabs (x' / IZR n - x / IZR n) <= k / IZR n * u) as E. { replace (x' / IZR n - x / IZR n) with ((x' - x) * / IZR n) by (field; lra). rewrite Rabs_mult, (Rabs_pos_eq (/ IZR n)) by lra. unfold Rdiv. replace (k * / IZR n * u) with (k * u * / IZR n) by ring. apply Rmult_le_compat_r; lra. }
  assert (Rabs (x / IZR n) <= X / IZR n) as Hx6. { unfold Rdiv. rewrite Rabs_mult, (Rabs_pos_eq (/ IZR n)) by lra. apply Rmult_le_compat_r; lra. }
  assert (0 <= k / IZR n <= 10000) as K1 by (unfold Rdiv; split; nra). assert (0 <= X / IZR n <= 1000) as X1 by (unfold Rdiv; split; nra).
  assert (val (fdiv f (of_int n)) (R64 (x' / IZR n))) as V. { apply val_div; [exact Hx|apply val_int; change (2 ^ 53)%Z with 9007199254740992%Z; lia|lra|]. apply huge. replace (x' / IZR n) with ((x' / IZR n - x / IZR n) + x / IZR n) by ring. eapply Rle_trans; [apply Rabs_triang|]. nra. }
  eapply near_weak; [exact (near_round _ _ _ _ V E (X / IZR n) Hx6 ltac:(lra) ltac:(lra))|]. lra.
Qed.
Lemma pi_val : val pi p64.
Proof.
  split; [vm_compute; reflexivity|]. rewrite <- SF2R_B2SF. assert (B2SF pi = SpecFloat.S754_finite false 7074237752028440 (-51)) as -> by (vm_compute; reflexivity). unfold SF2R, F2R, p64. cbn [cond_Zopp Fnum Fexp bpow]. change (Z.pow_pos radix2 51) with 2251799813685248%Z. lra.
Qed.
Lemma pi_near6 : near pi PI 6.
Proof. exists p64. split; [exact pi_val|]. pose proof pi_near. rewrite u_val. lra. Qed.
Section sines.
Variable M : mathf.
Hypothesis HM : trig_ok M.
Notation i := of_int.
Lemma near_cos f t k : near f t k -> Rabs t <= 15 -> 0 <= k <= 10000 -> near (Cos M f) (cos t) (k + 256).
Proof.
  intros (t' & Ht & Et) H15 Hk. pose proof u_small as Hu. assert (Rabs t' <= 16) as T. { replace t' with ((t' - t) + t) by ring. eapply Rle_trans; [apply Rabs_triang|]. nra. }
  destruct (HM _ _ Ht T) as [_ (y & Vy & Ey)]. exists y. split; [exact Vy|]. replace (y - cos t) with ((y - cos t') + (cos t' - cos t)) by ring. eapply Rle_trans; [apply Rabs_triang|]. pose proof (cos_lip t' t). rewrite u_val in *. lra.
Qed.
Lemma pix_near f x k : near f x k -> 0 <= x <= 3 -> 0 <= k <= 100 -> near (fmul pi f) (PI * x) (4 * k + 31).
Proof.
  intros Hf Hx Hk. pose proof pi_R. eapply near_weak; [apply (near_mul _ _ _ _ 6 k 4 3 pi_near6 Hf); try (apply Rabs_le; lra); try lra|]; lra.
Qed.
Lemma near_sinc g x : val g x -> 0 <= x <= 3 -> near (sinc M g) (sc (PI * x)) 480.
Proof.
  intros Hg Hx. pose proof u_small as Hu. pose proof pi_R as HP. unfold sinc. rewrite (val_eq _ _ _ _ Hg v0). destruct (Req_bool_spec x 0) as [ -> |N].
  { rewrite Rmult_0_r, sc_0. eapply near_weak; [apply near_val, v1|lra]. }
  assert (val (fmul pi g) (R64 (p64 * x))) as VP. { apply val_mul; [exact pi_val|exact Hg|]. apply huge. unfold p64. apply Rabs_le. lra. }
  assert (x <= R64 (p64 * x)) as Pos. { destruct Hg as [_ Hg]. assert (R64 x = x) as Rx by (rewrite <- Hg; apply round_generic; [apply valid_rnd_round_mode|apply generic_format_B2R]). rewrite <- Rx at 1. apply R64_mono. unfold p64. lra. }
  destruct (pix_near g x 0 (near_val _ _ Hg) Hx ltac:(lra)) as (P & HPv & EP). rewrite (val_unique _ _ _ VP HPv) in Pos. apply Rabs_le_inv in EP as EP'. assert (0 < P <= 10) as HPr by nra.
  destruct (HM _ _ HPv ltac:(rewrite Rabs_pos_eq; lra)) as [(Y & VY & EY) _]. rewrite (Rabs_pos_eq P) in EY by lra.
  assert (Rabs (Y / P - sc P) <= 256 * u) as E1. { rewrite sc_pos by lra. replace (Y / P - sin P / P) with ((Y - sin P) * / P) by (field; lra). rewrite Rabs_mult, (Rabs_pos_eq (/ P)) by (apply Rlt_le, Rinv_0_lt_compat; lra). apply (Rmult_le_reg_r P); [lra|]. rewrite Rmult_assoc, Rinv_l by lra. rewrite u_val. lra. }
  pose proof (sc_lip P (PI * x) ltac:(lra) ltac:(nra)) as E2. pose proof (sc_abs (PI * x) ltac:(nra)) as A.
  assert (Rabs (Y / P - sc (PI * x)) <= 473 * u) as E. { replace (Y / P - sc (PI * x)) with ((Y / P - sc P) + (sc P - sc (PI * x))) by ring. eapply Rle_trans; [apply Rabs_triang|]. lra. }
  assert (val (fdiv (Sin M (fmul pi g)) (fmul pi g)) (R64 (Y / P))) as V. { apply val_div; [exact VY|exact HPv|lra|]. apply huge. replace (Y / P) with ((Y / P - sc (PI * x)) + sc (PI * x)) by ring. eapply Rle_trans; [apply Rabs_triang|]. lra. }
  eapply near_weak; [exact (near_round _ _ _ _ V E 1 A ltac:(lra) ltac:(lra))|]. lra.
Qed.
(** sin(pi x)/(pi x) times a window. *)
Lemma near_product g x w W : val g x -> 0 <= x <= 3 -> near w W 700 -> 0 <= W <= 1 -> near (fmul (sinc M g) w) (sc (PI * x) * W) 1200.
Proof.
  intros Hg Hx Hw HW. pose proof pi_R. eapply near_weak; [apply (near_mul _ _ _ _ 480 700 1 1 (near_sinc g x Hg Hx) Hw); [apply sc_abs; nra|apply Rabs_le; lra|..]; lra|lra].
Qed.
Lemma ringed_of K k c0 W : 0 <= k <= 1 -> is_window k c0 W -> 552 / 940 * k <= c0 - / 100000 -> / 4 <= c0 - / 100000 -> (forall g x, val g x -> 0 <= x <= 3 -> near (K g) (sc (PI * x) * W x) 1300) ->
  ringed_kernel (c0 - / 100000) (184 / 1000 * k) (275 / 1000 * k) (Gr k) (Filter (of_int 3) (within (of_int 3) K)).
Proof.
  intros Hk HW H0 H4 HK. pose proof u_small as Hu. pose proof pi_R as HP. assert (val (of_int 3) 3) as v3 by (apply val_int; cbn; lia). split; [exists 3; split; [exact v3|lra]|]. split; [exact H4|]. split; [lra|]. split; [lra|]. split; [lra|]. split; [|split].
  - intros a Ha. unfold Gr. pose proof (ring_one a Ha). rewrite (Rmult_comm k). apply Rmult_le_compat_r; lra.
  - intros a b Ha Hb Hab. unfold Gr. pose proof (ring_two a b Ha Hb Hab). rewrite <- Rmult_plus_distr_l, (Rmult_comm k). apply Rmult_le_compat_r; lra.
  - intros g x Hg _. cbn [Kernel]. unfold within. cbn zeta. pose proof (val_abs _ _ Hg) as Ha. rewrite (val_lt _ _ _ _ Ha v3). pose proof (Rabs_pos x) as Hp. destruct (Rlt_bool_spec (Rabs x) 3) as [L|L].
    2: { exists 0. split; [exact v0|]. split; [rewrite Rabs_R0; lra|]. split; [lra|left; lra]. }
    set (a := Rabs x) in *. destruct (HK (fabs g) a Ha ltac:(lra)) as (y & Vy & E). exists y. split; [exact Vy|]. apply Rabs_le_inv in E. assert (1300 * u <= / 2199023255552) as Tiny by (rewrite u_val; lra).
    pose proof (sc_abs (PI * a) ltac:(nra)) as A. apply Rabs_le_inv in A. destruct HW as (W0 & WV & Wm). specialize (W0 a ltac:(lra)) as Wa. assert (-1 <= sc (PI * a) * W a <= 1) as B by (split; nra).
    split; [apply Rabs_le; lra|]. split.
    + intros H. specialize (Wm a ltac:(lra)). pose proof (sc_mid (PI * a) ltac:(nra)) as C. assert (6364 / 10000 * W a <= sc (PI * a) * W a) by (apply Rmult_le_compat_r; lra). lra.
    + assert ((a <= 1 \/ 2 <= a) \/ 1 < a < 2) as [C|C] by lra.
      * left. pose proof (sc_sign a ltac:(lra) C) as Sg. assert (0 <= sc (PI * a) * W a) by (apply Rmult_le_pos; lra). lra.
      * right. split; [exact C|]. pose proof (lobe_le k c0 W (a - 1) (conj W0 (conj WV Wm)) ltac:(lra)) as G. replace (1 + (a - 1)) with a in G by ring. lra.
Qed.
Lemma third_near g x : val g x -> 0 <= x <= 3 -> near (fdiv g (i 3)) (x / 3) 2.
Proof. intros Hg Hx. eapply near_weak; [apply (near_divn 3 g x 0 3 ltac:(lia) (near_val _ _ Hg)); try lra; apply Rabs_le; lra|lra]. Qed.
Lemma theta_near g x : val g x -> 0 <= x <= 3 -> near (fdiv (fmul pi g) (i 3)) (PI * x / 3) 15 /\ 0 <= PI * x / 3 <= 4.
Proof.
  intros Hg Hx. pose proof pi_R. split; [|split; nra]. eapply near_weak; [apply (near_divn 3 _ (PI * x) _ 10 ltac:(lia) (pix_near g x 0 (near_val _ _ Hg) Hx ltac:(lra))); try lra; apply Rabs_le; split; nra|lra].
Qed.
Lemma cos_double s : cos (2 * s) = 2 * (cos s * cos s) - 1. Proof. rewrite cos_2a_cos. ring. Qed.
Lemma cos_theta x : cos (PI * x / 3) = 2 * (kk x * kk x) - 1.
Proof. replace (PI * x / 3) with (2 * (PI * x / 6)) by field. apply cos_double. Qed.
Ltac cosb := apply Rabs_le; apply COS_bound.
Lemma cosine_ok : ringed_kernel (5934 / 10000 - / 100000) (184 / 1000 * 1) (275 / 1000 * 1) (Gr 1) (Cosine M).
Proof.
  apply (ringed_of _ 1 (5934 / 10000) kk); try lra; [exact w_cosine|]. intros g x Hg Hx. apply near_weak with 1200; [|lra]. apply near_product; [exact Hg|exact Hx| |apply kk_01; exact Hx]. pose proof pi_R.
  assert (near (fdiv pi (i 2)) (PI / 2) 6) as N1 by (eapply near_weak; [apply (near_divn 2 _ _ 6 4 ltac:(lia) pi_near6); try lra; apply Rabs_le; lra|lra]).
  assert (near (fmul (fdiv pi (i 2)) (fdiv g (i 3))) (PI / 2 * (x / 3)) 20) as N2 by (eapply near_weak; [apply (near_mul _ _ _ _ 6 2 2 1 N1 (third_near g x Hg Hx)); try lra; apply Rabs_le; lra|lra]).
  eapply near_weak; [|shelve]. unfold kk. replace (PI * x / 6) with (PI / 2 * (x / 3)) by field. apply (near_cos _ _ _ N2); [apply Rabs_le; split; nra|lra]. Unshelve. lra.
Qed.
Lemma hann_ok : ringed_kernel (5934 / 10000 - / 100000) (184 / 1000 * 1) (275 / 1000 * 1) (Gr 1) (Hann M).
Proof.
  apply (ringed_of _ 1 (5934 / 10000) (fun x => kk x * kk x)); try lra; [exact w_hann|]. intros g x Hg Hx. apply near_weak with 1200; [|lra]. apply near_product; [exact Hg|exact Hx| |apply w_hann; exact Hx].
  destruct (theta_near g x Hg Hx) as [N1 B1]. pose proof (near_cos _ _ _ N1 ltac:(apply Rabs_le; lra) ltac:(lra)) as N2.
  pose proof (near_mul _ _ _ _ 0 _ (/ 2) 1 (near_val _ _ val_half) N2 ltac:(apply Rabs_le; lra) ltac:(cosb) ltac:(lra) ltac:(lra) ltac:(lra) ltac:(lra) ltac:(lra)) as N3.
  pose proof (COS_bound (PI * x / 3)) as CB.
  pose proof (near_add _ _ _ _ 0 _ (/ 2) (/ 2) (near_val _ _ val_half) N3 ltac:(apply Rabs_le; lra) ltac:(apply Rabs_le; lra) ltac:(lra) ltac:(lra) ltac:(lra) ltac:(lra)) as N4.
  rewrite cos_theta in N4. replace (kk x * kk x) with (/ 2 + / 2 * (2 * (kk x * kk x) - 1)) by field. eapply near_weak; [exact N4|lra].
Qed.
Lemma near_hundredths n : (0 <= n <= 100)%Z -> near (hundredths n) (IZR n / 100) 3.
Proof. intros Hn. unfold hundredths. assert (0 <= IZR n <= 100) as R by (split; apply IZR_le; lia). eapply near_weak; [apply (near_divn 100 _ _ 0 100 ltac:(lia) (near_int n ltac:(lia))); try lra; apply Rabs_le; lra|lra]. Qed.
Lemma hamming_ok : ringed_kernel (5934 / 10000 - / 100000) (184 / 1000 * 1) (275 / 1000 * 1) (Gr 1) (Hamming M).
Proof.
  apply (ringed_of _ 1 (5934 / 10000) (fun x => 8 / 100 + 92 / 100 * (kk x * kk x))); try lra; [exact w_hamming|]. intros g x Hg Hx. apply near_weak with 1200; [|lra]. apply near_product; [exact Hg|exact Hx| |apply w_hamming; exact Hx].
  destruct (theta_near g x Hg Hx) as [N1 B1]. pose proof (near_cos _ _ _ N1 ltac:(apply Rabs_le; lra) ltac:(lra)) as N2.
  pose proof (near_mul _ _ _ _ 3 _ 1 1 (near_hundredths 46 ltac:(lia)) N2 ltac:(apply Rabs_le; lra) ltac:(cosb) ltac:(lra) ltac:(lra) ltac:(lra) ltac:(lra) ltac:(lra)) as N3.
  pose proof (COS_bound (PI * x / 3)) as CB.
  pose proof (near_add _ _ _ _ 3 _ 1 1 (near_hundredths 54 ltac:(lia)) N3 ltac:(apply Rabs_le; lra) ltac:(apply Rabs_le; lra) ltac:(lra) ltac:(lra) ltac:(lra) ltac:(lra)) as N4.
  rewrite cos_theta in N4. replace (8 / 100 + 92 / 100 * (kk x * kk x)) with (54 / 100 + 46 / 100 * (2 * (kk x * kk x) - 1)) by field. eapply near_weak; [exact N4|lra].
Qed.
Lemma blackman_ok : ringed_kernel (5301 / 10000 - / 100000) (184 / 1000 * (78 / 100)) (275 / 1000 * (78 / 100)) (Gr (78 / 100)) (Blackman M).
Proof.
  apply (ringed_of _ (78 / 100) (5301 / 10000) (fun x => 36 / 100 * (kk x * kk x) + 64 / 100 * (kk x * kk x) * (kk x * kk x))); try lra; [exact w_blackman|]. intros g x Hg Hx. apply near_weak with 1200; [|lra]. apply near_product; [exact Hg|exact Hx| |apply w_blackman; exact Hx].
  destruct (theta_near g x Hg Hx) as [N1 B1]. pose proof pi_R as HP.
  pose proof (near_add _ _ _ _ _ 6 4 4 N1 pi_near6 ltac:(apply Rabs_le; lra) ltac:(apply Rabs_le; lra) ltac:(lra) ltac:(lra) ltac:(lra) ltac:(lra)) as N2.
  pose proof (near_cos _ _ _ N2 ltac:(apply Rabs_le; lra) ltac:(lra)) as N3. rewrite neg_cos in N3. pose proof (COS_bound (PI * x / 3)) as CB.
  pose proof (near_mul _ _ _ _ 0 _ (/ 2) 1 (near_val _ _ val_half) N3 ltac:(apply Rabs_le; lra) ltac:(apply Rabs_le; lra) ltac:(lra) ltac:(lra) ltac:(lra) ltac:(lra) ltac:(lra)) as N4.
  pose proof (near_sub _ _ _ _ 3 _ 1 (/ 2) (near_hundredths 42 ltac:(lia)) N4 ltac:(apply Rabs_le; lra) ltac:(apply Rabs_le; lra) ltac:(lra) ltac:(lra) ltac:(lra) ltac:(lra)) as N5.
  pose proof (near_mul _ _ _ _ 0 6 2 4 (near_int 2 ltac:(lia)) pi_near6 ltac:(apply Rabs_le; lra) ltac:(apply Rabs_le; lra) ltac:(lra) ltac:(lra) ltac:(lra) ltac:(lra) ltac:(lra)) as Q1.
  pose proof (near_mul _ _ _ _ _ 0 7 3 Q1 (near_val _ _ Hg) ltac:(apply Rabs_le; lra) ltac:(apply Rabs_le; lra) ltac:(lra) ltac:(lra) ltac:(lra) ltac:(lra) ltac:(lra)) as Q2.
  pose proof (near_divn 3 _ _ _ 21 ltac:(lia) Q2 ltac:(apply Rabs_le; split; nra) ltac:(lra) ltac:(lra)) as Q3.
  pose proof (near_cos _ _ _ Q3 ltac:(apply Rabs_le; split; nra) ltac:(lra)) as Q4. replace (2 * PI * x / 3) with (2 * (PI * x / 3)) in Q4 by field. rewrite cos_double in Q4.
  pose proof (COS_bound (2 * (PI * x / 3))) as CB2. rewrite cos_double in CB2.
  pose proof (near_mul _ _ _ _ 3 _ 1 1 (near_hundredths 8 ltac:(lia)) Q4 ltac:(apply Rabs_le; lra) ltac:(apply Rabs_le; lra) ltac:(lra) ltac:(lra) ltac:(lra) ltac:(lra) ltac:(lra)) as Q5.
  pose proof (near_add _ _ _ _ _ _ 1 1 N5 Q5 ltac:(apply Rabs_le; lra) ltac:(apply Rabs_le; lra) ltac:(lra) ltac:(lra) ltac:(lra) ltac:(lra)) as N6.
  rewrite cos_theta in N6. match type of N6 with near _ ?e _ => replace e with (36 / 100 * (kk x * kk x) + 64 / 100 * (kk x * kk x) * (kk x * kk x)) in N6 by field end. eapply near_weak; [exact N6|lra].
Qed.
Lemma welch_ok : ringed_kernel (5934 / 10000 - / 100000) (184 / 1000 * 1) (275 / 1000 * 1) (Gr 1) (Welch M).
Proof.
  apply (ringed_of _ 1 (5934 / 10000) V); try lra; [exact w_welch|]. intros g x Hg Hx. apply near_weak with 1200; [|lra]. apply near_product; [exact Hg|exact Hx| |apply w_welch; exact Hx]. pose proof (near_val _ _ Hg) as N0.
  pose proof (near_mul _ _ _ _ 0 0 3 3 N0 N0 ltac:(apply Rabs_le; lra) ltac:(apply Rabs_le; lra) ltac:(lra) ltac:(lra) ltac:(lra) ltac:(lra) ltac:(lra)) as N1.
  pose proof (near_divn 9 _ _ _ 9 ltac:(lia) N1 ltac:(apply Rabs_le; split; nra) ltac:(lra) ltac:(lra)) as N2.
  pose proof (near_sub _ _ _ _ 0 _ 1 1 (near_int 1 ltac:(lia)) N2 ltac:(apply Rabs_le; lra) ltac:(apply Rabs_le; split; nra) ltac:(lra) ltac:(lra) ltac:(lra) ltac:(lra)) as N3.
  unfold V. eapply near_weak; [exact N3|lra].
Qed.
Lemma lanczos_ok : ringed_kernel (5934 / 10000 - / 100000) (184 / 1000 * 1) (275 / 1000 * 1) (Gr 1) (LanczosFilter M).
Proof.
  apply (ringed_of _ 1 (5934 / 10000) (fun x => sc (PI * (x / 3)))); try lra; [exact w_lanczos|]. intros g x Hg Hx. apply near_weak with 1200; [|lra]. apply near_product; [exact Hg|exact Hx| |apply w_lanczos; exact Hx]. pose proof pi_R as HP. pose proof u_small as Hu.
  assert (val (fdiv g (i 3)) (R64 (x / 3))) as V3. { apply val_div; [exact Hg|apply val_int; cbn; lia|lra|]. apply huge. apply Rabs_le. lra. }
  destruct (third_near g x Hg Hx) as (t & Vt & Et). assert (0 <= t <= 1) as Ht. { rewrite <- (val_unique _ _ _ V3 Vt). split; [apply R64_nonneg; lra|apply (R64_le_int _ 1); [cbn; lia|lra]]. }
  destruct (near_sinc _ t Vt ltac:(lra)) as (y & Vy & Ey). exists y. split; [exact Vy|]. pose proof (sc_lip (PI * t) (PI * (x / 3)) ltac:(split; nra) ltac:(split; nra)) as L. rewrite <- Rmult_minus_distr_l, Rabs_mult, (Rabs_pos_eq PI) in L by lra.
  replace (y - sc (PI * (x / 3))) with ((y - sc (PI * t)) + (sc (PI * t) - sc (PI * (x / 3)))) by ring. eapply Rle_trans; [apply Rabs_triang|]. pose proof (Rabs_pos (t - x / 3)). assert (PI * Rabs (t - x / 3) <= 4 * (2 * u)) by nra. lra.
Qed.
Lemma bartlett_ok : ringed_kernel (5301 / 10000 - / 100000) (184 / 1000 * (78 / 100)) (275 / 1000 * (78 / 100)) (Gr (78 / 100)) (Bartlett M).
Proof.
  apply (ringed_of _ (78 / 100) (5301 / 10000) (fun x => (3 - x) / 3)); try lra; [exact w_bartlett|]. intros g x Hg Hx. pose proof pi_R as HP.
  pose proof (near_sub _ _ _ _ 0 0 3 3 (near_int 3 ltac:(lia)) (near_val _ _ Hg) ltac:(apply Rabs_le; lra) ltac:(apply Rabs_le; lra) ltac:(lra) ltac:(lra) ltac:(lra) ltac:(lra)) as N1.
  pose proof (sc_abs (PI * x) ltac:(nra)) as A.
  pose proof (near_mul _ _ _ _ 480 _ 1 3 (near_sinc g x Hg Hx) N1 A ltac:(apply Rabs_le; lra) ltac:(lra) ltac:(lra) ltac:(lra) ltac:(lra) ltac:(lra)) as N2.
  pose proof (near_divn 3 _ _ _ 3 ltac:(lia) N2 ltac:(rewrite Rabs_mult, (Rabs_pos_eq (3 - x)) by lra; pose proof (Rabs_pos (sc (PI * x))); nra) ltac:(lra) ltac:(lra)) as N3.
  replace (sc (PI * x) * ((3 - x) / 3)) with (sc (PI * x) * (3 - x) / 3) by field. eapply near_weak; [exact N3|lra].
Qed.
End sines.
