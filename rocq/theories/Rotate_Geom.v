(** Sines, cosines, sizes and places in float64. *)
From Coq Require Import ZArith List Bool Lia ZifyBool Reals Lra Psatz.
From Flocq Require Import Core BinarySingleNaN.
From Verif Require Import GoInt GoFloat Image_Model Pixel_Model Pixel_Spec Resample_Model Resample_Spec Resample_Err Resample_Proofs Resample_Trig Resample_Sines Rotate_Model Rotate_Spec.
Import ListNotations.
Local Open Scope R_scope.

(** ** Whole turns *)
Lemma turn_sin_cos x k : sin (x + 2 * IZR k * PI) = sin x /\ cos (x + 2 * IZR k * PI) = cos x.
Proof.
  destruct (Z_le_gt_dec 0 k) as [H|H].
  - replace (IZR k) with (INR (Z.to_nat k)) by (rewrite INR_IZR_INZ, Z2Nat.id by exact H; reflexivity). split; [apply sin_period|apply cos_period].
  - set (y := x + 2 * IZR k * PI). replace x with (y + 2 * INR (Z.to_nat (- k)) * PI); [split; symmetry; [apply sin_period|apply cos_period]|].
    rewrite INR_IZR_INZ, Z2Nat.id by lia. rewrite opp_IZR. unfold y. ring.
Qed.
Lemma rad_mod d : sin (rad d) = sin (rad (d mod 360)) /\ cos (rad d) = cos (rad (d mod 360)).
Proof.
  assert (rad d = rad (d mod 360) + 2 * IZR (d / 360) * PI) as ->; [|apply turn_sin_cos]. unfold rad. pose proof (Z.div_mod d 360 ltac:(lia)) as E. rewrite E at 1. rewrite plus_IZR, mult_IZR. field.
Qed.

(** ** Numbers of a known error *)
Definition app (f : f64) (x e : R) : Prop := exists y, val f y /\ Rabs (y - x) <= e.
Definition eps : R := / 2000000000.
Lemma eps_round x : Rabs x <= 4000000 -> Rabs (R64 x - x) <= eps.
Proof. intros H. pose proof (R64_bound x 4000000 H) as E. pose proof u_small. unfold h in E. unfold eps. apply Rabs_le. lra. Qed.
Lemma app_val f x : val f x -> app f x 0.
Proof. intros V. exists x. split; [exact V|]. rewrite Rminus_eq_0, Rabs_R0. lra. Qed.
Lemma app_int z : (Z.abs z <= 4000000)%Z -> app (of_int z) (IZR z) 0.
Proof. intros H. apply app_val, val_int. change (2 ^ 53)%Z with 9007199254740992%Z. lia. Qed.
Lemma app_add f g x y d e : app f x d -> app g y e -> Rabs (x + y) + d + e <= 4000000 -> app (fadd f g) (x + y) (d + e + eps).
Proof.
  intros (a & Va & Ea) (b & Vb & Eb) H. apply Rabs_le_inv in Ea, Eb. assert (Rabs (a + b) <= 4000000) as B. { apply Rabs_le. pose proof (Rle_abs (x + y)). pose proof (Rle_abs (- (x + y))) as N. rewrite Rabs_Ropp in N. lra. }
  exists (R64 (a + b)). split; [apply val_add; [exact Va|exact Vb|apply huge; lra]|]. pose proof (eps_round _ B) as E. apply Rabs_le_inv in E. apply Rabs_le. lra.
Qed.
Lemma app_sub f g x y d e : app f x d -> app g y e -> Rabs (x - y) + d + e <= 4000000 -> app (fsub f g) (x - y) (d + e + eps).
Proof.
  intros (a & Va & Ea) (b & Vb & Eb) H. apply Rabs_le_inv in Ea, Eb. assert (Rabs (a - b) <= 4000000) as B. { apply Rabs_le. pose proof (Rle_abs (x - y)). pose proof (Rle_abs (- (x - y))) as N. rewrite Rabs_Ropp in N. lra. }
  exists (R64 (a - b)). split; [apply val_sub; [exact Va|exact Vb|apply huge; lra]|]. pose proof (eps_round _ B) as E. apply Rabs_le_inv in E. apply Rabs_le. lra.
Qed.
(** A factor that is a sine or a cosine. *)
Lemma app_mul f g x y d e X : app f x d -> app g y e -> Rabs x <= X -> Rabs y <= 1 -> 0 <= d <= / 1000 -> 0 <= e <= / 1000000 -> X <= 2000000 -> app (fmul f g) (x * y) (2 * d + X * e + eps).
Proof.
  intros (a & Va & Ea) (b & Vb & Eb) Hx Hy Hd He HX. assert (Rabs (a * b - x * y) <= 2 * d + X * e) as E.
  { replace (a * b - x * y) with ((a - x) * b + x * (b - y)) by ring. eapply Rle_trans; [apply Rabs_triang|]. rewrite !Rabs_mult. assert (Rabs b <= 2). { replace b with ((b - y) + y) by ring. eapply Rle_trans; [apply Rabs_triang|]. lra. }
    apply Rplus_le_compat; [rewrite (Rmult_comm 2)|]; apply Rmult_le_compat; try apply Rabs_pos; assumption. }
  assert (Rabs (x * y) <= 2000000) as P. { rewrite Rabs_mult. pose proof (Rabs_pos x). pose proof (Rabs_pos y). nra. }
  assert (X * e <= 2000000 * / 1000000) by (pose proof (Rabs_pos x); apply Rmult_le_compat; lra).
  assert (Rabs (a * b) <= 4000000) as B. { replace (a * b) with ((a * b - x * y) + x * y) by ring. eapply Rle_trans; [apply Rabs_triang|]. lra. }
  exists (R64 (a * b)). split; [apply val_mul; [exact Va|exact Vb|apply huge; lra]|]. pose proof (eps_round _ B) as R. apply Rabs_le_inv in R, E. apply Rabs_le. lra.
Qed.
Lemma app_weak f x d e : app f x d -> d <= e -> app f x e.
Proof. intros (y & V & E) H. exists y. split; [exact V|lra]. Qed.

(** ** The sine and the cosine *)
Lemma radians_ok angle d : val angle (IZR d) -> (0 <= d < 360)%Z -> exists t, val (radians angle) t /\ Rabs (t - rad d) <= / 100000000000000 /\ Rabs t <= 6284 / 1000.
Proof.
  intros V Hd. assert (0 <= IZR d <= 360) as B by (split; apply IZR_le; lia). pose proof pi_near as P. apply Rabs_le_inv in P. pose proof pi_R as PR. pose proof u_small as Hu.
  assert (0 <= p64 * IZR d <= 1131) as B1 by (unfold p64; lra). pose proof (R64_bound (p64 * IZR d) 1131 ltac:(apply Rabs_le; lra)) as E1. unfold h in E1. set (a := R64 (p64 * IZR d)) in *.
  assert (0 <= a) as A0 by (apply R64_nonneg; lra).
  assert (val (fmul pi angle) a) as V1 by (apply val_mul; [exact pi_val|exact V|apply huge; apply Rabs_le; lra]).
  assert (val (radians angle) (R64 (a / 180))) as V2. { apply val_div; [exact V1|apply (val_int 180); lia|lra|apply huge; apply Rabs_le; lra]. }
  pose proof (R64_bound (a / 180) 7 ltac:(apply Rabs_le; lra)) as E2. unfold h in E2. exists (R64 (a / 180)). split; [exact V2|].
  assert (- / 5000000000000 <= p64 * IZR d - PI * IZR d <= / 5000000000000) as E3. { replace (p64 * IZR d - PI * IZR d) with ((p64 - PI) * IZR d) by ring. split; nra. }
  assert (Rabs (R64 (a / 180) - rad d) <= / 100000000000000) as E by (unfold rad; apply Rabs_le; lra). split; [exact E|]. apply Rabs_le_inv in E.
  assert (0 <= rad d <= 6283185307180 / 1000000000000) as Br by (unfold rad; split; nra). apply Rabs_le. lra.
Qed.
Definition eS : R := / 5000000000000.
Definition eC : R := / 20000000000000.
Section trig.
Variable M : mathf.
Hypothesis HM : trig_ok M.
Lemma sincos_ok angle d : val angle (IZR d) -> (0 <= d < 360)%Z -> app (Sin M (radians angle)) (sin (rad d)) eS /\ app (Cos M (radians angle)) (cos (rad d)) eC.
Proof.
  intros V Hd. destruct (radians_ok angle d V Hd) as (t & Vt & Et & Bt). destruct (HM _ t Vt ltac:(lra)) as ((s & Vs & Es) & (c & Vc & Ec)).
  pose proof (sin_lip t (rad d)) as L1. pose proof (cos_lip t (rad d)) as L2. unfold eS, eC. split; [exists s|exists c]; (split; [assumption|]); apply Rabs_le_inv in Es, Ec, L1, L2; apply Rabs_le; lra.
Qed.
End trig.

(** ** The size *)
Lemma val_min f g x y : val f x -> val g y -> val (fmin f g) (Rmin x y).
Proof.
  intros Vf Vg. unfold fmin. rewrite (val_gt f g x y Vf Vg). destruct (Rlt_bool_spec y x) as [H|H]; [rewrite Rmin_right by lra; exact Vg|rewrite Rmin_left by lra; exact Vf].
Qed.
Lemma app_min f g x y e : app f x e -> app g y e -> app (fmin f g) (Rmin x y) e.
Proof.
  intros (a & Va & Ea) (b & Vb & Eb). exists (Rmin a b). split; [apply val_min; assumption|]. apply Rabs_le_inv in Ea, Eb. apply Rabs_le. unfold Rmin. repeat destruct (Rle_dec _ _); lra.
Qed.
Lemma app_max f g x y e : app f x e -> app g y e -> app (fmax f g) (Rmax x y) e.
Proof.
  intros (a & Va & Ea) (b & Vb & Eb). exists (Rmax a b). split; [apply val_max; assumption|]. apply Rabs_le_inv in Ea, Eb. apply Rabs_le. unfold Rmax. repeat destruct (Rle_dec _ _); lra.
Qed.
(** The rounding of a side. *)
Lemma side_ok n N : val n N -> 1 <= N <= 3000000 ->
  let s := to_int (if fgt (fsub n (ffloor n)) tenth then fadd n (of_int 1) else n) in
  (1 <= s)%Z /\ N - / 10 - / 1000000 <= IZR s /\ (IZR s <= N + 9 / 10 \/ exists k, Rabs (N - IZR k) <= / 1000000 /\ s = (k + 1)%Z).
Proof.
  intros V HN. cbv zeta. pose proof (Zfloor_lb N) as L. pose proof (Zfloor_ub N) as U. set (k := Zfloor N) in *. pose proof u_small as Hu.
  assert (1 <= k <= 3000000)%Z as Hk. { split; [apply Zfloor_lub; apply HN|]. apply le_IZR. lra. }
  assert (val (fsub n (ffloor n)) (R64 (N - IZR k))) as V1 by (apply val_sub; [exact V|apply val_floor; exact V|apply huge; apply Rabs_le; lra]).
  assert (val tenth (R64 (1 / 10))) as V2 by (apply val_div; [apply (val_int 1); lia|apply (val_int 10); lia|lra|apply huge; apply Rabs_le; lra]).
  rewrite (val_gt _ _ _ _ V1 V2). destruct (Rlt_bool_spec (R64 (1 / 10)) (R64 (N - IZR k))) as [C|C].
  - assert (/ 10 < N - IZR k) as F. { destruct (Rlt_dec (/ 10) (N - IZR k)) as [F|F]; [exact F|]. pose proof (R64_mono (N - IZR k) (1 / 10) ltac:(lra)). lra. }
    assert (val (fadd n (of_int 1)) (R64 (N + 1))) as V3 by (apply val_add; [exact V|apply (val_int 1); lia|apply huge; apply Rabs_le; lra]).
    pose proof (R64_bound (N + 1) 4000000 ltac:(apply Rabs_le; lra)) as E. unfold h in E.
    pose proof (R64_ge_int (N + 1) (k + 1) ltac:(change (2 ^ 53)%Z with 9007199254740992%Z; lia) ltac:(rewrite plus_IZR; lra)) as G. pose proof (R64_le_int (N + 1) (k + 2) ltac:(change (2 ^ 53)%Z with 9007199254740992%Z; lia) ltac:(rewrite plus_IZR; lra)) as G2. set (W := R64 (N + 1)) in *. rewrite plus_IZR in G, G2.
    destruct (Rle_lt_or_eq_dec _ _ G2) as [S|S].
    + rewrite (to_int_0 _ W (k + 1) V3); [|rewrite plus_IZR; lra|lia|rewrite !plus_IZR; lra|change (2 ^ 53)%Z with 9007199254740992%Z; lia]. rewrite plus_IZR. split; [lia|]. split; [lra|left; lra].
    + rewrite (to_int_0 _ W (k + 2) V3); [|rewrite plus_IZR; lra|lia|rewrite !plus_IZR; lra|change (2 ^ 53)%Z with 9007199254740992%Z; lia]. rewrite plus_IZR. split; [lia|]. split; [lra|]. right. exists (k + 1)%Z. rewrite plus_IZR. split; [apply Rabs_le; lra|lia].
  - rewrite (to_int_0 _ N k V); [|lra|lia|rewrite plus_IZR; lra|change (2 ^ 53)%Z with 9007199254740992%Z; lia]. split; [lia|]. split; [|left; lra].
    pose proof (R64_bound (N - IZR k) 1 ltac:(apply Rabs_le; lra)) as E1. pose proof (R64_bound (1 / 10) 1 ltac:(apply Rabs_le; lra)) as E2. unfold h in E1, E2. lra.
Qed.
Lemma span_ok f1 f2 f3 p q e : app f1 p e -> app f2 (p + q) e -> app f3 q e -> Rabs p <= 1000000 -> Rabs q <= 1000000 -> 0 <= e <= / 1000000 -> snug (Rabs p + Rabs q + 1) (span f1 f2 f3).
Proof.
  intros H1 H2 H3 Hp Hq He. assert (app (of_int 0) 0 e) as H0 by (eapply app_weak; [apply (app_int 0); lia|lra]). unfold span. cbv zeta.
  pose proof (app_min _ _ _ _ _ H1 (app_min _ _ _ _ _ H2 (app_min _ _ _ _ _ H3 H0))) as Hmin. pose proof (app_max _ _ _ _ _ H1 (app_max _ _ _ _ _ H2 (app_max _ _ _ _ _ H3 H0))) as Hmax.
  set (mn := fmin f1 _) in *. set (mx := fmax f1 _) in *. set (a := Rmin p _) in *. set (b := Rmax p _) in *.
  assert (b - a = Rabs p + Rabs q) as Eab. { unfold a, b, Rmin, Rmax, Rabs. repeat destruct (Rle_dec _ _); repeat destruct (Rcase_abs _); lra. }
  pose proof (Rabs_pos p). pose proof (Rabs_pos q).
  pose proof (app_sub _ _ _ _ _ _ Hmax Hmin ltac:(rewrite Eab, Rabs_pos_eq; lra)) as Hd. rewrite Eab in Hd. destruct Hd as (D & VD & ED). unfold eps in ED.
  assert (0 <= D) as D0.
  { destruct H1 as (v1 & V1 & _), H2 as (v2 & V2 & _), H3 as (v3 & V3 & _). pose proof (val_int 0 ltac:(lia)) as V0.
    pose proof (val_max _ _ _ _ V1 (val_max _ _ _ _ V2 (val_max _ _ _ _ V3 V0))) as Wx. pose proof (val_min _ _ _ _ V1 (val_min _ _ _ _ V2 (val_min _ _ _ _ V3 V0))) as Wn. fold mx in Wx. fold mn in Wn.
    set (x := Rmax v1 _) in *. set (n := Rmin v1 _) in *. assert (n <= 0 <= x) by (unfold n, x, Rmin, Rmax; repeat destruct (Rle_dec _ _); lra).
    destruct Hmax as (x' & Vx & Ex). rewrite (val_unique _ _ _ Vx Wx) in Ex. destruct Hmin as (n' & Vn & En). rewrite (val_unique _ _ _ Vn Wn) in En. assert (Rabs a <= 2000000 /\ Rabs b <= 2000000) as [Ba Bb].
    { apply Rabs_le_inv in Hp, Hq. split; apply Rabs_le; unfold a, b, Rmin, Rmax; repeat destruct (Rle_dec _ _); lra. }
    apply Rabs_le_inv in Ex, En, Ba, Bb. assert (val (fsub mx mn) (R64 (x - n))) as W by (apply val_sub; [exact Wx|exact Wn|apply huge; apply Rabs_le; lra]). rewrite (val_unique _ _ _ VD W). apply R64_nonneg. lra. }
  apply Rabs_le_inv in ED. assert (val (fadd (fsub mx mn) (of_int 1)) (R64 (D + 1))) as VN by (apply val_add; [exact VD|apply (val_int 1); lia|apply huge; apply Rabs_le; lra]).
  pose proof (R64_bound (D + 1) 4000000 ltac:(apply Rabs_le; lra)) as EN. pose proof u_small as Hu. unfold h in EN. pose proof (R64_ge_int (D + 1) 1 ltac:(cbn; lia) ltac:(lra)) as N1. set (N := R64 (D + 1)) in *.
  destruct (side_ok _ N VN ltac:(lra)) as (S1 & S2 & S3). split; [exact S1|]. split; [lra|]. destruct S3 as [S3|(k & E & S3)]; [left; lra|right]. exists k. split; [|exact S3]. apply Rabs_le_inv in E. apply Rabs_le. lra.
Qed.
Lemma trig_abs x : Rabs (sin x) <= 1 /\ Rabs (cos x) <= 1.
Proof. pose proof (SIN_bound x). pose proof (COS_bound x). split; apply Rabs_le; lra. Qed.
Lemma size_ok w h sf cf x : (1 <= w <= 1000000)%Z -> (1 <= h <= 1000000)%Z -> app sf (sin x) eS -> app cf (cos x) eC ->
  let r := rotatedSize w h sf cf in
  snug (IZR (w - 1) * Rabs (cos x) + IZR (h - 1) * Rabs (sin x) + 1) (fst r) /\ snug (IZR (w - 1) * Rabs (sin x) + IZR (h - 1) * Rabs (cos x) + 1) (snd r).
Proof.
  intros Hw Hh Hs Hc. destruct (trig_abs x) as [Bs Bc]. unfold rotatedSize. destruct (_ || _) eqn:E; [lia|]. unfold rotatePoint. cbv zeta. cbn [fst snd].
  assert (0 <= IZR (w - 1) <= 1000000 /\ 0 <= IZR (h - 1) <= 1000000) as [Rw Rh] by (repeat split; apply IZR_le; lia).
  assert (Rabs (IZR (w - 1)) <= 1000000 /\ Rabs (IZR (h - 1)) <= 1000000) as [Aw Ah] by (rewrite !Rabs_pos_eq by lra; lra). assert (Rabs 0 <= 1000000) as A0 by (rewrite Rabs_R0; lra).
  pose proof (app_int (w - 1) ltac:(lia)) as Iw. pose proof (app_int (h - 1) ltac:(lia)) as Ih. pose proof (app_int 0 ltac:(lia)) as I0.
  assert (forall f y, app f y 0 -> Rabs y <= 1000000 -> app (fmul f cf) (y * cos x) (/ 15000000)) as Mc by (intros f y Hf Hy; eapply app_weak; [apply (app_mul _ _ _ _ 0 eC 1000000); try assumption; unfold eC; lra|unfold eC, eps; lra]).
  assert (forall f y, app f y 0 -> Rabs y <= 1000000 -> app (fmul f sf) (y * sin x) (/ 4000000)) as Ms by (intros f y Hf Hy; eapply app_weak; [apply (app_mul _ _ _ _ 0 eS 1000000); try assumption; unfold eS; lra|unfold eS, eps; lra]).
  set (W := IZR (w - 1)) in *. set (H := IZR (h - 1)) in *.
  assert (Rabs (W * cos x) <= 1000000 /\ Rabs (W * sin x) <= 1000000 /\ Rabs (H * cos x) <= 1000000 /\ Rabs (H * sin x) <= 1000000) as (P1 & P2 & P3 & P4).
  { rewrite !Rabs_mult, (Rabs_pos_eq W), (Rabs_pos_eq H) by lra. repeat split; nra. }
  pose proof (Rabs_le_inv _ _ P1) as Q1. pose proof (Rabs_le_inv _ _ P2) as Q2. pose proof (Rabs_le_inv _ _ P3) as Q3. pose proof (Rabs_le_inv _ _ P4) as Q4.
  assert (forall f y z, app f z (/ 1000000) -> y = z -> app f y (/ 1000000)) as Eq by (intros f y z Hf ->; exact Hf).
  assert (forall a b, Rabs a <= 1000000 -> Rabs b <= 1000000 -> Rabs (a + b) + / 15000000 + / 4000000 <= 4000000 /\ Rabs (a - b) + / 15000000 + / 4000000 <= 4000000 /\ Rabs (b + a) + / 4000000 + / 15000000 <= 4000000) as Bd.
  { intros a b Ha Hb. pose proof (Rabs_triang a b). pose proof (Rabs_triang a (- b)) as T. rewrite Rabs_Ropp in T. rewrite (Rplus_comm b a). unfold Rminus. repeat split; lra. }
  assert (Rabs (0 * cos x) <= 1000000 /\ Rabs (0 * sin x) <= 1000000) as [Z1 Z2] by (rewrite !Rmult_0_l; split; exact A0).
  assert (forall f g y z, app f y 0 -> app g z 0 -> Rabs y <= 1000000 -> Rabs z <= 1000000 -> Rabs (y * cos x) <= 1000000 -> Rabs (z * sin x) <= 1000000 -> app (fsub (fmul f cf) (fmul g sf)) (y * cos x - z * sin x) (/ 1000000)) as Px.
  { intros f g y z Hf Hg By Bz Cy Cz. eapply app_weak; [apply app_sub; [apply Mc; assumption|apply Ms; assumption|apply Bd; assumption]|unfold eps; lra]. }
  assert (forall f g y z, app f y 0 -> app g z 0 -> Rabs y <= 1000000 -> Rabs z <= 1000000 -> Rabs (y * sin x) <= 1000000 -> Rabs (z * cos x) <= 1000000 -> app (fadd (fmul f sf) (fmul g cf)) (y * sin x + z * cos x) (/ 1000000)) as Py.
  { intros f g y z Hf Hg By Bz Cy Cz. eapply app_weak; [apply app_add; [apply Ms; assumption|apply Mc; assumption|apply Bd; assumption]|unfold eps; lra]. }
  split.
  - replace (W * Rabs (cos x) + H * Rabs (sin x) + 1) with (Rabs (W * cos x) + Rabs (- (H * sin x)) + 1) by (rewrite Rabs_Ropp, !Rabs_mult, (Rabs_pos_eq W), (Rabs_pos_eq H) by lra; reflexivity).
    apply (span_ok _ _ _ _ _ (/ 1000000)); [eapply Eq; [apply (Px _ _ W 0); assumption|ring]|eapply Eq; [apply (Px _ _ W H); assumption|ring]|eapply Eq; [apply (Px _ _ 0 H); assumption|ring]|exact P1|rewrite Rabs_Ropp; exact P4|lra].
  - replace (W * Rabs (sin x) + H * Rabs (cos x) + 1) with (Rabs (W * sin x) + Rabs (H * cos x) + 1) by (rewrite !Rabs_mult, (Rabs_pos_eq W), (Rabs_pos_eq H) by lra; reflexivity).
    apply (span_ok _ _ _ _ _ (/ 1000000)); [eapply Eq; [apply (Py _ _ W 0); assumption|ring]|eapply Eq; [apply (Py _ _ W H); assumption|ring]|eapply Eq; [apply (Py _ _ 0 H); assumption|ring]|exact P2|exact P3|lra].
Qed.

(** ** The place that a pixel comes from *)
Lemma offset_ok n : (0 <= n <= 2100000)%Z -> app (offset n) ((IZR n - 1) / 2) (2 * eps).
Proof.
  intros H. assert (0 <= IZR n <= 2100000) as B by (split; apply IZR_le; lia). unfold offset. assert (app (fdiv (of_int n) (of_int 2)) (IZR n / 2) eps) as H1.
  { exists (R64 (IZR n / 2)). split; [|apply eps_round; apply Rabs_le; lra]. apply val_div; [apply val_int; change (2 ^ 53)%Z with 9007199254740992%Z; lia|apply (val_int 2); lia|lra|apply huge; apply Rabs_le; lra]. }
  pose proof (app_sub _ _ _ _ _ _ H1 (app_val _ _ val_half)) as E. replace ((IZR n - 1) / 2) with (IZR n / 2 - / 2) by field. eapply app_weak; [apply E; unfold eps; assert (Rabs (IZR n / 2 - / 2) <= 1100000) by (apply Rabs_le; lra); lra|lra].
Qed.
Lemma centred_ok n x : (1 <= n <= 2000002)%Z -> (0 <= x < n)%Z -> app (fsub (of_int x) (offset n)) (IZR x - (IZR n - 1) / 2) (3 * eps) /\ Rabs (IZR x - (IZR n - 1) / 2) <= 1000001.
Proof.
  intros Hn Hx. assert (1 <= IZR n <= 2000002) as Bn by (split; apply IZR_le; lia). assert (0 <= IZR x <= IZR n - 1) as Bx by (rewrite <- minus_IZR; split; apply IZR_le; lia).
  assert (Rabs (IZR x - (IZR n - 1) / 2) <= 1000001) as B by (apply Rabs_le; lra). split; [|exact B]. eapply app_weak; [apply app_sub; [apply app_int; lia|apply offset_ok; lia|unfold eps; lra]|lra].
Qed.
Definition dlt : R := / 3000000.
Lemma place_ok w h W H sf cf t x y : (1 <= w <= 1000000)%Z -> (1 <= h <= 1000000)%Z -> (1 <= W <= 2000002)%Z -> (1 <= H <= 2000002)%Z -> (0 <= x < W)%Z -> (0 <= y < H)%Z -> app sf (sin t) eS -> app cf (cos t) eC ->
  let p := rotatePoint (fsub (of_int x) (offset W)) (fsub (of_int y) (offset H)) sf cf in
  app (fadd (fst p) (offset w)) (((IZR x - (IZR W - 1) / 2) * cos t - (IZR y - (IZR H - 1) / 2) * sin t) + (IZR w - 1) / 2) dlt /\
  app (fadd (snd p) (offset h)) (((IZR x - (IZR W - 1) / 2) * sin t + (IZR y - (IZR H - 1) / 2) * cos t) + (IZR h - 1) / 2) dlt.
Proof.
  intros Hw Hh HW HH Hx Hy Hs Hc. destruct (trig_abs t) as [Bs Bc]. destruct (centred_ok W x HW Hx) as [Ax Bx]. destruct (centred_ok H y HH Hy) as [Ay By]. set (a := IZR x - _) in *. set (b := IZR y - _) in *. cbv zeta. unfold rotatePoint. cbn [fst snd].
  pose proof (offset_ok w ltac:(lia)) as Ow. pose proof (offset_ok h ltac:(lia)) as Oh. assert (1 <= IZR w <= 1000000 /\ 1 <= IZR h <= 1000000) as [Rw Rh] by (repeat split; apply IZR_le; lia).
  assert (forall f z, app f z (3 * eps) -> Rabs z <= 1000001 -> app (fmul f cf) (z * cos t) (/ 17000000) /\ Rabs (z * cos t) <= 1000001) as Mc.
  { intros f z Hf Hz. split; [eapply app_weak; [apply (app_mul _ _ _ _ (3 * eps) eC 1000001); try assumption; unfold eC, eps; lra|unfold eC, eps; lra]|rewrite Rabs_mult; pose proof (Rabs_pos z); pose proof (Rabs_pos (cos t)); nra]. }
  assert (forall f z, app f z (3 * eps) -> Rabs z <= 1000001 -> app (fmul f sf) (z * sin t) (/ 4800000) /\ Rabs (z * sin t) <= 1000001) as Ms.
  { intros f z Hf Hz. split; [eapply app_weak; [apply (app_mul _ _ _ _ (3 * eps) eS 1000001); try assumption; unfold eS, eps; lra|unfold eS, eps; lra]|rewrite Rabs_mult; pose proof (Rabs_pos z); pose proof (Rabs_pos (sin t)); nra]. }
  destruct (Mc _ a Ax Bx) as [Mca Bca]. destruct (Mc _ b Ay By) as [Mcb Bcb]. destruct (Ms _ a Ax Bx) as [Msa Bsa]. destruct (Ms _ b Ay By) as [Msb Bsb]. apply Rabs_le_inv in Bca, Bcb, Bsa, Bsb.
  assert (forall r z, app r z (/ 3500000) -> Rabs z <= 2000002 -> app (fadd r (offset w)) (z + (IZR w - 1) / 2) dlt /\ app (fadd r (offset h)) (z + (IZR h - 1) / 2) dlt) as F.
  { intros r z Hr Hz. apply Rabs_le_inv in Hz. split; (eapply app_weak; [apply app_add; [exact Hr|eassumption|]|unfold eps, dlt; lra]); unfold eps; [assert (Rabs (z + (IZR w - 1) / 2) <= 3000000) by (apply Rabs_le; lra)|assert (Rabs (z + (IZR h - 1) / 2) <= 3000000) by (apply Rabs_le; lra)]; lra. }
  assert (Rabs (a * cos t - b * sin t) <= 2000002 /\ Rabs (a * sin t + b * cos t) <= 2000002) as [B1 B2] by (split; apply Rabs_le; lra).
  split; apply F; try assumption; (eapply app_weak; [first [apply app_sub|apply app_add]; [eassumption|eassumption|lra]|unfold eps; lra]).
Qed.
