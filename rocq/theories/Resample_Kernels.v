(** The kernels of the filters without sines: each is not negative, or has one small negative part. *)
From Coq Require Import ZArith List Bool Lia Reals Lra Psatz.
From Flocq Require Import Core BinarySingleNaN.
From Verif Require Import GoInt GoFloat Image_Model Pixel_Model Resample_Model Resample_Spec Resample_Err Resample_Mix Resample_Weights Resample_Place Resample_Classes.
Import ListNotations.
Local Open Scope R_scope.

(** ** Error bounds in units of the rounding error *)
Definition near (f : f64) (x k : R) : Prop := exists y, val f y /\ Rabs (y - x) <= k * u.
Lemma near_val f x : val f x -> near f x 0.
Proof. intros H. exists x. split; [exact H|]. rewrite Rminus_diag_eq by reflexivity. rewrite Rabs_R0. lra. Qed.
Lemma near_int z : (Z.abs z <= 1000)%Z -> near (of_int z) (IZR z) 0.
Proof. intros H. apply near_val, val_int. change (2 ^ 53)%Z with 9007199254740992%Z. lia. Qed.
Lemma near_weak f x k k' : near f x k -> k <= k' -> near f x k'.
Proof. intros (y & H & E) L. exists y. split; [exact H|]. pose proof u_small. nra. Qed.
Lemma h_u : h <= u / 1000. Proof. rewrite u_val. unfold h. lra. Qed.
Lemma near_round z x k Z : val z (R64 Z) -> Rabs (Z - x) <= k * u -> forall X, Rabs x <= X -> 0 <= k <= 10000000 -> 0 <= X <= 10000000 -> near z x (k + X + / 2).
Proof.
  intros Hz E X HX Hk HX2. exists (R64 Z). split; [exact Hz|]. pose proof u_small as Hu. pose proof h_u as Hh.
  assert (Rabs Z <= X + / 1000) as HZ. { replace Z with ((Z - x) + x) by ring. eapply Rle_trans; [apply Rabs_triang|]. assert (k * u <= / 1000) by nra. lra. }
  pose proof (R64_abs Z) as E2. replace (R64 Z - x) with ((R64 Z - Z) + (Z - x)) by ring. eapply Rle_trans; [apply Rabs_triang|].
  assert (u * Rabs Z <= u * (X + / 1000)) by (apply Rmult_le_compat_l; lra). lra.
Qed.
Lemma near_mul f g x y k l X Y : near f x k -> near g y l -> Rabs x <= X -> Rabs y <= Y -> 0 <= k <= 10000 -> 0 <= l <= 10000 -> 0 <= X <= 1000 -> 0 <= Y <= 1000 -> X * l + Y * k <= 1000000 ->
  near (fmul f g) (x * y) (X * l + Y * k + X * Y + 1).
Proof.
  intros (x' & Hx & Ex) (y' & Hy & Ey) HX HY Hk Hl HX1 HY1 Hs. pose proof u_small as Hu.
  assert (Rabs (x' * y' - x * y) <= (X * l + Y * k + / 2) * u) as E.
  { replace (x' * y' - x * y) with (x * (y' - y) + (x' - x) * y + (x' - x) * (y' - y)) by ring. eapply Rle_trans; [apply Rabs_triang|]. eapply Rle_trans; [apply Rplus_le_compat_r, Rabs_triang|]. rewrite !Rabs_mult.
    assert (Rabs x * Rabs (y' - y) <= X * (l * u)) by (apply Rmult_le_compat; try apply Rabs_pos; assumption).
    assert (Rabs (x' - x) * Rabs y <= k * u * Y) by (apply Rmult_le_compat; try apply Rabs_pos; assumption).
    assert (Rabs (x' - x) * Rabs (y' - y) <= k * u * (l * u)) by (apply Rmult_le_compat; try apply Rabs_pos; assumption).
    assert (k * l <= 100000000) by nra. assert (k * l * u <= / 2) by nra. assert (k * u * (l * u) <= / 2 * u) by nra. lra. }
  assert (0 <= X * Y <= 1000000) as HXY by nra. assert (Rabs (x * y) <= X * Y) as Hxy by (rewrite Rabs_mult; apply Rmult_le_compat; try apply Rabs_pos; assumption).
  assert (0 <= X * l + Y * k) as Hp by nra.
  assert (val (fmul f g) (R64 (x' * y'))) as V.
  { apply val_mul; [exact Hx|exact Hy|]. apply huge. replace (x' * y') with ((x' * y' - x * y) + x * y) by ring. eapply Rle_trans; [apply Rabs_triang|]. nra. }
  eapply near_weak; [exact (near_round _ _ _ _ V E (X * Y) Hxy ltac:(lra) ltac:(lra))|]. lra.
Qed.
Lemma near_add f g x y k l X Y : near f x k -> near g y l -> Rabs x <= X -> Rabs y <= Y -> 0 <= k <= 10000 -> 0 <= l <= 10000 -> 0 <= X <= 1000 -> 0 <= Y <= 1000 ->
  near (fadd f g) (x + y) (k + l + X + Y + 1).
Proof.
  intros (x' & Hx & Ex) (y' & Hy & Ey) HX HY Hk Hl HX1 HY1. pose proof u_small as Hu.
  assert (Rabs (x' + y' - (x + y)) <= (k + l) * u) as E. { replace (x' + y' - (x + y)) with ((x' - x) + (y' - y)) by ring. eapply Rle_trans; [apply Rabs_triang|]. lra. }
  assert (Rabs (x + y) <= X + Y) as Hxy by (eapply Rle_trans; [apply Rabs_triang|lra]).
  assert (val (fadd f g) (R64 (x' + y'))) as V. { apply val_add; [exact Hx|exact Hy|]. apply huge. replace (x' + y') with ((x' + y' - (x + y)) + (x + y)) by ring. eapply Rle_trans; [apply Rabs_triang|]. nra. }
  eapply near_weak; [exact (near_round _ _ _ _ V E (X + Y) Hxy ltac:(lra) ltac:(lra))|]. lra.
Qed.
Lemma near_neg f x k : near f x k -> near (fneg f) (- x) k.
Proof. intros (x' & Hx & Ex). exists (- x'). split; [apply val_neg; exact Hx|]. replace (- x' - - x) with (- (x' - x)) by ring. rewrite Rabs_Ropp. exact Ex. Qed.
Lemma near_sub f g x y k l X Y : near f x k -> near g y l -> Rabs x <= X -> Rabs y <= Y -> 0 <= k <= 10000 -> 0 <= l <= 10000 -> 0 <= X <= 1000 -> 0 <= Y <= 1000 ->
  near (fsub f g) (x - y) (k + l + X + Y + 1).
Proof.
  intros (x' & Hx & Ex) (y' & Hy & Ey) HX HY Hk Hl HX1 HY1. pose proof u_small as Hu.
  assert (Rabs (x' - y' - (x - y)) <= (k + l) * u) as E. { replace (x' - y' - (x - y)) with ((x' - x) - (y' - y)) by ring. eapply Rle_trans; [apply Rabs_triang|]. rewrite Rabs_Ropp. lra. }
  assert (Rabs (x - y) <= X + Y) as Hxy by (eapply Rle_trans; [apply Rabs_triang|]; rewrite Rabs_Ropp; lra).
  assert (val (fsub f g) (R64 (x' - y'))) as V. { apply val_sub; [exact Hx|exact Hy|]. apply huge. replace (x' - y') with ((x' - y' - (x - y)) + (x - y)) by ring. eapply Rle_trans; [apply Rabs_triang|]. nra. }
  eapply near_weak; [exact (near_round _ _ _ _ V E (X + Y) Hxy ltac:(lra) ltac:(lra))|]. lra.
Qed.
Lemma near_div6 f x k X : near f x k -> Rabs x <= X -> 0 <= k <= 10000 -> 0 <= X <= 1000 -> near (fdiv f (of_int 6)) (x / 6) (k / 6 + X / 6 + 1).
Proof.
  intros (x' & Hx & Ex) HX Hk HX1. pose proof u_small as Hu.
  assert (Rabs (x' / 6 - x / 6) <= k / 6 * u) as E. { replace (x' / 6 - x / 6) with ((x' - x) * / 6) by field. rewrite Rabs_mult, (Rabs_pos_eq (/ 6)) by lra. lra. }
  assert (Rabs (x / 6) <= X / 6) as Hx6. { unfold Rdiv. rewrite Rabs_mult, (Rabs_pos_eq (/ 6)) by lra. lra. }
  assert (val (fdiv f (of_int 6)) (R64 (x' / 6))) as V. { apply val_div; [exact Hx|apply val_int; cbn; lia|lra|]. apply huge. replace (x' / 6) with ((x' / 6 - x / 6) + x / 6) by ring. eapply Rle_trans; [apply Rabs_triang|]. nra. }
  eapply near_weak; [exact (near_round _ _ _ _ V E (X / 6) Hx6 ltac:(lra) ltac:(lra))|]. lra.
Qed.

(** ** The cubic splines *)
Definition inner (B C a : R) : R := ((12 - 9 * B - 6 * C) * a * a * a + (-18 + 12 * B + 6 * C) * a * a + (6 - 2 * B)) / 6.
Definition outer (B C a : R) : R := ((- B - 6 * C) * a * a * a + (6 * B + 30 * C) * a * a + (-12 * B - 48 * C) * a + (8 * B + 24 * C)) / 6.
Lemma abs_mul x y X Y : Rabs x <= X -> Rabs y <= Y -> Rabs (x * y) <= X * Y.
Proof. intros HX HY. rewrite Rabs_mult. apply Rmult_le_compat; try apply Rabs_pos; assumption. Qed.
Lemma abs_add x y X Y : Rabs x <= X -> Rabs y <= Y -> Rabs (x + y) <= X + Y.
Proof. intros HX HY. eapply Rle_trans; [apply Rabs_triang|lra]. Qed.
Lemma abs_sub x y X Y : Rabs x <= X -> Rabs y <= Y -> Rabs (x - y) <= X + Y.
Proof. intros HX HY. eapply Rle_trans; [apply Rabs_triang|]. rewrite Rabs_Ropp. lra. Qed.
Section spline.
Variables b c : f64.
Variables B C : R.
Hypothesis Hb : near b B 1.
Hypothesis Hc : near c C 1.
Hypothesis HB : 0 <= B <= 1.
Hypothesis HC : 0 <= C <= / 2.
Notation i := of_int.
Lemma coef n : (Z.abs n <= 48)%Z -> near (fmul (i n) b) (IZR n * B) (2 * IZR (Z.abs n) + 1) /\ near (fmul (i n) c) (IZR n * C) (2 * IZR (Z.abs n) + 1).
Proof.
  intros Hn. assert (Rabs (IZR n) <= IZR (Z.abs n)) as A by (rewrite abs_IZR; lra). assert (0 <= IZR (Z.abs n) <= 48) as A2 by (split; apply IZR_le; lia). split.
  - eapply near_weak; [apply (near_mul _ _ _ _ 0 1 (IZR (Z.abs n)) 1); [apply near_int; lia|exact Hb|exact A|rewrite Rabs_pos_eq; lra|..]; lra|lra].
  - eapply near_weak; [apply (near_mul _ _ _ _ 0 1 (IZR (Z.abs n)) 1); [apply near_int; lia|exact Hc|exact A|rewrite Rabs_pos_eq; lra|..]; lra|lra].
Qed.
Ltac ab := apply Rabs_le; lra.
Lemma cube k K x X : near k K 160 -> Rabs K <= 36 -> near x X 0 -> 0 <= X <= 2 ->
  (near (fmul k x) (K * X) 393 /\ Rabs (K * X) <= 72) /\ (near (fmul (fmul k x) x) (K * X * X) 931 /\ Rabs (K * X * X) <= 144) /\
  (near (fmul (fmul (fmul k x) x) x) (K * X * X * X) 2151 /\ Rabs (K * X * X * X) <= 288).
Proof.
  intros Hk HK Hx HX. assert (Rabs X <= 2) as HX2 by ab.
  assert (near (fmul k x) (K * X) 393) as N1. { eapply near_weak; [apply (near_mul _ _ _ _ 160 0 36 2 Hk Hx HK HX2); lra|lra]. }
  assert (Rabs (K * X) <= 72) as A1 by (eapply Rle_trans; [apply abs_mul; [exact HK|exact HX2]|lra]).
  assert (near (fmul (fmul k x) x) (K * X * X) 931) as N2. { eapply near_weak; [apply (near_mul _ _ _ _ 393 0 72 2 N1 Hx A1 HX2); lra|lra]. }
  assert (Rabs (K * X * X) <= 144) as A2 by (eapply Rle_trans; [apply abs_mul; [exact A1|exact HX2]|lra]).
  assert (near (fmul (fmul (fmul k x) x) x) (K * X * X * X) 2151) as N3. { eapply near_weak; [apply (near_mul _ _ _ _ 931 0 144 2 N2 Hx A2 HX2); lra|lra]. }
  assert (Rabs (K * X * X * X) <= 288) as A3 by (eapply Rle_trans; [apply abs_mul; [exact A2|exact HX2]|lra]). auto.
Qed.
Ltac far := first [lra | ab].
Lemma spline g x : val g x -> Rabs x < 2 -> near (bcspline g b c) (if Rlt_dec (Rabs x) 1 then inner B C (Rabs x) else outer B C (Rabs x)) 1000.
Proof.
  intros Hg Hx. pose proof (val_abs g x Hg) as Ha. set (a := Rabs x) in *. assert (0 <= a) as Ha0 by apply Rabs_pos.
  unfold bcspline. cbn zeta. rewrite (val_lt _ _ _ _ Ha (val_int 1 ltac:(cbn; lia))), (val_lt _ _ _ _ Ha (val_int 2 ltac:(cbn; lia))). rewrite (Rlt_bool_true a 2 Hx).
  pose proof (near_val _ _ Ha) as Na.
  destruct (coef 9 ltac:(lia)) as [b9 _]. destruct (coef 6 ltac:(lia)) as [b6 c6]. destruct (coef 12 ltac:(lia)) as [b12 _]. destruct (coef 2 ltac:(lia)) as [b2 _].
  destruct (coef 30 ltac:(lia)) as [_ c30]. destruct (coef (-12) ltac:(lia)) as [bm12 _]. destruct (coef 48 ltac:(lia)) as [_ c48]. destruct (coef 8 ltac:(lia)) as [b8 _]. destruct (coef 24 ltac:(lia)) as [_ c24].
  cbn [Z.abs] in *. unfold inner, outer. destruct (Rlt_dec a 1) as [L|L].
  - rewrite Rlt_bool_true by exact L.
    pose proof (near_sub _ _ _ _ 0 19 12 9 (near_int 12 ltac:(lia)) ltac:(eapply near_weak; [exact b9|lra]) ltac:(far) ltac:(far) ltac:(lra) ltac:(lra) ltac:(lra) ltac:(lra)) as K1.
    pose proof (near_sub _ _ _ _ _ 13 21 3 K1 ltac:(eapply near_weak; [exact c6|lra]) ltac:(far) ltac:(far) ltac:(lra) ltac:(lra) ltac:(lra) ltac:(lra)) as K3.
    pose proof (near_add _ _ _ _ 0 25 18 12 (near_int (-18) ltac:(lia)) ltac:(eapply near_weak; [exact b12|lra]) ltac:(far) ltac:(far) ltac:(lra) ltac:(lra) ltac:(lra) ltac:(lra)) as K4.
    pose proof (near_add _ _ _ _ _ 13 30 3 K4 ltac:(eapply near_weak; [exact c6|lra]) ltac:(far) ltac:(far) ltac:(lra) ltac:(lra) ltac:(lra) ltac:(lra)) as K2.
    pose proof (near_sub _ _ _ _ 0 5 6 2 (near_int 6 ltac:(lia)) ltac:(eapply near_weak; [exact b2|lra]) ltac:(far) ltac:(far) ltac:(lra) ltac:(lra) ltac:(lra) ltac:(lra)) as K0.
    destruct (cube _ _ _ _ ltac:(eapply near_weak; [exact K3|lra]) ltac:(far) Na ltac:(lra)) as (_ & _ & N3 & A3).
    destruct (cube _ _ _ _ ltac:(eapply near_weak; [exact K2|lra]) ltac:(far) Na ltac:(lra)) as (_ & (N2 & A2) & _).
    pose proof (near_add _ _ _ _ _ _ _ _ N3 N2 A3 A2 ltac:(lra) ltac:(lra) ltac:(lra) ltac:(lra)) as N4. pose proof (abs_add _ _ _ _ A3 A2) as A4.
    pose proof (near_add _ _ _ _ _ _ _ 8 N4 K0 A4 ltac:(far) ltac:(lra) ltac:(lra) ltac:(lra) ltac:(lra)) as N5. assert (Rabs (6 - 2 * B) <= 8) as A0 by ab. pose proof (abs_add _ _ _ _ A4 A0) as A5.
    eapply near_weak; [apply (near_div6 _ _ _ _ N5 A5); lra|lra].
  - rewrite Rlt_bool_false by lra.
    pose proof (near_sub _ _ _ _ 1 13 1 3 (near_neg _ _ _ Hb) ltac:(eapply near_weak; [exact c6|lra]) ltac:(far) ltac:(far) ltac:(lra) ltac:(lra) ltac:(lra) ltac:(lra)) as K3.
    pose proof (near_add _ _ _ _ 13 61 6 15 ltac:(eapply near_weak; [exact b6|lra]) ltac:(eapply near_weak; [exact c30|lra]) ltac:(far) ltac:(far) ltac:(lra) ltac:(lra) ltac:(lra) ltac:(lra)) as K2.
    pose proof (near_sub _ _ _ _ 25 97 12 24 ltac:(eapply near_weak; [exact bm12|lra]) ltac:(eapply near_weak; [exact c48|lra]) ltac:(far) ltac:(far) ltac:(lra) ltac:(lra) ltac:(lra) ltac:(lra)) as K1.
    pose proof (near_add _ _ _ _ 17 49 8 12 ltac:(eapply near_weak; [exact b8|lra]) ltac:(eapply near_weak; [exact c24|lra]) ltac:(far) ltac:(far) ltac:(lra) ltac:(lra) ltac:(lra) ltac:(lra)) as K0.
    destruct (cube _ _ _ _ ltac:(eapply near_weak; [exact K3|lra]) ltac:(far) Na ltac:(lra)) as (_ & _ & N3 & A3).
    destruct (cube _ _ _ _ ltac:(eapply near_weak; [exact K2|lra]) ltac:(far) Na ltac:(lra)) as (_ & (N2 & A2) & _).
    destruct (cube _ _ _ _ ltac:(eapply near_weak; [exact K1|lra]) ltac:(far) Na ltac:(lra)) as ((N1 & A1) & _ & _).
    pose proof (near_add _ _ _ _ _ _ _ _ N3 N2 A3 A2 ltac:(lra) ltac:(lra) ltac:(lra) ltac:(lra)) as N4. pose proof (abs_add _ _ _ _ A3 A2) as A4.
    pose proof (near_add _ _ _ _ _ _ _ _ N4 N1 A4 A1 ltac:(lra) ltac:(lra) ltac:(lra) ltac:(lra)) as N6. pose proof (abs_add _ _ _ _ A4 A1) as A6.
    pose proof (near_add _ _ _ _ _ _ _ 20 N6 K0 A6 ltac:(far) ltac:(lra) ltac:(lra) ltac:(lra) ltac:(lra)) as N5. assert (Rabs (8 * B + 24 * C) <= 20) as A0 by ab. pose proof (abs_add _ _ _ _ A6 A0) as A5.
    eapply near_weak; [apply (near_div6 _ _ _ _ N5 A5); lra|lra].
Qed.
End spline.

(** ** The filters *)
Lemma v1 : val (of_int 1) 1. Proof. apply val_int. cbn. lia. Qed.
Lemma v0 : val (of_int 0) 0. Proof. apply val_int. cbn. lia. Qed.
Lemma v2 : val (of_int 2) 2. Proof. apply val_int. cbn. lia. Qed.
Lemma box_ok : nonneg_kernel Box.
Proof.
  split; [exists (/ 2); split; [exact val_half|lra]|]. intros g x Hg _. cbn [Kernel Box]. rewrite (val_le _ _ _ _ (val_abs _ _ Hg) val_half). destruct (Rle_bool_spec (Rabs x) (/ 2)) as [L|L].
  - exists 1. split; [exact v1|]. lra.
  - exists 0. split; [exact v0|]. lra.
Qed.
Lemma linear_ok : nonneg_kernel Linear.
Proof.
  split; [exists 1; split; [exact v1|lra]|]. intros g x Hg _. cbn [Kernel Linear]. unfold within. cbn zeta. pose proof (val_abs _ _ Hg) as Ha. rewrite (val_lt _ _ _ _ Ha v1). pose proof (Rabs_pos x) as Hp. destruct (Rlt_bool_spec (Rabs x) 1) as [L|L].
  - exists (R64 (1 - Rabs x)). split; [apply val_sub; [exact v1|exact Ha|apply huge; apply Rabs_le; lra]|]. split; [split|].
    + apply R64_nonneg. lra.
    + apply (R64_le_int _ 2); [cbn; lia|lra].
    + intros H. pose proof R64_half as E. assert (/ 2 <= R64 (1 - Rabs x)); [|lra]. rewrite <- E at 1. apply R64_mono. lra.
  - exists 0. split; [exact v0|]. lra.
Qed.
Lemma gaussian_ok M : exp_ok M -> nonneg_kernel (Gaussian M).
Proof.
  intros HM. split; [exists 2; split; [exact v2|lra]|]. intros g x Hg _. cbn [Kernel Gaussian]. unfold within. cbn zeta. pose proof (val_abs _ _ Hg) as Ha. rewrite (val_lt _ _ _ _ Ha v2). pose proof (Rabs_pos x) as Hp.
  destruct (Rlt_bool_spec (Rabs x) 2) as [L|L]; [|exists 0; split; [exact v0|lra]]. set (a := Rabs x) in *.
  assert (val (of_int (-2)) (-2)) as vm2 by (apply val_int; cbn; lia).
  assert (val (fmul (of_int (-2)) (fabs g)) (R64 (-2 * a))) as V1 by (apply val_mul; [exact vm2|exact Ha|apply huge; apply Rabs_le; lra]).
  assert (-4 <= R64 (-2 * a) <= 0) as B1. { split; [apply (R64_ge_int _ (-4)); [cbn; lia|lra]|apply (R64_le_int _ 0); [cbn; lia|lra]]. }
  set (p := R64 (-2 * a)) in *. assert (-8 <= p * a <= 0) as B2 by nra.
  assert (val (fmul (fmul (of_int (-2)) (fabs g)) (fabs g)) (R64 (p * a))) as V2 by (apply val_mul; [exact V1|exact Ha|apply huge; apply Rabs_le; lra]).
  assert (-8 <= R64 (p * a) <= 0) as B3. { split; [apply (R64_ge_int _ (-8)); [cbn; lia|lra]|apply (R64_le_int _ 0); [cbn; lia|lra]]. }
  destruct (HM _ _ V2 ltac:(lra)) as (y & Vy & E0 & E). exists y. split; [exact Vy|]. pose proof (exp_pos (R64 (p * a))) as Pe.
  assert (exp (R64 (p * a)) <= 1) as E1. { rewrite <- exp_0. destruct (Req_dec (R64 (p * a)) 0) as [->|N]; [lra|]. apply Rlt_le, exp_increasing. lra. }
  split; [nra|]. intros H.
  assert (-1 <= p) as P1. { unfold p. apply (R64_ge_int _ (-1)); [cbn; lia|lra]. }
  assert (- / 2 <= R64 (p * a)) as P2. { rewrite <- R64_mhalf. apply R64_mono. nra. }
  assert (/ 2 <= exp (R64 (p * a))) as P3. { pose proof (exp_ineq1_le (R64 (p * a))). lra. }
  nra.
Qed.
Lemma lobed b c B C c0 c1 s : near b B 1 -> near c C 1 -> 0 <= B <= 1 -> 0 <= C <= / 2 -> (s = 1 \/ s = 2)%Z -> / 4 <= c0 -> 0 <= c1 -> 4 * c1 <= 94 / 100 * c0 ->
  (forall a, 0 <= a < 1 -> 0 <= inner B C a <= 1) -> (forall a, 0 <= a <= 51 / 100 -> c0 + / 1000000 <= inner B C a) ->
  (s = 2%Z -> forall a, 1 <= a < 2 -> - c1 + / 1000000 <= outer B C a <= 1 /\ 0 <= outer B C 1) \/ (s = 2%Z /\ c1 = 0 /\ forall a, 1 <= a < 2 -> 0 <= outer B C a <= 1) ->
  lobed_kernel c0 c1 (Filter (of_int s) (within (of_int s) (fun x => bcspline x b c))).
Proof.
  intros Hb Hc HB HC Hs H0 H1 H01 Hin Hmid Hout. assert (val (of_int s) (IZR s)) as Vs by (apply val_int; destruct Hs; subst s; cbn; lia). pose proof u_small as Hu.
  split; [exists (IZR s); split; [exact Vs|destruct Hs; subst s; lra]|]. split; [exact H0|]. split; [exact H1|]. split; [exact H01|].
  intros g x Hg _. cbn [Kernel]. unfold within. cbn zeta. pose proof (val_abs _ _ Hg) as Ha. rewrite (val_lt _ _ _ _ Ha Vs). pose proof (Rabs_pos x) as Hp.
  assert (IZR s <= 2) as Hs2 by (destruct Hs; subst s; lra). assert (1 <= IZR s) as Hs1 by (destruct Hs; subst s; lra).
  destruct (Rlt_bool_spec (Rabs x) (IZR s)) as [L|L].
  2: { exists 0. split; [exact v0|]. split; [rewrite Rabs_R0; lra|]. split; [lra|left; lra]. }
  set (a := Rabs x) in *. assert (Rabs a = a) as Haa by (apply Rabs_pos_eq; exact Hp).
  destruct (spline b c B C Hb Hc HB HC (fabs g) a Ha ltac:(lra)) as (y & Vy & E). rewrite Haa in E. exists y. split; [exact Vy|]. apply Rabs_le_inv in E.
  destruct (Rlt_dec a 1) as [L1|L1].
  - specialize (Hin a ltac:(lra)). split; [apply Rabs_le; lra|]. split; [intros H; specialize (Hmid a ltac:(lra)); lra|left; lra].
  - assert (s = 2)%Z as Es by (destruct Hs as [->| ->]; [lra|reflexivity]).
    destruct Hout as [Hout|(_ & -> & Hout)].
    + destruct (Hout Es a ltac:(lra)) as (HO & HO1). assert (c1 <= 2). { assert (c0 <= 1); [|lra]. specialize (Hmid 0 ltac:(lra)). specialize (Hin 0 ltac:(lra)). lra. }
      split; [apply Rabs_le; lra|]. split; [lra|]. destruct (Req_dec a 1) as [Ea|Ea]; [left; rewrite Ea in E; lra|right; split; lra].
    + specialize (Hout a ltac:(lra)). split; [apply Rabs_le; lra|]. split; [lra|left; lra].
Qed.
Lemma near0 : near (of_int 0) 0 1. Proof. eapply near_weak; [apply (near_int 0); lia|lra]. Qed.
Lemma near1 : near (of_int 1) 1 1. Proof. eapply near_weak; [apply (near_int 1); lia|lra]. Qed.
Lemma nearhalf : near fhalf (/ 2) 1. Proof. eapply near_weak; [apply near_val, val_half|lra]. Qed.
Lemma nearthird : near third (/ 3) 1.
Proof.
  pose proof u_small as Hu. pose proof h_u. exists (R64 (1 / 3)). split; [apply val_div; [exact v1|apply val_int; cbn; lia|lra|apply huge; apply Rabs_le; lra]|].
  pose proof (R64_bound (1 / 3) (1 / 3) ltac:(rewrite Rabs_pos_eq; lra)). apply Rabs_le. lra.
Qed.
Lemma cubic_mid p q r t a : 0 <= a <= t -> (forall a, 0 <= a <= t -> 0 <= q * (t + a) - p * (t * t + t * a + a * a)) -> p * t * t * t - q * t * t + r <= p * a * a * a - q * a * a + r.
Proof.
  intros Ha H. specialize (H a Ha). assert (0 <= (t - a) * (q * (t + a) - p * (t * t + t * a + a * a))) as E by (apply Rmult_le_pos; lra). lra.
Qed.
Lemma hermite_ok : lobed_kernel (47 / 100) 0 Hermite.
Proof.
  apply (lobed _ _ 0 0 _ _ 1 near0 near0); try lra; try lia.
  - intros a Ha. unfold inner. split.
    + replace (_ / 6) with ((1 - a) * (1 - a) * (1 + 2 * a)) by field. apply Rmult_le_pos; [apply Rmult_le_pos; lra|lra].
    + assert (0 <= a * a * (3 - 2 * a)) by (apply Rmult_le_pos; [apply Rmult_le_pos; lra|lra]). lra.
  - intros a Ha. unfold inner. pose proof (cubic_mid 2 3 1 (51 / 100) a Ha ltac:(intros; nra)). lra.
Qed.
Lemma bspline_ok : lobed_kernel (47 / 100) 0 BSpline.
Proof.
  apply (lobed _ _ 1 0 _ _ 2 near1 near0); try lra; try lia.
  - intros a Ha. unfold inner. split.
    + pose proof (cubic_mid 3 6 4 1 a ltac:(lra) ltac:(intros; nra)). lra.
    + assert (0 <= a * a * (2 - a)) by (apply Rmult_le_pos; [apply Rmult_le_pos; lra|lra]). lra.
  - intros a Ha. unfold inner. pose proof (cubic_mid 3 6 4 (51 / 100) a Ha ltac:(intros; nra)). lra.
  - right. split; [reflexivity|]. split; [reflexivity|]. intros a Ha. unfold outer. replace (_ / 6) with ((2 - a) * ((2 - a) * (2 - a)) / 6) by field. assert (0 <= (2 - a) * (2 - a) <= 1) by nra. nra.
Qed.
Lemma mitchell_ok : lobed_kernel (52 / 100) (4 / 100) MitchellNetravali.
Proof.
  apply (lobed _ _ (/ 3) (/ 3) _ _ 2 nearthird nearthird); try lra; try lia.
  - intros a Ha. unfold inner. split.
    + pose proof (cubic_mid 7 12 (16 / 3) 1 a ltac:(lra) ltac:(intros; nra)). lra.
    + assert (0 <= a * a * (12 - 7 * a)) by (apply Rmult_le_pos; [apply Rmult_le_pos; lra|lra]). lra.
  - intros a Ha. unfold inner. pose proof (cubic_mid 7 12 (16 / 3) (51 / 100) a Ha ltac:(intros; nra)). lra.
  - left. intros _ a Ha. unfold outer. split; [|lra]. replace (_ / 6) with (- (7 / 18) * ((2 - a) * (2 - a)) * (a - 8 / 7)) by field. set (t := 2 - a). replace (a - 8 / 7) with (6 / 7 - t) by (unfold t; field). assert (0 < t <= 1) as Ht by (unfold t; lra). clearbody t.
    replace (- (7 / 18) * (t * t) * (6 / 7 - t)) with (7 / 18 * (t * t * t - 6 / 7 * (t * t))) by field. assert (0 <= (t - 4 / 7) * (t - 4 / 7) * (t + 2 / 7)) by (apply Rmult_le_pos; [apply Rle_0_sqr|lra]). assert (0 <= t * t) by apply Rle_0_sqr. assert (0 <= t * t * (1 - t)) by (apply Rmult_le_pos; lra). split; [lra|]. nra.
Qed.
Lemma catmull_ok : lobed_kernel (54 / 100) (75 / 1000) CatmullRom.
Proof.
  apply (lobed _ _ 0 (/ 2) _ _ 2 near0 nearhalf); try lra; try lia.
  - intros a Ha. unfold inner. split.
    + replace (_ / 6) with ((1 - a) * (1 + a * (1 - 3 / 2 * a))) by field. assert (0 <= 1 + a * (1 - 3 / 2 * a)) by nra. apply Rmult_le_pos; lra.
    + assert (0 <= a * a * (15 - 9 * a)) by (apply Rmult_le_pos; [apply Rmult_le_pos; lra|lra]). lra.
  - intros a Ha. unfold inner. pose proof (cubic_mid 9 15 6 (51 / 100) a Ha ltac:(intros; nra)). lra.
  - left. intros _ a Ha. unfold outer. split; [|lra]. replace (_ / 6) with (- / 2 * ((2 - a) * (2 - a)) * (a - 1)) by field. set (t := 2 - a). replace (a - 1) with (1 - t) by (unfold t; field). assert (0 < t <= 1) as Ht by (unfold t; lra). clearbody t.
    replace (- / 2 * (t * t) * (1 - t)) with (/ 2 * (t * t * t - t * t)) by field. assert (0 <= (t - 2 / 3) * (t - 2 / 3) * (t + / 3)) by (apply Rmult_le_pos; [apply Rle_0_sqr|lra]). assert (0 <= t * t) by apply Rle_0_sqr. assert (0 <= t * t * (1 - t)) by (apply Rmult_le_pos; lra). split; [lra|]. lra.
Qed.
