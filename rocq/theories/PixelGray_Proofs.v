(** imaging.Grayscale and the angle of imaging.Rotate in floating point. *)
From Coq Require Import ZArith List Bool Lia Reals Lra Psatz ZifyBool.
From Flocq Require Import Core BinarySingleNaN.
From Verif Require Import GoInt GoFloat Image_Model Image_Proofs Pixel_Model Pixel_Spec.
Import ListNotations.
Local Open Scope R_scope.

#[local] Instance prec_inst : FLX.Prec_gt_0 53 := prec_ok.
Lemma abserr x : 0 <= x -> (x = 0 \/ / 1267650600228229401496703205376 <= x) -> x - x * u <= R64 x <= x + x * u.
Proof.
  intros H0 [ -> | H].
  - rewrite (R64_int 0) by (cbn; lia). cbn. lra.
  - destruct (near_R64 x H) as [A B]. split; lra.
Qed.
Lemma R64_idem x : R64 (R64 x) = R64 x.
Proof. rewrite !fexp_FLT. apply round_generic; [typeclasses eauto|]. apply generic_format_round; typeclasses eauto. Qed.
Lemma byte_R z : byte z -> 0 <= IZR z <= 255 /\ (IZR z = 0 \/ 1 <= IZR z).
Proof. intros [H1 H2]. split; [split; apply IZR_le; lia|]. destruct (Z.eq_dec z 0) as [ -> |Hn]; [left; reflexivity|right; apply IZR_le; lia]. Qed.
(** One of the three products. *)
Lemma term c z : (1 <= c <= 999)%Z -> byte z ->
  exists v, val (fmul (fdiv (of_int c) (of_int 1000)) (of_int z)) v /\ 0 <= v <= 256 /\
            IZR c / 1000 * IZR z - 1000 * u <= v <= IZR c / 1000 * IZR z + 1000 * u /\ (v = 0 \/ / 2000 <= v) /\
            v = R64 (R64 (IZR c / 1000) * IZR z) /\ 0 <= R64 (IZR c / 1000).
Proof.
  intros Hc Hz. pose proof u_small as Hu. destruct (byte_R z Hz) as [Rz Cz].
  assert (Rc : 1 <= IZR c <= 999) by (split; apply IZR_le; lia).
  destruct (quot_val c 1000 ltac:(lia) ltac:(lia)) as [V [N1 N2]]. cbn [IZR IPR IPR_2] in V, N1, N2.
  change (IZR 1000) with 1000 in *.
  set (k := R64 (IZR c / 1000)) in *. assert (Kc : / 1000 <= IZR c / 1000 <= 999 / 1000) by lra. set (q := IZR c / 1000) in *.
  assert (Kk : / 1500 <= k <= 1) by (split; nra).
  exists (R64 (k * IZR z)). split; [|split; [|split; [|split; [|split]]]].
  - apply val_mul; [exact V|apply val_int; destruct Hz; lia|]. apply huge. rewrite Rabs_pos_eq; nra.
  - split; [apply R64_nonneg; nra|]. apply (R64_le_int _ 256); [cbn; lia|]. cbn. nra.
  - assert (A : k * IZR z - k * IZR z * u <= R64 (k * IZR z) <= k * IZR z + k * IZR z * u).
    { apply abserr; [nra|]. destruct Cz as [C|C]; [left; rewrite C; lra|right; nra]. }
    assert (B : q * IZR z - 255 * u <= k * IZR z <= q * IZR z + 255 * u) by nra.
    assert (D : 0 <= k * IZR z <= 255) by nra. split; nra.
  - destruct Cz as [C|C]; [left; rewrite C, Rmult_0_r; exact (R64_int 0 ltac:(cbn; lia))|right].
    destruct (near_R64 (k * IZR z)) as [A B]; [nra|]. nra.
  - reflexivity.
  - lra.
Qed.
(** A sum of two that are 0 or not tiny. *)
Lemma plus_val f g x y : val f x -> val g y -> 0 <= x <= 1000 -> 0 <= y <= 1000 -> (x = 0 \/ / 2000 <= x) -> (y = 0 \/ / 2000 <= y) ->
  exists v, val (fadd f g) v /\ v = R64 (x + y) /\ x + y - 2000 * u <= v <= x + y + 2000 * u /\ (v = 0 \/ / 4000 <= v) /\ 0 <= v.
Proof.
  intros Vf Vg Hx Hy Cx Cy. pose proof u_small as Hu. exists (R64 (x + y)).
  assert (C : x + y = 0 \/ / 2000 <= x + y) by (destruct Cx, Cy; [left|right|right|right]; lra).
  assert (A : (x + y) - (x + y) * u <= R64 (x + y) <= (x + y) + (x + y) * u) by (apply abserr; [lra|destruct C; [left; lra|right; lra]]).
  split; [|split; [reflexivity|split; [split; nra|split]]].
  - apply val_add; [exact Vf|exact Vg|]. apply huge. rewrite Rabs_pos_eq; lra.
  - destruct C as [C|C]; [left; rewrite C; exact (R64_int 0 ltac:(cbn; lia))|right; nra].
  - apply R64_nonneg. lra.
Qed.
(** The float that is cut off: near the luma plus a half, and given by a formula that grows with the channels. *)
Definition kk (c : Z) : R := R64 (IZR c / 1000).
Definition formula (r g b : Z) : R := R64 (R64 (R64 (R64 (kk 299 * IZR r) + R64 (kk 587 * IZR g)) + R64 (kk 114 * IZR b)) + / 2).
Lemma luma_val r g b : byte r -> byte g -> byte b ->
  luma r g b = Zfloor (formula r g b) /\ 0 <= formula r g b < 256 /\
  IZR (299 * r + 587 * g + 114 * b + 500) / 1000 - / 1000000 <= formula r g b <= IZR (299 * r + 587 * g + 114 * b + 500) / 1000 + / 1000000.
Proof.
  intros Hr Hg Hb. pose proof u_small as Hu.
  destruct (term 299 r ltac:(lia) Hr) as (a & Va & Ba & Ea & Ca & Fa & _). destruct (term 587 g ltac:(lia) Hg) as (c & Vc & Bc & Ec & Cc & Fc & _).
  destruct (term 114 b ltac:(lia) Hb) as (d & Vd & Bd & Ed & Cd & Fd & _).
  destruct (byte_R r Hr) as [Rr _]. destruct (byte_R g Hg) as [Rg _]. destruct (byte_R b Hb) as [Rb _].
  destruct (plus_val _ _ _ _ Va Vc ltac:(lra) ltac:(lra) Ca Cc) as (s & Vs & Fs & Es & Cs & Ps).
  assert (Bs : s <= 600) by lra.
  assert (S4 : s = 0 \/ / 2000 <= s).
  { destruct Ca as [Ca|Ca], Cc as [Cc|Cc].
    - left. rewrite Fs, Ca, Cc, Rplus_0_r. exact (R64_int 0 ltac:(cbn; lia)).
    - right. rewrite Fs, Ca, Rplus_0_l. rewrite Fc, R64_idem, <- Fc. exact Cc.
    - right. rewrite Fs, Cc, Rplus_0_r. rewrite Fa, R64_idem, <- Fa. exact Ca.
    - right. lra. }
  destruct (plus_val _ _ _ _ Vs Vd ltac:(lra) ltac:(lra) S4 Cd) as (t & Vt & Ft & Et & Ct & Pt).
  assert (Bt : t <= 900) by lra.
  assert (Vf : val (fadd (fadd (fadd (fmul k299 (of_int r)) (fmul k587 (of_int g))) (fmul k114 (of_int b))) fhalf) (R64 (t + / 2))).
  { apply val_add; [exact Vt|exact val_half|]. apply huge. rewrite Rabs_pos_eq; lra. }
  assert (A : (t + / 2) - (t + / 2) * u <= R64 (t + / 2) <= (t + / 2) + (t + / 2) * u) by (apply abserr; [lra|right; lra]).
  assert (M : 0 <= (t + / 2) * u <= 1000 * u) by (clear - Pt Bt Hu; nra).
  assert (F : R64 (t + / 2) = formula r g b). { unfold formula, kk. rewrite <- Fa, <- Fc, <- Fd, <- Fs, <- Ft. reflexivity. }
  assert (N : IZR (299 * r + 587 * g + 114 * b + 500) / 1000 = 299 / 1000 * IZR r + 587 / 1000 * IZR g + 114 / 1000 * IZR b + / 2).
  { rewrite !plus_IZR, !mult_IZR. field. }
  assert (B1 : IZR (299 * r + 587 * g + 114 * b + 500) / 1000 - / 1000000 <= R64 (t + / 2) <= IZR (299 * r + 587 * g + 114 * b + 500) / 1000 + / 1000000) by (rewrite N; split; lra).
  rewrite F in *. assert (B2 : 0 <= formula r g b < 256).
  { rewrite N in B1. split; lra. }
  split; [|split; [exact B2|exact B1]]. unfold luma. rewrite (to_int_val _ _ Vf); [|lra|apply Rlt_trans with 256; [lra|change 256 with (bpow radix2 8); apply bpow_lt; lia]].
  assert (0 <= Zfloor (formula r g b))%Z by (apply Zfloor_lub; cbn; lra).
  assert (Zfloor (formula r g b) < 256)%Z by (apply lt_IZR; apply Rle_lt_trans with (formula r g b); [apply Zfloor_lb|cbn; lra]).
  unfold u8. apply Z.mod_small. lia.
Qed.
Lemma luma_nearest r g b : byte r -> byte g -> byte b -> byte (luma r g b) /\ (2 * Z.abs (1000 * luma r g b - (299 * r + 587 * g + 114 * b)) <= 1000)%Z.
Proof.
  intros Hr Hg Hb. destruct (luma_val r g b Hr Hg Hb) as (E & B & N). set (n := (299 * r + 587 * g + 114 * b)%Z) in *. set (y := luma r g b) in *. set (f := formula r g b) in *.
  pose proof (Zfloor_lb f) as L. pose proof (Zfloor_ub f) as U. rewrite <- E in L, U.
  assert (Hy : byte y).
  { split; [|apply lt_IZR; cbn; lra]. rewrite E. apply Zfloor_lub. cbn. lra. }
  split; [exact Hy|]. rewrite plus_IZR in N.
  assert (L1 : (1000 * y < n + 501)%Z). { apply lt_IZR. rewrite mult_IZR, !plus_IZR. lra. }
  assert (U1 : (n + 499 < 1000 * y + 1000)%Z). { apply lt_IZR. rewrite !plus_IZR, mult_IZR. lra. }
  lia.
Qed.
Lemma formula_mono r g b r' g' b' : (0 <= r <= r')%Z -> (0 <= g <= g')%Z -> (0 <= b <= b')%Z -> formula r g b <= formula r' g' b'.
Proof.
  intros Hr Hg Hb.
  assert (K : forall c, (0 <= c)%Z -> 0 <= kk c) by (intros c Hc; apply R64_nonneg; apply IZR_le in Hc; lra).
  assert (M : forall c z z', (0 <= c)%Z -> (0 <= z <= z')%Z -> R64 (kk c * IZR z) <= R64 (kk c * IZR z')).
  { intros c z z' Hc [H1 H2]. apply R64_mono. apply Rmult_le_compat_l; [apply K; exact Hc|apply IZR_le; exact H2]. }
  unfold formula. apply R64_mono, Rplus_le_compat_r, R64_mono, Rplus_le_compat; [apply R64_mono, Rplus_le_compat|]; apply M; lia.
Qed.
Lemma luma_mono r g b r' g' b' : byte r -> byte g -> byte b -> byte r' -> byte g' -> byte b' -> (r <= r')%Z -> (g <= g')%Z -> (b <= b')%Z -> (luma r g b <= luma r' g' b')%Z.
Proof.
  intros [] [] [] [] [] [] ? ? ?. rewrite (proj1 (luma_val r g b ltac:(split; lia) ltac:(split; lia) ltac:(split; lia))), (proj1 (luma_val r' g' b' ltac:(split; lia) ltac:(split; lia) ltac:(split; lia))).
  apply Zfloor_le, formula_mono; lia.
Qed.

(** ** The angle *)
Lemma val_sub f g x y : val f x -> val g y -> Rabs (x - y) <= bpow radix2 1000 -> val (fsub f g) (R64 (x - y)).
Proof.
  intros [F1 F2] [G1 G2] Hb. unfold fsub. pose proof (Bminus_correct 53 1024 prec_ok emax_ok mode_NE f g F1 G1) as C. rewrite F2, G2, big_ok in C by exact Hb.
  destruct C as (C1 & C2 & _). split; [exact C2|exact C1].
Qed.
Lemma val_eq f g x y : val f x -> val g y -> feq f g = Req_bool x y.
Proof. intros [F1 F2] [G1 G2]. unfold feq. rewrite Beqb_correct by assumption. rewrite F2, G2. reflexivity. Qed.
Lemma floor_div d : (- 2 ^ 53 < d < 2 ^ 53)%Z -> Zfloor (R64 (IZR d / 360)) = (d / 360)%Z.
Proof.
  intros Hd. pose proof u_small as Hu. set (k := (d / 360)%Z). pose proof (Z.mod_pos_bound d 360 ltac:(lia)) as Hm. pose proof (Z.div_mod d 360 ltac:(lia)) as E. fold k in E.
  assert (Ed : IZR d / 360 = IZR k + IZR (d mod 360) / 360). { rewrite E at 1. rewrite plus_IZR, mult_IZR. field. }
  assert (Rm : 0 <= IZR (d mod 360) <= 359) by (split; apply IZR_le; lia).
  assert (Hk : (Z.abs k <= 2 ^ 53)%Z) by (unfold k in *; nia).
  apply Zfloor_imp. split.
  - apply R64_ge_int; [exact Hk|]. lra.
  - destruct (Z.eq_dec d 0) as [Z0|Hn].
    { subst k d. change (0 / 360)%Z with 0%Z. replace (0 / 360) with 0 by lra. rewrite (R64_int 0) by (cbn; lia). cbn. lra. }
    assert (Rd : -9007199254740992 < IZR d < 9007199254740992) by (split; apply IZR_lt; lia).
    assert (A1 : 1 <= Rabs (IZR d)). { rewrite <- abs_IZR. apply IZR_le. lia. }
    assert (A2 : Rabs (IZR d) < 9007199254740992) by (apply Rabs_def1; lra).
    destruct (R64_error (IZR d / 360)) as (e & He & ->).
    { apply tiny. unfold Rdiv. rewrite Rabs_mult, (Rabs_pos_eq (/ 360)) by lra. lra. }
    assert (B : Rabs (IZR d / 360 * e) < / 360).
    { unfold Rdiv. rewrite !Rabs_mult, (Rabs_pos_eq (/ 360)) by lra. rewrite u_val in He. pose proof (Rabs_pos e) as Pe.
      assert (Rabs (IZR d) * Rabs e < 1). { apply Rle_lt_trans with (Rabs (IZR d) * / 9007199254740992); [apply Rmult_le_compat_l; lra|lra]. }
      lra. }
    apply Rabs_def2 in B. rewrite plus_IZR. change (IZR 1) with 1. replace (IZR d / 360 * (1 + e)) with (IZR d / 360 + IZR d / 360 * e) by ring. rewrite Ed at 1. lra.
Qed.
(** Multiples of 8 need three bits less. *)
Lemma R64_int8 z : (Z.abs z <= 2 ^ 53)%Z -> R64 (IZR (8 * z)) = IZR (8 * z).
Proof.
  intros Hz. rewrite fexp_FLT. apply round_generic; [typeclasses eauto|].
  destruct (Z.eq_dec (Z.abs z) (2 ^ 53)) as [E|Hn].
  - replace (IZR (8 * z)) with (F2R (Float radix2 (z / 2 ^ 53) 56)).
    + apply generic_format_FLT. exists (Float radix2 (z / 2 ^ 53) 56); [reflexivity| |cbn; lia]. cbn [Fnum].
      assert (C : (z = 2 ^ 53 \/ z = - 2 ^ 53)%Z) by lia. destruct C as [-> | ->]; reflexivity.
    + unfold F2R. cbn [Fnum Fexp]. replace (bpow radix2 56) with (IZR (2 ^ 56)) by (exact (IZR_Zpower radix2 56 ltac:(lia))).
      rewrite <- mult_IZR. f_equal. assert (C : (z = 2 ^ 53 \/ z = - 2 ^ 53)%Z) by lia. destruct C as [-> | ->]; reflexivity.
  - replace (IZR (8 * z)) with (F2R (Float radix2 z 3)) by (unfold F2R; cbn [Fnum Fexp]; rewrite mult_IZR; change (bpow radix2 3) with 8; ring). apply generic_format_FLT.
    exists (Float radix2 z 3); [reflexivity|cbn; lia|cbn; lia].
Qed.
Lemma norm_val d : (- 2 ^ 53 < d < 2 ^ 53)%Z -> val (normAngle d) (IZR (d mod 360)).
Proof.
  intros Hd. unfold normAngle. cbv zeta.
  assert (Rd : -9007199254740992 <= IZR d <= 9007199254740992) by (split; apply IZR_le; lia).
  assert (V1 : val (of_int d) (IZR d)) by (apply val_int; lia). assert (V2 : val (of_int 360) 360) by (apply (val_int 360); lia).
  assert (V3 : val (fdiv (of_int d) (of_int 360)) (R64 (IZR d / 360))).
  { apply val_div; [exact V1|exact V2|lra|]. apply huge. apply Rabs_le. lra. }
  apply val_floor in V3. rewrite floor_div in V3 by exact Hd. set (k := (d / 360)%Z) in *.
  pose proof (Z.mod_pos_bound d 360 ltac:(lia)) as Hm. pose proof (Z.div_mod d 360 ltac:(lia)) as E. fold k in E.
  assert (Rk : -9007199254740992 <= IZR k <= 9007199254740992) by (split; apply IZR_le; unfold k in *; nia).
  assert (V4 : val (fmul (ffloor (fdiv (of_int d) (of_int 360))) (of_int 360)) (R64 (IZR k * 360))).
  { apply val_mul; [exact V3|exact V2|]. apply huge. apply Rabs_le. lra. }
  replace (IZR k * 360) with (IZR (8 * (45 * k))) in V4 by (rewrite !mult_IZR; lra).
  rewrite R64_int8 in V4 by (unfold k in *; nia).
  assert (V5 := val_sub _ _ _ _ V1 V4). replace (IZR d - IZR (8 * (45 * k))) with (IZR (d mod 360)) in V5.
  - rewrite R64_int in V5 by lia. apply V5. apply huge. apply Rabs_le. assert (0 <= IZR (d mod 360) <= 360) by (split; apply IZR_le; lia). lra.
  - rewrite <- minus_IZR. f_equal. lia.
Qed.
Lemma feq_norm d c : (- 2 ^ 53 < d < 2 ^ 53)%Z -> (0 <= c < 360)%Z -> feq (normAngle d) (of_int c) = (d mod 360 =? c)%Z.
Proof.
  intros Hd Hc. rewrite (val_eq _ _ _ _ (norm_val d Hd) (val_int c ltac:(lia))). destruct (Z.eqb_spec (d mod 360) c) as [ -> |Hn].
  - apply Req_bool_true. reflexivity.
  - apply Req_bool_false. intros E. apply eq_IZR in E. lia.
Qed.
Lemma norm_same d d' : (- 2 ^ 53 < d < 2 ^ 53)%Z -> (- 2 ^ 53 < d' < 2 ^ 53)%Z -> (d mod 360 = d' mod 360)%Z -> (d mod 360 <> 0)%Z -> normAngle d = normAngle d'.
Proof.
  intros Hd Hd' E Hn. destruct (norm_val d Hd) as [F1 F2]. destruct (norm_val d' Hd') as [G1 G2]. rewrite <- E in G2.
  assert (N : IZR (d mod 360) <> 0) by (intros Z0; apply (eq_IZR _ 0) in Z0; lia).
  apply B2R_inj; [| |rewrite F2, G2; reflexivity].
  - destruct (normAngle d) as [s|s| |s m e H]; cbn in F1, F2 |- *; try discriminate; [exfalso; apply N; symmetry; exact F2|reflexivity].
  - destruct (normAngle d') as [s|s| |s m e H]; cbn in G1, G2 |- *; try discriminate; [exfalso; apply N; symmetry; exact G2|reflexivity].
Qed.
