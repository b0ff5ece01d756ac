(** Go's float64 as Flocq's binary64, rounding to nearest even.  Used for image/adjust.go and image/image.go. *)
From Coq Require Import ZArith Bool Lia Reals Lra Psatz.
From Flocq Require Import Core BinarySingleNaN Relative.
Local Open Scope Z_scope.

(** 53 bits of precision (Go specification, float64; image/adjust.go:101). *)
Lemma prec_ok : FLX.Prec_gt_0 53. Proof. reflexivity. Qed.
(** See [prec_ok] (image/adjust.go:101). *)
Lemma emax_ok : Prec_lt_emax 53 1024. Proof. reflexivity. Qed.
(** float64 (Go specification; image/adjust.go:101). *)
Definition f64 := binary_float 53 1024.
(** float64(z) for an int (image/adjust.go:101). *)
Definition of_int (z : Z) : f64 := binary_normalize 53 1024 prec_ok emax_ok mode_NE z 0 false.
(** x * y (image/adjust.go:106). *)
Definition fmul (x y : f64) : f64 := @Bmult 53 1024 prec_ok emax_ok mode_NE x y.
(** x / y (image/adjust.go:101). *)
Definition fdiv (x y : f64) : f64 := @Bdiv 53 1024 prec_ok emax_ok mode_NE x y.
(** x + y (disintegration/imaging resize.go; image/adjust.go:119). *)
Definition fadd (x y : f64) : f64 := @Bplus 53 1024 prec_ok emax_ok mode_NE x y.
(** math.Sqrt(x) (image/adjust.go:131). *)
Definition fsqrt (x : f64) : f64 := @Bsqrt 53 1024 prec_ok emax_ok mode_NE x.
(** x > y (image/adjust.go:103). *)
Definition fgt (x y : f64) : bool := Bltb y x.
(** int(x): towards zero; on amd64 what does not fit gives the least int64 (Go specification: implementation-dependent;
    image/adjust.go:104). *)
Definition to_int (x : f64) : Z :=
  if is_finite x then
    if (- 2 ^ 63 <=? Btrunc x) && (Btrunc x <? 2 ^ 63) then Btrunc x else - 2 ^ 63
  else - 2 ^ 63.
(** math.Inf(1) (image/image.go:147). *)
Definition finf : f64 := B754_infinity false.
(** 0.5 (disintegration/imaging resize.go; image/adjust.go:119). *)
Definition fhalf : f64 := fdiv (of_int 1) (of_int 2).
(** math.Floor (disintegration/imaging resize.go; image/adjust.go:119). *)
Definition ffloor (x : f64) : f64 := @Bnearbyint 53 1024 emax_ok mode_DN x.
(** math.Min(x, y) of numbers that are no NaN (image/image.go:155). *)
Definition fmin (x y : f64) : f64 := if fgt x y then y else x.
(** math.Max(x, y) of numbers that are no NaN (disintegration/imaging resize.go; image/adjust.go:119). *)
Definition fmax (x y : f64) : f64 := if fgt x y then x else y.

(** ** Rounding *)
Notation R64 := (round radix2 (SpecFloat.fexp 53 1024) (round_mode mode_NE)).
Local Open Scope R_scope.
Definition u : R := bpow radix2 (-53).
#[local] Instance prec_inst : FLX.Prec_gt_0 53 := prec_ok.
Lemma fexp_FLT : forall x, R64 x = round radix2 (FLT_exp (-1074) 53) ZnearestE x.
Proof. reflexivity. Qed.
Lemma R64_mono x y : x <= y -> R64 x <= R64 y.
Proof. rewrite !fexp_FLT. apply round_le; typeclasses eauto. Qed.
Lemma R64_int z : (Z.abs z <= 2 ^ 53)%Z -> R64 (IZR z) = IZR z.
Proof.
  intros Hz. rewrite fexp_FLT. apply round_generic; [typeclasses eauto|].
  destruct (Z.eq_dec (Z.abs z) (2 ^ 53)) as [E|Hn].
  - replace (IZR z) with (F2R (Float radix2 (z / 2 ^ 52) 52)).
    + apply generic_format_FLT. exists (Float radix2 (z / 2 ^ 52) 52); [reflexivity| |cbn; lia]. cbn [Fnum].
      assert (C : (z = 2 ^ 53 \/ z = - 2 ^ 53)%Z) by lia. destruct C as [-> | ->]; reflexivity.
    + unfold F2R. cbn [Fnum Fexp]. replace (bpow radix2 52) with (IZR (2 ^ 52)) by (exact (IZR_Zpower radix2 52 ltac:(lia))).
      rewrite <- mult_IZR. f_equal. assert (C : (z = 2 ^ 53 \/ z = - 2 ^ 53)%Z) by lia. destruct C as [-> | ->]; reflexivity.
  - replace (IZR z) with (F2R (Float radix2 z 0)) by (unfold F2R; cbn; lra). apply generic_format_FLT.
    exists (Float radix2 z 0); [reflexivity|cbn; lia|cbn; lia].
Qed.
Lemma R64_le_int x z : (Z.abs z <= 2 ^ 53)%Z -> x <= IZR z -> R64 x <= IZR z.
Proof. intros Hz Hx. rewrite <- (R64_int z Hz). apply R64_mono, Hx. Qed.
Lemma R64_ge_int x z : (Z.abs z <= 2 ^ 53)%Z -> IZR z <= x -> IZR z <= R64 x.
Proof. intros Hz Hx. rewrite <- (R64_int z Hz). apply R64_mono, Hx. Qed.
(** The relative error. *)
Lemma R64_error x : bpow radix2 (-1022) <= Rabs x -> exists e, Rabs e <= u /\ R64 x = x * (1 + e).
Proof.
  intros Hx. rewrite fexp_FLT.
  destruct (relative_error_N_FLT_ex radix2 (-1074) 53 prec_ok (fun x => negb (Z.even x)) x) as (e & He & Hr); [cbn; exact Hx|].
  exists e. split; [|exact Hr]. unfold u. eapply Rle_trans; [exact He|]. replace (/ 2) with (bpow radix2 (-1)) by (cbn; lra). rewrite <- bpow_plus. apply bpow_le. lia.
Qed.
Lemma u_pos : 0 < u.
Proof. apply bpow_gt_0. Qed.
Lemma u_val : u = / 9007199254740992.
Proof. unfold u. change (-53)%Z with (- (53))%Z. rewrite bpow_opp. f_equal. Qed.
Lemma R64_up x : bpow radix2 (-1022) <= x -> R64 x <= x * (1 + u).
Proof.
  intros Hx. pose proof (bpow_gt_0 radix2 (-1022)) as Hp. destruct (R64_error x) as (e & He & ->); [rewrite Rabs_pos_eq; lra|]. apply Rabs_le_inv in He. nra.
Qed.
Lemma R64_down x : bpow radix2 (-1022) <= x -> x * (1 - u) <= R64 x.
Proof.
  intros Hx. pose proof (bpow_gt_0 radix2 (-1022)) as Hp. destruct (R64_error x) as (e & He & ->); [rewrite Rabs_pos_eq; lra|]. apply Rabs_le_inv in He. nra.
Qed.
Lemma R64_nonneg x : 0 <= x -> 0 <= R64 x.
Proof. intros H. apply (R64_ge_int x 0); [cbn; lia|exact H]. Qed.

(** ** Operations *)
Lemma big_ok x : Rabs x <= bpow radix2 1000 -> Rlt_bool (Rabs (R64 x)) (bpow radix2 1024) = true.
Proof.
  intros Hx. apply Rlt_bool_true. apply Rle_lt_trans with (bpow radix2 1000); [|apply bpow_lt; lia]. rewrite fexp_FLT.
  apply abs_round_le_generic; [typeclasses eauto|typeclasses eauto| |exact Hx]. apply generic_format_bpow. cbn. lia.
Qed.
(** A finite float with a known value. *)
Definition val (f : f64) (x : R) : Prop := is_finite f = true /\ B2R f = x.
Lemma val_of_int z : (Z.abs z <= 2 ^ 63)%Z -> val (of_int z) (R64 (IZR z)).
Proof.
  intros Hz. unfold of_int. pose proof (binary_normalize_correct 53 1024 prec_ok emax_ok mode_NE z 0 false) as C. cbv zeta in C.
  assert (E : F2R (Float radix2 z 0) = IZR z) by (unfold F2R; cbn; lra). rewrite E in C. rewrite big_ok in C.
  - destruct C as (C1 & C2 & _). split; assumption.
  - rewrite <- abs_IZR. apply Rle_trans with (IZR (2 ^ 63)); [apply IZR_le; exact Hz|]. rewrite (IZR_Zpower radix2) by lia. apply bpow_le. lia.
Qed.
Lemma val_int z : (Z.abs z <= 2 ^ 53)%Z -> val (of_int z) (IZR z).
Proof. intros Hz. rewrite <- (R64_int z Hz). apply val_of_int. lia. Qed.
Lemma val_mul f g x y : val f x -> val g y -> Rabs (x * y) <= bpow radix2 1000 -> val (fmul f g) (R64 (x * y)).
Proof.
  intros [F1 F2] [G1 G2] Hb. unfold fmul. pose proof (Bmult_correct 53 1024 prec_ok emax_ok mode_NE f g) as C. rewrite F2, G2, big_ok in C by exact Hb.
  destruct C as (C1 & C2 & _). split; [rewrite C2, F1, G1; reflexivity|exact C1].
Qed.
Lemma val_div f g x y : val f x -> val g y -> y <> 0 -> Rabs (x / y) <= bpow radix2 1000 -> val (fdiv f g) (R64 (x / y)).
Proof.
  intros [F1 F2] [G1 G2] Hy Hb. unfold fdiv. pose proof (Bdiv_correct 53 1024 prec_ok emax_ok mode_NE f g ltac:(rewrite G2; exact Hy)) as C. rewrite F2, G2, big_ok in C by exact Hb.
  destruct C as (C1 & C2 & _). split; [rewrite C2, F1; reflexivity|exact C1].
Qed.
Lemma val_add f g x y : val f x -> val g y -> Rabs (x + y) <= bpow radix2 1000 -> val (fadd f g) (R64 (x + y)).
Proof.
  intros [F1 F2] [G1 G2] Hb. unfold fadd. pose proof (Bplus_correct 53 1024 prec_ok emax_ok mode_NE f g F1 G1) as C. rewrite F2, G2, big_ok in C by exact Hb.
  destruct C as (C1 & C2 & _). split; [exact C2|exact C1].
Qed.
Lemma val_sqrt f x : val f x -> 0 < x -> val (fsqrt f) (R64 (sqrt x)).
Proof.
  intros [F1 F2] Hx. unfold fsqrt. pose proof (Bsqrt_correct 53 1024 prec_ok emax_ok mode_NE f) as (C1 & C2 & _). split; [|rewrite C1, F2; reflexivity].
  rewrite C2. destruct f as [s|s| |s m e H]; cbn in F1, F2; try discriminate; [reflexivity|]. destruct s; [|reflexivity]. exfalso. rewrite <- F2 in Hx.
  apply Rlt_not_le in Hx. apply Hx. unfold F2R. cbn [Fnum Fexp]. pose proof (bpow_gt_0 radix2 e) as Hb. assert (Hm : IZR (cond_Zopp true (Zpos m)) <= 0) by (apply IZR_le; cbn; lia). nra.
Qed.
Lemma val_gt f g x y : val f x -> val g y -> fgt f g = Rlt_bool y x.
Proof. intros [F1 F2] [G1 G2]. unfold fgt. rewrite Bltb_correct by assumption. rewrite F2, G2. reflexivity. Qed.
Lemma val_half : val fhalf (/ 2).
Proof.
  pose proof (val_div (of_int 1) (of_int 2) 1 2 (val_int 1 ltac:(cbn; lia)) (val_int 2 ltac:(cbn; lia)) ltac:(lra)) as H.
  assert (E : R64 (1 / 2) = / 2).
  { replace (1 / 2) with (bpow radix2 (-1)) by (cbn; lra). rewrite fexp_FLT, round_generic; [cbn; lra|typeclasses eauto|apply generic_format_bpow; cbn; lia]. }
  rewrite E in H. apply H. replace (1 / 2) with (bpow radix2 (-1)) by (cbn; lra). rewrite Rabs_pos_eq by apply bpow_ge_0. apply bpow_le. lia.
Qed.
Lemma val_floor f x : val f x -> val (ffloor f) (IZR (Zfloor x)).
Proof.
  intros [F1 F2]. unfold ffloor. pose proof (Bnearbyint_correct 53 1024 emax_ok mode_DN f) as (C1 & C2 & _). split; [rewrite C2; exact F1|]. rewrite C1, F2.
  cbn [round_mode]. unfold round, scaled_mantissa, cexp, F2R, FIX_exp. cbn. rewrite !Rmult_1_r. reflexivity.
Qed.
Lemma Btrunc_val f x : val f x -> Btrunc f = Ztrunc x.
Proof.
  intros [F1 F2]. apply eq_IZR. rewrite (Btrunc_correct 53 1024 emax_ok). rewrite F2.
  unfold round, scaled_mantissa, cexp, F2R, FIX_exp. cbn. rewrite !Rmult_1_r. reflexivity.
Qed.
(** Upper bounds need no care about what does not fit. *)
Lemma to_int_le f x k : val f x -> x < IZR (k + 1) -> (0 <= k)%Z -> (to_int f <= k)%Z.
Proof.
  intros V Hx Hk. unfold to_int. rewrite (proj1 V), (Btrunc_val f x V). destruct (_ && _); [|lia].
  destruct (Rle_or_lt 0 x) as [H0|H0].
  - rewrite Ztrunc_floor by exact H0. apply Z.lt_succ_r. apply lt_IZR. apply Rle_lt_trans with x; [apply Zfloor_lb|]. unfold Z.succ. exact Hx.
  - rewrite Ztrunc_ceil by lra. apply le_IZR. assert (Hc : (Zceil x <= 0)%Z) by (apply Zceil_glb; cbn; lra). apply IZR_le. lia.
Qed.
Lemma to_int_val f x : val f x -> 0 <= x -> x < bpow radix2 63 -> to_int f = Zfloor x.
Proof.
  intros V H0 H1. unfold to_int. rewrite (proj1 V), (Btrunc_val f x V), Ztrunc_floor by exact H0.
  assert (L : (0 <= Zfloor x)%Z) by (apply Zfloor_lub; exact H0).
  assert (U : (Zfloor x < 2 ^ 63)%Z). { apply lt_IZR. apply Rle_lt_trans with x; [apply Zfloor_lb|]. rewrite (IZR_Zpower radix2) by lia. exact H1. }
  replace (- 2 ^ 63 <=? Zfloor x)%Z with true by (symmetry; apply Z.leb_le; lia). replace (Zfloor x <? 2 ^ 63)%Z with true by (symmetry; apply Z.ltb_lt; lia). reflexivity.
Qed.
Lemma to_int_ge f x k : val f x -> IZR k <= x -> (0 <= k)%Z -> x < bpow radix2 63 -> (k <= to_int f)%Z.
Proof.
  intros V Hx Hk Hb. assert (0 <= x) by (apply Rle_trans with (IZR k); [apply IZR_le; exact Hk|exact Hx]). rewrite (to_int_val f x) by assumption. apply Zfloor_lub, Hx.
Qed.
