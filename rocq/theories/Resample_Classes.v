(** Kernels for which the weights are fit for mixing. *)
From Coq Require Import ZArith List Bool Lia Reals Lra Psatz.
From Flocq Require Import Core BinarySingleNaN.
From Verif Require Import GoInt GoFloat Image_Model Pixel_Model Resample_Model Resample_Err Resample_Mix Resample_Weights Resample_Place.
Import ListNotations.
Local Open Scope R_scope.

(** A kernel that is not negative. *)
Definition nonneg_kernel (f : resampleFilter) : Prop :=
  (exists S, val (Support f) S /\ / 2 <= S <= 3) /\
  forall g x, val g x -> Rabs x <= 2097152 -> exists y, val (Kernel f g) y /\ 0 <= y <= 2 /\ (Rabs x <= / 2 -> / 4 <= y).
(** A kernel that is at least c0 up to 1/2 and at least -c1 from 1 to 2, and not negative elsewhere but for rounding. *)
Definition lobed_kernel (c0 c1 : R) (f : resampleFilter) : Prop :=
  (exists S, val (Support f) S /\ 1 <= S <= 3) /\ / 4 <= c0 /\ 0 <= c1 /\ 4 * c1 <= 94 / 100 * c0 /\
  forall g x, val g x -> Rabs x <= 2097152 -> exists y, val (Kernel f g) y /\ Rabs y <= 2 /\ (Rabs x <= / 2 + / 33554432 -> c0 <= y) /\
    (- / 1099511627776 <= y \/ 1 < Rabs x < 2 /\ - c1 <= y).

Lemma to_int_IZR g k : val g (IZR k) -> (- 2 ^ 63 <= k < 2 ^ 63)%Z -> to_int g = k.
Proof.
  intros H Hk. unfold to_int. destruct H as [Hf HR]. rewrite Hf, (Btrunc_val g (IZR k) (conj Hf HR)), Ztrunc_IZR. destruct ((- 2 ^ 63 <=? k) && (k <? 2 ^ 63))%Z eqn:E; [reflexivity|lia].
Qed.
Lemma R64_half : R64 (/ 2) = / 2.
Proof. pose proof val_half as [_ <-]. apply round_generic; [apply valid_rnd_round_mode|]. apply generic_format_B2R. Qed.
Lemma R64_mhalf : R64 (- / 2) = - / 2.
Proof. pose proof (val_neg _ _ val_half) as [_ <-]. apply round_generic; [apply valid_rnd_round_mode|]. apply generic_format_B2R. Qed.
Lemma R64_half_le x : Rabs x <= / 2 -> Rabs (R64 x) <= / 2.
Proof. intros H. apply Rabs_le_inv in H. apply Rabs_le. rewrite <- R64_half at 2. rewrite <- R64_mhalf. split; apply R64_mono; lra. Qed.
Lemma sumR_filter {A} (p : A -> bool) (g : A -> R) l : (forall x, In x l -> p x = false -> g x = 0) -> sumR (map g (filter p l)) = sumR (map g l).
Proof.
  induction l as [|x l IH]; intros H; [reflexivity|]. cbn [filter map sumR]. specialize (IH (fun y Hy => H y (or_intror Hy))). destruct (p x) eqn:E; cbn [map sumR]; rewrite IH; [reflexivity|]. rewrite (H x (or_introl eq_refl) E). ring.
Qed.
Lemma filter_le {A} (p : A -> bool) l : (length (filter p l) <= length l)%nat.
Proof. induction l as [|x l IH]; cbn [filter length]; [lia|]. destruct (p x); cbn [length]; lia. Qed.

Section weights.
Variable f : resampleFilter.
Variables src dst v : Z.
Hypothesis Hsrc : (1 <= src <= 2 ^ 20)%Z.
Hypothesis Hdst : (1 <= dst <= 2 ^ 20)%Z.
Hypothesis Hv : (0 <= v < dst)%Z.
Definition ruF : f64 := fceil (fmul (scaleF src dst) (Support f)).
Definition beginI : Z := let b := to_int (fceil (fsub (fuF src dst v) ruF)) in if (b <? 0)%Z then 0%Z else b.
Definition endI : Z := let e := to_int (ffloor (fadd (fuF src dst v) ruF)) in if (src - 1 <? e)%Z then (src - 1)%Z else e.
Definition winI : list Z := zseq beginI (Z.to_nat (endI - beginI + 1)).
Definition KF (z : Z) : f64 := Kernel f (xF src dst v z).
Definition tmpI : list (Z * f64) := filter (fun uw => negb (feq (snd uw) (of_int 0))) (map (fun z => (z, KF z)) winI).
Lemma weightsAt_eq : weightsAt f dst src v = let sum := fold_left (fun sum uw => fadd sum (snd uw)) tmpI (of_int 0) in
  if feq sum (of_int 0) then tmpI else map (fun uw => (fst uw, fdiv (snd uw) sum)) tmpI.
Proof. unfold weightsAt, tmpI, winI, KF, beginI, endI, ruF, xF, fuF, scaleF, duF. cbn zeta. reflexivity. Qed.
Lemma win_in z : In z winI -> (0 <= z < src)%Z.
Proof.
  unfold winI. rewrite in_zseq. assert (0 <= beginI)%Z by (unfold beginI; cbn zeta; destruct (_ <? 0)%Z eqn:E; lia). assert (endI <= src - 1)%Z by (unfold endI; cbn zeta; destruct (src - 1 <? _)%Z eqn:E; lia). lia.
Qed.
Lemma win_length : (Z.of_nat (length winI) <= 1048576)%Z.
Proof.
  unfold winI. rewrite zseq_length. assert (0 <= beginI)%Z by (unfold beginI; cbn zeta; destruct (_ <? 0)%Z eqn:E; lia). assert (endI <= src - 1)%Z by (unfold endI; cbn zeta; destruct (src - 1 <? _)%Z eqn:E; lia).
  change (2 ^ 20)%Z with 1048576%Z in *. lia.
Qed.
Lemma ru_val S : val (Support f) S -> / 2 <= S <= 3 -> exists r, val ruF r /\ 1 <= r <= 4194304 /\ (1 <= S -> IZR (D src dst) / IZR dst * (1 - / 1125899906842624) <= r).
Proof.
  intros HS HSr. destruct (scale_val src dst Hsrc Hdst) as (c & Hc & Ec & Hc1). pose proof (sc_R src dst Hsrc Hdst) as (S1 & S2 & S3 & _). pose proof u_small.
  assert (c <= 1048577) by nra. assert (0 <= c * S <= 3145731) as Hcs by nra.
  assert (val (fmul (scaleF src dst) (Support f)) (R64 (c * S))) as V. { apply val_mul; [exact Hc|exact HS|]. apply huge. apply Rabs_le. lra. }
  apply val_ceil in V. set (y := R64 (c * S)) in *. exists (IZR (Zceil y)). split; [exact V|]. pose proof (Zceil_ub y) as U. pose proof (R64_bound (c * S) 3145731 ltac:(apply Rabs_le; lra)) as E. fold y in E.
  assert (/ 2 <= y) as Hy. { rewrite <- R64_half. apply R64_mono. nra. }
  assert (IZR (Zceil y) < y + 1) as Z1 by (pose proof (Zceil_lb y); lra). split; [split|].
  - apply IZR_le. assert (0 < Zceil y)%Z; [|lia]. apply lt_IZR. lra.
  - unfold h in E. lra.
  - intros H1. assert (c * (1 - / 4503599627370496) <= y) as Hcy; [|set (sc := IZR (D src dst) / IZR dst) in *; assert (sc * (1 - / 4503599627370496) * (1 - / 4503599627370496) <= c * (1 - / 4503599627370496)) by (apply Rmult_le_compat_r; lra); lra].
    assert (c <= c * S) by (rewrite <- (Rmult_1_r c) at 1; apply Rmult_le_compat_l; lra). apply (Rle_trans _ (R64 c)); [|apply R64_mono; lra]. destruct Hc as [_ <-]. rewrite round_generic; [|apply valid_rnd_round_mode|apply generic_format_B2R]. lra.
Qed.
(** What is close enough is looked at. *)
Lemma win_has S x z : val (Support f) S -> / 2 <= S <= 3 -> val (fuF src dst v) x -> (0 <= z < src)%Z ->
  (Rabs (IZR z - x) <= 1 \/ 1 <= S /\ Rabs (IZR z - x) <= IZR (D src dst) / IZR dst * (1 - / 1125899906842624)) -> (beginI <= z <= endI)%Z.
Proof.
  intros HS HSr Hx Hz Hd. destruct (ru_val S HS HSr) as (r & Hr & Er & Er2). assert (- r <= IZR z - x <= r) as Hzr. { apply Rabs_le_inv. destruct Hd as [Hd|[HS1 Hd]]; [lra|specialize (Er2 HS1); lra]. } clear Hd.
  change (2 ^ 20)%Z with 1048576%Z in *. assert (0 <= IZR z <= 1048576) as HzR by (split; apply IZR_le; lia).
  destruct (fu_val src dst v Hsrc Hdst Hv) as (x' & Hx' & Ex). rewrite (val_unique _ _ _ Hx' Hx) in Ex. clear x' Hx'. pose proof (fu_R src dst v Hsrc Hdst Hv) as Hfu. pose proof (sd src dst Hsrc Hdst) as [Hs1 _].
  set (fu := (IZR v + / 2) * (IZR src / IZR dst) - / 2) in *. assert (- 1 <= x <= 1048577) as Hxr by lra.
  assert (val (fsub (fuF src dst v) ruF) (R64 (x - r))) as V1. { apply val_sub; [exact Hx|exact Hr|]. apply huge. apply Rabs_le. lra. }
  assert (val (fadd (fuF src dst v) ruF) (R64 (x + r))) as V2. { apply val_add; [exact Hx|exact Hr|]. apply huge. apply Rabs_le. lra. }
  apply val_ceil in V1. apply val_floor in V2. pose proof u_small as Hu.
  pose proof (R64_bound (x - r) 5242882 ltac:(apply Rabs_le; lra)) as B1. pose proof (R64_bound (x + r) 5242882 ltac:(apply Rabs_le; lra)) as B2.
  assert (R64 (x - r) <= IZR z) as L1 by (apply R64_le_int; [change (2 ^ 53)%Z with 9007199254740992%Z; lia|lra]).
  assert (IZR z <= R64 (x + r)) as L2 by (apply R64_ge_int; [change (2 ^ 53)%Z with 9007199254740992%Z; lia|lra]).
  set (a := R64 (x - r)) in *. set (b := R64 (x + r)) in *.
  assert (Zceil a <= z)%Z as C1 by (apply Zceil_glb; exact L1). assert (z <= Zfloor b)%Z as C2 by (apply Zfloor_lub; exact L2).
  assert (-1048576000 <= Zceil a)%Z as C3. { apply le_IZR. pose proof (Zceil_ub a). unfold h in B1. lra. }
  assert (Zfloor b <= 1048576000)%Z as C4. { apply le_IZR. pose proof (Zfloor_lb b). unfold h in B2. lra. }
  assert (to_int (fceil (fsub (fuF src dst v) ruF)) = Zceil a) as T1 by (apply to_int_IZR; [exact V1|change (2 ^ 63)%Z with 9223372036854775808%Z; lia]).
  assert (to_int (ffloor (fadd (fuF src dst v) ruF)) = Zfloor b) as T2 by (apply to_int_IZR; [exact V2|change (2 ^ 63)%Z with 9223372036854775808%Z; lia]).
  unfold beginI, endI. cbn zeta. rewrite T1, T2. destruct (Zceil a <? 0)%Z eqn:Q1, (src - 1 <? Zfloor b)%Z eqn:Q2; lia.
Qed.

Definition Y (z : Z) : R := B2R (KF z).
Hypothesis Kfin : forall z, (0 <= z < src)%Z -> is_finite (KF z) = true /\ Rabs (Y z) <= 2.
Lemma tmp_fin iw : In iw tmpI -> is_finite (snd iw) = true /\ (0 <= fst iw < src)%Z.
Proof. unfold tmpI. rewrite filter_In, in_map_iff. intros ((z & <- & Hz) & _). apply win_in in Hz. split; [apply (Kfin z Hz)|exact Hz]. Qed.
Lemma tmp_sum (g : R -> R) : g 0 = 0 -> sumR (map (fun iw => g (R2 iw)) tmpI) = sumR (map (fun z => g (Y z)) winI).
Proof.
  intros H0. unfold tmpI. rewrite sumR_filter; [rewrite map_map; reflexivity|]. intros iw Hi E. apply in_map_iff in Hi as (z & <- & Hz). apply win_in in Hz. cbn [snd] in E. apply negb_false_iff in E.
  rewrite (val_eq _ _ (Y z) 0 (conj (proj1 (Kfin z Hz)) eq_refl) (val_int 0 ltac:(lia))) in E. unfold R2. cbn [snd]. fold (Y z). revert E. destruct (Req_bool_spec (Y z) 0) as [ -> |]; [intros _; exact H0|discriminate].
Qed.
Lemma tmp_length : INR (length tmpI) <= n20.
Proof.
  unfold n20. rewrite INR_IZR_INZ. apply IZR_le. apply (Z.le_trans _ (Z.of_nat (length winI))); [|exact win_length]. apply Nat2Z.inj_le. unfold tmpI. rewrite filter_le, map_length. reflexivity.
Qed.
(** Enough that the negative part is small. *)
Lemma weights_fine pos neg rho : sumR (map (fun z => (Rabs (Y z) + Y z) / 2) winI) = pos -> sumR (map (fun z => (Rabs (Y z) - Y z) / 2) winI) = neg ->
  / 32 <= pos -> 41 * neg <= 39 * pos -> 2 * neg <= rho * (pos - neg) -> 0 <= rho ->
  fine (2 * rho + / 1048576) (weightsAt f dst src v) /\ forall iw, In iw (weightsAt f dst src v) -> (0 <= fst iw < src)%Z.
Proof.
  intros Hp Hn H1 H2 H3 H4. rewrite weightsAt_eq. cbn zeta.
  assert (sumR (map (fun iw => Rabs (R2 iw)) tmpI) = pos + neg) as EP.
  { rewrite (tmp_sum Rabs Rabs_R0), <- Hp, <- Hn, <- sumR_map_plus. f_equal. apply map_ext. intros z. field. }
  assert (sumR (map R2 tmpI) = pos - neg) as ES.
  { transitivity (sumR (map Y winI)); [apply (tmp_sum (fun x => x) eq_refl)|]. rewrite <- Hp, <- Hn, <- sumR_diff. f_equal. apply map_ext. intros z. field. }
  assert (pos + neg <= 4194304) as HP4.
  { rewrite <- EP, (tmp_sum Rabs Rabs_R0). eapply Rle_trans; [apply (sumR_map_le _ (fun _ => 2)); intros z Hz; apply (Kfin z (win_in z Hz))|]. rewrite sumR_const. pose proof (IZR_le _ _ win_length) as Hl. rewrite INR_IZR_INZ. lra. }
  pose proof (normalise tmpI rho (fun iw Hi => proj1 (tmp_fin iw Hi)) tmp_length) as Norm. cbn zeta in Norm. rewrite EP, ES in Norm.
  assert (/ 1024 <= pos - neg) as G1 by lra. assert (pos + neg <= 40 * (pos - neg)) as G2 by lra. assert (pos + neg - (pos - neg) <= rho * (pos - neg)) as G3 by lra.
  destruct (Norm HP4 G1 G2 G3 H4) as [E F]. rewrite E. split; [exact F|]. intros iw Hi. apply in_map_iff in Hi as (x & <- & Hx). cbn [fst]. apply (tmp_fin x Hx).
Qed.
End weights.

Section classes.
Variable f : resampleFilter.
Variables src dst v : Z.
Hypothesis Hsrc : (1 <= src <= 2 ^ 20)%Z.
Hypothesis Hdst : (1 <= dst <= 2 ^ 20)%Z.
Hypothesis Hv : (0 <= v < dst)%Z.
Notation win := (winI f src dst v).
Notation y := (Y f src dst v).
Notation begin_ := (beginI f src dst v).
Notation end_ := (endI f src dst v).

Lemma D_pos : (1 <= D src dst)%Z /\ (src <= D src dst)%Z /\ (dst <= D src dst)%Z /\ (D src dst <= 1048576)%Z.
Proof. change (2 ^ 20)%Z with 1048576%Z in *. unfold D. lia. Qed.
Lemma x_small z x : (0 <= z < src)%Z -> val (xF src dst v z) x -> Rabs x <= 2097152.
Proof.
  intros Hz Hx. destruct (x_val src dst v Hsrc Hdst Hv z Hz) as (x' & Hx' & E). rewrite (val_unique _ _ _ Hx' Hx) in E. pose proof D_pos as (D1 & D2 & D3 & D4).
  assert (0 < 2 * IZR (D src dst)) as HD by (apply IZR_le in D1; lra). assert (Rabs (IZR (N src dst v z)) <= 2097151 * (2 * IZR (D src dst))) as HN.
  { rewrite <- abs_IZR, <- mult_IZR, <- mult_IZR. apply IZR_le. unfold N. change (2 ^ 20)%Z with 1048576%Z in *. nia. }
  assert (Rabs (IZR (N src dst v z) / (2 * IZR (D src dst))) <= 2097151) as HQ.
  { unfold Rdiv. rewrite Rabs_mult, (Rabs_pos_eq (/ _)) by (apply Rlt_le, Rinv_0_lt_compat; lra). apply (Rmult_le_reg_r (2 * IZR (D src dst))); [lra|]. rewrite Rmult_assoc, Rinv_l, Rmult_1_r by lra. exact HN. }
  apply Rabs_le_inv in HQ. apply Rabs_le. lra.
Qed.
Lemma nonneg_fine : nonneg_kernel f -> fine (/ 1048576) (weightsAt f dst src v) /\ forall iw, In iw (weightsAt f dst src v) -> (0 <= fst iw < src)%Z.
Proof.
  intros ((S & HS & HSr) & HK).
  assert (HY : forall z, (0 <= z < src)%Z -> exists x, val (xF src dst v z) x /\ is_finite (KF f src dst v z) = true /\ 0 <= y z <= 2 /\ (Rabs x <= / 2 -> / 4 <= y z)).
  { intros z Hz. destruct (x_val src dst v Hsrc Hdst Hv z Hz) as (x & Hx & _). destruct (HK _ x Hx (x_small z x Hz Hx)) as (r & [F <-] & B). exists x. auto. }
  assert (Kfin : forall z, (0 <= z < src)%Z -> is_finite (KF f src dst v z) = true /\ Rabs (y z) <= 2). { intros z Hz. destruct (HY z Hz) as (x & _ & F & B & _). split; [exact F|]. rewrite Rabs_pos_eq; lra. }
  assert (Hneg : sumR (map (fun z => (Rabs (y z) - y z) / 2) win) = 0).
  { transitivity (sumR (map (fun _ : Z => 0) win)); [|rewrite sumR_const; ring]. apply f_equal. apply map_ext_in. intros z Hz. destruct (HY z (win_in f src dst v z Hz)) as (x & _ & _ & B & _). rewrite Rabs_pos_eq by lra. field. }
  destruct (fu_val src dst v Hsrc Hdst Hv) as (x & Hx & Ex). pose proof (fu_R src dst v Hsrc Hdst Hv) as Hfu. pose proof (sd src dst Hsrc Hdst) as [Hs1 _]. set (fu := (IZR v + / 2) * (IZR src / IZR dst) - / 2) in *.
  set (z := Zfloor (x + / 2)). pose proof (Zfloor_lb (x + / 2)) as L. pose proof (Zfloor_ub (x + / 2)) as U. fold z in L, U.
  assert (0 <= z < src)%Z as Hz. { split; [|apply lt_IZR; lra]. assert (-1 < z)%Z; [apply lt_IZR; lra|lia]. }
  assert (begin_ <= z <= end_)%Z as Hw by (apply (win_has f src dst v Hsrc Hdst Hv S x z HS HSr Hx Hz); left; apply Rabs_le; lra).
  assert (In z win) as Hin by (unfold winI; apply in_zseq; lia).
  destruct (HY z Hz) as (x' & Hx' & _ & B & C).
  assert (Rabs x' <= / 2) as Hx2.
  { destruct (scale_val src dst Hsrc Hdst) as (c & Hc & _ & Hc1). change (2 ^ 20)%Z with 1048576%Z in *. assert (0 <= IZR z <= 1048576) as HzR by (split; apply IZR_le; lia).
    assert (val (fsub (of_int z) (fuF src dst v)) (R64 (IZR z - x))) as V. { apply val_sub; [apply val_int; change (2 ^ 53)%Z with 9007199254740992%Z; lia|exact Hx|]. apply huge. apply Rabs_le. lra. }
    assert (Rabs (R64 (IZR z - x)) <= / 2) as Hd by (apply R64_half_le; apply Rabs_le; lra). set (d := R64 (IZR z - x)) in *.
    assert (Rabs (d / c) <= / 2) as Hdc. { unfold Rdiv. rewrite Rabs_mult. pose proof (Rabs_pos d). assert (0 < / c <= 1) as Hi. { split; [apply Rinv_0_lt_compat; lra|]. apply (Rmult_le_reg_r c); [lra|]. rewrite Rinv_l; lra. } rewrite (Rabs_pos_eq (/ c)) by lra. nra. }
    assert (val (xF src dst v z) (R64 (d / c))) as V2. { apply val_div; [exact V|exact Hc|lra|]. apply huge. lra. }
    rewrite (val_unique _ _ _ Hx' V2). apply R64_half_le. exact Hdc. }
  specialize (C Hx2).
  assert (/ 4 <= sumR (map (fun z => (Rabs (y z) + y z) / 2) win)) as Hpos.
  { assert (forall z, 0 <= (Rabs (y z) + y z) / 2) as Hg. { intros z'. pose proof (Rle_abs (- y z')) as E. rewrite Rabs_Ropp in E. lra. }
    pose proof (sum_part (fun z => (Rabs (y z) + y z) / 2) begin_ (Z.to_nat (end_ - begin_ + 1)) z 1 Hg ltac:(lia) ltac:(lia)) as E. cbn [zseq map sumR] in E. rewrite (Rabs_pos_eq (y z)) in E by lra. unfold winI. lra. }
  destruct (weights_fine f src dst v Hsrc Kfin _ _ 0 eq_refl Hneg ltac:(lra) ltac:(lra) ltac:(lra) ltac:(lra)) as [F G]. split; [|exact G]. replace (/ 1048576) with (2 * 0 + / 1048576) by ring. exact F.
Qed.

(** Numbers z with p <= N z <= p + 2 D. *)
Definition firstN (p : Z) : Z := ((p - (dst - (2 * v + 1) * src) + 2 * dst - 1) / (2 * dst))%Z.
Lemma firstN_spec p z : (p <= N src dst v z)%Z <-> (firstN p <= z)%Z.
Proof.
  unfold firstN, N. set (C := (dst - (2 * v + 1) * src)%Z). replace (2 * z * dst + dst - (2 * v + 1) * src)%Z with (2 * dst * z + C)%Z by (unfold C; ring).
  pose proof (Z.div_mod (p - C + 2 * dst - 1) (2 * dst) ltac:(lia)) as E. pose proof (Z.mod_pos_bound (p - C + 2 * dst - 1) (2 * dst) ltac:(lia)) as B.
  set (q := ((p - C + 2 * dst - 1) / (2 * dst))%Z) in *. split; intros H.
  - assert (q < z + 1)%Z; [|lia]. apply (Z.mul_lt_mono_pos_l (2 * dst)); [lia|]. lia.
  - assert (2 * dst * q <= 2 * dst * z)%Z by (apply Z.mul_le_mono_nonneg_l; lia). lia.
Qed.
Definition m : Z := (D src dst / dst)%Z.
Lemma m_spec : (1 <= m)%Z /\ (m * dst <= D src dst < (m + 1) * dst)%Z.
Proof.
  pose proof D_pos as (D1 & D2 & D3 & D4). unfold m. pose proof (Z.div_mod (D src dst) dst ltac:(lia)). pose proof (Z.mod_pos_bound (D src dst) dst ltac:(lia)). split; [apply Z.div_le_lower_bound; lia|]. lia.
Qed.
Lemma N_shift z k : N src dst v (z + k) = (N src dst v z + 2 * dst * k)%Z.
Proof. unfold N. ring. Qed.
Lemma few p z : (p <= N src dst v z <= p + 2 * D src dst)%Z -> (firstN p <= z < firstN p + (m + 1))%Z.
Proof.
  intros [H1 H2]. apply firstN_spec in H1. split; [exact H1|]. destruct (Z_lt_le_dec z (firstN p + (m + 1))) as [L|L]; [exact L|]. exfalso.
  pose proof m_spec as [M1 M2]. assert (p <= N src dst v (firstN p))%Z as E by (apply firstN_spec; lia). pose proof (N_shift (firstN p) (z - firstN p)) as E2. replace (firstN p + (z - firstN p))%Z with z in E2 by ring.
  assert (2 * dst * (m + 1) <= 2 * dst * (z - firstN p))%Z by (apply Z.mul_le_mono_nonneg_l; lia). lia.
Qed.
Lemma many k : (0 <= k < m)%Z -> (- D src dst <= N src dst v (firstN (- D src dst) + k) <= D src dst)%Z.
Proof.
  intros Hk. pose proof m_spec as [M1 M2]. set (z0 := firstN (- D src dst)). assert (- D src dst <= N src dst v z0)%Z as E by (apply firstN_spec; fold z0; lia).
  assert (N src dst v (z0 - 1) < - D src dst)%Z as E2. { apply Z.nle_gt. intros C. apply firstN_spec in C. fold z0 in C. lia. }
  pose proof (N_shift z0 k) as E3. pose proof (N_shift (z0 - 1) 1) as E4. replace (z0 - 1 + 1)%Z with z0 in E4 by ring. rewrite E3. split; [lia|]. assert (2 * dst * k <= 2 * dst * (m - 1))%Z by (apply Z.mul_le_mono_nonneg_l; lia). lia.
Qed.
Lemma N_inside z : (- D src dst <= N src dst v z <= D src dst)%Z -> (0 <= z < src)%Z.
Proof.
  intros [H1 H2]. unfold N in *. unfold D in *. change (2 ^ 20)%Z with 1048576%Z in *. destruct (Z.max_spec src dst) as [[E F]|[E F]]; rewrite F in *.
  - split.
    + assert (-1 < z)%Z; [|lia]. apply (Z.mul_lt_mono_pos_l (2 * dst)); [lia|]. nia.
    + apply (Z.mul_lt_mono_pos_l (2 * dst)); [lia|]. nia.
  - split.
    + assert (-1 < z)%Z; [|lia]. apply (Z.mul_lt_mono_pos_l (2 * dst)); [lia|]. nia.
    + apply (Z.mul_lt_mono_pos_l (2 * dst)); [lia|]. nia.
Qed.
Lemma lobed_fine c0 c1 : lobed_kernel c0 c1 f -> c1 <= 1 -> (forall iw, In iw (weightsAt f dst src v) -> (0 <= fst iw < src)%Z) /\
  fine 100 (weightsAt f dst src v) /\ (c1 = 0 -> fine (/ 10000) (weightsAt f dst src v)).
Proof.
  intros ((S & HS & HSr) & H0 & H1 & H01 & HK) Hc1. pose proof D_pos as (D1 & D2 & D3 & D4). pose proof m_spec as [M1 M2].
  assert (0 < 2 * IZR (D src dst) <= 2097152) as HD by (apply IZR_le in D1, D4; lra).
  assert (HY : forall z, (0 <= z < src)%Z -> is_finite (KF f src dst v z) = true /\ Rabs (y z) <= 2 /\ ((- D src dst <= N src dst v z <= D src dst)%Z -> c0 <= y z) /\
    (- / 1099511627776 <= y z \/ ((2 * D src dst <= N src dst v z <= 4 * D src dst)%Z \/ (-4 * D src dst <= N src dst v z <= -2 * D src dst)%Z) /\ - c1 <= y z)).
  { intros z Hz. destruct (x_val src dst v Hsrc Hdst Hv z Hz) as (x & Hx & Ex). destruct (HK _ x Hx (x_small z x Hz Hx)) as (r & [F <-] & B & C & E). change (B2R (Kernel f (xF src dst v z))) with (y z) in *.
    set (n := N src dst v z) in *. assert (IZR n = IZR n / (2 * IZR (D src dst)) * (2 * IZR (D src dst))) as En by (field; lra). set (q := IZR n / (2 * IZR (D src dst))) in *.
    split; [exact F|]. split; [exact B|]. split.
    - intros [N1 N2]. apply C. apply IZR_le in N1, N2. rewrite opp_IZR in N1. assert (- / 2 <= q <= / 2) as Hq by (split; apply (Rmult_le_reg_r (2 * IZR (D src dst))); lra). apply Rabs_le. lra.
    - destruct E as [E|[Ea E]]; [left; exact E|right; split; [|exact E]].
      assert (forall a b, IZR a - / 2 < IZR n -> IZR n < IZR b + / 2 -> (a <= n <= b)%Z) as Int.
      { intros a b A1 A2. split; [assert (a - 1 < n)%Z by (apply lt_IZR; rewrite minus_IZR; lra); lia|assert (n < b + 1)%Z by (apply lt_IZR; rewrite plus_IZR; lra); lia]. }
      assert (/ 33554432 * (2 * IZR (D src dst)) <= / 4) as Tiny by lra. revert Ea. unfold Rabs. destruct (Rcase_abs x) as [Cx|Cx]; intros [Ea1 Ea2].
      + right. apply Int; rewrite mult_IZR; rewrite En.
        * assert (-2 - / 33554432 < q) as Q by lra. apply (Rmult_lt_compat_r (2 * IZR (D src dst))) in Q; lra.
        * assert (q < -1 + / 33554432) as Q by lra. apply (Rmult_lt_compat_r (2 * IZR (D src dst))) in Q; lra.
      + left. apply Int; rewrite mult_IZR; rewrite En.
        * assert (1 - / 33554432 < q) as Q by lra. apply (Rmult_lt_compat_r (2 * IZR (D src dst))) in Q; lra.
        * assert (q < 2 + / 33554432) as Q by lra. apply (Rmult_lt_compat_r (2 * IZR (D src dst))) in Q; lra. }
  assert (Kfin : forall z, (0 <= z < src)%Z -> is_finite (KF f src dst v z) = true /\ Rabs (y z) <= 2) by (intros z Hz; destruct (HY z Hz) as (F & B & _); auto).
  assert (forall z, 0 <= (Rabs (y z) + y z) / 2) as Hg. { intros z'. pose proof (Rle_abs (- y z')) as E. rewrite Rabs_Ropp in E. lra. }
  (* the positive part *)
  assert (IZR m * c0 <= sumR (map (fun z => (Rabs (y z) + y z) / 2) win)) as Hpos.
  { set (z0 := firstN (- D src dst)). assert (forall k, (0 <= k < m)%Z -> (0 <= z0 + k < src)%Z /\ (begin_ <= z0 + k <= end_)%Z /\ c0 <= y (z0 + k)) as Hz.
    { intros k Hk. pose proof (many k Hk) as HN. fold z0 in HN. pose proof (N_inside _ HN) as Hi. split; [exact Hi|]. destruct (HY _ Hi) as (_ & _ & C & _). split; [|apply C; exact HN].
      destruct (fu_val src dst v Hsrc Hdst Hv) as (x & Hx & Ex). pose proof (N_R src dst v Hsrc Hdst (z0 + k)) as NR. pose proof (sc_R src dst Hsrc Hdst) as (S1 & S2 & S3 & _ & S4). pose proof (sd src dst Hsrc Hdst) as [_ Hd1].
      set (fu := (IZR v + / 2) * (IZR src / IZR dst) - / 2) in *. set (sc := IZR (D src dst) / IZR dst) in *.
      apply (win_has f src dst v Hsrc Hdst Hv S x (z0 + k) HS ltac:(lra) Hx Hi). right. split; [lra|]. fold sc. destruct HN as [N1 N2]. apply IZR_le in N1, N2. rewrite opp_IZR in N1. rewrite NR, <- S4 in N1, N2.
      assert (- (sc / 2) <= IZR (z0 + k) - fu <= sc / 2) as B. { split; apply (Rmult_le_reg_r (2 * IZR dst)); lra. } apply Rabs_le. lra. }
    pose proof (sum_part (fun z => (Rabs (y z) + y z) / 2) begin_ (Z.to_nat (end_ - begin_ + 1)) z0 (Z.to_nat m) Hg) as Part. unfold winI. eapply Rle_trans; [|apply Part].
    - assert (sumR (map (fun _ : Z => c0) (zseq z0 (Z.to_nat m))) <= sumR (map (fun z => (Rabs (y z) + y z) / 2) (zseq z0 (Z.to_nat m)))) as Q.
      { apply sumR_map_le. intros z Hin. apply in_zseq in Hin. destruct (Hz (z - z0)%Z ltac:(lia)) as (_ & _ & C). replace (z0 + (z - z0))%Z with z in C by ring. rewrite Rabs_pos_eq by lra. lra. }
      rewrite sumR_const, zseq_length, INR_IZR_INZ, Z2Nat.id in Q by lia. lra.
    - destruct (Hz 0%Z ltac:(lia)) as (_ & B & _). lia.
    - destruct (Hz (m - 1)%Z ltac:(lia)) as (_ & B & _). destruct (Hz 0%Z ltac:(lia)) as (_ & B2 & _). rewrite Z2Nat.id by lia. lia. }
  (* the negative part *)
  assert (sumR (map (fun z => (Rabs (y z) - y z) / 2) win) <= / 1048576 + 2 * (c1 * (IZR m + 1))) as Hneg.
  { set (ind p := fun z => if ((firstN p <=? z) && (z <? firstN p + (m + 1)))%Z then c1 else 0).
    assert (forall z, In z win -> (Rabs (y z) - y z) / 2 <= / 1099511627776 + (ind (2 * D src dst)%Z z + ind (-4 * D src dst)%Z z)) as Hb.
    { intros z Hz. apply win_in in Hz. destruct (HY z Hz) as (_ & _ & _ & E). assert (forall p, 0 <= ind p z) as Hi by (intros p; unfold ind; destruct (_ && _); lra).
      pose proof (Hi (2 * D src dst)%Z) as I1. pose proof (Hi (-4 * D src dst)%Z) as I2. destruct (Rle_dec 0 (y z)) as [P|P]; [rewrite Rabs_pos_eq by lra; lra|]. rewrite Rabs_left by lra.
      destruct E as [E|[[E|E] E2]]; [lra| |].
      - assert (ind (2 * D src dst)%Z z = c1) as ->; [|lra]. unfold ind. pose proof (few (2 * D src dst) z ltac:(lia)) as Fw. assert ((firstN (2 * D src dst) <=? z) && (z <? firstN (2 * D src dst) + (m + 1)) = true)%Z as -> by lia. reflexivity.
      - assert (ind (-4 * D src dst)%Z z = c1) as ->; [|lra]. unfold ind. pose proof (few (-4 * D src dst) z ltac:(lia)) as Fw. assert ((firstN (-4 * D src dst) <=? z) && (z <? firstN (-4 * D src dst) + (m + 1)) = true)%Z as -> by lia. reflexivity. }
    eapply Rle_trans; [apply (sumR_map_le _ _ _ Hb)|]. rewrite sumR_map_plus, sumR_map_plus, sumR_const.
    assert (forall p, sumR (map (ind p) win) <= c1 * IZR (m + 1)) as Hs by (intros p; apply sum_indicator; [exact H1|lia]).
    pose proof (Hs (2 * D src dst)%Z) as A1. pose proof (Hs (-4 * D src dst)%Z) as A2. rewrite plus_IZR in A1, A2. pose proof (IZR_le _ _ (win_length f src dst v Hsrc)) as Hl. rewrite <- INR_IZR_INZ in Hl. pose proof (pos_INR (length win)). lra. }
  set (pos := sumR (map (fun z => (Rabs (y z) + y z) / 2) win)) in *. set (neg := sumR (map (fun z => (Rabs (y z) - y z) / 2) win)) in *.
  assert (0 <= neg) as Hn0. { apply sumR_nonneg. intros z _. pose proof (Rle_abs (y z)). lra. }
  assert (1 <= IZR m) as HmR by (apply IZR_le; lia). set (mR := IZR m) in *.
  assert (c1 * (mR + 1) <= 2 * mR * c1) as E1 by nra. assert (mR * c0 >= / 4 /\ mR * (4 * c1) <= mR * (94 / 100 * c0)) as [E2 E3] by (split; nra).
  assert (41 * neg <= 39 * pos) as E4 by lra. assert (/ 32 <= pos) as E5 by lra.
  assert (2 * neg <= 39 * (pos - neg)) as E6 by lra.
  destruct (weights_fine f src dst v Hsrc Kfin pos neg 39 eq_refl eq_refl E5 E4 E6 ltac:(lra)) as [F G].
  split; [exact G|]. split.
  - destruct F as (F1 & F2 & F3 & F4 & F5). repeat split; try assumption; lra.
  - intros Z0. assert (2 * neg <= / 60000 * (pos - neg)) as E7 by (rewrite Z0 in *; lra).
    destruct (weights_fine f src dst v Hsrc Kfin pos neg (/ 60000) eq_refl eq_refl E5 E4 E7 ltac:(lra)) as [(F1 & F2 & F3 & F4 & F5) _]. repeat split; try assumption; lra.
Qed.
End classes.
