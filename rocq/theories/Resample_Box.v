(** Making a picture a whole number of times smaller with the Box filter. *)
From Coq Require Import ZArith List Bool Lia Reals Lra Psatz ZifyBool.
From Flocq Require Import Core BinarySingleNaN.
From Verif Require Import GoInt GoFloat Image_Model Image_Spec Image_Proofs Pixel_Model Pixel_Spec Pixel_Proofs Resample_Model Resample_Spec Resample_Err Resample_Mix Resample_Weights Resample_Place Resample_Classes Resample_Kernels Resample_Proofs Resample_Blur Resample_Steps.
Import ListNotations.
Local Open Scope R_scope.

Lemma zseq_app a n m : zseq a (n + m) = zseq a n ++ zseq (a + Z.of_nat n) m.
Proof. revert a. induction n as [|n IH]; intros a; [cbn; f_equal; lia|]. cbn [Nat.add zseq app]. rewrite IH. do 2 f_equal. f_equal. lia. Qed.
Lemma filter_none {A} (p : A -> bool) l : (forall x, In x l -> p x = false) -> filter p l = [].
Proof. induction l as [|x l IH]; intros H; [reflexivity|]. cbn [filter]. rewrite (H x (or_introl eq_refl)). apply IH. intros y Hy. apply H. right. exact Hy. Qed.
Lemma filter_all {A} (p : A -> bool) l : (forall x, In x l -> p x = true) -> filter p l = l.
Proof. induction l as [|x l IH]; intros H; [reflexivity|]. cbn [filter]. rewrite (H x (or_introl eq_refl)). f_equal. apply IH. intros y Hy. apply H. right. exact Hy. Qed.
Lemma filter_zseq {A} (g : Z -> A) (p : A -> bool) b n lo k : (b <= lo)%Z -> (lo + Z.of_nat k <= b + Z.of_nat n)%Z -> (forall z, (b <= z < b + Z.of_nat n)%Z -> p (g z) = true <-> (lo <= z < lo + Z.of_nat k)%Z) ->
  filter p (map g (zseq b n)) = map g (zseq lo k).
Proof.
  intros H1 H2 H. set (n1 := Z.to_nat (lo - b)). replace n with (n1 + (k + (n - n1 - k)))%nat by lia. rewrite !zseq_app, !map_app, !filter_app. replace (b + Z.of_nat n1)%Z with lo by lia.
  rewrite (filter_none p (map g (zseq b n1))), (filter_all p (map g (zseq lo k))), (filter_none p (map g (zseq (lo + Z.of_nat k) _))); [rewrite app_nil_r; reflexivity|..]; intros x Hx; apply in_map_iff in Hx; destruct Hx as (z & <- & Hz); apply in_zseq in Hz.
  - destruct (p (g z)) eqn:E; [|reflexivity]. apply H in E; lia.
  - apply H; lia.
  - destruct (p (g z)) eqn:E; [|reflexivity]. apply H in E; lia.
Qed.

Section box.
Variables k dst v : Z.
Hypothesis Hk : (1 <= k)%Z.
Hypothesis Hdst : (1 <= dst <= 2 ^ 20)%Z.
Hypothesis Hsrc : (1 <= k * dst <= 2 ^ 20)%Z.
Hypothesis Hv : (0 <= v < dst)%Z.
Lemma box_kernel z : (0 <= z < k * dst)%Z -> KF Box (k * dst) dst v z = if ((v * k <=? z) && (z <? v * k + k))%Z then of_int 1 else of_int 0.
Proof.
  intros Hz. destruct (x_val (k * dst) dst v Hsrc Hdst Hv z Hz) as (x & Hx & Ex). unfold KF. cbn [Kernel Box]. rewrite (val_le _ _ _ _ (val_abs _ _ Hx) val_half).
  assert (D (k * dst) dst = k * dst)%Z as ED by (unfold D; nia). rewrite ED in Ex. assert (1 <= k <= 1048576)%Z as Hk2 by (change (2 ^ 20)%Z with 1048576%Z in *; nia).
  assert (1 <= IZR k <= 1048576) as KR by (split; apply IZR_le; lia). assert (1 <= IZR dst) as DR by (apply IZR_le; lia).
  assert (IZR (N (k * dst) dst v z) / (2 * IZR (k * dst)) = IZR (2 * z + 1 - (2 * v + 1) * k) / (2 * IZR k)) as EN.
  { unfold N. replace (2 * z * dst + dst - (2 * v + 1) * (k * dst))%Z with ((2 * z + 1 - (2 * v + 1) * k) * dst)%Z by ring. rewrite !mult_IZR. field. lra. }
  rewrite EN in Ex. set (e := (2 * z + 1 - (2 * v + 1) * k)%Z) in *. assert (IZR e = IZR e / (2 * IZR k) * (2 * IZR k)) as Ee by (field; lra). set (q := IZR e / (2 * IZR k)) in *.
  assert (/ 33554432 * (2 * IZR k) < / 2) as Small by lra.
  destruct ((v * k <=? z) && (z <? v * k + k))%Z eqn:E; destruct (Rle_bool_spec (Rabs x) (/ 2)) as [L|L]; try reflexivity; exfalso.
  - assert (- (k - 1) <= e <= k - 1)%Z as He by (unfold e; lia). destruct He as [A B]. apply IZR_le in A, B. rewrite opp_IZR, minus_IZR in A. rewrite minus_IZR in B.
    assert (- / 2 + / 33554432 <= q <= / 2 - / 33554432) as Q by (split; apply (Rmult_le_reg_r (2 * IZR k)); lra). assert (Rabs x <= / 2) by (apply Rabs_le; lra). lra.
  - apply Rabs_le_inv in L. assert (e <= - (k + 1) \/ k + 1 <= e)%Z as [He|He] by (unfold e; lia); apply IZR_le in He; rewrite ?opp_IZR, plus_IZR in He.
    + assert (q < - / 2 - / 33554432) as Q by (apply (Rmult_lt_reg_r (2 * IZR k)); lra). lra.
    + assert (/ 2 + / 33554432 < q) as Q by (apply (Rmult_lt_reg_r (2 * IZR k)); lra). lra.
Qed.
Lemma box_tmp : tmpI Box (k * dst) dst v = map (fun z => (z, of_int 1)) (zseq (v * k) (Z.to_nat k)).
Proof.
  assert (forall z, (v * k <= z < v * k + k)%Z -> (beginI Box (k * dst) dst v <= z <= endI Box (k * dst) dst v)%Z) as W.
  { intros z Hz. destruct (fu_val (k * dst) dst v Hsrc Hdst Hv) as (x & Hx & Ex). assert (0 <= z < k * dst)%Z as Hz2 by nia. pose proof (ru_val Box (k * dst) dst Hsrc Hdst (/ 2) val_half ltac:(lra)) as (r & Vr & Br & _).
    assert (1 <= k <= 1048576)%Z as Hk2 by (change (2 ^ 20)%Z with 1048576%Z in *; nia). assert (1 <= IZR k <= 1048576) as KR by (split; apply IZR_le; lia). assert (1 <= IZR dst) as DR by (apply IZR_le; lia).
    (* the radius covers half of the block *)
    assert (IZR k / 2 - / 4 <= r) as Hr.
    { destruct (scale_val (k * dst) dst Hsrc Hdst) as (c & Hc & Ec & Hc1). assert (D (k * dst) dst = k * dst)%Z as ED by (unfold D; nia). rewrite ED in Ec. replace (IZR (k * dst) / IZR dst) with (IZR k) in Ec by (rewrite mult_IZR; field; lra).
      assert (val (fmul (scaleF (k * dst) dst) (Support Box)) (R64 (c * / 2))) as V by (apply val_mul; [exact Hc|exact val_half|apply huge; apply Rabs_le; lra]).
      pose proof (val_ceil _ _ V) as V2. rewrite (val_unique _ _ _ Vr V2). pose proof (Zceil_ub (R64 (c * / 2))) as U. pose proof (R64_bound (c * / 2) 524289 ltac:(apply Rabs_le; lra)) as E. pose proof u_small as Hu. unfold h in E. lra. }
    assert (Rabs (IZR z - x) <= IZR k / 2 - / 4) as Hd.
    { replace (IZR (k * dst) / IZR dst) with (IZR k) in Ex by (rewrite mult_IZR; field; lra). destruct Hz as [Z1 Z2]. assert (z <= v * k + k - 1)%Z as Z3 by lia. apply IZR_le in Z1, Z3. rewrite minus_IZR, plus_IZR, mult_IZR in Z3. rewrite mult_IZR in Z1. apply Rabs_le. lra. }
    apply Rabs_le_inv in Hd. assert (- r <= IZR z - x <= r) as Hzr by lra. clear Hd.
    change (2 ^ 20)%Z with 1048576%Z in *. assert (0 <= IZR z <= 1048576) as HzR by (split; apply IZR_le; lia). pose proof (fu_R (k * dst) dst v Hsrc Hdst Hv) as Hfu. pose proof (sd (k * dst) dst Hsrc Hdst) as [Hs1 _].
    set (fu := (IZR v + / 2) * (IZR (k * dst) / IZR dst) - / 2) in *. assert (- 1 <= x <= 1048577) as Hxr by lra.
    assert (val (fsub (fuF (k * dst) dst v) (ruF Box (k * dst) dst)) (R64 (x - r))) as V1. { apply val_sub; [exact Hx|exact Vr|]. apply huge. apply Rabs_le. lra. }
    assert (val (fadd (fuF (k * dst) dst v) (ruF Box (k * dst) dst)) (R64 (x + r))) as V2. { apply val_add; [exact Hx|exact Vr|]. apply huge. apply Rabs_le. lra. }
    apply val_ceil in V1. apply val_floor in V2. pose proof u_small as Hu.
    pose proof (R64_bound (x - r) 5242882 ltac:(apply Rabs_le; lra)) as B1. pose proof (R64_bound (x + r) 5242882 ltac:(apply Rabs_le; lra)) as B2.
    assert (R64 (x - r) <= IZR z) as L1 by (apply R64_le_int; [change (2 ^ 53)%Z with 9007199254740992%Z; lia|lra]).
    assert (IZR z <= R64 (x + r)) as L2 by (apply R64_ge_int; [change (2 ^ 53)%Z with 9007199254740992%Z; lia|lra]).
    set (a := R64 (x - r)) in *. set (b := R64 (x + r)) in *.
    assert (Zceil a <= z)%Z as C1 by (apply Zceil_glb; exact L1). assert (z <= Zfloor b)%Z as C2 by (apply Zfloor_lub; exact L2).
    assert (-1048576000 <= Zceil a)%Z as C3. { apply le_IZR. pose proof (Zceil_ub a). unfold h in B1. lra. }
    assert (Zfloor b <= 1048576000)%Z as C4. { apply le_IZR. pose proof (Zfloor_lb b). unfold h in B2. lra. }
    assert (to_int (fceil (fsub (fuF (k * dst) dst v) (ruF Box (k * dst) dst))) = Zceil a) as T1 by (apply to_int_IZR; [exact V1|change (2 ^ 63)%Z with 9223372036854775808%Z; lia]).
    assert (to_int (ffloor (fadd (fuF (k * dst) dst v) (ruF Box (k * dst) dst))) = Zfloor b) as T2 by (apply to_int_IZR; [exact V2|change (2 ^ 63)%Z with 9223372036854775808%Z; lia]).
    unfold beginI, endI. cbn zeta. rewrite T1, T2. destruct (Zceil a <? 0)%Z eqn:Q1, (k * dst - 1 <? Zfloor b)%Z eqn:Q2; lia. }
  unfold tmpI, winI. pose proof (W (v * k)%Z ltac:(lia)) as W1. pose proof (W (v * k + k - 1)%Z ltac:(lia)) as W2.
  assert (forall z, In z (winI Box (k * dst) dst v) -> (0 <= z < k * dst)%Z) as Win by (intros z; apply win_in).
  rewrite (filter_zseq (fun z => (z, KF Box (k * dst) dst v z)) (fun uw => negb (feq (snd uw) (of_int 0))) _ _ (v * k) (Z.to_nat k)); [|lia|lia|].
  - apply map_ext_in. intros z Hz. apply in_zseq in Hz. rewrite box_kernel by (assert ((v + 1) * k <= dst * k)%Z by nia; nia). replace ((v * k <=? z) && (z <? v * k + k))%Z with true by lia. reflexivity.
  - intros z Hz. cbn [snd]. rewrite box_kernel by (apply Win; unfold winI; apply in_zseq; lia). destruct ((v * k <=? z) && (z <? v * k + k))%Z eqn:E.
    + rewrite (val_eq _ _ _ _ v1 v0). rewrite Req_bool_false by lra. cbn. split; [lia|reflexivity].
    + rewrite (val_eq _ _ _ _ v0 v0). rewrite Req_bool_true by reflexivity. cbn. split; [discriminate|lia].
Qed.
Lemma box_mean line c : mean line (weightsAt Box dst (k * dst) v) R2 c = sumR (map (fun z => IZR (c (line z))) (zseq (v * k) (Z.to_nat k))) / IZR k.
Proof.
  destruct (nonneg_fine Box (k * dst) dst v Hsrc Hdst Hv box_ok) as [(F1 & F2 & F3 & F4 & F5) _]. revert F4. rewrite weightsAt_eq. cbn zeta. rewrite box_tmp. set (l := zseq _ _).
  set (sum := fold_left _ _ _). assert (exists w : f64, (if feq sum (of_int 0) then map (fun z => (z, of_int 1)) l else map (fun uw => (fst uw, fdiv (snd uw) sum)) (map (fun z => (z, of_int 1)) l)) = map (fun z => (z, w)) l) as (w & ->).
  { destruct (feq sum (of_int 0)); [exists (of_int 1); reflexivity|]. exists (fdiv (of_int 1) sum). rewrite map_map. reflexivity. }
  unfold mean. rewrite !map_map. unfold R2. cbn [fst snd]. rewrite sumR_const. assert (length l = Z.to_nat k) as El by apply zseq_length. rewrite El, INR_IZR_INZ, Z2Nat.id by lia. intros H4.
  assert (1 <= IZR k) as KR by (apply IZR_le; lia). assert (B2R w <> 0) as W0. { intros E. rewrite E, Rmult_0_l in H4. lra. }
  replace (sumR (map (fun x => IZR (c (line x)) * B2R w) l)) with (B2R w * sumR (map (fun x => IZR (c (line x))) l)). { field. split; lra. }
  rewrite <- (sumR_map_mult (fun x => IZR (c (line x))) (B2R w)). f_equal. apply map_ext. intros z. ring.
Qed.
(** One line: the channel is the mean, up to rounding. *)
Lemma box_line line c A : (1 <= A <= 255)%Z -> a_channel c -> (forall z, (0 <= z < k * dst)%Z -> alpha A (line z)) ->
  Rabs (IZR k * IZR (c (mix line (weightsAt Box dst (k * dst) v))) - sumR (map (fun z => IZR (c (line z))) (zseq (v * k) (Z.to_nat k)))) <= 51 / 100 * IZR k.
Proof.
  intros HA Hc Hl. destruct (nonneg_fine Box (k * dst) dst v Hsrc Hdst Hv box_ok) as [Hf Hin]. set (ws := weightsAt Box dst (k * dst) v) in *.
  destruct (fine_mix A line ws _ HA Hf (fun iw Hi => proj2 (Hl _ (Hin iw Hi)))) as [H1 H2]. pose proof Hf as (F1 & F2 & F3 & F4 & F5).
  assert (forall iw, In iw ws -> (0 <= c (line (fst iw)) <= 255)%Z) as Hb by (intros iw Hi; apply channel_byte; [exact Hc|]; apply (Hl _ (Hin iw Hi))).
  pose proof (mix_near line ws R2 A HA H1 F2 F3 H2 c Hc Hb) as E. unfold ws in E. rewrite box_mean in E. fold ws in E. set (S := sumR (map (fun z => IZR (c (line z))) _)) in *. assert (1 <= IZR k) as KR by (apply IZR_le; lia).
  assert (0 <= S <= 255 * IZR k) as HS.
  { assert (forall z, In z (zseq (v * k) (Z.to_nat k)) -> 0 <= IZR (c (line z)) <= 255) as B. { intros z Hz. apply in_zseq in Hz. assert (0 <= z < k * dst)%Z as Hz2 by nia. pose proof (channel_byte c (line z) Hc (proj1 (Hl z Hz2))) as [B1 B2]. split; apply IZR_le; assumption. }
    unfold S. split; [apply sumR_nonneg; intros z Hz; apply B; exact Hz|]. eapply Rle_trans; [apply (sumR_map_le _ (fun _ => 255)); intros z Hz; apply B; exact Hz|]. rewrite sumR_const, zseq_length, INR_IZR_INZ, Z2Nat.id by lia. lra. }
  assert (0 <= S / IZR k <= 255) as HM by (split; apply (Rmult_le_reg_r (IZR k)); try lra; unfold Rdiv; rewrite Rmult_assoc, Rinv_l, Rmult_1_r by lra; lra).
  specialize (E HM). apply Rabs_le_inv in E. assert (S = IZR k * (S / IZR k)) as ES by (field; lra). rewrite ES. set (m := S / IZR k) in *. set (r := IZR (c (mix line ws))) in *.
  assert (IZR k * (m - 51 / 100) <= IZR k * r <= IZR k * (m + 51 / 100)) as B by (split; apply Rmult_le_compat_l; lra). apply Rabs_le. lra.
Qed.
End box.
Lemma sumZ_sumR n g a : IZR (sumZ n (fun i => g (a + i)%Z)) = sumR (map (fun z => IZR (g z)) (zseq a n)).
Proof.
  induction n as [|n IH]; [reflexivity|]. cbn [sumZ]. rewrite plus_IZR, IH. replace (S n) with (n + 1)%nat by lia. rewrite zseq_app, map_app. cbn [zseq map]. clear. set (l := map _ _). induction l as [|x l IH]; cbn [app sumR]; [ring|]. rewrite <- IH. ring.
Qed.
Lemma sumZ_R n g h e : (forall j, (0 <= j < Z.of_nat n)%Z -> Rabs (IZR (g j) - IZR (h j)) <= e) -> Rabs (IZR (sumZ n g) - IZR (sumZ n h)) <= INR n * e.
Proof.
  induction n as [|n IH]; intros H; [cbn; rewrite Rminus_0_r, Rabs_R0; lra|]. cbn [sumZ]. rewrite !plus_IZR, S_INR. specialize (IH (fun j Hj => H j ltac:(lia))). specialize (H (Z.of_nat n) ltac:(lia)). apply Rabs_le_inv in IH, H. apply Rabs_le. lra.
Qed.
(** The whole picture. *)
Lemma sumZ_scale n g k : sumZ n (fun j => k * g j)%Z = (k * sumZ n g)%Z.
Proof. induction n as [|n IH]; cbn [sumZ]; lia. Qed.
Theorem box_blocks i k w h A c x y : (1 <= k)%Z -> sides (shows i) -> pw (shows i) = (k * w)%Z -> ph (shows i) = (k * h)%Z -> (1 <= w)%Z -> (1 <= h)%Z -> (1 <= A <= 255)%Z -> a_channel c -> everywhere (alpha A) (shows i) ->
  (0 <= x < w)%Z -> (0 <= y < h)%Z -> (100 * Z.abs (k * k * c (at_ (shows (resizeTo Box i w h)) x y) - block_sum c k (shows i) x y) <= 102 * (k * k))%Z.
Proof.
  intros Hk Hs Ew Eh Hw Hh HA Hc Hal Hx Hy. pose proof (sides_proper i Hs) as P. assert (fle (Support Box) (of_int 0) = false) as Ef by (cbn [Support Box]; rewrite (val_le _ _ _ _ val_half v0); apply Rle_bool_false; lra).
  destruct (Z.eq_dec k 1) as [->|K1].
  { unfold resizeTo. cbn zeta. rewrite Ef, Dx_proper, Dy_proper by exact P. rewrite Ew, Eh, !Z.mul_1_l, !Z.eqb_refl. cbn [negb andb]. unfold block_sum. cbn -[Z.mul Z.add]. unfold fresh, Rect. rewrite Dx_proper, Dy_proper by exact P. rewrite Ew, Eh. cbn -[Z.mul Z.add]. replace (1 * w <? 0)%Z with false by lia. replace (1 * h <? 0)%Z with false by lia. unfold scan. cbn -[Z.mul Z.add].
    replace (minX (bounds i) + (0 + x))%Z with (minX (bounds i) + (x * 1 + 0))%Z by ring. replace (minY (bounds i) + (0 + y))%Z with (minY (bounds i) + (y * 1 + 0))%Z by ring. change (Pos.to_nat 1) with 1%nat. cbn [sumZ]. change (Z.of_nat 0) with 0%Z. lia. }
  pose proof Hs as [S1 S2]. rewrite Ew in S1. rewrite Eh in S2. assert (1 * w <= k * w)%Z by (apply Z.mul_le_mono_nonneg_r; lia). assert (1 * h <= k * h)%Z by (apply Z.mul_le_mono_nonneg_r; lia). assert (w <= 2 ^ 20)%Z by lia. assert (h <= 2 ^ 20)%Z by lia.
  assert (sides (shows (resizeHorizontal i w Box)) /\ pw (shows (resizeHorizontal i w Box)) = w /\ ph (shows (resizeHorizontal i w Box)) = (k * h)%Z /\ everywhere (alpha A) (shows (resizeHorizontal i w Box))) as (Hs2 & Ew2 & Eh2 & Hal2).
  { destruct (horizontal_kept (fine 100) (fun p _ => alpha A p) (alpha_closed A HA) Box (good_weak (/ 10000) 100 _ ltac:(lra) (nonneg_good _ box_ok)) i i (conj eq_refl (conj eq_refl Hal)) Hs w ltac:(lia) Ef) as ((_ & _ & E3) & B & C). rewrite Eh in C. unfold sides. rewrite B, C. repeat split; try lia; try assumption; apply E3; assumption. }
  unfold resizeTo. cbn zeta. rewrite Ef, Dx_proper, Dy_proper by exact P. rewrite Ew, Eh. assert (2 * w <= k * w)%Z by (apply Z.mul_le_mono_nonneg_r; lia). assert (2 * h <= k * h)%Z by (apply Z.mul_le_mono_nonneg_r; lia). replace (k * w =? w)%Z with false by lia. replace (k * h =? h)%Z with false by lia. cbn [negb andb].
  set (j := resizeHorizontal i w Box) in *. pose proof (sides_proper j Hs2) as P2.
  assert (forall x y, (0 <= x < w)%Z -> (0 <= y < k * h)%Z -> scan j x y = at_ (shows j) x y) as Esc by reflexivity.
  assert (at_ (shows (resizeVertical j h Box)) x y = mix (fun u => scan j x u) (weightsAt Box h (k * h) y)) as ->.
  { unfold resizeVertical. rewrite Dx_proper, Dy_proper by exact P2. rewrite Ew2, Eh2. cbn zeta. unfold shows, fresh, Rect. cbn. replace (w <? 0)%Z with false by lia. replace (h <? 0)%Z with false by lia. rewrite ?Z.add_0_l. reflexivity. }
  pose proof (box_line k h y Hk ltac:(lia) S2 Hy (fun u => scan j x u) c A HA Hc) as EV. specialize (EV ltac:(intros z Hz; rewrite Esc by lia; apply Hal2; lia)).
  set (r := c (mix _ _)) in *.
  assert (forall y', (0 <= y' < k * h)%Z -> Rabs (IZR (k * c (scan j x y')) - IZR (sumZ (Z.to_nat k) (fun a => c (at_ (shows i) (x * k + a) y')))) <= 51 / 100 * IZR k) as EH.
  { intros y' Hy'. assert (scan j x y' = mix (fun u => scan i u y') (weightsAt Box w (k * w) x)) as ->.
    { unfold j, resizeHorizontal. cbn zeta. rewrite Dx_proper, Dy_proper by exact P. rewrite Ew, Eh. unfold scan at 1. unfold fresh, Rect. cbn -[Z.mul]. replace (w <? 0)%Z with false by lia. replace (k * h <? 0)%Z with false by lia. rewrite !Z.add_0_l. reflexivity. }
    pose proof (box_line k w x Hk ltac:(lia) S1 Hx (fun u => scan i u y') c A HA Hc) as E. specialize (E ltac:(intros z Hz; apply Hal; lia)). rewrite mult_IZR.
    rewrite (sumZ_sumR (Z.to_nat k) (fun z => c (at_ (shows i) z y')) (x * k)). exact E. }
  assert (IZR k * sumR (map (fun z => IZR (c (scan j x z))) (zseq (y * k) (Z.to_nat k))) = IZR (sumZ (Z.to_nat k) (fun b => k * c (scan j x (y * k + b)))%Z)) as E1.
  { rewrite sumZ_scale, mult_IZR. f_equal. symmetry. apply (sumZ_sumR (Z.to_nat k) (fun z => c (scan j x z)) (y * k)). }
  pose proof (sumZ_R (Z.to_nat k) (fun b => k * c (scan j x (y * k + b)))%Z (fun b => sumZ (Z.to_nat k) (fun a => c (at_ (shows i) (x * k + a) (y * k + b)))) (51 / 100 * IZR k)) as E2.
  specialize (E2 ltac:(intros b Hb; apply EH; assert (y * k + b < (y + 1) * k)%Z by lia; nia)). rewrite INR_IZR_INZ, Z2Nat.id in E2 by lia. fold (block_sum c k (shows i) x y) in E2.
  assert (1 <= IZR k) as KR by (apply IZR_le; lia). rewrite <- E1 in E2. set (S := sumR _) in *. apply Rabs_le_inv in EV, E2.
  assert (IZR k * (- (51 / 100 * IZR k)) <= IZR k * (IZR k * IZR r - S) <= IZR k * (51 / 100 * IZR k)) as EV2 by (split; apply Rmult_le_compat_l; lra).
  apply le_IZR. rewrite mult_IZR, abs_IZR, minus_IZR, mult_IZR, !mult_IZR. assert (Rabs (IZR k * IZR k * IZR r - IZR (block_sum c k (shows i) x y)) <= 102 / 100 * (IZR k * IZR k)); [apply Rabs_le; lra|lra].
Qed.
