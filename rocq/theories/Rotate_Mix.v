(** Mixing up to four pixels of any alphas with weights from 0 to 1. *)
From Coq Require Import ZArith List Bool Lia Reals Lra Psatz.
From Flocq Require Import Core BinarySingleNaN.
From Verif Require Import GoInt GoFloat Image_Model Pixel_Model Pixel_Spec Resample_Model Resample_Spec Resample_Err Resample_Mix Resample_Proofs.
Import ListNotations.
Local Open Scope R_scope.

Lemma clampF_near2 q x : val q x -> - / 4 <= x <= 255 + / 4 -> (0 <= clampF q <= 255)%Z /\ Rabs (IZR (clampF q) - x) <= / 2 + / 10000000000.
Proof.
  intros Hq Hx. pose proof u_small as Hu. assert (val (fadd q fhalf) (R64 (x + / 2))) as Hv.
  { apply val_add; [exact Hq|exact val_half|]. apply huge. apply Rabs_le. lra. }
  assert (- / 10000000000 <= R64 (x + / 2) - (x + / 2) <= / 10000000000) as He.
  { pose proof (R64_bound (x + / 2) 256 ltac:(apply Rabs_le; lra)) as E. unfold h in E. lra. }
  set (y := R64 (x + / 2)) in *. set (k := Zfloor y). pose proof (Zfloor_lb y) as L. pose proof (Zfloor_ub y) as U. fold k in L, U. rewrite <- (plus_IZR k 1) in U.
  assert (0 <= k)%Z as Hk0. { apply le_IZR. assert (-1 < k)%Z; [apply lt_IZR; rewrite plus_IZR in U; lra|apply IZR_le; lia]. }
  assert (k <= 255)%Z as Hk1 by (assert (k < 256)%Z by (apply lt_IZR; lra); lia).
  assert (to_int (fadd q fhalf) = k) as E by (apply (to_int_0 _ y); [exact Hv|exact L|exact Hk0|exact U|change (2 ^ 53)%Z with 9007199254740992%Z; lia]).
  assert (clampF q = k) as ->.
  { unfold clampF. rewrite E. assert (255 <? k = false)%Z as -> by lia. destruct (0 <? k)%Z eqn:K; [|lia]. unfold u8. apply Z.mod_small. change (2 ^ 8)%Z with 256%Z. lia. }
  split; [lia|]. rewrite plus_IZR in U. apply Rabs_le. lra.
Qed.

Section blend.
Variable line : Z -> pixel.
Variable ws : list (Z * f64).
Variable w : Z * f64 -> R.
Hypothesis Hlen : INR (length ws) <= 4.
Hypothesis Hw : forall iw, In iw ws -> val (snd iw) (w iw) /\ 0 <= w iw <= 1.
Hypothesis Hcol : forall iw, In iw ws -> colour (line (fst iw)).
Definition total (g : Z * f64 -> R) : R := sumR (map g ws).
Lemma total_le g g' : (forall iw, In iw ws -> g iw <= g' iw) -> total g <= total g'.
Proof. apply sumR_map_le. Qed.
Lemma total_close g g' e : 0 <= e -> (forall iw, In iw ws -> Rabs (g iw - g' iw) <= e) -> Rabs (total g - total g') <= 4 * e.
Proof.
  intros He H. assert (total g <= total g' + e * INR (length ws) /\ total g' <= total g + e * INR (length ws)) as [A B].
  { unfold total. split; rewrite <- sumR_const, <- sumR_map_plus; apply sumR_map_le; intros iw Hin; specialize (H iw Hin); apply Rabs_le_inv in H; lra. }
  assert (e * INR (length ws) <= e * 4) by (apply Rmult_le_compat_l; lra). apply Rabs_le. lra.
Qed.
Definition AW (iw : Z * f64) : R := R64 (IZR (pa (line (fst iw))) * w iw).
Definition CW (c : pixel -> Z) (iw : Z * f64) : R := R64 (IZR (c (line (fst iw))) * AW iw).
Lemma pa_R iw : In iw ws -> 0 <= IZR (pa (line (fst iw))) <= 255.
Proof. intros H. destruct (Hcol iw H) as (_ & _ & _ & B). unfold byte in B. split; apply IZR_le; lia. Qed.
Lemma c_R c iw : a_channel c -> In iw ws -> 0 <= IZR (c (line (fst iw))) <= 255.
Proof. intros Hc H. pose proof (channel_byte c _ Hc (Hcol iw H)) as B. split; apply IZR_le; lia. Qed.
Lemma aw_ok iw : In iw ws -> val (awOf line iw) (AW iw) /\ 0 <= AW iw <= 255 /\ Rabs (AW iw - IZR (pa (line (fst iw))) * w iw) <= / 10000000000000.
Proof.
  intros H. destruct (Hw iw H) as [V W]. pose proof (pa_R iw H) as P. pose proof u_small as Hu. assert (0 <= IZR (pa (line (fst iw))) * w iw <= 255) as B by (split; nra).
  split; [|split].
  - apply val_mul; [apply val_int; destruct (Hcol iw H) as (_ & _ & _ & D); unfold byte in D; change (2 ^ 53)%Z with 9007199254740992%Z; lia|exact V|]. apply huge. apply Rabs_le. lra.
  - split; [apply R64_nonneg; lra|apply (R64_le_int _ 255); [cbn; lia|lra]].
  - pose proof (R64_bound _ 255 ltac:(rewrite Rabs_pos_eq; [apply B|lra])) as E. unfold AW. unfold h in E. apply Rabs_le. lra.
Qed.
Lemma cw_ok c iw : a_channel c -> In iw ws -> val (chOf c line iw) (CW c iw) /\ 0 <= CW c iw <= 65025 /\ Rabs (CW c iw - IZR (c (line (fst iw))) * AW iw) <= / 100000000000.
Proof.
  intros Hc H. destruct (aw_ok iw H) as (V & W & _). pose proof (c_R c iw Hc H) as P. pose proof u_small as Hu. assert (0 <= IZR (c (line (fst iw))) * AW iw <= 65025) as B by (split; nra).
  split; [|split].
  - apply val_mul; [apply val_int; pose proof (channel_byte c _ Hc (Hcol iw H)); change (2 ^ 53)%Z with 9007199254740992%Z; lia|exact V|]. apply huge. apply Rabs_le. lra.
  - split; [apply R64_nonneg; lra|apply (R64_le_int _ 65025); [cbn; lia|lra]].
  - pose proof (R64_bound _ 65025 ltac:(rewrite Rabs_pos_eq; [apply B|lra])) as E. unfold CW. unfold h in E. apply Rabs_le. lra.
Qed.
Lemma total_bound g b : 0 <= b -> (forall iw, In iw ws -> 0 <= g iw <= b) -> 0 <= total g <= 4 * b.
Proof.
  intros Hb H. split; [apply sumR_nonneg; intros; apply H; assumption|]. eapply Rle_trans; [apply (total_le _ (fun _ => b)); intros; apply H; assumption|]. unfold total. rewrite sumR_const.
  assert (b * INR (length ws) <= b * 4) by (apply Rmult_le_compat_l; lra). lra.
Qed.
Lemma fsum_total F X b : 0 <= b <= 65025 -> (forall iw, In iw ws -> val (F iw) (X iw) /\ 0 <= X iw <= b) -> exists r, val (fsum (map F ws)) r /\ Rabs (r - total X) <= 8 * (u * (4 * b) + h).
Proof.
  intros Hb H. assert (sumR (map (fun iw => Rabs (X iw)) ws) = total X) as E. { unfold total. f_equal. apply map_ext_in. intros iw Hin. apply Rabs_pos_eq. apply H. exact Hin. }
  assert (0 <= total X <= 4 * b) as T by (apply total_bound; [lra|intros; apply H; assumption]).
  destruct (fsum_err F X ws (fun iw Hin => proj1 (H iw Hin))) as (r & Hr & Er); [unfold n20; lra|rewrite E; lra|]. exists r. split; [exact Hr|]. rewrite E in Er. fold (total X) in Er. eapply Rle_trans; [exact Er|].
  pose proof u_small. pose proof h_pos. pose proof (pos_INR (length ws)). assert (0 <= u * total X) by (apply Rmult_le_pos; lra). assert (u * total X <= u * (4 * b)) by (apply Rmult_le_compat_l; lra). apply Rmult_le_compat; lra.
Qed.
Definition A0 : R := total (fun iw => IZR (pa (line (fst iw))) * w iw).
Definition C0 (c : pixel -> Z) : R := total (fun iw => IZR (c (line (fst iw)) * pa (line (fst iw))) * w iw).
Lemma asum : exists a, val (fsum (map (awOf line) ws)) a /\ Rabs (a - total AW) <= / 10000000000 /\ Rabs (a - A0) <= / 5000000000.
Proof.
  destruct (fsum_total (awOf line) AW 255 ltac:(lra)) as (a & Ha & Ea); [intros iw H; destruct (aw_ok iw H) as (V & B & _); split; assumption|]. exists a. split; [exact Ha|].
  pose proof u_small as Hu. assert (Rabs (a - total AW) <= / 10000000000) as E by (unfold h in Ea; lra). split; [exact E|].
  pose proof (total_close AW (fun iw => IZR (pa (line (fst iw))) * w iw) (/ 10000000000000) ltac:(lra) (fun iw H => proj2 (proj2 (aw_ok iw H)))) as E2. fold A0 in E2. apply Rabs_le_inv in E, E2. apply Rabs_le. lra.
Qed.
Lemma csum c : a_channel c -> exists r, val (fsum (map (chOf c line) ws)) r /\ Rabs (r - total (fun iw => IZR (c (line (fst iw))) * AW iw)) <= / 1000000000 /\ Rabs (r - C0 c) <= / 500000000.
Proof.
  intros Hc. destruct (fsum_total (chOf c line) (CW c) 65025 ltac:(lra)) as (r & Hr & Er); [intros iw H; destruct (cw_ok c iw Hc H) as (V & B & _); split; assumption|]. exists r. split; [exact Hr|].
  pose proof u_small as Hu. pose proof (total_close (CW c) (fun iw => IZR (c (line (fst iw))) * AW iw) (/ 100000000000) ltac:(lra) (fun iw H => proj2 (proj2 (cw_ok c iw Hc H)))) as E2. unfold h in Er.
  assert (Rabs (total (fun iw => IZR (c (line (fst iw))) * AW iw) - C0 c) <= 4 * (/ 10000000000)) as E3.
  { apply total_close; [lra|]. intros iw H. rewrite mult_IZR. destruct (aw_ok iw H) as (_ & _ & E). pose proof (c_R c iw Hc H) as B. replace (IZR (c (line (fst iw))) * AW iw - IZR (c (line (fst iw))) * IZR (pa (line (fst iw))) * w iw) with (IZR (c (line (fst iw))) * (AW iw - IZR (pa (line (fst iw))) * w iw)) by ring.
    rewrite Rabs_mult, (Rabs_pos_eq (IZR (c _))) by lra. assert (IZR (c (line (fst iw))) * Rabs (AW iw - IZR (pa (line (fst iw))) * w iw) <= 255 * / 10000000000000) by (apply Rmult_le_compat; try apply Rabs_pos; lra). lra. }
  apply Rabs_le_inv in Er, E2, E3. split; apply Rabs_le; lra.
Qed.
(** The alpha that is stored is near the mean. *)
Lemma blend_alpha : A0 <= 255 + / 8 -> Rabs (IZR (pa (mix line ws)) - A0) <= / 2 + / 1000000000.
Proof.
  intros HA. destruct asum as (a & Ha & _ & Ea). apply Rabs_le_inv in Ea. assert (0 <= A0) as P by (apply sumR_nonneg; intros iw H; pose proof (pa_R iw H); destruct (Hw iw H); apply Rmult_le_pos; lra).
  unfold mix. rewrite accumulate_sums. rewrite (val_eq _ _ a 0 Ha (val_int 0 ltac:(lia))). destruct (Req_bool_spec a 0) as [Z|Z]; cbn [pa].
  - apply Rabs_le. lra.
  - destruct (clampF_near2 _ a Ha ltac:(lra)) as [_ E]; apply Rabs_le_inv in E; apply Rabs_le; lra.
Qed.
Lemma blend_seen : (1 <= pa (mix line ws))%Z -> exists a, val (fsum (map (awOf line) ws)) a /\ / 4 < a /\ feq (fsum (map (awOf line) ws)) (of_int 0) = false.
Proof.
  destruct asum as (a & Ha & _ & Ea). apply Rabs_le_inv in Ea. assert (0 <= A0) as P by (apply sumR_nonneg; intros iw H; pose proof (pa_R iw H); destruct (Hw iw H); apply Rmult_le_pos; lra).
  unfold mix. rewrite accumulate_sums. destruct (feq _ _) eqn:E; cbn [pa]; [lia|]. intros H1. exists a. split; [exact Ha|]. split; [|reflexivity].
  destruct (Rlt_dec (/ 4) a) as [L|L]; [exact L|]. pose proof (clampF_range _ a 0 0 Ha ltac:(lia) ltac:(lia) ltac:(lra)). lia.
Qed.
(** Its channels. *)
Lemma blend_channel c lo hi : a_channel c -> (0 <= lo)%Z -> (hi <= 255)%Z -> (forall iw, In iw ws -> (1 <= pa (line (fst iw)))%Z -> (lo <= c (line (fst iw)) <= hi)%Z) ->
  (1 <= pa (mix line ws))%Z -> (lo <= c (mix line ws) <= hi)%Z /\ Rabs (A0 * IZR (c (mix line ws)) - C0 c) <= A0 / 2 + / 100000.
Proof.
  intros Hc H0 H255 Hin Hp. destruct (blend_seen Hp) as (a & Ha & La & Ef). destruct asum as (a' & Ha' & Ea1 & Ea2). rewrite (val_unique _ _ _ Ha' Ha) in Ea1, Ea2. clear a' Ha'.
  destruct (csum c Hc) as (r & Hr & Er1 & Er2). pose proof u_small as Hu.
  assert (0 <= IZR lo) as L0 by (apply (IZR_le 0), H0). assert (IZR hi <= 255) as H5 by (apply IZR_le, H255).
  assert (forall iw, In iw ws -> IZR lo * AW iw <= IZR (c (line (fst iw))) * AW iw <= IZR hi * AW iw) as K.
  { intros iw H. destruct (aw_ok iw H) as (_ & B & _). destruct (Z_le_gt_dec 1 (pa (line (fst iw)))) as [L|L].
    - destruct (Hin iw H L) as [C1 C2]. apply IZR_le in C1, C2. split; apply Rmult_le_compat_r; lra.
    - destruct (Hcol iw H) as (_ & _ & _ & D). unfold byte in D. assert (pa (line (fst iw)) = 0%Z) as Z0 by lia. assert (AW iw = 0) as -> by (unfold AW; rewrite Z0, Rmult_0_l; apply (R64_int 0); cbn; lia). lra. }
  assert (total (fun iw => IZR lo * AW iw) = IZR lo * total AW /\ total (fun iw => IZR hi * AW iw) = IZR hi * total AW) as [T1 T2] by (split; unfold total; apply (sumR_map_mult AW)).
  assert (IZR lo * total AW <= total (fun iw => IZR (c (line (fst iw))) * AW iw) <= IZR hi * total AW) as KT by (rewrite <- T1, <- T2; split; apply total_le; intros; apply K; assumption).
  assert (0 <= total AW <= 1020) as BT by (pose proof (total_bound AW 255 ltac:(lra) (fun iw H => proj1 (proj2 (aw_ok iw H)))); lra).
  apply Rabs_le_inv in Ea1, Ea2, Er1, Er2. set (S := total (fun iw => IZR (c (line (fst iw))) * AW iw)) in *. set (TA := total AW) in *.
  assert (0 <= IZR hi) as Hhi0. { destruct (Rle_dec 0 (IZR hi)) as [L|L]; [exact L|]. assert (IZR hi * TA <= 0 /\ 0 <= IZR lo * TA) as [M1 M2] by (split; nra). assert (TA = 0) by nra. lra. }
  assert (- / 10000000 <= r - IZR lo * a /\ r - IZR hi * a <= / 10000000) as [R1 R2]. { assert (IZR lo * (a - TA) <= 255 * / 10000000000) by (destruct (Rle_dec (IZR lo) 255) as [G|G]; [nra|]; assert (IZR lo * TA <= 255 * TA) by nra; assert (TA <= 0) by nra; lra). assert (IZR hi * (TA - a) <= 255 * / 10000000000) by nra. split; lra. }
  assert (- / 1000000 <= r <= 261000) as Rr. { assert (0 <= IZR lo * a) by nra. assert (IZR hi * a <= 255 * a) by nra. lra. }
  assert (val (fdiv (of_int 1) (fsum (map (awOf line) ws))) (R64 (1 / a))) as Hi.
  { apply val_div; [apply (val_int 1); lia|exact Ha|lra|]. apply huge. rewrite Rabs_pos_eq by (apply Rlt_le, Rdiv_lt_0_compat; lra). apply (Rmult_le_reg_r a); [lra|]. unfold Rdiv. rewrite Rmult_assoc, Rinv_l by lra. lra. }
  set (i := R64 (1 / a)) in *. assert (0 < / a <= 4) as Hia. { split; [apply Rinv_0_lt_compat; lra|]. apply (Rmult_le_reg_r a); [lra|]. rewrite Rinv_l by lra. lra. }
  assert (Rabs (i - / a) <= 5 * u) as Ei. { pose proof (R64_bound (1 / a) 4) as E. unfold Rdiv in E. rewrite Rmult_1_l in E. rewrite Rabs_pos_eq in E by lra. specialize (E ltac:(lra)). unfold i, Rdiv. rewrite Rmult_1_l. apply Rabs_le. rewrite u_val in *. unfold h in E. lra. }
  assert (Rabs (r * i - r * / a) <= / 1000000000) as E3. { replace (r * i - r * / a) with (r * (i - / a)) by ring. rewrite Rabs_mult. assert (Rabs r <= 261000) by (apply Rabs_le; lra). assert (Rabs r * Rabs (i - / a) <= 261000 * (5 * u)) by (apply Rmult_le_compat; try apply Rabs_pos; assumption). lra. }
  assert (IZR lo - / 1000000 <= r * / a <= IZR hi + / 1000000) as Q. { split; apply (Rmult_le_reg_r a); try lra; rewrite Rmult_assoc, Rinv_l, Rmult_1_r by lra; lra. }
  apply Rabs_le_inv in E3. assert (Rabs (r * i) <= 256) as Bq by (apply Rabs_le; lra).
  assert (val (fmul (fsum (map (chOf c line) ws)) (fdiv (of_int 1) (fsum (map (awOf line) ws)))) (R64 (r * i))) as Hq by (apply val_mul; [exact Hr|exact Hi|apply huge; lra]).
  pose proof (R64_bound (r * i) 256 Bq) as E4. unfold h in E4. set (q := R64 (r * i)) in *.
  assert (c (mix line ws) = clampF (fmul (fsum (map (chOf c line) ws)) (fdiv (of_int 1) (fsum (map (awOf line) ws))))) as -> by (unfold mix; rewrite accumulate_sums, Ef; destruct Hc as [ -> | [ -> | -> ]]; reflexivity).
  split; [apply (clampF_range _ q); [exact Hq|exact H0|exact H255|lra]|]. assert (Rabs (IZR (clampF (fmul (fsum (map (chOf c line) ws)) (fdiv (of_int 1) (fsum (map (awOf line) ws))))) - q) <= / 2 + / 10000000000) as E5 by (destruct (clampF_near2 _ q Hq ltac:(lra)) as [_ E]; lra).
  set (k := IZR (clampF _)) in *. clearbody k. apply Rabs_le_inv in E5.
  assert (Rabs (k - r * / a) <= / 2 + / 500000000) as E6 by (apply Rabs_le; lra).
  assert (Rabs (a * k - r) <= a / 2 + a / 500000000) as E7. { replace (a * k - r) with (a * (k - r * / a)) by (field; lra). rewrite Rabs_mult, (Rabs_pos_eq a) by lra. assert (a * Rabs (k - r * / a) <= a * (/ 2 + / 500000000)) by (apply Rmult_le_compat_l; lra). lra. }
  assert (Rabs ((A0 - a) * k) <= / 5000000000 * 257) as E8. { rewrite Rabs_mult. apply Rmult_le_compat; try apply Rabs_pos; apply Rabs_le; lra. }
  apply Rabs_le_inv in E7, E8. apply Rabs_le. assert (a <= 1021) by lra. split; lra.
Qed.
End blend.
