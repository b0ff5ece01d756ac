(** Blurring: one pixel, then whole pictures. *)
From Coq Require Import ZArith List Bool Lia Reals Lra Psatz ZifyBool.
From Flocq Require Import Core BinarySingleNaN.
From Verif Require Import GoInt GoFloat Image_Model Pixel_Model Pixel_Spec Pixel_Proofs Resample_Model Resample_Spec Resample_Err Resample_Mix Resample_Weights Resample_Place Resample_Classes Resample_Kernels Resample_Proofs.
Import ListNotations.
Local Open Scope Z_scope.

(** ** The pixel that is stored *)
Definition bmix (line : Z -> pixel) (ws : list (Z * f64)) : pixel :=
  let wsum := fold_left (fun sum uw => fadd sum (snd uw)) ws (of_int 0) in
  let '(r, g, b, a) := accumulate line ws in
  if feq a (of_int 0) then Px 0 0 0 0
  else let aInv := fdiv (of_int 1) a in Px (clampF (fmul r aInv)) (clampF (fmul g aInv)) (clampF (fmul b aInv)) (clampF (fdiv a wsum)).
Definition bws (kernel : Z -> f64) (radius n x : Z) : list (Z * f64) :=
  let min := if x - radius <? 0 then 0 else x - radius in
  let max := if n - 1 <? x + radius then n - 1 else x + radius in
  map (fun ix => (ix, kernel (Z.abs (x - ix)))) (zseq min (Z.to_nat (max - min + 1))).
Lemma blurAt_eq kernel radius n line x : blurAt kernel radius n line x = bmix line (bws kernel radius n x).
Proof. unfold blurAt, bmix, bws. cbn zeta. reflexivity. Qed.
Lemma bmix_colour line ws : colour (bmix line ws).
Proof.
  unfold bmix. rewrite accumulate_sums. cbn zeta. assert (forall q, byte (clampF q)) as B by (intros q; pose proof (clampF_byte q); unfold byte; lia). destruct (feq _ _); unfold colour; cbn [pr pg pb pa]; [unfold byte; lia|]. auto.
Qed.
(** Weights fit for it: none negative. *)
Definition smooth (ws : list (Z * f64)) : Prop :=
  (forall iw, In iw ws -> is_finite (snd iw) = true /\ (0 <= R2 iw)%R) /\ (INR (length ws) <= n20)%R /\ (/ 1048576 <= sumR (map R2 ws) <= 1048576)%R.
Definition bclosed (F : list (Z * f64) -> Prop) (Rel : pixel -> pixel -> Prop) : Prop :=
  forall line line' ws, F ws -> (forall iw, In iw ws -> Rel (line (fst iw)) (line' (fst iw))) -> Rel (bmix line ws) (bmix line' ws).
Lemma smooth_abs ws : smooth ws -> sumR (map (fun iw => Rabs (R2 iw)) ws) = sumR (map R2 ws).
Proof. intros (F & _). f_equal. apply map_ext_in. intros iw Hin. apply Rabs_pos_eq. apply F. exact Hin. Qed.
Lemma smooth_mix A line ws : smooth ws -> (forall iw, In iw ws -> pa (line (fst iw)) = A) ->
  (forall iw, In iw ws -> val (snd iw) (R2 iw) /\ pa (line (fst iw)) = A) /\ (sumR (map (fun iw => Rabs (R2 iw)) ws) <= 64 * sumR (map R2 ws))%R.
Proof. intros Hs H. pose proof Hs as (F1 & F2 & F3). split; [|rewrite smooth_abs by exact Hs; lra]. intros iw Hin. split; [split; [apply F1; exact Hin|reflexivity]|apply H; exact Hin]. Qed.
(** The channels are those of [mix]. *)
Lemma bmix_channel c line ws : a_channel c -> c (bmix line ws) = c (mix line ws).
Proof. intros Hc. unfold bmix, mix. rewrite accumulate_sums. cbn zeta. destruct (feq _ _); [reflexivity|]. destruct Hc as [ -> | [ -> | -> ]]; reflexivity. Qed.
Lemma balpha_closed A : 1 <= A <= 255 -> bclosed smooth (fun p _ => alpha A p).
Proof.
  intros HA line _ ws Hs Hl. split; [apply bmix_colour|]. destruct (smooth_mix A line ws Hs (fun iw Hin => proj2 (Hl iw Hin))) as [H1 H2]. pose proof Hs as (F1 & F2 & F3).
  destruct (alpha_sum line ws R2 A HA H1 F2 H2 F3) as (a & Va & Ea). pose proof (alpha_pos line ws R2 A HA H1 F2 H2 F3) as Hp.
  destruct (fsum_err snd R2 ws (fun iw Hin => proj1 (H1 iw Hin)) F2) as (s & Vs & Es); [rewrite smooth_abs by exact Hs; lra|]. rewrite smooth_abs in Es by exact Hs.
  unfold bmix. rewrite accumulate_sums, Hp. cbn zeta. cbn [pa].
  assert (fold_left (fun sum uw => fadd sum (snd uw)) ws (of_int 0) = fsum (map snd ws)) as ->. { unfold fsum. generalize (of_int 0). clear. induction ws as [|x l IH]; intros z; [reflexivity|]. cbn [fold_left map]. apply IH. }
  set (W := sumR (map R2 ws)) in *. pose proof u_small as Hu. unfold n20 in F2. pose proof (pos_INR (length ws)) as Hl0. set (n := INR (length ws)) in *.
  assert (1 <= IZR A <= 255)%R as HAR by (split; apply IZR_le; lia). apply Rabs_le_inv in Ea.
  assert (Rabs (s - W) <= / 1073741824 * W)%R as Es2.
  { eapply Rle_trans; [exact Es|]. assert (n * (u * W + h) <= 1048576 * (/ 9007199254740992 * W + h))%R; [|unfold h in *; lra]. apply Rmult_le_compat; try lra; [unfold h; assert (0 <= u * W)%R by (apply Rmult_le_pos; lra); lra|]. assert (u * W <= / 9007199254740992 * W)%R by (apply Rmult_le_compat_r; lra). lra. }
  apply Rabs_le_inv in Es2.
  assert (val (fdiv (fsum (map (awOf line) ws)) (fsum (map snd ws))) (R64 (a / s)) /\ (Rabs (R64 (a / s) - IZR A) <= / 8)%R) as [Vq Eq].
  { set (e := (/ 8388608)%R) in *. assert (0 < s)%R as Hs0 by lra. assert (Rabs (a / s - IZR A) <= / 1000)%R as E1.
    { replace (a / s - IZR A)%R with ((a - IZR A * s) * / s)%R by (field; lra). rewrite Rabs_mult, (Rabs_pos_eq (/ s)) by (apply Rlt_le, Rinv_0_lt_compat; lra). apply (Rmult_le_reg_r s); [lra|]. rewrite Rmult_assoc, Rinv_l, Rmult_1_r by lra.
      assert (Rabs (IZR A * (W - s)) <= 255 * (/ 1073741824 * W))%R as E0 by (rewrite Rabs_mult; apply Rmult_le_compat; try apply Rabs_pos; apply Rabs_le; lra). apply Rabs_le_inv in E0.
      assert (e * (IZR A * W) <= e * (255 * W))%R by (apply Rmult_le_compat_l; [unfold e; lra|]; apply Rmult_le_compat_r; lra). unfold e in *. apply Rabs_le. lra. }
    apply Rabs_le_inv in E1. split; [apply val_div; [exact Va|exact Vs|lra|apply huge; apply Rabs_le; lra]|].
    pose proof (R64_bound (a / s) 256 ltac:(apply Rabs_le; lra)) as E2. unfold h in E2. apply Rabs_le. lra. }
  apply Rabs_le_inv in Eq. pose proof (clampF_range _ _ A A Vq ltac:(lia) ltac:(lia) ltac:(lra)). lia.
Qed.
Lemma bbetween_closed A c lo hi : 1 <= A <= 255 -> a_channel c -> 0 <= lo -> hi <= 255 -> bclosed smooth (fun p _ => alpha A p /\ between c lo hi p).
Proof.
  intros HA Hc H0 H255 line line' ws Hs Hl. split; [apply (balpha_closed A HA line line' ws Hs); intros iw Hin; apply Hl; exact Hin|].
  destruct (smooth_mix A line ws Hs (fun iw Hin => proj2 (proj1 (Hl iw Hin)))) as [H1 H2]. pose proof Hs as (F1 & F2 & F3). unfold between. rewrite (bmix_channel c line ws Hc).
  apply (mix_channel line ws R2 A HA H1 F2 H2 F3 c lo hi Hc); try assumption; [intros iw Hin; apply channel_byte; [exact Hc|]; apply Hl; exact Hin|].
  unfold mean. set (W := sumR (map R2 ws)) in *. set (S := sumR (map (fun iw => (IZR (c (line (fst iw))) * R2 iw)%R) ws)).
  assert (IZR lo * W <= S <= IZR hi * W)%R as HS.
  { unfold W, S. rewrite <- !(sumR_map_mult R2). split; apply sumR_map_le; intros iw Hin; destruct (Hl iw Hin) as [_ [C1 C2]]; apply IZR_le in C1, C2; destruct (F1 iw Hin) as [_ P]; apply Rmult_le_compat_r; lra. }
  split; apply (Rmult_le_reg_r W); try lra; unfold Rdiv; rewrite Rmult_assoc, Rinv_l, Rmult_1_r by lra; lra.
Qed.
Lemma buniform_closed p : colour p -> 1 <= pa p -> bclosed smooth (fun q _ => q = p).
Proof.
  intros Hp HA line line' ws Hf Hl. assert (1 <= pa p <= 255) as HA2 by (destruct Hp as (_ & _ & _ & H); unfold byte in H; lia).
  assert (forall c, a_channel c -> pa (bmix line ws) = pa p /\ c (bmix line ws) = c p) as K.
  { intros c Hc. pose proof (channel_byte c p Hc Hp) as B. destruct (bbetween_closed (pa p) c (c p) (c p) HA2 Hc ltac:(lia) ltac:(lia) line line' ws Hf) as [[_ E1] E2]; [|unfold between in E2; split; [exact E1|lia]].
    intros iw Hin. rewrite (Hl iw Hin). repeat split; try apply Hp; lia. }
  destruct (K pr ltac:(left; reflexivity)) as [Ea Er]. destruct (K pg ltac:(right; left; reflexivity)) as [_ Eg]. destruct (K pb ltac:(right; right; reflexivity)) as [_ Eb].
  destruct (bmix line ws) as [r g b a]. destruct p as [r' g' b' a']. cbn in *. congruence.
Qed.
Lemma btransparent_closed : bclosed smooth (fun p _ => alpha 0 p).
Proof.
  intros line line' ws Hf Hl. split; [apply bmix_colour|]. unfold bmix. rewrite accumulate_sums. cbn zeta. assert (isz (fsum (map (awOf line) ws))) as Hz.
  { apply fsum_zero. intros x Hx. apply in_map_iff in Hx. destruct Hx as (iw & <- & Hin). unfold awOf. rewrite (proj2 (Hl iw Hin)). destruct Hf as (F1 & _). destruct (F1 iw Hin) as [F1' _]. change (of_int 0) with (B754_zero false : f64). destruct (snd iw); cbn in *; try discriminate; exact I. }
  destruct (fsum (map (awOf line) ws)); try contradiction. reflexivity.
Qed.
Lemma bveiled_closed : bclosed (fun _ => True) veiled.
Proof.
  intros line line' ws _ H. split; [apply bmix_colour|]. split; [apply bmix_colour|]. left.
  assert (forall c, a_channel c -> eqz (fsum (map (chOf c line) ws)) (fsum (map (chOf c line') ws))) as Kc by (intros c Hc; apply sum_eqz; intros iw Hin; apply channel_eqz; auto).
  assert (eqz (fsum (map (awOf line) ws)) (fsum (map (awOf line') ws))) as Ka by (apply sum_eqz; intros iw Hin; apply (channel_eqz pr); [left; reflexivity|auto]).
  unfold bmix. rewrite !accumulate_sums. cbn zeta. rewrite <- (eq0_eqz _ _ Ka). destruct (feq _ _) eqn:E; [reflexivity|]. rewrite <- (not0_eqz _ _ Ka E).
  rewrite (clamp_eqz _ _ (mul_eqz _ _ _ (Kc pr ltac:(left; reflexivity)))), (clamp_eqz _ _ (mul_eqz _ _ _ (Kc pg ltac:(right; left; reflexivity)))), (clamp_eqz _ _ (mul_eqz _ _ _ (Kc pb ltac:(right; right; reflexivity)))). reflexivity.
Qed.

(** ** Whole pictures *)
Section kept.
Variable F : list (Z * f64) -> Prop.
Variable Rel : pixel -> pixel -> Prop.
Hypothesis HRel : bclosed F Rel.
Variable kernel : Z -> f64.
Variable radius : Z.
Hypothesis HF : forall n x, 1 <= n <= 2 ^ 20 -> 0 <= x < n -> F (bws kernel radius n x).
Lemma bws_in n x iw : In iw (bws kernel radius n x) -> 0 <= fst iw < n.
Proof.
  unfold bws. cbn zeta. set (a := if x - radius <? 0 then _ else _). set (b := if n - 1 <? x + radius then _ else _). assert (0 <= a) by (unfold a; destruct (x - radius <? 0) eqn:E; lia). assert (b <= n - 1) by (unfold b; destruct (n - 1 <? x + radius) eqn:E; lia).
  intros Hin. apply in_map_iff in Hin. destruct Hin as (z & <- & Hz). apply in_zseq in Hz. cbn [fst]. lia.
Qed.
Lemma bhorizontal_kept i i' : pixelwise Rel (shows i) (shows i') -> sides (shows i) ->
  pixelwise Rel (shows (blurHorizontal i kernel radius)) (shows (blurHorizontal i' kernel radius)) /\ pw (shows (blurHorizontal i kernel radius)) = pw (shows i) /\ ph (shows (blurHorizontal i kernel radius)) = ph (shows i).
Proof.
  intros Hi Hs. unfold blurHorizontal. destruct (dims Rel i i' Hi Hs) as (-> & -> & -> & ->). destruct Hi as (E1 & E2 & E3). destruct Hs as [S1 S2].
  apply fresh_pixelwise; [lia|lia|]. intros x y Hx Hy. rewrite !blurAt_eq. apply HRel; [apply HF; assumption|]. intros iw Hin. apply E3; [apply (bws_in _ _ _ Hin)|exact Hy].
Qed.
Lemma bvertical_kept i i' : pixelwise Rel (shows i) (shows i') -> sides (shows i) ->
  pixelwise Rel (shows (blurVertical i kernel radius)) (shows (blurVertical i' kernel radius)) /\ pw (shows (blurVertical i kernel radius)) = pw (shows i) /\ ph (shows (blurVertical i kernel radius)) = ph (shows i).
Proof.
  intros Hi Hs. unfold blurVertical. destruct (dims Rel i i' Hi Hs) as (-> & -> & -> & ->). destruct Hi as (E1 & E2 & E3). destruct Hs as [S1 S2].
  apply fresh_pixelwise; [lia|lia|]. intros x y Hx Hy. rewrite !blurAt_eq. apply HRel; [apply HF; assumption|]. intros iw Hin. apply E3; [exact Hx|apply (bws_in _ _ _ Hin)].
Qed.
End kept.
Theorem blur_kept M sigma F (Rel : pixel -> pixel -> Prop) i i' : bclosed F Rel ->
  (fle sigma (of_int 0) = false -> forall n x, 1 <= n <= 2 ^ 20 -> 0 <= x < n -> F (bws (fun j => gaussianBlurKernel M (of_int j) sigma) (to_int (fceil (fmul sigma (of_int 3)))) n x)) ->
  pixelwise Rel (shows i) (shows i') -> sides (shows i) ->
  pixelwise Rel (shows (Blur M i sigma)) (shows (Blur M i' sigma)) /\ pw (shows (Blur M i sigma)) = pw (shows i) /\ ph (shows (Blur M i sigma)) = ph (shows i).
Proof.
  intros HRel HF Hi Hs. unfold Blur. destruct (fle sigma (of_int 0)); [apply (clone_kept Rel i i' Hi Hs)|]. cbn zeta. specialize (HF eq_refl).
  destruct (bhorizontal_kept F Rel HRel _ _ HF i i' Hi Hs) as (A & B & C).
  assert (sides (shows (blurHorizontal i (fun j => gaussianBlurKernel M (of_int j) sigma) (to_int (fceil (fmul sigma (of_int 3))))))) as Hs2 by (unfold sides; rewrite B, C; exact Hs).
  destruct (bvertical_kept F Rel HRel _ _ HF _ _ A Hs2) as (A2 & B2 & C2). rewrite B in B2. rewrite C in C2. auto.
Qed.

(** ** The weights *)
Section gauss.
Variable M : mathf.
Hypothesis HM : exp_ok M.
Variable sigma : f64.
Variable s : R.
Hypothesis Vs : val sigma s.
Hypothesis Hs : (/ 100000 <= s <= 100000)%R.
Local Open Scope R_scope.
Lemma root_val : exists q, val (fsqrt (fmul (of_int 2) pi)) q /\ 249 / 100 <= q <= 253 / 100.
Proof.
  pose proof u_small as Hu. assert (val pi (R64 (884279719003555 / 281474976710656))) as Vp by (apply val_div; [apply val_int; change (2 ^ 53)%Z with 9007199254740992%Z; lia|apply val_int; change (2 ^ 53)%Z with 9007199254740992%Z; lia|lra|apply huge; apply Rabs_le; lra]).
  pose proof (R64_bound (884279719003555 / 281474976710656) 4 ltac:(apply Rabs_le; lra)) as E1. unfold h in E1. set (p := R64 (884279719003555 / 281474976710656)) in *.
  assert (val (fmul (of_int 2) pi) (R64 (2 * p))) as V2 by (apply val_mul; [exact v2|exact Vp|apply huge; apply Rabs_le; lra]).
  pose proof (R64_bound (2 * p) 8 ltac:(apply Rabs_le; lra)) as E2. unfold h in E2. set (p2 := R64 (2 * p)) in *.
  exists (R64 (sqrt p2)). split; [apply val_sqrt; [exact V2|lra]|].
  assert (25 / 10 <= sqrt p2 <= 252 / 100) as E3. { split; [rewrite <- (sqrt_square (25 / 10)) by lra|rewrite <- (sqrt_square (252 / 100)) by lra]; apply sqrt_le_1; lra. }
  pose proof (R64_bound (sqrt p2) 3 ltac:(apply Rabs_le; lra)) as E4. unfold h in E4. lra.
Qed.
Lemma two_sigma : exists d, val (fmul (fmul (of_int 2) sigma) sigma) d /\ / 10000000000 <= d <= 40000000000.
Proof.
  pose proof u_small as Hu. assert (val (fmul (of_int 2) sigma) (R64 (2 * s))) as V1 by (apply val_mul; [exact v2|exact Vs|apply huge; apply Rabs_le; lra]).
  pose proof (R64_bound (2 * s) (2 * s) ltac:(rewrite Rabs_pos_eq; lra)) as E1. assert (u * (2 * s) <= / 9007199254740992 * (2 * s)) by (apply Rmult_le_compat_r; lra). unfold h in E1. set (p := R64 (2 * s)) in *.
  assert (19 / 10 * s <= p <= 21 / 10 * s) as E2 by lra.
  assert (15 / 10 * / 10000000000 <= p * s <= 21 / 10 * 10000000000) as E3. { assert (15 / 10 * / 100000 * / 100000 <= p * s) by (apply Rmult_le_compat; lra). assert (p * s <= 21 / 10 * 100000 * 100000) by (apply Rmult_le_compat; lra). lra. }
  exists (R64 (p * s)). split; [apply val_mul; [exact V1|exact Vs|apply huge; apply Rabs_le; lra]|].
  pose proof (R64_bound (p * s) (p * s) ltac:(rewrite Rabs_pos_eq; lra)) as E4. assert (u * (p * s) <= / 9007199254740992 * (p * s)) by (apply Rmult_le_compat_r; lra). unfold h in E4. lra.
Qed.
Lemma radius_val : exists r, to_int (fceil (fmul sigma (of_int 3))) = r /\ (1 <= r <= 300002)%Z /\ IZR r <= 3 * s + 2.
Proof.
  pose proof u_small as Hu. assert (val (of_int 3) 3) as V3 by (apply val_int; cbn; lia). assert (val (fmul sigma (of_int 3)) (R64 (s * 3))) as V1 by (apply val_mul; [exact Vs|exact V3|apply huge; apply Rabs_le; lra]).
  pose proof (R64_bound (s * 3) 300000 ltac:(apply Rabs_le; lra)) as E1. unfold h in E1. set (p := R64 (s * 3)) in *. assert (0 < p) as Hp0 by (pose proof (R64_bound (s * 3) (s * 3) ltac:(rewrite Rabs_pos_eq; lra)) as E; assert (u * (s * 3) <= / 9007199254740992 * (s * 3)) by (apply Rmult_le_compat_r; lra); unfold h in E; fold p in E; lra).
  pose proof (val_ceil _ _ V1) as Vc. pose proof (Zceil_ub p) as U. pose proof (Zceil_lb p) as L. exists (Zceil p).
  assert (1 <= Zceil p <= 300002)%Z as B. { split; [assert (0 < Zceil p)%Z; [apply lt_IZR; lra|lia]|]. apply le_IZR. lra. }
  split; [apply to_int_IZR; [exact Vc|]; change (2 ^ 63)%Z with 9223372036854775808%Z; lia|]. split; [exact B|]. lra.
Qed.
Lemma kernel_val j : (0 <= j <= 300002)%Z -> exists w, val (gaussianBlurKernel M (of_int j) sigma) w /\ 0 <= w <= 42 / 100 * / s /\ (j = 0%Z -> 38 / 100 * / s <= w).
Proof.
  intros Hj. destruct root_val as (q & Vq & Bq). destruct two_sigma as (d & Vd & Bd). pose proof u_small as Hu. unfold gaussianBlurKernel.
  assert (val (of_int j) (IZR j)) as Vj by (apply val_int; change (2 ^ 53)%Z with 9007199254740992%Z; lia).
  assert (0 <= IZR j <= 300002) as HjR by (split; apply IZR_le; lia). assert (0 <= IZR j * IZR j <= 90001200004) as Hjj by (rewrite <- mult_IZR; split; apply IZR_le; nia).
  assert (val (fmul (of_int j) (of_int j)) (IZR j * IZR j)) as Vjj. { rewrite <- mult_IZR. rewrite <- (R64_int (j * j)) by (change (2 ^ 53)%Z with 9007199254740992%Z; nia). rewrite mult_IZR. apply val_mul; [exact Vj|exact Vj|apply huge; apply Rabs_le; lra]. }
  pose proof (val_neg _ _ Vjj) as Vn. set (z := - (IZR j * IZR j)) in *.
  assert (0 < / d <= 10000000000) as Hid. { split; [apply Rinv_0_lt_compat; lra|]. apply (Rmult_le_reg_r d); [lra|]. rewrite Rinv_l by lra. lra. }
  assert (-1000000000000000000000 <= z / d <= 0) as Bz. { unfold Rdiv. assert (0 <= (IZR j * IZR j) * / d <= 90001200004 * 10000000000) as B by (split; [apply Rmult_le_pos; lra|apply Rmult_le_compat; lra]). unfold z. lra. }
  assert (val (fdiv (fneg (fmul (of_int j) (of_int j))) (fmul (fmul (of_int 2) sigma) sigma)) (R64 (z / d))) as Vt by (apply val_div; [exact Vn|exact Vd|lra|apply huge; apply Rabs_le; lra]).
  assert (R64 (z / d) <= 0) as Ht by (apply (R64_le_int _ 0); [cbn; lia|lra]).
  destruct (HM _ _ Vt Ht) as (y & Vy & Y0 & Ey). set (t := R64 (z / d)) in *. assert (exp t <= 1) as He. { rewrite <- exp_0. destruct (Req_dec t 0) as [->|N]; [lra|]. apply Rlt_le, exp_increasing. lra. } pose proof (exp_pos t) as He0.
  assert (0 <= y <= 1 + / 1000000) as By by lra.
  assert (0 < / s <= 100000) as His. { split; [apply Rinv_0_lt_compat; lra|]. apply (Rmult_le_reg_r s); [lra|]. rewrite Rinv_l by lra. lra. }
  assert (248 / 100 * s <= s * q <= 254 / 100 * s) as Bsq. { assert (s * q <= s * (253 / 100)) by (apply Rmult_le_compat_l; lra). assert (s * (249 / 100) <= s * q) by (apply Rmult_le_compat_l; lra). lra. }
  assert (val (fmul sigma (fsqrt (fmul (of_int 2) pi))) (R64 (s * q))) as Vsq by (apply val_mul; [exact Vs|exact Vq|apply huge; apply Rabs_le; lra]).
  pose proof (R64_bound (s * q) (s * q) ltac:(rewrite Rabs_pos_eq; lra)) as E1. assert (u * (s * q) <= / 9007199254740992 * (s * q)) by (apply Rmult_le_compat_r; lra). unfold h in E1. set (g := R64 (s * q)) in *.
  assert (247 / 100 * s <= g <= 255 / 100 * s) as Bg by lra.
  assert (/ g <= 405 / 1000 * / s /\ 392 / 1000 * / s <= / g) as [Bi1 Bi2].
  { assert (s * / s = 1) as Es by (field; lra). split; apply (Rmult_le_reg_r g); try lra; rewrite Rinv_l by lra.
    - assert (405 / 1000 * / s * (247 / 100 * s) <= 405 / 1000 * / s * g) by (apply Rmult_le_compat_l; lra). nra.
    - assert (392 / 1000 * / s * g <= 392 / 1000 * / s * (255 / 100 * s)) by (apply Rmult_le_compat_l; lra). nra. }
  assert (0 < / g) as Hig by (apply Rinv_0_lt_compat; lra).
  assert (0 <= y * / g <= 41 / 100 * / s) as Byg. { split; [apply Rmult_le_pos; lra|]. assert (y * / g <= (1 + / 1000000) * (405 / 1000 * / s)) by (apply Rmult_le_compat; lra). lra. }
  exists (R64 (y / g)). split; [apply val_div; [exact Vy|exact Vsq|lra|apply huge; unfold Rdiv; apply Rabs_le; lra]|]. unfold Rdiv. split; [split|].
  - apply R64_nonneg. lra.
  - pose proof (R64_bound (y * / g) (41 / 100 * / s) ltac:(rewrite Rabs_pos_eq; lra)) as E2. assert (u * (41 / 100 * / s) <= / 9007199254740992 * (41 / 100 * / s)) by (apply Rmult_le_compat_r; lra). unfold h in E2. assert (/ 100000 <= / s) by (apply Rinv_le_contravar; lra). lra.
  - intros ->. assert (t = 0) as T0. { unfold t, z. replace (- (0 * 0) / d) with 0 by (field; lra). apply (R64_int 0). cbn. lia. } rewrite T0, exp_0 in Ey.
    assert (39 / 100 * / s <= y * / g). { assert ((1 - / 1000000) * (392 / 1000 * / s) <= y * / g) by (apply Rmult_le_compat; lra). lra. }
    pose proof (R64_bound (y * / g) (41 / 100 * / s) ltac:(rewrite Rabs_pos_eq; lra)) as E2. assert (u * (41 / 100 * / s) <= / 9007199254740992 * (41 / 100 * / s)) by (apply Rmult_le_compat_r; lra). unfold h in E2. assert (/ 100000 <= / s) by (apply Rinv_le_contravar; lra). lra.
Qed.
Lemma gauss_smooth n x : (1 <= n <= 2 ^ 20)%Z -> (0 <= x < n)%Z -> smooth (bws (fun j => gaussianBlurKernel M (of_int j) sigma) (to_int (fceil (fmul sigma (of_int 3)))) n x).
Proof.
  intros Hn Hx. destruct radius_val as (r & -> & Hr & HrR). change (2 ^ 20)%Z with 1048576%Z in Hn. set (k := fun j => gaussianBlurKernel M (of_int j) sigma).
  unfold bws. cbn zeta. set (a := if (x - r <? 0)%Z then _ else _). set (b := if (n - 1 <? x + r)%Z then _ else _).
  assert (0 <= a /\ x - r <= a <= x)%Z as Ha by (unfold a; destruct (x - r <? 0)%Z eqn:E; lia). assert (x <= b /\ b <= x + r /\ b <= n - 1)%Z as Hb by (unfold b; destruct (n - 1 <? x + r)%Z eqn:E; lia).
  set (l := zseq a (Z.to_nat (b - a + 1))). assert (forall z, In z l -> (0 <= Z.abs (x - z) <= 300002)%Z) as Hl by (intros z Hz; apply in_zseq in Hz; lia).
  assert (forall z, In z l -> is_finite (k (Z.abs (x - z))) = true /\ 0 <= B2R (k (Z.abs (x - z))) <= 42 / 100 * / s /\ (z = x -> 38 / 100 * / s <= B2R (k (Z.abs (x - z))))) as Hk.
  { intros z Hz. destruct (kernel_val (Z.abs (x - z)) (Hl z Hz)) as (w & [F <-] & B & C). split; [exact F|]. split; [exact B|]. intros ->. apply C. lia. }
  assert (length l = Z.to_nat (b - a + 1)) as Hlen by apply zseq_length.
  assert (0 < / s <= 100000) as His. { split; [apply Rinv_0_lt_compat; lra|]. apply (Rmult_le_reg_r s); [lra|]. rewrite Rinv_l by lra. lra. }
  assert (/ 100000 <= / s) as His2 by (apply Rinv_le_contravar; lra).
  repeat split.
  - apply in_map_iff in H. destruct H as (z & <- & Hz). apply Hk. exact Hz.
  - apply in_map_iff in H. destruct H as (z & <- & Hz). apply Hk. exact Hz.
  - rewrite map_length, Hlen, INR_IZR_INZ. unfold n20. apply IZR_le. lia.
  - rewrite map_map. unfold R2. cbn [snd]. pose proof (sum_part (fun z => if (Z.leb a z && Z.leb z b)%bool then B2R (k (Z.abs (x - z))) else 0) a (Z.to_nat (b - a + 1)) x 1) as P.
    assert (sumR (map (fun z => if (Z.leb a z && Z.leb z b)%bool then B2R (k (Z.abs (x - z))) else 0) l) = sumR (map (fun z => B2R (k (Z.abs (x - z)))) l)) as E.
    { f_equal. apply map_ext_in. intros z Hz. apply in_zseq in Hz. replace (Z.leb a z && Z.leb z b)%bool with true by lia. reflexivity. }
    fold l in P. rewrite E in P. cbn [zseq map sumR] in P. replace (Z.leb a x && Z.leb x b)%bool with true in P by lia.
    assert (38 / 100 * / s <= B2R (k (Z.abs (x - x)))) as K0 by (apply Hk; [apply in_zseq; lia|reflexivity]).
    eapply Rle_trans; [|apply P]; [lra| |lia|lia]. intros z. destruct (Z.leb a z && Z.leb z b)%bool eqn:C; [|lra]. apply Hk. apply in_zseq. lia.
  - rewrite map_map. unfold R2. cbn [snd]. eapply Rle_trans; [apply (sumR_map_le _ (fun _ => 42 / 100 * / s)); intros z Hz; apply Hk; exact Hz|]. rewrite sumR_const, Hlen, INR_IZR_INZ, Z2Nat.id by lia.
    assert (IZR (b - a + 1) <= 6 * s + 5) as Hc. { apply Rle_trans with (IZR (2 * r + 1)); [apply IZR_le; lia|]. rewrite plus_IZR, mult_IZR. lra. }
    assert (42 / 100 * / s * IZR (b - a + 1) <= 42 / 100 * / s * (6 * s + 5)) as E by (apply Rmult_le_compat_l; lra). assert (s * / s = 1) as Es by (field; lra). nra.
Qed.
End gauss.
