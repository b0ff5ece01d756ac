(** What a pixel becomes when the pixels around it are mixed with given weights. *)
From Coq Require Import ZArith List Bool Lia Reals Lra Psatz.
From Flocq Require Import Core BinarySingleNaN.
From Verif Require Import GoInt GoFloat Image_Model Pixel_Model Resample_Model Resample_Err.
Import ListNotations.
Local Open Scope R_scope.

Definition awOf (line : Z -> pixel) (iw : Z * f64) : f64 := fmul (of_int (pa (line (fst iw)))) (snd iw).
Definition chOf (c : pixel -> Z) (line : Z -> pixel) (iw : Z * f64) : f64 := fmul (of_int (c (line (fst iw)))) (awOf line iw).
Lemma accumulate_sums line ws : accumulate line ws =
  (fsum (map (chOf pr line) ws), fsum (map (chOf pg line) ws), fsum (map (chOf pb line) ws), fsum (map (awOf line) ws)).
Proof.
  unfold accumulate, fsum. assert (forall r g b a, fold_left (fun '(r, g, b, a) iw =>
    let s := line (fst iw) in
    let aw := fmul (of_int (pa s)) (snd iw) in
    (fadd r (fmul (of_int (pr s)) aw), fadd g (fmul (of_int (pg s)) aw), fadd b (fmul (of_int (pb s)) aw), fadd a aw)) ws (r, g, b, a) =
    (fold_left fadd (map (chOf pr line) ws) r, fold_left fadd (map (chOf pg line) ws) g, fold_left fadd (map (chOf pb line) ws) b, fold_left fadd (map (awOf line) ws) a)) as E.
  { induction ws as [|iw l IH]; intros r g b a; [reflexivity|]. cbn [fold_left map]. rewrite <- IH. reflexivity. }
  apply E.
Qed.

Section mix.
Variable line : Z -> pixel.
Variable ws : list (Z * f64).
Variable w : Z * f64 -> R.
Variable A : Z.
Hypothesis HA : (1 <= A <= 255)%Z.
Hypothesis Hws : forall iw, In iw ws -> val (snd iw) (w iw) /\ pa (line (fst iw)) = A.
Hypothesis Hn : INR (length ws) <= n20.
Let T : R := sumR (map (fun iw => Rabs (w iw)) ws).
Let W : R := sumR (map w ws).
Hypothesis HT : T <= 64 * W.
Hypothesis HW : / 1048576 <= W <= 1048576.
Let B : R := IZR A * W.

Lemma A_R : 1 <= IZR A <= 255.
Proof. split; apply IZR_le; lia. Qed.
Lemma B_R : / 1048576 <= B <= 255 * 1048576.
Proof. pose proof A_R. unfold B. split; nra. Qed.
Lemma w_le iw : In iw ws -> Rabs (w iw) <= T.
Proof.
  unfold T. clear. induction ws as [|x l IH]; [intros []|]. intros [ -> |H]; cbn [map sumR].
  - assert (0 <= sumR (map (fun iw => Rabs (w iw)) l)) by (apply sumR_nonneg; intros; apply Rabs_pos). lra.
  - specialize (IH H). pose proof (Rabs_pos (w x)). lra.
Qed.
Lemma T_up : 0 <= T <= 67108864.
Proof. split; [apply sumR_nonneg; intros; apply Rabs_pos|lra]. Qed.
Lemma aw_val iw : In iw ws -> exists x, val (awOf line iw) x /\ Rabs (x - IZR A * w iw) <= u * (IZR A * Rabs (w iw)) + h.
Proof.
  intros Hi. destruct (Hws iw Hi) as [Hv Ea]. pose proof A_R. pose proof (w_le iw Hi). pose proof T_up. exists (R64 (IZR A * w iw)). split.
  - unfold awOf. rewrite Ea. apply val_mul; [apply val_int; change (2 ^ 53)%Z with 9007199254740992%Z; lia|exact Hv|]. apply huge. rewrite Rabs_mult, (Rabs_pos_eq (IZR A)) by lra. nra.
  - pose proof (R64_abs (IZR A * w iw)) as E. rewrite Rabs_mult, (Rabs_pos_eq (IZR A)) in E by lra. exact E.
Qed.
Lemma alpha_sum : exists a, val (fsum (map (awOf line) ws)) a /\ Rabs (a - B) <= / 8388608 * B.
Proof.
  pose proof A_R as HAR. pose proof T_up as HTu. pose proof B_R as HB. pose proof u_small as Hu. pose proof h_pos as Hh.
  destruct (fsum_near (awOf line) (fun iw => B2R (awOf line iw)) (fun iw => IZR A * w iw) (fun iw => IZR A * Rabs (w iw)) ws) as (a & Ha & Ea).
  - intros iw Hi. destruct (aw_val iw Hi) as (x & Hx & Ex). destruct Hx as [Hf Hx]. split; [split; [exact Hf|reflexivity]|]. rewrite Hx. split; [|rewrite Rabs_mult, (Rabs_pos_eq (IZR A)) by lra; lra].
    eapply Rle_trans; [exact Ex|]. pose proof (Rabs_pos (w iw)). assert (0 <= u * (IZR A * Rabs (w iw))) by (apply Rmult_le_pos; [lra|]; apply Rmult_le_pos; lra). lra.
  - exact Hn.
  - rewrite sumR_map_mult. fold T. nra.
  - exists a. split; [exact Ha|]. rewrite !sumR_map_mult in Ea. fold T W in Ea. fold B in Ea. eapply Rle_trans; [exact Ea|].
    assert (IZR A * T <= 64 * B) by (unfold B; nra). unfold h. lra.
Qed.
Lemma channel_sum (c : pixel -> Z) : (forall iw, In iw ws -> (0 <= c (line (fst iw)) <= 255)%Z) ->
  exists r, val (fsum (map (chOf c line) ws)) r /\ Rabs (r - IZR A * sumR (map (fun iw => IZR (c (line (fst iw))) * w iw) ws)) <= / 32768 * B.
Proof.
  intros Hc. pose proof A_R as HAR. pose proof T_up as HTu. pose proof B_R as HB. pose proof u_small as Hu. pose proof h_pos as Hh.
  destruct (fsum_near (chOf c line) (fun iw => B2R (chOf c line iw)) (fun iw => IZR A * (IZR (c (line (fst iw))) * w iw)) (fun iw => 255 * IZR A * Rabs (w iw)) ws) as (r & Hr & Er).
  - intros iw Hi. destruct (aw_val iw Hi) as (x & Hx & Ex). pose proof (Hc iw Hi) as Hci. set (ci := c (line (fst iw))) in *.
    assert (0 <= IZR ci <= 255) as HcR by (split; apply IZR_le; lia). pose proof (w_le iw Hi) as Hwl. pose proof (Rabs_pos (w iw)) as Hw0. set (v := Rabs (w iw)) in *.
    set (g := IZR A * v) in *. assert (0 <= g) as Hg by (apply Rmult_le_pos; lra). assert (g <= 255 * 67108864) as Hg2 by (unfold g; nra).
    assert (Rabs (IZR A * w iw) = g) as Eg by (rewrite Rabs_mult, (Rabs_pos_eq (IZR A)) by lra; reflexivity).
    assert (Rabs x <= 2 * g + h) as Hxb. { replace x with ((x - IZR A * w iw) + IZR A * w iw) by ring. eapply Rle_trans; [apply Rabs_triang|]. rewrite Eg. assert (u * g <= g) by nra. lra. }
    assert (Rabs (IZR ci * x) <= 255 * (2 * g + h)) as Hcx. { rewrite Rabs_mult, (Rabs_pos_eq (IZR ci)) by lra. pose proof (Rabs_pos x). nra. }
    assert (val (chOf c line iw) (R64 (IZR ci * x))) as Hv.
    { unfold chOf. apply val_mul; [apply val_int; change (2 ^ 53)%Z with 9007199254740992%Z; lia|exact Hx|]. apply huge. eapply Rle_trans; [exact Hcx|]. unfold h. lra. }
    destruct Hv as [Hv1 Hv2]. split; [split; [exact Hv1|reflexivity]|]. rewrite Hv2. split.
    + replace (R64 (IZR ci * x) - IZR A * (IZR ci * w iw)) with ((R64 (IZR ci * x) - IZR ci * x) + IZR ci * (x - IZR A * w iw)) by ring.
      eapply Rle_trans; [apply Rabs_triang|]. rewrite (Rabs_mult (IZR ci)), (Rabs_pos_eq (IZR ci)) by lra. pose proof (R64_abs (IZR ci * x)) as E.
      assert (u * Rabs (IZR ci * x) <= u * (255 * (2 * g + h))) by (apply Rmult_le_compat_l; lra).
      assert (IZR ci * Rabs (x - IZR A * w iw) <= 255 * (u * g + h)). { pose proof (Rabs_pos (x - IZR A * w iw)). assert (0 <= u * g) by nra. nra. }
      assert (u * h <= h) by nra. replace (4 * u * (255 * IZR A * v)) with (4 * (255 * (u * g))) by (unfold g; ring). assert (0 <= u * g) by nra. lra.
    + rewrite !Rabs_mult, (Rabs_pos_eq (IZR A)), (Rabs_pos_eq (IZR ci)) by lra. fold v. replace (IZR A * (IZR ci * v)) with (IZR ci * g) by (unfold g; ring). replace (255 * IZR A * v) with (255 * g) by (unfold g; ring). nra.
  - exact Hn.
  - rewrite sumR_map_mult. fold T. nra.
  - exists r. split; [exact Hr|]. rewrite (sumR_map_mult (fun iw => Rabs (w iw))), (sumR_map_mult (fun iw => IZR (c (line (fst iw))) * w iw)) in Er. fold T in Er. eapply Rle_trans; [exact Er|].
    assert (255 * IZR A * T <= 16320 * B) by (unfold B; nra). unfold h. lra.
Qed.

(** The mean of a channel. *)
Definition mean (c : pixel -> Z) : R := sumR (map (fun iw => IZR (c (line (fst iw))) * w iw) ws) / W.
Lemma mean_bound c : (forall iw, In iw ws -> (0 <= c (line (fst iw)) <= 255)%Z) -> Rabs (mean c) <= 16320.
Proof.
  intros Hc. unfold mean, Rdiv. rewrite Rabs_mult, (Rabs_pos_eq (/ W)) by (apply Rlt_le, Rinv_0_lt_compat; lra). apply (Rmult_le_reg_r W); [lra|]. rewrite Rmult_assoc, Rinv_l, Rmult_1_r by lra.
  eapply Rle_trans; [apply sumR_abs|]. eapply Rle_trans; [apply (sumR_map_le _ (fun iw => 255 * Rabs (w iw)))|rewrite sumR_map_mult; fold T; lra].
  intros iw Hi. specialize (Hc iw Hi). rewrite Rabs_mult, Rabs_pos_eq by (apply IZR_le; lia). apply Rmult_le_compat_r; [apply Rabs_pos|]. apply IZR_le. lia.
Qed.
Lemma channel c : (forall iw, In iw ws -> (0 <= c (line (fst iw)) <= 255)%Z) ->
  exists q, val (fmul (fsum (map (chOf c line) ws)) (fdiv (of_int 1) (fsum (map (awOf line) ws)))) q /\ Rabs (q - mean c) <= / 128.
Proof.
  intros Hc. destruct (channel_sum c Hc) as (r & Hr & Er). destruct alpha_sum as (a & Ha & Ea). pose proof (mean_bound c Hc) as HM. pose proof B_R as HB. pose proof u_small as Hu. pose proof h_pos as Hh.
  assert (IZR A * sumR (map (fun iw => IZR (c (line (fst iw))) * w iw) ws) = B * mean c) as EB by (unfold mean, B; field; lra). rewrite EB in Er. clear EB.
  set (M := mean c) in *. clearbody M. apply Rabs_le_inv in Er, Ea, HM.
  assert (/ 2097152 <= a <= 512 * 1048576) as Ha2 by lra.
  assert (val (fdiv (of_int 1) (fsum (map (awOf line) ws))) (R64 (1 / a))) as Hi.
  { apply val_div; [apply (val_int 1); lia|exact Ha|lra|]. apply huge. rewrite Rabs_pos_eq by (apply Rlt_le, Rdiv_lt_0_compat; lra). apply (Rmult_le_reg_r a); [lra|]. unfold Rdiv. rewrite Rmult_assoc, Rinv_l by lra. lra. }
  set (i := R64 (1 / a)) in *.
  assert (0 < / a <= 2097152) as Hia. { split; [apply Rinv_0_lt_compat; lra|]. apply (Rmult_le_reg_r a); [lra|]. rewrite Rinv_l by lra. lra. }
  assert (- (u * / a + h) <= i - / a <= u * / a + h) as Ei.
  { pose proof (R64_bound (1 / a) (/ a)) as E. unfold Rdiv in E. rewrite Rmult_1_l in E. rewrite Rabs_pos_eq in E by lra. specialize (E (Rle_refl _)). unfold i, Rdiv. rewrite Rmult_1_l. lra. }
  assert (- / 200 <= r * / a - M <= / 200 /\ - 16384 <= r * / a <= 16384) as [Eq Hq].
  { assert (- (/ 250 * a) <= r - M * a <= / 250 * a) as E1.
    { assert (Rabs (M * (a - B)) <= 16320 * (/ 8388608 * B)) as E0.
      { rewrite Rabs_mult. apply Rmult_le_compat; try apply Rabs_pos; apply Rabs_le; lra. }
      apply Rabs_le_inv in E0. lra. }
    assert (r * / a - M = (r - M * a) * / a) as E2 by (field; lra).
    assert (- / 250 <= r * / a - M <= / 250); [|lra]. rewrite E2. split; apply (Rmult_le_reg_r a); try lra; rewrite Rmult_assoc, Rinv_l, Rmult_1_r by lra; lra. }
  assert (- 562949953421312 <= r <= 562949953421312) as Hr2. { assert (r = (r * / a) * a) as E by (field; lra). rewrite E. split; nra. }
  assert (- / 1048576 <= r * i - r * / a <= / 1048576) as E3.
  { replace (r * i - r * / a) with (r * (i - / a)) by ring. assert (Rabs (r * (i - / a)) <= 16384 * u + 562949953421312 * h) as E.
    { rewrite Rabs_mult. assert (Rabs (i - / a) <= u * / a + h) by (apply Rabs_le; lra). pose proof (Rabs_pos r). eapply Rle_trans; [apply Rmult_le_compat_l; [exact H0|exact H]|]. rewrite Rmult_plus_distr_l.
      assert (Rabs r * / a <= 16384). { rewrite <- (Rabs_pos_eq (/ a)) by lra. rewrite <- Rabs_mult. apply Rabs_le. lra. } assert (Rabs r <= 562949953421312) by (apply Rabs_le; lra). replace (Rabs r * (u * / a)) with ((Rabs r * / a) * u) by ring.
      apply Rplus_le_compat; apply Rmult_le_compat_r; lra. }
    apply Rabs_le_inv in E. unfold h in E. lra. }
  exists (R64 (r * i)). split.
  - apply val_mul; [exact Hr|exact Hi|]. apply huge. apply Rabs_le. lra.
  - pose proof (R64_bound (r * i) 16385 ltac:(apply Rabs_le; lra)) as E4. unfold h in E4. apply Rabs_le. lra.
Qed.
Lemma alpha_pos : feq (fsum (map (awOf line) ws)) (of_int 0) = false.
Proof.
  destruct alpha_sum as (a & Ha & Ea). pose proof B_R. apply Rabs_le_inv in Ea. rewrite (val_eq _ _ a 0 Ha (val_int 0 ltac:(lia))). apply Req_bool_false. lra.
Qed.
Definition channelOf (c : pixel -> Z) : Prop := c = pr \/ c = pg \/ c = pb.
(** The stored channels are near the mean. *)
Lemma mix_channel c lo hi : channelOf c -> (forall iw, In iw ws -> (0 <= c (line (fst iw)) <= 255)%Z) -> (0 <= lo)%Z -> (hi <= 255)%Z ->
  IZR lo - / 8 <= mean c <= IZR hi + / 8 -> (lo <= c (mix line ws) <= hi)%Z.
Proof.
  intros Hch Hc Hl Hh HM. destruct (channel c Hc) as (q & Hq & Eq). apply Rabs_le_inv in Eq. pose proof (clampF_range _ q lo hi Hq Hl Hh ltac:(lra)) as E.
  unfold mix. rewrite accumulate_sums, alpha_pos. destruct Hch as [ -> | [ -> | -> ]]; exact E.
Qed.
Lemma mix_near c : channelOf c -> (forall iw, In iw ws -> (0 <= c (line (fst iw)) <= 255)%Z) -> 0 <= mean c <= 255 -> Rabs (IZR (c (mix line ws)) - mean c) <= / 2 + / 100.
Proof.
  intros Hch Hc HM. destruct (channel c Hc) as (q & Hq & Eq). apply Rabs_le_inv in Eq. destruct (clampF_near _ q Hq ltac:(lra)) as (_ & E).
  assert (Rabs (IZR (clampF (fmul (fsum (map (chOf c line) ws)) (fdiv (of_int 1) (fsum (map (awOf line) ws))))) - mean c) <= / 2 + / 100) as E2 by (apply Rabs_le_inv in E; apply Rabs_le; lra).
  unfold mix. rewrite accumulate_sums, alpha_pos. destruct Hch as [ -> | [ -> | -> ]]; exact E2.
Qed.
Lemma mix_alpha : 1 - / 10000 <= W <= 1 + / 10000 -> pa (mix line ws) = A.
Proof.
  intros H1. destruct alpha_sum as (a & Ha & Ea). apply Rabs_le_inv in Ea. pose proof A_R. unfold mix. rewrite accumulate_sums, alpha_pos. cbn [pa].
  pose proof (clampF_range _ a A A Ha ltac:(lia) ltac:(lia)) as E. assert (A <= clampF (fsum (map (awOf line) ws)) <= A)%Z; [|lia]. apply E. unfold B in Ea. nra.
Qed.
End mix.
