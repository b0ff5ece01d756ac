(** The weights that precomputeWeights gives. *)
From Coq Require Import ZArith List Bool Lia Reals Lra Psatz.
From Flocq Require Import Core BinarySingleNaN.
From Verif Require Import GoInt GoFloat Image_Model Pixel_Model Resample_Model Resample_Err Resample_Mix.
Import ListNotations.
Local Open Scope R_scope.

(** ** Dividing by the sum *)
Definition R2 (iw : Z * f64) : R := B2R (snd iw).
(** Weights fit for [mix]; [neg] bounds twice their negative part. *)
Definition fine (neg : R) (ws : list (Z * f64)) : Prop :=
  (forall iw, In iw ws -> is_finite (snd iw) = true) /\ INR (length ws) <= n20 /\
  sumR (map (fun iw => Rabs (R2 iw)) ws) <= 64 * sumR (map R2 ws) /\ 1 - / 10000 <= sumR (map R2 ws) <= 1 + / 10000 /\
  sumR (map (fun iw => Rabs (R2 iw) - R2 iw) ws) <= neg.
Lemma sumR_diff {A} (g g' : A -> R) l : sumR (map (fun x => g x - g' x) l) = sumR (map g l) - sumR (map g' l).
Proof. induction l as [|x l IH]; cbn [map sumR]; [ring|rewrite IH; ring]. Qed.
Lemma normalise tmp neg : (forall iw, In iw tmp -> is_finite (snd iw) = true) -> INR (length tmp) <= n20 ->
  let P := sumR (map (fun iw => Rabs (R2 iw)) tmp) in let S := sumR (map R2 tmp) in
  P <= 4194304 -> / 1024 <= S -> P <= 40 * S -> P - S <= neg * S -> 0 <= neg ->
  let sum := fold_left (fun sum uw => fadd sum (snd uw)) tmp (of_int 0) in
  feq sum (of_int 0) = false /\ fine (2 * neg + / 1048576) (map (fun uw => (fst uw, fdiv (snd uw) sum)) tmp).
Proof.
  intros Hf Hn P S HP HS HPS HN Hneg sum. pose proof u_small as Hu. pose proof h_pos as Hh. unfold n20 in Hn. pose proof (pos_INR (length tmp)) as Hn0.
  assert (sum = fsum (map snd tmp)) as Es.
  { unfold sum, fsum. generalize (of_int 0). clear. induction tmp as [|x l IH]; intros a; [reflexivity|]. cbn [fold_left map]. apply IH. }
  destruct (fsum_err snd R2 tmp (fun iw Hi => conj (Hf iw Hi) eq_refl) Hn ltac:(fold P; lra)) as (s & Hs' & Ers). assert (val sum s) as Hs by (rewrite Es; exact Hs'). clear Hs'.
  change (Rabs (s - S) <= 2 * INR (length tmp) * (u * P + h)) in Ers.
  assert (2 * INR (length tmp) * (u * P + h) <= / 16777216 * S) as E1.
  { assert (INR (length tmp) * u <= / 8589934592) by nra. assert (0 <= INR (length tmp) * u) by nra. assert (0 <= P) by (apply sumR_nonneg; intros; apply Rabs_pos).
    assert (INR (length tmp) * h <= / 1208925819614629174706176) by (unfold h; lra). replace (2 * INR (length tmp) * (u * P + h)) with (2 * (INR (length tmp) * u * P) + 2 * (INR (length tmp) * h)) by ring.
    assert (INR (length tmp) * u * P <= / 8589934592 * P) by nra. lra. }
  assert (- (/ 16777216 * S) <= s - S <= / 16777216 * S) as E2 by (apply Rabs_le_inv in Ers; lra). clear Ers E1.
  assert (S <= 4194304) as HSu.
  { assert (S <= P); [|lra]. apply sumR_map_le. intros; apply Rle_abs. }
  assert (0 < s) as Hs0 by lra. assert (0 < / s <= 2048) as His. { split; [apply Rinv_0_lt_compat; lra|]. apply (Rmult_le_reg_r s); [lra|]. rewrite Rinv_l by lra. lra. }
  assert (1 - / 8388608 <= S * / s <= 1 + / 8388608) as HSs. { split; apply (Rmult_le_reg_r s); try lra; rewrite Rmult_assoc, Rinv_l by lra; lra. }
  split; [rewrite (val_eq _ _ s 0 Hs (val_int 0 ltac:(lia))); apply Req_bool_false; lra|].
  set (q := fun uw : Z * f64 => (fst uw, fdiv (snd uw) sum)).
  assert (Hq : forall iw, In iw tmp -> is_finite (snd (q iw)) = true /\ Rabs (R2 (q iw) - / s * R2 iw) <= u * (/ s * Rabs (R2 iw)) + h).
  { intros iw Hi. assert (Rabs (R2 iw) <= P) as Hle. { unfold P. revert Hi. clear. induction tmp as [|x l IH]; [intros []|]. intros [ -> |H]; cbn [map sumR].
      - assert (0 <= sumR (map (fun iw => Rabs (R2 iw)) l)) by (apply sumR_nonneg; intros; apply Rabs_pos). lra.
      - specialize (IH H). pose proof (Rabs_pos (R2 x)). lra. }
    pose proof (Rabs_pos (R2 iw)) as H0.
    assert (val (snd (q iw)) (R64 (R2 iw / s))) as [V1 V2].
    { apply val_div; [split; [exact (Hf iw Hi)|reflexivity]|exact Hs|lra|]. apply huge. unfold Rdiv. rewrite Rabs_mult, (Rabs_pos_eq (/ s)) by lra. nra. }
    split; [exact V1|]. unfold R2 at 1. rewrite V2. pose proof (R64_abs (R2 iw / s)) as E. unfold Rdiv in E at 1 3. rewrite Rabs_mult, (Rabs_pos_eq (/ s)) in E by lra. rewrite (Rmult_comm (/ s)), (Rmult_comm (/ s)). unfold Rdiv in *. exact E. }
  assert (HPs : P * / s <= 41). { assert (P * / s <= 40 * S * / s) by (apply Rmult_le_compat_r; lra). lra. }
  assert (HP0 : 0 <= P * / s). { apply Rmult_le_pos; [apply sumR_nonneg; intros; apply Rabs_pos|lra]. }
  assert (Herr : sumR (map (fun iw => Rabs (R2 (q iw) - / s * R2 iw)) tmp) <= / 4194304).
  { eapply Rle_trans; [apply (sumR_map_le _ (fun iw => u * (/ s * Rabs (R2 iw)) + h)); intros iw Hi; apply (Hq iw Hi)|].
    rewrite sumR_map_plus, sumR_map_mult, sumR_map_mult, sumR_const. fold P. rewrite (Rmult_comm (/ s)). assert (u * (P * / s) <= 41 * u) by nra. assert (h * INR (length tmp) <= / 1208925819614629174706176) by (unfold h; lra).
    assert (u * (P * / s) + h * INR (length tmp) <= / 4194304) as G by lra. exact G. }
  assert (HT : sumR (map (fun iw => Rabs (R2 (q iw))) tmp) <= P * / s + / 4194304).
  { eapply Rle_trans; [apply (sumR_map_le _ (fun iw => / s * Rabs (R2 iw) + Rabs (R2 (q iw) - / s * R2 iw)))|rewrite sumR_map_plus, sumR_map_mult; assert (/ s * P + sumR (map (fun iw => Rabs (R2 (q iw) - / s * R2 iw)) tmp) <= P * / s + / 4194304) as G by lra; exact G].
    intros iw _. replace (R2 (q iw)) with (/ s * R2 iw + (R2 (q iw) - / s * R2 iw)) at 1 by ring. eapply Rle_trans; [apply Rabs_triang|]. rewrite Rabs_mult, (Rabs_pos_eq (/ s)) by lra. lra. }
  assert (HW : Rabs (sumR (map (fun iw => R2 (q iw)) tmp) - S * / s) <= / 4194304).
  { replace (S * / s) with (sumR (map (fun iw => / s * R2 iw) tmp)) by (rewrite sumR_map_mult; unfold S; ring). rewrite <- sumR_diff. eapply Rle_trans; [apply sumR_abs|exact Herr]. }
  apply Rabs_le_inv in HW. unfold fine. rewrite !map_map, map_length, sumR_diff. split; [|split; [exact Hn|split; [lra|split; [lra|]]]].
  - intros iw Hi. apply in_map_iff in Hi as (x & <- & Hx). apply (Hq x Hx).
  - assert ((P - S) * / s <= neg * S * / s) by (apply Rmult_le_compat_r; lra). assert (neg * (S * / s) <= 2 * neg) by nra. lra.
Qed.

(** ** Counting *)
Lemma in_zseq a n x : In x (zseq a n) <-> (a <= x < a + Z.of_nat n)%Z.
Proof. revert a. induction n as [|n IH]; intros a; [cbn; lia|]. cbn [zseq In]. rewrite IH. lia. Qed.
Lemma zseq_length a n : length (zseq a n) = n.
Proof. revert a. induction n as [|n IH]; intros a; [reflexivity|]. cbn [zseq length]. rewrite IH. reflexivity. Qed.
Lemma zseq_app a n m : zseq a (n + m) = zseq a n ++ zseq (a + Z.of_nat n) m.
Proof. revert a. induction n as [|n IH]; intros a; [cbn [Nat.add zseq app]; f_equal; lia|]. cbn [Nat.add zseq app]. rewrite IH. do 2 f_equal. f_equal. lia. Qed.
Lemma sumR_app l l' : sumR (l ++ l') = sumR l + sumR l'.
Proof. induction l as [|x l IH]; cbn [app sumR]; [ring|rewrite IH; ring]. Qed.
(** Part of a sum of what is not negative. *)
Lemma sum_part (g : Z -> R) a n b m : (forall z, 0 <= g z) -> (a <= b)%Z -> (b + Z.of_nat m <= a + Z.of_nat n)%Z -> sumR (map g (zseq b m)) <= sumR (map g (zseq a n)).
Proof.
  intros Hg H1 H2. replace n with ((Z.to_nat (b - a)) + (m + (n - Z.to_nat (b - a) - m)))%nat by lia. rewrite !zseq_app, !map_app, !sumR_app. replace (a + Z.of_nat (Z.to_nat (b - a)))%Z with b by lia.
  assert (forall l, 0 <= sumR (map g l)) as G by (intros l; apply sumR_nonneg; intros; apply Hg). pose proof (G (zseq a (Z.to_nat (b - a)))). pose proof (G (zseq (b + Z.of_nat m) (n - Z.to_nat (b - a) - m))). lra.
Qed.
(** At most k of the numbers lie among k numbers in a row. *)
Lemma sum_indicator c k lo a n : 0 <= c -> (0 <= k)%Z -> sumR (map (fun z => if ((lo <=? z) && (z <? lo + k))%Z then c else 0) (zseq a n)) <= c * IZR k.
Proof.
  intros Hc. revert a k lo. induction n as [|n IH]; intros a k lo Hk; cbn [zseq map sumR]; [pose proof (IZR_le _ _ Hk); nra|].
  destruct ((lo <=? a) && (a <? lo + k))%Z eqn:E.
  - specialize (IH (a + 1)%Z (lo + k - (a + 1))%Z (a + 1)%Z ltac:(lia)).
    assert (sumR (map (fun z => if ((lo <=? z) && (z <? lo + k))%Z then c else 0) (zseq (a + 1) n)) <= sumR (map (fun z => if ((a + 1 <=? z) && (z <? a + 1 + (lo + k - (a + 1))))%Z then c else 0) (zseq (a + 1) n))).
    { apply sumR_map_le. intros z Hz. apply in_zseq in Hz. destruct ((lo <=? z) && (z <? lo + k))%Z eqn:E1, ((a + 1 <=? z) && (z <? a + 1 + (lo + k - (a + 1))))%Z eqn:E2; try lra. lia. }
    assert (IZR (lo + k - (a + 1)) <= IZR k - 1) by (rewrite <- minus_IZR; apply IZR_le; lia). nra.
  - specialize (IH (a + 1)%Z k lo Hk). lra.
Qed.
