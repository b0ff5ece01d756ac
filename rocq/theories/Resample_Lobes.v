(** Kernels with a negative part that is not small, but small on average. *)
From Coq Require Import ZArith List Bool Lia Reals Lra Psatz.
From Flocq Require Import Core BinarySingleNaN.
From Verif Require Import GoInt GoFloat Image_Model Pixel_Model Resample_Model Resample_Err Resample_Mix Resample_Weights Resample_Place Resample_Classes.
Import ListNotations.
Local Open Scope R_scope.

(** A kernel that is at least c0 up to 1/2, at least -G(x - 1) at x from 1 to 2, and not negative elsewhere but for rounding. *)
Definition ringed_kernel (c0 c1 c2 : R) (G : R -> R) (f : resampleFilter) : Prop :=
  (exists S, val (Support f) S /\ 1 <= S <= 3) /\ / 4 <= c0 /\ 0 <= c1 <= c2 /\ 3 * c1 <= 94 / 100 * c0 /\ 2 * c2 <= 94 / 100 * c0 /\
  (forall a, 0 < a < 1 -> G a <= c1) /\ (forall a b, 0 < a < 1 -> 0 < b < 1 -> a + / 2 - / 16777216 <= b -> G a + G b <= c2) /\
  forall g x, val g x -> Rabs x <= 2097152 -> exists y, val (Kernel f g) y /\ Rabs y <= 2 /\ (Rabs x <= / 2 + / 33554432 -> c0 <= y) /\
    (- / 1099511627776 <= y \/ 1 < Rabs x < 2 /\ - G (Rabs x - 1) - / 1099511627776 <= y).

Section rings.
Variable f : resampleFilter.
Variables src dst v : Z.
Hypothesis Hsrc : (1 <= src <= 2 ^ 20)%Z.
Hypothesis Hdst : (1 <= dst <= 2 ^ 20)%Z.
Hypothesis Hv : (0 <= v < dst)%Z.
Notation win := (winI f src dst v).
Notation y := (Y f src dst v).
Notation begin_ := (beginI f src dst v).
Notation end_ := (endI f src dst v).
Notation D_pos := (D_pos src dst v Hsrc Hdst Hv).
Notation m := (m src dst).
Notation m_spec := (m_spec src dst v Hsrc Hdst Hv).
Notation x_small := (x_small src dst v Hsrc Hdst Hv).
Notation firstN := (firstN src dst v).
Notation few := (few src dst v Hsrc Hdst Hv).
Notation many := (many src dst v Hsrc Hdst Hv).
Notation N_inside := (N_inside src dst v Hsrc Hdst Hv).
Notation eps := (/ 1099511627776).

Lemma ringed_fine c0 c1 c2 G : ringed_kernel c0 c1 c2 G f -> (forall iw, In iw (weightsAt f dst src v) -> (0 <= fst iw < src)%Z) /\ fine 100 (weightsAt f dst src v).
Proof.
  intros ((S & HS & HSr) & H0 & H1 & H01 & H02 & HG1 & HG2 & HK). pose proof D_pos as (D1 & D2 & D3 & D4). pose proof m_spec as [M1 M2].
  assert (0 < 2 * IZR (D src dst) <= 2097152) as HD by (apply IZR_le in D1, D4; lra).
  set (q := fun z => IZR (N src dst v z) / (2 * IZR (D src dst))).
  assert (Eq : forall z, IZR (N src dst v z) = q z * (2 * IZR (D src dst))) by (intros z; unfold q; field; lra).
  assert (HY : forall z, (0 <= z < src)%Z -> exists x, Rabs (x - q z) <= / 33554432 /\ is_finite (KF f src dst v z) = true /\ Rabs (y z) <= 2 /\ ((- D src dst <= N src dst v z <= D src dst)%Z -> c0 <= y z) /\
    (- eps <= y z \/ ((2 * D src dst <= N src dst v z <= 4 * D src dst)%Z /\ 0 <= x \/ (-4 * D src dst <= N src dst v z <= -2 * D src dst)%Z /\ x <= 0) /\ 1 < Rabs x < 2 /\ - G (Rabs x - 1) - eps <= y z)).
  { intros z Hz. destruct (x_val src dst v Hsrc Hdst Hv z Hz) as (x & Hx & Ex). destruct (HK _ x Hx (x_small z x Hz Hx)) as (r & [F <-] & B & C & E). change (B2R (Kernel f (xF src dst v z))) with (y z) in *.
    pose proof (Eq z) as En. fold (q z) in Ex. set (n := N src dst v z) in *. exists x.
    split; [first [exact Ex|apply Rabs_le; lra]|]. split; [exact F|]. split; [exact B|]. split.
    - intros [N1 N2]. apply C. apply IZR_le in N1, N2. rewrite opp_IZR in N1. assert (- / 2 <= q z <= / 2) as Hq by (split; apply (Rmult_le_reg_r (2 * IZR (D src dst))); lra). apply Rabs_le. lra.
    - destruct E as [E|[Ea E]]; [left; exact E|right; split; [|split; [exact Ea|exact E]]].
      assert (forall a b, IZR a - / 2 < IZR n -> IZR n < IZR b + / 2 -> (a <= n <= b)%Z) as Int.
      { intros a b A1 A2. split; [assert (a - 1 < n)%Z by (apply lt_IZR; rewrite minus_IZR; lra); lia|assert (n < b + 1)%Z by (apply lt_IZR; rewrite plus_IZR; lra); lia]. }
      assert (/ 33554432 * (2 * IZR (D src dst)) <= / 4) as Tiny by lra. revert Ea. unfold Rabs. destruct (Rcase_abs x) as [Cx|Cx]; intros [Ea1 Ea2].
      + right. split; [|lra]. apply Int; rewrite mult_IZR; rewrite En.
        * assert (-2 - / 33554432 < q z) as Q by lra. apply (Rmult_lt_compat_r (2 * IZR (D src dst))) in Q; lra.
        * assert (q z < -1 + / 33554432) as Q by lra. apply (Rmult_lt_compat_r (2 * IZR (D src dst))) in Q; lra.
      + left. split; [|lra]. apply Int; rewrite mult_IZR; rewrite En.
        * assert (1 - / 33554432 < q z) as Q by lra. apply (Rmult_lt_compat_r (2 * IZR (D src dst))) in Q; lra.
        * assert (q z < 2 + / 33554432) as Q by lra. apply (Rmult_lt_compat_r (2 * IZR (D src dst))) in Q; lra. }
  assert (Kfin : forall z, (0 <= z < src)%Z -> is_finite (KF f src dst v z) = true /\ Rabs (y z) <= 2) by (intros z Hz; destruct (HY z Hz) as (x & _ & F & B & _); auto).
  assert (forall z, 0 <= (Rabs (y z) + y z) / 2) as Hg. { intros z'. pose proof (Rle_abs (- y z')) as E. rewrite Rabs_Ropp in E. lra. }
  (* the positive part *)
  assert (IZR m * c0 <= sumR (map (fun z => (Rabs (y z) + y z) / 2) win)) as Hpos.
  { set (z0 := firstN (- D src dst)). assert (forall k, (0 <= k < m)%Z -> (0 <= z0 + k < src)%Z /\ (begin_ <= z0 + k <= end_)%Z /\ c0 <= y (z0 + k)) as Hz.
    { intros k Hk. pose proof (many k Hk) as HN. fold z0 in HN. pose proof (N_inside _ HN) as Hi. split; [exact Hi|]. destruct (HY _ Hi) as (_ & _ & _ & _ & C & _). split; [|apply C; exact HN].
      destruct (fu_val src dst v Hsrc Hdst Hv) as (x & Hx & Ex). pose proof (N_R src dst v Hsrc Hdst (z0 + k)) as NR. pose proof (sc_R src dst Hsrc Hdst) as (S1 & S2 & S3 & _ & S4). pose proof (sd src dst Hsrc Hdst) as [_ Hd1].
      set (fu := (IZR v + / 2) * (IZR src / IZR dst) - / 2) in *. set (sc := IZR (D src dst) / IZR dst) in *.
      apply (win_has f src dst v Hsrc Hdst Hv S x (z0 + k) HS ltac:(lra) Hx Hi). right. split; [lra|]. fold sc. destruct HN as [N1 N2]. apply IZR_le in N1, N2. rewrite opp_IZR in N1. rewrite NR, <- S4 in N1, N2.
      assert (- (sc / 2) <= IZR (z0 + k) - fu <= sc / 2) as B. { split; apply (Rmult_le_reg_r (2 * IZR dst)); lra. } apply Rabs_le. lra. }
    pose proof (sum_part (fun z => (Rabs (y z) + y z) / 2) begin_ (Z.to_nat (end_ - begin_ + 1)) z0 (Z.to_nat m) Hg) as Part. unfold winI. eapply Rle_trans; [|apply Part].
    - assert (sumR (map (fun _ : Z => c0) (zseq z0 (Z.to_nat m))) <= sumR (map (fun z => (Rabs (y z) + y z) / 2) (zseq z0 (Z.to_nat m)))) as Q.
      { apply sumR_map_le. intros z Hin. apply in_zseq in Hin. destruct (Hz (z - z0)%Z ltac:(lia)) as (_ & _ & C). replace (z0 + (z - z0))%Z with z in C by ring. rewrite Rabs_pos_eq by lra. lra. }
      rewrite sumR_const, zseq_length, INR_IZR_INZ, Z2Nat.id in Q by lia. lra.
    - destruct (Hz 0%Z ltac:(lia)) as (_ & B & _). lia.
    - destruct (Hz (m - 1)%Z ltac:(lia)) as (_ & B & _). destruct (Hz 0%Z ltac:(lia)) as (_ & B2 & _). rewrite Z2Nat.id by lia. lia. }
  (* the negative part *)
  set (lobe p z := ((p <=? N src dst v z) && (N src dst v z <=? p + 2 * D src dst) && (0 <=? z) && (z <? src))%Z).
  set (hp p z := if lobe p z then Rmax 0 (- y z - eps) else 0).
  assert (forall p z, (p = 2 * D src dst \/ p = -4 * D src dst)%Z -> 0 <= hp p z <= c1) as Hh.
  { intros p z Hp. unfold hp. destruct (lobe p z) eqn:L; [|lra]. unfold lobe in L. destruct (HY z ltac:(lia)) as (x & _ & _ & _ & _ & E). destruct E as [E|(_ & E2 & E)]; [rewrite Rmax_left; lra|].
    pose proof (HG1 (Rabs x - 1) ltac:(lra)). unfold Rmax. destruct (Rle_dec _ _); lra. }
  assert (forall p z, (p = 2 * D src dst \/ p = -4 * D src dst)%Z -> m = 1%Z -> hp p z + hp p (z + 1)%Z <= c2) as Hpair.
  { intros p z Hp Em. pose proof (Hh p z Hp) as B1. pose proof (Hh p (z + 1)%Z Hp) as B2. destruct (Rle_dec (hp p z) 0) as [A1|A1]; [lra|]. destruct (Rle_dec (hp p (z + 1)%Z) 0) as [A2|A2]; [lra|]. clear B1 B2.
    revert A1 A2. unfold hp. destruct (lobe p z) eqn:L1; [|lra]. destruct (lobe p (z + 1)%Z) eqn:L2; [|lra]. intros A1 A2. unfold lobe in L1, L2.
    destruct (HY z ltac:(lia)) as (x & Ex & _ & _ & _ & E). destruct (HY (z + 1)%Z ltac:(lia)) as (x' & Ex' & _ & _ & _ & E'). apply Rabs_le_inv in Ex, Ex'.
    destruct E as [E|(Es & E2 & E)]; [exfalso; apply A1; rewrite Rmax_left; lra|]. destruct E' as [E'|(Es' & E2' & E')]; [exfalso; apply A2; rewrite Rmax_left; lra|].
    assert (q z + / 2 <= q (z + 1)%Z) as Hq.
    { apply (Rmult_le_reg_r (2 * IZR (D src dst))); [lra|]. rewrite Rmult_plus_distr_r, <- !Eq, N_shift. rewrite plus_IZR, !mult_IZR. assert (IZR (D src dst) <= 2 * IZR dst) by (rewrite <- mult_IZR; apply IZR_le; lia). lra. }
    assert (Rmax 0 (- y z - eps) <= G (Rabs x - 1)) as C1 by (unfold Rmax in *; destruct (Rle_dec 0 (- y z - eps)); lra).
    assert (Rmax 0 (- y (z + 1)%Z - eps) <= G (Rabs x' - 1)) as C2 by (unfold Rmax in *; destruct (Rle_dec 0 (- y (z + 1)%Z - eps)); lra).
    assert (0 <= x /\ 0 <= x' \/ x <= 0 /\ x' <= 0) as [[S1 S2]|[S1 S2]] by (destruct Hp; [left|right]; lia || (destruct Es as [[? ?]|[? ?]], Es' as [[? ?]|[? ?]]; try lia; lra)).
    - rewrite (Rabs_pos_eq x) in * by lra. rewrite (Rabs_pos_eq x') in * by lra. pose proof (HG2 (x - 1) (x' - 1) ltac:(lra) ltac:(lra) ltac:(lra)). lra.
    - rewrite (Rabs_left1 x) in * by lra. rewrite (Rabs_left1 x') in * by lra. pose proof (HG2 (- x' - 1) (- x - 1) ltac:(lra) ltac:(lra) ltac:(lra)). lra. }
  assert (forall p, (p = 2 * D src dst \/ p = -4 * D src dst)%Z -> sumR (map (hp p) win) <= (94 / 100 * c0) / 2 * IZR m) as Hsum.
  { intros p Hp. set (z0 := firstN p). destruct (Z.eq_dec m 1) as [Em|Em].
    - rewrite Em. set (i1 z := if ((z0 <=? z) && (z <? z0 + 1))%Z then hp p z0 else 0). set (i2 z := if ((z0 + 1 <=? z) && (z <? z0 + 1 + 1))%Z then hp p (z0 + 1)%Z else 0).
      assert (sumR (map i1 win) <= hp p z0 * IZR 1) as B1 by (apply sum_indicator; [apply (Hh p z0 Hp)|lia]). assert (sumR (map i2 win) <= hp p (z0 + 1)%Z * IZR 1) as B2 by (apply sum_indicator; [apply (Hh p (z0 + 1)%Z Hp)|lia]).
      assert (sumR (map (hp p) win) <= sumR (map (fun z => i1 z + i2 z) win)) as B3.
      { apply sumR_map_le. intros z Hz. pose proof (Hh p z0 Hp). pose proof (Hh p (z0 + 1)%Z Hp). destruct (Z.eq_dec z z0) as [ -> |n1]; [|destruct (Z.eq_dec z (z0 + 1)) as [ -> |n2]].
        - unfold i1, i2. destruct ((z0 <=? z0) && (z0 <? z0 + 1))%Z eqn:Q1; [|lia]. destruct ((z0 + 1 <=? z0) && (z0 <? z0 + 1 + 1))%Z eqn:Q2; lra.
        - unfold i1, i2. destruct ((z0 + 1 <=? z0 + 1) && (z0 + 1 <? z0 + 1 + 1))%Z eqn:Q1; [|lia]. destruct ((z0 <=? z0 + 1) && (z0 + 1 <? z0 + 1))%Z eqn:Q2; lra.
        - unfold hp. destruct (lobe p z) eqn:L; [exfalso|unfold i1, i2; destruct ((z0 <=? z) && (z <? z0 + 1))%Z, ((z0 + 1 <=? z) && (z <? z0 + 1 + 1))%Z; lra].
          unfold lobe in L. pose proof (few p z ltac:(lia)) as Fw. fold z0 in Fw. rewrite Em in Fw. lia. }
      rewrite sumR_map_plus in B3. pose proof (Hpair p z0 Hp Em). lra.
    - set (ind z := if ((z0 <=? z) && (z <? z0 + (m + 1)))%Z then c1 else 0). assert (sumR (map ind win) <= c1 * IZR (m + 1)) as B1 by (apply sum_indicator; [lra|lia]).
      assert (sumR (map (hp p) win) <= sumR (map ind win)) as B3.
      { apply sumR_map_le. intros z Hz. pose proof (Hh p z Hp) as B. unfold ind. destruct ((z0 <=? z) && (z <? z0 + (m + 1)))%Z eqn:Q; [lra|]. unfold hp in *. destruct (lobe p z) eqn:L; [exfalso|lra]. unfold lobe in L. pose proof (few p z ltac:(lia)) as Fw. fold z0 in Fw. lia. }
      rewrite plus_IZR in B1. assert (2 <= IZR m) as M3 by (apply IZR_le; lia). nra. }
  assert (sumR (map (fun z => (Rabs (y z) - y z) / 2) win) <= / 1048576 + 94 / 100 * c0 * IZR m) as Hneg.
  { assert (forall z, In z win -> (Rabs (y z) - y z) / 2 <= eps + (hp (2 * D src dst)%Z z + hp (-4 * D src dst)%Z z)) as Hb.
    { intros z Hz. apply win_in in Hz. destruct (HY z Hz) as (x & _ & _ & _ & _ & E). pose proof (Hh _ z (or_introl eq_refl)) as I1. pose proof (Hh _ z (or_intror eq_refl)) as I2.
      destruct (Rle_dec 0 (y z)) as [P|P]; [rewrite Rabs_pos_eq by lra; lra|]. rewrite Rabs_left by lra. destruct E as [E|([[E _]|[E _]] & _)]; [lra| |].
      - assert (- y z - eps <= hp (2 * D src dst)%Z z); [|lra]. unfold hp. assert (lobe (2 * D src dst)%Z z = true) as -> by (unfold lobe; lia). apply Rmax_r.
      - assert (- y z - eps <= hp (-4 * D src dst)%Z z); [|lra]. unfold hp. assert (lobe (-4 * D src dst)%Z z = true) as -> by (unfold lobe; lia). apply Rmax_r. }
    eapply Rle_trans; [apply (sumR_map_le _ _ _ Hb)|]. rewrite sumR_map_plus, sumR_map_plus, sumR_const.
    pose proof (Hsum _ (or_introl eq_refl)) as A1. pose proof (Hsum _ (or_intror eq_refl)) as A2. pose proof (IZR_le _ _ (win_length f src dst v Hsrc)) as Hl. rewrite <- INR_IZR_INZ in Hl. pose proof (pos_INR (length win)). lra. }
  set (pos := sumR (map (fun z => (Rabs (y z) + y z) / 2) win)) in *. set (neg := sumR (map (fun z => (Rabs (y z) - y z) / 2) win)) in *.
  assert (0 <= neg) as Hn0. { apply sumR_nonneg. intros z _. pose proof (Rle_abs (y z)). lra. }
  assert (1 <= IZR m) as HmR by (apply IZR_le; lia). set (mR := IZR m) in *.
  assert (/ 4 <= mR * c0) as E2 by nra. assert (41 * neg <= 39 * pos) as E4 by lra. assert (/ 32 <= pos) as E5 by lra. assert (2 * neg <= 39 * (pos - neg)) as E6 by lra.
  destruct (weights_fine f src dst v Hsrc Kfin pos neg 39 eq_refl eq_refl E5 E4 E6 ltac:(lra)) as [F Gd].
  split; [exact Gd|]. destruct F as (F1 & F2 & F3 & F4 & F5). repeat split; try assumption; lra.
Qed.
End rings.
