(** Where precomputeWeights looks: the places of the kernel that it takes. *)
From Coq Require Import ZArith List Bool Lia Reals Lra Psatz.
From Flocq Require Import Core BinarySingleNaN.
From Verif Require Import GoInt GoFloat Image_Model Pixel_Model Resample_Model Resample_Err Resample_Mix Resample_Weights.
Import ListNotations.
Local Open Scope R_scope.

Section place.
Variables src dst v : Z.
Hypothesis Hsrc : (1 <= src <= 2 ^ 20)%Z.
Hypothesis Hdst : (1 <= dst <= 2 ^ 20)%Z.
Hypothesis Hv : (0 <= v < dst)%Z.
Let s : R := IZR src.
Let d : R := IZR dst.
Definition duF : f64 := fdiv (of_int src) (of_int dst).
Definition scaleF : f64 := if flt duF (of_int 1) then of_int 1 else duF.
Definition fuF : f64 := fsub (fmul (fadd (of_int v) fhalf) duF) fhalf.
Definition xF (z : Z) : f64 := fdiv (fsub (of_int z) fuF) scaleF.
Definition D : Z := Z.max src dst.
(** 2 dst times the distance of pixel z from the place. *)
Definition N (z : Z) : Z := (2 * z * dst + dst - (2 * v + 1) * src)%Z.
Let t : R := IZR v + / 2.
Let fu : R := t * (s / d) - / 2.
Let sc : R := IZR D / d.

Lemma sd : 1 <= s <= 1048576 /\ 1 <= d <= 1048576.
Proof. change (2 ^ 20)%Z with 1048576%Z in *. unfold s, d. repeat split; apply IZR_le; lia. Qed.
Lemma t_R : / 2 <= t <= d - / 2.
Proof. unfold t, d. assert (0 <= IZR v <= IZR dst - 1); [|lra]. rewrite <- minus_IZR. split; apply IZR_le; lia. Qed.
Lemma r_R : 0 < s / d /\ s / d * d = s /\ / 1048576 <= s / d <= 1048576.
Proof.
  pose proof sd as [H1 H2]. assert (s / d * d = s) as E by (field; lra). assert (0 < s / d) by (apply Rdiv_lt_0_compat; lra). split; [assumption|]. split; [exact E|]. split; nra.
Qed.
Lemma tr_R : t * (s / d) <= s - / 2 * (s / d).
Proof. pose proof r_R as (H1 & H2 & _). pose proof t_R. nra. Qed.
Lemma du_val : exists x, val duF x /\ s / d * (1 - / 4503599627370496) <= x <= s / d * (1 + / 4503599627370496).
Proof.
  pose proof sd as [H1 H2]. pose proof r_R as (R1 & R2 & R3). exists (R64 (s / d)). split.
  - apply val_div; [apply val_int; change (2 ^ 20)%Z with 1048576%Z in *; change (2 ^ 53)%Z with 9007199254740992%Z; lia|apply val_int; change (2 ^ 20)%Z with 1048576%Z in *; change (2 ^ 53)%Z with 9007199254740992%Z; lia|unfold d in *; lra|]. apply huge. rewrite Rabs_pos_eq by (unfold s, d in *; lra). unfold s, d in *. lra.
  - pose proof (R64_bound (s / d) (s / d) ltac:(rewrite Rabs_pos_eq; lra)) as E. pose proof u_small. assert (u * (s / d) <= / 9007199254740992 * (s / d)) by nra. unfold h in E. lra.
Qed.
Lemma sc_R : 1 <= sc /\ s / d <= sc /\ sc <= 1048576 /\ (sc = 1 \/ sc = s / d) /\ sc * d = IZR D.
Proof.
  pose proof sd as [H1 H2]. pose proof r_R as (R1 & R2 & R3). unfold sc, D. destruct (Z.max_spec src dst) as [[E -> ]|[E -> ]].
  - assert (IZR dst / d = 1) as -> by (unfold d in *; field; lra). assert (s <= d) by (apply IZR_le; lia). unfold d in *. assert (s / IZR dst <= 1); [|repeat split; try lra; left; reflexivity]. apply (Rmult_le_reg_r (IZR dst)); lra.
  - fold s. assert (d <= s) by (apply IZR_le; lia). assert (1 <= s / d); [|repeat split; try lra; right; reflexivity]. apply (Rmult_le_reg_r d); lra.
Qed.
Lemma scale_val : exists x, val scaleF x /\ sc * (1 - / 4503599627370496) <= x <= sc * (1 + / 4503599627370496) /\ 1 <= x.
Proof.
  destruct du_val as (x & Hx & Ex). pose proof sd as [H1 H2]. pose proof r_R as (R1 & R2 & R3). pose proof sc_R as (S1 & S2 & S3 & S4 & _).
  unfold scaleF. rewrite (val_lt _ _ x 1 Hx (val_int 1 ltac:(lia))). destruct (Rlt_bool_spec x 1) as [L|L].
  - exists 1. split; [apply (val_int 1); lia|]. destruct S4 as [E|E].
    + rewrite E. lra.
    + assert (sc <= 1 + / 2251799813685248); [|lra]. rewrite E. apply (Rmult_le_reg_r (1 - / 4503599627370496)); [lra|]. lra.
  - exists x. split; [exact Hx|]. destruct S4 as [E|E]; [|rewrite E in *; lra]. split; [|lra]. rewrite E in *. nra.
Qed.
Lemma pu_val : exists x, val (fmul (fadd (of_int v) fhalf) duF) x /\ t * (s / d) - / 536870912 <= x <= t * (s / d) + / 536870912.
Proof.
  pose proof u_small as Hu. pose proof sd as [H1 H2]. pose proof r_R as (R1 & R2 & R3). pose proof t_R as Ht. pose proof tr_R as Htr. destruct du_val as (x & Hx & Ex).
  assert (val (fadd (of_int v) fhalf) (R64 t)) as Vt.
  { apply val_add; [apply val_int; change (2 ^ 20)%Z with 1048576%Z in *; change (2 ^ 53)%Z with 9007199254740992%Z; lia|exact val_half|]. apply huge. apply Rabs_le. fold t. lra. }
  assert (t * (1 - / 4503599627370496) <= R64 t <= t * (1 + / 4503599627370496)) as Et.
  { pose proof (R64_bound t t ltac:(rewrite Rabs_pos_eq; lra)) as E. assert (u * t <= / 9007199254740992 * t) by nra. unfold h in E. lra. }
  set (t' := R64 t) in *. set (p := t * (s / d)) in *.
  assert (0 <= p <= 1048576) as Hp by (split; [unfold p; nra|lra]).
  assert (p * (1 - / 1125899906842624) <= t' * x <= p * (1 + / 1125899906842624)) as Ep.
  { set (e := / 4503599627370496) in *. assert (0 < e <= / 4503599627370496) as He by (unfold e; lra).
    assert (t * (1 - e) * (s / d * (1 - e)) <= t' * x) as L by (apply Rmult_le_compat; nra). assert (t' * x <= t * (1 + e) * (s / d * (1 + e))) as U by (apply Rmult_le_compat; nra).
    replace (t * (1 - e) * (s / d * (1 - e))) with (p * ((1 - e) * (1 - e))) in L by (unfold p; ring). replace (t * (1 + e) * (s / d * (1 + e))) with (p * ((1 + e) * (1 + e))) in U by (unfold p; ring).
    assert ((1 - e) * (1 - e) >= 1 - 2 * e) by nra. assert ((1 + e) * (1 + e) <= 1 + 3 * e) by nra. unfold e in *. split; nra. }
  assert (val (fmul (fadd (of_int v) fhalf) duF) (R64 (t' * x))) as Vp. { apply val_mul; [exact Vt|exact Hx|]. apply huge. apply Rabs_le. lra. }
  pose proof (R64_bound (t' * x) 1048577 ltac:(apply Rabs_le; lra)) as E1. set (p' := R64 (t' * x)) in *.
  assert (- / 536870912 <= p' - p <= / 536870912) as E2 by (unfold h in E1; lra).
  exists p'. split; [exact Vp|]. fold p. lra.
Qed.
Lemma fu_val : exists x, val fuF x /\ fu - / 268435456 <= x <= fu + / 268435456.
Proof.
  pose proof u_small as Hu. pose proof sd as [H1 H2]. pose proof r_R as (R1 & R2 & R3). pose proof t_R as Ht. pose proof tr_R as Htr. destruct pu_val as (p' & Vp & E2). set (p := t * (s / d)) in *.
  assert (0 <= p <= 1048576) as Hp by (split; [unfold p; nra|lra]).
  exists (R64 (p' - / 2)). split; [apply val_sub; [exact Vp|exact val_half|]; apply huge; apply Rabs_le; lra|].
  pose proof (R64_bound (p' - / 2) 1048577 ltac:(apply Rabs_le; lra)) as E3. unfold fu. fold p. unfold h in E3. lra.
Qed.
Lemma fu_R : - / 2 + / 2097152 <= fu <= s - / 2 - / 2097152.
Proof. pose proof r_R as (R1 & R2 & R3). pose proof t_R. pose proof tr_R. unfold fu. split; nra. Qed.
Lemma N_R z : IZR (N z) = 2 * d * (IZR z - fu).
Proof. pose proof sd as [H1 H2]. unfold N, fu, t. rewrite minus_IZR, plus_IZR, !mult_IZR, plus_IZR, mult_IZR. fold s d. field. lra. Qed.
(** The place of the kernel, up to rounding. *)
Lemma x_val z : (0 <= z < src)%Z -> exists x, val (xF z) x /\ IZR (N z) / (2 * IZR D) - / 33554432 <= x <= IZR (N z) / (2 * IZR D) + / 33554432.
Proof.
  intros Hz. pose proof u_small as Hu. pose proof sd as [H1 H2]. destruct fu_val as (f & Hf & Ef). destruct scale_val as (c & Hc & Ec & Hc1). pose proof fu_R as Hfu. pose proof sc_R as (S1 & S2 & S3 & _ & S4).
  assert (0 <= IZR z <= s - 1) as HzR by (unfold s; rewrite <- minus_IZR; split; apply IZR_le; lia).
  assert (IZR (N z) / (2 * IZR D) = (IZR z - fu) * / sc) as ->. { rewrite N_R, <- S4. field. lra. }
  set (y := IZR z - fu) in *. assert (- 1048577 <= y <= 1048577) as Hy by (unfold y; lra).
  assert (val (fsub (of_int z) fuF) (R64 (IZR z - f))) as Vd.
  { apply val_sub; [apply val_int; change (2 ^ 20)%Z with 1048576%Z in *; change (2 ^ 53)%Z with 9007199254740992%Z; lia|exact Hf|]. apply huge. apply Rabs_le. unfold y in *. lra. }
  pose proof (R64_bound (IZR z - f) 1048578 ltac:(apply Rabs_le; unfold y in *; lra)) as E1. set (y' := R64 (IZR z - f)) in *.
  assert (- / 134217728 <= y' - y <= / 134217728) as E2 by (unfold y, h in *; lra). clear E1.
  assert (0 < / c <= 1) as Hic. { split; [apply Rinv_0_lt_compat; lra|]. apply (Rmult_le_reg_r c); [lra|]. rewrite Rinv_l; lra. }
  assert (0 < / sc <= 1) as Hisc. { split; [apply Rinv_0_lt_compat; lra|]. apply (Rmult_le_reg_r sc); [lra|]. rewrite Rinv_l; lra. }
  assert (- / 2251799813685248 <= / c - / sc <= / 2251799813685248) as E3.
  { assert (/ c - / sc = (sc - c) * (/ sc * / c)) as -> by (field; lra). assert (- (/ 4503599627370496 * sc) <= sc - c <= / 4503599627370496 * sc) as E by lra.
    assert (0 < / sc * / c <= / sc) as E' by (split; nra). assert (sc * / sc = 1) as E'' by (field; lra). split; nra. }
  assert (- / 67108864 <= y' * / c - y * / sc <= / 67108864) as E4.
  { replace (y' * / c - y * / sc) with ((y' - y) * / c + y * (/ c - / sc)) by ring.
    assert (Rabs ((y' - y) * / c) <= / 134217728 * 1) as A1 by (rewrite Rabs_mult; apply Rmult_le_compat; try apply Rabs_pos; apply Rabs_le; lra).
    assert (Rabs (y * (/ c - / sc)) <= 1048577 * / 2251799813685248) as A2 by (rewrite Rabs_mult; apply Rmult_le_compat; try apply Rabs_pos; apply Rabs_le; lra).
    apply Rabs_le_inv in A1, A2. lra. }
  assert (- 1048578 <= y * / sc <= 1048578) as E5.
  { assert (Rabs (y * / sc) <= 1048577 * 1) as A by (rewrite Rabs_mult; apply Rmult_le_compat; try apply Rabs_pos; apply Rabs_le; lra). apply Rabs_le_inv in A. lra. }
  exists (R64 (y' * / c)). split.
  - unfold xF. apply (val_div _ _ y' c); [exact Vd|exact Hc|lra|]. apply huge. unfold Rdiv. apply Rabs_le. lra.
  - pose proof (R64_bound (y' * / c) 1048579 ltac:(apply Rabs_le; lra)) as E6. unfold h in E6. lra.
Qed.
End place.
