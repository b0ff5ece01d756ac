(** Proofs about image/adjust.go and image/image.go. *)
From Coq Require Import ZArith List Bool Lia Reals Lra Psatz ZifyBool.
From Flocq Require Import Core BinarySingleNaN.
From Verif Require Import GoInt GoFloat Image_Model Image_Spec.
Import ListNotations.
Local Open Scope R_scope.

Lemma huge x : Rabs x <= 1267650600228229401496703205376 -> Rabs x <= bpow radix2 1000.
Proof.
  intros H. eapply Rle_trans; [exact H|]. change 1267650600228229401496703205376 with (IZR (Zpower radix2 100)). rewrite IZR_Zpower by lia. apply bpow_le. lia.
Qed.
Lemma tiny x : / 1267650600228229401496703205376 <= x -> bpow radix2 (-1022) <= x.
Proof.
  intros H. eapply Rle_trans; [|exact H]. change 1267650600228229401496703205376 with (IZR (Zpower radix2 100)). rewrite IZR_Zpower by lia.
  rewrite <- bpow_opp. apply bpow_le. lia.
Qed.
(** [r] is [x] up to one rounding. *)
Definition near (r x : R) : Prop := x * (1 - u) <= r <= x * (1 + u).
Lemma near_R64 x : / 1267650600228229401496703205376 <= x -> near (R64 x) x.
Proof. intros H. apply tiny in H. split; [apply R64_down|apply R64_up]; exact H. Qed.
Lemma u_small : 0 < u < / 1000000000000000.
Proof. rewrite u_val. lra. Qed.

Lemma mul_ge x y a b : 0 <= a -> 0 <= b -> a <= x -> b <= y -> a * b <= x * y.
Proof. intros. apply Rmult_le_compat; assumption. Qed.

(** ** Quotients and products of positive ints *)
Definition side (z : Z) : Prop := (1 <= z <= 2 ^ 31)%Z.
Lemma side_R z : side z -> 1 <= IZR z <= 2147483648.
Proof. intros [H1 H2]. split; [apply IZR_le in H1; exact H1|]. apply IZR_le in H2. exact H2. Qed.
Lemma div_bounds x y a b c d : 0 < a -> 0 < c -> a <= x <= b -> c <= y <= d -> a / d <= x / y <= b / c.
Proof.
  intros Ha Hc [Hx1 Hx2] [Hy1 Hy2]. split.
  - apply Rmult_le_reg_r with (d * y); [nra|]. replace (a / d * (d * y)) with (a * y) by (field; lra). replace (x / y * (d * y)) with (x * d) by (field; lra). nra.
  - apply Rmult_le_reg_r with (c * y); [nra|]. replace (b / c * (c * y)) with (b * y) by (field; lra). replace (x / y * (c * y)) with (x * c) by (field; lra). nra.
Qed.
Lemma quot_val a b : (1 <= a <= 2 ^ 53)%Z -> (1 <= b <= 2 ^ 53)%Z ->
  val (fdiv (of_int a) (of_int b)) (R64 (IZR a / IZR b)) /\ near (R64 (IZR a / IZR b)) (IZR a / IZR b).
Proof.
  intros Ha Hb. assert (Ha' : 1 <= IZR a <= 9007199254740992) by (split; apply IZR_le; lia). assert (Hb' : 1 <= IZR b <= 9007199254740992) by (split; apply IZR_le; lia).
  pose proof (div_bounds _ _ _ _ _ _ Rlt_0_1 Rlt_0_1 Ha' Hb') as Hq. split.
  - apply val_div; [apply val_int; lia|apply val_int; lia|lra|]. apply huge. rewrite Rabs_pos_eq; lra.
  - apply near_R64. lra.
Qed.
(** A product with a ratio; [z] may be any int. *)
Definition is_int (z : Z) : Prop := (- 2 ^ 63 <= z < 2 ^ 63)%Z.
Lemma is_int_R z : is_int z -> -9223372036854775808 <= IZR z <= 9223372036854775808.
Proof. intros [H1 H2]. split; apply IZR_le; lia. Qed.
Lemma R64_int_bound z : is_int z -> -9223372036854775808 <= R64 (IZR z) <= 9223372036854775808.
Proof.
  intros Hz. pose proof (is_int_R z Hz) as [H1 H2].
  assert (E : R64 9223372036854775808 = 9223372036854775808).
  { rewrite fexp_FLT. apply round_generic; [typeclasses eauto|]. change 9223372036854775808 with (IZR (Zpower radix2 63)). rewrite IZR_Zpower by lia. apply generic_format_bpow. cbn. lia. }
  assert (E' : R64 (-9223372036854775808) = -9223372036854775808).
  { rewrite fexp_FLT. apply round_generic; [typeclasses eauto|].
    replace (-9223372036854775808) with (- IZR (Zpower radix2 63)) by (cbn; lra). apply generic_format_opp. rewrite IZR_Zpower by lia. apply generic_format_bpow. cbn. lia. }
  split; [rewrite <- E'|rewrite <- E]; apply R64_mono; lra.
Qed.
(** What the ratio of a width and a height is in floating point. *)
Lemma ratio w h : side w -> side h ->
  exists r, val (fdiv (of_int w) (of_int h)) r /\ r = R64 (IZR w / IZR h) /\ IZR w * (1 - u) <= r * IZR h <= IZR w * (1 + u) /\ / 4294967296 <= r <= 4294967296.
Proof.
  intros Hw Hh. pose proof (side_R w Hw) as Rw. pose proof (side_R h Hh) as Rh. pose proof u_small as Hu.
  destruct (quot_val w h) as [V [N1 N2]]; [destruct Hw; lia|destruct Hh; lia|].
  pose proof (div_bounds _ _ _ _ _ _ Rlt_0_1 Rlt_0_1 Rw Rh) as Hq. exists (R64 (IZR w / IZR h)). split; [exact V|]. split; [reflexivity|].
  assert (E : IZR w / IZR h * IZR h = IZR w) by (field; lra). set (t := IZR w / IZR h) in *. set (r := R64 t) in *. split; [split; nra|]. split; [|nra]. nra.
Qed.
(** nh * r, truncated. *)
Lemma times_le_bound r f nh k : val f r -> / 4294967296 <= r <= 4294967296 -> is_int nh -> (0 <= k < 2 ^ 50)%Z -> IZR nh * r <= IZR k * (1 + 3 * u) ->
  (to_int (fmul (of_int nh) f) <= k)%Z.
Proof.
  intros V Hr Hn Hk Hb. pose proof u_small as Hu. pose proof (is_int_R nh Hn) as Rn. pose proof (R64_int_bound nh Hn) as Bn.
  assert (Vn : val (of_int nh) (R64 (IZR nh))) by (apply val_of_int; destruct Hn; lia).
  assert (Vm : val (fmul (of_int nh) f) (R64 (R64 (IZR nh) * r))). { apply val_mul; [exact Vn|exact V|]. apply huge. rewrite Rabs_mult, (Rabs_pos_eq r) by lra. assert (Rabs (R64 (IZR nh)) <= 9223372036854775808) by (apply Rabs_le; lra). pose proof (Rabs_pos (R64 (IZR nh))). nra. }
  assert (Rk : 0 <= IZR k <= 1125899906842624) by (split; apply IZR_le; lia).
  apply (to_int_le _ _ _ Vm); [|lia]. rewrite plus_IZR.
  destruct (Z_le_gt_dec nh 0) as [Hneg|Hpos].
  - apply Rle_lt_trans with (IZR 0); [|cbn; lra]. apply R64_le_int; [cbn; lia|].
    assert (R64 (IZR nh) <= IZR 0) by (apply R64_le_int; [cbn; lia|apply IZR_le; lia]). cbn in *. nra.
  - assert (R1 : 1 <= IZR nh) by (apply IZR_le; lia).
    destruct (near_R64 (IZR nh)) as [A1 A2]; [lra|]. assert (A0 : IZR 1 <= R64 (IZR nh)) by (apply R64_ge_int; [cbn; lia|apply IZR_le; lia]).
    destruct (near_R64 (R64 (IZR nh) * r)) as [B1 B2]; [apply Rle_trans with (1 * / 4294967296); [lra|apply mul_ge; lra]|].
    assert (R64 (IZR nh) * r <= IZR nh * r * (1 + u)) by nra.
    assert (R64 (R64 (IZR nh) * r) <= IZR nh * r * (1 + 3 * u)) by nra.
    assert (IZR nh * r * (1 + 3 * u) <= IZR k * (1 + 3 * u) * (1 + 3 * u)) by nra. rewrite u_val in *. nra.
Qed.
(** nw / r, truncated. *)
Lemma over_le_bound r f nw k : val f r -> / 4294967296 <= r <= 4294967296 -> is_int nw -> (0 <= k < 2 ^ 50)%Z -> IZR nw <= IZR k * (1 + 3 * u) * r ->
  (to_int (fdiv (of_int nw) f) <= k)%Z.
Proof.
  intros V Hr Hn Hk Hb. pose proof u_small as Hu. pose proof (is_int_R nw Hn) as Rn. pose proof (R64_int_bound nw Hn) as Bn.
  assert (Vn : val (of_int nw) (R64 (IZR nw))) by (apply val_of_int; destruct Hn; lia).
  assert (Ri : / 4294967296 <= / r <= 4294967296) by (split; [apply Rinv_le; lra|rewrite <- (Rinv_inv 4294967296); apply Rinv_le; lra]).
  assert (Er : r * / r = 1) by (apply Rinv_r; lra). set (q := / r) in *.
  assert (Vm : val (fdiv (of_int nw) f) (R64 (R64 (IZR nw) * q))). { apply (val_div _ _ _ _ Vn V); [lra|]. apply huge. unfold Rdiv. fold q. rewrite Rabs_mult, (Rabs_pos_eq q) by lra. assert (Rabs (R64 (IZR nw)) <= 9223372036854775808) by (apply Rabs_le; lra). pose proof (Rabs_pos (R64 (IZR nw))). nra. }
  assert (Rk : 0 <= IZR k <= 1125899906842624) by (split; apply IZR_le; lia).
  apply (to_int_le _ _ _ Vm); [|lia]. rewrite plus_IZR.
  destruct (Z_le_gt_dec nw 0) as [Hneg|Hpos].
  - apply Rle_lt_trans with (IZR 0); [|cbn; lra]. apply R64_le_int; [cbn; lia|].
    assert (R64 (IZR nw) <= IZR 0) by (apply R64_le_int; [cbn; lia|apply IZR_le; lia]). cbn in *. nra.
  - assert (R1 : 1 <= IZR nw) by (apply IZR_le; lia).
    destruct (near_R64 (IZR nw)) as [A1 A2]; [lra|]. assert (A0 : IZR 1 <= R64 (IZR nw)) by (apply R64_ge_int; [cbn; lia|apply IZR_le; lia]).
    destruct (near_R64 (R64 (IZR nw) * q)) as [B1 B2]; [apply Rle_trans with (1 * / 4294967296); [lra|apply mul_ge; lra]|].
    assert (Hq : IZR nw * q <= IZR k * (1 + 3 * u)) by (apply Rle_trans with (IZR k * (1 + 3 * u) * r * q); [nra|rewrite Rmult_assoc, Er; lra]).
    assert (R64 (IZR nw) * q <= IZR nw * q * (1 + u)) by nra.
    assert (R64 (R64 (IZR nw) * q) <= IZR nw * q * (1 + 3 * u)) by nra.
    assert (IZR nw * q * (1 + 3 * u) <= IZR k * (1 + 3 * u) * (1 + 3 * u)) by nra. rewrite u_val in *. nra.
Qed.
(** ** imaging.Resize when one side is 0 *)
Definition other (n a b : Z) : Z := to_int (fmax (of_int 1) (ffloor (fadd (fdiv (fmul (of_int n) (of_int a)) (of_int b)) fhalf))).
Lemma fmax_val f g x y : val f x -> val g y -> val (fmax f g) (Rmax x y).
Proof.
  intros Vf Vg. unfold fmax. rewrite (val_gt f g x y Vf Vg). destruct (Rlt_bool_spec y x) as [H|H].
  - rewrite Rmax_left by lra. exact Vf.
  - rewrite Rmax_right by lra. exact Vg.
Qed.
Lemma other_bound n a b k : (1 <= n <= 2 ^ 53)%Z -> side a -> side b -> (1 <= k <= 2 ^ 40)%Z -> IZR n * IZR a <= (IZR k + / 4) * IZR b ->
  (1 <= other n a b <= k)%Z.
Proof.
  intros Hn Ha Hb Hk Hle. pose proof u_small as Hu. pose proof (side_R a Ha) as Ra. pose proof (side_R b Hb) as Rb.
  assert (Rn : 1 <= IZR n <= 9007199254740992) by (split; apply IZR_le; lia). assert (Rk : 1 <= IZR k <= 1099511627776) by (split; apply IZR_le; lia).
  set (p := IZR n * IZR a) in *.
  assert (Hp : 1 <= p <= 19342813113834066795298816) by (unfold p; split; [replace 1 with (1 * 1) by lra; apply mul_ge; lra|
     apply Rle_trans with (9007199254740992 * 2147483648); [apply mul_ge; lra|lra]]).
  assert (V1 : val (fmul (of_int n) (of_int a)) (R64 p)). { apply val_mul; [apply val_int; lia|apply val_int; destruct Ha; lia|]. fold p. apply huge. rewrite Rabs_pos_eq; lra. }
  destruct (near_R64 p) as [N1 N2]; [lra|]. set (x1 := R64 p) in *.
  assert (Ri : / 2147483648 <= / IZR b <= 1). { split; [apply Rinv_le; lra|]. rewrite <- Rinv_1. apply Rinv_le; lra. }
  assert (Eb : IZR b * / IZR b = 1) by (apply Rinv_r; lra). set (q := / IZR b) in *.
  assert (X1 : 1 / 2 <= x1 <= 38685626227668133590597632) by (split; [apply Rle_trans with (p * (1 - u)); [|exact N1]|apply Rle_trans with (p * (1 + u)); [exact N2|]]; clear - Hp Hu; nra).
  assert (Q1 : / 8589934592 <= x1 * q <= 38685626227668133590597632). { split.
    - apply Rle_trans with (1 / 2 * / 2147483648); [lra|apply mul_ge; lra].
    - replace 38685626227668133590597632 with (38685626227668133590597632 * 1) by lra. apply mul_ge; lra. }
  assert (V2 : val (fdiv (fmul (of_int n) (of_int a)) (of_int b)) (R64 (x1 * q))).
  { apply (val_div _ _ _ _ V1); [apply val_int; destruct Hb; lia|lra|]. apply huge. unfold Rdiv. fold q. rewrite Rabs_pos_eq; lra. }
  destruct (near_R64 (x1 * q)) as [M1 M2]; [lra|]. set (x2 := R64 (x1 * q)) in *.
  assert (U2 : x1 * q <= (IZR k + / 4) * (1 + u)). { apply Rle_trans with (p * (1 + u) * q); [apply Rmult_le_compat_r; lra|].
    apply Rle_trans with ((IZR k + / 4) * IZR b * (1 + u) * q); [apply Rmult_le_compat_r; [lra|apply Rmult_le_compat_r; lra]|].
    replace ((IZR k + / 4) * IZR b * (1 + u) * q) with ((IZR k + / 4) * (1 + u) * (IZR b * q)) by ring. rewrite Eb. lra. }
  assert (X2 : 0 <= x2 <= IZR k + 3 / 8). { split; [apply R64_nonneg; lra|].
    apply Rle_trans with ((IZR k + / 4) * (1 + u) * (1 + u)); [apply Rle_trans with (x1 * q * (1 + u)); [exact M2|apply Rmult_le_compat_r; lra]|]. rewrite u_val. nra. }
  assert (V3 : val (fadd (fdiv (fmul (of_int n) (of_int a)) (of_int b)) fhalf) (R64 (x2 + / 2))).
  { apply val_add; [exact V2|exact val_half|]. apply huge. rewrite Rabs_pos_eq; lra. }
  destruct (near_R64 (x2 + / 2)) as [O1 O2]; [lra|]. set (x3 := R64 (x2 + / 2)) in *.
  assert (X3 : 0 <= x3 < IZR (k + 1)). { rewrite plus_IZR. split; [apply (R64_nonneg (x2 + / 2)); lra|]. eapply Rle_lt_trans; [exact O2|]. rewrite u_val. lra. }
  pose proof (val_floor _ _ V3) as V4. pose proof (fmax_val _ _ _ _ (val_int 1 ltac:(cbn; lia)) V4) as V5. fold x3 in V5.
  assert (F : (Zfloor x3 <= k)%Z) by (apply Z.lt_succ_r, lt_IZR; apply Rle_lt_trans with x3; [apply Zfloor_lb|apply X3]).
  assert (M : Rmax (IZR 1) (IZR (Zfloor x3)) = IZR (Z.max 1 (Zfloor x3))).
  { destruct (Z_le_gt_dec (Zfloor x3) 1) as [C|C].
    - rewrite Z.max_l by lia. apply Rmax_left, IZR_le. lia.
    - rewrite Z.max_r by lia. apply Rmax_right, IZR_le. lia. }
  change (Rmax 1 (IZR (Zfloor x3))) with (Rmax (IZR 1) (IZR (Zfloor x3))) in V5. rewrite M in V5. unfold other. rewrite (to_int_val _ _ V5).
  - rewrite Zfloor_IZR. lia.
  - apply IZR_le. lia.
  - change (bpow radix2 63) with (IZR (2 ^ 63)). apply IZR_lt. lia.
Qed.
Lemma Resize_unfold w h nw nh : side w -> side h -> Resize w h nw nh =
  if (nw <? 0)%Z || (nh <? 0)%Z then (0, 0)%Z
  else if (nw =? 0)%Z then if (nh =? 0)%Z then (0, 0)%Z else (other nh w h, nh)
  else if (nh =? 0)%Z then (nw, other nw h w) else (nw, nh).
Proof.
  intros [Hw _] [Hh _]. unfold Resize. fold (other nh w h). replace ((w <=? 0)%Z || (h <=? 0)%Z) with false by lia.
  destruct ((nw <? 0)%Z || (nh <? 0)%Z); [reflexivity|]. destruct (nw =? 0)%Z eqn:E1, (nh =? 0)%Z eqn:E2; cbn [andb]; try reflexivity.
Qed.
(** The result stays below bounds that the sides of the source keep in proportion, up to a quarter of a pixel. *)
Lemma Resize_le w h nw nh A B : side w -> side h -> (1 <= A <= 2 ^ 40)%Z -> (1 <= B <= 2 ^ 40)%Z -> (nw <= A)%Z -> (nh <= B)%Z ->
  IZR nw * IZR h <= (IZR B + / 4) * IZR w -> IZR nh * IZR w <= (IZR A + / 4) * IZR h ->
  (0 <= fst (Resize w h nw nh) <= A /\ 0 <= snd (Resize w h nw nh) <= B)%Z.
Proof.
  intros Hw Hh HA HB H1 H2 H3 H4. rewrite Resize_unfold by assumption.
  destruct ((nw <? 0)%Z || (nh <? 0)%Z) eqn:E0; [cbn [fst snd]; lia|]. destruct (nw =? 0)%Z eqn:E1, (nh =? 0)%Z eqn:E2; cbn [fst snd]; try lia.
  - pose proof (other_bound nh w h A ltac:(lia) Hw Hh HA H4). lia.
  - pose proof (other_bound nw h w B ltac:(lia) Hh Hw HB H3). lia.
Qed.
(** Sizes that are not larger than the source. *)
Lemma Resize_small w h nw nh : side w -> side h -> (nw <= w)%Z -> (nh <= h)%Z -> (0 <= fst (Resize w h nw nh) <= w /\ 0 <= snd (Resize w h nw nh) <= h)%Z.
Proof.
  intros Hw Hh H1 H2. pose proof (side_R w Hw) as Rw. pose proof (side_R h Hh) as Rh.
  apply IZR_le in H1 as H1'. apply IZR_le in H2 as H2'. apply Resize_le; try assumption; try (destruct Hw, Hh; lia); nra.
Qed.
(** ** Modes *)
Lemma to_int_range f : is_int (to_int f).
Proof. unfold to_int, is_int. destruct (is_finite f); [|lia]. destruct (_ && _) eqn:E; lia. Qed.
Lemma side_int z : side z -> is_int z.
Proof. unfold side, is_int. lia. Qed.
Lemma side_double z : side z -> (0 <= z < 2 ^ 50)%Z.
Proof. unfold side. lia. Qed.
Lemma keep_w w h n : side w -> side h -> is_int n -> (n <= h)%Z -> (to_int (fmul (of_int n) (fdiv (of_int w) (of_int h))) <= w)%Z.
Proof.
  intros Hw Hh Hn Hle. destruct (ratio w h Hw Hh) as (r & V & _ & [N1 N2] & Br). pose proof (side_R w Hw) as Rw. pose proof u_small as Hu.
  apply (times_le_bound r); [exact V|exact Br|exact Hn|apply side_double, Hw|]. apply IZR_le in Hle. apply Rle_trans with (IZR h * r); [apply Rmult_le_compat_r; lra|]. nra.
Qed.
Lemma keep_h w h n : side w -> side h -> is_int n -> (n <= w)%Z -> (to_int (fdiv (of_int n) (fdiv (of_int w) (of_int h))) <= h)%Z.
Proof.
  intros Hw Hh Hn Hle. destruct (ratio w h Hw Hh) as (r & V & _ & [N1 N2] & Br). pose proof (side_R w Hw) as Rw. pose proof u_small as Hu.
  apply (over_le_bound r); [exact V|exact Br|exact Hn|apply side_double, Hh|]. apply IZR_le in Hle. apply Rle_trans with (IZR w); [exact Hle|].
  replace (IZR h * (1 + 3 * u) * r) with (r * IZR h * (1 + 3 * u)) by ring. apply Rle_trans with (IZR w * (1 - u) * (1 + 3 * u)); [|apply Rmult_le_compat_r; lra]. nra.
Qed.
Lemma getMin_le w h a b : side w -> side h -> is_int a -> is_int b -> (fst (getMinAndkeepRatio w h a b) <= w /\ snd (getMinAndkeepRatio w h a b) <= h)%Z.
Proof.
  intros Hw Hh Ha Hb. unfold getMinAndkeepRatio.
  assert (Ha' : is_int (if (a =? 0)%Z then w else a)) by (destruct (a =? 0)%Z; [apply side_int, Hw|exact Ha]).
  assert (Hb' : is_int (if (b =? 0)%Z then h else b)) by (destruct (b =? 0)%Z; [apply side_int, Hh|exact Hb]).
  set (nw := if (a =? 0)%Z then w else a) in *. set (nh := if (b =? 0)%Z then h else b) in *. cbv zeta.
  pose proof (keep_w w h nh Hw Hh Hb') as K1. pose proof (keep_h w h nw Hw Hh Ha') as K2.
  destruct (_ && _) eqn:E1; [cbn [fst snd]; lia|]. destruct ((nw <? w)%Z && (nh <? h)%Z) eqn:E2.
  - destruct (nh <? nw)%Z; cbn [fst snd]; lia.
  - destruct (w <=? nw)%Z eqn:E3; cbn [fst snd]; lia.
Qed.
Lemma getMax_le w h a b : side w -> side h -> is_int a -> is_int b -> (fst (getMaxAndkeepRatio w h a b) <= w /\ snd (getMaxAndkeepRatio w h a b) <= h)%Z.
Proof.
  intros Hw Hh Ha Hb. unfold getMaxAndkeepRatio.
  assert (Ha' : is_int (if (a =? 0)%Z then w else a)) by (destruct (a =? 0)%Z; [apply side_int, Hw|exact Ha]).
  assert (Hb' : is_int (if (b =? 0)%Z then h else b)) by (destruct (b =? 0)%Z; [apply side_int, Hh|exact Hb]).
  set (nw := if (a =? 0)%Z then w else a) in *. set (nh := if (b =? 0)%Z then h else b) in *. cbv zeta.
  pose proof (keep_w w h nh Hw Hh Hb') as K1. pose proof (keep_h w h nw Hw Hh Ha') as K2.
  destruct ((w <=? nw)%Z || (h <=? nh)%Z) eqn:E1; [cbn [fst snd]; lia|]. replace ((nw <? w)%Z && (nh <? h)%Z) with true by lia.
  destruct (fgt _ _); cbn [fst snd]; lia.
Qed.
(** The modes that scale. *)
Definition scales (mode : Z) : Prop := (mode <> 1 /\ mode <> 5)%Z.
Lemma prase_scale mode w h a b : scales mode -> side w -> side h -> is_int a -> is_int b ->
  exists nw nh, praseMode mode w h a b = (nw, nh, SCALE) /\ (nw <= w)%Z /\ (nh <= h)%Z.
Proof.
  intros [M1 M5] Hw Hh Ha Hb. unfold praseMode, newSide4mode.
  assert (C : exists x y, (if (h <=? w)%Z then (a, b) else (b, a)) = (x, y) /\ is_int x /\ is_int y) by (destruct (h <=? w)%Z; eauto 10).
  destruct C as (x & y & -> & Hx & Hy). destruct ((w <? x)%Z && (h <? y)%Z); [exists w, h; split; [reflexivity|lia]|].
  assert (G : forall p, ((fst p <= w)%Z /\ (snd p <= h)%Z) -> exists nw nh, (p, SCALE) = (nw, nh, SCALE) /\ (nw <= w)%Z /\ (nh <= h)%Z) by (intros [p q] H; exists p, q; split; [reflexivity|exact H]).
  destruct mode as [|[[[?|?|]|[?|?|]|]|[[?|?|]|[?|?|]|]|]|?]; try lia; try (exists w, h; split; [reflexivity|lia]).
  - apply G, getMin_le; assumption.
  - destruct (a =? 0)%Z; [|destruct (b =? 0)%Z]; apply G, getMax_le; assumption.
  - destruct (x =? 0)%Z; [|destruct (y =? 0)%Z]; apply G, getMax_le; assumption.
  - destruct (a =? 0)%Z; [apply G, getMax_le; try assumption; apply to_int_range|]. destruct (b =? 0)%Z; apply G, getMax_le; try assumption; apply to_int_range.
Qed.
Lemma thumb_le w h a b : side w -> side h -> (a <> 0)%Z -> (b <> 0)%Z -> (fst (getSideByThubnail w h a b) <= w /\ snd (getSideByThubnail w h a b) <= h)%Z.
Proof. unfold side, getSideByThubnail. intros Hw Hh Ha Hb. cbv zeta. cbn [fst snd].
  destruct (a <? w)%Z eqn:E1, (b <? h)%Z eqn:E2; repeat (match goal with |- context [(?x =? 0)%Z] => destruct (x =? 0)%Z eqn:? end); lia. Qed.
Lemma resize_le mode w h a b : side w -> side h -> is_int a -> is_int b -> scales mode \/ (a <> 0 /\ b <> 0)%Z ->
  (0 <= fst (encode_resize a b mode (w, h)) <= w /\ 0 <= snd (encode_resize a b mode (w, h)) <= h)%Z.
Proof.
  intros Hw Hh Ha Hb Hm. unfold encode_resize. cbn [fst snd]. destruct (_ || _) eqn:E; [|cbn [fst snd]; unfold side in *; lia].
  destruct (Z.eq_dec mode 1) as [E1|E1]; [|destruct (Z.eq_dec mode 5) as [E5|E5]].
  3: { destruct (prase_scale mode w h a b) as (nw & nh & -> & L1 & L2); try assumption; [split; assumption|]. apply Resize_small; assumption. }
  all: destruct Hm as [[M1 M5]|[A0 B0]]; [contradiction|]; subst mode; unfold praseMode, newSide4mode.
  all: assert (C : exists x y, (if (h <=? w)%Z then (a, b) else (b, a)) = (x, y) /\ (x <> 0)%Z /\ (y <> 0)%Z) by (destruct (h <=? w)%Z; eauto 10).
  all: destruct C as (x & y & -> & Hx & Hy); destruct ((w <? x)%Z && (h <? y)%Z); [apply Resize_small; try assumption; lia|].
  - pose proof (thumb_le w h a b Hw Hh A0 B0) as [L1 L2]. destruct (getSideByThubnail w h a b) as [nw nh]. cbn [fst snd] in *. unfold Fill.
    destruct ((nw <=? 0)%Z || _ || _ || _) eqn:?; cbn [fst snd]; destruct Hw, Hh; lia.
  - pose proof (thumb_le w h x y Hw Hh Hx Hy) as [L1 L2]. destruct (getSideByThubnail w h x y) as [nw nh]. cbn [fst snd] in *. unfold Fill.
    destruct ((nw <=? 0)%Z || _ || _ || _) eqn:?; cbn [fst snd]; destruct Hw, Hh; lia.
Qed.
Ltac pu := rewrite ?Rmult_assoc; try (apply Rmult_le_compat_l; [lra|rewrite u_val; lra]).
(** ** Truncated products and quotients from both sides *)
Lemma floor_to_int f x : val f x -> 0 <= x <= 9223372036854775000 -> (0 <= to_int f)%Z /\ IZR (to_int f) <= x < IZR (to_int f) + 1.
Proof.
  intros V [H0 H1]. rewrite (to_int_val f x V H0).
  - split; [apply Zfloor_lub; exact H0|]. split; [apply Zfloor_lb|apply Zfloor_ub].
  - change (bpow radix2 63) with 9223372036854775808. lra.
Qed.
Definition ratio_of (w h : Z) : f64 := fdiv (of_int w) (of_int h).
Lemma times_wh w h n : side w -> side h -> side n ->
  let t := to_int (fmul (of_int n) (ratio_of w h)) in
  (0 <= t)%Z /\ IZR t * IZR h <= IZR n * IZR w * (1 + 3 * u) /\ IZR n * IZR w * (1 - 3 * u) < (IZR t + 1) * IZR h.
Proof.
  intros Hw Hh Hn t. destruct (ratio w h Hw Hh) as (r & V & _ & [N1 N2] & Br). pose proof (side_R w Hw) as Rw. pose proof (side_R h Hh) as Rh. pose proof (side_R n Hn) as Rn.
  pose proof u_small as Hu.
  assert (P1 : / 4294967296 <= IZR n * r <= 9223372036854770000). { split; [apply Rle_trans with (1 * / 4294967296); [lra|apply mul_ge; lra]|].
    assert (r <= 2147483649) by (apply Rle_trans with (r * IZR h); [clear - Br Rh; nra|apply Rle_trans with (IZR w * (1 + u)); [exact N2|clear - Rw; rewrite u_val; lra]]).
    apply Rle_trans with (2147483648 * 2147483649); [apply mul_ge; lra|lra]. }
  destruct (near_R64 (IZR n * r)) as [A1 A2]; [lra|].
  assert (Vm : val (fmul (of_int n) (ratio_of w h)) (R64 (IZR n * r))). { apply val_mul; [apply val_int; destruct Hn; lia|exact V|]. apply huge. rewrite Rabs_pos_eq; lra. }
  assert (B : 0 <= R64 (IZR n * r) <= 9223372036854775000) by (split; [apply R64_nonneg; lra|eapply Rle_trans; [exact A2|]; clear - P1 Hu; rewrite u_val in *; nra]).
  destruct (floor_to_int _ _ Vm B) as (T0 & T1 & T2). fold t in T0, T1, T2. split; [exact T0|]. set (y := R64 (IZR n * r)) in *. set (tr := IZR t) in *.
  assert (E1 : IZR n * r * IZR h <= IZR n * IZR w * (1 + u)) by (clear - N2 Rn; nra).
  assert (E2 : IZR n * IZR w * (1 - u) <= IZR n * r * IZR h) by (clear - N1 Rn; nra).
  assert (Pw : 0 < IZR n * IZR w) by (clear - Rn Rw; nra). set (nw := IZR n * IZR w) in *. set (z := IZR n * r) in *. split.
  - apply Rle_trans with (z * (1 + u) * IZR h); [apply Rmult_le_compat_r; lra|]. replace (z * (1 + u) * IZR h) with (z * IZR h * (1 + u)) by ring.
    apply Rle_trans with (nw * (1 + u) * (1 + u)); [apply Rmult_le_compat_r; lra|]. pu.
  - apply Rle_lt_trans with (y * IZR h); [|apply Rmult_lt_compat_r; lra]. apply Rle_trans with (z * (1 - u) * IZR h); [|apply Rmult_le_compat_r; lra].
    replace (z * (1 - u) * IZR h) with (z * IZR h * (1 - u)) by ring. apply Rle_trans with (nw * (1 - u) * (1 - u)); [|apply Rmult_le_compat_r; lra]. pu.
Qed.
Lemma over_wh w h n : side w -> side h -> side n ->
  let t := to_int (fdiv (of_int n) (ratio_of w h)) in
  (0 <= t)%Z /\ IZR t * IZR w <= IZR n * IZR h * (1 + 3 * u) /\ IZR n * IZR h * (1 - 3 * u) < (IZR t + 1) * IZR w.
Proof.
  intros Hw Hh Hn t. destruct (ratio w h Hw Hh) as (r & V & _ & [N1 N2] & Br). pose proof (side_R w Hw) as Rw. pose proof (side_R h Hh) as Rh. pose proof (side_R n Hn) as Rn.
  pose proof u_small as Hu.
  assert (Ri : / 4294967296 <= / r <= 2147483649). { split; [apply Rinv_le; lra|]. rewrite <- (Rinv_inv 2147483649). apply Rinv_le; [lra|].
    assert (1 * (1 - u) <= r * 2147483648) by (apply Rle_trans with (r * IZR h); [apply Rle_trans with (IZR w * (1 - u)); [apply Rmult_le_compat_r; lra|exact N1]|apply Rmult_le_compat_l; lra]).
    clear - H Hu. lra. }
  assert (Er : r * / r = 1) by (apply Rinv_r; lra). set (q := / r) in *.
  assert (P1 : / 4294967296 <= IZR n * q <= 9223372036854770000). { split; [apply Rle_trans with (1 * / 4294967296); [lra|apply mul_ge; lra]|].
    apply Rle_trans with (2147483648 * 2147483649); [apply mul_ge; lra|lra]. }
  destruct (near_R64 (IZR n * q)) as [A1 A2]; [lra|].
  assert (Vm : val (fdiv (of_int n) (ratio_of w h)) (R64 (IZR n * q))). { apply (val_div _ _ _ _ (val_int n ltac:(destruct Hn; lia)) V); [lra|]. apply huge. unfold Rdiv. fold q. rewrite Rabs_pos_eq; lra. }
  assert (B : 0 <= R64 (IZR n * q) <= 9223372036854775000) by (split; [apply R64_nonneg; lra|eapply Rle_trans; [exact A2|]; clear - P1 Hu; rewrite u_val in *; nra]).
  destruct (floor_to_int _ _ Vm B) as (T0 & T1 & T2). fold t in T0, T1, T2. split; [exact T0|]. set (y := R64 (IZR n * q)) in *. set (tr := IZR t) in *.
  assert (Eh : IZR h = r * IZR h * q) by (replace (r * IZR h * q) with (IZR h * (r * q)) by ring; rewrite Er; ring).
  assert (E1 : IZR w * q * (1 - u) <= IZR h). { rewrite Eh. replace (IZR w * q * (1 - u)) with (IZR w * (1 - u) * q) by ring. apply Rmult_le_compat_r; lra. }
  assert (E2 : IZR h <= IZR w * q * (1 + u)). { rewrite Eh at 1. replace (IZR w * q * (1 + u)) with (IZR w * (1 + u) * q) by ring. apply Rmult_le_compat_r; lra. }
  assert (F1 : IZR n * q * IZR w * (1 - u) <= IZR n * IZR h) by (clear - E1 Rn; nra).
  assert (F2 : IZR n * IZR h <= IZR n * q * IZR w * (1 + u)) by (clear - E2 Rn; nra).
  assert (Pw : 0 < IZR n * IZR h) by (clear - Rn Rh; nra). set (nh := IZR n * IZR h) in *. set (z := IZR n * q) in *. split.
  - apply Rle_trans with (z * (1 + u) * IZR w); [apply Rmult_le_compat_r; lra|].
    assert (G : z * IZR w <= nh * (1 + 3 * u / 2)). { apply Rmult_le_reg_r with (1 - u); [lra|]. eapply Rle_trans; [exact F1|]. rewrite <- (Rmult_1_r nh) at 1. pu. }
    replace (z * (1 + u) * IZR w) with (z * IZR w * (1 + u)) by ring. apply Rle_trans with (nh * (1 + 3 * u / 2) * (1 + u)); [apply Rmult_le_compat_r; lra|]. pu.
  - apply Rle_lt_trans with (y * IZR w); [|apply Rmult_lt_compat_r; lra]. apply Rle_trans with (z * (1 - u) * IZR w); [|apply Rmult_le_compat_r; lra].
    assert (G : nh * (1 - u) <= z * IZR w). { apply Rmult_le_reg_r with (1 + u); [lra|]. apply Rle_trans with nh; [|exact F2]. rewrite <- (Rmult_1_r nh) at 2. pu. }
    replace (z * (1 - u) * IZR w) with (z * IZR w * (1 - u)) by ring. apply Rle_trans with (nh * (1 - u) * (1 - u)); [|apply Rmult_le_compat_r; lra]. pu.
Qed.
(** The side that imaging.Resize finds: the nearest int, at least 1. *)
Lemma other_near n a b : side n -> side a -> side b ->
  exists x, other n a b = Z.max 1 (Zfloor x) /\ (0 <= Zfloor x < 2 ^ 63)%Z /\ IZR n * IZR a * (1 - 6 * u) + IZR b * (1 / 2 - u) <= x * IZR b <= IZR n * IZR a * (1 + 6 * u) + IZR b * (1 / 2 + u).
Proof.
  intros Hn Ha Hb. pose proof u_small as Hu. pose proof (side_R a Ha) as Ra. pose proof (side_R b Hb) as Rb. pose proof (side_R n Hn) as Rn.
  set (p := IZR n * IZR a) in *.
  assert (Hp : 1 <= p <= 4611686018427387904) by (unfold p; split; [replace 1 with (1 * 1) by lra; apply mul_ge; lra|
     apply Rle_trans with (2147483648 * 2147483648); [apply mul_ge; lra|lra]]).
  assert (V1 : val (fmul (of_int n) (of_int a)) (R64 p)). { apply val_mul; [apply val_int; destruct Hn; lia|apply val_int; destruct Ha; lia|]. fold p. apply huge. rewrite Rabs_pos_eq; lra. }
  destruct (near_R64 p) as [N1 N2]; [lra|]. set (x1 := R64 p) in *.
  assert (Ri : / 2147483648 <= / IZR b <= 1). { split; [apply Rinv_le; lra|]. rewrite <- Rinv_1. apply Rinv_le; lra. }
  assert (Eb : IZR b * / IZR b = 1) by (apply Rinv_r; lra). set (q := / IZR b) in *.
  assert (X1 : 1 / 2 <= x1 <= 4611686018427388904) by (split; [apply Rle_trans with (p * (1 - u)); [|exact N1]|apply Rle_trans with (p * (1 + u)); [exact N2|]]; clear - Hp; rewrite u_val; lra).
  assert (Q1 : / 8589934592 <= x1 * q <= 4611686018427388904). { split.
    - apply Rle_trans with (1 / 2 * / 2147483648); [lra|apply mul_ge; lra].
    - replace 4611686018427388904 with (4611686018427388904 * 1) by lra. apply mul_ge; lra. }
  assert (V2 : val (fdiv (fmul (of_int n) (of_int a)) (of_int b)) (R64 (x1 * q))).
  { apply (val_div _ _ _ _ V1); [apply val_int; destruct Hb; lia|lra|]. apply huge. unfold Rdiv. fold q. rewrite Rabs_pos_eq; lra. }
  destruct (near_R64 (x1 * q)) as [M1 M2]; [lra|]. set (x2 := R64 (x1 * q)) in *.
  assert (X2 : 0 <= x2 <= 4611686018427400000). { split; [apply R64_nonneg; lra|]. eapply Rle_trans; [exact M2|]. clear - Q1. rewrite u_val. lra. }
  assert (V3 : val (fadd (fdiv (fmul (of_int n) (of_int a)) (of_int b)) fhalf) (R64 (x2 + / 2))).
  { apply val_add; [exact V2|exact val_half|]. apply huge. rewrite Rabs_pos_eq; lra. }
  destruct (near_R64 (x2 + / 2)) as [O1 O2]; [lra|]. set (x3 := R64 (x2 + / 2)) in *.
  assert (X3 : 0 <= x3 <= 4611686018427500000). { split; [apply R64_nonneg; lra|]. eapply Rle_trans; [exact O2|]. clear - X2. rewrite u_val. lra. }
  pose proof (val_floor _ _ V3) as V4. pose proof (fmax_val _ _ _ _ (val_int 1 ltac:(cbn; lia)) V4) as V5. fold x3 in V5.
  assert (F0 : (0 <= Zfloor x3)%Z) by (apply Zfloor_lub; apply X3).
  assert (F1 : (Zfloor x3 < 2 ^ 63)%Z). { apply lt_IZR. apply Rle_lt_trans with x3; [apply Zfloor_lb|]. apply Rle_lt_trans with (IZR 4611686018427500000); [apply X3|apply IZR_lt; reflexivity]. }
  assert (M : Rmax (IZR 1) (IZR (Zfloor x3)) = IZR (Z.max 1 (Zfloor x3))).
  { destruct (Z_le_gt_dec (Zfloor x3) 1) as [C|C].
    - rewrite Z.max_l by lia. apply Rmax_left, IZR_le. lia.
    - rewrite Z.max_r by lia. apply Rmax_right, IZR_le. lia. }
  change (Rmax 1 (IZR (Zfloor x3))) with (Rmax (IZR 1) (IZR (Zfloor x3))) in V5. rewrite M in V5. exists x3. split; [|split; [lia|]].
  - unfold other. rewrite (to_int_val _ _ V5); [apply Zfloor_IZR|apply IZR_le; lia|]. change (bpow radix2 63) with (IZR (2 ^ 63)). apply IZR_lt. lia.
  - assert (Ex : x1 * q * IZR b = x1) by (replace (x1 * q * IZR b) with (x1 * (IZR b * q)) by ring; rewrite Eb; ring).
    assert (K1 : x1 * (1 - u) <= x2 * IZR b) by (rewrite <- Ex; replace (x1 * q * IZR b * (1 - u)) with (x1 * q * (1 - u) * IZR b) by ring; apply Rmult_le_compat_r; lra).
    assert (K2 : x2 * IZR b <= x1 * (1 + u)) by (rewrite <- Ex; replace (x1 * q * IZR b * (1 + u)) with (x1 * q * (1 + u) * IZR b) by ring; apply Rmult_le_compat_r; lra).
    assert (L1 : p * (1 - 2 * u) <= x2 * IZR b) by (eapply Rle_trans; [|exact K1]; apply Rle_trans with (p * (1 - u) * (1 - u)); [pu|apply Rmult_le_compat_r; lra]).
    assert (L2 : x2 * IZR b <= p * (1 + 3 * u)) by (eapply Rle_trans; [exact K2|]; apply Rle_trans with (p * (1 + u) * (1 + u)); [apply Rmult_le_compat_r; lra|pu]).
    assert (P1 : (x2 + / 2) * (1 - u) * IZR b <= x3 * IZR b) by (apply Rmult_le_compat_r; lra).
    assert (P2 : x3 * IZR b <= (x2 + / 2) * (1 + u) * IZR b) by (apply Rmult_le_compat_r; lra). split.
    + eapply Rle_trans; [|exact P1]. replace ((x2 + / 2) * (1 - u) * IZR b) with (x2 * IZR b * (1 - u) + IZR b * (/ 2 * (1 - u))) by ring.
      apply Rplus_le_compat; [|apply Rmult_le_compat_l; lra]. apply Rle_trans with (p * (1 - 2 * u) * (1 - u)); [pu|apply Rmult_le_compat_r; lra].
    + eapply Rle_trans; [exact P2|]. replace ((x2 + / 2) * (1 + u) * IZR b) with (x2 * IZR b * (1 + u) + IZR b * (/ 2 * (1 + u))) by ring.
      apply Rplus_le_compat; [|apply Rmult_le_compat_l; lra]. apply Rle_trans with (p * (1 + 3 * u) * (1 + u)); [apply Rmult_le_compat_r; lra|pu].
Qed.
(** ** The aspect ratio *)
(** What the scaling modes ask for. *)
Definition keeps (w h : Z) (p : Z * Z) : Prop :=
  p = (w, h) \/ (exists n, (1 <= n <= h)%Z /\ p = (to_int (fmul (of_int n) (ratio_of w h)), n)) \/
  (exists n, (1 <= n <= w)%Z /\ p = (n, to_int (fdiv (of_int n) (ratio_of w h)))).
Lemma keeps_getMin w h a b : side w -> side h -> (0 <= a)%Z -> (0 <= b)%Z -> keeps w h (getMinAndkeepRatio w h a b).
Proof.
  intros [Hw _] [Hh _] Ha Hb. unfold getMinAndkeepRatio, keeps. fold (ratio_of w h).
  assert (Ha' : (1 <= if (a =? 0)%Z then w else a)%Z) by (destruct (a =? 0)%Z eqn:?; lia). assert (Hb' : (1 <= if (b =? 0)%Z then h else b)%Z) by (destruct (b =? 0)%Z eqn:?; lia).
  set (nw := if (a =? 0)%Z then w else a) in *. set (nh := if (b =? 0)%Z then h else b) in *. cbv zeta.
  destruct (_ && _) eqn:E1; [left; reflexivity|right]. destruct ((nw <? w)%Z && (nh <? h)%Z) eqn:E2.
  - destruct (nh <? nw)%Z; [left; exists nh; split; [lia|reflexivity]|right; exists nw; split; [lia|reflexivity]].
  - destruct (w <=? nw)%Z eqn:E3; [left; exists nh; split; [lia|reflexivity]|right; exists nw; split; [lia|reflexivity]].
Qed.
Lemma keeps_getMax w h a b : side w -> side h -> (0 <= a)%Z \/ (h <= b)%Z -> (0 <= b)%Z \/ (w <= a)%Z -> keeps w h (getMaxAndkeepRatio w h a b).
Proof.
  intros [Hw _] [Hh _] Ha Hb. unfold getMaxAndkeepRatio, keeps. fold (ratio_of w h).
  assert (Ha' : (1 <= if (a =? 0)%Z then w else a)%Z \/ (h <= b)%Z) by (destruct (a =? 0)%Z eqn:?; lia).
  assert (Hb' : (1 <= if (b =? 0)%Z then h else b)%Z \/ (w <= a)%Z) by (destruct (b =? 0)%Z eqn:?; lia).
  assert (Hc : (b = 0 \/ b = if (b =? 0)%Z then h else b)%Z) by (destruct (b =? 0)%Z eqn:?; lia).
  assert (Hd : (a = 0 \/ a = if (a =? 0)%Z then w else a)%Z) by (destruct (a =? 0)%Z eqn:?; lia).
  set (nw := if (a =? 0)%Z then w else a) in *. set (nh := if (b =? 0)%Z then h else b) in *. cbv zeta.
  destruct ((w <=? nw)%Z || (h <=? nh)%Z) eqn:E1; [left; reflexivity|right]. replace ((nw <? w)%Z && (nh <? h)%Z) with true by lia.
  destruct (fgt _ _); [right; exists nw; split; [lia|reflexivity]|left; exists nh; split; [lia|reflexivity]].
Qed.
(** Mode2 finds the side that was left open. *)
Lemma open_w w h b : side w -> side h -> (1 <= b)%Z -> is_int b -> (0 <= to_int (fdiv (fmul (of_int b) (of_int w)) (of_int h)))%Z \/ (h <= b)%Z.
Proof.
  intros Hw Hh Hb _. destruct (Z_lt_ge_dec b h) as [L|L]; [left|right; lia]. assert (Sb : side b) by (unfold side in *; lia).
  pose proof (side_R w Hw) as Rw. pose proof (side_R h Hh) as Rh. pose proof (side_R b Sb) as Rb.
  assert (Hp : 1 <= IZR b * IZR w <= 4611686018427387904) by (split; [replace 1 with (1 * 1) by lra; apply mul_ge; lra|apply Rle_trans with (2147483648 * 2147483648); [apply mul_ge; lra|lra]]).
  assert (V1 : val (fmul (of_int b) (of_int w)) (R64 (IZR b * IZR w))). { apply val_mul; [apply val_int; destruct Sb; lia|apply val_int; destruct Hw; lia|]. apply huge. rewrite Rabs_pos_eq; lra. }
  set (p := IZR b * IZR w) in *. destruct (near_R64 p) as [N1 N2]; [lra|].
  assert (X1 : 1 / 2 <= R64 p <= 4611686018427388904) by (split; [apply Rle_trans with (p * (1 - u)); [|exact N1]|apply Rle_trans with (p * (1 + u)); [exact N2|]]; clear - Hp; rewrite u_val; lra).
  assert (Ri : / 2147483648 <= / IZR h <= 1). { split; [apply Rinv_le; lra|]. rewrite <- Rinv_1. apply Rinv_le; lra. }
  assert (Q1 : / 8589934592 <= R64 p * / IZR h <= 4611686018427388904). { split; [apply Rle_trans with (1 / 2 * / 2147483648); [lra|apply mul_ge; lra]|replace 4611686018427388904 with (4611686018427388904 * 1) by lra; apply mul_ge; lra]. }
  assert (V2 : val (fdiv (fmul (of_int b) (of_int w)) (of_int h)) (R64 (R64 p / IZR h))). { apply (val_div _ _ _ _ V1); [apply val_int; destruct Hh; lia|lra|]. apply huge. unfold Rdiv. rewrite Rabs_pos_eq; lra. }
  unfold Rdiv in V2. destruct (near_R64 (R64 p * / IZR h)) as [M1 M2]; [lra|].
  destruct (floor_to_int _ _ V2) as [F _]; [|exact F]. split; [apply R64_nonneg; lra|]. eapply Rle_trans; [exact M2|]. clear - Q1. rewrite u_val. lra.
Qed.
Lemma open_h w h a : side w -> side h -> (1 <= a)%Z -> is_int a -> (0 <= to_int (fmul (fdiv (of_int a) (of_int w)) (of_int h)))%Z \/ (w <= a)%Z.
Proof.
  intros Hw Hh Ha _. destruct (Z_lt_ge_dec a w) as [L|L]; [left|right; lia]. assert (Sa : side a) by (unfold side in *; lia).
  pose proof (side_R w Hw) as Rw. pose proof (side_R h Hh) as Rh.
  destruct (ratio a w Sa Hw) as (r & V & _ & _ & Br). apply IZR_lt in L.
  assert (Hp : / 4294967296 <= r * IZR h <= 9223372036854770000 * 2) by (split; [apply Rle_trans with (/ 4294967296 * 1); [lra|apply mul_ge; lra]|apply Rle_trans with (4294967296 * 2147483648); [apply mul_ge; lra|lra]]).
  assert (V2 : val (fmul (fdiv (of_int a) (of_int w)) (of_int h)) (R64 (r * IZR h))). { apply val_mul; [exact V|apply val_int; destruct Hh; lia|]. apply huge. rewrite Rabs_pos_eq; lra. }
  destruct (near_R64 (r * IZR h)) as [M1 M2]; [lra|].
  assert (r <= 1). { destruct (quot_val a w) as [V' _]; [destruct Sa; lia|destruct Hw; lia|]. destruct V as [_ V], V' as [_ V']. rewrite V' in V. rewrite <- V. apply (R64_le_int _ 1); [cbn; lia|].
    apply Rmult_le_reg_r with (IZR w); [lra|]. unfold Rdiv. rewrite Rmult_assoc, Rinv_l by lra. lra. }
  destruct (floor_to_int _ _ V2) as [F _]; [|exact F]. split; [apply R64_nonneg; lra|]. eapply Rle_trans; [exact M2|]. apply Rle_trans with (2147483648 * (1 + u)); [|rewrite u_val; lra].
  apply Rmult_le_compat_r; [rewrite u_val; lra|]. apply Rle_trans with (1 * 2147483648); [apply mul_ge; lra|lra].
Qed.
(** A request: sides that are not negative, not both 0. *)
Definition request (a b : Z) : Prop := is_int a /\ is_int b /\ (0 <= a)%Z /\ (0 <= b)%Z /\ (0 < a + b)%Z.
Lemma prase_keeps mode w h a b : scales mode -> side w -> side h -> request a b ->
  exists p, praseMode mode w h a b = (p, SCALE) /\ keeps w h p.
Proof.
  intros [M1 M5] Hw Hh (Ia & Ib & Ha & Hb & Hab). unfold praseMode, newSide4mode.
  assert (C : exists x y, (if (h <=? w)%Z then (a, b) else (b, a)) = (x, y) /\ (0 <= x)%Z /\ (0 <= y)%Z) by (destruct (h <=? w)%Z; eauto 10).
  destruct C as (x & y & -> & Hx & Hy). destruct ((w <? x)%Z && (h <? y)%Z); [exists (w, h); split; [reflexivity|left; reflexivity]|].
  assert (G : forall p, keeps w h p -> exists q, (p, SCALE) = (q, SCALE) /\ keeps w h q) by (intros p H; exists p; split; [reflexivity|exact H]).
  destruct mode as [|[[[?|?|]|[?|?|]|]|[[?|?|]|[?|?|]|]|]|?]; try lia; try (exists (w, h); split; [reflexivity|left; reflexivity]).
  - apply G, keeps_getMin; assumption.
  - destruct (a =? 0)%Z; [|destruct (b =? 0)%Z]; apply G, keeps_getMax; auto.
  - destruct (x =? 0)%Z; [|destruct (y =? 0)%Z]; apply G, keeps_getMax; auto.
  - destruct (a =? 0)%Z eqn:E1; [apply G, keeps_getMax; auto; apply open_w; auto; lia|]. destruct (b =? 0)%Z eqn:E2; [apply G, keeps_getMax; auto; apply open_h; auto; lia|apply G, keeps_getMax; auto].
Qed.
Lemma other_pos n a b : side n -> side a -> side b -> (1 <= other n a b)%Z.
Proof. intros Hn Ha Hb. destruct (other_near n a b Hn Ha Hb) as (x & -> & _). lia. Qed.
Lemma keeps_nonempty w h p : side w -> side h -> keeps w h p -> (1 <= fst (Resize w h (fst p) (snd p)) /\ 1 <= snd (Resize w h (fst p) (snd p)))%Z.
Proof.
  intros Hw Hh K. rewrite Resize_unfold by assumption. destruct K as [ -> |[(n & Hn & -> )|(n & Hn & -> )]]; cbn [fst snd].
  - destruct Hw, Hh. replace ((w <? 0)%Z || (h <? 0)%Z) with false by lia. replace (w =? 0)%Z with false by lia. replace (h =? 0)%Z with false by lia. cbn [fst snd]. lia.
  - assert (Sn : side n) by (unfold side in *; lia). destruct (times_wh w h n Hw Hh Sn) as (T0 & _). set (t := to_int _) in *.
    replace ((t <? 0)%Z || (n <? 0)%Z) with false by lia. replace (n =? 0)%Z with false by lia. pose proof (other_pos n w h Sn Hw Hh) as O. destruct (t =? 0)%Z eqn:E; cbn [fst snd]; lia.
  - assert (Sn : side n) by (unfold side in *; lia). destruct (over_wh w h n Hw Hh Sn) as (T0 & _). set (t := to_int _) in *.
    replace ((n <? 0)%Z || (t <? 0)%Z) with false by lia. replace (n =? 0)%Z with false by lia. pose proof (other_pos n h w Sn Hh Hw) as O. destruct (t =? 0)%Z eqn:E; cbn [fst snd]; lia.
Qed.
(** For sides up to 2^24 the products are exact enough. *)
Definition side24 (z : Z) : Prop := (1 <= z <= 2 ^ 24)%Z.
Lemma side24_side z : side24 z -> side z.
Proof. unfold side24, side. lia. Qed.
Lemma prod24 a b : side24 a -> side24 b -> 1 <= IZR a * IZR b <= 281474976710656.
Proof.
  intros Ha Hb. rewrite <- mult_IZR. split; apply IZR_le; unfold side24 in *; nia.
Qed.
Lemma times_exact w h n : side24 w -> side24 h -> side24 n -> let t := to_int (fmul (of_int n) (ratio_of w h)) in (0 <= t /\ t * h <= n * w <= (t + 1) * h)%Z.
Proof.
  intros Hw Hh Hn t. destruct (times_wh w h n) as (T0 & T1 & T2); try (apply side24_side; assumption). fold t in T0, T1, T2. pose proof (prod24 n w Hn Hw) as P.
  split; [exact T0|]. rewrite <- !mult_IZR in *. rewrite <- plus_IZR, <- mult_IZR in T2. set (A := (t * h)%Z) in *. set (B := (n * w)%Z) in *. set (C := ((t + 1) * h)%Z) in *.
  assert (A < B + 1)%Z by (apply lt_IZR; rewrite plus_IZR; eapply Rle_lt_trans; [exact T1|]; clear - P; rewrite u_val; lra).
  assert (B < C + 1)%Z by (apply lt_IZR; rewrite plus_IZR; apply Rle_lt_trans with (IZR B * (1 - 3 * u) + 3 * u * IZR B); [lra|]; clear - P T2; rewrite u_val in *; lra). lia.
Qed.
Lemma over_exact w h n : side24 w -> side24 h -> side24 n -> let t := to_int (fdiv (of_int n) (ratio_of w h)) in (0 <= t /\ t * w <= n * h <= (t + 1) * w)%Z.
Proof.
  intros Hw Hh Hn t. destruct (over_wh w h n) as (T0 & T1 & T2); try (apply side24_side; assumption). fold t in T0, T1, T2. pose proof (prod24 n h Hn Hh) as P.
  split; [exact T0|]. rewrite <- !mult_IZR in *. rewrite <- plus_IZR, <- mult_IZR in T2. set (A := (t * w)%Z) in *. set (B := (n * h)%Z) in *. set (C := ((t + 1) * w)%Z) in *.
  assert (A < B + 1)%Z by (apply lt_IZR; rewrite plus_IZR; eapply Rle_lt_trans; [exact T1|]; clear - P; rewrite u_val; lra).
  assert (B < C + 1)%Z by (apply lt_IZR; rewrite plus_IZR; apply Rle_lt_trans with (IZR B * (1 - 3 * u) + 3 * u * IZR B); [lra|]; clear - P T2; rewrite u_val in *; lra). lia.
Qed.
Lemma other_exact n a b : side24 n -> side24 a -> side24 b -> (Z.abs (other n a b * b - n * a) <= b)%Z.
Proof.
  intros Hn Ha Hb. destruct (other_near n a b) as (x & -> & F & X1 & X2); try (apply side24_side; assumption). pose proof (prod24 n a Hn Ha) as P. rewrite <- !mult_IZR in *.
  assert (Rb : 1 <= IZR b <= 16777216) by (destruct Hb; split; apply IZR_le; lia).
  pose proof (Zfloor_lb x) as L1. pose proof (Zfloor_ub x) as L2. set (f := Zfloor x) in *. set (m := (n * a)%Z) in *.
  assert (A : (f * b < m + b)%Z). { apply lt_IZR. rewrite mult_IZR, plus_IZR. apply Rle_lt_trans with (x * IZR b); [apply Rmult_le_compat_r; lra|]. eapply Rle_lt_trans; [exact X2|]. clear - P Rb. rewrite u_val. lra. }
  assert (B : (m < (f + 1) * b)%Z). { apply lt_IZR. rewrite mult_IZR, plus_IZR. apply Rlt_trans with (x * IZR b); [|apply Rmult_lt_compat_r; lra]. eapply Rlt_le_trans; [|exact X1]. clear - P Rb. rewrite u_val. lra. }
  assert (0 < b)%Z by (destruct Hb; lia). assert (0 < m)%Z by (apply lt_IZR; lra). destruct (Z.max_spec 1 f) as [[M ->]|[M ->]]; nia.
Qed.
Lemma keeps_ratio w h p : side24 w -> side24 h -> keeps w h p ->
  let '(rw, rh) := Resize w h (fst p) (snd p) in (Z.abs (rw * h - rh * w) <= Z.max w h)%Z.
Proof.
  intros Hw Hh K. rewrite Resize_unfold by (apply side24_side; assumption). destruct K as [ -> |[(n & Hn & -> )|(n & Hn & -> )]]; cbn [fst snd].
  - destruct Hw, Hh. replace ((w <? 0)%Z || (h <? 0)%Z) with false by lia. replace (w =? 0)%Z with false by lia. replace (h =? 0)%Z with false by lia. nia.
  - assert (Sn : side24 n) by (unfold side24 in *; lia). destruct (times_exact w h n Hw Hh Sn) as (T0 & T1 & T2). set (t := to_int _) in *.
    replace ((t <? 0)%Z || (n <? 0)%Z) with false by lia. replace (n =? 0)%Z with false by lia. pose proof (other_exact n w h Sn Hw Hh) as O. destruct (t =? 0)%Z eqn:E; nia.
  - assert (Sn : side24 n) by (unfold side24 in *; lia). destruct (over_exact w h n Hw Hh Sn) as (T0 & T1 & T2). set (t := to_int _) in *.
    replace ((n <? 0)%Z || (t <? 0)%Z) with false by lia. replace (n =? 0)%Z with false by lia. pose proof (other_exact n h w Sn Hh Hw) as O. destruct (t =? 0)%Z eqn:E; nia.
Qed.
(** ** Fitting into a box *)
Definition box (z : Z) : Prop := (1 <= z <= 2 ^ 31)%Z.
(** The hypotheses of [Resize_le]. *)
Definition fitsR (w h A B nw nh : Z) : Prop :=
  (nw <= A)%Z /\ (nh <= B)%Z /\ IZR nw * IZR h <= (IZR B + / 4) * IZR w /\ IZR nh * IZR w <= (IZR A + / 4) * IZR h.
Lemma fitsR_Resize0 w h A B nw nh : side w -> side h -> (1 <= A <= 2 ^ 40)%Z -> (1 <= B <= 2 ^ 40)%Z -> fitsR w h A B nw nh ->
  (0 <= fst (Resize w h nw nh) <= A /\ 0 <= snd (Resize w h nw nh) <= B)%Z.
Proof. intros Hw Hh HA HB (F1 & F2 & F3 & F4). apply Resize_le; assumption. Qed.
Lemma fitsR_Resize w h A B nw nh : side w -> side h -> (1 <= A <= 2 ^ 40)%Z -> (1 <= B <= 2 ^ 40)%Z -> fitsR w h A B nw nh ->
  (fst (Resize w h nw nh) <= A /\ snd (Resize w h nw nh) <= B)%Z.
Proof. intros Hw Hh HA HB F. destruct (fitsR_Resize0 w h A B nw nh Hw Hh HA HB F). lia. Qed.
Lemma fitsR_mono w h A B nw nh a b : side w -> side h -> fitsR w h A B nw nh -> (a <= nw)%Z -> (b <= nh)%Z -> fitsR w h A B a b.
Proof.
  intros Hw Hh (F1 & F2 & F3 & F4) La Lb. pose proof (side_R w Hw) as Rw. pose proof (side_R h Hh) as Rh. split; [lia|]. split; [lia|]. apply IZR_le in La, Lb.
  split; [eapply Rle_trans; [|exact F3]|eapply Rle_trans; [|exact F4]]; apply Rmult_le_compat_r; lra.
Qed.
(** A width computed from a height that fits, for a box that is wide enough. *)
Lemma fit_times w h n A : side w -> side h -> side n -> (1 <= A <= 2 ^ 40)%Z -> IZR n * IZR w <= IZR A * IZR h * (1 + 8 * u) ->
  fitsR w h A n (to_int (fmul (of_int n) (ratio_of w h))) n.
Proof.
  intros Hw Hh Hn HA Hle. destruct (times_wh w h n Hw Hh Hn) as (T0 & T1 & T2). set (t := to_int _) in *.
  pose proof (side_R w Hw) as Rw. pose proof (side_R h Hh) as Rh. pose proof (side_R n Hn) as Rn. assert (RA : 1 <= IZR A <= 1099511627776) by (split; apply IZR_le; lia).
  assert (L : (t <= A)%Z). { apply Z.lt_succ_r, lt_IZR. unfold Z.succ. rewrite plus_IZR. apply Rmult_lt_reg_r with (IZR h); [lra|].
    eapply Rle_lt_trans; [exact T1|]. apply Rle_lt_trans with (IZR A * IZR h * (1 + 8 * u) * (1 + 3 * u)); [apply Rmult_le_compat_r; [rewrite u_val; lra|exact Hle]|].
    replace (IZR A * IZR h * (1 + 8 * u) * (1 + 3 * u)) with (IZR A * ((1 + 8 * u) * (1 + 3 * u)) * IZR h) by ring. apply Rmult_lt_compat_r; [lra|]. clear - RA. rewrite u_val. lra. }
  split; [exact L|]. split; [lia|]. split.
  - eapply Rle_trans; [exact T1|]. replace (IZR n * IZR w * (1 + 3 * u)) with (IZR n * (1 + 3 * u) * IZR w) by ring. apply Rmult_le_compat_r; [lra|]. clear - Rn. rewrite u_val. lra.
  - eapply Rle_trans; [exact Hle|]. replace (IZR A * IZR h * (1 + 8 * u)) with (IZR A * (1 + 8 * u) * IZR h) by ring. apply Rmult_le_compat_r; [lra|]. clear - RA. rewrite u_val. lra.
Qed.
Lemma fit_over w h n B : side w -> side h -> side n -> (1 <= B <= 2 ^ 40)%Z -> IZR n * IZR h <= IZR B * IZR w * (1 + 8 * u) ->
  fitsR w h n B n (to_int (fdiv (of_int n) (ratio_of w h))).
Proof.
  intros Hw Hh Hn HA Hle. destruct (over_wh w h n Hw Hh Hn) as (T0 & T1 & T2). set (t := to_int _) in *.
  pose proof (side_R w Hw) as Rw. pose proof (side_R h Hh) as Rh. pose proof (side_R n Hn) as Rn. assert (RA : 1 <= IZR B <= 1099511627776) by (split; apply IZR_le; lia).
  assert (L : (t <= B)%Z). { apply Z.lt_succ_r, lt_IZR. unfold Z.succ. rewrite plus_IZR. apply Rmult_lt_reg_r with (IZR w); [lra|].
    eapply Rle_lt_trans; [exact T1|]. apply Rle_lt_trans with (IZR B * IZR w * (1 + 8 * u) * (1 + 3 * u)); [apply Rmult_le_compat_r; [rewrite u_val; lra|exact Hle]|].
    replace (IZR B * IZR w * (1 + 8 * u) * (1 + 3 * u)) with (IZR B * ((1 + 8 * u) * (1 + 3 * u)) * IZR w) by ring. apply Rmult_lt_compat_r; [lra|]. clear - RA. rewrite u_val. lra. }
  split; [lia|]. split; [exact L|]. split.
  - eapply Rle_trans; [exact Hle|]. replace (IZR B * IZR w * (1 + 8 * u)) with (IZR B * (1 + 8 * u) * IZR w) by ring. apply Rmult_le_compat_r; [lra|]. clear - RA. rewrite u_val. lra.
  - eapply Rle_trans; [exact T1|]. replace (IZR n * IZR h * (1 + 3 * u)) with (IZR n * (1 + 3 * u) * IZR h) by ring. apply Rmult_le_compat_r; [lra|]. clear - Rn. rewrite u_val. lra.
Qed.
Lemma cross a b c d : (a * b <= c * d)%Z -> (0 < c * d)%Z -> IZR a * IZR b <= IZR c * IZR d * (1 + 8 * u).
Proof.
  intros H P. rewrite <- !mult_IZR. apply IZR_le in H. apply IZR_lt in P. apply Rle_trans with (IZR (c * d)); [exact H|]. rewrite <- (Rmult_1_r (IZR (c * d))) at 1. apply Rmult_le_compat_l; [lra|rewrite u_val; lra].
Qed.
Lemma Resize_id w h : side w -> side h -> Resize w h w h = (w, h).
Proof.
  intros Hw Hh. rewrite Resize_unfold by assumption. destruct Hw, Hh. replace ((w <? 0)%Z || (h <? 0)%Z) with false by lia. replace (w =? 0)%Z with false by lia. replace (h =? 0)%Z with false by lia. reflexivity.
Qed.
(** getMinAndkeepRatio, for sides where 0 stands for the side of the source. *)
Lemma getMin_fits w h a b : side w -> side h -> (1 <= a)%Z -> (1 <= b)%Z -> is_int a -> is_int b ->
  ((w <= a \/ h <= b) \/ (b < a /\ b * w <= a * h) \/ (a <= b /\ a * h <= b * w))%Z ->
  let p := getMinAndkeepRatio w h a b in (fst (Resize w h (fst p) (snd p)) <= a /\ snd (Resize w h (fst p) (snd p)) <= b)%Z.
Proof.
  intros Hw Hh Ha Hb Ia Ib C p. unfold p, getMinAndkeepRatio. replace (a =? 0)%Z with false by lia. replace (b =? 0)%Z with false by lia. cbv zeta. fold (ratio_of w h).
  destruct ((w <=? a)%Z && (h <=? b)%Z) eqn:E1; [cbn [fst snd]; rewrite Resize_id by assumption; cbn [fst snd]; lia|].
  assert (T : (b < h)%Z -> (b * w <= a * h)%Z -> (fst (Resize w h (to_int (fmul (of_int b) (ratio_of w h))) b) <= a /\ snd (Resize w h (to_int (fmul (of_int b) (ratio_of w h))) b) <= b)%Z).
  { intros L X. assert (Sb : side b) by (unfold side in *; lia). destruct (Z_le_gt_dec a (2 ^ 40)) as [S|S].
    - apply fitsR_Resize; try assumption; [lia|destruct Sb; lia|]. apply fit_times; try assumption; [lia|]. apply cross; [exact X|unfold side in *; nia].
    - destruct (fitsR_Resize w h w b (to_int (fmul (of_int b) (ratio_of w h))) b Hw Hh) as [F1 F2]; [destruct Hw; lia|destruct Sb; lia|apply fit_times; try assumption; [destruct Hw; lia|apply cross; unfold side in *; nia]|]. split; [destruct Hw; lia|exact F2]. }
  assert (T' : (a < w)%Z -> (a * h <= b * w)%Z -> (fst (Resize w h a (to_int (fdiv (of_int a) (ratio_of w h)))) <= a /\ snd (Resize w h a (to_int (fdiv (of_int a) (ratio_of w h)))) <= b)%Z).
  { intros L X. assert (Sb : side a) by (unfold side in *; lia). destruct (Z_le_gt_dec b (2 ^ 40)) as [S|S].
    - apply fitsR_Resize; try assumption; [destruct Sb; lia|lia|]. apply fit_over; try assumption; [lia|]. apply cross; [exact X|unfold side in *; nia].
    - destruct (fitsR_Resize w h a h a (to_int (fdiv (of_int a) (ratio_of w h))) Hw Hh) as [F1 F2]; [destruct Sb; lia|destruct Hh; lia|apply fit_over; try assumption; [destruct Hh; lia|apply cross; unfold side in *; nia]|]. split; [exact F1|destruct Hh; lia]. }
  destruct ((a <? w)%Z && (b <? h)%Z) eqn:E2.
  - destruct (b <? a)%Z eqn:E3; cbn [fst snd]; [apply T|apply T']; lia.
  - unfold side in Hw, Hh. destruct (w <=? a)%Z eqn:E3; cbn [fst snd]; [apply T; nia|apply T'; nia].
Qed.

(** ** scaleDownToLimit *)
Lemma i64_small z : (- 2 ^ 63 <= z < 2 ^ 63)%Z -> i64 z = z.
Proof. intros H. unfold i64. apply wrapS_id; lia. Qed.
Lemma limit_ok a b l : (1 <= a <= 2 ^ 53)%Z -> (1 <= b <= 2 ^ 53)%Z -> (a * b < 2 ^ 63)%Z -> (1 <= l < 2 ^ 50)%Z ->
  let '(a', b') := scaleDownToLimit a b l in (0 <= a' <= a)%Z /\ (0 <= b' <= b)%Z /\ (a' * b' <= l)%Z /\
    IZR a' * IZR b <= (IZR b' + 1) * IZR a * (1 + 4 * u) /\ IZR b' * IZR a <= (IZR a' + 1) * IZR b * (1 + 4 * u).
Proof.
  intros Ha Hb Hab Hl. unfold scaleDownToLimit. replace ((a <=? 0)%Z || (b <=? 0)%Z || (l <=? 0)%Z) with false by lia. rewrite i64_small by nia.
  assert (Ra : 1 <= IZR a <= 9007199254740992) by (split; apply IZR_le; lia). assert (Rb : 1 <= IZR b <= 9007199254740992) by (split; apply IZR_le; lia).
  destruct (a * b <? l)%Z eqn:E. { split; [lia|]. split; [lia|]. split; [lia|]. clear - Ra Rb. rewrite u_val. split; nra. } cbv zeta.
  assert (Rl : 1 <= IZR l <= 1125899906842624) by (split; apply IZR_le; lia).
  assert (Rm : 1 <= IZR (a * b) <= 9223372036854775808) by (split; apply IZR_le; nia).
  assert (Lm : IZR l <= IZR (a * b)) by (apply IZR_le; lia).
  set (m := IZR (a * b)) in *. pose proof u_small as Hu.
  assert (V0 : val (of_int (a * b)) (R64 m)) by (apply val_of_int; nia). destruct (near_R64 m) as [M1 M2]; [lra|].
  assert (Lx : IZR l <= R64 m) by (apply R64_ge_int; [lia|exact Lm]). set (x := R64 m) in *.
  assert (Bx : 1 <= x <= 18446744073709551616) by (split; [lra|eapply Rle_trans; [exact M2|]; clear - Rm; rewrite u_val; lra]).
  assert (Q : / 18446744073709551616 <= IZR l / x <= 1).
  { split; [apply Rle_trans with (1 / 18446744073709551616); [lra|]; apply (div_bounds (IZR l) x 1 1125899906842624 1 18446744073709551616); lra|].
    apply Rmult_le_reg_r with x; [lra|]. unfold Rdiv. rewrite Rmult_assoc, Rinv_l by lra. lra. }
  assert (Eq : IZR l / x * x = IZR l) by (field; lra).
  assert (V1 : val (fdiv (of_int l) (of_int (a * b))) (R64 (IZR l / x))). { apply val_div; [apply val_int; lia|exact V0|lra|]. apply huge. rewrite Rabs_pos_eq; lra. }
  set (q := IZR l / x) in *. destruct (near_R64 q) as [Q1 Q2]; [lra|]. assert (F1 : R64 q <= IZR 1) by (apply R64_le_int; [cbn; lia|apply Q]). set (f := R64 q) in *.
  assert (F0 : / 36893488147419103232 <= f) by (eapply Rle_trans; [|exact Q1]; clear - Q Hu; nra).
  assert (V2 : val (fsqrt (fdiv (of_int l) (of_int (a * b)))) (R64 (sqrt f))) by (apply val_sqrt; [exact V1|lra]).
  assert (S1 : sqrt f <= 1) by (rewrite <- sqrt_1; apply sqrt_le_1; lra).
  assert (S0 : / 36893488147419103232 <= sqrt f). { assert (sqrt f * sqrt f = f) by (apply sqrt_sqrt; lra). assert (0 <= sqrt f) by apply sqrt_pos. clear - S1 H H0 F0. nra. }
  assert (SS : sqrt f * sqrt f = f) by (apply sqrt_sqrt; lra).
  destruct (near_R64 (sqrt f)) as [T1 T2]; [lra|]. assert (G1 : R64 (sqrt f) <= IZR 1) by (apply R64_le_int; [cbn; lia|exact S1]). set (s := R64 (sqrt f)) in *.
  assert (G0 : / 73786976294838206464 <= s) by (eapply Rle_trans; [|exact T1]; clear - S0 Hu; nra).
  assert (P : forall c, (1 <= c <= 2 ^ 53)%Z -> exists y, val (fmul (of_int c) (fsqrt (fdiv (of_int l) (of_int (a * b))))) y /\ 0 <= y <= IZR c /\ IZR c * s * (1 - u) <= y <= IZR c * s * (1 + u)).
  { intros c Hc. assert (Rc : 1 <= IZR c <= 9007199254740992) by (split; apply IZR_le; lia).
    assert (Pc : / 73786976294838206464 <= IZR c * s <= IZR c) by (split; [apply Rle_trans with (1 * / 73786976294838206464); [lra|apply mul_ge; lra]|rewrite <- (Rmult_1_r (IZR c)) at 2; apply Rmult_le_compat_l; lra]).
    exists (R64 (IZR c * s)). split; [apply val_mul; [apply val_int; lia|exact V2|]; apply huge; rewrite Rabs_pos_eq; lra|]. split; [split; [apply R64_nonneg; lra|apply R64_le_int; [lia|apply Pc]]|].
    apply near_R64. lra. }
  destruct (P a Ha) as (ya & Va & Ba & Ua), (P b Hb) as (yb & Vb & Bb & Ub).
  destruct (floor_to_int _ _ Va) as (A0 & A1 & A2); [lra|]. destruct (floor_to_int _ _ Vb) as (B0 & B1 & B2); [lra|].
  set (a' := to_int _) in *. set (b' := to_int (fmul (of_int b) _)) in *. split; [split; [exact A0|apply le_IZR; lra]|]. split; [split; [exact B0|apply le_IZR; lra]|].
  assert (K : forall x' y' p q, 0 < p -> 0 < q -> x' <= p * s * (1 + u) -> q * s * (1 - u) <= y' + 1 -> x' * q <= (y' + 1) * p * (1 + 4 * u)).
  { intros x' y' p q' Hp Hq Hx Hy. apply Rle_trans with (p * s * (1 + u) * q'); [apply Rmult_le_compat_r; lra|]. apply Rle_trans with (q' * s * (1 - u) * p * (1 + 4 * u)).
    - replace (p * s * (1 + u) * q') with (p * s * q' * (1 + u)) by ring. replace (q' * s * (1 - u) * p * (1 + 4 * u)) with (p * s * q' * ((1 - u) * (1 + 4 * u))) by ring.
      apply Rmult_le_compat_l; [|rewrite u_val; lra]. apply Rmult_le_pos; [apply Rmult_le_pos|]; lra.
    - apply Rmult_le_compat_r; [lra|]. apply Rmult_le_compat_r; lra. }
  split; [|split; apply K; lra].
  apply Z.lt_succ_r, lt_IZR. unfold Z.succ. rewrite mult_IZR, plus_IZR. assert (A0' : 0 <= IZR a') by (apply IZR_le; exact A0). assert (B0' : 0 <= IZR b') by (apply IZR_le; exact B0).
  apply Rle_lt_trans with (IZR a * s * (1 + u) * (IZR b * s * (1 + u))); [apply Rmult_le_compat; lra|].
  replace (IZR a * s * (1 + u) * (IZR b * s * (1 + u))) with (m * (s * s) * ((1 + u) * (1 + u))) by (unfold m; rewrite mult_IZR; ring).
  assert (H1 : s * s <= f * ((1 + u) * (1 + u))). { rewrite <- SS. replace (sqrt f * sqrt f * ((1 + u) * (1 + u))) with (sqrt f * (1 + u) * (sqrt f * (1 + u))) by ring. apply Rmult_le_compat; lra. }
  assert (H2 : m <= x * (1 + 2 * u)). { apply Rmult_le_reg_r with (1 - u); [lra|]. eapply Rle_trans; [exact M1|]. rewrite Rmult_assoc. rewrite <- (Rmult_1_r x) at 1. apply Rmult_le_compat_l; [lra|rewrite u_val; lra]. }
  assert (H3 : m * (s * s) <= IZR l * ((1 + 2 * u) * (1 + u) * ((1 + u) * (1 + u)))).
  { apply Rle_trans with (x * (1 + 2 * u) * (q * (1 + u) * ((1 + u) * (1 + u)))).
    - apply Rmult_le_compat; [lra|clear - G0; nra|exact H2|]. eapply Rle_trans; [exact H1|]. apply Rmult_le_compat_r; [rewrite u_val; lra|exact Q2].
    - rewrite <- Eq. apply Req_le. ring. }
  eapply Rle_lt_trans; [apply Rmult_le_compat_r; [rewrite u_val; lra|exact H3]|]. clear - Rl. rewrite u_val. lra.
Qed.
(** ** scaleImageWithRatio *)
Definition one (z : Z) : Z := if (z =? 0)%Z then 1%Z else z.
(** The test of the ratios, both ways. *)
Lemma wider_spec w h a b : side w -> side h -> side a -> side b ->
  exists r q, val (ratio_of w h) r /\ val (ratio_of a b) q /\ r = R64 (IZR w / IZR h) /\ q = R64 (IZR a / IZR b) /\
    (IZR w * (1 - u) <= r * IZR h <= IZR w * (1 + u)) /\ (IZR a * (1 - u) <= q * IZR b <= IZR a * (1 + u)) /\
    / 4294967296 <= r <= 4294967296 /\ fgt (ratio_of w h) (ratio_of a b) = Rlt_bool q r.
Proof.
  intros Hw Hh Ha Hb. destruct (ratio w h Hw Hh) as (r & V & E & N & Br). destruct (ratio a b Ha Hb) as (q & V' & E' & N' & _). exists r, q. repeat (split; [assumption|]). apply val_gt; assumption.
Qed.
Lemma wider_cross w h a b : side w -> side h -> side a -> side b -> fgt (ratio_of w h) (ratio_of a b) = true -> IZR a * IZR h <= IZR b * IZR w * (1 + 8 * u).
Proof.
  intros Hw Hh Ha Hb E. destruct (wider_spec w h a b Hw Hh Ha Hb) as (r & q & _ & _ & _ & _ & [N1 N2] & [M1 M2] & Br & G). rewrite G in E.
  destruct (Rlt_bool_spec q r) as [L|L]; [|discriminate]. pose proof (side_R w Hw) as Rw. pose proof (side_R h Hh) as Rh. pose proof (side_R a Ha) as Ra. pose proof (side_R b Hb) as Rb. pose proof u_small as Hu.
  apply Rmult_le_reg_r with (1 - u); [lra|].
  apply Rle_trans with (q * IZR b * IZR h); [replace (IZR a * IZR h * (1 - u)) with (IZR a * (1 - u) * IZR h) by ring; apply Rmult_le_compat_r; lra|].
  apply Rle_trans with (r * IZR h * IZR b); [replace (q * IZR b * IZR h) with (q * (IZR b * IZR h)) by ring; replace (r * IZR h * IZR b) with (r * (IZR b * IZR h)) by ring; apply Rmult_le_compat_r; [apply Rmult_le_pos; lra|lra]|].
  apply Rle_trans with (IZR w * (1 + u) * IZR b); [apply Rmult_le_compat_r; lra|].
  replace (IZR w * (1 + u) * IZR b) with (IZR b * IZR w * (1 + u)) by ring. rewrite Rmult_assoc with (r3 := 1 - u). apply Rmult_le_compat_l; [apply Rmult_le_pos; lra|rewrite u_val; lra].
Qed.
Lemma taller_cross w h a b : side w -> side h -> side a -> side b -> fgt (ratio_of w h) (ratio_of a b) = false -> IZR b * IZR w <= IZR a * IZR h * (1 + 4 * u).
Proof.
  intros Hw Hh Ha Hb E. destruct (wider_spec w h a b Hw Hh Ha Hb) as (r & q & _ & _ & _ & _ & [N1 N2] & [M1 M2] & Br & G). rewrite G in E.
  destruct (Rlt_bool_spec q r) as [L|L]; [discriminate|]. pose proof (side_R w Hw) as Rw. pose proof (side_R h Hh) as Rh. pose proof (side_R a Ha) as Ra. pose proof (side_R b Hb) as Rb. pose proof u_small as Hu.
  apply Rmult_le_reg_r with (1 - u); [lra|].
  apply Rle_trans with (r * IZR h * IZR b); [replace (IZR b * IZR w * (1 - u)) with (IZR w * (1 - u) * IZR b) by ring; apply Rmult_le_compat_r; lra|].
  apply Rle_trans with (q * IZR b * IZR h); [replace (q * IZR b * IZR h) with (q * (IZR b * IZR h)) by ring; replace (r * IZR h * IZR b) with (r * (IZR b * IZR h)) by ring; apply Rmult_le_compat_r; [apply Rmult_le_pos; lra|lra]|].
  apply Rle_trans with (IZR a * (1 + u) * IZR h); [apply Rmult_le_compat_r; lra|].
  replace (IZR a * (1 + u) * IZR h) with (IZR a * IZR h * (1 + u)) by ring. rewrite Rmult_assoc with (r3 := 1 - u). apply Rmult_le_compat_l; [apply Rmult_le_pos; lra|rewrite u_val; lra].
Qed.
(** The size before the limit. *)
Definition wish (w h a b : Z) (lower : bool) : Z * Z :=
  if Bool.eqb lower (fgt (ratio_of w h) (ratio_of a b)) then (a, to_int (fdiv (of_int a) (ratio_of w h))) else (to_int (fmul (of_int b) (ratio_of w h)), b).
Lemma scaleTarget_wish w h a b l lower : scaleTarget w h a b l lower =
  let p := wish w h (one a) (one b) lower in
  if (0 <? l)%Z && (l <? i64 (fst p * snd p))%Z then scaleDownToLimit (fst p) (snd p) l else p.
Proof.
  unfold scaleTarget. fold (one a) (one b) (ratio_of w h) (ratio_of (one a) (one b)). cbv zeta. unfold wish. destruct (Bool.eqb _ _); reflexivity.
Qed.
Lemma wish_fits w h a b : side w -> side h -> side a -> side b -> fitsR w h a b (fst (wish w h a b true)) (snd (wish w h a b true)) /\
  (0 <= fst (wish w h a b true))%Z /\ (0 <= snd (wish w h a b true))%Z.
Proof.
  intros Hw Hh Ha Hb. unfold wish. destruct (fgt _ _) eqn:E; cbn [Bool.eqb fst snd].
  - split; [|split; [destruct Ha; lia|apply (over_wh w h a Hw Hh Ha)]]. apply fit_over; try assumption; [destruct Hb; lia|]. apply wider_cross; assumption.
  - split; [|split; [apply (times_wh w h b Hw Hh Hb)|destruct Hb; lia]]. apply fit_times; try assumption; [destruct Ha; lia|]. eapply Rle_trans; [apply (taller_cross w h a b); assumption|].
    pose proof (side_R h Hh) as Rh. pose proof (side_R a Ha) as Ra. apply Rmult_le_compat_l; [apply Rmult_le_pos; lra|rewrite u_val; lra].
Qed.
Lemma lower_fits w h a b l : side w -> side h -> (0 <= a <= 2 ^ 31)%Z -> (0 <= b <= 2 ^ 31)%Z -> (l < 2 ^ 50)%Z ->
  let '(rw, rh) := scaleImageWithRatio w h a b l true in (0 <= rw <= Z.max 1 a /\ 0 <= rh <= Z.max 1 b)%Z.
Proof.
  intros Hw Hh Ha Hb Hl. unfold scaleImageWithRatio. rewrite scaleTarget_wish. cbv zeta.
  assert (Ea : one a = Z.max 1 a) by (unfold one; destruct (a =? 0)%Z eqn:?; lia). assert (Eb : one b = Z.max 1 b) by (unfold one; destruct (b =? 0)%Z eqn:?; lia). rewrite Ea, Eb.
  assert (Sa : side (Z.max 1 a)) by (unfold side; lia). assert (Sb : side (Z.max 1 b)) by (unfold side; lia). set (a1 := Z.max 1 a) in *. set (b1 := Z.max 1 b) in *. clearbody a1 b1.
  destruct (wish_fits w h a1 b1 Hw Hh Sa Sb) as (F & W0 & H0). set (p := wish w h a1 b1 true) in *. destruct p as [pw ph]. cbn [fst snd] in *.
  assert (G : forall x y, fitsR w h a1 b1 x y -> let '(rw, rh) := Resize w h x y in (0 <= rw <= a1 /\ 0 <= rh <= b1)%Z).
  { intros x y Fx. pose proof (fitsR_Resize0 w h a1 b1 x y Hw Hh ltac:(destruct Sa; lia) ltac:(destruct Sb; lia) Fx) as R. destruct (Resize w h x y). exact R. }
  destruct (_ && _) eqn:E; [|apply G, F].
  pose proof F as (F1 & F2 & _). assert (P : (0 <= pw * ph < 2 ^ 63)%Z) by (unfold side in Sa, Sb; nia). rewrite i64_small in E by lia.
  assert (0 < pw /\ 0 < ph)%Z by nia. unfold side in Sa, Sb.
  pose proof (limit_ok pw ph l ltac:(lia) ltac:(lia) ltac:(lia) ltac:(lia)) as L. destruct (scaleDownToLimit pw ph l) as [x y]. destruct L as (L1 & L2 & _). apply G. eapply fitsR_mono; [assumption|assumption|exact F|lia|lia].
Qed.
(** Without a limit, the upper mode covers the box. *)
Lemma R64_idem x : R64 (R64 x) = R64 x.
Proof. rewrite !fexp_FLT. apply round_generic; [typeclasses eauto|]. apply generic_format_round; [apply FLT_exp_valid; exact prec_ok|apply valid_rnd_N]. Qed.
Lemma upper_times w h a b : side w -> side h -> side a -> side b -> fgt (ratio_of w h) (ratio_of a b) = true -> (a <= to_int (fmul (of_int b) (ratio_of w h)))%Z.
Proof.
  intros Hw Hh Ha Hb E. destruct (wider_spec w h a b Hw Hh Ha Hb) as (r & q & V & _ & Er & Eq & [N1 N2] & _ & Br & G). rewrite G in E.
  destruct (Rlt_bool_spec q r) as [L|L]; [|discriminate]. pose proof (side_R w Hw) as Rw. pose proof (side_R h Hh) as Rh. pose proof (side_R a Ha) as Ra. pose proof (side_R b Hb) as Rb. pose proof u_small as Hu.
  assert (K : IZR a / IZR b <= r). { destruct (Rle_or_lt (IZR a / IZR b) r) as [|C]; [assumption|]. apply Rlt_le, R64_mono in C. rewrite <- Eq in C. rewrite Er, R64_idem, <- Er in C. lra. }
  assert (K2 : IZR a <= IZR b * r). { apply Rle_trans with (IZR b * (IZR a / IZR b)); [apply Req_le; field; lra|apply Rmult_le_compat_l; lra]. }
  assert (r <= 2147483649) by (apply Rle_trans with (r * IZR h); [clear - Br Rh; nra|apply Rle_trans with (IZR w * (1 + u)); [exact N2|clear - Rw; rewrite u_val; lra]]).
  assert (P1 : / 4294967296 <= IZR b * r <= 9223372036854770000) by (split; [lra|apply Rle_trans with (2147483648 * 2147483649); [apply mul_ge; lra|lra]]).
  assert (Vm : val (fmul (of_int b) (ratio_of w h)) (R64 (IZR b * r))). { apply val_mul; [apply val_int; destruct Hb; lia|exact V|]. apply huge. rewrite Rabs_pos_eq; lra. }
  apply (to_int_ge _ _ _ Vm); [apply R64_ge_int; [destruct Ha; lia|exact K2]|destruct Ha; lia|]. destruct (near_R64 (IZR b * r)) as [_ U]; [lra|]. eapply Rle_lt_trans; [exact U|].
  change (bpow radix2 63) with 9223372036854775808. clear - P1. rewrite u_val. lra.
Qed.
Lemma upper_over w h a b : side w -> side h -> side a -> side b -> fgt (ratio_of w h) (ratio_of a b) = false -> (b - 1 <= to_int (fdiv (of_int a) (ratio_of w h)))%Z.
Proof.
  intros Hw Hh Ha Hb E. apply taller_cross in E; try assumption. destruct (over_wh w h a Hw Hh Ha) as (T0 & T1 & T2). set (t := to_int _) in *.
  pose proof (side_R w Hw) as Rw. pose proof (side_R b Hb) as Rb. pose proof (side_R a Ha) as Ra. pose proof (side_R h Hh) as Rh.
  assert (C : IZR b * (1 - 8 * u) < IZR t + 1). { apply Rmult_lt_reg_r with (IZR w); [lra|]. eapply Rle_lt_trans; [|exact T2].
    apply Rmult_le_reg_r with (1 + 4 * u); [rewrite u_val; lra|]. apply Rle_trans with (IZR b * IZR w * (1 - 3 * u)).
    - replace (IZR b * (1 - 8 * u) * IZR w * (1 + 4 * u)) with (IZR b * IZR w * ((1 - 8 * u) * (1 + 4 * u))) by ring. apply Rmult_le_compat_l; [apply Rmult_le_pos; lra|rewrite u_val; lra].
    - replace (IZR a * IZR h * (1 - 3 * u) * (1 + 4 * u)) with (IZR a * IZR h * (1 + 4 * u) * (1 - 3 * u)) by ring. apply Rmult_le_compat_r; [rewrite u_val; lra|exact E]. }
  assert (b < t + 2)%Z; [|lia]. apply lt_IZR. rewrite plus_IZR. clear - C Rb. rewrite u_val in C. lra.
Qed.
Lemma upper_near w h a b l : side w -> side h -> (0 <= a <= 2 ^ 31)%Z -> (0 <= b <= 2 ^ 31)%Z -> (l <= 0)%Z ->
  let '(rw, rh) := scaleImageWithRatio w h a b l false in (a <= rw /\ b - 1 <= rh /\ 1 <= rw /\ 1 <= rh)%Z.
Proof.
  intros Hw Hh Ha Hb Hl. unfold scaleImageWithRatio. rewrite scaleTarget_wish. cbv zeta. replace (0 <? l)%Z with false by lia. cbn [andb].
  assert (Ea : one a = Z.max 1 a) by (unfold one; destruct (a =? 0)%Z eqn:?; lia). assert (Eb : one b = Z.max 1 b) by (unfold one; destruct (b =? 0)%Z eqn:?; lia). rewrite Ea, Eb.
  assert (Sa : side (Z.max 1 a)) by (unfold side; lia). assert (Sb : side (Z.max 1 b)) by (unfold side; lia). set (a1 := Z.max 1 a) in *. set (b1 := Z.max 1 b) in *.
  assert (a <= a1 /\ b <= b1)%Z by lia. clearbody a1 b1. unfold wish. destruct (fgt _ _) eqn:E; cbn [Bool.eqb]; rewrite Resize_unfold by assumption.
  - pose proof (upper_times w h a1 b1 Hw Hh Sa Sb E) as U. set (t := to_int _) in *. unfold side in Sa, Sb. replace ((t <? 0)%Z || (b1 <? 0)%Z) with false by lia. replace (t =? 0)%Z with false by lia. replace (b1 =? 0)%Z with false by lia. lia.
  - pose proof (upper_over w h a1 b1 Hw Hh Sa Sb E) as U. pose proof (other_pos a1 h w Sa Hh Hw) as O. set (t := to_int _) in *. unfold side in Sa, Sb.
    replace ((a1 <? 0)%Z || (t <? 0)%Z) with false by lia. replace (a1 =? 0)%Z with false by lia. destruct (t =? 0)%Z eqn:E2; lia.
Qed.
Lemma wider_exact w h a b : side24 w -> side24 h -> side24 a -> side24 b -> (a * h < b * w)%Z -> fgt (ratio_of w h) (ratio_of a b) = true.
Proof.
  intros Hw Hh Ha Hb L. destruct (wider_spec w h a b) as (r & q & _ & _ & _ & _ & [N1 N2] & [M1 M2] & Br & G); try (apply side24_side; assumption). rewrite G. apply Rlt_bool_true.
  pose proof (prod24 a h Ha Hh) as P. assert (D : IZR a * IZR h + 1 <= IZR b * IZR w) by (rewrite <- !mult_IZR, <- plus_IZR; apply IZR_le; lia).
  pose proof (side_R h (side24_side _ Hh)) as Rh. pose proof (side_R b (side24_side _ Hb)) as Rb. pose proof u_small as Hu.
  apply Rmult_lt_reg_r with (IZR b * IZR h); [apply Rmult_lt_0_compat; lra|].
  apply Rle_lt_trans with (IZR a * IZR h * (1 + u)); [replace (q * (IZR b * IZR h)) with (q * IZR b * IZR h) by ring; replace (IZR a * IZR h * (1 + u)) with (IZR a * (1 + u) * IZR h) by ring; apply Rmult_le_compat_r; lra|].
  apply Rlt_le_trans with (IZR b * IZR w * (1 - u)); [|replace (r * (IZR b * IZR h)) with (r * IZR h * IZR b) by ring; replace (IZR b * IZR w * (1 - u)) with (IZR w * (1 - u) * IZR b) by ring; apply Rmult_le_compat_r; lra].
  apply Rlt_le_trans with ((IZR a * IZR h + 1) * (1 - u)); [|apply Rmult_le_compat_r; lra]. clear - P. rewrite u_val. lra.
Qed.
Lemma upper_exact w h a b l : side24 w -> side24 h -> (0 <= a <= 2 ^ 24)%Z -> (0 <= b <= 2 ^ 24)%Z -> (l <= 0)%Z -> (Z.max 1 a * h <> Z.max 1 b * w)%Z ->
  let '(rw, rh) := scaleImageWithRatio w h a b l false in (a <= rw /\ b <= rh)%Z.
Proof.
  intros Hw Hh Ha Hb Hl Hne. pose proof (upper_near w h a b l (side24_side _ Hw) (side24_side _ Hh) ltac:(lia) ltac:(lia) Hl) as N.
  unfold scaleImageWithRatio in *. rewrite scaleTarget_wish in *. cbv zeta in *. replace (0 <? l)%Z with false in * by lia. cbn [andb] in *.
  assert (Ea : one a = Z.max 1 a) by (unfold one; destruct (a =? 0)%Z eqn:?; lia). assert (Eb : one b = Z.max 1 b) by (unfold one; destruct (b =? 0)%Z eqn:?; lia). rewrite Ea, Eb in *.
  assert (Sa : side24 (Z.max 1 a)) by (unfold side24; lia). assert (Sb : side24 (Z.max 1 b)) by (unfold side24; lia). set (a1 := Z.max 1 a) in *. set (b1 := Z.max 1 b) in *.
  assert (a <= a1 /\ b <= b1)%Z by lia. clearbody a1 b1. unfold wish in *. destruct (fgt _ _) eqn:E; cbn [Bool.eqb] in *; rewrite Resize_unfold in * by (apply side24_side; assumption).
  - set (t := to_int _) in *. unfold side24 in Sa, Sb. replace (b1 =? 0)%Z with false in * by lia. destruct (_ || _) eqn:E0; [lia|]. destruct (t =? 0)%Z; lia.
  - assert (L : (b1 * w < a1 * h)%Z). { destruct (Z_lt_ge_dec (b1 * w) (a1 * h)) as [|C]; [assumption|]. rewrite wider_exact in E; try assumption; [discriminate|lia]. }
    destruct (over_wh w h a1) as (T0 & _ & T2); try (apply side24_side; assumption). set (t := to_int _) in *. rewrite <- !mult_IZR, <- plus_IZR, <- mult_IZR in T2.
    assert (P1 : 1 <= IZR (a1 * h) <= 281474976710656) by (rewrite mult_IZR; apply prod24; assumption).
    assert (L2 : (b1 * w < (t + 1) * w)%Z). { apply lt_IZR. eapply Rle_lt_trans; [|exact T2]. assert (IZR (b1 * w) + 1 <= IZR (a1 * h)) by (rewrite <- plus_IZR; apply IZR_le; lia). clear - P1 H0. rewrite u_val. lra. }
    assert (0 < w)%Z by (destruct Hw; lia). assert (b1 <= t)%Z by nia. unfold side24 in Sa, Sb. replace ((a1 <? 0)%Z || (t <? 0)%Z) with false by lia. replace (a1 =? 0)%Z with false by lia. replace (t =? 0)%Z with false by lia. lia.
Qed.
(** ** The pixel limit *)
(** Sizes in proportion, up to one pixel. *)
Definition inprop (w h a b : Z) : Prop :=
  IZR a * IZR h <= (IZR b + 1) * IZR w * (1 + 8 * u) /\ IZR b * IZR w <= (IZR a + 1) * IZR h * (1 + 8 * u).
Lemma wish_inprop w h a b lower : side w -> side h -> side a -> side b ->
  let p := wish w h a b lower in (0 <= fst p)%Z /\ (0 <= snd p)%Z /\ inprop w h (fst p) (snd p).
Proof.
  intros Hw Hh Ha Hb. unfold wish. pose proof (side_R w Hw) as Rw. pose proof (side_R h Hh) as Rh. pose proof (side_R a Ha) as Ra. pose proof (side_R b Hb) as Rb.
  destruct (Bool.eqb _ _); cbn [fst snd]; unfold inprop.
  - destruct (over_wh w h a Hw Hh Ha) as (T0 & T1 & T2). set (t := to_int _) in *. split; [destruct Ha; lia|]. split; [exact T0|]. split.
    + apply Rmult_le_reg_r with (1 - 3 * u); [rewrite u_val; lra|]. apply Rle_trans with ((IZR t + 1) * IZR w * 1); [rewrite Rmult_1_r; lra|]. rewrite Rmult_assoc with (r3 := 1 - 3 * u).
      apply Rmult_le_compat_l; [|rewrite u_val; lra]. apply IZR_le in T0. apply Rmult_le_pos; lra.
    + apply Rle_trans with ((IZR a + 1) * IZR h * (1 + 3 * u)); [eapply Rle_trans; [exact T1|]; apply Rmult_le_compat_r; [rewrite u_val; lra|apply Rmult_le_compat_r; lra]|].
      apply Rmult_le_compat_l; [apply Rmult_le_pos; lra|rewrite u_val; lra].
  - destruct (times_wh w h b Hw Hh Hb) as (T0 & T1 & T2). set (t := to_int _) in *. split; [exact T0|]. split; [destruct Hb; lia|]. split.
    + apply Rle_trans with ((IZR b + 1) * IZR w * (1 + 3 * u)); [eapply Rle_trans; [exact T1|]; apply Rmult_le_compat_r; [rewrite u_val; lra|apply Rmult_le_compat_r; lra]|].
      apply Rmult_le_compat_l; [apply Rmult_le_pos; lra|rewrite u_val; lra].
    + apply Rmult_le_reg_r with (1 - 3 * u); [rewrite u_val; lra|]. apply Rle_trans with ((IZR t + 1) * IZR h * 1); [rewrite Rmult_1_r; lra|]. rewrite Rmult_assoc with (r3 := 1 - 3 * u).
      apply Rmult_le_compat_l; [|rewrite u_val; lra]. apply IZR_le in T0. apply Rmult_le_pos; lra.
Qed.
(** A side that imaging.Resize has to find: at most two pixels, and the other one is small. *)
Lemma found_small n a b l : side n -> side a -> side b -> (8 * b <= l * a)%Z -> (1 <= l)%Z -> IZR n * IZR a <= IZR b * (2 + / 8) -> (n * other n a b <= l)%Z.
Proof.
  intros Hn Ha Hb Hl L1 H. destruct (other_near n a b Hn Ha Hb) as (x & -> & F & _ & X2). pose proof (side_R b Hb) as Rb. pose proof (side_R a Ha) as Ra. pose proof (side_R n Hn) as Rn.
  assert (B : (Zfloor x <= 2)%Z). { apply Z.lt_succ_r, lt_IZR. apply Rle_lt_trans with x; [apply Zfloor_lb|]. change (IZR (Z.succ 2)) with 3. apply Rmult_lt_reg_r with (IZR b); [lra|]. eapply Rle_lt_trans; [exact X2|].
    clear - H Rb Rn Ra. assert (0 <= IZR n * IZR a) by nra. rewrite u_val. lra. }
  assert (N : (8 * n * a <= 17 * b)%Z). { apply le_IZR. rewrite !mult_IZR. lra. }
  unfold side in *. assert (n * 8 * 8 <= 17 * l)%Z by nia. nia.
Qed.
Lemma resize_pixels w h a b l : side w -> side h -> (0 <= a <= 2 ^ 31)%Z -> (0 <= b <= 2 ^ 31)%Z -> (1 <= l)%Z -> (8 * w <= l * h)%Z -> (8 * h <= l * w)%Z -> (a * b <= l)%Z ->
  ((b = 0)%Z -> IZR a * IZR h <= IZR w * (2 + / 8)) -> ((a = 0)%Z -> IZR b * IZR w <= IZR h * (2 + / 8)) ->
  (fst (Resize w h a b) * snd (Resize w h a b) <= l)%Z.
Proof.
  intros Hw Hh Ha Hb Hl L1 L2 P Ca Cb. rewrite Resize_unfold by assumption. replace ((a <? 0)%Z || (b <? 0)%Z) with false by lia.
  destruct (a =? 0)%Z eqn:E1, (b =? 0)%Z eqn:E2; cbn [fst snd]; try lia.
  - rewrite Z.mul_comm. apply found_small; try assumption; [unfold side; lia|apply Cb; lia].
  - apply found_small; try assumption; [unfold side; lia|apply Ca; lia].
Qed.
Lemma pixels_ok w h a b l lower : (1 <= w <= 2 ^ 16)%Z -> (1 <= h <= 2 ^ 16)%Z -> (0 <= a <= 2 ^ 14)%Z -> (0 <= b <= 2 ^ 14)%Z -> (1 <= l < 2 ^ 50)%Z -> (8 * w <= l * h)%Z -> (8 * h <= l * w)%Z ->
  let '(rw, rh) := scaleImageWithRatio w h a b l lower in (rw * rh <= l)%Z.
Proof.
  intros Bw Bh Ba Bb Hl L1 L2. assert (Hw : side w) by (unfold side; lia). assert (Hh : side h) by (unfold side; lia).
  unfold scaleImageWithRatio. rewrite scaleTarget_wish. cbv zeta.
  assert (Sa : (1 <= one a <= 2 ^ 14)%Z) by (unfold one; destruct (a =? 0)%Z eqn:?; lia). assert (Sb : (1 <= one b <= 2 ^ 14)%Z) by (unfold one; destruct (b =? 0)%Z eqn:?; lia).
  set (a1 := one a) in *. set (b1 := one b) in *. clearbody a1 b1. assert (Sa' : side a1) by (unfold side; lia). assert (Sb' : side b1) by (unfold side; lia).
  destruct (wish_inprop w h a1 b1 lower Hw Hh Sa' Sb') as (W0 & H0 & [I1 I2]). set (p := wish w h a1 b1 lower) in *.
  assert (Bd : (fst p <= 2 ^ 31 /\ snd p <= 2 ^ 31 /\ (1 <= fst p \/ 1 <= snd p))%Z).
  { unfold p, wish. destruct (Bool.eqb _ _); cbn [fst snd].
    - destruct (over_wh w h a1 Hw Hh Sa') as (T0 & T1 & _). set (t := to_int _) in *. split; [lia|]. split; [|lia]. apply le_IZR.
      pose proof (side_R w Hw) as Rw. assert (Rh : 1 <= IZR h <= 65536) by (split; apply IZR_le; lia). assert (Ra : 1 <= IZR a1 <= 16384) by (split; apply IZR_le; lia). apply IZR_le in T0.
      apply Rle_trans with (IZR t * IZR w); [clear - T0 Rw; nra|]. eapply Rle_trans; [exact T1|]. change (2 ^ 31)%Z with 2147483648%Z.
      apply Rle_trans with (16384 * 65536 * (1 + 3 * u)); [apply Rmult_le_compat_r; [rewrite u_val; lra|apply mul_ge; lra]|rewrite u_val; lra].
    - destruct (times_wh w h b1 Hw Hh Sb') as (T0 & T1 & _). set (t := to_int _) in *. split; [|lia]. apply le_IZR.
      pose proof (side_R h Hh) as Rh. assert (Rw : 1 <= IZR w <= 65536) by (split; apply IZR_le; lia). assert (Ra : 1 <= IZR b1 <= 16384) by (split; apply IZR_le; lia). apply IZR_le in T0.
      apply Rle_trans with (IZR t * IZR h); [clear - T0 Rh; nra|]. eapply Rle_trans; [exact T1|]. change (2 ^ 31)%Z with 2147483648%Z.
      apply Rle_trans with (16384 * 65536 * (1 + 3 * u)); [apply Rmult_le_compat_r; [rewrite u_val; lra|apply mul_ge; lra]|rewrite u_val; lra]. }
  destruct p as [x y]. cbn [fst snd] in *. pose proof (side_R w Hw) as Rw. pose proof (side_R h Hh) as Rh.
  assert (P : (0 <= x * y < 2 ^ 63)%Z) by nia. rewrite i64_small by lia. replace (0 <? l)%Z with true by lia. cbn [andb].
  assert (G : forall x y, (0 <= x <= 2 ^ 31)%Z -> (0 <= y <= 2 ^ 31)%Z -> (x * y <= l)%Z -> ((y = 0)%Z -> IZR x * IZR h <= IZR w * (2 + / 8)) -> ((x = 0)%Z -> IZR y * IZR w <= IZR h * (2 + / 8)) ->
    let '(rw, rh) := Resize w h x y in (rw * rh <= l)%Z).
  { intros x' y' Hx Hy Hxy C1 C2. pose proof (resize_pixels w h x' y' l Hw Hh Hx Hy ltac:(lia) L1 L2 Hxy C1 C2) as R. destruct (Resize w h x' y'). exact R. }
  destruct (l <? x * y)%Z eqn:E.
  - assert (Px : (1 <= x /\ 1 <= y)%Z) by nia. pose proof (limit_ok x y l ltac:(lia) ltac:(lia) ltac:(lia) Hl) as L. destruct (scaleDownToLimit x y l) as [x2 y2]. destruct L as (B1 & B2 & B3 & B4 & B5).
    assert (Rx : 1 <= IZR x) by (apply IZR_le; lia). assert (Ry : 1 <= IZR y) by (apply IZR_le; lia).
    apply G; [lia|lia|exact B3| |].
    + intros ->. change (IZR 0) with 0 in B4. apply Rmult_le_reg_r with (IZR y); [lra|].
      apply Rle_trans with (IZR x * (1 + 4 * u) * IZR h). { replace (IZR x2 * IZR h * IZR y) with (IZR x2 * IZR y * IZR h) by ring. apply Rmult_le_compat_r; lra. }
      replace (IZR x * (1 + 4 * u) * IZR h) with (IZR x * IZR h * (1 + 4 * u)) by ring.
      apply Rle_trans with (2 * IZR y * IZR w * (1 + 8 * u) * (1 + 4 * u)).
      * apply Rmult_le_compat_r; [rewrite u_val; lra|]. eapply Rle_trans; [exact I1|]. apply Rmult_le_compat_r; [rewrite u_val; lra|]. apply Rmult_le_compat_r; lra.
      * replace (2 * IZR y * IZR w * (1 + 8 * u) * (1 + 4 * u)) with (IZR w * IZR y * (2 * (1 + 8 * u) * (1 + 4 * u))) by ring. replace (IZR w * (2 + / 8) * IZR y) with (IZR w * IZR y * (2 + / 8)) by ring.
        apply Rmult_le_compat_l; [apply Rmult_le_pos; lra|rewrite u_val; lra].
    + intros ->. change (IZR 0) with 0 in B5. apply Rmult_le_reg_r with (IZR x); [lra|].
      apply Rle_trans with (IZR y * (1 + 4 * u) * IZR w). { replace (IZR y2 * IZR w * IZR x) with (IZR y2 * IZR x * IZR w) by ring. apply Rmult_le_compat_r; lra. }
      replace (IZR y * (1 + 4 * u) * IZR w) with (IZR y * IZR w * (1 + 4 * u)) by ring.
      apply Rle_trans with (2 * IZR x * IZR h * (1 + 8 * u) * (1 + 4 * u)).
      * apply Rmult_le_compat_r; [rewrite u_val; lra|]. eapply Rle_trans; [exact I2|]. apply Rmult_le_compat_r; [rewrite u_val; lra|]. apply Rmult_le_compat_r; lra.
      * replace (2 * IZR x * IZR h * (1 + 8 * u) * (1 + 4 * u)) with (IZR h * IZR x * (2 * (1 + 8 * u) * (1 + 4 * u))) by ring. replace (IZR h * (2 + / 8) * IZR x) with (IZR h * IZR x * (2 + / 8)) by ring.
        apply Rmult_le_compat_l; [apply Rmult_le_pos; lra|rewrite u_val; lra].
  - apply G; [lia|lia|lia| |].
    + intros ->. change (IZR 0) with 0 in I1. eapply Rle_trans; [exact I1|]. clear - Rw. rewrite u_val. lra.
    + intros ->. change (IZR 0) with 0 in I2. eapply Rle_trans; [exact I2|]. clear - Rh. rewrite u_val. lra.
Qed.
(** ** resizeGIF *)
(** The side of the box: the target, the canvas if that is smaller or if there is no target. *)
Definition goal (canvas target : Z) : Z := if (0 <? target)%Z then Z.min target canvas else canvas.
(** The factor. *)
Definition gif_scale (cw ch tw th : Z) : f64 :=
  if (0 <? tw)%Z || (0 <? th)%Z then
    let sx := if (0 <? tw)%Z then fdiv (of_int tw) (of_int cw) else finf in
    let sy := if (0 <? th)%Z then fdiv (of_int th) (of_int ch) else finf in
    let s := fmin sx sy in if fgt s (of_int 1) then of_int 1 else s
  else of_int 1.
Lemma gif_scale_spec cw ch tw th : side cw -> side ch -> (tw <= 2 ^ 53)%Z -> (th <= 2 ^ 53)%Z ->
  exists s, val (gif_scale cw ch tw th) s /\ / 4294967296 <= s <= 1 /\ s * IZR cw <= IZR (goal cw tw) * (1 + u) /\ s * IZR ch <= IZR (goal ch th) * (1 + u) /\
    (IZR (goal cw tw) * (1 - u) <= s * IZR cw \/ IZR (goal ch th) * (1 - u) <= s * IZR ch).
Proof.
  intros Hw Hh Ht1 Ht2. pose proof (side_R cw Hw) as Rw. pose proof (side_R ch Hh) as Rh. pose proof u_small as Hu.
  assert (Q : forall c t, side c -> (0 < t <= 2 ^ 53)%Z -> exists q, val (fdiv (of_int t) (of_int c)) q /\ / 4294967296 <= q /\ IZR t * (1 - u) <= q * IZR c <= IZR t * (1 + u)).
  { intros c t Hc Ht. destruct (quot_val t c) as [V [N1 N2]]; [lia|destruct Hc; lia|]. exists (R64 (IZR t / IZR c)). split; [exact V|]. pose proof (side_R c Hc) as Rc. assert (Rt : 1 <= IZR t) by (apply IZR_le; lia).
    assert (E : IZR t / IZR c * IZR c = IZR t) by (field; lra).
    assert (D : / 2147483648 <= IZR t / IZR c) by (apply Rmult_le_reg_r with (IZR c); [lra|]; rewrite E; clear - Rc Rt; nra). set (z := IZR t / IZR c) in *. split.
    - eapply Rle_trans; [|exact N1]. clear - D. rewrite u_val. lra.
    - rewrite <- E. replace (z * IZR c * (1 + u)) with (z * (1 + u) * IZR c) by ring. replace (z * IZR c * (1 - u)) with (z * (1 - u) * IZR c) by ring. split; apply Rmult_le_compat_r; lra. }
  assert (Gle : forall c t, (0 < t)%Z -> IZR (goal c t) <= IZR t) by (intros c t Ht; apply IZR_le; unfold goal; destruct (0 <? t)%Z eqn:?; lia).
  assert (Gle' : forall c t, IZR (goal c t) <= IZR c) by (intros c t; apply IZR_le; unfold goal; destruct (0 <? t)%Z eqn:?; lia).
  pose proof (val_int 1 ltac:(cbn; lia)) as V1.
  assert (G1 : forall c t q, side c -> q <= 1 -> ((0 < t)%Z -> q * IZR c <= IZR t * (1 + u)) -> q * IZR c <= IZR (goal c t) * (1 + u)).
  { intros c t q Hc Hq Ht. pose proof (side_R c Hc) as Rc. assert (K : q * IZR c <= IZR c * (1 + u)) by (apply Rle_trans with (1 * IZR c); [apply Rmult_le_compat_r; lra|clear - Rc Hu; nra]).
    unfold goal. destruct (0 <? t)%Z eqn:E; [|exact K]. destruct (Z.min_spec t c) as [[_ ->]|[_ ->]]; [apply Ht; lia|exact K]. }
  (* capping *)
  assert (Cap : forall f x, val f x -> / 4294967296 <= x -> ((0 < tw)%Z -> x * IZR cw <= IZR tw * (1 + u)) -> ((0 < th)%Z -> x * IZR ch <= IZR th * (1 + u)) ->
    ((0 < tw)%Z /\ IZR tw * (1 - u) <= x * IZR cw) \/ ((0 < th)%Z /\ IZR th * (1 - u) <= x * IZR ch) ->
    exists s, val (if fgt f (of_int 1) then of_int 1 else f) s /\ / 4294967296 <= s <= 1 /\ s * IZR cw <= IZR (goal cw tw) * (1 + u) /\ s * IZR ch <= IZR (goal ch th) * (1 + u) /\
      (IZR (goal cw tw) * (1 - u) <= s * IZR cw \/ IZR (goal ch th) * (1 - u) <= s * IZR ch)).
  { intros f x V Hx C1 C2 C3. rewrite (val_gt f (of_int 1) x 1 V V1). destruct (Rlt_bool_spec 1 x) as [L|L].
    - exists 1. split; [exact V1|]. split; [lra|]. split; [|split; [|left; rewrite Rmult_1_l; specialize (Gle' cw tw); clear - Gle' Rw Hu; nra]]; apply G1; try assumption; try lra; intros T.
      + eapply Rle_trans; [|exact (C1 T)]. apply Rmult_le_compat_r; lra.
      + eapply Rle_trans; [|exact (C2 T)]. apply Rmult_le_compat_r; lra.
    - exists x. split; [exact V|]. split; [lra|]. split; [apply G1; assumption|]. split; [apply G1; assumption|].
      destruct C3 as [[T C3]|[T C3]]; [left|right]; (eapply Rle_trans; [|exact C3]); apply Rmult_le_compat_r; try lra; apply Gle; exact T. }
  unfold gif_scale. destruct (0 <? tw)%Z eqn:E1, (0 <? th)%Z eqn:E2; cbn [orb]; cbv zeta.
  - destruct (Q cw tw Hw ltac:(lia)) as (x & Vx & Lx & Ax & Bx). destruct (Q ch th Hh ltac:(lia)) as (y & Vy & Ly & Ay & By).
    assert (Vm : val (fmin (fdiv (of_int tw) (of_int cw)) (fdiv (of_int th) (of_int ch))) (Rmin x y)).
    { unfold fmin. rewrite (val_gt _ _ x y Vx Vy). destruct (Rlt_bool_spec y x) as [L|L]; [rewrite Rmin_right by lra; exact Vy|rewrite Rmin_left by lra; exact Vx]. }
    apply (Cap _ _ Vm); [apply Rmin_glb; assumption| | |destruct (Rle_or_lt x y) as [L|L]; [left; rewrite Rmin_left by lra|right; rewrite Rmin_right by lra]; (split; [lia|assumption])]; intros _.
    + eapply Rle_trans; [|exact Bx]. apply Rmult_le_compat_r; [lra|apply Rmin_l].
    + eapply Rle_trans; [|exact By]. apply Rmult_le_compat_r; [lra|apply Rmin_r].
  - destruct (Q cw tw Hw ltac:(lia)) as (x & Vx & Lx & Ax & Bx). set (f := fdiv (of_int tw) (of_int cw)) in *.
    assert (Em : fmin f finf = f) by (unfold fmin, fgt, finf; destruct f; try reflexivity; destruct Vx as [Vx _]; discriminate Vx). rewrite Em.
    apply (Cap _ _ Vx Lx); [intros _; exact Bx|intros T; lia|left; split; [lia|exact Ax]].
  - destruct (Q ch th Hh ltac:(lia)) as (x & Vx & Lx & Ax & Bx). set (f := fdiv (of_int th) (of_int ch)) in *.
    assert (Em : fmin finf f = f) by (unfold fmin, fgt, finf; destruct f as [| | |[] ? ? ?]; try reflexivity; destruct Vx as [Vx _]; discriminate Vx). rewrite Em.
    apply (Cap _ _ Vx Lx); [intros T; lia|intros _; exact Bx|right; split; [lia|exact Ax]].
  - exists 1. split; [exact V1|]. split; [lra|]. split; [|split; [|left; rewrite Rmult_1_l; specialize (Gle' cw tw); clear - Gle' Rw Hu; nra]]; apply G1; try assumption; try lra; intros T; lia.
Qed.
Lemma gifSize_scale cw ch tw th : gifSize cw ch tw th = (to_int (fmul (of_int cw) (gif_scale cw ch tw th)), to_int (fmul (of_int ch) (gif_scale cw ch tw th))).
Proof. reflexivity. Qed.
Lemma gif_fits cw ch tw th : side cw -> side ch -> (tw <= 2 ^ 53)%Z -> (th <= 2 ^ 53)%Z ->
  let '(nw, nh) := gifSize cw ch tw th in
  (0 <= nw)%Z /\ (0 <= nh)%Z /\ fitsR cw ch (goal cw tw) (goal ch th) nw nh /\ (goal cw tw - 1 <= nw \/ goal ch th - 1 <= nh)%Z.
Proof.
  intros Hw Hh Ht1 Ht2. rewrite gifSize_scale. destruct (gif_scale_spec cw ch tw th Hw Hh Ht1 Ht2) as (s & V & Hs & B1 & B2 & B3). set (f := gif_scale cw ch tw th) in *. pose proof u_small as Hu.
  assert (K : forall c g, side c -> side g -> s * IZR c <= IZR g * (1 + u) -> (0 <= to_int (fmul (of_int c) f))%Z /\ IZR (to_int (fmul (of_int c) f)) <= IZR c * s * (1 + u) /\ (to_int (fmul (of_int c) f) <= g)%Z /\
    (IZR g * (1 - u) <= s * IZR c -> (g - 1 <= to_int (fmul (of_int c) f))%Z)).
  { intros c g Hc Hg B. pose proof (side_R c Hc) as Rc. pose proof (side_R g Hg) as Rg. assert (P : / 4294967296 <= IZR c * s <= 2147483648) by (split; [apply Rle_trans with (1 * / 4294967296); [lra|apply mul_ge; lra]|apply Rle_trans with (2147483648 * 1); [apply mul_ge; lra|lra]]).
    assert (Vm : val (fmul (of_int c) f) (R64 (IZR c * s))) by (apply val_mul; [apply val_int; destruct Hc; lia|exact V|apply huge; rewrite Rabs_pos_eq; lra]).
    destruct (near_R64 (IZR c * s)) as [N1 N2]; [lra|].
    destruct (floor_to_int _ _ Vm) as (F0 & F1 & F2); [split; [apply R64_nonneg; lra|eapply Rle_trans; [exact N2|]; clear - P; rewrite u_val; lra]|]. split; [exact F0|]. split; [lra|].
    split; [|intros D; assert (g < to_int (fmul (of_int c) f) + 2)%Z; [|lia]; apply lt_IZR; rewrite plus_IZR; apply Rlt_trans with (R64 (IZR c * s) + 1); [|lra]; apply Rlt_le_trans with (IZR c * s * (1 - u) + 1); [|lra];
      assert (D2 : IZR g * (1 - u) * (1 - u) <= IZR c * s * (1 - u)) by (apply Rmult_le_compat_r; lra); clear - D2 Rg; rewrite u_val in *; lra].
    apply (to_int_le _ _ _ Vm); [|destruct Hg; lia]. rewrite plus_IZR. eapply Rle_lt_trans; [exact N2|]. apply Rle_lt_trans with (IZR g * (1 + u) * (1 + u)); [apply Rmult_le_compat_r; lra|]. clear - Rg. rewrite u_val. lra. }
  assert (Gs : forall c t, side c -> side (goal c t)) by (intros c t Hc; unfold side, goal in *; destruct (0 <? t)%Z eqn:?; lia).
  destruct (K cw (goal cw tw) Hw (Gs _ _ Hw) B1) as (W0 & W1 & W2 & W3). destruct (K ch (goal ch th) Hh (Gs _ _ Hh) B2) as (H0 & H1 & H2 & H3).
  pose proof (side_R cw Hw) as Rw. pose proof (side_R ch Hh) as Rh. pose proof (side_R _ (Gs cw tw Hw)) as Gw. pose proof (side_R _ (Gs ch th Hh)) as Gh.
  split; [exact W0|]. split; [exact H0|]. split; [|destruct B3 as [B3|B3]; [left; apply W3, B3|right; apply H3, B3]]. split; [exact W2|]. split; [exact H2|]. split.
  - apply Rle_trans with (IZR cw * s * (1 + u) * IZR ch); [apply Rmult_le_compat_r; lra|]. replace (IZR cw * s * (1 + u) * IZR ch) with (s * IZR ch * (1 + u) * IZR cw) by ring. apply Rmult_le_compat_r; [lra|].
    apply Rle_trans with (IZR (goal ch th) * (1 + u) * (1 + u)); [apply Rmult_le_compat_r; lra|]. clear - Gh. rewrite u_val. lra.
  - apply Rle_trans with (IZR ch * s * (1 + u) * IZR cw); [apply Rmult_le_compat_r; lra|]. replace (IZR ch * s * (1 + u) * IZR cw) with (s * IZR cw * (1 + u) * IZR ch) by ring. apply Rmult_le_compat_r; [lra|].
    apply Rle_trans with (IZR (goal cw tw) * (1 + u) * (1 + u)); [apply Rmult_le_compat_r; lra|]. clear - Gw. rewrite u_val. lra.
Qed.
Lemma limit_proportion a b l : (1 <= a <= 2 ^ 31)%Z -> (1 <= b <= 2 ^ 31)%Z -> (a * b < 2 ^ 49)%Z -> (1 <= l < 2 ^ 49)%Z ->
  let '(a', b') := scaleDownToLimit a b l in (a' * b <= (b' + 1) * a /\ b' * a <= (a' + 1) * b)%Z.
Proof.
  intros Ha Hb Hab Hl. pose proof (limit_ok a b l ltac:(lia) ltac:(lia) ltac:(lia) ltac:(lia)) as L. destruct (scaleDownToLimit a b l) as [a' b']. destruct L as (L1 & L2 & _ & L4 & L5).
  rewrite <- (plus_IZR b' 1), <- !mult_IZR in L4. rewrite <- (plus_IZR a' 1), <- !mult_IZR in L5.
  assert (B1 : 0 <= IZR ((b' + 1) * a) <= 1125899906842624) by (split; apply IZR_le; nia). assert (B2 : 0 <= IZR ((a' + 1) * b) <= 1125899906842624) by (split; apply IZR_le; nia).
  split; apply Z.lt_succ_r, lt_IZR; unfold Z.succ; rewrite plus_IZR.
  - eapply Rle_lt_trans; [exact L4|]. clear - B1. rewrite u_val. lra.
  - eapply Rle_lt_trans; [exact L5|]. clear - B2. rewrite u_val. lra.
Qed.
