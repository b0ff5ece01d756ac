(** Resizing to the same size and thumbnails that only cut. *)
From Coq Require Import ZArith List Bool Lia ZifyBool Reals Lra.
From Flocq Require Import Core BinarySingleNaN.
From Verif Require Import GoInt GoFloat Image_Model Image_Spec Image_Proofs Pixel_Model Pixel_Spec Pixel_Proofs Resample_Model Resample_Spec Resample_Err Resample_Weights Resample_Place Resample_Classes Resample_Kernels Resample_Proofs Resample_Steps.
Import ListNotations.
Local Open Scope Z_scope.

(** ** Exact quotients *)
Lemma share_exact a b : 1 <= a <= 2 ^ 20 -> 1 <= b <= 2 ^ 20 -> val (fdiv (fmul (of_int b) (of_int a)) (of_int b)) (IZR a).
Proof.
  intros Ha Hb. change (2 ^ 20) with 1048576 in *. assert (1 <= b * a <= 1099511627776) as Hab by nia.
  assert (1 <= IZR b <= 1048576)%R as HbR by (split; apply IZR_le; lia). assert (1 <= IZR a <= 1048576)%R as HaR by (split; apply IZR_le; lia). assert (1 <= IZR (b * a) <= 1099511627776)%R as HpR by (split; apply IZR_le; lia).
  assert (val (fmul (of_int b) (of_int a)) (IZR (b * a))) as V.
  { rewrite <- (R64_int (b * a)) by (change (2 ^ 53) with 9007199254740992; lia). rewrite mult_IZR. apply val_mul; [apply val_i; change (2 ^ 20) with 1048576; lia|apply val_i; change (2 ^ 20) with 1048576; lia|]. rewrite <- mult_IZR. apply huge. apply Rabs_le. lra. }
  replace (IZR a) with (R64 (IZR (b * a) / IZR b)).
  - apply val_div; [exact V|apply val_i; change (2 ^ 20) with 1048576; lia|lra|]. replace (IZR (b * a) / IZR b)%R with (IZR a) by (rewrite mult_IZR; field; lra). apply huge. apply Rabs_le. lra.
  - replace (IZR (b * a) / IZR b)%R with (IZR a) by (rewrite mult_IZR; field; lra). apply R64_int. change (2 ^ 53) with 9007199254740992. lia.
Qed.
Lemma plus_half z : 0 <= z <= 2 ^ 20 -> val (fadd (of_int z) fhalf) (IZR z + / 2)%R.
Proof.
  intros Hz. replace (IZR z + / 2)%R with (R64 (IZR z + / 2)).
  - apply val_add; [apply val_i; exact Hz|exact val_half|]. apply huge. change (2 ^ 20) with 1048576 in Hz. assert (0 <= IZR z <= 1048576)%R by (split; apply IZR_le; lia). apply Rabs_le. lra.
  - apply round_generic; [apply valid_rnd_round_mode|]. replace (IZR z + / 2)%R with (F2R (Float radix2 (2 * z + 1) (-1))) by (unfold F2R; cbn [Fnum Fexp bpow]; rewrite plus_IZR, mult_IZR; change (Z.pow_pos radix2 1) with 2; field).
    apply generic_format_F2R. cbn [Fnum Fexp]. intros _. change (2 ^ 20) with 1048576 in Hz. unfold cexp, SpecFloat.fexp, SpecFloat.emin. apply Z.max_lub; [|lia].
    assert (mag radix2 (F2R (Float radix2 (2 * z + 1) (-1))) <= 21)%Z; [|lia]. apply mag_le_bpow; [apply F2R_neq_0; cbn [Fnum]; lia|]. unfold F2R. cbn [Fnum Fexp]. rewrite Rabs_pos_eq.
    + change (bpow radix2 21) with (IZR 2097152). change (bpow radix2 (-1)) with (/ 2)%R. assert (IZR (2 * z + 1) < IZR 2097154)%R by (apply IZR_lt; lia). lra.
    + apply Rmult_le_pos; [apply IZR_le; lia|apply bpow_ge_0].
Qed.
Lemma floor_half z : 0 <= z <= 2 ^ 20 -> Zfloor (IZR z + / 2) = z.
Proof. intros _. apply Zfloor_imp. rewrite plus_IZR. lra. Qed.
Lemma int_half z : 0 <= z <= 2 ^ 20 -> to_int (fadd (of_int z) fhalf) = z.
Proof.
  intros Hz. rewrite (to_int_val _ _ (plus_half z Hz)); [apply floor_half; exact Hz| |]; change (2 ^ 20) with 1048576 in Hz; assert (0 <= IZR z <= 1048576)%R by (split; apply IZR_le; lia); [lra|].
  change (bpow radix2 63) with (IZR 9223372036854775808). lra.
Qed.
(** The side that keeps the proportion when the other one stays. *)
Lemma same_side a b : 1 <= a <= 2 ^ 20 -> 1 <= b <= 2 ^ 20 -> to_int (fmax (of_int 1) (ffloor (fadd (fdiv (fmul (of_int b) (of_int a)) (of_int b)) fhalf))) = a.
Proof.
  intros Ha Hb. pose proof (share_exact a b Ha Hb) as V. assert (1 <= IZR a <= 1048576)%R as HaR by (change (2 ^ 20) with 1048576 in *; split; apply IZR_le; lia).
  assert (val (fadd (fdiv (fmul (of_int b) (of_int a)) (of_int b)) fhalf) (IZR a + / 2)%R) as V2.
  { pose proof (plus_half a ltac:(change (2 ^ 20) with 1048576 in *; lia)) as [_ E]. pose proof (val_add _ _ _ _ (val_i a ltac:(change (2 ^ 20) with 1048576 in *; lia)) val_half) as E1. pose proof (val_add _ _ _ _ V val_half) as E2.
    assert (Rabs (IZR a + / 2) <= 1048577)%R as B by (apply Rabs_le; lra). specialize (E1 ltac:(apply huge; lra)). specialize (E2 ltac:(apply huge; lra)). destruct E1 as [_ E1]. rewrite E in E1. rewrite <- E1 in E2. exact E2. }
  pose proof (val_max _ _ _ _ v1 (val_floor _ _ V2)) as V3. rewrite floor_half in V3 by (change (2 ^ 20) with 1048576 in *; lia). rewrite Rmax_right in V3 by lra. apply (to_int_IZR _ _ V3). change (2 ^ 63) with 9223372036854775808. change (2 ^ 20) with 1048576 in *. lia.
Qed.
Lemma crop_same_side a b : 1 <= a <= 2 ^ 20 -> 1 <= b <= 2 ^ 20 -> to_int (fadd (fmax (of_int 1) (fdiv (fmul (of_int b) (of_int a)) (of_int b))) fhalf) = a.
Proof.
  intros Ha Hb. pose proof (val_max _ _ _ _ v1 (share_exact a b Ha Hb)) as V. assert (1 <= IZR a <= 1048576)%R as HaR by (change (2 ^ 20) with 1048576 in *; split; apply IZR_le; lia). rewrite Rmax_right in V by lra.
  pose proof (plus_half a ltac:(change (2 ^ 20) with 1048576 in *; lia)) as [_ E]. pose proof (val_add _ _ _ _ (val_i a ltac:(change (2 ^ 20) with 1048576 in *; lia)) val_half) as E1. pose proof (val_add _ _ _ _ V val_half) as E2.
  assert (Rabs (IZR a + / 2) <= 1048577)%R as B by (apply Rabs_le; lra). specialize (E1 ltac:(apply huge; lra)). specialize (E2 ltac:(apply huge; lra)). destruct E1 as [_ E1]. rewrite E in E1. rewrite <- E1 in E2.
  rewrite (to_int_val _ _ E2); [apply floor_half; change (2 ^ 20) with 1048576 in *; lia|lra|]. change (bpow radix2 63) with (IZR 9223372036854775808). lra.
Qed.

(** ** The same size *)
Lemma nearest_same n v : 1 <= n <= 2 ^ 20 -> 0 <= v < n -> to_int (fmul (fadd (of_int v) fhalf) (fdiv (of_int n) (of_int n))) = v.
Proof.
  intros Hn Hv. change (2 ^ 20) with 1048576 in *. pose proof (plus_half v ltac:(change (2 ^ 20) with 1048576; lia)) as Vp. assert (1 <= IZR n <= 1048576)%R as HnR by (split; apply IZR_le; lia). assert (0 <= IZR v <= 1048576)%R as HvR by (split; apply IZR_le; lia).
  assert (val (fdiv (of_int n) (of_int n)) 1%R) as Vd.
  { replace 1%R with (R64 (IZR n / IZR n)).
    - apply val_div; [apply val_i; change (2 ^ 20) with 1048576; lia|apply val_i; change (2 ^ 20) with 1048576; lia|lra|]. replace (IZR n / IZR n)%R with 1%R by (field; lra). apply huge. apply Rabs_le. lra.
    - replace (IZR n / IZR n)%R with 1%R by (field; lra). apply (R64_int 1). change (2 ^ 53) with 9007199254740992. lia. }
  assert (val (fmul (fadd (of_int v) fhalf) (fdiv (of_int n) (of_int n))) (IZR v + / 2)%R) as V.
  { replace (IZR v + / 2)%R with (R64 ((IZR v + / 2) * 1)).
    - apply val_mul; [exact Vp|exact Vd|]. apply huge. apply Rabs_le. lra.
    - rewrite Rmult_1_r. destruct Vp as [_ E]. rewrite <- E. apply round_generic; [apply valid_rnd_round_mode|]. apply generic_format_B2R. }
  rewrite (to_int_val _ _ V); [apply floor_half; change (2 ^ 20) with 1048576; lia|lra|]. change (bpow radix2 63) with (IZR 9223372036854775808). lra.
Qed.
Lemma resize_same f i : sides (shows i) -> at_origin (resizeTo f i (pw (shows i)) (ph (shows i))) /\ alike (shows (resizeTo f i (pw (shows i)) (ph (shows i)))) (shows i).
Proof.
  intros Hs. split; [apply resizeTo_origin; [exact Hs|apply Hs|apply Hs]|]. unfold resizeTo. cbn zeta. rewrite Dx_proper, Dy_proper by (apply sides_proper; exact Hs). rewrite !Z.eqb_refl. cbn [negb andb]. destruct Hs as [S1 S2].
  assert (forall g, (forall x y, 0 <= x < pw (shows i) -> 0 <= y < ph (shows i) -> g x y = scan i x y) -> alike (shows (fresh (pw (shows i)) (ph (shows i)) g)) (shows i)) as K.
  { intros g Hg. unfold fresh, Rect. set (W := pw (shows i)) in *. set (H := ph (shows i)) in *. replace (W <? 0) with false by lia. replace (H <? 0) with false by lia. unfold alike. cbn [shows pw ph at_ bounds px minX minY maxX maxY]. rewrite !Z.sub_0_r. split; [reflexivity|]. split; [reflexivity|].
    intros x y Hx Hy. rewrite !Z.add_0_l. rewrite Hg by assumption. reflexivity. }
  destruct (fle _ _).
  - unfold resizeNearest. cbn zeta. rewrite Dx_proper, Dy_proper by (apply sides_proper; split; assumption). apply K. intros x y Hx Hy. rewrite !nearest_same by assumption. reflexivity.
  - unfold Clone. rewrite Dx_proper, Dy_proper by (apply sides_proper; split; assumption). apply K. intros x y Hx Hy. reflexivity.
Qed.

(** ** The middle *)
Lemma crop_middle i w h : sides (shows i) -> 1 <= w <= pw (shows i) -> 1 <= h <= ph (shows i) -> alike (shows (CropCenter i w h)) (middle (shows i) w h).
Proof.
  intros Hs Hw Hh. unfold CropCenter, Crop. cbn zeta. rewrite Dx_proper, Dy_proper by (apply sides_proper; exact Hs). destruct Hs as [S1 S2]. unfold middle. cbn [shows pw ph at_] in *. set (b := bounds i) in *.
  set (W := maxX b - minX b) in *. set (H := maxY b - minY b) in *. rewrite !Z.quot_div_nonneg by lia. set (dx := (W - w) / 2). set (dy := (H - h) / 2).
  assert (0 <= dx /\ 2 * dx <= W - w) as Qx by (unfold dx; split; [apply Z.div_pos; lia|apply Z.mul_div_le; lia]). assert (0 <= dy /\ 2 * dy <= H - h) as Qy by (unfold dy; split; [apply Z.div_pos; lia|apply Z.mul_div_le; lia]). clearbody dx dy.
  assert (maxX b = minX b + W /\ maxY b = minY b + H) as [EX EY] by (unfold W, H; lia).
  assert (Intersect b (MkRect (minX b + dx) (minY b + dy) (minX b + dx + w) (minY b + dy + h)) = MkRect (minX b + dx) (minY b + dy) (minX b + dx + w) (minY b + dy + h)) as ->.
  { unfold Intersect. cbn [minX minY maxX maxY]. set (xa := if minX b <? _ then _ else minX b). set (ya := if minY b <? _ then _ else minY b). set (xb := if _ <? maxX b then _ else maxX b). set (yb := if _ <? maxY b then _ else maxY b).
    assert (xa = minX b + dx) as -> by (unfold xa; destruct (minX b <? minX b + dx) eqn:C; lia). assert (ya = minY b + dy) as -> by (unfold ya; destruct (minY b <? minY b + dy) eqn:C; lia).
    assert (xb = minX b + dx + w) as -> by (unfold xb; destruct (minX b + dx + w <? maxX b) eqn:C; lia). assert (yb = minY b + dy + h) as -> by (unfold yb; destruct (minY b + dy + h <? maxY b) eqn:C; lia).
    match goal with |- context [Empty ?r] => assert (Empty r = false) as -> by (unfold Empty; cbn [minX minY maxX maxY]; lia) end. reflexivity. }
  assert (Intersect (MkRect (minX b + dx) (minY b + dy) (minX b + dx + w) (minY b + dy + h)) b = MkRect (minX b + dx) (minY b + dy) (minX b + dx + w) (minY b + dy + h)) as ->.
  { unfold Intersect. cbn [minX minY maxX maxY]. replace (minX b + dx <? minX b) with false by lia. replace (minY b + dy <? minY b) with false by lia. replace (maxX b <? minX b + dx + w) with false by lia. replace (maxY b <? minY b + dy + h) with false by lia.
    match goal with |- context [Empty ?r] => assert (Empty r = false) as -> by (unfold Empty; cbn [minX minY maxX maxY]; lia) end. reflexivity. }
  cbn [minX minY maxX maxY]. match goal with |- context [Empty ?r] => assert (Empty r = false) as -> by (unfold Empty; cbn [minX minY maxX maxY]; lia) end.
  unfold alike, shows. cbn [pw ph at_ bounds px minX minY maxX maxY]. split; [lia|]. split; [lia|]. intros x y Hx Hy. f_equal; ring.
Qed.
Lemma ratio_val a b : 1 <= a <= 2 ^ 20 -> 1 <= b <= 2 ^ 20 -> val (fdiv (of_int a) (of_int b)) (R64 (IZR a / IZR b)).
Proof.
  intros Ha Hb. change (2 ^ 20) with 1048576 in *. assert (1 <= IZR b)%R by (apply IZR_le; lia). assert (1 <= IZR a <= 1048576)%R by (split; apply IZR_le; lia). apply val_div; [apply val_i; change (2 ^ 20) with 1048576; lia|apply val_i; change (2 ^ 20) with 1048576; lia|lra|].
  apply huge. assert (0 < / IZR b <= 1)%R as I. { split; [apply Rinv_0_lt_compat; lra|]. rewrite <- Rinv_1. apply Rinv_le; lra. } apply Rabs_le. unfold Rdiv. nra.
Qed.
(** The comparison in Fill when one side stays. *)
Lemma narrower w h W : 1 <= w <= W -> W <= 2 ^ 20 -> 1 <= h <= 2 ^ 20 -> flt (fdiv (of_int W) (of_int h)) (fdiv (of_int w) (of_int h)) = false.
Proof.
  intros Hw HW Hh. rewrite (val_lt _ _ _ _ (ratio_val W h ltac:(lia) Hh) (ratio_val w h ltac:(lia) Hh)). apply Rlt_bool_false. apply R64_mono. apply Rmult_le_compat_r; [apply Rlt_le, Rinv_0_lt_compat, (IZR_lt 0); lia|apply IZR_le; lia].
Qed.
Lemma lower w h H : 1 <= h < H -> H <= 2 ^ 20 -> 1 <= w <= 2 ^ 20 -> flt (fdiv (of_int w) (of_int H)) (fdiv (of_int w) (of_int h)) = true.
Proof.
  intros Hh HH Hw. destruct (du_val w H Hw ltac:(lia)) as (x & Vx & Ex). destruct (du_val w h Hw ltac:(lia)) as (y & Vy & Ey). unfold duF in *. rewrite (val_lt _ _ _ _ Vx Vy). apply Rlt_bool_true.
  change (2 ^ 20) with 1048576 in *. assert (1 <= IZR w)%R as W1 by (apply IZR_le; lia). assert (1 <= IZR h <= IZR H - 1)%R as Hd by (rewrite <- minus_IZR; split; apply IZR_le; lia). assert (IZR H <= 1048576)%R as H1 by (apply IZR_le; lia).
  set (a := (IZR w / IZR H)%R) in *. set (b := (IZR w / IZR h)%R) in *. assert (a * IZR H = b * IZR h)%R as E by (unfold a, b; field; lra). assert (0 < a)%R as A0 by (apply Rdiv_lt_0_compat; lra). assert (0 < b)%R as B0 by (apply Rdiv_lt_0_compat; lra).
  assert (b * IZR h <= b * (IZR H - 1))%R as E2 by (apply Rmult_le_compat_l; lra). assert (b <= (b - a) * 1048576)%R as E3. { assert (b <= (b - a) * IZR H)%R by lra. assert (0 <= b - a)%R by nra. nra. }
  lra.
Qed.
Lemma alike_trans a b c : alike a b -> alike b c -> alike a c.
Proof. intros (A1 & A2 & A3) (B1 & B2 & B3). split; [lia|]. split; [lia|]. intros x y Hx Hy. rewrite A3 by assumption. apply B3; lia. Qed.
Lemma middle_alike a b w h : alike a b -> 1 <= w <= pw a -> 1 <= h <= ph a -> alike (middle a w h) (middle b w h).
Proof.
  intros (A1 & A2 & A3) Hw Hh. split; [reflexivity|]. split; [reflexivity|]. cbn [middle at_ pw ph]. intros x y Hx Hy. rewrite <- A1, <- A2. pose proof (Z.mul_div_le (pw a - w) 2 ltac:(lia)). pose proof (Z.div_pos (pw a - w) 2 ltac:(lia) ltac:(lia)). pose proof (Z.mul_div_le (ph a - h) 2 ltac:(lia)). pose proof (Z.div_pos (ph a - h) 2 ltac:(lia) ltac:(lia)). apply A3; lia.
Qed.
Lemma middle_all p : alike (middle p (pw p) (ph p)) p.
Proof. split; [reflexivity|]. split; [reflexivity|]. cbn [middle at_ pw ph]. intros x y Hx Hy. rewrite !Z.sub_diag. reflexivity. Qed.
Lemma ResizeBy_same f i w h : sides (shows i) -> (w = pw (shows i) /\ (h = ph (shows i) \/ h = 0) \/ w = 0 /\ h = ph (shows i)) -> ResizeBy f i w h = resizeTo f i (pw (shows i)) (ph (shows i)).
Proof.
  intros Hs H. unfold ResizeBy. rewrite Dx_proper, Dy_proper by (apply sides_proper; exact Hs). destruct Hs as [S1 S2]. unfold Resize. set (W := pw (shows i)) in *. set (L := ph (shows i)) in *. cbn zeta.
  replace ((w <? 0) || (h <? 0)) with false by lia. replace ((w =? 0) && (h =? 0)) with false by lia. replace ((W <=? 0) || (L <=? 0)) with false by lia.
  destruct (w =? 0) eqn:Ew; [|destruct (h =? 0) eqn:Eh].
  - replace h with L by lia. rewrite same_side by assumption. replace (L =? 0) with false by lia. reflexivity.
  - replace w with W by lia. rewrite same_side by assumption. reflexivity.
  - replace w with W by lia. replace h with L by lia. reflexivity.
Qed.
(** Filling a frame that is as wide or as high as the picture shows its middle. *)
Theorem fill_middle f i w h : sides (shows i) -> 1 <= w <= pw (shows i) -> 1 <= h <= ph (shows i) -> w = pw (shows i) \/ h = ph (shows i) -> alike (shows (FillBy f i w h)) (middle (shows i) w h).
Proof.
  intros Hs Hw Hh Hwh. unfold FillBy. cbn zeta. rewrite Dx_proper, Dy_proper by (apply sides_proper; exact Hs). pose proof Hs as [S1 S2]. replace ((w <=? 0) || (h <=? 0) || (pw (shows i) <=? 0) || (ph (shows i) <=? 0)) with false by lia.
  destruct ((pw (shows i) =? w) && (ph (shows i) =? h)) eqn:E.
  { assert (w = pw (shows i)) as -> by lia. assert (h = ph (shows i)) as -> by lia. apply (alike_trans _ (shows i)).
    - unfold Clone. rewrite Dx_proper, Dy_proper by (apply sides_proper; exact Hs). unfold fresh, Rect, alike, shows. cbn [pw ph at_ bounds px minX minY maxX maxY]. fold (pw (shows i)). fold (ph (shows i)). change (maxX (bounds i) - minX (bounds i)) with (pw (shows i)). change (maxY (bounds i) - minY (bounds i)) with (ph (shows i)).
      replace (pw (shows i) <? 0) with false by lia. replace (ph (shows i) <? 0) with false by lia. split; [lia|]. split; [lia|]. intros x y Hx Hy. rewrite !Z.add_0_l. reflexivity.
    - destruct (middle_all (shows i)) as (M1 & M2 & M3). split; [reflexivity|]. split; [reflexivity|]. intros x y Hx Hy. symmetry. apply M3; assumption. }
  assert (flt (fdiv (of_int (pw (shows i))) (of_int (ph (shows i)))) (fdiv (of_int w) (of_int h)) = negb (h =? ph (shows i))) as C.
  { destruct (h =? ph (shows i)) eqn:Eh; cbn [negb].
    - replace h with (ph (shows i)) by lia. apply narrower; [lia|apply S1|exact S2].
    - replace w with (pw (shows i)) by lia. apply lower; [lia|apply S2|exact S1]. }
  destruct ((100 <=? _) && (100 <=? _)).
  - unfold cropAndResize. cbn zeta. rewrite Dx_proper, Dy_proper by (apply sides_proper; exact Hs). rewrite C.
    assert ((if negb (h =? ph (shows i)) then CropCenter i (pw (shows i)) (to_int (fadd (fmax (of_int 1) (fdiv (fmul (of_int (pw (shows i))) (of_int h)) (of_int w))) fhalf))
             else CropCenter i (to_int (fadd (fmax (of_int 1) (fdiv (fmul (of_int (ph (shows i))) (of_int w)) (of_int h))) fhalf)) (ph (shows i))) = CropCenter i w h) as ->.
    { destruct (h =? ph (shows i)) eqn:Eh; cbn [negb]; [replace h with (ph (shows i)) by lia|replace w with (pw (shows i)) by lia]; rewrite crop_same_side; try reflexivity; lia. }
    pose proof (crop_middle i w h Hs Hw Hh) as CM. pose proof CM as (P1 & P2 & _). cbn [middle pw ph] in P1, P2. assert (sides (shows (CropCenter i w h))) as Hs2 by (unfold sides; lia). set (j := CropCenter i w h) in *. clearbody j.
    rewrite ResizeBy_same; [|exact Hs2|left; lia]. apply (alike_trans _ (shows j)); [apply resize_same; exact Hs2|exact CM].
  - unfold resizeAndCrop. cbn zeta. rewrite Dx_proper, Dy_proper by (apply sides_proper; exact Hs). rewrite C.
    assert ((if negb (h =? ph (shows i)) then ResizeBy f i w 0 else ResizeBy f i 0 h) = resizeTo f i (pw (shows i)) (ph (shows i))) as ->.
    { destruct (h =? ph (shows i)) eqn:Eh; cbn [negb]; apply ResizeBy_same; try exact Hs; lia. }
    destruct (resize_same f i Hs) as [_ A]. set (j := resizeTo f i (pw (shows i)) (ph (shows i))) in *. clearbody j. pose proof A as (A1 & A2 & _). assert (sides (shows j)) as Hs2 by (unfold sides; rewrite A1, A2; exact Hs).
    apply (alike_trans _ (middle (shows j) w h)); [apply crop_middle; [exact Hs2|lia|lia]|apply middle_alike; [exact A|lia|lia]].
Qed.
Lemma fresh_of j w h : 0 <= w -> 0 <= h -> at_origin j -> pw (shows j) = w -> ph (shows j) = h -> alike (shows (fresh w h (px j))) (shows j).
Proof.
  intros Hw Hh [O1 O2] P1 P2. unfold fresh, Rect. replace (w <? 0) with false by lia. replace (h <? 0) with false by lia. unfold alike. rewrite P1, P2. unfold shows. cbn [pw ph at_ bounds px minX minY maxX maxY]. rewrite O1, O2. split; [lia|]. split; [lia|]. reflexivity.
Qed.

(** ** Requests *)
Lemma scale_part M T n i w h : sides (shows i) -> w <= pw (shows i) -> h <= ph (shows i) -> side (pw (shows i)) -> side (ph (shows i)) ->
  let r := shows (ResizeImg (withImaging M T) n i w h) in pw r = pw (shows i) -> ph r = ph (shows i) -> alike r (shows i).
Proof.
  intros Hs Hw Hh Sw Sh. cbv zeta. unfold ResizeImg. rewrite Dx_proper, Dy_proper by (apply sides_proper; exact Hs). pose proof (Resize_small _ _ w h Sw Sh Hw Hh) as [R1 R2]. destruct (Resize (pw (shows i)) (ph (shows i)) w h) as [W H]. cbn [fst snd] in R1, R2. cbn [withImaging resampled].
  intros P1 P2. assert (W = pw (shows i) /\ H = ph (shows i)) as [-> ->]. { unfold fresh, Rect, shows in P1, P2. cbn [pw ph bounds minX minY maxX maxY] in P1, P2. replace (W <? 0) with false in * by lia. replace (H <? 0) with false in * by lia. cbn [shows pw ph]. lia. }
  destruct (resize_same (filterOf M n) i Hs) as [O A]. pose proof A as (A1 & A2 & _). apply (alike_trans _ (shows (resizeTo (filterOf M n) i (pw (shows i)) (ph (shows i))))); [apply fresh_of; [lia|lia|exact O|exact A1|exact A2]|exact A].
Qed.
Lemma fill_part M T n i w h : sides (shows i) -> let r := shows (FillImg (withImaging M T) n i w h) in
  1 <= pw r <= pw (shows i) -> 1 <= ph r <= ph (shows i) -> pw r = pw (shows i) \/ ph r = ph (shows i) -> alike r (middle (shows i) (pw r) (ph r)).
Proof.
  intros Hs. cbv zeta. unfold FillImg. rewrite Dx_proper, Dy_proper by (apply sides_proper; exact Hs). unfold Fill. cbn [withImaging filled]. destruct (_ || _) eqn:E; [cbn [shows pw fresh Rect bounds minX maxX]; lia|].
  assert (pw (shows (fresh w h (px (FillBy (filterOf M n) i w h)))) = w /\ ph (shows (fresh w h (px (FillBy (filterOf M n) i w h)))) = h) as [-> ->]. { unfold fresh, Rect. replace (w <? 0) with false by lia. replace (h <? 0) with false by lia. cbn [shows pw ph bounds minX minY maxX maxY]. lia. }
  intros Hw Hh Hwh. pose proof (fill_middle (filterOf M n) i w h Hs Hw Hh Hwh) as A. pose proof A as (A1 & A2 & _). cbn [middle pw ph] in A1, A2. pose proof Hs as [S1 S2].
  apply (alike_trans _ (shows (FillBy (filterOf M n) i w h))); [|exact A]. apply fresh_of; [lia|lia|apply FillBy_origin; [exact Hs|lia|lia]|exact A1|exact A2].
Qed.
Lemma million_sides i : million (shows i) -> sides (shows i) /\ side (pw (shows i)) /\ side (ph (shows i)).
Proof. intros [A B]. unfold sides, side. change (2 ^ 20) with 1048576. change (2 ^ 31) with 2147483648. lia. Qed.
Lemma thumbnail_middle M T filter i w h mode : let r := resized M T filter i w h mode in million (shows i) -> mode = 1 \/ mode = 5 ->
  1 <= pw r <= pw (shows i) -> 1 <= ph r <= ph (shows i) -> pw r = pw (shows i) \/ ph r = ph (shows i) -> alike r (middle (shows i) (pw r) (ph r)).
Proof.
  cbv zeta. unfold resized. rewrite p_resize. intros Hm Hmode. pose proof (million_sides i Hm) as (Hs & Sw & Sh). assert (forall j, alike j (shows i) -> alike j (middle (shows i) (pw j) (ph j))) as K.
  { intros j A. pose proof A as (A1 & A2 & A3). rewrite A1, A2. apply (alike_trans _ (shows i)); [exact A|]. destruct (middle_all (shows i)) as (M1 & M2 & M3). split; [reflexivity|]. split; [reflexivity|]. intros x y Hx Hy. symmetry. apply M3; assumption. }
  assert (alike (shows i) (shows i)) as Refl by (split; [reflexivity|]; split; reflexivity).
  unfold stepResize. destruct ((0 <? w) || (0 <? h)); [|intros _ _ _; apply K, Refl]. rewrite Dx_proper, Dy_proper by (apply sides_proper; exact Hs). unfold praseMode. destruct (newSide4mode (pw (shows i)) (ph (shows i)) w h) as [x y]. pose proof Hs as [S1 S2].
  destruct ((_ <? x) && (_ <? y)).
  { intros Hw Hh Hwh. apply K. pose proof (Resize_small (pw (shows i)) (ph (shows i)) (pw (shows i)) (ph (shows i)) Sw Sh ltac:(lia) ltac:(lia)) as R.
    apply scale_part; try assumption; try lia; unfold ResizeImg; rewrite Dx_proper, Dy_proper by (apply sides_proper; exact Hs); unfold Resize in *; cbn zeta in *; set (W := pw (shows i)) in *; set (L := ph (shows i)) in *;
      replace ((W <? 0) || (L <? 0)) with false by lia; replace ((W =? 0) && (L =? 0)) with false by lia; replace ((W <=? 0) || (L <=? 0)) with false by lia; replace (W =? 0) with false by lia; replace (L =? 0) with false by lia; unfold fresh, Rect; replace (W <? 0) with false by lia; replace (L <? 0) with false by lia; cbn [shows pw ph bounds minX minY maxX maxY]; lia. }
  destruct Hmode as [ -> | -> ]; destruct (getSideByThubnail _ _ _ _) as [nw nh]; apply fill_part; exact Hs.
Qed.
Lemma same_size_same M T filter i w h mode : let r := resized M T filter i w h mode in million (shows i) -> int64 w -> int64 h ->
  pw r = pw (shows i) -> ph r = ph (shows i) -> alike r (shows i).
Proof.
  cbv zeta. intros Hm Hw Hh P1 P2. pose proof (million_sides i Hm) as (Hs & Sw & Sh). pose proof Hs as [S1 S2]. destruct (Z.eq_dec mode 1) as [E1|E1]; [|destruct (Z.eq_dec mode 5) as [E5|E5]].
  1,2: apply (alike_trans _ (middle (shows i) (pw (shows i)) (ph (shows i)))); [|apply middle_all]; rewrite <- P1 at 1; rewrite <- P2 at 1; apply thumbnail_middle; auto; lia.
  revert P1 P2. unfold resized. rewrite p_resize. unfold stepResize. destruct ((0 <? w) || (0 <? h)) eqn:E; [|intros _ _; split; [reflexivity|]; split; reflexivity]. rewrite Dx_proper, Dy_proper by (apply sides_proper; exact Hs).
  destruct (prase_scale mode (pw (shows i)) (ph (shows i)) w h) as (nw & nh & -> & L1 & L2); try assumption; [split; assumption|]. apply scale_part; assumption.
Qed.
