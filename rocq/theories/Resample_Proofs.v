(** From one line of pixels to whole pictures. *)
From Coq Require Import ZArith List Bool Lia Reals Lra Psatz ZifyBool.
From Flocq Require Import Core BinarySingleNaN.
From Verif Require Import GoInt GoFloat Image_Model Pixel_Model Pixel_Spec Pixel_Proofs Resample_Model Resample_Spec Resample_Err Resample_Mix Resample_Weights Resample_Place Resample_Classes Resample_Kernels.
Import ListNotations.
Local Open Scope Z_scope.

(** ** What mixing preserves *)
Definition closed (F : list (Z * f64) -> Prop) (Rel : pixel -> pixel -> Prop) : Prop := forall line line' ws, F ws -> (forall iw, In iw ws -> Rel (line (fst iw)) (line' (fst iw))) -> Rel (mix line ws) (mix line' ws).
Definition good (F : list (Z * f64) -> Prop) (f : resampleFilter) : Prop := fle (Support f) (of_int 0) = true \/
  forall src dst v, 1 <= src <= 2 ^ 20 -> 1 <= dst <= 2 ^ 20 -> 0 <= v < dst -> F (weightsAt f dst src v) /\ forall iw, In iw (weightsAt f dst src v) -> 0 <= fst iw < src.
(** Sides for which the weights are known to be good. *)
Definition sides (p : picture) : Prop := 1 <= pw p <= 2 ^ 20 /\ 1 <= ph p <= 2 ^ 20.
Lemma sides_proper i : sides (shows i) -> proper i.
Proof. intros [[A B] [C D]]. unfold proper. cbn [shows pw ph] in *. change (2 ^ 20) with 1048576 in *. change (2 ^ 63) with 9223372036854775808. lia. Qed.
Lemma fresh_pixelwise (Rel : pixel -> pixel -> Prop) w h f g : 0 <= w -> 0 <= h -> (forall x y, 0 <= x < w -> 0 <= y < h -> Rel (f x y) (g x y)) ->
  pixelwise Rel (shows (fresh w h f)) (shows (fresh w h g)) /\ pw (shows (fresh w h f)) = w /\ ph (shows (fresh w h f)) = h.
Proof.
  intros Hw Hh H. unfold fresh, shows, Rect, pixelwise. cbn. replace (w <? 0) with false by lia. replace (h <? 0) with false by lia. cbn. rewrite !Z.sub_0_r. repeat split; try lia. intros x y Hx Hy. apply H; lia.
Qed.
Lemma pixelwise_sides Rel a b : pixelwise Rel a b -> sides a -> sides b.
Proof. intros (E1 & E2 & _) H. unfold sides in *. rewrite <- E1, <- E2. exact H. Qed.

Section kept.
Variable F : list (Z * f64) -> Prop.
Variable Rel : pixel -> pixel -> Prop.
Hypothesis HRel : closed F Rel.
Variable f : resampleFilter.
Hypothesis Hf : good F f.
Section two.
Variables i i' : img pixel.
Hypothesis Hi : pixelwise Rel (shows i) (shows i').
Hypothesis Hs : sides (shows i).
Lemma dims : Dx (bounds i) = pw (shows i) /\ Dy (bounds i) = ph (shows i) /\ Dx (bounds i') = pw (shows i) /\ Dy (bounds i') = ph (shows i).
Proof.
  pose proof (pixelwise_sides _ _ _ Hi Hs) as Hs'. destruct Hi as (E1 & E2 & _). rewrite !Dx_proper, !Dy_proper by (apply sides_proper; assumption). auto.
Qed.
Lemma horizontal_kept w : 1 <= w <= 2 ^ 20 -> fle (Support f) (of_int 0) = false ->
  pixelwise Rel (shows (resizeHorizontal i w f)) (shows (resizeHorizontal i' w f)) /\ pw (shows (resizeHorizontal i w f)) = w /\ ph (shows (resizeHorizontal i w f)) = ph (shows i).
Proof.
  intros Hw Hn. destruct Hf as [Hc|Hg]; [congruence|]. unfold resizeHorizontal. destruct dims as (-> & -> & -> & ->). destruct Hi as (E1 & E2 & E3). destruct Hs as [S1 S2].
  apply fresh_pixelwise; [lia|lia|]. intros x y Hx Hy. destruct (Hg (pw (shows i)) w x S1 Hw Hx) as [Ff I]. apply HRel; [exact Ff|]. intros iw Hin. apply E3; [apply I; exact Hin|exact Hy].
Qed.
Lemma vertical_kept h : 1 <= h <= 2 ^ 20 -> fle (Support f) (of_int 0) = false ->
  pixelwise Rel (shows (resizeVertical i h f)) (shows (resizeVertical i' h f)) /\ pw (shows (resizeVertical i h f)) = pw (shows i) /\ ph (shows (resizeVertical i h f)) = h.
Proof.
  intros Hw Hn. destruct Hf as [Hc|Hg]; [congruence|]. unfold resizeVertical. destruct dims as (-> & -> & -> & ->). destruct Hi as (E1 & E2 & E3). destruct Hs as [S1 S2].
  apply fresh_pixelwise; [lia|lia|]. intros x y Hx Hy. destruct (Hg (ph (shows i)) h y S2 Hw Hy) as [Ff I]. apply HRel; [exact Ff|]. intros iw Hin. apply E3; [exact Hx|apply I; exact Hin].
Qed.
Lemma clone_kept : pixelwise Rel (shows (Clone i)) (shows (Clone i')) /\ pw (shows (Clone i)) = pw (shows i) /\ ph (shows (Clone i)) = ph (shows i).
Proof.
  unfold Clone. destruct dims as (-> & -> & -> & ->). destruct Hi as (E1 & E2 & E3). destruct Hs as [S1 S2]. apply fresh_pixelwise; [lia|lia|]. exact E3.
Qed.
(** The place that resizeNearest reads lies in the picture. *)
Lemma nearest_place src dst v : 1 <= src <= 2 ^ 20 -> 1 <= dst <= 2 ^ 20 -> 0 <= v < dst -> 0 <= to_int (fmul (fadd (of_int v) fhalf) (fdiv (of_int src) (of_int dst))) < src.
Proof.
  intros Hsrc Hdst Hv. destruct (pu_val src dst v Hsrc Hdst Hv) as (p & Vp & Ep). pose proof (fu_R src dst v Hsrc Hdst Hv) as Hfu. unfold duF in Vp. pose proof (sd src dst Hsrc Hdst) as [S1 _]. change (2 ^ 20) with 1048576 in *.
  assert (/ 4194304 <= p <= IZR src - / 4194304)%R as Hp by lra.
  assert (p < bpow radix2 63)%R as Hb by (change (bpow radix2 63) with (IZR (2 ^ 63)); change (2 ^ 63) with 9223372036854775808; lra).
  rewrite (to_int_val _ p Vp ltac:(lra) Hb).
  pose proof (Zfloor_lb p) as L. pose proof (Zfloor_ub p) as U. split; [assert (-1 < Zfloor p); [apply lt_IZR; lra|lia]|apply lt_IZR; lra].
Qed.
Lemma nearest_kept w h : 1 <= w <= 2 ^ 20 -> 1 <= h <= 2 ^ 20 ->
  pixelwise Rel (shows (resizeNearest i w h)) (shows (resizeNearest i' w h)) /\ pw (shows (resizeNearest i w h)) = w /\ ph (shows (resizeNearest i w h)) = h.
Proof.
  intros Hw Hh. unfold resizeNearest. cbn zeta. destruct dims as (-> & -> & -> & ->). destruct Hi as (E1 & E2 & E3). destruct Hs as [S1 S2].
  apply fresh_pixelwise; [lia|lia|]. intros x y Hx Hy. apply E3; apply nearest_place; assumption.
Qed.
End two.
Theorem resize_kept i i' w h : pixelwise Rel (shows i) (shows i') -> sides (shows i) -> 1 <= w <= 2 ^ 20 -> 1 <= h <= 2 ^ 20 ->
  pixelwise Rel (shows (resizeTo f i w h)) (shows (resizeTo f i' w h)) /\ pw (shows (resizeTo f i w h)) = w /\ ph (shows (resizeTo f i w h)) = h.
Proof.
  intros Hi Hs Hw Hh. unfold resizeTo. cbn zeta. destruct (dims i i' Hi Hs) as (-> & -> & -> & ->). destruct (fle (Support f) (of_int 0)) eqn:Ef; [apply (nearest_kept i i' Hi Hs w h Hw Hh)|].
  destruct (pw (shows i) =? w) eqn:E1; destruct (ph (shows i) =? h) eqn:E2; cbn [negb andb].
  - destruct (clone_kept i i' Hi Hs) as (A & B & C). repeat split; try apply A; lia.
  - destruct (vertical_kept i i' Hi Hs h Hh Ef) as (A & B & C). split; [exact A|]. lia.
  - destruct (horizontal_kept i i' Hi Hs w Hw Ef) as (A & B & C). split; [exact A|]. lia.
  - destruct (horizontal_kept i i' Hi Hs w Hw Ef) as (A & B & C). assert (sides (shows (resizeHorizontal i w f))) as Hs2 by (destruct Hs as [S1 S2]; unfold sides; rewrite B, C; auto).
    destruct (vertical_kept _ _ A Hs2 h Hh Ef) as (A2 & B2 & C2). rewrite B in B2. auto.
Qed.
Theorem resizeBy_kept i i' w h : pixelwise Rel (shows i) (shows i') -> sides (shows i) -> let r := Resize (pw (shows i)) (ph (shows i)) w h in 1 <= fst r <= 2 ^ 20 -> 1 <= snd r <= 2 ^ 20 ->
  pixelwise Rel (shows (ResizeBy f i w h)) (shows (ResizeBy f i' w h)) /\ pw (shows (ResizeBy f i w h)) = fst r /\ ph (shows (ResizeBy f i w h)) = snd r.
Proof.
  intros Hi Hs r Hw Hh. unfold ResizeBy. destruct (dims i i' Hi Hs) as (-> & -> & -> & ->). fold r. destruct r as [w' h']. apply resize_kept; assumption.
Qed.
End kept.

(** ** Cropping *)
Lemma crop_kept (Rel : pixel -> pixel -> Prop) i i' w h : pixelwise Rel (shows i) (shows i') -> sides (shows i) -> bounds i = bounds i' -> 1 <= w -> 1 <= h ->
  pixelwise Rel (shows (CropCenter i w h)) (shows (CropCenter i' w h)) /\ pw (shows (CropCenter i w h)) = Z.min w (pw (shows i)) /\ ph (shows (CropCenter i w h)) = Z.min h (ph (shows i)) /\ bounds (CropCenter i w h) = bounds (CropCenter i' w h).
Proof.
  intros Hi Hs Hb Hw Hh. unfold CropCenter, Crop. cbn zeta. rewrite <- Hb. rewrite Dx_proper, Dy_proper by (apply sides_proper; exact Hs).
  destruct Hs as [S1 S2]. destruct Hi as (E1 & E2 & E3). cbn [shows pw ph at_] in *. set (b := bounds i) in *. change (2 ^ 20) with 1048576 in *.
  set (W := maxX b - minX b) in *. set (H := maxY b - minY b) in *. set (dx := Z.quot (W - w) 2). set (dy := Z.quot (H - h) 2).
  assert ((w <= W -> 0 <= dx /\ 2 * dx <= W - w) /\ (W < w -> W - w <= 2 * dx <= 0)) as Qx. { clear. clearbody W. unfold dx. split; intros; Z.to_euclidean_division_equations; lia. }
  assert ((h <= H -> 0 <= dy /\ 2 * dy <= H - h) /\ (H < h -> H - h <= 2 * dy <= 0)) as Qy. { clear. clearbody H. unfold dy. split; intros; Z.to_euclidean_division_equations; lia. }
  clearbody dx dy.
  set (t := Intersect b (MkRect (minX b + dx) (minY b + dy) (minX b + dx + w) (minY b + dy + h))).
  assert (exists x0 x1 y0 y1, t = MkRect x0 y0 x1 y1 /\ minX b <= x0 /\ x0 < x1 /\ x1 <= maxX b /\ minY b <= y0 /\ y0 < y1 /\ y1 <= maxY b /\ x1 - x0 = Z.min w W /\ y1 - y0 = Z.min h H) as (x0 & x1 & y0 & y1 & Et & Ht).
  { unfold t, Intersect. cbn [minX minY maxX maxY]. set (xa := if minX b <? _ then _ else minX b). set (ya := if minY b <? _ then _ else minY b). set (xb := if _ <? maxX b then _ else maxX b). set (yb := if _ <? maxY b then _ else maxY b).
    assert (minX b <= xa /\ xa < xb /\ xb <= maxX b /\ xb - xa = Z.min w W) as Ax by (unfold xa, xb, W in *; destruct (minX b <? minX b + dx) eqn:C1; destruct (minX b + dx + w <? maxX b) eqn:C2; lia).
    assert (minY b <= ya /\ ya < yb /\ yb <= maxY b /\ yb - ya = Z.min h H) as Ay by (unfold ya, yb, H in *; destruct (minY b <? minY b + dy) eqn:C1; destruct (minY b + dy + h <? maxY b) eqn:C2; lia).
    assert (Empty (MkRect xa ya xb yb) = false) as ->; [unfold Empty; cbn [minX minY maxX maxY]; lia|]. exists xa, xb, ya, yb. split; [reflexivity|]. lia. }
  rewrite Et. assert (Intersect (MkRect x0 y0 x1 y1) b = MkRect x0 y0 x1 y1) as ->.
  { unfold Intersect. cbn [minX minY maxX maxY]. replace (x0 <? minX b) with false by lia. replace (y0 <? minY b) with false by lia. replace (maxX b <? x1) with false by lia. replace (maxY b <? y1) with false by lia.
    assert (Empty (MkRect x0 y0 x1 y1) = false) as ->; [unfold Empty; cbn [minX minY maxX maxY]; lia|reflexivity]. }
  cbn [minX minY maxX maxY]. match goal with |- context [Empty ?r] => assert (Empty r = false) as -> by (unfold Empty; cbn [minX minY maxX maxY]; lia) end.
  unfold pixelwise, shows. cbn [pw ph at_ bounds px minX minY maxX maxY]. rewrite !Z.sub_0_r. repeat split; try lia.
  intros x y Hx Hy. rewrite !Z.add_0_l. specialize (E3 (x + x0 - minX b) (y + y0 - minY b) ltac:(unfold W in *; lia) ltac:(unfold H in *; lia)). cbn [at_] in E3.
  rewrite <- Hb in E3.
  replace (minX b + (x + x0 - minX b)) with (x + x0) in E3 by ring. replace (minY b + (y + y0 - minY b)) with (y + y0) in E3 by ring. exact E3.
Qed.

(** ** Filling *)
Lemma val_max f g x y : val f x -> val g y -> val (fmax f g) (Rmax x y).
Proof.
  intros Hf Hg. unfold fmax. rewrite (val_gt _ _ _ _ Hf Hg). destruct (Rlt_bool_spec y x) as [L|L]; [rewrite Rmax_left by lra; exact Hf|rewrite Rmax_right by lra; exact Hg].
Qed.
Lemma val_i z : 0 <= z <= 2 ^ 20 -> val (of_int z) (IZR z).
Proof. intros H. apply val_int. change (2 ^ 20) with 1048576 in H. change (2 ^ 53) with 9007199254740992. lia. Qed.
(** a * b / c in floating point. *)
Lemma share_val a b c : 1 <= a <= 2 ^ 20 -> 1 <= b <= 2 ^ 20 -> 1 <= c <= 2 ^ 20 ->
  exists q, val (fdiv (fmul (of_int a) (of_int b)) (of_int c)) q /\ (0 < IZR (a * b) / IZR c <= 1099511627776)%R /\ (Rabs (q - IZR (a * b) / IZR c) <= / 8388608 * / 8388608 * (IZR (a * b) / IZR c))%R.
Proof.
  intros Ha Hb Hc. change (2 ^ 20) with 1048576 in *. assert (1 <= a * b <= 1099511627776) as Hab by nia.
  assert (val (fmul (of_int a) (of_int b)) (IZR (a * b))) as V.
  { rewrite <- (R64_int (a * b)) by (change (2 ^ 53) with 9007199254740992; lia). rewrite mult_IZR. apply val_mul; [apply val_i; change (2 ^ 20) with 1048576; lia|apply val_i; change (2 ^ 20) with 1048576; lia|]. rewrite <- mult_IZR. apply huge. apply Rabs_le. apply (fun H1 H2 => conj H1 H2).
    - apply Rle_trans with 0%R; [lra|apply IZR_le; lia].
    - apply Rle_trans with 1099511627776%R; [apply IZR_le; lia|lra]. }
  assert (1 <= IZR c <= 1048576)%R as HcR by (split; apply IZR_le; lia). assert (1 <= IZR (a * b) <= 1099511627776)%R as HpR by (split; apply IZR_le; lia). set (p := IZR (a * b)) in *.
  assert (/ 1048576 <= p / IZR c <= 1099511627776)%R as Hq. { split; apply (Rmult_le_reg_r (IZR c)); try lra; unfold Rdiv; rewrite Rmult_assoc, Rinv_l by lra; lra. }
  exists (R64 (p / IZR c)). split; [apply val_div; [exact V|apply val_i; change (2 ^ 20) with 1048576; lia|lra|apply huge; apply Rabs_le; lra]|]. split; [lra|].
  pose proof (R64_bound (p / IZR c) (p / IZR c) ltac:(rewrite Rabs_pos_eq; lra)) as E. pose proof u_small as Hu. assert (u * (p / IZR c) <= / 9007199254740992 * (p / IZR c))%R by (apply Rmult_le_compat_r; lra). unfold h in E. apply Rabs_le. lra.
Qed.
Lemma prop_side a b c H : 1 <= a <= 2 ^ 20 -> 1 <= b <= 2 ^ 20 -> 1 <= c <= 2 ^ 20 -> a * b <= 1000000 * c -> 1 <= H -> (IZR H - / 8 <= IZR (a * b) / IZR c)%R ->
  let n := to_int (fmax (of_int 1) (ffloor (fadd (fdiv (fmul (of_int a) (of_int b)) (of_int c)) fhalf))) in H <= n <= 2 ^ 20.
Proof.
  intros Ha Hb Hc Hm HH1 HH n. destruct (share_val a b c Ha Hb Hc) as (q & Vq & Bq & Eq). set (p := (IZR (a * b) / IZR c)%R) in *. change (2 ^ 20) with 1048576 in *.
  assert (p <= 1000000)%R as Hp. { unfold p. apply (Rmult_le_reg_r (IZR c)); [apply (IZR_lt 0); lia|]. unfold Rdiv. rewrite Rmult_assoc, Rinv_l by (apply not_0_IZR; lia). rewrite Rmult_1_r, <- mult_IZR. apply IZR_le. lia. }
  apply Rabs_le_inv in Eq.
  assert (val (fadd (fdiv (fmul (of_int a) (of_int b)) (of_int c)) fhalf) (R64 (q + / 2))) as V by (apply val_add; [exact Vq|exact val_half|apply huge; apply Rabs_le; lra]).
  pose proof (R64_bound (q + / 2) 1000001 ltac:(apply Rabs_le; lra)) as E. pose proof u_small as Hu. unfold h in E. set (s := R64 (q + / 2)) in *.
  pose proof (val_max _ _ _ _ v1 (val_floor _ _ V)) as V2. unfold n.
  assert (H <= Zfloor s <= 1000001) as Hf. { split; [apply Zfloor_lub; lra|]. apply le_IZR. eapply Rle_trans; [apply Zfloor_lb|]. lra. }
  assert (1 <= IZR (Zfloor s))%R as H1 by (apply IZR_le; lia). rewrite Rmax_right in V2 by exact H1.
  rewrite (to_int_IZR _ _ V2); [lia|]. change (2 ^ 63) with 9223372036854775808. lia.
Qed.
Lemma crop_side a b c : 1 <= a <= 2 ^ 20 -> 1 <= b <= 2 ^ 20 -> 1 <= c <= 2 ^ 20 -> 1 <= to_int (fadd (fmax (of_int 1) (fdiv (fmul (of_int a) (of_int b)) (of_int c))) fhalf).
Proof.
  intros Ha Hb Hc. destruct (share_val a b c Ha Hb Hc) as (q & Vq & Bq & Eq). set (p := (IZR (a * b) / IZR c)%R) in *. apply Rabs_le_inv in Eq. pose proof (val_max _ _ _ _ v1 Vq) as V. set (m := Rmax 1 q) in *.
  assert (1 <= m <= 2199023255552)%R as Hm by (unfold m; split; [apply Rmax_l|apply Rmax_lub; lra]).
  assert (val (fadd (fmax (of_int 1) (fdiv (fmul (of_int a) (of_int b)) (of_int c))) fhalf) (R64 (m + / 2))) as V2 by (apply val_add; [exact V|exact val_half|apply huge; apply Rabs_le; lra]).
  assert (1 <= R64 (m + / 2) <= 4398046511104)%R as B. { split; [apply (R64_ge_int _ 1); [cbn; lia|lra]|apply (R64_le_int _ 4398046511104); [cbn; lia|lra]]. }
  assert (R64 (m + / 2) < bpow radix2 63)%R as Hb2 by (change (bpow radix2 63) with (IZR (2 ^ 63)); change (2 ^ 63) with 9223372036854775808; lra).
  rewrite (to_int_val _ _ V2 ltac:(lra) Hb2). apply Zfloor_lub. lra.
Qed.
(** The comparison of the two ratios. *)
Lemma ratios w h W H : 1 <= w <= 2 ^ 20 -> 1 <= h <= 2 ^ 20 -> 1 <= W <= 2 ^ 20 -> 1 <= H <= 2 ^ 20 ->
  if flt (fdiv (of_int w) (of_int h)) (fdiv (of_int W) (of_int H)) then (IZR H - / 8 <= IZR (W * h) / IZR w)%R else (IZR W - / 8 <= IZR (H * w) / IZR h)%R.
Proof.
  intros Hw Hh HW HH. destruct (du_val w h Hw Hh) as (x & Vx & Ex). destruct (du_val W H HW HH) as (y & Vy & Ey). unfold duF in *. rewrite (val_lt _ _ _ _ Vx Vy).
  pose proof (sd w h Hw Hh) as [W1 H1]. pose proof (sd W H HW HH) as [W2 H2]. rewrite !mult_IZR. set (a := IZR w) in *. set (b := IZR h) in *. set (c := IZR W) in *. set (d := IZR H) in *.
  set (e := (/ 4503599627370496)%R) in *. assert (0 < e <= / 4503599627370496)%R as He by (unfold e; lra).
  assert (a / b * b = a)%R as Q1 by (field; lra). assert (c / d * d = c)%R as Q2 by (field; lra).
  assert (0 < a / b <= 1048576)%R as B1. { split; [apply Rdiv_lt_0_compat; lra|]. apply (Rmult_le_reg_r b); [lra|]. rewrite Q1. nra. }
  assert (0 < c / d <= 1048576)%R as B2. { split; [apply Rdiv_lt_0_compat; lra|]. apply (Rmult_le_reg_r d); [lra|]. rewrite Q2. nra. }
  set (r := (a / b)%R) in *. set (s := (c / d)%R) in *.
  destruct (Rlt_bool_spec x y) as [L|L].
  - assert (r - s <= 2 * e * r)%R as G. { assert (r * (1 - e) < s * (1 + e))%R as L2 by lra. destruct (Rle_dec r s) as [C|C]; [|assert (e * s <= e * r)%R by (apply Rmult_le_compat_l; lra); lra]. assert (0 <= e * r)%R by (apply Rmult_le_pos; lra). lra. }
    apply (Rmult_le_reg_r a); [lra|]. unfold Rdiv. rewrite Rmult_assoc, Rinv_l, Rmult_1_r by lra. rewrite <- Q2. rewrite <- Q1 at 1.
    replace ((d - / 8) * (r * b))%R with ((d * r - r * / 8) * b)%R by ring. apply Rmult_le_compat_r; [lra|].
    assert (d * (r - s) <= d * (2 * e * r))%R as G2 by (apply Rmult_le_compat_l; lra). assert (d * (2 * e) * r <= / 8 * r)%R as G3; [|lra]. apply Rmult_le_compat_r; [lra|]. assert (d * e <= 1048576 * e)%R by (apply Rmult_le_compat_r; lra). lra.
  - assert (s - r <= 2 * e * s)%R as G. { assert (s * (1 - e) <= r * (1 + e))%R as L2 by lra. destruct (Rle_dec s r) as [C|C]; [|assert (e * r <= e * s)%R by (apply Rmult_le_compat_l; lra); lra]. assert (0 <= e * s)%R by (apply Rmult_le_pos; lra). lra. }
    replace (d * a / b)%R with (d * r)%R by (unfold r; field; lra). rewrite <- Q2.
    assert (d * (s - r) <= d * (2 * e * s))%R as G2 by (apply Rmult_le_compat_l; lra). assert (d * (2 * e * s) <= / 8)%R; [|lra].
    assert (d * s <= 1048576 * 1048576)%R as Ds by (apply Rmult_le_compat; lra). replace (d * (2 * e * s))%R with (2 * e * (d * s))%R by ring. assert (e * (d * s) <= e * (1048576 * 1048576))%R by (apply Rmult_le_compat_l; lra). lra.
Qed.

Section fill.
Variable F : list (Z * f64) -> Prop.
Variable Rel : pixel -> pixel -> Prop.
Hypothesis HRel : closed F Rel.
Variable f : resampleFilter.
Hypothesis Hf : good F f.
Lemma bounds_resize i i' w h : bounds i = bounds i' -> bounds (ResizeBy f i w h) = bounds (ResizeBy f i' w h).
Proof.
  intros E. unfold ResizeBy. rewrite <- E. destruct (Resize _ _ w h) as [w' h']. unfold resizeTo. cbn zeta. rewrite <- E. destruct (fle _ _); [unfold resizeNearest; cbn zeta; reflexivity|]. destruct (negb (Dx (bounds i) =? w') && negb (Dy (bounds i) =? h')).
  - unfold resizeVertical, resizeHorizontal, fresh. cbn [bounds]. rewrite <- E. reflexivity.
  - destruct (negb (Dx (bounds i) =? w')); [unfold resizeHorizontal, fresh; cbn [bounds]; rewrite <- E; reflexivity|]. destruct (negb (Dy (bounds i) =? h')); [unfold resizeVertical, fresh; cbn [bounds]; rewrite <- E; reflexivity|]. unfold Clone, fresh. cbn [bounds]. rewrite <- E. reflexivity.
Qed.
Theorem fill_kept i i' w h : pixelwise Rel (shows i) (shows i') -> bounds i = bounds i' -> sides (shows i) -> 1 <= w <= 2 ^ 20 -> 1 <= h <= 2 ^ 20 ->
  w * ph (shows i) <= 1000000 * pw (shows i) -> h * pw (shows i) <= 1000000 * ph (shows i) ->
  pixelwise Rel (shows (FillBy f i w h)) (shows (FillBy f i' w h)) /\ pw (shows (FillBy f i w h)) = w /\ ph (shows (FillBy f i w h)) = h.
Proof.
  intros Hi Hb Hs Hw Hh M1 M2. destruct (dims Rel i i' Hi Hs) as (D1 & D2 & D3 & D4). pose proof Hs as [S1 S2].
  unfold FillBy. rewrite D1, D2, D3, D4. cbn zeta. set (sw := pw (shows i)) in *. set (sh := ph (shows i)) in *.
  replace ((w <=? 0) || (h <=? 0) || (sw <=? 0) || (sh <=? 0)) with false by lia.
  destruct ((sw =? w) && (sh =? h)) eqn:E1.
  { destruct (clone_kept Rel i i' Hi Hs) as (A & B & C). fold sw in B. fold sh in C. split; [exact A|]. lia. }
  destruct ((100 <=? sw) && (100 <=? sh)).
  - unfold cropAndResize. rewrite D1, D2, D3, D4. cbn zeta. fold sw sh.
    set (cond := flt _ _). set (c1 := to_int (fadd (fmax (of_int 1) (fdiv (fmul (of_int sw) (of_int h)) (of_int w))) fhalf)). set (c2 := to_int (fadd (fmax (of_int 1) (fdiv (fmul (of_int sh) (of_int w)) (of_int h))) fhalf)).
    assert (1 <= c1) as C1 by (apply crop_side; assumption). assert (1 <= c2) as C2 by (apply crop_side; assumption). clearbody c1 c2 cond.
    assert (exists cw ch, 1 <= cw /\ 1 <= ch /\ (if cond then CropCenter i sw c1 else CropCenter i c2 sh) = CropCenter i cw ch /\ (if cond then CropCenter i' sw c1 else CropCenter i' c2 sh) = CropCenter i' cw ch) as (cw & ch & Cw & Ch & -> & ->).
    { destruct cond; [exists sw, c1|exists c2, sh]; repeat split; lia. }
    destruct (crop_kept Rel i i' cw ch Hi Hs Hb Cw Ch) as (A & B & C & _). fold sw in B. fold sh in C.
    assert (sides (shows (CropCenter i cw ch))) as Hs2 by (unfold sides; rewrite B, C; lia).
    assert (Resize (pw (shows (CropCenter i cw ch))) (ph (shows (CropCenter i cw ch))) w h = (w, h)) as Er. { unfold Resize. replace ((w <? 0) || (h <? 0)) with false by lia. replace ((w =? 0) && (h =? 0)) with false by lia. destruct Hs2 as [P1 P2]. replace ((_ <=? 0) || (_ <=? 0)) with false by lia. replace (w =? 0) with false by lia. replace (h =? 0) with false by lia. reflexivity. }
    pose proof (resizeBy_kept F Rel HRel f Hf _ _ w h A Hs2) as K. cbn zeta in K. rewrite Er in K. apply K; assumption.
  - unfold resizeAndCrop. rewrite D1, D2, D3, D4. cbn zeta. fold sw sh. pose proof (ratios sw sh w h S1 S2 Hw Hh) as Q.
    assert (exists W H, let r := Resize sw sh W H in (if flt (fdiv (of_int sw) (of_int sh)) (fdiv (of_int w) (of_int h)) then ResizeBy f i w 0 else ResizeBy f i 0 h) = ResizeBy f i W H /\
      (if flt (fdiv (of_int sw) (of_int sh)) (fdiv (of_int w) (of_int h)) then ResizeBy f i' w 0 else ResizeBy f i' 0 h) = ResizeBy f i' W H /\ w <= fst r <= 2 ^ 20 /\ h <= snd r <= 2 ^ 20) as (W & H & G).
    { destruct (flt _ _).
      - exists w, 0. split; [reflexivity|]. split; [reflexivity|]. unfold Resize. replace ((w <? 0) || (0 <? 0)) with false by lia. replace ((w =? 0) && (0 =? 0)) with false by lia. replace ((sw <=? 0) || (sh <=? 0)) with false by lia. replace (w =? 0) with false by lia. change (0 =? 0) with true. cbv iota zeta. cbn [fst snd]. split; [lia|]. exact (prop_side w sh sw h Hw S2 S1 M1 ltac:(lia) Q).
      - exists 0, h. split; [reflexivity|]. split; [reflexivity|]. unfold Resize. replace ((0 <? 0) || (h <? 0)) with false by lia. replace ((0 =? 0) && (h =? 0)) with false by lia. replace ((sw <=? 0) || (sh <=? 0)) with false by lia. replace (h =? 0) with false by lia. change (0 =? 0) with true. cbv iota zeta. cbn [fst snd]. split; [|lia]. exact (prop_side h sw sh w Hh S1 S2 M2 ltac:(lia) Q). }
    cbn zeta in G. destruct G as (-> & -> & G1 & G2).
    pose proof (resizeBy_kept F Rel HRel f Hf i i' W H Hi Hs) as K. cbn zeta in K. fold sw sh in K. destruct (K ltac:(lia) ltac:(lia)) as (A & B & C).
    assert (sides (shows (ResizeBy f i W H))) as Hs2 by (unfold sides; rewrite B, C; lia).
    destruct (crop_kept Rel _ _ w h A Hs2 (bounds_resize i i' W H Hb) ltac:(lia) ltac:(lia)) as (A2 & B2 & C2 & _). rewrite B in B2. rewrite C in C2. split; [exact A2|]. lia.
Qed.
End fill.

(** ** Which filters are good *)
Lemma any_good f : good (fun _ => True) f.
Proof. right. intros src dst v Hsrc Hdst Hv. split; [exact I|]. intros iw Hin. rewrite weightsAt_eq in Hin. assert (forall x, In x (tmpI f src dst v) -> 0 <= fst x < src) as H. { intros x Hx. unfold tmpI in Hx. apply filter_In in Hx. destruct Hx as [Hx _]. apply in_map_iff in Hx. destruct Hx as (z & <- & Hz). exact (win_in f src dst v z Hz). }
  cbn zeta in Hin. destruct (feq _ _); [exact (H _ Hin)|]. apply in_map_iff in Hin. destruct Hin as (x & <- & Hx). exact (H _ Hx). Qed.
Lemma fine_weak n n' ws : (n <= n')%R -> fine n ws -> fine n' ws.
Proof. intros L (A & B & C & D & E). repeat split; try assumption; try lra. Qed.
Lemma nearest_good F : good F NearestNeighbor.
Proof. left. cbn [Support NearestNeighbor]. rewrite (val_le _ _ _ _ v0 v0). apply Rle_bool_true. lra. Qed.
Lemma nonneg_good f : nonneg_kernel f -> good (fine (/ 10000)) f.
Proof. intros H. right. intros src dst v Hsrc Hdst Hv. destruct (nonneg_fine f src dst v Hsrc Hdst Hv H) as [A B]. split; [|exact B]. eapply fine_weak; [|exact A]. lra. Qed.
Lemma lobed_good f c0 c1 : lobed_kernel c0 c1 f -> (c1 <= 1)%R -> good (fine 100) f.
Proof. intros H H1. right. intros src dst v Hsrc Hdst Hv. destruct (lobed_fine f src dst v Hsrc Hdst Hv c0 c1 H H1) as (B & A & _). split; assumption. Qed.
Lemma lobed0_good f c0 : lobed_kernel c0 0 f -> good (fine (/ 10000)) f.
Proof. intros H. right. intros src dst v Hsrc Hdst Hv. destruct (lobed_fine f src dst v Hsrc Hdst Hv c0 0 H ltac:(lra)) as (B & _ & A). split; [apply A; reflexivity|exact B]. Qed.
Lemma good_weak n n' f : (n <= n')%R -> good (fine n) f -> good (fine n') f.
Proof. intros L [H|H]; [left; exact H|right]. intros src dst v H1 H2 H3. destruct (H src dst v H1 H2 H3) as [A B]. split; [eapply fine_weak; [exact L|exact A]|exact B]. Qed.
(** The filters of the numbers 0 to 7. *)
Lemma upto7_good M n : exp_ok M -> 0 <= n <= 7 -> good (fine 100) (filterOf M n).
Proof.
  intros HM Hn. assert (n = 0 \/ n = 1 \/ n = 2 \/ n = 3 \/ n = 4 \/ n = 5 \/ n = 6 \/ n = 7) as C by lia. repeat destruct C as [ -> | C]; [..|subst n]; cbn [filterOf].
  - apply nearest_good.
  - eapply good_weak; [|apply nonneg_good, box_ok]. lra.
  - eapply good_weak; [|apply nonneg_good, linear_ok]. lra.
  - eapply lobed_good; [apply hermite_ok|lra].
  - eapply lobed_good; [apply mitchell_ok|lra].
  - eapply lobed_good; [apply catmull_ok|lra].
  - eapply lobed_good; [apply bspline_ok|lra].
  - eapply good_weak; [|apply nonneg_good, gaussian_ok; exact HM]. lra.
Qed.
(** Those of them without negative weights. *)
Lemma soft_good M n : exp_ok M -> soft n -> good (fine (/ 10000)) (filterOf M n).
Proof.
  intros HM C. unfold soft in C. repeat destruct C as [ -> | C]; [..|subst n]; cbn [filterOf].
  - apply nearest_good.
  - apply nonneg_good, box_ok.
  - apply nonneg_good, linear_ok.
  - eapply lobed0_good, hermite_ok.
  - eapply lobed0_good, bspline_ok.
  - apply nonneg_good, gaussian_ok; exact HM.
Qed.

(** ** What mixing preserves *)
Lemma clampF_byte q : 0 <= clampF q <= 255.
Proof. unfold clampF. set (v := to_int _). clearbody v. cbn zeta. destruct (255 <? v) eqn:E1; [lia|]. destruct (0 <? v) eqn:E2; [|lia]. unfold u8. change (2 ^ 8) with 256. rewrite Z.mod_small; lia. Qed.
Lemma mix_colour line ws : colour (mix line ws).
Proof.
  unfold mix. rewrite accumulate_sums. assert (forall q, byte (clampF q)) as B by (intros q; pose proof (clampF_byte q); unfold byte; lia). destruct (feq _ _); unfold colour; cbn [pr pg pb pa]; [unfold byte; lia|]. auto.
Qed.
Lemma fine_mix A line ws n : 1 <= A <= 255 -> fine n ws -> (forall iw, In iw ws -> pa (line (fst iw)) = A) ->
  (forall iw, In iw ws -> val (snd iw) (R2 iw) /\ pa (line (fst iw)) = A) /\ (/ 1048576 <= sumR (map R2 ws) <= 1048576)%R.
Proof. intros HA (F1 & F2 & F3 & F4 & F5) H. split; [|lra]. intros iw Hin. split; [split; [apply F1; exact Hin|reflexivity]|apply H; exact Hin]. Qed.
Lemma alpha_closed A : 1 <= A <= 255 -> closed (fine 100) (fun p _ => alpha A p).
Proof.
  intros HA line _ ws Hf Hl. split; [apply mix_colour|]. destruct (fine_mix A line ws _ HA Hf (fun iw Hin => proj2 (Hl iw Hin))) as [H1 H2]. destruct Hf as (F1 & F2 & F3 & F4 & F5).
  exact (mix_alpha line ws R2 A HA H1 F2 F3 H2 F4).
Qed.
Lemma channel_byte c p : a_channel c -> colour p -> 0 <= c p <= 255.
Proof. intros H (A & B & C & _). unfold byte in *. destruct H as [ -> | [ -> | -> ]]; lia. Qed.
Lemma mean_between line ws c lo hi n : fine n ws -> (forall iw, In iw ws -> lo <= c (line (fst iw)) <= hi) -> 0 <= lo -> hi <= 255 -> (n <= / 10000)%R \/ lo = hi ->
  (IZR lo - / 8 <= mean line ws R2 c <= IZR hi + / 8)%R.
Proof.
  intros (F1 & F2 & F3 & F4 & F5) Hc H0 H255 Hn. unfold mean. set (W := sumR (map R2 ws)) in *. set (S := sumR (map (fun iw => (IZR (c (line (fst iw))) * R2 iw)%R) ws)).
  assert (forall k, sumR (map (fun iw => (IZR k * R2 iw)%R) ws) = (IZR k * W)%R) as Hk by (intros k; apply (sumR_map_mult R2)).
  set (G := sumR (map (fun iw => (Rabs (R2 iw) - R2 iw)%R) ws)) in *.
  assert (0 <= G)%R as HG by (apply sumR_nonneg; intros x _; pose proof (Rle_abs (R2 x)); lra).
  assert ((IZR hi - IZR lo) * G <= 255 * / 10000)%R as B. { destruct Hn as [Hn| -> ]; [|rewrite Rminus_diag_eq by reflexivity; lra]. destruct (Z_le_gt_dec lo hi) as [L|L]; [apply Rmult_le_compat; try lra; rewrite <- minus_IZR; [apply (IZR_le 0)|apply IZR_le]; lia|]. apply Z.gt_lt, IZR_lt in L. assert (0 <= (IZR lo - IZR hi) * G)%R by (apply Rmult_le_pos; lra). lra. }
  assert (IZR lo * W - (IZR hi - IZR lo) * G <= S <= IZR hi * W + (IZR hi - IZR lo) * G)%R as HS.
  { split.
    - rewrite <- (Hk lo). unfold G, S. rewrite <- (sumR_map_mult (fun iw => (Rabs (R2 iw) - R2 iw)%R)). rewrite <- sumR_diff. apply sumR_map_le. intros iw Hin. specialize (Hc iw Hin). destruct Hc as [C1 C2]. apply IZR_le in C1, C2. set (x := IZR (c (line (fst iw)))) in *. set (w := R2 iw).
      destruct (Rle_dec 0 w) as [P|P]; [rewrite (Rabs_pos_eq w P); assert (0 <= (x - IZR lo) * w)%R by (apply Rmult_le_pos; lra); lra|]. rewrite (Rabs_left w) by lra. assert (0 <= (IZR hi - x) * - w)%R by (apply Rmult_le_pos; lra). assert (0 <= (IZR hi - IZR lo) * - w)%R by (apply Rmult_le_pos; lra). lra.
    - rewrite <- (Hk hi). unfold G, S. rewrite <- (sumR_map_mult (fun iw => (Rabs (R2 iw) - R2 iw)%R)). rewrite <- sumR_map_plus. apply sumR_map_le. intros iw Hin. specialize (Hc iw Hin). destruct Hc as [C1 C2]. apply IZR_le in C1, C2. set (x := IZR (c (line (fst iw)))) in *. set (w := R2 iw).
      destruct (Rle_dec 0 w) as [P|P]; [rewrite (Rabs_pos_eq w P); assert (0 <= (IZR hi - x) * w)%R by (apply Rmult_le_pos; lra); lra|]. rewrite (Rabs_left w) by lra. assert (0 <= (x - IZR lo) * - w)%R by (apply Rmult_le_pos; lra). assert (0 <= (IZR hi - IZR lo) * - w)%R by (apply Rmult_le_pos; lra). lra. }
  split; apply (Rmult_le_reg_r W); try lra; unfold Rdiv; rewrite Rmult_assoc, Rinv_l, Rmult_1_r by lra; lra.
Qed.
Lemma between_closed A c lo hi n : 1 <= A <= 255 -> a_channel c -> 0 <= lo -> hi <= 255 -> (n <= / 10000)%R \/ lo = hi /\ (n <= 100)%R -> closed (fine n) (fun p _ => alpha A p /\ between c lo hi p).
Proof.
  intros HA Hc H0 H255 Hn line line' ws Hf Hl. split.
  - apply (alpha_closed A HA line line' ws); [|intros iw Hin; apply Hl; exact Hin]. eapply fine_weak; [|exact Hf]. lra.
  - destruct (fine_mix A line ws _ HA Hf (fun iw Hin => proj2 (proj1 (Hl iw Hin)))) as [H1 H2]. pose proof Hf as (F1 & F2 & F3 & F4 & F5).
    apply (mix_channel line ws R2 A HA H1 F2 F3 H2 c lo hi Hc); try assumption.
    + intros iw Hin. apply channel_byte; [exact Hc|]. apply Hl. exact Hin.
    + apply (mean_between line ws c lo hi n Hf (fun iw Hin => proj2 (Hl iw Hin)) H0 H255). destruct Hn as [Hn|[Hn _]]; auto.
Qed.
Lemma uniform_closed p : colour p -> 1 <= pa p -> closed (fine 100) (fun q _ => q = p).
Proof.
  intros Hp HA line line' ws Hf Hl. assert (1 <= pa p <= 255) as HA2 by (destruct Hp as (_ & _ & _ & H); unfold byte in H; lia).
  assert (forall c, a_channel c -> pa (mix line ws) = pa p /\ c (mix line ws) = c p) as K.
  { intros c Hc. pose proof (channel_byte c p Hc Hp) as B. destruct (between_closed (pa p) c (c p) (c p) 100 HA2 Hc ltac:(lia) ltac:(lia) ltac:(right; split; [reflexivity|lra]) line line' ws Hf) as [[_ E1] E2]; [|unfold between in E2; split; [exact E1|lia]].
    intros iw Hin. rewrite (Hl iw Hin). repeat split; try apply Hp; lia. }
  destruct (K pr ltac:(left; reflexivity)) as [Ea Er]. destruct (K pg ltac:(right; left; reflexivity)) as [_ Eg]. destruct (K pb ltac:(right; right; reflexivity)) as [_ Eb].
  destruct (mix line ws) as [r g b a]. destruct p as [r' g' b' a']. cbn in *. congruence.
Qed.

(** ** Transparent pixels *)
Definition isz (x : f64) : Prop := match x with B754_zero _ => True | _ => False end.
Definition eqz (x y : f64) : Prop := x = y \/ isz x /\ isz y.
Lemma add_eqz x x' y y' : eqz x x' -> eqz y y' -> eqz (fadd x y) (fadd x' y').
Proof.
  intros [ -> |[A B]] [ -> |[C D]]; [left; reflexivity|..].
  - destruct y as [sy| | |]; try contradiction. destruct y' as [sy'| | |]; try contradiction. unfold fadd. destruct x' as [s|s| |s m e Hb]; cbn; [right; destruct s, sy, sy'; cbn; auto|left; reflexivity..].
  - destruct x as [sx| | |]; try contradiction. destruct x' as [sx'| | |]; try contradiction. unfold fadd. destruct y' as [s|s| |s m e Hb]; cbn; [right; destruct s, sx, sx'; cbn; auto|left; reflexivity..].
  - destruct x as [sx| | |]; try contradiction. destruct x' as [sx'| | |]; try contradiction. destruct y as [sy| | |]; try contradiction. destruct y' as [sy'| | |]; try contradiction. right. unfold fadd. destruct sx, sx', sy, sy'; cbn; auto.
Qed.
Lemma mul_eqz x x' y : eqz x x' -> eqz (fmul x y) (fmul x' y).
Proof.
  intros [ -> |[A B]]; [left; reflexivity|]. destruct x as [sx| | |]; try contradiction. destruct x' as [sx'| | |]; try contradiction. unfold fmul. destruct y as [s|s| |s m e Hb]; cbn; [right; cbn; auto|left; reflexivity|left; reflexivity|right; cbn; auto].
Qed.
Lemma div_eqz x x' y : eqz x x' -> eqz (fdiv x y) (fdiv x' y).
Proof.
  intros [ -> |[A B]]; [left; reflexivity|]. destruct x as [sx| | |]; try contradiction. destruct x' as [sx'| | |]; try contradiction. unfold fdiv. destruct y as [s|s| |s m e Hb]; cbn; [left; reflexivity|right; cbn; auto|left; reflexivity|right; cbn; auto].
Qed.
Lemma clamp_eqz x y : eqz x y -> clampF x = clampF y.
Proof.
  intros H. destruct (add_eqz x y fhalf fhalf H ltac:(left; reflexivity)) as [E|[A B]]; [unfold clampF; rewrite E; reflexivity|]. unfold clampF. destruct (fadd x fhalf); try contradiction. destruct (fadd y fhalf); try contradiction. reflexivity.
Qed.
Lemma sum_eqz {A} (F G : A -> f64) l : (forall x, In x l -> eqz (F x) (G x)) -> eqz (fsum (map F l)) (fsum (map G l)).
Proof.
  unfold fsum. assert (forall a b, eqz a b -> (forall x, In x l -> eqz (F x) (G x)) -> eqz (fold_left fadd (map F l) a) (fold_left fadd (map G l) b)) as K.
  { induction l as [|x l IH]; intros a b E H; [exact E|]. cbn [map fold_left]. apply IH; [apply add_eqz; [exact E|apply H; left; reflexivity]|intros y Hy; apply H; right; exact Hy]. }
  apply K. left. reflexivity.
Qed.
(** A number times zero times anything. *)
Lemma zero_mul n w : val n (B2R n) -> fmul n (fmul (of_int 0) w) = fmul (of_int 0) w \/ isz (fmul n (fmul (of_int 0) w)) /\ isz (fmul (of_int 0) w).
Proof.
  intros [Hf _]. change (of_int 0) with (B754_zero false : f64). unfold fmul. destruct w as [s|s| |s m e Hb]; cbn.
  - right. destruct n; cbn in *; try discriminate; auto.
  - left. destruct n; reflexivity.
  - left. destruct n; reflexivity.
  - right. destruct n; cbn in *; try discriminate; auto.
Qed.
Lemma byte_fin z : byte z -> val (of_int z) (B2R (of_int z)).
Proof. intros H. unfold byte in H. assert (val (of_int z) (IZR z)) as [A B] by (apply val_int; change (2 ^ 53) with 9007199254740992; lia). split; [exact A|reflexivity]. Qed.
Definition veiled (p q : pixel) : Prop := colour p /\ colour q /\ look_same p q.
Lemma channel_eqz c line line' iw : a_channel c -> veiled (line (fst iw)) (line' (fst iw)) -> eqz (chOf c line iw) (chOf c line' iw) /\ eqz (awOf line iw) (awOf line' iw).
Proof.
  intros Hc (C1 & C2 & [E|[E1 E2]]).
  - unfold chOf, awOf. rewrite E. split; left; reflexivity.
  - unfold chOf, awOf. rewrite E1, E2. split; [|left; reflexivity].
    pose proof (channel_byte c _ Hc C1) as B1. pose proof (channel_byte c _ Hc C2) as B2.
    pose proof (byte_fin (c (line (fst iw))) ltac:(unfold byte; lia)) as Y1. pose proof (byte_fin (c (line' (fst iw))) ltac:(unfold byte; lia)) as Y2.
    destruct (zero_mul (of_int (c (line (fst iw)))) (snd iw) Y1) as [ -> |[Z1 Z2]]; destruct (zero_mul (of_int (c (line' (fst iw)))) (snd iw) Y2) as [ -> |[Z3 Z4]].
    + left. reflexivity.
    + right. auto.
    + right. auto.
    + right. auto.
Qed.
Lemma eq0_eqz x y : eqz x y -> feq x (of_int 0) = feq y (of_int 0).
Proof. intros [ -> |[A B]]; [reflexivity|]. destruct x; try contradiction. destruct y; try contradiction. reflexivity. Qed.
Lemma not0_eqz x y : eqz x y -> feq x (of_int 0) = false -> x = y.
Proof. intros [ -> |[A B]] H; [reflexivity|]. destruct x; try contradiction. exfalso. revert H. destruct s; vm_compute; discriminate. Qed.
Lemma veiled_mix line line' ws : (forall iw, In iw ws -> veiled (line (fst iw)) (line' (fst iw))) -> mix line ws = mix line' ws.
Proof.
  intros H. assert (forall c, a_channel c -> eqz (fsum (map (chOf c line) ws)) (fsum (map (chOf c line') ws))) as Kc by (intros c Hc; apply sum_eqz; intros iw Hin; apply channel_eqz; auto).
  assert (eqz (fsum (map (awOf line) ws)) (fsum (map (awOf line') ws))) as Ka by (apply sum_eqz; intros iw Hin; apply (channel_eqz pr); [left; reflexivity|auto]).
  unfold mix. rewrite !accumulate_sums. rewrite <- (eq0_eqz _ _ Ka). destruct (feq _ _) eqn:E; [reflexivity|]. rewrite <- (not0_eqz _ _ Ka E). cbn zeta.
  rewrite (clamp_eqz _ _ (mul_eqz _ _ _ (Kc pr ltac:(left; reflexivity)))), (clamp_eqz _ _ (mul_eqz _ _ _ (Kc pg ltac:(right; left; reflexivity)))), (clamp_eqz _ _ (mul_eqz _ _ _ (Kc pb ltac:(right; right; reflexivity)))). reflexivity.
Qed.
Lemma veiled_closed : closed (fun _ => True) veiled.
Proof. intros line line' ws _ H. split; [apply mix_colour|]. split; [apply mix_colour|]. left. apply veiled_mix. exact H. Qed.

(** A picture without anything to see stays one. *)
Lemma fsum_zero l : (forall x, In x l -> isz x) -> isz (fsum l).
Proof.
  unfold fsum. change (of_int 0) with (B754_zero false : f64). assert (forall a, isz a -> (forall x, In x l -> isz x) -> isz (fold_left fadd l a)) as K; [|apply K; exact I].
  induction l as [|x l IH]; intros a Ha H; [exact Ha|]. cbn [fold_left]. apply IH; [|intros y Hy; apply H; right; exact Hy]. specialize (H x (or_introl eq_refl)). destruct a; try contradiction. destruct x; try contradiction. unfold fadd. destruct s, s0; exact I.
Qed.
Lemma transparent_closed n : closed (fine n) (fun p _ => alpha 0 p).
Proof.
  intros line line' ws Hf Hl. split; [apply mix_colour|]. unfold mix. rewrite accumulate_sums. assert (isz (fsum (map (awOf line) ws))) as Hz.
  { apply fsum_zero. intros x Hx. apply in_map_iff in Hx. destruct Hx as (iw & <- & Hin). unfold awOf. rewrite (proj2 (Hl iw Hin)). destruct Hf as (F1 & _). specialize (F1 iw Hin). change (of_int 0) with (B754_zero false : f64). destruct (snd iw); cbn in *; try discriminate; exact I. }
  destruct (fsum (map (awOf line) ws)); try contradiction. reflexivity.
Qed.
