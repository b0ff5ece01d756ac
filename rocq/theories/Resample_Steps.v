(** From resampling to the steps of parseImage and Encode. *)
From Coq Require Import ZArith List Bool Lia ZifyBool Reals.
From Flocq Require Import Core BinarySingleNaN.
From Verif Require Import GoInt GoFloat Image_Model Image_Spec Image_Proofs Pixel_Model Pixel_Spec Pixel_Proofs Resample_Model Resample_Spec Resample_Err Resample_Kernels Resample_Proofs Resample_Blur.
Import ListNotations.
Local Open Scope Z_scope.

Lemma origin_fresh w h f : 0 <= w -> 0 <= h -> at_origin (fresh w h f).
Proof. intros Hw Hh. unfold fresh, at_origin, Rect. cbn. replace (w <? 0) with false by lia. replace (h <? 0) with false by lia. auto. Qed.
(** A new image with the pixels of one that starts at (0, 0). *)
Lemma refresh (Rel : pixel -> pixel -> Prop) j j' w h : 0 <= w -> 0 <= h -> (1 <= w -> 1 <= h -> at_origin j /\ at_origin j' /\ pixelwise Rel (shows j) (shows j') /\ pw (shows j) = w /\ ph (shows j) = h) ->
  pixelwise Rel (shows (fresh w h (px j))) (shows (fresh w h (px j'))) /\ pw (shows (fresh w h (px j))) = w /\ ph (shows (fresh w h (px j))) = h.
Proof.
  intros Hw Hh H. apply fresh_pixelwise; [exact Hw|exact Hh|]. intros x y Hx Hy. destruct (H ltac:(lia) ltac:(lia)) as ([O1 O2] & [O3 O4] & (E1 & E2 & E3) & P1 & P2). specialize (E3 x y). cbn [shows at_] in E3. rewrite O1, O2, O3, O4, !Z.add_0_l in E3. apply E3; cbn [shows pw ph] in *; lia.
Qed.
Lemma resizeTo_origin f i w h : sides (shows i) -> 1 <= w <= 2 ^ 20 -> 1 <= h <= 2 ^ 20 -> at_origin (resizeTo f i w h).
Proof.
  intros Hs Hw Hh. pose proof (sides_proper i Hs) as P. unfold resizeTo, resizeNearest, resizeVertical, Clone. cbn zeta. rewrite Dx_proper, Dy_proper by exact P. destruct Hs as [S1 S2]. change (2 ^ 20) with 1048576 in *.
  destruct (fle _ _); [apply origin_fresh; lia|]. destruct (_ && _).
  { unfold resizeHorizontal. rewrite (Dy_proper i P). destruct (fresh_proper w (ph (shows i)) (fun x y => mix (fun u => scan i u y) (weightsAt f w (Dx (bounds i)) x)) ltac:(lia) ltac:(lia)) as [Q _].
    cbn zeta. rewrite (Dx_proper _ Q). apply origin_fresh; [|lia]. apply Q. }
  destruct (negb _); [unfold resizeHorizontal; rewrite (Dy_proper i P); apply origin_fresh; lia|]. destruct (negb _); apply origin_fresh; lia.
Qed.
Lemma crop_origin i r : at_origin (@Crop pixel i r).
Proof. unfold Crop. cbn zeta. destruct (Empty _); split; reflexivity. Qed.
Lemma FillBy_origin f i w h : sides (shows i) -> 1 <= w <= 2 ^ 20 -> 1 <= h <= 2 ^ 20 -> at_origin (FillBy f i w h).
Proof.
  intros Hs Hw Hh. pose proof (sides_proper i Hs) as P. unfold FillBy. cbn zeta. rewrite Dx_proper, Dy_proper by exact P. pose proof Hs as [S1 S2]. replace ((w <=? 0) || (h <=? 0) || (pw (shows i) <=? 0) || (ph (shows i) <=? 0)) with false by lia.
  destruct (_ && _); [unfold Clone; rewrite Dx_proper, Dy_proper by exact P; apply origin_fresh; lia|]. destruct (_ && _); [|unfold resizeAndCrop, CropCenter; apply crop_origin].
  unfold cropAndResize. cbn zeta. rewrite Dx_proper, Dy_proper by exact P. set (cond := flt _ _).
  set (c1 := to_int (fadd (fmax (of_int 1) (fdiv (fmul (of_int (pw (shows i))) (of_int h)) (of_int w))) fhalf)). set (c2 := to_int (fadd (fmax (of_int 1) (fdiv (fmul (of_int (ph (shows i))) (of_int w)) (of_int h))) fhalf)).
  assert (1 <= c1) as C1 by (apply crop_side; assumption). assert (1 <= c2) as C2 by (apply crop_side; assumption). clearbody c1 c2 cond.
  assert (exists cw ch, 1 <= cw /\ 1 <= ch /\ (if cond then CropCenter i (pw (shows i)) c1 else CropCenter i c2 (ph (shows i))) = CropCenter i cw ch) as (cw & ch & Cw & Ch & ->).
  { destruct cond; [exists (pw (shows i)), c1|exists c2, (ph (shows i))]; repeat split; lia. }
  destruct (crop_kept (fun _ _ => True) i i cw ch ltac:(repeat split) Hs eq_refl Cw Ch) as (_ & B & C & _).
  assert (sides (shows (CropCenter i cw ch))) as Hs2 by (unfold sides; rewrite B, C; lia). set (j := CropCenter i cw ch) in *. clearbody j.
  unfold ResizeBy. rewrite Dx_proper, Dy_proper by (apply sides_proper; exact Hs2). unfold Resize. replace ((w <? 0) || (h <? 0)) with false by lia. replace ((w =? 0) && (h =? 0)) with false by lia. pose proof Hs2 as [P1 P2]. replace ((_ <=? 0) || (_ <=? 0)) with false by lia. replace (w =? 0) with false by lia. replace (h =? 0) with false by lia.
  apply resizeTo_origin; assumption.
Qed.

Section steps.
Variable F : list (Z * f64) -> Prop.
Variable Rel : pixel -> pixel -> Prop.
Hypothesis HRel : closed F Rel.
Variable M : mathf.
Variable T : tools.
Variable n : Z.
Hypothesis Hf : good F (filterOf M n).
Lemma ResizeImg_kept i i' w h : pixelwise Rel (shows i) (shows i') -> sides (shows i) -> let r := Resize (pw (shows i)) (ph (shows i)) w h in 0 <= fst r <= 2 ^ 20 -> 0 <= snd r <= 2 ^ 20 ->
  pixelwise Rel (shows (ResizeImg (withImaging M T) n i w h)) (shows (ResizeImg (withImaging M T) n i' w h)) /\ pw (shows (ResizeImg (withImaging M T) n i w h)) = fst r /\ ph (shows (ResizeImg (withImaging M T) n i w h)) = snd r.
Proof.
  intros Hi Hs r Hw Hh. unfold ResizeImg. destruct (dims Rel i i' Hi Hs) as (-> & -> & -> & ->). fold r. destruct r as [W H]. cbn [fst snd] in *. cbn [withImaging resampled].
  apply refresh; [lia|lia|]. intros W1 H1. split; [apply resizeTo_origin; [exact Hs|lia|lia]|]. split; [apply resizeTo_origin; [exact (pixelwise_sides _ _ _ Hi Hs)|lia|lia]|]. apply (resize_kept F Rel HRel _ Hf i i' W H Hi Hs); lia.
Qed.
Lemma FillImg_kept i i' w h : pixelwise Rel (shows i) (shows i') -> bounds i = bounds i' -> sides (shows i) -> w <= 2 ^ 20 -> h <= 2 ^ 20 ->
  w * ph (shows i) <= 1000000 * pw (shows i) -> h * pw (shows i) <= 1000000 * ph (shows i) ->
  pixelwise Rel (shows (FillImg (withImaging M T) n i w h)) (shows (FillImg (withImaging M T) n i' w h)).
Proof.
  intros Hi Hb Hs Hw Hh M1 M2. unfold FillImg. destruct (dims Rel i i' Hi Hs) as (-> & -> & -> & ->). unfold Fill. cbn [withImaging filled].
  destruct (_ || _) eqn:E; [apply (refresh Rel _ _ 0 0); lia|]. apply (refresh Rel _ _ w h); [lia|lia|]. intros W1 H1. split; [apply FillBy_origin; [exact Hs|lia|lia]|]. split; [apply FillBy_origin; [exact (pixelwise_sides _ _ _ Hi Hs)|lia|lia]|].
  apply (fill_kept F Rel HRel _ Hf i i' w h Hi Hb Hs); lia.
Qed.
End steps.

(** The thumbnail's sides when they are given, or when the picture is small. *)
Lemma thumb_side w h a b : 1 <= w <= 1000000 -> 1 <= h <= 1000000 -> a <> 0 /\ b <> 0 \/ w <= 1000 /\ h <= 1000 ->
  let t := getSideByThubnail w h a b in fst t <= 1000000 /\ snd t <= 1000000 /\ fst t * h <= 1000000 * w /\ snd t * w <= 1000000 * h.
Proof.
  intros Hw Hh C. unfold getSideByThubnail. cbn zeta. cbn [fst snd]. destruct C as [[A B]|[A B]].
  - set (x := if a <? w then a else w). set (y := if b <? h then b else h). assert (x <= w /\ x <> 0) as [X1 X2] by (unfold x; destruct (a <? w) eqn:?; lia). assert (y <= h /\ y <> 0) as [Y1 Y2] by (unfold y; destruct (b <? h) eqn:?; lia).
    replace (x =? 0) with false by lia. replace (y =? 0) with false by lia. repeat split; nia.
  - set (x := if a <? w then a else w). set (y := if b <? h then b else h). assert (x <= 1000) as X1 by (unfold x; destruct (a <? w) eqn:?; lia). assert (y <= 1000) as Y1 by (unfold y; destruct (b <? h) eqn:?; lia).
    set (x2 := if x =? 0 then y else x). assert (x2 <= 1000) as X3 by (unfold x2; destruct (x =? 0) eqn:?; lia). set (y2 := if y =? 0 then x2 else y). assert (y2 <= 1000) as Y3 by (unfold y2; destruct (y =? 0) eqn:?; lia). repeat split; nia.
Qed.
Theorem step_kept F (Rel : pixel -> pixel -> Prop) M T filter i i' w h mode : closed F Rel -> good F (filterOf M (selectFilter filter)) ->
  pixelwise Rel (shows i) (shows i') -> bounds i = bounds i' -> million (shows i) -> int64 w -> int64 h -> resizable (shows i) w h mode ->
  pixelwise Rel (shows (parseImage (withImaging M T) filter i w h mode noOptions)) (shows (parseImage (withImaging M T) filter i' w h mode noOptions)).
Proof.
  intros HRel Hf Hi Hb Hm Hw Hh Hr. rewrite !p_resize. assert (sides (shows i)) as Hs by (destruct Hm as [M1 M2]; unfold sides; change (2 ^ 20) with 1048576; lia).
  assert (side (pw (shows i)) /\ side (ph (shows i))) as [Sw Sh] by (destruct Hm; unfold side; change (2 ^ 31) with 2147483648; lia).
  unfold stepResize. destruct ((0 <? w) || (0 <? h)) eqn:E; [|exact Hi]. destruct (dims Rel i i' Hi Hs) as (-> & -> & -> & ->). destruct Hm as [M1 M2].
  assert (forall a b, a <= pw (shows i) -> b <= ph (shows i) -> pixelwise Rel (shows (ResizeImg (withImaging M T) (selectFilter filter) i a b)) (shows (ResizeImg (withImaging M T) (selectFilter filter) i' a b))) as K.
  { intros a b Ha Hb'. pose proof (Resize_small _ _ a b Sw Sh Ha Hb') as [R1 R2]. change (2 ^ 20) with 1048576 in *. eapply (ResizeImg_kept F Rel HRel M T _ Hf i i' a b Hi Hs); change (2 ^ 20) with 1048576; lia. }
  destruct (Z.eq_dec mode 1) as [E1|E1]; [|destruct (Z.eq_dec mode 5) as [E5|E5]].
  3: { destruct (prase_scale mode (pw (shows i)) (ph (shows i)) w h) as (nw & nh & -> & L1 & L2); try assumption; [split; assumption|]. apply K; assumption. }
  all: subst mode; unfold praseMode, newSide4mode; destruct (if ph (shows i) <=? pw (shows i) then (w, h) else (h, w)) as [x y] eqn:Exy; destruct ((_ <? x) && (_ <? y)); [apply K; lia|].
  - destruct (thumb_side (pw (shows i)) (ph (shows i)) w h M1 M2) as (L1 & L2 & L3 & L4); [unfold resizable in Hr; lia|]. destruct (getSideByThubnail _ _ w h) as [nw nh]. cbn [fst snd] in *. apply (FillImg_kept F Rel HRel M T _ Hf i i' nw nh Hi Hb Hs); change (2 ^ 20) with 1048576; lia.
  - destruct (thumb_side (pw (shows i)) (ph (shows i)) x y M1 M2) as (L1 & L2 & L3 & L4); [unfold resizable in Hr; destruct (ph (shows i) <=? pw (shows i)); injection Exy as <- <-; lia|]. destruct (getSideByThubnail _ _ x y) as [nw nh]. cbn [fst snd] in *. apply (FillImg_kept F Rel HRel M T _ Hf i i' nw nh Hi Hb Hs); change (2 ^ 20) with 1048576; lia.
Qed.
(** ScaleUpper and ScaleLower. *)
Lemma scaleImg_kept F (Rel : pixel -> pixel -> Prop) M T i i' a b mp lower : closed F Rel -> good F (filterOf M Lanczos) ->
  pixelwise Rel (shows i) (shows i') -> million (shows i) -> million (shows (scaleImg (withImaging M T) i a b mp lower)) ->
  pixelwise Rel (shows (scaleImg (withImaging M T) i a b mp lower)) (shows (scaleImg (withImaging M T) i' a b mp lower)).
Proof.
  intros HRel Hf Hi Hm Hr. assert (sides (shows i)) as Hs by (destruct Hm as [M1 M2]; unfold sides; change (2 ^ 20) with 1048576; lia). unfold scaleImg in *. destruct (dims Rel i i' Hi Hs) as (E1 & E2 & E3 & E4). rewrite E1, E2 in *. rewrite E3, E4. destruct (scaleTarget _ _ a b mp lower) as [nw nh].
  pose proof (Resize_ok (pw (shows i)) (ph (shows i)) nw nh) as [O1 O2].
  assert (0 <= fst (Resize (pw (shows i)) (ph (shows i)) nw nh) <= 2 ^ 20 /\ 0 <= snd (Resize (pw (shows i)) (ph (shows i)) nw nh) <= 2 ^ 20) as [B1 B2].
  { unfold ResizeImg in Hr. rewrite E1, E2 in Hr. destruct (Resize (pw (shows i)) (ph (shows i)) nw nh) as [W H]. cbn [fst snd] in *. destruct Hr as [H1 H2]. unfold fresh, Rect, shows in H1, H2. cbn -[Z.pow] in H1, H2. unfold size_ok in *. change (2 ^ 63) with 9223372036854775808 in *. change (2 ^ 20) with 1048576. destruct (W <? 0) eqn:?; destruct (H <? 0) eqn:?; lia. }
  apply (ResizeImg_kept F Rel HRel M T Lanczos Hf i i' nw nh Hi Hs B1 B2).
Qed.
Theorem upper_kept F (Rel : pixel -> pixel -> Prop) M T filter i i' o : closed F Rel -> good F (filterOf M Lanczos) ->
  pixelwise Rel (shows i) (shows i') -> million (shows i) -> million (shows (parseImage (withImaging M T) filter i 0 0 0 (onlyUpper o))) ->
  pixelwise Rel (shows (parseImage (withImaging M T) filter i 0 0 0 (onlyUpper o))) (shows (parseImage (withImaging M T) filter i' 0 0 0 (onlyUpper o))).
Proof. intros HRel Hf Hi Hm. rewrite !p_upper. unfold stepUpper. destruct (oScaleUpper o) as [|a [|b l]]; intros Hr; try exact Hi. apply (scaleImg_kept F); assumption. Qed.
Theorem lower_kept F (Rel : pixel -> pixel -> Prop) M T filter i i' o : closed F Rel -> good F (filterOf M Lanczos) ->
  pixelwise Rel (shows i) (shows i') -> million (shows i) -> million (shows (parseImage (withImaging M T) filter i 0 0 0 (onlyLower o))) ->
  pixelwise Rel (shows (parseImage (withImaging M T) filter i 0 0 0 (onlyLower o))) (shows (parseImage (withImaging M T) filter i' 0 0 0 (onlyLower o))).
Proof. intros HRel Hf Hi Hm. rewrite !p_lower. unfold stepLower. destruct (oScaleLower o) as [|a [|b l]]; intros Hr; try exact Hi. apply (scaleImg_kept F); assumption. Qed.
(** Blur. *)
Theorem blur_step_kept F (Rel : pixel -> pixel -> Prop) M T filter i i' o : bclosed F Rel ->
  (fle (oBlur o) (of_int 0) = false -> forall n x, 1 <= n <= 2 ^ 20 -> 0 <= x < n -> F (bws (fun j => gaussianBlurKernel M (of_int j) (oBlur o)) (to_int (fceil (fmul (oBlur o) (of_int 3)))) n x)) ->
  pixelwise Rel (shows i) (shows i') -> million (shows i) ->
  pixelwise Rel (shows (parseImage (withImaging M T) filter i 0 0 0 (onlyBlur o))) (shows (parseImage (withImaging M T) filter i' 0 0 0 (onlyBlur o))) /\
  pw (shows (parseImage (withImaging M T) filter i 0 0 0 (onlyBlur o))) = pw (shows i) /\ ph (shows (parseImage (withImaging M T) filter i 0 0 0 (onlyBlur o))) = ph (shows i).
Proof.
  intros HRel HF Hi Hm. rewrite !p_blur. unfold stepBlur. destruct (fgt _ _); [|auto]. unfold blurGaussianImage. cbn [withImaging blurred].
  assert (sides (shows i)) as Hs by (destruct Hm as [M1 M2]; unfold sides; change (2 ^ 20) with 1048576; lia). destruct (dims Rel i i' Hi Hs) as (E1 & E2 & E3 & E4). rewrite E1, E2, E3, E4. pose proof Hs as [S1 S2].
  destruct (blur_kept M (oBlur o) F Rel i i' HRel HF Hi Hs) as (A & B & C).
  assert (forall k, sides (shows k) -> at_origin (Blur M k (oBlur o))) as Ho.
  { intros k Sk. pose proof (sides_proper k Sk) as P. destruct Sk as [K1 K2]. change (2 ^ 20) with 1048576 in *. unfold Blur. destruct (fle _ _); [unfold Clone; rewrite Dx_proper, Dy_proper by exact P; apply origin_fresh; lia|]. cbn zeta. unfold blurVertical.
    set (g := fun j => gaussianBlurKernel M (of_int j) (oBlur o)). set (r := to_int _). assert (proper (blurHorizontal k g r)) as Q by (unfold blurHorizontal; rewrite !Dx_proper, !Dy_proper by exact P; apply fresh_proper; lia). rewrite !Dx_proper, !Dy_proper by exact Q. destruct Q as [Q1 Q2]. apply origin_fresh; cbn [shows pw ph]; lia. }
  apply refresh; [lia|lia|]. intros _ _. split; [apply Ho; exact Hs|]. split; [apply Ho; exact (pixelwise_sides _ _ _ Hi Hs)|]. split; [exact A|]. split; assumption.
Qed.
