(** Properties C68 to C72 and C89 to C95: sizes, crops and tables of the image package.

    [plain i w h]: an image of w x h with its corner at (0, 0), sides from 1 to 2^31.  All float64 arithmetic is binary64 with rounding to nearest even; the
    theorems depend on the axioms of Coq's real numbers through Flocq's proofs about it, as Print Assumptions shows. *)
From Coq Require Import ZArith List Bool Lia ZifyBool.
From Verif Require Import GoInt GoFloat Image_Model Image_Spec Image_Proofs ImageCrop_Proofs.
Import ListNotations.
Local Open Scope Z_scope.

Lemma ImageResize_size {P} (i : img P) w h a b mode : plain i w h -> ImageResize i a b mode = encode_resize a b mode (w, h).
Proof.
  intros Hi. destruct (plain_Dx i w h Hi) as [Ew Eh]. unfold ImageResize, encodeSize, encode_crops, encode_scales. cbn [CropAnchor CropSide ScaleUpper ScaleLower]. cbv zeta.
  rewrite Ew, Eh. destruct (_ && _) eqn:E; [|reflexivity]. unfold encode_resize. replace ((0 <? a) || (0 <? b)) with false by lia. reflexivity.
Qed.
Lemma plain_side {P} (i : img P) w h : plain i w h -> side w /\ side h.
Proof. intros (_ & Hw & Hh). unfold side. lia. Qed.
Definition grey (w h : Z) : img Z := Img (MkRect 0 0 w h) (fun x y => x + 1000 * y).
Lemma grey_plain w h : 1 <= w <= 2 ^ 31 -> 1 <= h <= 2 ^ 31 -> plain (grey w h) w h.
Proof. intros Hw Hh. split; [reflexivity|]. split; assumption. Qed.

(** * C68 Resize never enlarges *)
(** False of the modes that cut a thumbnail, when one side is 0: the other one is used for both. *)
Theorem c68_resize_never_enlarges_refuted : exists (i : img Z) w h a b mode, plain i w h /\ int64 a /\ int64 b /\
  ~ (fst (ImageResize i a b mode) <= w /\ snd (ImageResize i a b mode) <= h).
Proof.
  exists (grey 10 100), 10, 100, 0, 50, 1. split; [apply grey_plain; lia|]. split; [unfold int64; lia|]. split; [unfold int64; lia|]. vm_compute. intros [H _]. apply H. reflexivity.
Qed.
Print Assumptions c68_resize_never_enlarges_refuted.
(** All modes but 1 and 5, and these two for two sides that are not 0.  Missing for the full claim: modes 1 and 5 with a side that is 0. *)
Theorem c68_resize_never_enlarges_partial {P} (i : img P) w h a b mode : plain i w h -> int64 a -> int64 b ->
  mode <> 1 /\ mode <> 5 \/ a <> 0 /\ b <> 0 ->
  fst (ImageResize i a b mode) <= w /\ snd (ImageResize i a b mode) <= h.
Proof. intros Hi Ha Hb Hm. destruct (plain_side i w h Hi) as [Hw Hh]. rewrite (ImageResize_size i w h) by exact Hi. destruct (resize_le mode w h a b Hw Hh Ha Hb Hm). lia. Qed.
Print Assumptions c68_resize_never_enlarges_partial.
Example c68_ex : ImageResize (grey 1000 100) 50 40 0 = (400, 40) /\ ImageResize (grey 640 480) 100 100 2 = (133, 100) /\ ImageResize (grey 640 480) 100 900 5 = (100, 480).
Proof. vm_compute. repeat split. Qed.

(** * C69 Mode0 fits the requested box *)
Theorem c69_mode0_fits_refuted : exists (i : img Z) w h a b, plain i w h /\ 1 <= a < 2 ^ 63 /\ 1 <= b < 2 ^ 63 /\ h <= w /\ a < fst (ImageResize i a b 0).
Proof. exists (grey 1000 100), 1000, 100, 50, 40. split; [apply grey_plain; lia|]. split; [lia|]. split; [lia|]. split; [lia|]. vm_compute. reflexivity. Qed.
Print Assumptions c69_mode0_fits_refuted.
(** True if one side of the (turned) box is not smaller than that of the image, or if the smaller side of the box is also the one that binds.  Missing for the
    full claim: boxes smaller than the image whose smaller side is not the one that binds. *)
Theorem c69_mode0_fits_partial {P} (i : img P) w h a b bw bh : plain i w h -> 0 <= a < 2 ^ 63 -> 0 <= b < 2 ^ 63 -> 0 < a + b ->
  turned w h a b = (bw, bh) ->
  let A := or_source bw w in let B := or_source bh h in
  w <= A \/ h <= B \/ B < A /\ B * w <= A * h \/ A <= B /\ A * h <= B * w ->
  fst (ImageResize i a b 0) <= A /\ snd (ImageResize i a b 0) <= B.
Proof.
  intros Hi Ha Hb Hab Ht A B C. destruct (plain_side i w h Hi) as [Hw Hh]. rewrite (ImageResize_size i w h) by exact Hi. unfold encode_resize. cbn [fst snd].
  replace ((0 <? a) || (0 <? b)) with true by lia. unfold praseMode. change (newSide4mode w h a b) with (turned w h a b). rewrite Ht.
  assert (Hbw : 0 <= bw < 2 ^ 63 /\ 0 <= bh < 2 ^ 63) by (unfold turned in Ht; destruct (h <=? w); injection Ht as <- <-; lia).
  assert (EA : 1 <= A < 2 ^ 63) by (unfold A, or_source, side in *; destruct (bw =? 0) eqn:?; lia). assert (EB : 1 <= B < 2 ^ 63) by (unfold B, or_source, side in *; destruct (bh =? 0) eqn:?; lia).
  destruct ((w <? bw) && (h <? bh)) eqn:E.
  - rewrite Resize_id by assumption. cbn [fst snd]. unfold A, B, or_source. destruct (bw =? 0), (bh =? 0); lia.
  - assert (G : getMinAndkeepRatio w h bw bh = getMinAndkeepRatio w h A B).
    { unfold getMinAndkeepRatio. fold (or_source bw w) (or_source bh h) (or_source A w) (or_source B h). fold A B. assert (or_source A w = A) as -> by (unfold or_source; destruct (A =? 0) eqn:?; lia). assert (or_source B h = B) as -> by (unfold or_source; destruct (B =? 0) eqn:?; lia). reflexivity. }
    rewrite G. pose proof (getMin_fits w h A B Hw Hh ltac:(lia) ltac:(lia) ltac:(unfold is_int; lia) ltac:(unfold is_int; lia) ltac:(lia)) as F. cbv zeta in F. destruct (getMinAndkeepRatio w h A B) as [p q]. exact F.
Qed.
Print Assumptions c69_mode0_fits_partial.
Example c69_ex : ImageResize (grey 1000 800) 300 250 0 = (312, 250) /\ ImageResize (grey 1000 800) 500 250 0 = (312, 250) /\ 250 < 500 /\ 250 * 1000 <= 500 * 800.
Proof. vm_compute. repeat split; discriminate. Qed.

(** * C70 scaleDownToLimit *)
Theorem c70_limit a b limit : 1 <= a <= 2 ^ 53 -> 1 <= b <= 2 ^ 53 -> a * b < 2 ^ 63 -> 1 <= limit < 2 ^ 50 ->
  let '(a', b') := scaleDownToLimit a b limit in 0 <= a' <= a /\ 0 <= b' <= b /\ a' * b' <= limit.
Proof. intros Ha Hb Hab Hl. pose proof (limit_ok a b limit Ha Hb Hab Hl) as L. destruct (scaleDownToLimit a b limit). tauto. Qed.
Print Assumptions c70_limit.
(** The sides shrink in proportion, up to one pixel (and an error of 2^-51). *)
Theorem c70_proportion a b limit : 1 <= a <= 2 ^ 31 -> 1 <= b <= 2 ^ 31 -> a * b < 2 ^ 49 -> 1 <= limit < 2 ^ 49 ->
  let '(a', b') := scaleDownToLimit a b limit in a' * b <= (b' + 1) * a /\ b' * a <= (a' + 1) * b.
Proof. exact (limit_proportion a b limit). Qed.
Print Assumptions c70_proportion.
Example c70_ex : scaleDownToLimit 426 320 50000 = (257, 193) /\ 257 * 193 = 49601 /\ scaleDownToLimit 1000 1 10 = (100, 0).
Proof. vm_compute. repeat split. Qed.

(** * C71 Crops *)
Theorem c71_clamp v lo hi : lo <= hi -> lo <= clamp v lo hi <= hi /\ forall z, lo <= z <= hi -> Z.abs (v - clamp v lo hi) <= Z.abs (v - z).
Proof. exact (clamp_near v lo hi). Qed.
Print Assumptions c71_clamp.
Theorem c71_crop_inside {P} (i : img P) w h width height x y :
  plain i w h -> 0 <= width -> 0 <= height -> int64 x -> int64 y -> int64 (x + width) -> int64 (y + height) ->
  (0 <= x /\ 0 <= y /\ x + width <= w /\ y + height <= h -> exists i', cropImage i width height x y = Some i' /\ part i' i x y (x + width) (y + height)) /\
  (~ (0 <= x /\ 0 <= y /\ x + width <= w /\ y + height <= h) -> cropImage i width height x y = None).
Proof. exact (crop_ok i w h width height x y). Qed.
Print Assumptions c71_crop_inside.
(** False of images whose corner is not at (0, 0), as the frames of a GIF: the rectangle is taken in other coordinates. *)
Theorem c71_by_anchor_refuted : exists (i : img Z) width height x y, 0 <= x /\ 0 <= y /\ x + width <= Dx (bounds i) /\ y + height <= Dy (bounds i) /\ 0 < width /\ 0 < height /\
  ~ part (cropImageByAnchor i width height x y) i x y (x + width) (y + height).
Proof.
  exists (Img (MkRect 10 10 20 20) (fun x y => x + 1000 * y)), 5, 5, 0, 0. repeat (split; [vm_compute; congruence|]). unfold part. intros [(_ & _ & H & _)|[H _]]; [vm_compute in H; discriminate H|lia].
Qed.
Print Assumptions c71_by_anchor_refuted.
(** For all others: exactly what of the requested rectangle lies in the image.  Missing for the full claim: images with another corner. *)
Theorem c71_by_anchor_partial {P} (i : img P) w h width height x y :
  plain i w h -> 0 <= width -> 0 <= height -> int64 x -> int64 y -> int64 (x + width) -> int64 (y + height) -> int64 width -> int64 height ->
  part (cropImageByAnchor i width height x y) i (Z.max 0 x) (Z.max 0 y) (Z.min w (x + width)) (Z.min h (y + height)).
Proof. exact (anchor_ok i w h width height x y). Qed.
Print Assumptions c71_by_anchor_partial.
(** cropImageBySide moves the rectangle into the image, as little as possible; what is too large for the image is cut.  Missing as above. *)
Theorem c71_by_side_partial {P} (i : img P) w h width height x y : plain i w h -> 0 <= width < 2 ^ 62 -> 0 <= height < 2 ^ 62 -> int64 x -> int64 y ->
  exists x0 y0, part (cropImageBySide i width height x y) i x0 y0 (x0 + Z.min w width) (y0 + Z.min h height) /\
    0 <= x0 <= w - Z.min w width /\ 0 <= y0 <= h - Z.min h height /\
    (forall z, 0 <= z <= w - Z.min w width -> Z.abs (x - x0) <= Z.abs (x - z)) /\ (forall z, 0 <= z <= h - Z.min h height -> Z.abs (y - y0) <= Z.abs (y - z)).
Proof.
  intros Hi Hw Hh Ix Iy. exists (begins w width x), (begins h height y). split; [apply side_ok; assumption|]. pose proof Hi as (_ & Bw & Bh).
  assert (K : forall w width x, 1 <= w -> 0 <= width -> 0 <= begins w width x <= w - Z.min w width /\ forall z, 0 <= z <= w - Z.min w width -> Z.abs (x - begins w width x) <= Z.abs (x - z)).
  { intros w' wd x' ? ?. unfold begins. destruct (w' <? wd) eqn:E; [split; [lia|]; intros; replace z with 0 by lia; lia|]. pose proof (clamp_near x' 0 (w' - wd) ltac:(lia)) as [C1 C2]. replace (w' - Z.min w' wd) with (w' - wd) by lia. split; assumption. }
  destruct (K w width x ltac:(lia) ltac:(lia)) as [K1 K2]. destruct (K h height y ltac:(lia) ltac:(lia)) as [K3 K4]. split; [exact K1|]. split; [exact K3|]. split; assumption.
Qed.
Print Assumptions c71_by_side_partial.
Example c71_ex :
  clamp 7 0 5 = 5 /\ clamp (-7) 0 5 = 0 /\ cropImage (grey 10 10) 5 5 6 0 = None /\
  bounds (cropImageByAnchor (grey 10 10) 5 5 8 (-2)) = MkRect 0 0 2 3 /\ px (cropImageByAnchor (grey 10 10) 5 5 8 (-2)) 1 2 = 2009 /\
  bounds (cropImageBySide (grey 10 10) 5 20 8 3) = MkRect 0 0 5 10 /\ px (cropImageBySide (grey 10 10) 5 20 8 3) 0 1 = 1005.
Proof. vm_compute. repeat split. Qed.

(** * C72 Sniffing and tables *)
Theorem c72_sniff d t : (8 <= length d)%nat -> t <> Tnone -> imageType d = t <-> exists m, In (m, t) magics /\ starts_with m d.
Proof. exact (sniff d t). Qed.
Print Assumptions c72_sniff.
Theorem c72_short d : (length d < 8)%nat -> imageType d = Tnone.
Proof. exact (sniff_short d). Qed.
Print Assumptions c72_short.
Theorem c72_icon w h s : In s (icoThumbnails w h) <-> In s icon_sides /\ s < w /\ s < h.
Proof. rewrite ico_ok, filter_In. intuition lia. Qed.
Print Assumptions c72_icon.
Theorem c72_icon_order w h : icoThumbnails w h = filter (fun s => (s <? w) && (s <? h)) icon_sides.
Proof. exact (ico_ok w h). Qed.
Print Assumptions c72_icon_order.
Theorem c72_quality q : (10 < q -> 1 <= quality1 q <= 10) /\ (q <= 10 -> quality1 q = q) /\ qualityByBinary q = quality1 q.
Proof. exact (quality_ok q). Qed.
Print Assumptions c72_quality.
(** What the encoders get is in their range. *)
Theorem c72_encoders q : 1 <= q -> 1 <= jpegQuality q <= 100 /\ 1 <= gifColors q <= 256.
Proof. exact (encoder_ok q). Qed.
Print Assumptions c72_encoders.
(** Every step of the quality is a tenth of 75 for JPEG and of 256 colours for GIF. *)
Theorem c72_encoder_values q : 1 <= q -> jpegQuality q = quality1 q * 75 / 10 /\ gifColors q = quality1 q * 256 / 10.
Proof. intros H. destruct (encoder_values q H) as [-> ->]. split; [|reflexivity]. replace (quality1 q * 75) with (quality1 q * 15 * 5) by ring. replace 10 with (2 * 5) by reflexivity. apply eq_sym, Z.div_mul_cancel_r; lia. Qed.
Print Assumptions c72_encoder_values.
Example c72_ex : imageType [255; 216; 255; 224; 0; 16; 74; 70] = Tjpeg /\ imageType [255; 216] = Tnone /\ icoThumbnails 100 70 = [16; 32; 48; 64] /\ icoThumbnails 48 48 = [16; 32] /\
  quality1 95 = 6 /\ quality1 20 = 1 /\ jpegQuality 9 = 67 /\ gifColors 10 = 256.
Proof. vm_compute. repeat split. Qed.

(** * C89 The scaling modes keep the aspect ratio *)
Theorem c89_keeps_ratio {P} (i : img P) w h a b mode : plain i w h -> w <= 2 ^ 24 -> h <= 2 ^ 24 -> 0 <= a < 2 ^ 63 -> 0 <= b < 2 ^ 63 -> mode <> 1 -> mode <> 5 ->
  let '(rw, rh) := ImageResize i a b mode in Z.abs (rw * h - rh * w) <= Z.max w h.
Proof.
  intros Hi Bw Bh Ha Hb M1 M5. destruct (plain_side i w h Hi) as [Hw Hh]. rewrite (ImageResize_size i w h) by exact Hi. unfold encode_resize. cbn [fst snd].
  destruct ((0 <? a) || (0 <? b)) eqn:E; [|replace (w * h - h * w) with 0 by ring; unfold side in *; lia].
  destruct (prase_keeps mode w h a b) as (p & -> & K); [split; assumption|assumption|assumption|unfold request, is_int; lia|].
  pose proof (keeps_ratio w h p ltac:(unfold side24, side in *; lia) ltac:(unfold side24, side in *; lia) K) as R. destruct p as [nw nh]. exact R.
Qed.
Print Assumptions c89_keeps_ratio.
Theorem c89_never_vanishes {P} (i : img P) w h a b mode : plain i w h -> 0 <= a < 2 ^ 63 -> 0 <= b < 2 ^ 63 -> mode <> 1 -> mode <> 5 ->
  1 <= fst (ImageResize i a b mode) /\ 1 <= snd (ImageResize i a b mode).
Proof.
  intros Hi Ha Hb M1 M5. destruct (plain_side i w h Hi) as [Hw Hh]. rewrite (ImageResize_size i w h) by exact Hi. unfold encode_resize. cbn [fst snd].
  destruct ((0 <? a) || (0 <? b)) eqn:E; [|unfold side in *; cbn [fst snd]; lia].
  destruct (prase_keeps mode w h a b) as (p & -> & K); [split; assumption|assumption|assumption|unfold request, is_int; lia|].
  pose proof (keeps_nonempty w h p Hw Hh K) as R. destruct p as [nw nh]. exact R.
Qed.
Print Assumptions c89_never_vanishes.
Example c89_ex : ImageResize (grey 1000 1) 100 0 0 = (100, 1) /\ ImageResize (grey 640 480) 0 100 2 = (133, 100) /\ Z.abs (133 * 480 - 100 * 640) = 160.
Proof. vm_compute. repeat split. Qed.

(** * C90 ScaleLower fits its box *)
Theorem c90_scale_lower_fits w h a b maxPixel : 1 <= w <= 2 ^ 31 -> 1 <= h <= 2 ^ 31 -> 0 <= a <= 2 ^ 31 -> 0 <= b <= 2 ^ 31 -> maxPixel < 2 ^ 50 ->
  let '(rw, rh) := scaleImageWithRatio w h a b maxPixel true in 0 <= rw <= Z.max 1 a /\ 0 <= rh <= Z.max 1 b.
Proof. exact (lower_fits w h a b maxPixel). Qed.
Print Assumptions c90_scale_lower_fits.
Example c90_ex : scaleImageWithRatio 640 480 320 320 0 true = (320, 240) /\ scaleImageWithRatio 3 1000 7 999 0 true = (2, 999) /\ scaleImageWithRatio 640 480 2000 900 100000 true = (365, 273).
Proof. vm_compute. repeat split. Qed.

(** * C91 ScaleUpper covers its box *)
(** False by one pixel: an image of the size of the box loses a row. *)
Theorem c91_scale_upper_covers_refuted : exists w h a b, 1 <= w <= 2 ^ 31 /\ 1 <= h <= 2 ^ 31 /\ 1 <= a <= 2 ^ 31 /\ 1 <= b <= 2 ^ 31 /\
  ~ (a <= fst (scaleImageWithRatio w h a b 0 false) /\ b <= snd (scaleImageWithRatio w h a b 0 false)).
Proof. exists 1, 93, 1, 93. repeat (split; [lia|]). vm_compute. intros [_ H]. apply H. reflexivity. Qed.
Print Assumptions c91_scale_upper_covers_refuted.
(** Never more than one row is missing, and no column.  Missing for the full claim: that row. *)
Theorem c91_scale_upper_nearly_covers_partial w h a b maxPixel : 1 <= w <= 2 ^ 31 -> 1 <= h <= 2 ^ 31 -> 0 <= a <= 2 ^ 31 -> 0 <= b <= 2 ^ 31 -> maxPixel <= 0 ->
  let '(rw, rh) := scaleImageWithRatio w h a b maxPixel false in a <= rw /\ b - 1 <= rh /\ 1 <= rw /\ 1 <= rh.
Proof. exact (upper_near w h a b maxPixel). Qed.
Print Assumptions c91_scale_upper_nearly_covers_partial.
(** None is missing if the box has not exactly the ratio of the image, up to 2^24 pixels a side.  Missing: boxes of the same ratio. *)
Theorem c91_scale_upper_covers_partial w h a b maxPixel : 1 <= w <= 2 ^ 24 -> 1 <= h <= 2 ^ 24 -> 0 <= a <= 2 ^ 24 -> 0 <= b <= 2 ^ 24 -> maxPixel <= 0 ->
  Z.max 1 a * h <> Z.max 1 b * w ->
  let '(rw, rh) := scaleImageWithRatio w h a b maxPixel false in a <= rw /\ b <= rh.
Proof. exact (upper_exact w h a b maxPixel). Qed.
Print Assumptions c91_scale_upper_covers_partial.
Example c91_ex : scaleImageWithRatio 640 480 320 320 0 false = (426, 320) /\ scaleImageWithRatio 480 640 320 320 0 false = (320, 426) /\ scaleImageWithRatio 1 93 1 93 0 false = (1, 92).
Proof. vm_compute. repeat split. Qed.

(** * C92 maxPixel *)
(** False of long thin images: a side of 0 is taken by imaging.Resize as "keep the ratio". *)
Theorem c92_max_pixel_refuted : exists w h a b maxPixel lower, 1 <= w <= 2 ^ 16 /\ 1 <= h <= 2 ^ 16 /\ 1 <= a <= 2 ^ 14 /\ 1 <= b <= 2 ^ 14 /\ 1 <= maxPixel /\
  maxPixel < fst (scaleImageWithRatio w h a b maxPixel lower) * snd (scaleImageWithRatio w h a b maxPixel lower).
Proof. exists 1000, 1, 1000, 1, 10, true. repeat (split; [lia|]). vm_compute. reflexivity. Qed.
Print Assumptions c92_max_pixel_refuted.
(** True if the limit is at least eight times the ratio of the sides.  Missing: smaller limits, larger images and boxes. *)
Theorem c92_max_pixel_partial w h a b maxPixel lower : 1 <= w <= 2 ^ 16 -> 1 <= h <= 2 ^ 16 -> 0 <= a <= 2 ^ 14 -> 0 <= b <= 2 ^ 14 -> 1 <= maxPixel < 2 ^ 50 ->
  8 * w <= maxPixel * h -> 8 * h <= maxPixel * w ->
  let '(rw, rh) := scaleImageWithRatio w h a b maxPixel lower in rw * rh <= maxPixel.
Proof. exact (pixels_ok w h a b maxPixel lower). Qed.
Print Assumptions c92_max_pixel_partial.
Example c92_ex : scaleImageWithRatio 640 480 320 320 50000 false = (257, 193) /\ 257 * 193 = 49601 /\ scaleImageWithRatio 1000 1 1000 1 10 true = (100, 1).
Proof. vm_compute. repeat split. Qed.

(** * C93 ResizeGIF fits and never enlarges *)
(** The frames with something in them, on a canvas whose sides go up to 2^31. *)
Definition canvas (frames : list rect) (cw ch : Z) : Prop := frames <> [] /\ Dx (gifCanvas frames) = cw /\ Dy (gifCanvas frames) = ch /\ 1 <= cw <= 2 ^ 31 /\ 1 <= ch <= 2 ^ 31.
Theorem c93_gif_fits frames cw ch tw th : canvas frames cw ch -> tw <= 2 ^ 53 -> th <= 2 ^ 53 ->
  exists rw rh, resizeGIF frames tw th = Some (rw, rh) /\ rw <= cw /\ rh <= ch /\ (0 < tw -> rw <= tw) /\ (0 < th -> rh <= th).
Proof.
  intros (Hne & Ew & Eh & Hw & Hh) Ht1 Ht2. unfold resizeGIF. destruct frames as [|f r]; [congruence|]. cbv zeta. rewrite Ew, Eh.
  pose proof (gif_fits cw ch tw th Hw Hh Ht1 Ht2) as G. destruct (gifSize cw ch tw th) as [nw nh]. destruct G as (_ & _ & G & _).
  apply fitsR_Resize in G; [|exact Hw|exact Hh|unfold goal; destruct (0 <? tw) eqn:?; lia|unfold goal; destruct (0 <? th) eqn:?; lia].
  destruct (Resize cw ch nw nh) as [rw rh]. cbn [fst snd] in G. exists rw, rh. split; [reflexivity|]. unfold goal in G. destruct (0 <? tw) eqn:E1, (0 <? th) eqn:E2; lia.
Qed.
Print Assumptions c93_gif_fits.
(** The canvas holds every frame. *)
Theorem c93_canvas_holds frames r : In r frames -> Empty r = false ->
  minX (gifCanvas frames) <= minX r /\ minY (gifCanvas frames) <= minY r /\ maxX r <= maxX (gifCanvas frames) /\ maxY r <= maxY (gifCanvas frames).
Proof. exact (canvas_holds frames r). Qed.
Print Assumptions c93_canvas_holds.
Example c93_ex : canvas [MkRect 5 5 40 30; MkRect 0 0 60 10] 60 30 /\ resizeGIF [MkRect 5 5 40 30; MkRect 0 0 60 10] 15 0 = Some (15, 7).
Proof. split; [|vm_compute; reflexivity]. split; [discriminate|]. split; [reflexivity|]. split; [reflexivity|]. lia. Qed.

(** * C94 ResizeGIF reaches its target *)
Theorem c94_gif_reaches_refuted : exists frames cw ch tw th, canvas frames cw ch /\ 0 < tw <= cw /\ th = 0 /\ exists rw rh, resizeGIF frames tw th = Some (rw, rh) /\ rw < tw.
Proof.
  exists [MkRect 0 0 22 22], 22, 22, 15, 0. split; [split; [discriminate|]; split; [reflexivity|]; split; [reflexivity|]; lia|]. split; [lia|]. split; [reflexivity|].
  exists 14, 14. split; [vm_compute; reflexivity|lia].
Qed.
Print Assumptions c94_gif_reaches_refuted.
(** It may even leave nothing. *)
Theorem c94_gif_vanishes_refuted : exists frames cw ch tw th, canvas frames cw ch /\ 0 < tw /\ 0 < th /\ resizeGIF frames tw th = Some (0, 0).
Proof.
  exists [MkRect 0 0 49 49], 49, 49, 1, 1. split; [split; [discriminate|]; split; [reflexivity|]; split; [reflexivity|]; lia|]. split; [lia|]. split; [lia|]. vm_compute. reflexivity.
Qed.
Print Assumptions c94_gif_vanishes_refuted.
(** At least one side comes within one pixel of what the target and the canvas allow.  Missing: that pixel. *)
Theorem c94_gif_nearly_reaches_partial frames cw ch tw th : canvas frames cw ch -> tw <= 2 ^ 53 -> th <= 2 ^ 53 ->
  exists rw rh, resizeGIF frames tw th = Some (rw, rh) /\
    ((if 0 <? tw then Z.min tw cw else cw) - 1 <= rw \/ (if 0 <? th then Z.min th ch else ch) - 1 <= rh).
Proof.
  intros (Hne & Ew & Eh & Hw & Hh) Ht1 Ht2. unfold resizeGIF. destruct frames as [|f r]; [congruence|]. cbv zeta. rewrite Ew, Eh.
  pose proof (gif_fits cw ch tw th Hw Hh Ht1 Ht2) as G. destruct (gifSize cw ch tw th) as [nw nh]. destruct G as (W0 & H0 & (F1 & F2 & _) & G). fold (goal cw tw) (goal ch th).
  assert (Gw : goal cw tw <= cw) by (unfold goal; destruct (0 <? tw); lia). assert (Gh : goal ch th <= ch) by (unfold goal; destruct (0 <? th); lia).
  rewrite Resize_unfold by assumption. replace ((nw <? 0) || (nh <? 0)) with false by lia. destruct (nw =? 0) eqn:E1, (nh =? 0) eqn:E2; (eexists; eexists; split; [reflexivity|]); try lia.
  - pose proof (other_pos nh cw ch ltac:(unfold side; lia) Hw Hh). lia.
  - pose proof (other_pos nw ch cw ltac:(unfold side; lia) Hh Hw). lia.
Qed.
Print Assumptions c94_gif_nearly_reaches_partial.
Example c94_ex : resizeGIF [MkRect 0 0 640 480] 320 320 = Some (320, 240) /\ resizeGIF [MkRect 0 0 640 480] 0 0 = Some (640, 480).
Proof. vm_compute. repeat split. Qed.

(** * C95 The sniffed type is the format of the file *)
Theorem c95_webp_refuted : exists d, imageType d = Twebp /\ ~ is_webp d.
Proof.
  exists [82; 73; 70; 70; 36; 0; 0; 0; 87; 65; 86; 69; 102; 109; 116; 32]. split; [reflexivity|]. intros (a & b & c & e & r & H). cbn [app] in H.
  assert (K : 65 = 69) by congruence. discriminate K.
Qed.
Print Assumptions c95_webp_refuted.
Theorem c95_avif_refuted : exists d, is_avif d /\ imageType d = Tnone.
Proof. exists [0; 0; 0; 32; 102; 116; 121; 112; 97; 118; 105; 102; 0; 0; 0; 0]. split; [exists 0, 0, 0, 32, [0; 0; 0; 0]; reflexivity|reflexivity]. Qed.
Print Assumptions c95_avif_refuted.
(** No AVIF file is ever recognised. *)
Theorem c95_avif_never d : is_avif d -> imageType d <> Tavif.
Proof.
  intros (a & b & c & e & r & ->) H. apply sniff in H; [|cbn; lia|discriminate]. destruct H as (m & Hin & [q Hq]). cbn [magics In] in Hin.
  repeat (destruct Hin as [Hin|Hin]; [try discriminate Hin|]); [|destruct Hin]. assert (m = [0; 0; 0; 12; 97; 118; 105; 102]) as -> by congruence. cbn [app] in Hq. assert (K : 102 = 97) by congruence. discriminate K.
Qed.
Print Assumptions c95_avif_never.
(** Every WebP file is recognised as one.  Missing for the full claim: that nothing else is, and AVIF. *)
Theorem c95_webp_partial d : is_webp d -> imageType d = Twebp.
Proof. intros (a & b & c & e & r & ->). apply sniff; [cbn; lia|discriminate|]. exists [82; 73; 70; 70]. split; [cbn; tauto|]. eexists. cbn [app]. reflexivity. Qed.
Print Assumptions c95_webp_partial.
Example c95_ex : imageType [82; 73; 70; 70; 36; 0; 0; 0; 87; 69; 66; 80; 86; 80; 56; 32] = Twebp.
Proof. reflexivity. Qed.
