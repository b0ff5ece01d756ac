(** The pixels of imaging.Resize and imaging.Blur, as image/image.go:236,322 and image/adjust.go:87,120 call them.

    disintegration/imaging v1.6.2 is implemented from its published code (resize.go, effects.go, scanner.go, utils.go); the rows that it shares out among goroutines
    are computed independently of each other.  math.Sin, math.Cos and math.Exp are handed in.  Floating point without fused multiply-add, as on amd64.
    Pixels are color.NRGBA, as in Pixel_Model. *)
From Coq Require Import ZArith List Bool.
From Flocq Require Import BinarySingleNaN.
From Verif Require Import GoInt GoFloat Image_Model Pixel_Model.
Import ListNotations.
Local Open Scope Z_scope.

(** math.Abs (disintegration/imaging resize.go; image/image.go:236). *)
Definition fabs (x : f64) : f64 := Babs x.
(** math.Ceil (disintegration/imaging resize.go; image/image.go:236). *)
Definition fceil (x : f64) : f64 := @Bnearbyint 53 1024 emax_ok mode_UP x.
(** -x (disintegration/imaging effects.go, gaussianBlurKernel; image/adjust.go:87). *)
Definition fneg (x : f64) : f64 := Bopp x.
(** x < y (disintegration/imaging resize.go; image/image.go:236). *)
Definition flt (x y : f64) : bool := Bltb x y.
(** x <= y (disintegration/imaging resize.go; image/image.go:236). *)
Definition fle (x y : f64) : bool := Bleb x y.

(** ** Filters *)

(** ResampleFilter (disintegration/imaging resize.go; image/image.go:386-421). *)
Record resampleFilter := Filter { Support : f64; Kernel : f64 -> f64 }.
(** Package math (disintegration/imaging resize.go, effects.go; image/image.go:386-421). *)
Record mathf := Math { Sin : f64 -> f64; Cos : f64 -> f64; Exp : f64 -> f64 }.

(** bcspline (disintegration/imaging resize.go; image/image.go:395-401). *)
Definition bcspline (x b c : f64) : f64 :=
  let x := fabs x in
  let i := of_int in
  if flt x (i 1) then
    fdiv (fadd (fadd (fmul (fmul (fmul (fsub (fsub (i 12) (fmul (i 9) b)) (fmul (i 6) c)) x) x) x)
                     (fmul (fmul (fadd (fadd (i (-18)) (fmul (i 12) b)) (fmul (i 6) c)) x) x))
               (fsub (i 6) (fmul (i 2) b))) (i 6)
  else if flt x (i 2) then
    fdiv (fadd (fadd (fadd (fmul (fmul (fmul (fsub (fneg b) (fmul (i 6) c)) x) x) x)
                           (fmul (fmul (fadd (fmul (i 6) b) (fmul (i 30) c)) x) x))
                     (fmul (fsub (fmul (i (-12)) b) (fmul (i 48) c)) x))
               (fadd (fmul (i 8) b) (fmul (i 24) c))) (i 6)
  else i 0.
(** Kernels that are 0 from [s] on (disintegration/imaging resize.go; image/image.go:386-421). *)
Definition within (s : f64) (k : f64 -> f64) (x : f64) : f64 := let x := fabs x in if flt x s then k x else of_int 0.
(** imaging.NearestNeighbor (disintegration/imaging resize.go; image/image.go:388-389); it has no kernel. *)
Definition NearestNeighbor : resampleFilter := Filter (of_int 0) (fun _ => of_int 0).
(** imaging.Box (disintegration/imaging resize.go; image/image.go:390-391). *)
Definition Box : resampleFilter := Filter fhalf (fun x => if fle (fabs x) fhalf then of_int 1 else of_int 0).
(** imaging.Linear (disintegration/imaging resize.go; image/image.go:392-393). *)
Definition Linear : resampleFilter := Filter (of_int 1) (within (of_int 1) (fun x => fsub (of_int 1) x)).
(** imaging.Hermite (disintegration/imaging resize.go; image/image.go:394-395). *)
Definition Hermite : resampleFilter := Filter (of_int 1) (within (of_int 1) (fun x => bcspline x (of_int 0) (of_int 0))).
(** 1.0/3.0 (disintegration/imaging resize.go; image/image.go:396-397). *)
Definition third : f64 := fdiv (of_int 1) (of_int 3).
(** imaging.MitchellNetravali (disintegration/imaging resize.go; image/image.go:396-397,418-419). *)
Definition MitchellNetravali : resampleFilter := Filter (of_int 2) (within (of_int 2) (fun x => bcspline x third third)).
(** imaging.CatmullRom (disintegration/imaging resize.go; image/image.go:398-399). *)
Definition CatmullRom : resampleFilter := Filter (of_int 2) (within (of_int 2) (fun x => bcspline x (of_int 0) fhalf)).
(** imaging.BSpline (disintegration/imaging resize.go; image/image.go:400-401). *)
Definition BSpline : resampleFilter := Filter (of_int 2) (within (of_int 2) (fun x => bcspline x (of_int 1) (of_int 0))).
Section math.
Variable M : mathf.
(** imaging.Gaussian (disintegration/imaging resize.go; image/image.go:402-403). *)
Definition Gaussian : resampleFilter := Filter (of_int 2) (within (of_int 2) (fun x => Exp M (fmul (fmul (of_int (-2)) x) x))).
(** math.Pi as a float64, which is 884279719003555/2^48 (disintegration/imaging resize.go; image/image.go:404-417). *)
Definition pi : f64 := fdiv (of_int 884279719003555) (of_int 281474976710656).
(** sinc (disintegration/imaging resize.go; image/image.go:404-417). *)
Definition sinc (x : f64) : f64 := if feq x (of_int 0) then of_int 1 else fdiv (Sin M (fmul pi x)) (fmul pi x).
(** The filters sinc(x) times a window up to 3 (disintegration/imaging resize.go; image/image.go:404-417). *)
Definition windowed (win : f64 -> f64) : resampleFilter := Filter (of_int 3) (within (of_int 3) (fun x => fmul (sinc x) (win x))).
(** imaging.Bartlett: sinc(x) * (3.0 - x) / 3.0 (disintegration/imaging resize.go; image/image.go:404-405). *)
Definition Bartlett : resampleFilter :=
  Filter (of_int 3) (within (of_int 3) (fun x => fdiv (fmul (sinc x) (fsub (of_int 3) x)) (of_int 3))).
(** imaging.Lanczos (disintegration/imaging resize.go; image/image.go:406-407). *)
Definition LanczosFilter : resampleFilter := windowed (fun x => sinc (fdiv x (of_int 3))).
(** n hundredths, as the constant is written in the source (disintegration/imaging resize.go; image/image.go:408-413). *)
Definition hundredths (n : Z) : f64 := fdiv (of_int n) (of_int 100).
(** imaging.Hann (disintegration/imaging resize.go; image/image.go:408-409). *)
Definition Hann : resampleFilter := windowed (fun x => fadd fhalf (fmul fhalf (Cos M (fdiv (fmul pi x) (of_int 3))))).
(** imaging.Hamming (disintegration/imaging resize.go; image/image.go:410-411). *)
Definition Hamming : resampleFilter :=
  windowed (fun x => fadd (hundredths 54) (fmul (hundredths 46) (Cos M (fdiv (fmul pi x) (of_int 3))))).
(** imaging.Blackman (disintegration/imaging resize.go; image/image.go:412-413). *)
Definition Blackman : resampleFilter :=
  windowed (fun x => fadd (fsub (hundredths 42) (fmul fhalf (Cos M (fadd (fdiv (fmul pi x) (of_int 3)) pi))))
                          (fmul (hundredths 8) (Cos M (fdiv (fmul (fmul (of_int 2) pi) x) (of_int 3))))).
(** imaging.Welch (disintegration/imaging resize.go; image/image.go:414-415). *)
Definition Welch : resampleFilter := windowed (fun x => fsub (of_int 1) (fdiv (fmul x x) (of_int 9))).
(** imaging.Cosine (disintegration/imaging resize.go; image/image.go:416-417). *)
Definition Cosine : resampleFilter := windowed (fun x => Cos M (fmul (fdiv pi (of_int 2)) (fdiv x (of_int 3)))).
(** The filter of a number (image/image.go:64-108,386-421). *)
Definition filterOf (n : Z) : resampleFilter :=
  match n with
  | 0 => NearestNeighbor | 1 => Box | 2 => Linear | 3 => Hermite | 4 => MitchellNetravali | 5 => CatmullRom | 6 => BSpline
  | 7 => Gaussian | 8 => Bartlett | 9 => LanczosFilter | 10 => Hann | 11 => Hamming | 12 => Blackman | 13 => Welch | 14 => Cosine
  | _ => MitchellNetravali
  end.
End math.

(** ** Resizing *)

(** a, a+1, ..., n numbers (the loops of disintegration/imaging resize.go; image/image.go:236). *)
Fixpoint zseq (a : Z) (n : nat) : list Z := match n with O => [] | S n => a :: zseq (a + 1) n end.
(** One element of precomputeWeights: the indices and weights for place [v] of dstSize (disintegration/imaging resize.go; image/image.go:236). *)
Definition weightsAt (f : resampleFilter) (dstSize srcSize v : Z) : list (Z * f64) :=
  let du := fdiv (of_int srcSize) (of_int dstSize) in
  let scale := if flt du (of_int 1) then of_int 1 else du in
  let ru := fceil (fmul scale (Support f)) in
  let fu := fsub (fmul (fadd (of_int v) fhalf) du) fhalf in
  let begin := to_int (fceil (fsub fu ru)) in
  let begin := if begin <? 0 then 0 else begin in
  let end_ := to_int (ffloor (fadd fu ru)) in
  let end_ := if srcSize - 1 <? end_ then srcSize - 1 else end_ in
  let tmp := filter (fun uw => negb (feq (snd uw) (of_int 0)))
               (map (fun u => (u, Kernel f (fdiv (fsub (of_int u) fu) scale))) (zseq begin (Z.to_nat (end_ - begin + 1)))) in
  let sum := fold_left (fun sum uw => fadd sum (snd uw)) tmp (of_int 0) in
  if feq sum (of_int 0) then tmp else map (fun uw => (fst uw, fdiv (snd uw) sum)) tmp.
(** clamp (disintegration/imaging utils.go; image/image.go:236). *)
Definition clampF (x : f64) : Z := let v := to_int (fadd x fhalf) in if 255 <? v then 255 else if 0 <? v then u8 v else 0.
(** The inner loop of resizeHorizontal and resizeVertical: sums of the weighted channels (disintegration/imaging resize.go; image/image.go:236). *)
Definition accumulate (line : Z -> pixel) (ws : list (Z * f64)) : f64 * f64 * f64 * f64 :=
  fold_left (fun '(r, g, b, a) iw =>
    let s := line (fst iw) in
    let aw := fmul (of_int (pa s)) (snd iw) in
    (fadd r (fmul (of_int (pr s)) aw), fadd g (fmul (of_int (pg s)) aw), fadd b (fmul (of_int (pb s)) aw), fadd a aw))
    ws (of_int 0, of_int 0, of_int 0, of_int 0).
(** The pixel that is stored; one that is not stored stays that of a new image (disintegration/imaging resize.go; image/image.go:236). *)
Definition mix (line : Z -> pixel) (ws : list (Z * f64)) : pixel :=
  let '(r, g, b, a) := accumulate line ws in
  if feq a (of_int 0) then Px 0 0 0 0
  else let aInv := fdiv (of_int 1) a in Px (clampF (fmul r aInv)) (clampF (fmul g aInv)) (clampF (fmul b aInv)) (clampF a).
(** resizeHorizontal (disintegration/imaging resize.go; image/image.go:236). *)
Definition resizeHorizontal (i : img pixel) (width : Z) (f : resampleFilter) : img pixel :=
  let srcW := Dx (bounds i) in fresh width (Dy (bounds i)) (fun x y => mix (fun u => scan i u y) (weightsAt f width srcW x)).
(** resizeVertical (disintegration/imaging resize.go; image/image.go:236). *)
Definition resizeVertical (i : img pixel) (height : Z) (f : resampleFilter) : img pixel :=
  let srcH := Dy (bounds i) in fresh (Dx (bounds i)) height (fun x y => mix (fun u => scan i x u) (weightsAt f height srcH y)).
(** resizeNearest (disintegration/imaging resize.go; image/image.go:236). *)
Definition resizeNearest (i : img pixel) (width height : Z) : img pixel :=
  let dx := fdiv (of_int (Dx (bounds i))) (of_int width) in
  let dy := fdiv (of_int (Dy (bounds i))) (of_int height) in
  fresh width height (fun x y => scan i (to_int (fmul (fadd (of_int x) fhalf) dx)) (to_int (fmul (fadd (of_int y) fhalf) dy))).
(** imaging.Resize once the size of the result is known, which is [Image_Model.Resize] (disintegration/imaging resize.go; image/image.go:236,322, image/adjust.go:120). *)
Definition resizeTo (f : resampleFilter) (i : img pixel) (dstW dstH : Z) : img pixel :=
  let srcW := Dx (bounds i) in let srcH := Dy (bounds i) in
  if fle (Support f) (of_int 0) then resizeNearest i dstW dstH
  else if negb (srcW =? dstW) && negb (srcH =? dstH) then resizeVertical (resizeHorizontal i dstW f) dstH f
  else if negb (srcW =? dstW) then resizeHorizontal i dstW f
  else if negb (srcH =? dstH) then resizeVertical i dstH f
  else Clone i.

(** imaging.Resize (disintegration/imaging resize.go; image/image.go:236,322, image/adjust.go:120). *)
Definition ResizeBy (f : resampleFilter) (i : img pixel) (width height : Z) : img pixel :=
  let '(w, h) := Resize (Dx (bounds i)) (Dy (bounds i)) width height in resizeTo f i w h.
(** imaging.CropAnchor with imaging.Center (disintegration/imaging tools.go; image/image.go:238,324). *)
Definition CropCenter (i : img pixel) (width height : Z) : img pixel :=
  let b := bounds i in
  let x := minX b + Z.quot (Dx b - width) 2 in
  let y := minY b + Z.quot (Dy b - height) 2 in
  Crop i (Intersect b (MkRect x y (x + width) (y + height))).
(** cropAndResize and resizeAndCrop (disintegration/imaging resize.go; image/image.go:238,324). *)
Definition cropAndResize (f : resampleFilter) (i : img pixel) (width height : Z) : img pixel :=
  let srcW := of_int (Dx (bounds i)) in let srcH := of_int (Dy (bounds i)) in
  let dstW := of_int width in let dstH := of_int height in
  let tmp :=
    if flt (fdiv srcW srcH) (fdiv dstW dstH)
    then CropCenter i (Dx (bounds i)) (to_int (fadd (fmax (of_int 1) (fdiv (fmul srcW dstH) dstW)) fhalf))
    else CropCenter i (to_int (fadd (fmax (of_int 1) (fdiv (fmul srcH dstW) dstH)) fhalf)) (Dy (bounds i)) in
  ResizeBy f tmp width height.
(** See [cropAndResize] (disintegration/imaging resize.go; image/image.go:238,324). *)
Definition resizeAndCrop (f : resampleFilter) (i : img pixel) (width height : Z) : img pixel :=
  let srcW := of_int (Dx (bounds i)) in let srcH := of_int (Dy (bounds i)) in
  let dstW := of_int width in let dstH := of_int height in
  let tmp := if flt (fdiv srcW srcH) (fdiv dstW dstH) then ResizeBy f i width 0 else ResizeBy f i 0 height in
  CropCenter tmp width height.
(** imaging.Fill with imaging.Center (disintegration/imaging resize.go; image/image.go:238,324). *)
Definition FillBy (f : resampleFilter) (i : img pixel) (width height : Z) : img pixel :=
  let srcW := Dx (bounds i) in let srcH := Dy (bounds i) in
  if (width <=? 0) || (height <=? 0) || (srcW <=? 0) || (srcH <=? 0) then fresh 0 0 (scan i)
  else if (srcW =? width) && (srcH =? height) then Clone i
  else if (100 <=? srcW) && (100 <=? srcH) then cropAndResize f i width height
  else resizeAndCrop f i width height.

(** ** Blur *)
Section blur.
Variable M : mathf.
(** gaussianBlurKernel (disintegration/imaging effects.go; image/adjust.go:87). *)
Definition gaussianBlurKernel (x sigma : f64) : f64 :=
  fdiv (Exp M (fdiv (fneg (fmul x x)) (fmul (fmul (of_int 2) sigma) sigma))) (fmul sigma (fsqrt (fmul (of_int 2) pi))).
(** One pixel of blurHorizontal and blurVertical at place [x] of [n] (disintegration/imaging effects.go; image/adjust.go:87). *)
Definition blurAt (kernel : Z -> f64) (radius n : Z) (line : Z -> pixel) (x : Z) : pixel :=
  let min := if x - radius <? 0 then 0 else x - radius in
  let max := if n - 1 <? x + radius then n - 1 else x + radius in
  let ws := map (fun ix => (ix, kernel (Z.abs (x - ix)))) (zseq min (Z.to_nat (max - min + 1))) in
  let wsum := fold_left (fun sum uw => fadd sum (snd uw)) ws (of_int 0) in
  let '(r, g, b, a) := accumulate line ws in
  if feq a (of_int 0) then Px 0 0 0 0
  else let aInv := fdiv (of_int 1) a in Px (clampF (fmul r aInv)) (clampF (fmul g aInv)) (clampF (fmul b aInv)) (clampF (fdiv a wsum)).
(** blurHorizontal (disintegration/imaging effects.go; image/adjust.go:87). *)
Definition blurHorizontal (i : img pixel) (kernel : Z -> f64) (radius : Z) : img pixel :=
  fresh (Dx (bounds i)) (Dy (bounds i)) (fun x y => blurAt kernel radius (Dx (bounds i)) (fun u => scan i u y) x).
(** blurVertical (disintegration/imaging effects.go; image/adjust.go:87). *)
Definition blurVertical (i : img pixel) (kernel : Z -> f64) (radius : Z) : img pixel :=
  fresh (Dx (bounds i)) (Dy (bounds i)) (fun x y => blurAt kernel radius (Dy (bounds i)) (fun u => scan i x u) y).
(** imaging.Blur (disintegration/imaging effects.go; image/adjust.go:86-88); a radius for which no kernel can be made panics there. *)
Definition Blur (i : img pixel) (sigma : f64) : img pixel :=
  if fle sigma (of_int 0) then Clone i
  else
    let radius := to_int (fceil (fmul sigma (of_int 3))) in
    let kernel j := gaussianBlurKernel (of_int j) sigma in
    blurVertical (blurHorizontal i kernel radius) kernel radius.
End blur.

(** Encode's tools with imaging's Resize, Fill and Blur as above (image/image.go:193-384). *)
Definition withImaging (M : mathf) (T : tools) : tools :=
  Tools (decode T) (encode_std T) (encode_conv T) (fun n i w h => px (resizeTo (filterOf M n) i w h)) (fun n i w h => px (FillBy (filterOf M n) i w h))
        (fun sigma i => px (Blur M i sigma)) (rotated T).
