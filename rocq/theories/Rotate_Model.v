(** The pixels of imaging.Rotate by an angle that is no multiple of 90 degrees, as image/image.go:666-668 calls it.

    disintegration/imaging v1.6.2 is implemented from its published code (transform.go, utils.go); the rows that it shares out among goroutines are computed independently
    of each other.  math.Sincos gives what math.Sin and math.Cos give, which are handed in.  Floating point without fused multiply-add, as on amd64. *)
From Coq Require Import ZArith List Bool.
From Flocq Require Import BinarySingleNaN.
From Verif Require Import GoInt GoFloat Image_Model Pixel_Model Resample_Model.
Import ListNotations.
Local Open Scope Z_scope.

(** rotatePoint (disintegration/imaging transform.go; image/image.go:667). *)
Definition rotatePoint (x y sin cos : f64) : f64 * f64 := (fsub (fmul x cos) (fmul y sin), fadd (fmul x sin) (fmul y cos)).
(** The constant 0.1, the float64 nearest to a tenth (disintegration/imaging transform.go, rotatedSize; image/image.go:667). *)
Definition tenth : f64 := fdiv (of_int 1) (of_int 10).
(** neww := maxx - minx + 1; if neww-math.Floor(neww) > 0.1 { neww++ }; int(neww), and the same for newh (disintegration/imaging transform.go, rotatedSize;
    image/image.go:667).  The four coordinates are numbers of which none is NaN, so that math.Min and math.Max are comparisons; the sign of a zero makes no difference. *)
Definition span (p1 p2 p3 : f64) : Z :=
  let min := fmin p1 (fmin p2 (fmin p3 (of_int 0))) in
  let max := fmax p1 (fmax p2 (fmax p3 (of_int 0))) in
  let n := fadd (fsub max min) (of_int 1) in
  let n := if fgt (fsub n (ffloor n)) tenth then fadd n (of_int 1) else n in
  to_int n.
(** rotatedSize with the sine and cosine of the angle (disintegration/imaging transform.go; image/image.go:667). *)
Definition rotatedSize (w h : Z) (sin cos : f64) : Z * Z :=
  if (w <=? 0) || (h <=? 0) then (0, 0)
  else
    let '(x1, y1) := rotatePoint (of_int (w - 1)) (of_int 0) sin cos in
    let '(x2, y2) := rotatePoint (of_int (w - 1)) (of_int (h - 1)) sin cos in
    let '(x3, y3) := rotatePoint (of_int 0) (of_int (h - 1)) sin cos in
    (span x1 x2 x3, span y1 y2 y3).
(** color.Transparent as color.NRGBA (Go image/color; image/image.go:667). *)
Definition Transparent : pixel := Px 0 0 0 0.
(** Point.In for the bounds of a picture whose top left corner is the origin (disintegration/imaging transform.go, interpolatePoint; image/image.go:667). *)
Definition inBounds (W H x y : Z) : bool := (0 <=? x) && (x <? W) && (0 <=? y) && (y <? H).
(** interpolatePoint: the pixel at a place between pixels.  The k-th of the four points is (x0 + k mod 2, y0 + k / 2); pixels outside the picture are the background
    (disintegration/imaging transform.go; image/image.go:667). *)
Definition interpolatePoint (i : img pixel) (xf yf : f64) : pixel :=
  let W := Dx (bounds i) in let H := Dy (bounds i) in
  let x0 := to_int (ffloor xf) in let y0 := to_int (ffloor yf) in
  if negb ((-1 <=? x0) && (x0 <? W) && (-1 <=? y0) && (y0 <? H)) then Transparent
  else
    let xq := fsub xf (of_int x0) in let yq := fsub yf (of_int y0) in
    let one := of_int 1 in
    let point k := let x := x0 + k mod 2 in let y := y0 + k / 2 in if inBounds W H x y then scan i x y else Transparent in
    mix point [(0, fmul (fsub one xq) (fsub one yq)); (1, fmul xq (fsub one yq)); (2, fmul (fsub one xq) yq); (3, fmul xq yq)].
(** float64(n)/2 - 0.5 (disintegration/imaging transform.go, Rotate; image/image.go:667). *)
Definition offset (n : Z) : f64 := fsub (fdiv (of_int n) (of_int 2)) fhalf.

Section rotate.
Variable M : mathf.
(** math.Pi * angle / 180 (disintegration/imaging transform.go, Rotate; image/image.go:667). *)
Definition radians (angle : f64) : f64 := fdiv (fmul pi angle) (of_int 180).
(** Rotate by an angle, in degrees, that is none of 0, 90, 180 and 270; a picture without pixels is returned without any (disintegration/imaging transform.go; image/image.go:667). *)
Definition rotateBy (angle : f64) (i : img pixel) : img pixel :=
  let srcW := Dx (bounds i) in let srcH := Dy (bounds i) in
  let sin := Sin M (radians angle) in let cos := Cos M (radians angle) in
  let '(dstW, dstH) := rotatedSize srcW srcH sin cos in
  if (dstW <=? 0) || (dstH <=? 0) then fresh dstW dstH (fun _ _ => Transparent)
  else fresh dstW dstH (fun x y =>
    let '(xf, yf) := rotatePoint (fsub (of_int x) (offset dstW)) (fsub (of_int y) (offset dstH)) sin cos in
    interpolatePoint i (fadd xf (offset srcW)) (fadd yf (offset srcH))).
End rotate.

(** Encode's tools with imaging's Rotate as above (image/image.go:193-384). *)
Definition withRotation (M : mathf) (T : tools) : tools :=
  Tools (decode T) (encode_std T) (encode_conv T) (resampled T) (filled T) (blurred T) (rotateBy M).
