(** image/adjust.go and image/image.go: what becomes of the pixels.  Gray, Invert, Rotate, FlipH, FlipV and the way through Image.Encode.

    Modelled: grayscale and inversion with the float64 and uint8 arithmetic of disintegration/imaging, the flips and the turns by multiples of 90 degrees pixel by
    pixel, the choice between them, the order of all steps of Encode, the choice of the encoder and what is returned when a step fails.  Not modelled, but handed in
    as arbitrary functions ([tools]): decoders, encoders, resampling filters, Blur and the turns by other angles.  A pixel is what imaging's scanner delivers
    (color.NRGBA, 8 bits for each channel); the conversion from other colour models is part of the decoder here.  Floating point without fused multiply-add, as on amd64. *)
From Coq Require Import ZArith List Bool String.
From Flocq Require Import BinarySingleNaN.
From Verif Require Import GoInt GoFloat Image_Model.
Import ListNotations.
Local Open Scope Z_scope.

(** color.NRGBA (Go image/color; image/adjust.go:28,32). *)
Record pixel := Px { pr : Z; pg : Z; pb : Z; pa : Z }.

(** x - y (disintegration/imaging transform.go, Rotate; image/image.go:667). *)
Definition fsub (x y : f64) : f64 := @Bminus 53 1024 prec_ok emax_ok mode_NE x y.
(** x == y (disintegration/imaging transform.go, the switch in Rotate; image/image.go:667). *)
Definition feq (x y : f64) : bool := Beqb x y.

(** ** Single pixels *)

(** The constants of imaging.Grayscale (disintegration/imaging adjust.go; image/adjust.go:28): the float64 next to 0.299, 0.587, 0.114. *)
Definition k299 : f64 := fdiv (of_int 299) (of_int 1000).
(** See [k299] (image/adjust.go:28). *)
Definition k587 : f64 := fdiv (of_int 587) (of_int 1000).
(** See [k299] (image/adjust.go:28). *)
Definition k114 : f64 := fdiv (of_int 114) (of_int 1000).
(** f := 0.299*float64(r) + 0.587*float64(g) + 0.114*float64(b); uint8(f + 0.5) (disintegration/imaging adjust.go, Grayscale; image/adjust.go:28). *)
Definition luma (r g b : Z) : Z :=
  u8 (to_int (fadd (fadd (fadd (fmul k299 (of_int r)) (fmul k587 (of_int g))) (fmul k114 (of_int b))) fhalf)).
(** One pixel of imaging.Grayscale (disintegration/imaging adjust.go; image/adjust.go:27-29). *)
Definition grayPixel (p : pixel) : pixel := let y := luma (pr p) (pg p) (pb p) in Px y y y (pa p).
(** One pixel of imaging.Invert: 255 - c in uint8, alpha kept (disintegration/imaging adjust.go; image/adjust.go:31-33). *)
Definition invertPixel (p : pixel) : pixel := Px (u8 (255 - pr p)) (u8 (255 - pg p)) (u8 (255 - pb p)) (pa p).

(** ** Whole images *)

(** What imaging's scanner reads at (x, y): counted from the top left corner (disintegration/imaging scanner.go; image/adjust.go:28). *)
Definition scan (i : img pixel) (x y : Z) : pixel := px i (minX (bounds i) + x) (minY (bounds i) + y).
(** image.NewNRGBA(image.Rect(0, 0, w, h)), filled with the given pixels (Go image; image/adjust.go:28). *)
Definition fresh (w h : Z) (f : Z -> Z -> pixel) : img pixel := Img (Rect 0 0 w h) f.
(** imaging.Clone (disintegration/imaging tools.go; image/image.go:667). *)
Definition Clone (i : img pixel) : img pixel := fresh (Dx (bounds i)) (Dy (bounds i)) (scan i).
(** convertToGrayByImage, imaging.Grayscale (image/adjust.go:27-29). *)
Definition convertToGrayByImage (i : img pixel) : img pixel := fresh (Dx (bounds i)) (Dy (bounds i)) (fun x y => grayPixel (scan i x y)).
(** invertByImage, imaging.Invert (image/adjust.go:31-33). *)
Definition invertByImage (i : img pixel) : img pixel := fresh (Dx (bounds i)) (Dy (bounds i)) (fun x y => invertPixel (scan i x y)).
(** flipHImage, imaging.FlipH: each row is scanned and reversed (image/image.go:670-672). *)
Definition flipHImage (i : img pixel) : img pixel :=
  let w := Dx (bounds i) in let h := Dy (bounds i) in fresh w h (fun x y => scan i (w - 1 - x) y).
(** flipVImage, imaging.FlipV: row dstY is row dstH - dstY - 1 of the source (image/image.go:674-676). *)
Definition flipVImage (i : img pixel) : img pixel :=
  let w := Dx (bounds i) in let h := Dy (bounds i) in fresh w h (fun x y => scan i x (h - y - 1)).
(** imaging.Rotate90: row dstY is column dstH - dstY - 1 of the source (disintegration/imaging transform.go; image/image.go:667). *)
Definition Rotate90 (i : img pixel) : img pixel :=
  let dstW := Dy (bounds i) in let dstH := Dx (bounds i) in fresh dstW dstH (fun x y => scan i (dstH - y - 1) x).
(** imaging.Rotate180: row dstY is row dstH - dstY - 1 of the source, reversed (disintegration/imaging transform.go; image/image.go:667). *)
Definition Rotate180 (i : img pixel) : img pixel :=
  let w := Dx (bounds i) in let h := Dy (bounds i) in fresh w h (fun x y => scan i (w - 1 - x) (h - y - 1)).
(** imaging.Rotate270: row dstY is column dstY of the source, reversed (disintegration/imaging transform.go; image/image.go:667). *)
Definition Rotate270 (i : img pixel) : img pixel :=
  let dstW := Dy (bounds i) in let dstH := Dx (bounds i) in fresh dstW dstH (fun x y => scan i y (dstW - 1 - x)).
(** angle - math.Floor(angle/360)*360 for angle = float64(degrees) (disintegration/imaging transform.go, Rotate; image/image.go:667). *)
Definition normAngle (degrees : Z) : f64 :=
  let angle := of_int degrees in fsub angle (fmul (ffloor (fdiv angle (of_int 360))) (of_int 360)).

(** ** Code of others that is not modelled *)

(** The decoders, encoders and filters that Encode calls (image/image.go:274,322,324,350,361-373). *)
Record tools := Tools {
  decode : list Z -> option (img pixel * string);              (* image.Decode: image/image.go:274 *)
  encode_std : string -> img pixel -> option (list Z);         (* jpeg.Encode, png.Encode, ... with default options: image/image.go:361-373 *)
  encode_conv : string -> img pixel -> option (list Z);        (* imaging.Encode, webp.Encode, ico.Encode: image/image.go:624-664 *)
  resampled : Z -> img pixel -> Z -> Z -> Z -> Z -> pixel;     (* imaging.Resize, the pixels: image/image.go:322, image/adjust.go:120 *)
  filled : Z -> img pixel -> Z -> Z -> Z -> Z -> pixel;        (* imaging.Fill, the pixels: image/image.go:324 *)
  blurred : f64 -> img pixel -> Z -> Z -> pixel;               (* imaging.Blur, the pixels; the size stays: image/adjust.go:87 *)
  rotated : f64 -> img pixel -> img pixel }.                   (* imaging.Rotate by an angle that is no multiple of 90: image/image.go:667 *)

Section encode.
Variable T : tools.

(** rotateImage, imaging.Rotate (image/image.go:666-668). *)
Definition rotateImage (i : img pixel) (degrees : Z) : img pixel :=
  let angle := normAngle degrees in
  if feq angle (of_int 0) then Clone i
  else if feq angle (of_int 90) then Rotate90 i
  else if feq angle (of_int 180) then Rotate180 i
  else if feq angle (of_int 270) then Rotate270 i
  else rotated T angle i.
(** imaging.Resize with its size (image/adjust.go:120, image/image.go:236,322); the size is [Image_Model.Resize]. *)
Definition ResizeImg (filter : Z) (i : img pixel) (w h : Z) : img pixel :=
  let '(W, H) := Resize (Dx (bounds i)) (Dy (bounds i)) w h in fresh W H (resampled T filter i W H).
(** imaging.Fill with its size (image/image.go:238,324); the size is [Image_Model.Fill]. *)
Definition FillImg (filter : Z) (i : img pixel) (w h : Z) : img pixel :=
  let '(W, H) := Fill (Dx (bounds i)) (Dy (bounds i)) w h in fresh W H (filled T filter i W H).
(** The number of imaging.Lanczos among the filters (image/image.go:97; image/adjust.go:120). *)
Definition Lanczos : Z := 9.
(** selectFilter: the filter of that number, MitchellNetravali (4) for numbers that are none (image/image.go:386-421). *)
Definition selectFilter (f : Z) : Z := if (0 <=? f) && (f <=? 14) then f else 4.
(** scaleImageWithRatio on pixels (image/adjust.go:90-122). *)
Definition scaleImg (i : img pixel) (newWidth newHeight maxPixel : Z) (lowerMode : bool) : img pixel :=
  let '(nw, nh) := scaleTarget (Dx (bounds i)) (Dy (bounds i)) newWidth newHeight maxPixel lowerMode in ResizeImg Lanczos i nw nh.
(** blurGaussianImage (image/adjust.go:86-88). *)
Definition blurGaussianImage (i : img pixel) (sigma : f64) : img pixel := fresh (Dx (bounds i)) (Dy (bounds i)) (blurred T sigma i).

(** Options (image/image.go:48-62); a nil slice is []. *)
Record Options := MkOptions {
  oGray : bool; oInvert : bool; oFormat : string; oRotate : Z; oFlipH : bool; oFlipV : bool; oColors : Z; oQuality : Z;
  oCropAnchor : list Z; oCropSide : list Z; oBlur : f64; oScaleUpper : list Z; oScaleLower : list Z }.
(** &Options{} (image/image.go:195,281). *)
Definition noOptions : Options := MkOptions false false "" 0 false false 0 0 [] [] (of_int 0) [] [].

(** The crop steps (image/image.go:198-208,284-294). *)
Definition stepAnchor (o : Options) (i : img pixel) : img pixel := match oCropAnchor o with [w; h; x; y] => cropImageByAnchor i w h x y | _ => i end.
(** See [stepAnchor] (image/image.go:204-208,290-294). *)
Definition stepSide (o : Options) (i : img pixel) : img pixel := match oCropSide o with [w; h; x; y] => cropImageBySide i w h x y | _ => i end.
(** The scale steps (image/image.go:210-218,296-304). *)
Definition stepUpper (o : Options) (i : img pixel) : img pixel :=
  match oScaleUpper o with nw :: nh :: _ => scaleImg i nw nh (maxPixel_of (oScaleUpper o)) false | _ => i end.
(** See [stepUpper] (image/image.go:220-228,306-314). *)
Definition stepLower (o : Options) (i : img pixel) : img pixel :=
  match oScaleLower o with nw :: nh :: _ => scaleImg i nw nh (maxPixel_of (oScaleLower o)) true | _ => i end.
(** The resize step (image/image.go:230-240,316-326). *)
Definition stepResize (filter width height mode : Z) (i : img pixel) : img pixel :=
  if (0 <? width) || (0 <? height) then
    let '(nw, nh, t) := praseMode mode (Dx (bounds i)) (Dy (bounds i)) width height in
    match t with SCALE => ResizeImg (selectFilter filter) i nw nh | THUMBNAIL => FillImg (selectFilter filter) i nw nh end
  else i.
(** image/image.go:242-244,328-330. *)
Definition stepGray (o : Options) (i : img pixel) : img pixel := if oGray o then convertToGrayByImage i else i.
(** image/image.go:246-248,332-334. *)
Definition stepInvert (o : Options) (i : img pixel) : img pixel := if oInvert o then invertByImage i else i.
(** image/image.go:250-252,336-338. *)
Definition stepRotate (o : Options) (i : img pixel) : img pixel := if oRotate o =? 0 then i else rotateImage i (oRotate o).
(** image/image.go:254-256,340-342. *)
Definition stepFlipH (o : Options) (i : img pixel) : img pixel := if oFlipH o then flipHImage i else i.
(** image/image.go:258-260,344-346. *)
Definition stepFlipV (o : Options) (i : img pixel) : img pixel := if oFlipV o then flipVImage i else i.
(** image/image.go:262-264,348-350. *)
Definition stepBlur (o : Options) (i : img pixel) : img pixel := if fgt (oBlur o) (of_int 0) then blurGaussianImage i (oBlur o) else i.
(** parseImage (image/image.go:193-266); Encode repeats its text (image/image.go:280-350) instead of calling it.  [filter]: Image.ResizeFilter. *)
Definition parseImage (filter : Z) (i : img pixel) (width height mode : Z) (o : Options) : img pixel :=
  let i := stepAnchor o i in
  let i := stepSide o i in
  let i := stepUpper o i in
  let i := stepLower o i in
  let i := stepResize filter width height mode i in
  let i := stepGray o i in
  let i := stepInvert o i in
  let i := stepRotate o i in
  let i := stepFlipH o i in
  let i := stepFlipV o i in
  stepBlur o i.

(** convertImageFormat (image/image.go:624-664); None: an error, also for formats it does not know. *)
Definition convertImageFormat (i : img pixel) (format : string) : option (list Z) :=
  if existsb (String.eqb format) ["jpg"; "jpeg"; "png"; "gif"; "bmp"; "tif"; "tiff"; "webp"; "ico"]%string then encode_conv T format i else None.
(** The name of an answer of imageType (image/image.go:430-455). *)
Definition typeName (t : itype) : string :=
  match t with Tnone => "" | Tpng => "png" | Tbmp => "bmp" | Tjpeg => "jpeg" | Tgif => "gif" | Ttiff => "tiff" | Twebp => "webp"
             | Tpsd => "psd" | Tico => "ico" | Tavif => "avif" end.
(** Encode (image/image.go:268-384): the data returned; the error returned is always nil.  Simplification: no panics in the code of others. *)
Definition Encode (filter : Z) (srcData : list Z) (width height mode : Z) (options : option Options) : list Z :=
  match decode T srcData with
  | None => srcData
  | Some (i, itype) =>
      let o := match options with Some o => o | None => noOptions end in
      let i := parseImage filter i width height mode o in
      let last := 
        let itype := if String.eqb itype "" then typeName (imageType srcData) else itype in
        if existsb (String.eqb itype) ["jpeg"; "png"; "gif"; "bmp"; "tiff"; "webp"]%string
        then match encode_std T itype i with Some d => d | None => srcData end
        else srcData in
      if String.eqb (oFormat o) "" then last
      else match convertImageFormat i (oFormat o) with Some d => d | None => last end
  end.
(** Image.Resize (image/image.go:423-428). *)
Definition ResizeData (filter : Z) (srcData : list Z) (width height mode : Z) : list Z :=
  if (width =? 0) && (height =? 0) then srcData else Encode filter srcData width height mode None.
End encode.
