(** image/adjust.go and image/image.go: where images are cut and how large they become.

    Modelled: the rectangles and the sizes (int arithmetic of 64 bits, float64 arithmetic of binary64), the pixels kept by the crop functions, the
    sniffing of formats and the tables of options.  Not modelled: the decoders and encoders, the resampling filters, Gray, Invert, Rotate, FlipH,
    FlipV and Blur.  disintegration/imaging (Crop, Resize, Fill) and Go's image.Rectangle are modelled from their published code. *)
From Coq Require Import ZArith List Bool.
From Verif Require Import GoInt GoFloat.
Import ListNotations.
Local Open Scope Z_scope.

(** image.Rectangle (Go image/geom.go; image/adjust.go:39). *)
Record rect := MkRect { minX : Z; minY : Z; maxX : Z; maxY : Z }.
(** Bounds().Dx() (Go image/geom.go; image/adjust.go:36). *)
Definition Dx (r : rect) : Z := i64 (maxX r - minX r).
(** Bounds().Dy() (Go image/geom.go; image/adjust.go:36). *)
Definition Dy (r : rect) : Z := i64 (maxY r - minY r).
(** image.Rect: sides in the wrong order are swapped (Go image/geom.go; image/adjust.go:39,47,59,71). *)
Definition Rect (x0 y0 x1 y1 : Z) : rect :=
  MkRect (if x1 <? x0 then x1 else x0) (if y1 <? y0 then y1 else y0) (if x1 <? x0 then x0 else x1) (if y1 <? y0 then y0 else y1).
(** Rectangle.Empty (Go image/geom.go; image/adjust.go:40). *)
Definition Empty (r : rect) : bool := (maxX r <=? minX r) || (maxY r <=? minY r).
(** Rectangle.Intersect (Go image/geom.go; image/adjust.go:40). *)
Definition Intersect (r s : rect) : rect :=
  let t := MkRect (if minX r <? minX s then minX s else minX r) (if minY r <? minY s then minY s else minY r)
                  (if maxX s <? maxX r then maxX s else maxX r) (if maxY s <? maxY r then maxY s else maxY r) in
  if Empty t then MkRect 0 0 0 0 else t.
(** Rectangle.Union (Go image/geom.go; image/image.go:140). *)
Definition Union (r s : rect) : rect :=
  if Empty r then s else if Empty s then r
  else MkRect (if minX s <? minX r then minX s else minX r) (if minY s <? minY r then minY s else minY r)
              (if maxX r <? maxX s then maxX s else maxX r) (if maxY r <? maxY s then maxY s else maxY r).

(** image.Image: bounds and the colour At(x, y) (image/adjust.go:35).  [P]: the colours; what At says outside of the bounds does not matter. *)
Record img (P : Type) := Img { bounds : rect; px : Z -> Z -> P }.
Arguments Img {P} bounds px. Arguments bounds {P} i. Arguments px {P} i.
Section crop.
Context {P : Type}.
(** imaging.Crop (disintegration/imaging tools.go; image/adjust.go:40,48,60,72): the part of the rectangle that lies in the image, moved to (0, 0); nothing at
    all if there is none.  Simplification: the colour model of the result is that of the source. *)
Definition Crop (i : img P) (r : rect) : img P :=
  let t := Intersect r (bounds i) in
  if Empty (MkRect (minX t - minX (bounds i)) (minY t - minY (bounds i)) (maxX t - minX (bounds i)) (maxY t - minY (bounds i)))
  then Img (MkRect 0 0 0 0) (px i)
  else Img (MkRect 0 0 (maxX t - minX t) (maxY t - minY t)) (fun x y => px i (x + minX t) (y + minY t)).
(** clamp (image/adjust.go:77-84). *)
Definition clamp (value min max : Z) : Z := if value <? min then min else if max <? value then max else value.
(** cropImage (image/adjust.go:35-42); None: "the clipping area is out of range". *)
Definition cropImage (i : img P) (width height x y : Z) : option (img P) :=
  if (x <? 0) || (y <? 0) || (Dx (bounds i) <? i64 (x + width)) || (Dy (bounds i) <? i64 (y + height)) then None
  else Some (Crop i (Rect x y (i64 (x + width)) (i64 (y + height)))).
(** cropImageByAnchor (image/adjust.go:44-63); its error is always nil. *)
Definition cropImageByAnchor (i : img P) (width height x y : Z) : img P :=
  if (0 <=? x) && (0 <=? y) && (i64 (x + width) <=? Dx (bounds i)) && (i64 (y + height) <=? Dy (bounds i))
  then Crop i (Rect x y (i64 (x + width)) (i64 (y + height)))
  else
    let newWidth := if Dx (bounds i) <? i64 (x + width) then i64 (Dx (bounds i) - x) else width in
    let newHeight := if Dy (bounds i) <? i64 (y + height) then i64 (Dy (bounds i) - y) else height in
    Crop i (Rect x y (i64 (x + newWidth)) (i64 (y + newHeight))).
(** cropImageBySide (image/adjust.go:65-75); its error is always nil. *)
Definition cropImageBySide (i : img P) (width height x y : Z) : img P :=
  let x := clamp x 0 (i64 (Dx (bounds i) - width)) in
  let y := clamp y 0 (i64 (Dy (bounds i) - height)) in
  Crop i (Rect x y (i64 (x + width)) (i64 (y + height))).
End crop.

(** ** Sizes: a pair of the width and the height *)

(** scaleDownToLimit (image/adjust.go:124-134). *)
Definition scaleDownToLimit (a b limit : Z) : Z * Z :=
  if (a <=? 0) || (b <=? 0) || (limit <=? 0) then (0, 0)
  else if i64 (a * b) <? limit then (a, b)
  else
    let fs := fdiv (of_int limit) (of_int (i64 (a * b))) in
    let sqrt := fsqrt fs in
    (to_int (fmul (of_int a) sqrt), to_int (fmul (of_int b) sqrt)).
(** imaging.Resize: the size of what it returns (disintegration/imaging resize.go; image/adjust.go:120, image/image.go:236,322). *)
Definition Resize (w h width height : Z) : Z * Z :=
  if (width <? 0) || (height <? 0) then (0, 0)
  else if (width =? 0) && (height =? 0) then (0, 0)
  else if (w <=? 0) || (h <=? 0) then (0, 0)
  else
    let dstW := if width =? 0
                then to_int (fmax (of_int 1) (ffloor (fadd (fdiv (fmul (of_int height) (of_int w)) (of_int h)) fhalf))) else width in
    let dstH := if height =? 0
                then to_int (fmax (of_int 1) (ffloor (fadd (fdiv (fmul (of_int dstW) (of_int h)) (of_int w)) fhalf))) else height in
    (dstW, dstH).
(** imaging.Fill: the size of what it returns (disintegration/imaging resize.go; image/image.go:238,324). *)
Definition Fill (w h width height : Z) : Z * Z :=
  if (width <=? 0) || (height <=? 0) || (w <=? 0) || (h <=? 0) then (0, 0) else (width, height).
(** scaleImageWithRatio up to the call of imaging.Resize (image/adjust.go:90-118) for an image of w x h. *)
Definition scaleTarget (w h newWidth newHeight maxPixel : Z) (lowerMode : bool) : Z * Z :=
  let newWidth := if newWidth =? 0 then 1 else newWidth in
  let newHeight := if newHeight =? 0 then 1 else newHeight in
  let aspectRatio := fdiv (of_int w) (of_int h) in
  let wider := fgt aspectRatio (fdiv (of_int newWidth) (of_int newHeight)) in
  let '(newWidth, newHeight) :=
    if Bool.eqb lowerMode wider then (newWidth, to_int (fdiv (of_int newWidth) aspectRatio))
    else (to_int (fmul (of_int newHeight) aspectRatio), newHeight) in
  if (0 <? maxPixel) && (maxPixel <? i64 (newWidth * newHeight)) then scaleDownToLimit newWidth newHeight maxPixel
  else (newWidth, newHeight).
(** scaleImageWithRatio (image/adjust.go:90-122): the size of the result. *)
Definition scaleImageWithRatio (w h newWidth newHeight maxPixel : Z) (lowerMode : bool) : Z * Z :=
  let '(nw, nh) := scaleTarget w h newWidth newHeight maxPixel lowerMode in Resize w h nw nh.
(** resizeGIF (image/image.go:142-162): the new width and height for a canvas of canvasW x canvasH. *)
Definition gifSize (canvasW canvasH targetWidth targetHeight : Z) : Z * Z :=
  let scale :=
    if (0 <? targetWidth) || (0 <? targetHeight) then
      let scaleX := if 0 <? targetWidth then fdiv (of_int targetWidth) (of_int canvasW) else finf in
      let scaleY := if 0 <? targetHeight then fdiv (of_int targetHeight) (of_int canvasH) else finf in
      let scale := fmin scaleX scaleY in
      if fgt scale (of_int 1) then of_int 1 else scale
    else of_int 1 in
  (to_int (fmul (of_int canvasW) scale), to_int (fmul (of_int canvasH) scale)).
(** The canvas of resizeGIF (image/image.go:138-143). *)
Definition gifCanvas (frames : list rect) : rect := fold_left Union frames (Rect 0 0 0 0).
(** resizeGIF (image/image.go:134-191): the size of each frame of the new GIF, all alike; None: no frames, nothing returned.  newW, newH are handed to
    imaging.Resize. *)
Definition resizeGIF (frames : list rect) (targetWidth targetHeight : Z) : option (Z * Z) :=
  match frames with
  | [] => None
  | _ =>
      let c := gifCanvas frames in
      let '(newW, newH) := gifSize (Dx c) (Dy c) targetWidth targetHeight in Some (Resize (Dx c) (Dy c) newW newH)
  end.

(** newSide4mode (image/image.go:505-511). *)
Definition newSide4mode (w h width height : Z) : Z * Z := if h <=? w then (width, height) else (height, width).
(** getMinAndkeepRatio (image/image.go:513-538). *)
Definition getMinAndkeepRatio (w h newwidth newheight : Z) : Z * Z :=
  let newwidth := if newwidth =? 0 then w else newwidth in
  let newheight := if newheight =? 0 then h else newheight in
  if (w <=? newwidth) && (h <=? newheight) then (w, h)
  else
    let r := fdiv (of_int w) (of_int h) in
    if (newwidth <? w) && (newheight <? h) then
      if newheight <? newwidth then (to_int (fmul (of_int newheight) r), newheight)
      else (newwidth, to_int (fdiv (of_int newwidth) r))
    else if w <=? newwidth then (to_int (fmul (of_int newheight) r), newheight)
    else (newwidth, to_int (fdiv (of_int newwidth) r)).
(** getMaxAndkeepRatio (image/image.go:540-560). *)
Definition getMaxAndkeepRatio (w h newwidth newheight : Z) : Z * Z :=
  let newwidth := if newwidth =? 0 then w else newwidth in
  let newheight := if newheight =? 0 then h else newheight in
  if (w <=? newwidth) || (h <=? newheight) then (w, h)
  else if (newwidth <? w) && (newheight <? h) then
    let r := fdiv (of_int w) (of_int h) in
    if fgt (fdiv (of_int newwidth) (of_int w)) (fdiv (of_int newheight) (of_int h))
    then (newwidth, to_int (fdiv (of_int newwidth) r))
    else (to_int (fmul (of_int newheight) r), newheight)
  else (newwidth, newheight).
(** getSideByThubnail (image/image.go:562-577). *)
Definition getSideByThubnail (w h width height : Z) : Z * Z :=
  let nw := if width <? w then width else w in
  let nh := if height <? h then height else h in
  let nw := if nw =? 0 then nh else nw in
  let nh := if nh =? 0 then nw else nh in
  (nw, nh).
(** ResizeType (image/image.go:31-37). *)
Inductive resizeType := SCALE | THUMBNAIL.
(** praseMode (image/image.go:457-503). *)
Definition praseMode (mode w h preWidth preHeight : Z) : Z * Z * resizeType :=
  let '(width, height) := newSide4mode w h preWidth preHeight in
  if (w <? width) && (h <? height) then (w, h, SCALE)
  else match mode with
  | 0 => (getMinAndkeepRatio w h width height, SCALE)
  | 1 => (getSideByThubnail w h preWidth preHeight, THUMBNAIL)
  | 2 =>
      (if preWidth =? 0 then getMaxAndkeepRatio w h (to_int (fdiv (fmul (of_int preHeight) (of_int w)) (of_int h))) preHeight
       else if preHeight =? 0 then getMaxAndkeepRatio w h preWidth (to_int (fmul (fdiv (of_int preWidth) (of_int w)) (of_int h)))
       else getMaxAndkeepRatio w h width height, SCALE)
  | 3 =>
      let '(preWidth, preHeight) :=
        if preWidth =? 0 then (preHeight, preHeight) else if preHeight =? 0 then (preWidth, preWidth) else (preWidth, preHeight) in
      (getMaxAndkeepRatio w h preWidth preHeight, SCALE)
  | 4 =>
      let '(width, height) := if width =? 0 then (height, height) else if height =? 0 then (width, width) else (width, height) in
      (getMaxAndkeepRatio w h width height, SCALE)
  | 5 => (getSideByThubnail w h width height, THUMBNAIL)
  | _ => (w, h, SCALE)
  end.

(** Options as far as they change the size (image/image.go:48-62); a nil slice is []. *)
Record options := Options { CropAnchor : list Z; CropSide : list Z; ScaleUpper : list Z; ScaleLower : list Z }.
(** The third number of ScaleUpper, ScaleLower (image/image.go:211-214,221-224). *)
Definition maxPixel_of (l : list Z) : Z := match l with [_; _; m] => m | _ => 0 end.
(** The crop steps of parseImage and Encode (image/image.go:198-208,284-294). *)
Definition encode_crops {P} (o : options) (i : img P) : img P :=
  let i := match CropAnchor o with [w; h; x; y] => cropImageByAnchor i w h x y | _ => i end in
  match CropSide o with [w; h; x; y] => cropImageBySide i w h x y | _ => i end.
(** The scale steps (image/image.go:210-228,296-314). *)
Definition encode_scales (o : options) (s : Z * Z) : Z * Z :=
  let s := match ScaleUpper o with nw :: nh :: _ => scaleImageWithRatio (fst s) (snd s) nw nh (maxPixel_of (ScaleUpper o)) false | _ => s end in
  match ScaleLower o with nw :: nh :: _ => scaleImageWithRatio (fst s) (snd s) nw nh (maxPixel_of (ScaleLower o)) true | _ => s end.
(** The resize step (image/image.go:230-240,316-326). *)
Definition encode_resize (width height mode : Z) (s : Z * Z) : Z * Z :=
  if (0 <? width) || (0 <? height) then
    let '(nw, nh, t) := praseMode mode (fst s) (snd s) width height in
    match t with SCALE => Resize (fst s) (snd s) nw nh | THUMBNAIL => Fill (fst s) (snd s) nw nh end
  else s.
(** parseImage, Encode (image/image.go:193-266,268-384): the size of the image that is encoded, for Rotate = 0. *)
Definition encodeSize {P} (i : img P) (width height mode : Z) (o : options) : Z * Z :=
  let i := encode_crops o i in
  encode_resize width height mode (encode_scales o (Dx (bounds i), Dy (bounds i))).
(** Image.Resize (image/image.go:423-428): the size of the result. *)
Definition ImageResize {P} (i : img P) (width height mode : Z) : Z * Z :=
  if (width =? 0) && (height =? 0) then (Dx (bounds i), Dy (bounds i))
  else encodeSize i width height mode (Options [] [] [] []).

(** ** Tables *)

(** The answers of imageType (image/image.go:430-455); [Tnone] is "". *)
Inductive itype := Tnone | Tpng | Tbmp | Tjpeg | Tgif | Ttiff | Twebp | Tpsd | Tico | Tavif.
(** bytes.Equal (Go bytes; image/image.go:435). *)
Fixpoint bytesEqual (a b : list Z) : bool :=
  match a, b with [], [] => true | x :: a, y :: b => (x =? y) && bytesEqual a b | _, _ => false end.
(** imageType (image/image.go:430-455). *)
Definition imageType (d : list Z) : itype :=
  if (length d <? 8)%nat then Tnone
  else if bytesEqual (firstn 8 d) [0x89; 0x50; 0x4E; 0x47; 0x0D; 0x0A; 0x1A; 0x0A] then Tpng
  else if bytesEqual (firstn 2 d) [0x42; 0x4D] then Tbmp
  else if bytesEqual (firstn 2 d) [0xFF; 0xD8] then Tjpeg
  else if bytesEqual (firstn 6 d) [0x47; 0x49; 0x46; 0x38; 0x39; 0x61] || bytesEqual (firstn 6 d) [0x47; 0x49; 0x46; 0x38; 0x37; 0x61] then Tgif
  else if bytesEqual (firstn 4 d) [0x49; 0x49; 0x2A; 0x00] || bytesEqual (firstn 4 d) [0x4D; 0x4D; 0x00; 0x2A] then Ttiff
  else if bytesEqual (firstn 4 d) [0x52; 0x49; 0x46; 0x46] then Twebp
  else if bytesEqual (firstn 4 d) [0x38; 0x42; 0x50; 0x53] then Tpsd
  else if bytesEqual (firstn 4 d) [0x00; 0x00; 0x01; 0x00] then Tico
  else if bytesEqual (firstn 8 d) [0x00; 0x00; 0x00; 0x0C; 0x61; 0x76; 0x69; 0x66] then Tavif
  else Tnone.
(** Go's % on ints: the sign of the dividend (image/image.go:581). *)
Definition gorem (a b : Z) : Z := Z.rem a b.
(** The quality a caller's number stands for, once (image/image.go:595-597). *)
Definition quality1 (q : Z) : Z := if 10 <? q then gorem q 10 + 1 else q.
(** QualityByBinary adjusts and Quality adjusts again (image/image.go:580-582,599-601). *)
Definition qualityByBinary (q : Z) : Z := quality1 (quality1 q).
(** jpeg.Options.Quality (image/image.go:601). *)
Definition jpegQuality (q : Z) : Z := to_int (fmul (of_int (quality1 q)) (fdiv (of_int 15) (of_int 2))).
(** gif.Options.NumColors (image/image.go:614). *)
Definition gifColors (q : Z) : Z := to_int (fmul (of_int (quality1 q)) (fdiv (of_int 256) (of_int 10))).
(** sort.Ints (Go sort; image/image.go:645). *)
Fixpoint insert (x : Z) (l : list Z) : list Z := match l with [] => [x] | y :: r => if x <=? y then x :: l else y :: insert x r end.
(** See [insert] (image/image.go:645). *)
Definition sortInts (l : list Z) : list Z := fold_right insert [] l.
(** sort.SearchInts: the first place whose number is not below x (Go sort; image/image.go:646-647). *)
Fixpoint searchInts (l : list Z) (x : Z) : nat := match l with [] => 0 | y :: r => if x <=? y then 0 else S (searchInts r x) end.
(** The thumbnails of convertImageFormat for "ico" (image/image.go:641-659): their sides, uint8. *)
Definition icoThumbnails (w h : Z) : list Z :=
  let sizes := sortInts [16; 32; 48; 64; 128; w; h] in
  let i := searchInts sizes w in
  let j := searchInts sizes h in
  let k := if (j <? i)%nat then j else i in
  map u8 (firstn k sizes).
