(** What is to become of the pixels, without reference to how the code does it. *)
From Coq Require Import ZArith List Bool String.
From Verif Require Import GoFloat Image_Model Pixel_Model.
Import ListNotations.
Local Open Scope Z_scope.

(** ** Pictures: a width, a height and a pixel for each place, counted from the top left corner *)
Record picture := Pic { pw : Z; ph : Z; at_ : Z -> Z -> pixel }.
(** Two pictures that look alike. *)
Definition alike (a b : picture) : Prop :=
  pw a = pw b /\ ph a = ph b /\ forall x y, 0 <= x < pw a -> 0 <= y < ph a -> at_ a x y = at_ b x y.
(** The picture that an image shows. *)
Definition shows (i : img pixel) : picture :=
  Pic (maxX (bounds i) - minX (bounds i)) (maxY (bounds i) - minY (bounds i)) (fun x y => px i (minX (bounds i) + x) (minY (bounds i) + y)).
(** An image as there are any: sides that an int can hold. *)
Definition proper (i : img pixel) : Prop :=
  0 <= maxX (bounds i) - minX (bounds i) < 2 ^ 63 /\ 0 <= maxY (bounds i) - minY (bounds i) < 2 ^ 63.

(** A quarter turn against the clock: what was in the top right corner comes to the top left one. *)
Definition quarter (p : picture) : picture := Pic (ph p) (pw p) (fun x y => at_ p (pw p - 1 - y) x).
(** Left and right exchanged; top and bottom exchanged. *)
Definition mirrorLR (p : picture) : picture := Pic (pw p) (ph p) (fun x y => at_ p (pw p - 1 - x) y).
Definition mirrorTB (p : picture) : picture := Pic (pw p) (ph p) (fun x y => at_ p x (ph p - 1 - y)).
(** [n] quarter turns, then the mirrors that are asked for. *)
Definition oriented (n : nat) (lr tb : bool) (p : picture) : picture :=
  let p := Nat.iter n quarter p in
  let p := if lr then mirrorLR p else p in
  if tb then mirrorTB p else p.
(** The number of quarter turns, 0 to 3, in that many degrees. *)
Definition turns (degrees : Z) : nat := Z.to_nat ((degrees / 90) mod 4).
(** Each pixel on its own. *)
Definition each (f : pixel -> pixel) (p : picture) : picture := Pic (pw p) (ph p) (fun x y => f (at_ p x y)).

(** Options that ask for a turn and mirrors only. *)
Definition orientation (degrees : Z) (lr tb : bool) : Options := MkOptions false false "" degrees lr tb 0 0 [] [] (of_int 0) [] [].
(** The options that undo a turn and mirrors: the same if exactly one mirror is involved, the opposite turn otherwise. *)
Definition undo (degrees : Z) (lr tb : bool) : Options := if xorb lr tb then orientation degrees lr tb else orientation (- degrees) lr tb.

(** ** Colours *)
Definition byte (z : Z) : Prop := 0 <= z < 256.
Definition colour (p : pixel) : Prop := byte (pr p) /\ byte (pg p) /\ byte (pb p) /\ byte (pa p).
(** Thousandths of the luma of ITU-R BT.601. *)
Definition luma1000 (p : pixel) : Z := 299 * pr p + 587 * pg p + 114 * pb p.

(** ** One option at a time *)
Definition onlyAnchor (o : Options) := MkOptions false false "" 0 false false 0 0 (oCropAnchor o) [] (of_int 0) [] [].
Definition onlySide (o : Options) := MkOptions false false "" 0 false false 0 0 [] (oCropSide o) (of_int 0) [] [].
Definition onlyUpper (o : Options) := MkOptions false false "" 0 false false 0 0 [] [] (of_int 0) (oScaleUpper o) [].
Definition onlyLower (o : Options) := MkOptions false false "" 0 false false 0 0 [] [] (of_int 0) [] (oScaleLower o).
Definition onlyGray (o : Options) := MkOptions (oGray o) false "" 0 false false 0 0 [] [] (of_int 0) [] [].
Definition onlyInvert (o : Options) := MkOptions false (oInvert o) "" 0 false false 0 0 [] [] (of_int 0) [] [].
Definition onlyRotate (o : Options) := MkOptions false false "" (oRotate o) false false 0 0 [] [] (of_int 0) [] [].
Definition onlyFlipH (o : Options) := MkOptions false false "" 0 (oFlipH o) false 0 0 [] [] (of_int 0) [] [].
Definition onlyFlipV (o : Options) := MkOptions false false "" 0 false (oFlipV o) 0 0 [] [] (of_int 0) [] [].
Definition onlyBlur (o : Options) := MkOptions false false "" 0 false false 0 0 [] [] (oBlur o) [] [].
(** Calls of Encode, one after the other, each with one option or with the requested size and nothing else. *)
Definition one_by_one (width height mode : Z) (o : Options) : list (Z * Z * Z * Options) :=
  [(0, 0, 0, onlyAnchor o); (0, 0, 0, onlySide o); (0, 0, 0, onlyUpper o); (0, 0, 0, onlyLower o); (width, height, mode, noOptions);
   (0, 0, 0, onlyGray o); (0, 0, 0, onlyInvert o); (0, 0, 0, onlyRotate o); (0, 0, 0, onlyFlipH o); (0, 0, 0, onlyFlipV o); (0, 0, 0, onlyBlur o)].
Definition calls (T : tools) (filter : Z) (l : list (Z * Z * Z * Options)) (d : list Z) : list Z :=
  fold_left (fun d '(w, h, m, o) => Encode T filter d w h m (Some o)) l d.

(** An image with at least one pixel. *)
Definition nonempty (i : img pixel) : Prop := proper i /\ 0 < pw (shows i) /\ 0 < ph (shows i).
(** The image after the first n of the calls, if nothing were encoded and decoded between them. *)
Definition image_after (T : tools) (filter : Z) (n : nat) (l : list (Z * Z * Z * Options)) (i : img pixel) : img pixel :=
  fold_left (fun i '(w, h, m, o) => parseImage T filter i w h m o) (firstn n l) i.

(** ** What may be expected of the code of others *)

(** The picture in a file. *)
Definition picture_of (T : tools) (d : list Z) : option picture := option_map (fun '(i, _) => shows i) (decode T d).
(** Two answers alike. *)
Definition alike_opt (a b : option picture) : Prop := match a, b with Some a, Some b => alike a b | None, None => True | _, _ => False end.
(** Decoded images have their top left corner at (0, 0), as those of PNG and BMP. *)
Definition at_origin (i : img pixel) : Prop := minX (bounds i) = 0 /\ minY (bounds i) = 0.
(** A format that keeps every pixel: each image with at least one pixel can be encoded, and decoding gives the same picture and the name of the format.  [format] is one
    of those Encode writes. *)
Definition keeps_pixels (T : tools) (format : string) : Prop :=
  In format ["png"; "bmp"; "tiff"]%string /\
  forall i, nonempty i ->
    exists d j, encode_std T format i = Some d /\ decode T d = Some (j, format) /\ at_origin j /\ alike (shows j) (shows i).
(** Encoders refuse images without pixels (Go image/png: "invalid image size"). *)
Definition refuses_empty (T : tools) (format : string) : Prop := forall i, pw (shows i) = 0 \/ ph (shows i) = 0 -> encode_std T format i = None.
(** The filters see nothing of an image but the picture, and give images as there are any. *)
Definition sees_pictures (T : tools) : Prop :=
  (forall f i j w h x y, proper i -> proper j -> alike (shows i) (shows j) -> resampled T f i w h x y = resampled T f j w h x y) /\
  (forall f i j w h x y, proper i -> proper j -> alike (shows i) (shows j) -> filled T f i w h x y = filled T f j w h x y) /\
  (forall s i j x y, proper i -> proper j -> alike (shows i) (shows j) -> blurred T s i x y = blurred T s j x y) /\
  (forall a i j, proper i -> proper j -> alike (shows i) (shows j) -> alike (shows (rotated T a i)) (shows (rotated T a j))) /\
  (forall a i, proper i -> proper (rotated T a i) /\ at_origin (rotated T a i)).
