(** What the image functions are to do, without reference to how they compute it. *)
From Coq Require Import ZArith List.
From Verif Require Import Image_Model.
Import ListNotations.
Local Open Scope Z_scope.

(** An image of w x h whose top left corner is at (0, 0), as the decoders for everything but GIF give it. *)
Definition plain {P} (i : img P) (w h : Z) : Prop := bounds i = MkRect 0 0 w h /\ 1 <= w <= 2 ^ 31 /\ 1 <= h <= 2 ^ 31.
(** [i'] is the part of [i] from (x0, y0), which belongs to it, to (x1, y1), which does not, counted from the top left corner of [i]; if there is no such part, it
    is empty. *)
Definition part {P} (i' i : img P) (x0 y0 x1 y1 : Z) : Prop :=
  (x0 < x1 /\ y0 < y1 /\ bounds i' = MkRect 0 0 (x1 - x0) (y1 - y0) /\
   forall u v, 0 <= u < x1 - x0 -> 0 <= v < y1 - y0 -> px i' u v = px i (minX (bounds i) + x0 + u) (minY (bounds i) + y0 + v)) \/
  ((x1 <= x0 \/ y1 <= y0) /\ bounds i' = MkRect 0 0 0 0).
(** Ints of 64 bits. *)
Definition int64 (z : Z) : Prop := - 2 ^ 63 <= z < 2 ^ 63.

(** The longer side counts as the width of the requested box, as newSide4mode has it: a tall image is compared with the box on its side. *)
Definition turned (w h a b : Z) : Z * Z := if h <=? w then (a, b) else (b, a).
(** In a box 0 stands for "as it is". *)
Definition or_source (z src : Z) : Z := if z =? 0 then src else z.

(** The formats that imageType knows and how their files begin, as the code lists them. *)
Definition magics : list (list Z * itype) :=
  [([137; 80; 78; 71; 13; 10; 26; 10], Tpng); ([66; 77], Tbmp); ([255; 216], Tjpeg); ([71; 73; 70; 56; 57; 97], Tgif); ([71; 73; 70; 56; 55; 97], Tgif);
   ([73; 73; 42; 0], Ttiff); ([77; 77; 0; 42], Ttiff); ([82; 73; 70; 70], Twebp); ([56; 66; 80; 83], Tpsd); ([0; 0; 1; 0], Tico);
   ([0; 0; 0; 12; 97; 118; 105; 102], Tavif)].
Definition starts_with (m d : list Z) : Prop := exists r, d = m ++ r.
(** What the formats themselves say (RIFF container of WebP; ISO base media file of AVIF): "RIFF", a size, "WEBP"; a size, "ftyp", "avif". *)
Definition is_webp (d : list Z) : Prop := exists a b c e r, d = [82; 73; 70; 70; a; b; c; e; 87; 69; 66; 80] ++ r.
Definition is_avif (d : list Z) : Prop := exists a b c e r, d = [a; b; c; e; 102; 116; 121; 112; 97; 118; 105; 102] ++ r.
(** The sides of the thumbnails in an icon. *)
Definition icon_sides : list Z := [16; 32; 48; 64; 128].
