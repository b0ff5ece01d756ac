(** What a turn by any number of degrees is to do to a picture, without reference to how the code does it. *)
From Coq Require Import ZArith List Bool Reals.
From Flocq Require Import Core.
From Verif Require Import GoFloat Image_Model Pixel_Model Pixel_Spec Resample_Model Resample_Spec Rotate_Model.
Import ListNotations.
Local Open Scope Z_scope.

(** What Encode makes of the picture when only Rotate is asked for. *)
Definition turned (M : mathf) (T : tools) (filter : Z) (i : img pixel) (degrees : Z) : picture :=
  shows (parseImage (withRotation M T) filter i 0 0 0 (orientation degrees false false)).

(** A pixel that can be seen. *)
Definition visible (p : pixel) : Prop := 1 <= pa p.

(** The picture on an endless transparent sheet: its alpha, and a channel times alpha, at each place. *)
Definition on_sheet (g : pixel -> Z) (p : picture) (x y : Z) : R :=
  if (0 <=? x) && (x <? pw p) && (0 <=? y) && (y <? ph p) then IZR (g (at_ p x y)) else 0%R.
(** Interpolation between whole numbers, along a line and in the plane. *)
Definition along (f : Z -> R) (t : R) : R := let n := Zfloor t in ((1 - (t - IZR n)) * f n + (t - IZR n) * f (n + 1)%Z)%R.
Definition between_places (f : Z -> Z -> R) (x y : R) : R := along (fun n => along (fun m => f m n) x) y.
(** The opacity, and the opacity times a channel, at a place of the picture that need not be a pixel's. *)
Definition opacity (p : picture) : R -> R -> R := between_places (on_sheet pa p).
Definition tint (c : pixel -> Z) (p : picture) : R -> R -> R := between_places (on_sheet (fun q => c q * pa q) p).

(** The angle in radians. *)
Definition rad (degrees : Z) : R := (PI * IZR degrees / 180)%R.
(** Where the pixel (x, y) of a picture of size w' x h' was before a turn, against the clock, about the middle of a picture of size w x h. *)
Definition cameX (degrees w w' h' x y : Z) : R :=
  (((IZR x - (IZR w' - 1) / 2) * cos (rad degrees) - (IZR y - (IZR h' - 1) / 2) * sin (rad degrees)) + (IZR w - 1) / 2)%R.
Definition cameY (degrees h w' h' x y : Z) : R :=
  (((IZR x - (IZR w' - 1) / 2) * sin (rad degrees) + (IZR y - (IZR h' - 1) / 2) * cos (rad degrees)) + (IZR h - 1) / 2)%R.
(** The width and the height of the smallest upright rectangle around the turned picture, measured from pixel middle to pixel middle, and a pixel. *)
Definition idealW (degrees w h : Z) : R := (IZR (w - 1) * Rabs (cos (rad degrees)) + IZR (h - 1) * Rabs (sin (rad degrees)) + 1)%R.
Definition idealH (degrees w h : Z) : R := (IZR (w - 1) * Rabs (sin (rad degrees)) + IZR (h - 1) * Rabs (cos (rad degrees)) + 1)%R.
(** A whole number of pixels for such a length: at most a tenth of a pixel less (and a hundred-thousandth, for the arithmetic) and at most nine tenths more, or a whole number
    where the length is one and one pixel more. *)
Definition snug (E : R) (s : Z) : Prop :=
  1 <= s /\ (E - / 10 - / 100000 <= IZR s)%R /\ ((IZR s <= E + 9 / 10 + / 100000)%R \/ exists k, (Rabs (E - IZR k) <= / 100000)%R /\ s = k + 1).
(** The place is inside the picture; it is a pixel or more away from it. *)
Definition inside (p : picture) (x y : R) : Prop := (0 <= x <= IZR (pw p - 1) /\ 0 <= y <= IZR (ph p - 1))%R.
Definition outside (p : picture) (x y : R) : Prop := (x <= -1 \/ IZR (pw p) <= x \/ y <= -1 \/ IZR (ph p) <= y)%R.
(** Where the pixel (m, k) of a picture of size w x h comes to by that turn, in the result of size w' x h'. *)
Definition goesX (degrees w h w' m k : Z) : R :=
  (((IZR m - (IZR w - 1) / 2) * cos (rad degrees) + (IZR k - (IZR h - 1) / 2) * sin (rad degrees)) + (IZR w' - 1) / 2)%R.
Definition goesY (degrees w h h' m k : Z) : R :=
  (((IZR k - (IZR h - 1) / 2) * cos (rad degrees) - (IZR m - (IZR w - 1) / 2) * sin (rad degrees)) + (IZR h' - 1) / 2)%R.
