(** What resizing and blurring are to do to a picture, without reference to how the code does it. *)
From Coq Require Import ZArith List Bool String Reals.
From Verif Require Import GoFloat Image_Model Pixel_Model Pixel_Spec Resample_Model.
Import ListNotations.
Local Open Scope Z_scope.

(** Every pixel of the picture is such. *)
Definition everywhere (P : pixel -> Prop) (p : picture) : Prop := forall x y, 0 <= x < pw p -> 0 <= y < ph p -> P (at_ p x y).
(** Two pictures of one size whose pixels are so related, place by place. *)
Definition pixelwise (Rel : pixel -> pixel -> Prop) (a b : picture) : Prop :=
  pw a = pw b /\ ph a = ph b /\ forall x y, 0 <= x < pw a -> 0 <= y < ph a -> Rel (at_ a x y) (at_ b x y).
(** At least a pixel and at most a million pixels wide and high. *)
Definition million (p : picture) : Prop := 1 <= pw p <= 1000000 /\ 1 <= ph p <= 1000000.
(** Pixels with this alpha, with a channel between two values. *)
Definition alpha (a : Z) (p : pixel) : Prop := colour p /\ pa p = a.
Definition between (c : pixel -> Z) (lo hi : Z) (p : pixel) : Prop := lo <= c p <= hi.
(** Pixels that look the same: equal, or both fully transparent. *)
Definition look_same (p q : pixel) : Prop := p = q \/ pa p = 0 /\ pa q = 0.
(** The channels other than alpha. *)
Definition a_channel (c : pixel -> Z) : Prop := c = pr \/ c = pg \/ c = pb.
(** The sum of a channel over the k x k block of pixels that becomes the pixel (x, y) when the picture is made k times smaller. *)
Fixpoint sumZ (n : nat) (g : Z -> Z) : Z := match n with O => 0 | S m => sumZ m g + g (Z.of_nat m) end.
Definition block_sum (c : pixel -> Z) (k : Z) (p : picture) (x y : Z) : Z :=
  sumZ (Z.to_nat k) (fun j => sumZ (Z.to_nat k) (fun i => c (at_ p (x * k + i) (y * k + j)))).
(** Requests that resizing is known to do with sides of at most a million pixels on the way: any but a thumbnail (modes 1 and 5) of a large picture with one of its sides
    left open. *)
Definition resizable (p : picture) (w h mode : Z) : Prop := mode <> 1 /\ mode <> 5 \/ w <> 0 /\ h <> 0 \/ pw p <= 1000 /\ ph p <= 1000.

(** What Encode makes of the picture when only a size, only Blur, only ScaleUpper or only ScaleLower is asked for. *)
Definition resized (M : mathf) (T : tools) (filter : Z) (i : img pixel) (w h mode : Z) : picture := shows (parseImage (withImaging M T) filter i w h mode noOptions).
Definition blurring (sigma : f64) : Options := MkOptions false false "" 0 false false 0 0 [] [] sigma [] [].
Definition blurredBy (M : mathf) (T : tools) (filter : Z) (i : img pixel) (sigma : f64) : picture := shows (parseImage (withImaging M T) filter i 0 0 0 (blurring sigma)).
Definition scaledUp (M : mathf) (T : tools) (filter : Z) (i : img pixel) (l : list Z) : picture :=
  shows (parseImage (withImaging M T) filter i 0 0 0 (MkOptions false false "" 0 false false 0 0 [] [] (of_int 0) l [])).
Definition scaledDown (M : mathf) (T : tools) (filter : Z) (i : img pixel) (l : list Z) : picture :=
  shows (parseImage (withImaging M T) filter i 0 0 0 (MkOptions false false "" 0 false false 0 0 [] [] (of_int 0) [] l)).
(** The filters whose kernel is nowhere negative: NearestNeighbor, Box, Linear, Hermite, BSpline, Gaussian. *)
Definition soft (filter : Z) : Prop := filter = 0 \/ filter = 1 \/ filter = 2 \/ filter = 3 \/ filter = 6 \/ filter = 7.
(** The filters that do without sines and cosines; numbers that are no filter's stand for MitchellNetravali. *)
Definition sineless (filter : Z) : Prop := ~ 8 <= filter <= 14.

(** What math.Exp is taken to give for what is not positive: e to the power within a relative error of 2^-40, or next to nothing where that is next to nothing. *)
Definition exp_ok (M : mathf) : Prop := (forall g t, val g t -> t <= 0 -> exists y, val (Exp M g) y /\ 0 <= y /\
  exp t * (1 - / 1099511627776) - / 1267650600228229401496703205376 <= y <= exp t * (1 + / 1099511627776) + / 1267650600228229401496703205376)%R.

(** What math.Sin and math.Cos are taken to give between -16 and 16: the sine within 2^-45 of the angle, the cosine within 2^-45. *)
Definition trig_ok (M : mathf) : Prop := (forall g t, val g t -> Rabs t <= 16 ->
  (exists y, val (Sin M g) y /\ Rabs (y - sin t) <= / 35184372088832 * Rabs t) /\ (exists y, val (Cos M g) y /\ Rabs (y - cos t) <= / 35184372088832))%R.

(** The middle of a picture. *)
Definition middle (p : picture) (w h : Z) : picture := Pic w h (fun x y => at_ p ((pw p - w) / 2 + x) ((ph p - h) / 2 + y)).
