(** Properties C155 to C158: what a turn by any number of degrees does to the pixels.

    The pictures are those that parseImage, and Encode before encoding, make when only Rotate is asked for; C120 says what several options do together.  The sides of the
    pictures are at most a million, the degrees are less than 2^53 in absolute value, beyond which ints are not exact in float64. *)
From Coq Require Import ZArith List Bool Lia ZifyBool Reals Lra Psatz String.
From Flocq Require Import Core BinarySingleNaN.
From Verif Require Import GoInt GoFloat Image_Model Pixel_Model Pixel_Spec Pixel_Proofs Resample_Model Resample_Spec Resample_Err Resample_Proofs Resample_Trig Resample_Props Rotate_Model Rotate_Spec Rotate_Mix Rotate_Point Rotate_Geom Rotate_Proofs.
Import ListNotations.
Local Open Scope Z_scope.

(** A sine of 0.6 and a cosine of 0.8, whatever the angle. *)
Definition tilt : mathf := Math (fun _ => fdiv (of_int 6) (of_int 10)) (fun _ => fdiv (of_int 8) (of_int 10)) (fun x => x).
(** Four by two pixels: half red and half blue, with a transparent green one. *)
Definition flag : img pixel := Img (MkRect 3 5 7 7) (fun x y => if (x =? 3) && (y =? 5) then Px 0 255 0 0 else if x <? 5 then Px 200 0 10 255 else Px 100 0 250 255).
Lemma flag_million : million (shows flag). Proof. repeat split; cbn; lia. Qed.
Lemma flag_colour : everywhere colour (shows flag).
Proof. intros x y Hx Hy. cbn. destruct (_ && _); [repeat split; cbn; lia|]. destruct (_ <? _); repeat split; cbn; lia. Qed.

(** * C155 No new colours *)
(** Whatever math.Sincos gives, each channel of each pixel that can be seen stays between the least and the greatest value that it had in pixels that could be seen. *)
Theorem c155_no_new_colours M T filter i d c lo hi : - 2 ^ 53 < d < 2 ^ 53 -> million (shows i) -> everywhere colour (shows i) -> a_channel c -> 0 <= lo -> hi <= 255 ->
  everywhere (fun q => visible q -> between c lo hi q) (shows i) -> everywhere (fun q => visible q -> between c lo hi q) (turned M T filter i d).
Proof. exact (turned_between M T filter i d c lo hi). Qed.
Print Assumptions c155_no_new_colours.
(** Nothing becomes more opaque than the most opaque pixel, and the pixels are proper colours. *)
Theorem c155_no_more_alpha M T filter i d a : - 2 ^ 53 < d < 2 ^ 53 -> million (shows i) -> everywhere colour (shows i) ->
  everywhere (fun q => pa q <= a) (shows i) -> everywhere (fun q => colour q /\ pa q <= a) (turned M T filter i d).
Proof. exact (turned_alpha M T filter i d a). Qed.
Print Assumptions c155_no_more_alpha.
(** A picture of one colour keeps it wherever anything is to be seen. *)
Theorem c155_one_colour M T filter i d p : - 2 ^ 53 < d < 2 ^ 53 -> million (shows i) -> colour p -> everywhere (fun q => q = p) (shows i) ->
  everywhere (fun q => visible q -> pr q = pr p /\ pg q = pg p /\ pb q = pb p) (turned M T filter i d).
Proof.
  intros Hd Hm Hp He. assert (everywhere colour (shows i)) as Hcol by (intros x y Hx Hy; rewrite (He x y Hx Hy); exact Hp).
  assert (forall c, a_channel c -> everywhere (fun q => visible q -> between c (c p) (c p) q) (turned M T filter i d)) as K.
  { intros c Hc. pose proof (channel_byte c p Hc Hp) as B. apply c155_no_new_colours; try assumption; try lia. intros x y Hx Hy _. rewrite (He x y Hx Hy). unfold between. lia. }
  intros x y Hx Hy Hv. pose proof (K pr ltac:(left; reflexivity) x y Hx Hy Hv) as K1. pose proof (K pg ltac:(right; left; reflexivity) x y Hx Hy Hv) as K2. pose proof (K pb ltac:(right; right; reflexivity) x y Hx Hy Hv) as K3. unfold between in *. lia.
Qed.
Print Assumptions c155_one_colour.
(** The flag, turned: no green, red between 100 and 200 where there is anything to see. *)
Example c155_ex : million (shows flag) /\ everywhere colour (shows flag) /\ everywhere (fun q => visible q -> between pr 100 200 q) (shows flag) /\
  (let r := turned tilt noTools 0 flag 37 in (pw r, ph r) = (4, 4) /\ row r 1 = [Px 200 0 10 31; Px 160 0 106 204; Px 100 0 250 255; Px 100 0 250 255] /\ row r 3 = [Px 200 0 10 82; Px 200 0 10 153; Px 0 0 0 0; Px 0 0 0 0]).
Proof.
  split; [exact flag_million|]. split; [exact flag_colour|]. split; [|vm_compute; auto]. intros x y Hx Hy. cbn. unfold visible, between. destruct (_ && _); [cbn; lia|]. destruct (_ <? _); cbn; lia.
Qed.

(** * C156 Every pixel is what was at its place *)
(** The alpha of each pixel of the result is the opacity that the picture, on an endless transparent sheet, has at the place that the pixel comes from, up to 0.5002; where it
    can be seen, opacity times channel is what it is there, up to half the opacity and a tenth: half a step of the channel, and a tenth of one divided by the opacity. *)
Theorem c156_turned_about_the_middle M T filter i d x y : let p := shows i in let r := turned M T filter i d in
  let X := cameX d (pw p) (pw r) (ph r) x y in let Y := cameY d (ph p) (pw r) (ph r) x y in
  trig_ok M -> - 2 ^ 53 < d < 2 ^ 53 -> million p -> everywhere colour p -> 0 <= x < pw r -> 0 <= y < ph r ->
  (Rabs (IZR (pa (at_ r x y)) - opacity p X Y) <= / 2 + / 5000)%R /\
  forall c, a_channel c -> visible (at_ r x y) -> (Rabs (opacity p X Y * IZR (c (at_ r x y)) - tint c p X Y) <= opacity p X Y / 2 + / 10)%R.
Proof. intros p r X Y HM Hd Hm Hcol Hx Hy. exact (turned_near M T filter i d HM Hd Hm Hcol x y Hx Hy). Qed.
Print Assumptions c156_turned_about_the_middle.
(** A picture of one alpha, not 0: pixels that come from inside it have exactly that alpha, and their channels are what they are there, up to a half and at most a tenth. *)
Theorem c156_inside M T filter i d x y a : let p := shows i in let r := turned M T filter i d in
  let X := cameX d (pw p) (pw r) (ph r) x y in let Y := cameY d (ph p) (pw r) (ph r) x y in
  trig_ok M -> - 2 ^ 53 < d < 2 ^ 53 -> million p -> 1 <= a <= 255 -> everywhere (alpha a) p -> 0 <= x < pw r -> 0 <= y < ph r -> inside p X Y ->
  pa (at_ r x y) = a /\ forall c, a_channel c -> (Rabs (IZR (c (at_ r x y)) - between_places (on_sheet c p) X Y) <= / 2 + / (10 * IZR a))%R.
Proof.
  intros p r X Y HM Hd Hm Ha He Hx Hy HI. assert (everywhere colour p) as Hcol by (intros m k H1 H2; apply (He m k H1 H2)). exact (turned_inside M T filter i d HM Hd Hm Hcol a x y Ha He Hx Hy HI).
Qed.
Print Assumptions c156_inside.
(** Pixels that come from a pixel or more outside are fully transparent. *)
Theorem c156_outside M T filter i d x y : let p := shows i in let r := turned M T filter i d in
  trig_ok M -> - 2 ^ 53 < d < 2 ^ 53 -> million p -> everywhere colour p -> 0 <= x < pw r -> 0 <= y < ph r ->
  outside p (cameX d (pw p) (pw r) (ph r) x y) (cameY d (ph p) (pw r) (ph r) x y) -> pa (at_ r x y) = 0.
Proof. intros p r HM Hd Hm Hcol Hx Hy HO. exact (turned_outside M T filter i d HM Hd Hm Hcol x y Hx Hy HO). Qed.
Print Assumptions c156_outside.

(** * C157 The size *)
(** The result is as wide and as high as the turned picture needs. *)
Theorem c157_size M T filter i d : let p := shows i in let r := turned M T filter i d in trig_ok M -> - 2 ^ 53 < d < 2 ^ 53 -> million p ->
  snug (idealW d (pw p) (ph p)) (pw r) /\ snug (idealH d (pw p) (ph p)) (ph r).
Proof. intros p r HM Hd Hm. exact (turned_size M T filter i d HM Hd Hm). Qed.
Print Assumptions c157_size.
(** The middle of every pixel of the picture comes to lie between the middles of the first and the last pixels of the result, up to 0.06 of a pixel. *)
Theorem c157_nothing_cut_off M T filter i d m k : let p := shows i in let r := turned M T filter i d in trig_ok M -> - 2 ^ 53 < d < 2 ^ 53 -> million p -> 0 <= m < pw p -> 0 <= k < ph p ->
  (- 6 / 100 <= goesX d (pw p) (ph p) (pw r) m k <= IZR (pw r - 1) + 6 / 100 /\ - 6 / 100 <= goesY d (pw p) (ph p) (ph r) m k <= IZR (ph r - 1) + 6 / 100)%R.
Proof.
  intros p r HM Hd Hm Bm Bk. destruct (c157_size M T filter i d HM Hd Hm) as [(_ & S1 & _) (_ & S2 & _)]. fold p r in S1, S2. unfold idealW, idealH in S1, S2. unfold goesX, goesY.
  assert (0 <= IZR m <= IZR (pw p) - 1 /\ 0 <= IZR k <= IZR (ph p) - 1)%R as [Rm Rk] by (rewrite <- !minus_IZR; repeat split; apply IZR_le; lia). rewrite !minus_IZR in *. set (c := cos (rad d)) in *. set (s := sin (rad d)) in *.
  set (a := (IZR m - (IZR (pw p) - 1) / 2)%R) in *. set (b := (IZR k - (IZR (ph p) - 1) / 2)%R) in *. set (w := (IZR (pw p) - 1)%R) in *. set (h := (IZR (ph p) - 1)%R) in *.
  assert (forall z q Q, - (Q / 2) <= z <= Q / 2 -> - (Q * Rabs q / 2) <= z * q <= Q * Rabs q / 2)%R as K. { intros z q Q Hz. apply Rabs_le_inv. rewrite Rabs_mult. assert (Rabs z <= Q / 2)%R by (apply Rabs_le; lra). pose proof (Rabs_pos q). nra. }
  assert (- (w / 2) <= a <= w / 2 /\ - (h / 2) <= b <= h / 2)%R as [Ha Hb] by (unfold a, b, w, h in *; repeat split; lra).
  pose proof (K a c w Ha). pose proof (K a s w Ha). pose proof (K b c h Hb). pose proof (K b s h Hb). split; split; lra.
Qed.
Print Assumptions c157_nothing_cut_off.

(** A black square of 3 x 3 pixels turned by 45 degrees, with the sines and cosines nearest to the true ones: 4 x 4 pixels, of which the corners are transparent and the
    four in the middle are black. *)
Definition square : img pixel := flat (Px 0 0 0 255) 3 3.
Lemma root_half : (7071 / 10000 <= sin (rad 45) <= 7072 / 10000 /\ cos (rad 45) = sin (rad 45))%R.
Proof.
  replace (rad 45) with (PI / 4)%R by (unfold rad; field). rewrite sin_PI4, cos_PI4. split; [|reflexivity]. pose proof (sqrt_lt_R0 2 ltac:(lra)) as P. pose proof (sqrt_sqrt 2 ltac:(lra)) as Q. set (q := sqrt 2) in *.
  assert (1 / q = q / 2)%R as -> by (apply (Rmult_eq_reg_r q); [unfold Rdiv; rewrite Rmult_1_l, Rinv_l by lra; lra|lra]). split; nra.
Qed.
Example c157_ex : trig_ok someMath /\ let r := turned someMath noTools 0 square 45 in (pw r, ph r) = (4, 4) /\ pa (at_ r 0 0) = 0 /\ pa (at_ r 1 1) = 255 /\ pa (at_ r 2 2) = 255 /\ pa (at_ r 3 3) = 0.
Proof.
  split; [exact trig_ok_ex|]. set (r := turned someMath noTools 0 square 45). cbv zeta. destruct root_half as [B E]. assert (million (shows square)) as Hm by (repeat split; cbn; lia). assert (- 2 ^ 53 < 45 < 2 ^ 53) as Hd by lia.
  assert (everywhere (alpha 255) (shows square)) as Ha by (intros x y _ _; repeat split; cbn; lia). assert (everywhere colour (shows square)) as Hcol by (intros x y _ _; repeat split; cbn; lia).
  assert (forall s, snug (IZR 2 * Rabs (cos (rad 45)) + IZR 2 * Rabs (sin (rad 45)) + 1) s -> s = 4) as K.
  { intros s (H1 & H2 & H3). rewrite E, Rabs_pos_eq in H2, H3 by lra. assert (3 < s) by (apply lt_IZR; lra). destruct H3 as [H3|(k & H3 & ->)]; [assert (s < 5) by (apply lt_IZR; lra); lia|]. apply Rabs_le_inv in H3. assert (3 < k < 4) by (split; apply lt_IZR; lra). lia. }
  destruct (c157_size someMath noTools 0 square 45 trig_ok_ex Hd Hm) as [S1 S2]. fold r in S1, S2. pose proof (K _ S1) as Ew. assert (ph r = 4) as Eh by (apply K; rewrite (Rplus_comm (IZR 2 * Rabs (cos (rad 45)))); exact S2).
  split; [rewrite Ew, Eh; reflexivity|]. unfold r in *.
  pose proof (c156_inside someMath noTools 0 square 45 1 1 255 trig_ok_ex Hd Hm ltac:(lia) Ha ltac:(rewrite Ew; lia) ltac:(rewrite Eh; lia)) as I1. pose proof (c156_inside someMath noTools 0 square 45 2 2 255 trig_ok_ex Hd Hm ltac:(lia) Ha ltac:(rewrite Ew; lia) ltac:(rewrite Eh; lia)) as I2.
  pose proof (c156_outside someMath noTools 0 square 45 0 0 trig_ok_ex Hd Hm Hcol ltac:(rewrite Ew; lia) ltac:(rewrite Eh; lia)) as O1. pose proof (c156_outside someMath noTools 0 square 45 3 3 trig_ok_ex Hd Hm Hcol ltac:(rewrite Ew; lia) ltac:(rewrite Eh; lia)) as O2.
  unfold cameX, cameY, inside, outside in I1, I2, O1, O2. rewrite Ew, Eh, E in I1, I2, O1, O2. change (pw (shows square)) with 3 in *. change (ph (shows square)) with 3 in *. set (s := sin (rad 45)) in *. change (3 - 1) with 2 in *.
  split; [apply O1; right; right; left; lra|]. split; [apply I1; lra|]. split; [apply I2; lra|]. apply O2. right. right. right. lra.
Qed.

(** * C158 What is fully transparent has no colour *)
(** Two images that differ only in the colours of fully transparent pixels look the same after any turn, whatever math.Sincos gives. *)
Theorem c158_hidden_colours M T filter i j d : - 2 ^ 53 < d < 2 ^ 53 -> million (shows i) -> everywhere colour (shows i) -> everywhere colour (shows j) ->
  pixelwise look_same (shows i) (shows j) -> pixelwise look_same (turned M T filter i d) (turned M T filter j d).
Proof. intros Hd Hm Hi Hj Hs. apply turned_veiled; [exact Hd|exact Hm|]. apply veil; assumption. Qed.
Print Assumptions c158_hidden_colours.
Example c158_ex : let j := Img (bounds flag) (fun x y => if (x =? 3) && (y =? 5) then Px 9 9 9 0 else px flag x y) in
  pixelwise look_same (shows flag) (shows j) /\ at_ (shows flag) 0 0 <> at_ (shows j) 0 0 /\ row (turned tilt noTools 0 flag 37) 1 = row (turned tilt noTools 0 j 37) 1.
Proof.
  cbv zeta. split; [|split; [vm_compute; discriminate|vm_compute; reflexivity]]. split; [reflexivity|]. split; [reflexivity|]. intros x y _ _. cbn. destruct (_ && _); [right; split; reflexivity|left; reflexivity].
Qed.
