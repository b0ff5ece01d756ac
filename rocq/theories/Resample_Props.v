(** Properties C147 to C154: what resizing and blurring do to the pixels.

    The pictures are those that parseImage, and Encode before encoding, make when only a size, only Blur or only ScaleUpper or ScaleLower is asked for; C120 says what several
    options do together.  All float64 arithmetic is binary64 with rounding to nearest even; the theorems depend on the axioms of Coq's real numbers through Flocq's proofs
    about it, as Print Assumptions shows. *)
From Coq Require Import ZArith List Bool Lia ZifyBool Reals Lra String.
From Flocq Require Import Core BinarySingleNaN.
From Verif Require Import GoInt GoFloat Image_Model Image_Spec Image_Proofs Pixel_Model Pixel_Spec Pixel_Proofs Resample_Model Resample_Spec Resample_Err Resample_Weights Resample_Kernels Resample_Proofs Resample_Blur Resample_Steps Resample_Box Resample_Middle Resample_Trig Resample_Lobes Resample_Sines.
Import ListNotations.
Local Open Scope Z_scope.

(** Two grey pixels, then two lighter ones. *)
Definition line4 : img pixel := Img (MkRect 0 0 4 1) (fun x _ => if x <? 2 then Px 100 100 100 255 else Px 200 200 200 255).
(** The same in a column of pixels that are half transparent. *)
Definition column4 : img pixel := Img (MkRect 0 0 1 4) (fun _ y => if y <? 2 then Px 100 100 100 128 else Px 200 0 200 128).
Definition flat (p : pixel) (w h : Z) : img pixel := Img (MkRect 0 0 w h) (fun _ _ => p).
Definition noMath : mathf := Math (fun x => x) (fun x => x) (fun x => x).
Definition noTools : tools := Tools (fun _ => None) (fun _ _ => None) (fun _ _ => None) (fun _ i _ _ => px i) (fun _ i _ _ => px i) (fun _ i => px i) (fun _ i => i).
Definition row (p : picture) (y : Z) : list pixel := map (fun x => at_ p x y) (zseq 0 (Z.to_nat (pw p))).

(** A math.Exp as it is asked for exists: the nearest float64. *)
Definition fl (x : R) : f64 := binary_normalize 53 1024 prec_ok emax_ok mode_NE (Ztrunc (scaled_mantissa radix2 (SpecFloat.fexp 53 1024) (R64 x))) (cexp radix2 (SpecFloat.fexp 53 1024) (R64 x)) false.
Lemma fl_val x : (Rabs x <= 1)%R -> val (fl x) (R64 x).
Proof.
  intros Hx. unfold fl. pose proof (binary_normalize_correct 53 1024 prec_ok emax_ok mode_NE (Ztrunc (scaled_mantissa radix2 (SpecFloat.fexp 53 1024) (R64 x))) (cexp radix2 (SpecFloat.fexp 53 1024) (R64 x)) false) as C.
  assert (generic_format radix2 (SpecFloat.fexp 53 1024) (R64 x)) as G by (apply generic_format_round; [apply (fexp_correct 53 1024); exact prec_ok|apply valid_rnd_round_mode]).
  change (F2R _) with (F2R (Float radix2 (Ztrunc (scaled_mantissa radix2 (SpecFloat.fexp 53 1024) (R64 x))) (cexp radix2 (SpecFloat.fexp 53 1024) (R64 x)))) in C. rewrite <- G in C.
  cbv zeta in C. rewrite (round_generic radix2 (SpecFloat.fexp 53 1024) (round_mode mode_NE) (R64 x)) in C; [|exact G]. rewrite Rlt_bool_true in C; [split; apply C|]. apply Rabs_le_inv in Hx.
  apply Rle_lt_trans with 1%R; [apply Rabs_le; split; [apply (R64_ge_int _ (-1)); [cbn; lia|lra]|apply (R64_le_int _ 1); [cbn; lia|lra]]|]. change 1%R with (bpow radix2 0). apply bpow_lt. reflexivity.
Qed.
Definition someMath : mathf := Math (fun g => fl (sin (B2R g))) (fun g => fl (cos (B2R g))) (fun g => fl (exp (B2R g))).
Example exp_ok_ex : exp_ok someMath.
Proof.
  intros g t [_ <-] Ht. cbn [Exp someMath]. set (t := B2R g) in *. pose proof (exp_pos t) as P. assert (exp t <= 1)%R as L. { rewrite <- exp_0. destruct (Req_dec t 0) as [->|Ne]; [lra|]. apply Rlt_le, exp_increasing. lra. }
  exists (R64 (exp t)). split; [apply fl_val; apply Rabs_le; lra|]. split; [apply R64_nonneg; lra|]. pose proof (R64_bound (exp t) (exp t) ltac:(rewrite Rabs_pos_eq; lra)) as E. pose proof u_small as Hu. unfold h in E. assert (u * exp t <= / 9007199254740992 * exp t)%R by (apply Rmult_le_compat_r; lra). lra.
Qed.

(** So do a math.Sin and a math.Cos. *)
Lemma R64_nearest x (f : f64) : (Rabs (R64 x - x) <= Rabs (B2R f - x))%R.
Proof. assert (Valid_exp (SpecFloat.fexp 53 1024)) as VE by (apply (fexp_correct 53 1024); exact prec_ok). destruct (round_N_pt radix2 (SpecFloat.fexp 53 1024) (fun z => negb (Z.even z)) x) as [_ H]. apply H. apply generic_format_B2R. Qed.
Example trig_ok_ex : trig_ok someMath.
Proof.
  intros g t [Fg <-] Ht. set (t := B2R g) in *. cbn [Sin Cos someMath]. fold t. pose proof (SIN_bound t) as Sb. pose proof (COS_bound t) as Cb. pose proof u_small as Hu. split.
  - exists (R64 (sin t)). split; [apply fl_val; apply Rabs_le; lra|]. assert (Rabs (sin t) <= Rabs t)%R as L by (pose proof (sin_lip t 0) as L; rewrite sin_0, !Rminus_0_r in L; exact L).
    destruct (Rle_dec (Rabs t) (/ 8388608)) as [S|S].
    + eapply Rle_trans; [apply (R64_nearest _ g)|]. fold t. assert (forall a, 0 <= a <= / 8388608 -> Rabs (a - sin a) <= / 35184372088832 * a)%R as K.
      { intros a Ha. pose proof pi_R. pose proof (sin_lo a ltac:(lra)) as S1. pose proof (sin_abs_le a ltac:(lra)) as S2. apply Rabs_le_inv in S2. cbn [pow] in S1. apply Rabs_le. assert (a * a <= / 70368744177664)%R by nra. assert (a * (a * a) <= a * / 70368744177664)%R by (apply Rmult_le_compat_l; lra). split; lra. }
      destruct (Rle_dec 0 t) as [P|P]; [rewrite (Rabs_pos_eq t) in * by lra; apply K; lra|]. rewrite (Rabs_left t) in * by lra. pose proof (K (- t)%R ltac:(lra)) as Kt. rewrite sin_neg in Kt. replace (- t - - sin t)%R with (- (t - sin t))%R in Kt by ring. rewrite Rabs_Ropp in Kt. exact Kt.
    + pose proof (R64_abs (sin t)) as E. assert (u * Rabs (sin t) <= / 9007199254740992 * Rabs t)%R by (apply Rmult_le_compat; try apply Rabs_pos; lra). unfold h in E. lra.
  - exists (R64 (cos t)). split; [apply fl_val; apply Rabs_le; lra|]. pose proof (R64_abs (cos t)) as E. assert (Rabs (cos t) <= 1)%R by (apply Rabs_le; lra). assert (u * Rabs (cos t) <= / 9007199254740992 * 1)%R by (apply Rmult_le_compat; try apply Rabs_pos; lra). unfold h in E. lra.
Qed.

Lemma self (P : pixel -> Prop) i : everywhere P (shows i) -> pixelwise (fun p _ => P p) (shows i) (shows i).
Proof. intros H. split; [reflexivity|]. split; [reflexivity|]. exact H. Qed.
Lemma selves (P : pixel -> Prop) a b : pixelwise (fun p _ => P p) a b -> everywhere P a.
Proof. intros (_ & _ & H). exact H. Qed.
Lemma ringed_good f c0 c1 c2 G : ringed_kernel c0 c1 c2 G f -> good (fine 100) f.
Proof. intros H. right. intros src dst v Hsrc Hdst Hv. destruct (ringed_fine f src dst v Hsrc Hdst Hv c0 c1 c2 G H) as (B & A). split; assumption. Qed.
Lemma sines_good M n : trig_ok M -> 8 <= n <= 14 -> good (fine 100) (filterOf M n).
Proof.
  intros HM Hn. assert (n = 8 \/ n = 9 \/ n = 10 \/ n = 11 \/ n = 12 \/ n = 13 \/ n = 14) as C by lia. repeat destruct C as [ -> | C]; [..|subst n]; cbn [filterOf]; eapply ringed_good.
  - apply bartlett_ok, HM.
  - apply lanczos_ok, HM.
  - apply hann_ok, HM.
  - apply hamming_ok, HM.
  - apply blackman_ok, HM.
  - apply welch_ok, HM.
  - apply cosine_ok, HM.
Qed.
Lemma all_good M filter : exp_ok M -> sineless filter \/ trig_ok M -> good (fine 100) (filterOf M (selectFilter filter)).
Proof.
  intros HM Hf. unfold selectFilter. destruct ((0 <=? filter) && (filter <=? 14)) eqn:E; [|apply upto7_good; [exact HM|lia]]. destruct (Z_le_gt_dec filter 7) as [L|L]; [apply upto7_good; [exact HM|lia]|].
  destruct Hf as [Hf|Hf]; [exfalso; apply Hf; lia|apply sines_good; [exact Hf|lia]].
Qed.
Lemma soft_filter filter : soft filter -> selectFilter filter = filter.
Proof. unfold soft, selectFilter. intros H. replace ((0 <=? filter) && (filter <=? 14)) with true by lia. reflexivity. Qed.

(** * C147 One colour stays that colour *)
(** Resizing a picture of one colour that is not fully transparent gives a picture of exactly that colour, with every filter; those without sines and cosines need nothing of
    math.Sin and math.Cos.  Missing for the full claim: sides above a million, thumbnails of large pictures with a side left open. *)
Theorem c147_one_colour_partial M T filter i w h mode p : exp_ok M -> sineless filter \/ trig_ok M -> million (shows i) -> int64 w -> int64 h -> resizable (shows i) w h mode ->
  colour p -> 1 <= pa p -> everywhere (fun q => q = p) (shows i) -> everywhere (fun q => q = p) (resized M T filter i w h mode).
Proof.
  intros HM Hf Hm Hw Hh Hr Hp Ha He. apply (selves _ _ (resized M T filter i w h mode)). apply (step_kept (fine 100) (fun q _ => q = p) M T filter i i w h mode (uniform_closed p Hp Ha) (all_good M filter HM Hf) (self _ i He) eq_refl Hm Hw Hh Hr).
Qed.
Print Assumptions c147_one_colour_partial.
(** So do ScaleUpper and ScaleLower, whose filter is always Lanczos.  Missing: sides above a million. *)
Theorem c147_one_colour_scaled_up_partial M T filter i l p : trig_ok M -> million (shows i) -> million (scaledUp M T filter i l) ->
  colour p -> 1 <= pa p -> everywhere (fun q => q = p) (shows i) -> everywhere (fun q => q = p) (scaledUp M T filter i l).
Proof.
  intros HM Hm Hl Hp Ha He. apply (selves _ _ (scaledUp M T filter i l)).
  apply (upper_kept (fine 100) (fun q _ => q = p) M T filter i i (MkOptions false false "" 0 false false 0 0 [] [] (of_int 0) l []) (uniform_closed p Hp Ha) (sines_good M 9 HM ltac:(lia)) (self _ i He) Hm Hl).
Qed.
Print Assumptions c147_one_colour_scaled_up_partial.
Theorem c147_one_colour_scaled_down_partial M T filter i l p : trig_ok M -> million (shows i) -> million (scaledDown M T filter i l) ->
  colour p -> 1 <= pa p -> everywhere (fun q => q = p) (shows i) -> everywhere (fun q => q = p) (scaledDown M T filter i l).
Proof.
  intros HM Hm Hl Hp Ha He. apply (selves _ _ (scaledDown M T filter i l)).
  apply (lower_kept (fine 100) (fun q _ => q = p) M T filter i i (MkOptions false false "" 0 false false 0 0 [] [] (of_int 0) [] l) (uniform_closed p Hp Ha) (sines_good M 9 HM ltac:(lia)) (self _ i He) Hm Hl).
Qed.
Print Assumptions c147_one_colour_scaled_down_partial.
Example c147_ex : colour (Px 17 130 201 77) /\ million (shows (flat (Px 17 130 201 77) 5 4)) /\
  (let r := resized noMath noTools 5 (flat (Px 17 130 201 77) 4 1) 3 1 0 in (pw r, ph r, row r 0) = (3, 1, [Px 17 130 201 77; Px 17 130 201 77; Px 17 130 201 77])) /\
  (let r := resized noMath noTools 3 (flat (Px 17 130 201 1) 3 2) 2 2 1 in (pw r, ph r, row r 1) = (2, 2, [Px 17 130 201 1; Px 17 130 201 1])).
Proof. split; [repeat split; cbn; lia|]. split; [repeat split; cbn; lia|]. split; vm_compute; reflexivity. Qed.
(** With Lanczos and the nearest sines: 5x4 made 3x9, and made at least 7x2. *)
Example c147_lanczos_ex : let i := flat (Px 17 130 201 77) 5 4 in everywhere (fun q => q = Px 17 130 201 77) (resized someMath noTools 9 i 3 9 1) /\
  (pw (scaledUp someMath noTools 0 i [7; 2]), ph (scaledUp someMath noTools 0 i [7; 2])) = (7, 5) /\ everywhere (fun q => q = Px 17 130 201 77) (scaledUp someMath noTools 0 i [7; 2]).
Proof.
  cbv zeta. assert (colour (Px 17 130 201 77)) as Hc by (repeat split; cbn; lia). assert (million (shows (flat (Px 17 130 201 77) 5 4))) as Hm by (repeat split; cbn; lia).
  assert ((pw (scaledUp someMath noTools 0 (flat (Px 17 130 201 77) 5 4) [7; 2]), ph (scaledUp someMath noTools 0 (flat (Px 17 130 201 77) 5 4) [7; 2])) = (7, 5)) as Hs by (vm_compute; reflexivity).
  split; [|split; [exact Hs|]].
  - apply c147_one_colour_partial; try exact Hc; try exact Hm; [apply exp_ok_ex|right; apply trig_ok_ex|unfold int64; lia|unfold int64; lia|right; left; lia|cbn; lia|intros x y _ _; reflexivity].
  - assert (million (scaledUp someMath noTools 0 (flat (Px 17 130 201 77) 5 4) [7; 2])) as Hl by (revert Hs; generalize (scaledUp someMath noTools 0 (flat (Px 17 130 201 77) 5 4) [7; 2]); intros q E; injection E as E1 E2; unfold million; lia).
    apply c147_one_colour_scaled_up_partial; [apply trig_ok_ex|exact Hm|exact Hl|exact Hc|cbn; lia|intros x y _ _; reflexivity].
Qed.

(** * C148 One alpha stays that alpha *)
Lemma alpha_kept a : 0 <= a <= 255 -> closed (fine 100) (fun q _ => alpha a q).
Proof. intros Ha. destruct (Z.eq_dec a 0) as [->|N]; [exact (transparent_closed 100)|exact (alpha_closed a ltac:(lia))]. Qed.
(** An opaque picture stays opaque, a fully transparent one fully transparent, and any other with the same alpha everywhere keeps it.  Missing: as in C147. *)
Theorem c148_one_alpha_partial M T filter i w h mode a : exp_ok M -> sineless filter \/ trig_ok M -> million (shows i) -> int64 w -> int64 h -> resizable (shows i) w h mode ->
  0 <= a <= 255 -> everywhere (alpha a) (shows i) -> everywhere (alpha a) (resized M T filter i w h mode).
Proof.
  intros HM Hf Hm Hw Hh Hr Ha He. apply (selves _ _ (resized M T filter i w h mode)).
  apply (step_kept (fine 100) (fun q _ => alpha a q) M T filter i i w h mode (alpha_kept a Ha) (all_good M filter HM Hf) (self _ i He) eq_refl Hm Hw Hh Hr).
Qed.
Print Assumptions c148_one_alpha_partial.
Theorem c148_one_alpha_scaled_up_partial M T filter i l a : trig_ok M -> million (shows i) -> million (scaledUp M T filter i l) ->
  0 <= a <= 255 -> everywhere (alpha a) (shows i) -> everywhere (alpha a) (scaledUp M T filter i l).
Proof.
  intros HM Hm Hl Ha He. apply (selves _ _ (scaledUp M T filter i l)).
  apply (upper_kept (fine 100) (fun q _ => alpha a q) M T filter i i (MkOptions false false "" 0 false false 0 0 [] [] (of_int 0) l []) (alpha_kept a Ha) (sines_good M 9 HM ltac:(lia)) (self _ i He) Hm Hl).
Qed.
Print Assumptions c148_one_alpha_scaled_up_partial.
Theorem c148_one_alpha_scaled_down_partial M T filter i l a : trig_ok M -> million (shows i) -> million (scaledDown M T filter i l) ->
  0 <= a <= 255 -> everywhere (alpha a) (shows i) -> everywhere (alpha a) (scaledDown M T filter i l).
Proof.
  intros HM Hm Hl Ha He. apply (selves _ _ (scaledDown M T filter i l)).
  apply (lower_kept (fine 100) (fun q _ => alpha a q) M T filter i i (MkOptions false false "" 0 false false 0 0 [] [] (of_int 0) [] l) (alpha_kept a Ha) (sines_good M 9 HM ltac:(lia)) (self _ i He) Hm Hl).
Qed.
Print Assumptions c148_one_alpha_scaled_down_partial.
Example c148_ex : everywhere (alpha 128) (shows column4) /\ (let r := resized noMath noTools 5 column4 1 3 0 in (pw r, ph r) = (1, 1) /\ row r 0 = [Px 150 50 150 128]) /\
  everywhere (alpha 128) (resized someMath noTools 12 column4 1 3 0).
Proof.
  assert (everywhere (alpha 128) (shows column4)) as H by (intros x y Hx Hy; cbn; destruct (y <? 2); repeat split; cbn; lia). split; [exact H|]. split; [vm_compute; auto|].
  apply c148_one_alpha_partial; [apply exp_ok_ex|right; apply trig_ok_ex|repeat split; cbn; lia|unfold int64; lia|unfold int64; lia|left; lia|lia|exact H].
Qed.

(** * C149 No colours that were not there *)
(** Resizing with MitchellNetravali, the filter of numbers that are no filter's, makes lines lighter and darker than what was there; so does CatmullRom. *)
Theorem c149_no_new_colours_refuted : exists i, million (shows i) /\ everywhere (fun p => alpha 255 p /\ between pr 100 200 p) (shows i) /\
  map pr (row (resized noMath noTools 4 i 3 1 0) 0) = [97; 150; 203] /\ map pr (row (resized noMath noTools 99 i 3 1 0) 0) = [97; 150; 203] /\ map pr (row (resized noMath noTools 5 i 3 1 0) 0) = [94; 150; 206].
Proof.
  exists line4. split; [repeat split; cbn; lia|]. split; [intros x y Hx Hy; cbn; destruct (x <? 2); repeat split; cbn; lia|]. split; [|split]; vm_compute; reflexivity.
Qed.
Print Assumptions c149_no_new_colours_refuted.
(** With the filters whose kernel is nowhere negative, each channel stays between the least and the greatest value it had, for pictures with the same alpha, not 0,
    everywhere.  Missing for the full claim: the other filters, of which it is false. *)
Theorem c149_no_new_colours_partial M T filter i w h mode c a lo hi : exp_ok M -> soft filter -> million (shows i) -> int64 w -> int64 h -> resizable (shows i) w h mode ->
  a_channel c -> 1 <= a <= 255 -> 0 <= lo -> hi <= 255 -> everywhere (fun p => alpha a p /\ between c lo hi p) (shows i) -> everywhere (between c lo hi) (resized M T filter i w h mode).
Proof.
  intros HM Hf Hm Hw Hh Hr Hc Ha Hlo Hhi He. assert (everywhere (fun p => alpha a p /\ between c lo hi p) (resized M T filter i w h mode)) as K; [|intros x y Hx Hy; apply (K x y Hx Hy)].
  apply (selves _ _ (resized M T filter i w h mode)). apply (step_kept (fine (/ 10000)) (fun p _ => alpha a p /\ between c lo hi p) M T filter i i w h mode).
  - apply between_closed; try assumption. left. lra.
  - rewrite (soft_filter filter Hf). apply soft_good; assumption.
  - apply (self (fun p => alpha a p /\ between c lo hi p)). exact He.
  - reflexivity.
  - exact Hm.
  - exact Hw.
  - exact Hh.
  - exact Hr.
Qed.
Print Assumptions c149_no_new_colours_partial.
Example c149_ex : soft 6 /\ map pr (row (resized noMath noTools 6 line4 3 1 0) 0) = [104; 150; 196] /\ map pr (row (resized noMath noTools 3 line4 3 1 0) 0) = [100; 150; 200].
Proof. split; [unfold soft; lia|]. split; vm_compute; reflexivity. Qed.

(** * C150 What is fully transparent has no colour *)
Lemma veil i j : everywhere colour (shows i) -> everywhere colour (shows j) -> pixelwise look_same (shows i) (shows j) -> pixelwise veiled (shows i) (shows j).
Proof. intros Hi Hj (E1 & E2 & E3). split; [exact E1|]. split; [exact E2|]. intros x y Hx Hy. split; [apply Hi; assumption|]. split; [apply Hj; lia|]. apply E3; assumption. Qed.
Lemma unveil a b : pixelwise veiled a b -> pixelwise look_same a b.
Proof. intros (E1 & E2 & E3). split; [exact E1|]. split; [exact E2|]. intros x y Hx Hy. apply E3; assumption. Qed.
(** Two images that differ only in the colours of fully transparent pixels look the same after resizing, whatever the filter and whatever math.Sin, math.Cos and math.Exp do. *)
Theorem c150_transparent_resized M T filter i j w h mode : million (shows i) -> int64 w -> int64 h -> resizable (shows i) w h mode -> bounds i = bounds j ->
  everywhere colour (shows i) -> everywhere colour (shows j) -> pixelwise look_same (shows i) (shows j) -> pixelwise look_same (resized M T filter i w h mode) (resized M T filter j w h mode).
Proof. intros Hm Hw Hh Hr Hb Hi Hj Hs. apply unveil. apply (step_kept _ _ M T filter i j w h mode veiled_closed (any_good _) (veil i j Hi Hj Hs) Hb Hm Hw Hh Hr). Qed.
Print Assumptions c150_transparent_resized.
(** So they do after ScaleUpper and ScaleLower. *)
Theorem c150_transparent_scaled_up M T filter i j l : million (shows i) -> million (scaledUp M T filter i l) ->
  everywhere colour (shows i) -> everywhere colour (shows j) -> pixelwise look_same (shows i) (shows j) -> pixelwise look_same (scaledUp M T filter i l) (scaledUp M T filter j l).
Proof. intros Hm Hl Hi Hj Hs. apply unveil. apply (upper_kept _ _ M T filter i j (MkOptions false false "" 0 false false 0 0 [] [] (of_int 0) l []) veiled_closed (any_good _) (veil i j Hi Hj Hs) Hm Hl). Qed.
Print Assumptions c150_transparent_scaled_up.
Theorem c150_transparent_scaled_down M T filter i j l : million (shows i) -> million (scaledDown M T filter i l) ->
  everywhere colour (shows i) -> everywhere colour (shows j) -> pixelwise look_same (shows i) (shows j) -> pixelwise look_same (scaledDown M T filter i l) (scaledDown M T filter j l).
Proof. intros Hm Hl Hi Hj Hs. apply unveil. apply (lower_kept _ _ M T filter i j (MkOptions false false "" 0 false false 0 0 [] [] (of_int 0) [] l) veiled_closed (any_good _) (veil i j Hi Hj Hs) Hm Hl). Qed.
Print Assumptions c150_transparent_scaled_down.
(** And after blurring, whatever sigma is. *)
Theorem c150_transparent_blurred M T filter i j sigma : million (shows i) ->
  everywhere colour (shows i) -> everywhere colour (shows j) -> pixelwise look_same (shows i) (shows j) -> pixelwise look_same (blurredBy M T filter i sigma) (blurredBy M T filter j sigma).
Proof. intros Hm Hi Hj Hs. apply unveil. apply (blur_step_kept (fun _ => True) veiled M T filter i j (blurring sigma) bveiled_closed (fun _ _ _ _ _ => I) (veil i j Hi Hj Hs) Hm). Qed.
Print Assumptions c150_transparent_blurred.
(** Two pixels, one of them transparent red or transparent green, made one, and three made two. *)
Example c150_ex : let i p := Img (MkRect 0 0 3 1) (fun x _ => if x =? 0 then p else Px 0 0 250 255) in
  pixelwise look_same (shows (i (Px 255 0 0 0))) (shows (i (Px 0 255 0 0))) /\
  row (resized noMath noTools 1 (i (Px 255 0 0 0)) 2 1 0) 0 = [Px 0 0 250 128; Px 0 0 250 255] /\ row (resized noMath noTools 1 (i (Px 0 255 0 0)) 2 1 0) 0 = [Px 0 0 250 128; Px 0 0 250 255].
Proof. cbv zeta. split; [repeat split; intros; cbn; destruct (_ =? 0); [right; split; reflexivity|left; reflexivity]|]. split; vm_compute; reflexivity. Qed.

(** * C151 Box: the mean *)
(** The Box filter (number 1) makes a picture a whole number of times, k, smaller by replacing each block of k x k pixels with its mean, up to 1.02, in each channel, for
    pictures with the same alpha, not 0, everywhere, in the modes that do not cut. *)
Theorem c151_box_means M T i w h mode k c a x y : let r := resized M T 1 i w h mode in
  million (shows i) -> int64 w -> int64 h -> mode <> 1 -> mode <> 5 -> 1 <= k -> pw (shows i) = k * pw r -> ph (shows i) = k * ph r ->
  a_channel c -> 1 <= a <= 255 -> everywhere (alpha a) (shows i) -> 0 <= x < pw r -> 0 <= y < ph r ->
  100 * Z.abs (k * k * c (at_ r x y) - block_sum c k (shows i) x y) <= 102 * (k * k).
Proof.
  cbv zeta. unfold resized. rewrite p_resize. intros Hm Hw Hh M1 M5 Hk. assert (sides (shows i)) as Hs by (destruct Hm as [A B]; unfold sides; change (2 ^ 20) with 1048576; lia). pose proof (sides_proper i Hs) as P.
  assert (side (pw (shows i)) /\ side (ph (shows i))) as [Sw Sh] by (destruct Hm; unfold side; change (2 ^ 31) with 2147483648; lia). pose proof Hm as [Hmw Hmh].
  unfold stepResize. destruct ((0 <? w) || (0 <? h)) eqn:E.
  - rewrite Dx_proper, Dy_proper by exact P. destruct (prase_scale mode (pw (shows i)) (ph (shows i)) w h) as (nw & nh & -> & L1 & L2); try assumption; [split; assumption|].
    change (selectFilter 1) with 1. unfold ResizeImg. rewrite Dx_proper, Dy_proper by exact P. pose proof (Resize_small _ _ nw nh Sw Sh L1 L2) as [R1 R2]. destruct (Resize (pw (shows i)) (ph (shows i)) nw nh) as [W H]. cbn [fst snd] in R1, R2. cbn [withImaging resampled filterOf].
    assert (forall g, shows (fresh W H g) = Pic W H (fun x y => g x y)) as Ef. { intros g. unfold shows, fresh, Rect. cbn. replace (W <? 0) with false by lia. replace (H <? 0) with false by lia. rewrite !Z.sub_0_r. reflexivity. }
    rewrite Ef. cbn [pw ph at_]. intros Ew Eh Hc Ha He Hx Hy. pose proof (box_blocks i k W H a c x y Hk Hs Ew Eh ltac:(lia) ltac:(lia) Ha Hc He Hx Hy) as K.
    pose proof (resizeTo_origin Box i W H Hs ltac:(change (2 ^ 20) with 1048576; lia) ltac:(change (2 ^ 20) with 1048576; lia)) as [O1 O2]. cbn [shows at_] in K. rewrite O1, O2, !Z.add_0_l in K. exact K.
  - intros Ew Eh Hc Ha He Hx Hy. assert (k = 1) as -> by nia. unfold block_sum. change (Z.to_nat 1) with 1%nat. cbn [sumZ]. change (Z.of_nat 0) with 0. rewrite !Z.mul_1_r, !Z.add_0_r. replace (_ - _) with 0 by ring. lia.
Qed.
Print Assumptions c151_box_means.
Definition four : img pixel := Img (MkRect 3 5 7 7) (fun x y => Px (10 * (x - 3) + 100 * (y - 5)) 7 (255 - x) 200).
Example c151_ex : (let r := resized noMath noTools 1 four 2 1 0 in (pw r, ph r) = (2, 1) /\ row r 0 = [Px 55 7 252 200; Px 75 7 250 200]) /\ block_sum pr 2 (shows four) 0 0 = 220 /\ block_sum pb 2 (shows four) 1 0 = 998.
Proof. vm_compute. auto. Qed.

(** * C152 Blur *)
(** A positive Blur so small that its square is 0 in float64 erases the picture: every pixel becomes transparent black.  math.Exp gives NaN for NaN. *)
Theorem c152_blur_erases_refuted M T filter : Exp M B754_nan = B754_nan -> exists i sigma, fgt sigma (of_int 0) = true /\ million (shows i) /\ everywhere (alpha 255) (shows i) /\
  everywhere (fun p => p = Px 0 0 0 0) (blurredBy M T filter i sigma).
Proof.
  intros HE. exists (flat (Px 10 20 30 255) 1 1), (fdiv (of_int 1) (of_int (10 ^ 200))). set (sigma := fdiv (of_int 1) (of_int (10 ^ 200))).
  split; [vm_compute; reflexivity|]. split; [repeat split; cbn; lia|]. split; [intros x y Hx Hy; cbn; repeat split; cbn; lia|].
  assert (gaussianBlurKernel M (of_int 0) sigma = B754_nan) as K. { unfold gaussianBlurKernel. replace (fdiv (fneg (fmul (of_int 0) (of_int 0))) (fmul (fmul (of_int 2) sigma) sigma)) with (B754_nan : f64) by (vm_compute; reflexivity). rewrite HE. reflexivity. }
  unfold blurredBy. change (blurring sigma) with (onlyBlur (blurring sigma)). rewrite p_blur. unfold stepBlur. replace (fgt (oBlur (blurring sigma)) (of_int 0)) with true by (vm_compute; reflexivity). unfold blurGaussianImage. cbn [withImaging blurred blurring oBlur].
  intros x y Hx Hy. change (0 <= x < 1) in Hx. change (0 <= y < 1) in Hy. assert (x = 0) as -> by lia. assert (y = 0) as -> by lia.
  change (px (Blur M (flat (Px 10 20 30 255) 1 1) sigma) 0 0 = Px 0 0 0 0). unfold Blur. replace (fle sigma (of_int 0)) with false by (vm_compute; reflexivity). cbn zeta.
  replace (to_int (fceil (fmul sigma (of_int 3)))) with 1 by (vm_compute; reflexivity). unfold blurVertical. cbn [px fresh]. rewrite blurAt_eq. set (bh := blurHorizontal _ _ _). replace (bws _ 1 (Dy (bounds bh)) 0) with [(0, gaussianBlurKernel M (of_int 0) sigma)] by reflexivity.
  rewrite K. unfold bmix, accumulate. cbn [fold_left fst snd]. set (q := scan _ _ _). clearbody q. generalize (of_int (pr q)), (of_int (pg q)), (of_int (pb q)), (of_int (pa q)). intros f1 f2 f3 f4. destruct f1, f2, f3, f4; reflexivity.
Qed.
Print Assumptions c152_blur_erases_refuted.
Section blur.
Variables (M : mathf) (T : tools) (filter : Z) (i : img pixel) (sigma : f64) (s : R).
Hypothesis HM : exp_ok M.
Hypothesis Vs : val sigma s.
Hypothesis Hs : (/ 100000 <= s <= 100000)%R.
Hypothesis Hm : million (shows i).
Lemma blur_all (P : pixel -> Prop) : bclosed smooth (fun p _ => P p) -> everywhere P (shows i) -> everywhere P (blurredBy M T filter i sigma).
Proof. intros HP He. apply (selves _ _ (blurredBy M T filter i sigma)). apply (blur_step_kept smooth (fun p _ => P p) M T filter i i (blurring sigma) HP (fun _ n x => gauss_smooth M HM sigma s Vs Hs n x) (self _ i He) Hm). Qed.
End blur.
(** From a hundred-thousandth to a hundred thousand, Blur keeps one colour exactly, keeps one alpha, and gives no channel a value outside those it had.  The size is kept
    whatever sigma is.  Missing for the full claim: smaller values, of which it is false, and larger ones, for which there may be no memory. *)
Theorem c152_blur_one_colour_partial M T filter i sigma s p : exp_ok M -> val sigma s -> (/ 100000 <= s <= 100000)%R -> million (shows i) -> colour p -> 1 <= pa p ->
  everywhere (fun q => q = p) (shows i) -> everywhere (fun q => q = p) (blurredBy M T filter i sigma).
Proof. intros HM Vs Hs Hm Hp Ha. apply (blur_all M T filter i sigma s HM Vs Hs Hm). apply buniform_closed; assumption. Qed.
Print Assumptions c152_blur_one_colour_partial.
Theorem c152_blur_one_alpha_partial M T filter i sigma s a : exp_ok M -> val sigma s -> (/ 100000 <= s <= 100000)%R -> million (shows i) -> 0 <= a <= 255 ->
  everywhere (alpha a) (shows i) -> everywhere (alpha a) (blurredBy M T filter i sigma).
Proof. intros HM Vs Hs Hm Ha. apply (blur_all M T filter i sigma s HM Vs Hs Hm). destruct (Z.eq_dec a 0) as [->|N]; [apply btransparent_closed|apply balpha_closed; lia]. Qed.
Print Assumptions c152_blur_one_alpha_partial.
Theorem c152_blur_no_new_colours_partial M T filter i sigma s c a lo hi : exp_ok M -> val sigma s -> (/ 100000 <= s <= 100000)%R -> million (shows i) -> a_channel c -> 1 <= a <= 255 -> 0 <= lo -> hi <= 255 ->
  everywhere (fun p => alpha a p /\ between c lo hi p) (shows i) -> everywhere (between c lo hi) (blurredBy M T filter i sigma).
Proof.
  intros HM Vs Hs Hm Hc Ha Hlo Hhi He x y Hx Hy. apply (blur_all M T filter i sigma s HM Vs Hs Hm (fun p => alpha a p /\ between c lo hi p)); try assumption. apply bbetween_closed; assumption.
Qed.
Print Assumptions c152_blur_no_new_colours_partial.
Theorem c152_blur_size M T filter i sigma : million (shows i) -> pw (blurredBy M T filter i sigma) = pw (shows i) /\ ph (blurredBy M T filter i sigma) = ph (shows i).
Proof. intros Hm. apply (blur_step_kept (fun _ => True) (fun _ _ => True) M T filter i i (blurring sigma)); try exact Hm; repeat split. Qed.
Print Assumptions c152_blur_size.
(** With e to the power replaced by 1/2 for what is not 0: weights 1/2, 1, 1/2. *)
Example c152_ex : val (of_int 3) 3 /\ exp_ok someMath /\
  (let halfMath := Math (fun x => x) (fun x => x) (fun x => if feq x (of_int 0) then of_int 1 else fhalf) in row (blurredBy halfMath noTools 0 line4 fhalf) 0 = [Px 125 125 125 255; Px 140 140 140 255; Px 160 160 160 255; Px 175 175 175 255]).
Proof. split; [apply val_int; cbn; lia|]. split; [exact exp_ok_ex|]. vm_compute. reflexivity. Qed.

(** * C153 NearestNeighbor: only pixels that were there *)
Theorem c153_nearest_picks M T i w h mode : million (shows i) -> int64 w -> int64 h -> resizable (shows i) w h mode ->
  everywhere (fun p => exists x y, 0 <= x < pw (shows i) /\ 0 <= y < ph (shows i) /\ p = at_ (shows i) x y) (resized M T 0 i w h mode).
Proof.
  intros Hm Hw Hh Hr. apply (selves _ _ (resized M T 0 i w h mode)).
  refine (step_kept (fun _ => False) (fun p _ => exists x y, 0 <= x < pw (shows i) /\ 0 <= y < ph (shows i) /\ p = at_ (shows i) x y) M T 0 i i w h mode _ (nearest_good _) _ eq_refl Hm Hw Hh Hr); [intros ? ? ? []|].
  split; [reflexivity|]. split; [reflexivity|]. intros x y Hx Hy. exists x, y. auto.
Qed.
Print Assumptions c153_nearest_picks.
Example c153_ex : million (shows four) /\ row (resized noMath noTools 0 four 3 1 1) 0 = [Px 0 7 252 200; Px 20 7 250 200; Px 30 7 249 200].
Proof. split; [repeat split; cbn; lia|vm_compute; reflexivity]. Qed.

(** * C154 What need not be resized is not *)
(** A request that leaves the size as it is leaves every pixel as it is, with every filter. *)
Theorem c154_same_size M T filter i w h mode : let r := resized M T filter i w h mode in million (shows i) -> int64 w -> int64 h ->
  pw r = pw (shows i) -> ph r = ph (shows i) -> alike r (shows i).
Proof. exact (same_size_same M T filter i w h mode). Qed.
Print Assumptions c154_same_size.
(** A thumbnail that is as wide or as high as the picture shows its middle, pixel for pixel, with every filter; what does not divide by 2 is cut at the right or bottom. *)
Theorem c154_thumbnail_middle M T filter i w h mode : let r := resized M T filter i w h mode in million (shows i) -> mode = 1 \/ mode = 5 ->
  1 <= pw r <= pw (shows i) -> 1 <= ph r <= ph (shows i) -> pw r = pw (shows i) \/ ph r = ph (shows i) -> alike r (middle (shows i) (pw r) (ph r)).
Proof. exact (thumbnail_middle M T filter i w h mode). Qed.
Print Assumptions c154_thumbnail_middle.
Example c154_ex : (let r := resized noMath noTools 0 four 7 2 0 in (pw r, ph r) = (4, 2) /\ row r 1 = [Px 100 7 252 200; Px 110 7 251 200; Px 120 7 250 200; Px 130 7 249 200]) /\
  (let r := resized noMath noTools 9 four 1 2 1 in (pw r, ph r) = (1, 2) /\ row r 1 = [Px 110 7 251 200]).
Proof. vm_compute. auto. Qed.
