(** Proofs about the pixels: pictures, turns and mirrors, and the way through Encode. *)
From Coq Require Import ZArith List Bool Lia String ZifyBool.
From Verif Require Import GoInt GoFloat Image_Model Image_Proofs Pixel_Model Pixel_Spec PixelGray_Proofs.
Import ListNotations.
Local Open Scope Z_scope.

(** ** Pictures *)
Lemma alike_refl a : alike a a.
Proof. repeat split. Qed.
Lemma alike_sym a b : alike a b -> alike b a.
Proof. intros (E1 & E2 & E3). split; [auto|split; [auto|]]. intros x y Hx Hy. symmetry. apply E3; lia. Qed.
Lemma alike_trans a b c : alike a b -> alike b c -> alike a c.
Proof. intros (E1 & E2 & E3) (F1 & F2 & F3). split; [congruence|split; [congruence|]]. intros x y Hx Hy. rewrite E3 by assumption. apply F3; lia. Qed.
Lemma quarter_alike a b : alike a b -> alike (quarter a) (quarter b).
Proof. intros (E1 & E2 & E3). split; [exact E2|split; [exact E1|]]. cbn. intros x y Hx Hy. rewrite <- E1. apply E3; lia. Qed.
Lemma mirrorLR_alike a b : alike a b -> alike (mirrorLR a) (mirrorLR b).
Proof. intros (E1 & E2 & E3). split; [exact E1|split; [exact E2|]]. cbn. intros x y Hx Hy. rewrite <- E1. apply E3; lia. Qed.
Lemma mirrorTB_alike a b : alike a b -> alike (mirrorTB a) (mirrorTB b).
Proof. intros (E1 & E2 & E3). split; [exact E1|split; [exact E2|]]. cbn. intros x y Hx Hy. rewrite <- E2. apply E3; lia. Qed.
Lemma each_alike f a b : alike a b -> alike (each f a) (each f b).
Proof. intros (E1 & E2 & E3). split; [exact E1|split; [exact E2|]]. cbn. intros x y Hx Hy. f_equal. apply E3; lia. Qed.
Lemma iter_quarter_alike n a b : alike a b -> alike (Nat.iter n quarter a) (Nat.iter n quarter b).
Proof.
  intros E. induction n as [|n IH]; [exact E|]. change (Nat.iter (S n) quarter a) with (quarter (Nat.iter n quarter a)).
  change (Nat.iter (S n) quarter b) with (quarter (Nat.iter n quarter b)). apply quarter_alike, IH.
Qed.
Lemma oriented_alike n lr tb a b : alike a b -> alike (oriented n lr tb a) (oriented n lr tb b).
Proof.
  intros E. unfold oriented. cbv zeta. pose proof (iter_quarter_alike n a b E) as H. destruct lr, tb; auto using mirrorLR_alike, mirrorTB_alike.
Qed.
Lemma each_oriented f n lr tb a : alike (each f (oriented n lr tb a)) (oriented n lr tb (each f a)).
Proof.
  assert (K : forall m, each f (Nat.iter m quarter a) = Nat.iter m quarter (each f a)).
  { induction m as [|m IH]; [reflexivity|]. change (Nat.iter (S m) quarter a) with (quarter (Nat.iter m quarter a)).
    change (Nat.iter (S m) quarter (each f a)) with (quarter (Nat.iter m quarter (each f a))). rewrite <- IH. reflexivity. }
  unfold oriented. cbv zeta. rewrite <- K. destruct lr, tb; apply alike_refl.
Qed.

(** ** Turns and mirrors of a picture *)
Ltac places := split; [reflexivity|split; [reflexivity|]]; cbn; intros x y Hx Hy; (reflexivity || (f_equal; lia)).
Lemma undo_oriented n lr tb a : (n < 4)%nat ->
  alike (oriented (if xorb lr tb then n else (4 - n) mod 4)%nat lr tb (oriented n lr tb a)) a.
Proof. intros Hn. do 4 (destruct n as [|n]; [destruct lr, tb; places|]). lia. Qed.
(** Two orientations are one. *)
Definition both_n (n1 : nat) (lr1 tb1 : bool) (n2 : nat) (lr2 tb2 : bool) : nat :=
  (((if xorb lr1 tb1 then n1 + (4 - n2) else n1 + n2) + (if xorb tb1 tb2 then 2 else 0)) mod 4)%nat.
Lemma two_oriented n1 lr1 tb1 n2 lr2 tb2 a : (n1 < 4)%nat -> (n2 < 4)%nat ->
  alike (oriented n2 lr2 tb2 (oriented n1 lr1 tb1 a)) (oriented (both_n n1 lr1 tb1 n2 lr2 tb2) (xorb (xorb lr1 tb1) (xorb lr2 tb2)) false a).
Proof.
  intros H1 H2. do 4 (destruct n1 as [|n1]; [do 4 (destruct n2 as [|n2]; [destruct lr1, tb1, lr2, tb2; places|]); lia|]). lia.
Qed.

(** ** The images of the model show them *)
Lemma Dx_proper i : proper i -> Dx (bounds i) = pw (shows i).
Proof. intros [H _]. unfold Dx. cbn. apply i64_small. lia. Qed.
Lemma Dy_proper i : proper i -> Dy (bounds i) = ph (shows i).
Proof. intros [_ H]. unfold Dy. cbn. apply i64_small. lia. Qed.
Lemma fresh_alike w h f a : 0 <= w -> 0 <= h -> alike (Pic w h f) a -> alike (shows (fresh w h f)) a.
Proof.
  intros Hw Hh (E1 & E2 & E3). unfold fresh, shows, Rect. cbn in *. replace (w <? 0) with false by lia. replace (h <? 0) with false by lia. cbn.
  split; [cbn; lia|split; [cbn; lia|]]. cbn. intros x y Hx Hy. apply E3; lia.
Qed.
Lemma fresh_proper w h f : 0 <= w < 2 ^ 63 -> 0 <= h < 2 ^ 63 -> proper (fresh w h f) /\ at_origin (fresh w h f).
Proof.
  intros Hw Hh. unfold fresh, proper, at_origin, Rect. cbn. replace (w <? 0) with false by lia. replace (h <? 0) with false by lia. cbn. lia.
Qed.
Lemma proper_shows i : proper i -> 0 <= pw (shows i) < 2 ^ 63 /\ 0 <= ph (shows i) < 2 ^ 63.
Proof. intros H. exact H. Qed.
Lemma alike_proper i j : alike (shows i) (shows j) -> proper i -> proper j.
Proof. intros (E1 & E2 & _) [H1 H2]. cbn in *. split; lia. Qed.
(** An image made from the scan of another. *)
Lemma made w h f i a : proper i -> w = pw a -> h = ph a -> (pw a = pw (shows i) /\ ph a = ph (shows i) \/ pw a = ph (shows i) /\ ph a = pw (shows i)) ->
  (forall x y, 0 <= x < pw a -> 0 <= y < ph a -> f x y = at_ a x y) ->
  alike (shows (fresh w h f)) a /\ proper (fresh w h f) /\ at_origin (fresh w h f).
Proof.
  intros Hp -> -> Hs Hf. pose proof (proper_shows i Hp) as [B1 B2]. assert (B : 0 <= pw a < 2 ^ 63 /\ 0 <= ph a < 2 ^ 63) by (destruct Hs as [[-> ->]|[-> ->]]; lia).
  split; [|apply fresh_proper; lia]. apply fresh_alike; [lia|lia|]. split; [reflexivity|split; [reflexivity|]]. cbn. exact Hf.
Qed.
Lemma scan_at i x y : scan i x y = at_ (shows i) x y.
Proof. reflexivity. Qed.
Definition gives (i' : img pixel) (a : picture) : Prop := alike (shows i') a /\ proper i' /\ at_origin i'.
Lemma Clone_gives i : proper i -> gives (Clone i) (shows i).
Proof. intros H. unfold Clone. rewrite Dx_proper, Dy_proper by exact H. apply (made _ _ _ i); auto. Qed.
Lemma gray_gives i : proper i -> gives (convertToGrayByImage i) (each grayPixel (shows i)).
Proof. intros H. unfold convertToGrayByImage. rewrite Dx_proper, Dy_proper by exact H. apply (made _ _ _ i); auto. Qed.
Lemma invert_gives i : proper i -> gives (invertByImage i) (each invertPixel (shows i)).
Proof. intros H. unfold invertByImage. rewrite Dx_proper, Dy_proper by exact H. apply (made _ _ _ i); auto. Qed.
Lemma flipH_gives i : proper i -> gives (flipHImage i) (mirrorLR (shows i)).
Proof. intros H. unfold flipHImage. rewrite Dx_proper, Dy_proper by exact H. cbv zeta. apply (made _ _ _ i); auto. Qed.
Lemma flipV_gives i : proper i -> gives (flipVImage i) (mirrorTB (shows i)).
Proof.
  intros H. unfold flipVImage. rewrite Dx_proper, Dy_proper by exact H. cbv zeta. apply (made _ _ _ i); auto. intros x y _ _. rewrite scan_at. cbn [mirrorTB at_]. f_equal. lia.
Qed.
Lemma Rotate90_gives i : proper i -> gives (Rotate90 i) (Nat.iter 1 quarter (shows i)).
Proof.
  intros H. unfold Rotate90. rewrite Dx_proper, Dy_proper by exact H. cbv zeta. apply (made _ _ _ i); auto. intros x y _ _. rewrite scan_at. cbn [Nat.iter nat_rect quarter at_]. f_equal. lia.
Qed.
Lemma Rotate180_gives i : proper i -> gives (Rotate180 i) (Nat.iter 2 quarter (shows i)).
Proof.
  intros H. unfold Rotate180. rewrite Dx_proper, Dy_proper by exact H. cbv zeta. apply (made _ _ _ i); auto. intros x y _ _. rewrite scan_at. cbn [Nat.iter nat_rect quarter at_ pw ph]. f_equal. lia.
Qed.
Lemma Rotate270_gives i : proper i -> gives (Rotate270 i) (Nat.iter 3 quarter (shows i)).
Proof.
  intros H. unfold Rotate270. rewrite Dx_proper, Dy_proper by exact H. cbv zeta. apply (made _ _ _ i); auto. intros x y _ _. rewrite scan_at. cbn [Nat.iter nat_rect quarter at_ pw ph]. f_equal; lia.
Qed.
Lemma turns_90 d : d mod 90 = 0 -> (turns d < 4)%nat /\ d mod 360 = 90 * Z.of_nat (turns d).
Proof.
  intros Hd. unfold turns. pose proof (Z.mod_pos_bound (d / 90) 4 ltac:(lia)) as B. rewrite Z2Nat.id by lia. split; [lia|].
  pose proof (Z.div_mod d 90 ltac:(lia)) as E. rewrite Hd in E. pose proof (Z.div_mod (d / 90) 4 ltac:(lia)) as E2.
  symmetry. apply (Z.mod_unique d 360 (d / 90 / 4)); lia.
Qed.
Lemma rotateImage_gives T i d : proper i -> - 2 ^ 53 < d < 2 ^ 53 -> d mod 90 = 0 -> gives (rotateImage T i d) (Nat.iter (turns d) quarter (shows i)).
Proof.
  intros H Hd H90. destruct (turns_90 d H90) as [Hn E]. unfold rotateImage. cbv zeta. rewrite !feq_norm by lia. rewrite E.
  destruct (turns d) as [|[|[|[|n]]]]; [| | | |lia]; cbn [Z.of_nat]; cbn.
  - apply Clone_gives, H.
  - apply Rotate90_gives, H.
  - apply Rotate180_gives, H.
  - apply Rotate270_gives, H.
Qed.
Lemma rotate_mod T i d d' : - 2 ^ 53 < d < 2 ^ 53 -> - 2 ^ 53 < d' < 2 ^ 53 -> d mod 360 = d' mod 360 -> rotateImage T i d = rotateImage T i d'.
Proof.
  intros Hd Hd' E. unfold rotateImage. cbv zeta. rewrite !feq_norm by lia. rewrite <- E. destruct (d mod 360 =? 0) eqn:E0; [reflexivity|].
  rewrite (norm_same d d') by lia. reflexivity.
Qed.

(** ** Encode with a format that keeps pixels *)
Lemma blur0 : fgt (of_int 0) (of_int 0) = false.
Proof. vm_compute. reflexivity. Qed.
Lemma gives_trans i a b : gives i a -> alike a b -> gives i b.
Proof. intros (H1 & H2 & H3) E. split; [exact (alike_trans _ _ _ H1 E)|split; assumption]. Qed.
Lemma parse_orientation T filter i d lr tb : proper i -> - 2 ^ 53 < d < 2 ^ 53 -> d mod 90 = 0 ->
  alike (shows (parseImage T filter i 0 0 0 (orientation d lr tb))) (oriented (turns d) lr tb (shows i)) /\
  proper (parseImage T filter i 0 0 0 (orientation d lr tb)).
Proof.
  intros H Hd H90. unfold parseImage, orientation. cbv zeta. cbn [stepAnchor stepSide stepUpper stepLower oCropAnchor oCropSide oScaleUpper oScaleLower].
  unfold stepResize. cbn [Z.ltb Z.compare orb]. unfold stepGray, stepInvert, stepBlur. cbn [oGray oInvert oBlur]. rewrite blur0.
  unfold stepAnchor, stepSide, stepUpper, stepLower. cbn [oCropAnchor oCropSide oScaleUpper oScaleLower].
  unfold stepRotate, stepFlipH, stepFlipV. cbn [oRotate oFlipH oFlipV].
  set (r := if d =? 0 then i else rotateImage T i d).
  assert (R : alike (shows r) (Nat.iter (turns d) quarter (shows i)) /\ proper r).
  { unfold r. destruct (Z.eqb_spec d 0) as [ -> |Hn].
    - split; [apply alike_refl|exact H].
    - destruct (rotateImage_gives T i d H Hd H90) as (A & B & _). auto. }
  destruct R as [R1 R2]. clearbody r. unfold oriented. cbv zeta. set (a := Nat.iter (turns d) quarter (shows i)) in *. clearbody a.
  set (h := if lr then flipHImage r else r).
  assert (Hh : alike (shows h) (if lr then mirrorLR a else a) /\ proper h).
  { unfold h. destruct lr; [|auto]. destruct (flipH_gives r R2) as (A & B & _). split; [|exact B]. exact (alike_trans _ _ _ A (mirrorLR_alike _ _ R1)). }
  destruct Hh as [H1 H2]. clearbody h. destruct tb; [|auto]. destruct (flipV_gives h H2) as (A & B & _). split; [|exact B].
  exact (alike_trans _ _ _ A (mirrorTB_alike _ _ H1)).
Qed.
Lemma encode_keeps T filter d i fmt w h m o : decode T d = Some (i, fmt) -> keeps_pixels T fmt -> oFormat o = ""%string ->
  nonempty (parseImage T filter i w h m o) ->
  exists j, decode T (Encode T filter d w h m (Some o)) = Some (j, fmt) /\ at_origin j /\ alike (shows j) (shows (parseImage T filter i w h m o)) /\ proper j.
Proof.
  intros Hd [Hf Hk] Ho Hn. unfold Encode. rewrite Hd. cbv zeta. rewrite Ho. cbn [String.eqb].
  destruct (Hk _ Hn) as (e & j & He & Hj & Hor & Ha). exists j.
  assert (E1 : String.eqb fmt "" = false) by (destruct Hf as [ <- |[ <- |[ <- |[]]]]; reflexivity).
  assert (E2 : existsb (String.eqb fmt) ["jpeg"; "png"; "gif"; "bmp"; "tiff"; "webp"]%string = true) by (destruct Hf as [ <- |[ <- |[ <- |[]]]]; reflexivity).
  rewrite E1, E2, He. split; [exact Hj|split; [exact Hor|split; [exact Ha|]]]. exact (alike_proper _ _ (alike_sym _ _ Ha) (proj1 Hn)).
Qed.
Lemma oriented_size n lr tb a : (pw (oriented n lr tb a) = pw a /\ ph (oriented n lr tb a) = ph a) \/ (pw (oriented n lr tb a) = ph a /\ ph (oriented n lr tb a) = pw a).
Proof.
  unfold oriented. cbv zeta. set (b := Nat.iter n quarter a).
  assert (B : (pw b = pw a /\ ph b = ph a) \/ (pw b = ph a /\ ph b = pw a)).
  { unfold b. clear b. induction n as [|n IH]; [left; split; reflexivity|]. change (Nat.iter (S n) quarter a) with (quarter (Nat.iter n quarter a)). cbn [quarter pw ph]. tauto. }
  destruct lr, tb; exact B.
Qed.
Lemma nonempty_alike i a : proper i -> alike (shows i) a -> 0 < pw a -> 0 < ph a -> nonempty i.
Proof. intros H (E1 & E2 & _) H1 H2. split; [exact H|]. lia. Qed.
Lemma encode_oriented T filter d i fmt deg lr tb : decode T d = Some (i, fmt) -> keeps_pixels T fmt -> nonempty i -> - 2 ^ 53 < deg < 2 ^ 53 -> deg mod 90 = 0 ->
  exists j, decode T (Encode T filter d 0 0 0 (Some (orientation deg lr tb))) = Some (j, fmt) /\ alike (shows j) (oriented (turns deg) lr tb (shows i)) /\ nonempty j.
Proof.
  intros Hd Hk Hn Hdeg H90. destruct (parse_orientation T filter i deg lr tb (proj1 Hn) Hdeg H90) as [A P].
  assert (S : 0 < pw (oriented (turns deg) lr tb (shows i)) /\ 0 < ph (oriented (turns deg) lr tb (shows i))).
  { destruct Hn as (_ & N1 & N2). destruct (oriented_size (turns deg) lr tb (shows i)) as [[-> ->]|[-> ->]]; auto. }
  destruct S as [S1 S2].
  destruct (encode_keeps T filter d i fmt 0 0 0 _ Hd Hk (eq_refl : oFormat (orientation deg lr tb) = ""%string) (nonempty_alike _ _ P A S1 S2)) as (j & Hj & _ & Ha & Pj).
  exists j. pose proof (alike_trans _ _ _ Ha A) as Q. split; [exact Hj|split; [exact Q|]]. exact (nonempty_alike _ _ Pj Q S1 S2).
Qed.
Lemma turns_opp d : d mod 90 = 0 -> turns (- d) = ((4 - turns d) mod 4)%nat.
Proof.
  intros Hd. destruct (turns_90 d Hd) as [Hn E]. assert (Hd' : (- d) mod 90 = 0) by (rewrite Z.mod_opp_l_z; lia).
  destruct (turns_90 (- d) Hd') as [Hn' E']. assert (S : (d mod 360 + (- d) mod 360) mod 360 = 0) by (rewrite <- Z.add_mod by lia; rewrite Z.add_opp_diag_r; reflexivity).
  rewrite E, E' in S. destruct (turns d) as [|[|[|[|n]]]]; [| | | |lia]; destruct (turns (- d)) as [|[|[|[|m]]]]; try lia; cbn in S |- *; try reflexivity; discriminate S.
Qed.

(** ** One option at a time *)
Lemma Intersect_bounds r b : Empty (Intersect r b) = false ->
  minX b <= minX (Intersect r b) /\ maxX (Intersect r b) <= maxX b /\ minY b <= minY (Intersect r b) /\ maxY (Intersect r b) <= maxY b.
Proof.
  unfold Intersect. cbv zeta. match goal with |- Empty (if Empty ?t then _ else _) = _ -> _ => destruct (Empty t) eqn:E end; [discriminate|]. intros _. cbn.
  repeat match goal with |- context [if ?c then _ else _] => destruct c eqn:? end; lia.
Qed.
Lemma same_bounds i j : at_origin i -> at_origin j -> alike (shows i) (shows j) -> bounds i = bounds j.
Proof.
  intros [A1 A2] [B1 B2] (E1 & E2 & _). cbn in E1, E2. destruct (bounds i) as [a b c d], (bounds j) as [a' b' c' d']. cbn in *. f_equal; lia.
Qed.
Lemma Crop_alike i j r : proper i -> at_origin i -> at_origin j -> alike (shows i) (shows j) ->
  alike (shows (Crop i r)) (shows (Crop j r)) /\ at_origin (Crop i r) /\ at_origin (Crop j r) /\ proper (Crop i r).
Proof.
  intros P A B E. pose proof (same_bounds i j A B E) as S. unfold Crop. cbv zeta. rewrite <- S. set (t := Intersect r (bounds i)).
  destruct A as [A1 A2]. rewrite A1, A2, !Z.sub_0_r.
  assert (Et : MkRect (minX t) (minY t) (maxX t) (maxY t) = t) by (destruct t; reflexivity). rewrite Et.
  destruct (Empty t) eqn:Em.
  - split; [|split; [split; reflexivity|split; [split; reflexivity|split; cbn; lia]]]. split; [reflexivity|split; [reflexivity|]]. cbn. intros; lia.
  - pose proof (Intersect_bounds r (bounds i) Em) as (I1 & I2 & I3 & I4). fold t in I1, I2, I3, I4.
    assert (Hne : minX t < maxX t /\ minY t < maxY t) by (unfold Empty in Em; lia).
    destruct P as [P1 P2]. split; [|split; [split; reflexivity|split; [split; reflexivity|split; cbn; lia]]].
    split; [reflexivity|split; [reflexivity|]]. cbn. intros x y Hx Hy. destruct E as (_ & _ & E3). cbn in E3. destruct B as [B1 B2].
    specialize (E3 (x + minX t) (y + minY t) ltac:(lia) ltac:(lia)). rewrite A1, A2, B1, B2 in E3. exact E3.
Qed.
(** [f] treats images that show the same picture alike, unless the result is too large for ints. *)
Definition respects (f : img pixel -> img pixel) : Prop :=
  forall i j, proper i -> at_origin i -> at_origin j -> alike (shows i) (shows j) -> proper (f i) ->
    alike (shows (f i)) (shows (f j)) /\ at_origin (f i) /\ at_origin (f j).
Lemma respects_id : respects (fun i => i).
Proof. intros i j P A B E _. auto. Qed.
Lemma respects_gives f g : (forall i, proper i -> gives (f i) (g (shows i))) -> (forall a b, alike a b -> alike (g a) (g b)) -> respects f.
Proof.
  intros Hf Hg i j P A B E _. destruct (Hf i P) as (F1 & F2 & F3). destruct (Hf j (alike_proper _ _ E P)) as (G1 & G2 & G3).
  split; [|auto]. exact (alike_trans _ _ _ F1 (alike_trans _ _ _ (Hg _ _ E) (alike_sym _ _ G1))).
Qed.
Lemma fresh_origin w h f : 0 <= w -> 0 <= h -> at_origin (fresh w h f).
Proof. intros Hw Hh. unfold fresh, at_origin, Rect. cbn. replace (w <? 0) with false by lia. replace (h <? 0) with false by lia. auto. Qed.
Lemma fresh_ext w h f g : (forall x y, f x y = g x y) -> alike (shows (fresh w h f)) (shows (fresh w h g)).
Proof. intros H. split; [reflexivity|split; [reflexivity|]]. intros x y _ _. apply H. Qed.
(** A size that is no size shows at once. *)
Definition size_ok (z : Z) : Prop := 0 <= z \/ z = - 2 ^ 63.
Lemma fresh_proper_origin w h f : size_ok w -> size_ok h -> proper (fresh w h f) -> at_origin (fresh w h f).
Proof.
  intros [Hw|Hw] [Hh|Hh]; [intros _; apply fresh_origin; assumption| | |]; unfold proper, fresh, Rect; cbn -[Z.pow]; intros [H1 H2]; exfalso; subst;
  repeat match goal with H : context [if ?c then _ else _] |- _ => destruct c eqn:? end; lia.
Qed.
Lemma to_int_ok f : size_ok (to_int (fmax (of_int 1) f)).
Proof.
  unfold fmax. destruct (fgt (of_int 1) f) eqn:E; [left; vm_compute; discriminate|].
  unfold to_int. destruct (Flocq.IEEE754.BinarySingleNaN.is_finite f) eqn:F; [|right; reflexivity]. destruct (_ && _); [|right; reflexivity]. left.
  assert (V : val f (Flocq.IEEE754.BinarySingleNaN.B2R f)) by (split; [exact F|reflexivity]).
  rewrite (val_gt _ _ _ _ (val_int 1 ltac:(lia)) V) in E. rewrite (Btrunc_val _ _ V).
  destruct (Flocq.Core.Raux.Rlt_bool_spec (Flocq.IEEE754.BinarySingleNaN.B2R f) (Coq.Reals.Rdefinitions.IZR 1)) as [L|L]; [discriminate|].
  assert (L0 : Coq.Reals.Rdefinitions.Rle (Coq.Reals.Rdefinitions.IZR 0) (Flocq.IEEE754.BinarySingleNaN.B2R f)) by (eapply Coq.Reals.RIneq.Rle_trans; [|exact L]; apply Coq.Reals.RIneq.IZR_le; lia).
  rewrite Flocq.Core.Raux.Ztrunc_floor by exact L0. apply Flocq.Core.Raux.Zfloor_lub. exact L0.
Qed.
Lemma Resize_ok w h a b : size_ok (fst (Resize w h a b)) /\ size_ok (snd (Resize w h a b)).
Proof.
  assert (Z0 : size_ok 0) by (left; lia).
  unfold Resize. destruct ((a <? 0) || (b <? 0)) eqn:E1; [split; exact Z0|]. destruct ((a =? 0) && (b =? 0)); [split; exact Z0|]. destruct ((w <=? 0) || (h <=? 0)); [split; exact Z0|].
  assert (A : size_ok a) by (left; lia). assert (B : size_ok b) by (left; lia). clear E1. cbv zeta. unfold fst, snd. split.
  - destruct (a =? 0); [apply to_int_ok|exact A].
  - destruct (b =? 0); [apply to_int_ok|exact B].
Qed.
Lemma Fill_ok w h a b : size_ok (fst (Fill w h a b)) /\ size_ok (snd (Fill w h a b)).
Proof. unfold Fill. destruct ((a <=? 0) || (b <=? 0) || (w <=? 0) || (h <=? 0)) eqn:E; split; left; unfold fst, snd; lia. Qed.
Lemma same_size i j : proper i -> alike (shows i) (shows j) -> Dx (bounds i) = Dx (bounds j) /\ Dy (bounds i) = Dy (bounds j).
Proof. intros P E. pose proof (alike_proper _ _ E P) as P'. rewrite !Dx_proper, !Dy_proper by assumption. destruct E as (E1 & E2 & _). auto. Qed.

Section steps.
Variable T : tools.
Hypothesis HT : sees_pictures T.
Lemma respects_resize f w h : respects (fun i => ResizeImg T f i w h).
Proof.
  intros i j P A B E. pose proof (alike_proper _ _ E P) as P'. destruct (same_size i j P E) as [S1 S2]. unfold ResizeImg. rewrite <- S1, <- S2.
  pose proof (Resize_ok (Dx (bounds i)) (Dy (bounds i)) w h) as [O1 O2]. destruct (Resize _ _ w h) as [W H]. cbn [fst snd] in O1, O2. intros Q.
  assert (X : alike (shows (fresh W H (resampled T f i W H))) (shows (fresh W H (resampled T f j W H)))).
  { apply fresh_ext. intros x y. destruct HT as (H1 & _). apply H1; assumption. }
  split; [exact X|]. split; apply fresh_proper_origin; assumption.
Qed.
Lemma respects_fill f w h : respects (fun i => FillImg T f i w h).
Proof.
  intros i j P A B E. pose proof (alike_proper _ _ E P) as P'. destruct (same_size i j P E) as [S1 S2]. unfold FillImg. rewrite <- S1, <- S2.
  pose proof (Fill_ok (Dx (bounds i)) (Dy (bounds i)) w h) as [O1 O2]. destruct (Fill _ _ w h) as [W H]. cbn [fst snd] in O1, O2. intros Q.
  assert (X : alike (shows (fresh W H (filled T f i W H))) (shows (fresh W H (filled T f j W H)))).
  { apply fresh_ext. intros x y. destruct HT as (_ & H2 & _). apply H2; assumption. }
  split; [exact X|]. split; apply fresh_proper_origin; assumption.
Qed.
Lemma respects_scale nw nh mp lo : respects (fun i => scaleImg T i nw nh mp lo).
Proof.
  intros i j P A B E. destruct (same_size i j P E) as [S1 S2]. unfold scaleImg. rewrite <- S1, <- S2. destruct (scaleTarget _ _ _ _ _ _) as [a b].
  exact (respects_resize Lanczos a b i j P A B E).
Qed.
Lemma respects_stepResize filter w h m : respects (stepResize T filter w h m).
Proof.
  intros i j P A B E. destruct (same_size i j P E) as [S1 S2]. unfold stepResize. rewrite <- S1, <- S2. destruct (_ || _); [|intros _; auto].
  destruct (praseMode _ _ _ _ _) as [[a b] []]; [exact (respects_resize _ a b i j P A B E)|exact (respects_fill _ a b i j P A B E)].
Qed.
Lemma respects_blur s : respects (fun i => blurGaussianImage T i s).
Proof.
  intros i j P A B E Q. pose proof (alike_proper _ _ E P) as P'. destruct (same_size i j P E) as [S1 S2]. unfold blurGaussianImage. rewrite <- S1, <- S2.
  rewrite Dx_proper, Dy_proper by exact P. pose proof (proper_shows i P) as [B1 B2]. split; [|split; apply fresh_proper; assumption].
  apply fresh_ext. intros x y. destruct HT as (_ & _ & H3 & _). apply H3; assumption.
Qed.
Lemma respects_rotate d : respects (fun i => rotateImage T i d).
Proof.
  unfold rotateImage. cbv zeta. destruct (feq _ _); [|destruct (feq _ _); [|destruct (feq _ _); [|destruct (feq _ _)]]].
  - exact (respects_gives Clone (fun a => a) Clone_gives (fun a b H => H)).
  - exact (respects_gives _ _ Rotate90_gives (iter_quarter_alike 1)).
  - exact (respects_gives _ _ Rotate180_gives (iter_quarter_alike 2)).
  - exact (respects_gives _ _ Rotate270_gives (iter_quarter_alike 3)).
  - intros i j P A B E _. destruct HT as (_ & _ & _ & H4 & H5). pose proof (alike_proper _ _ E P) as P'. split; [apply H4; assumption|]. split; apply H5; assumption.
Qed.
Lemma respects_crop (r : Z -> Z -> rect) : respects (fun i => Crop i (r (Dx (bounds i)) (Dy (bounds i)))).
Proof.
  intros i j P A B E _. destruct (same_size i j P E) as [S1 S2]. rewrite <- S1, <- S2.
  destruct (Crop_alike i j (r (Dx (bounds i)) (Dy (bounds i))) P A B E) as (C1 & C2 & C3 & _). auto.
Qed.
Lemma respects_anchor o : respects (stepAnchor o).
Proof.
  unfold stepAnchor. destruct (oCropAnchor o) as [|w [|h [|x [|y [|]]]]]; try exact respects_id. unfold cropImageByAnchor.
  intros i j P A B E. destruct (same_size i j P E) as [S1 S2]. rewrite <- S1, <- S2.
  match goal with |- context [if ?c then _ else _] => destruct c end.
  - intros _. destruct (Crop_alike i j (Rect x y (i64 (x + w)) (i64 (y + h))) P A B E) as (C1 & C2 & C3 & _). auto.
  - cbv zeta. intros _. match goal with |- context [Crop i ?r] => destruct (Crop_alike i j r P A B E) as (C1 & C2 & C3 & _) end. auto.
Qed.
Lemma respects_side o : respects (stepSide o).
Proof.
  unfold stepSide. destruct (oCropSide o) as [|w [|h [|x [|y [|]]]]]; try exact respects_id. unfold cropImageBySide.
  intros i j P A B E. destruct (same_size i j P E) as [S1 S2]. rewrite <- S1, <- S2. cbv zeta. intros _.
  match goal with |- context [Crop i ?r] => destruct (Crop_alike i j r P A B E) as (C1 & C2 & C3 & _) end. auto.
Qed.
(** What a call does that is given one option. *)
Ltac just_one := unfold parseImage; cbv zeta; unfold stepAnchor, stepSide, stepUpper, stepLower, stepResize, stepGray, stepInvert, stepRotate, stepFlipH, stepFlipV, stepBlur;
  cbn [onlyAnchor onlySide onlyUpper onlyLower onlyGray onlyInvert onlyRotate onlyFlipH onlyFlipV onlyBlur noOptions
       oGray oInvert oFormat oRotate oFlipH oFlipV oCropAnchor oCropSide oBlur oScaleUpper oScaleLower Z.ltb Z.compare Z.eqb orb]; rewrite ?blur0; reflexivity.
Lemma p_anchor filter i o : parseImage T filter i 0 0 0 (onlyAnchor o) = stepAnchor o i. Proof. just_one. Qed.
Lemma p_side filter i o : parseImage T filter i 0 0 0 (onlySide o) = stepSide o i. Proof. just_one. Qed.
Lemma p_upper filter i o : parseImage T filter i 0 0 0 (onlyUpper o) = stepUpper T o i. Proof. just_one. Qed.
Lemma p_lower filter i o : parseImage T filter i 0 0 0 (onlyLower o) = stepLower T o i. Proof. just_one. Qed.
Lemma p_gray filter i o : parseImage T filter i 0 0 0 (onlyGray o) = stepGray o i. Proof. just_one. Qed.
Lemma p_invert filter i o : parseImage T filter i 0 0 0 (onlyInvert o) = stepInvert o i. Proof. just_one. Qed.
Lemma p_rotate filter i o : parseImage T filter i 0 0 0 (onlyRotate o) = stepRotate T o i. Proof. just_one. Qed.
Lemma p_flipH filter i o : parseImage T filter i 0 0 0 (onlyFlipH o) = stepFlipH o i. Proof. just_one. Qed.
Lemma p_flipV filter i o : parseImage T filter i 0 0 0 (onlyFlipV o) = stepFlipV o i. Proof. just_one. Qed.
Lemma p_blur filter i o : parseImage T filter i 0 0 0 (onlyBlur o) = stepBlur T o i. Proof. just_one. Qed.
Lemma p_resize filter i w h m : parseImage T filter i w h m noOptions = stepResize T filter w h m i.
Proof.
  unfold parseImage. cbv zeta. unfold stepBlur, stepFlipV, stepFlipH, stepRotate, stepInvert, stepGray, stepLower, stepUpper, stepSide, stepAnchor.
  cbn [noOptions oGray oInvert oFormat oRotate oFlipH oFlipV oCropAnchor oCropSide oBlur oScaleUpper oScaleLower Z.eqb]. rewrite blur0. reflexivity.
Qed.
Lemma all_is_one_by_one filter i w h m o : image_after T filter 11 (one_by_one w h m o) i = parseImage T filter i w h m o.
Proof.
  unfold image_after, one_by_one. cbn [firstn fold_left]. rewrite p_anchor, p_side, p_upper, p_lower, p_resize, p_gray, p_invert, p_rotate, p_flipH, p_flipV, p_blur. reflexivity.
Qed.
(** Each call of the list. *)
Definition single (c : Z * Z * Z * Options) : Prop :=
  let '(w, h, m, o) := c in oFormat o = ""%string /\ forall filter, respects (fun i => parseImage T filter i w h m o).
Lemma respects_ext f g : (forall i, f i = g i) -> respects g -> respects f.
Proof. intros E H i j P A B C. rewrite !E. apply H; assumption. Qed.
Lemma singles w h m o : Forall single (one_by_one w h m o).
Proof.
  unfold one_by_one. repeat (apply Forall_cons; [split; [reflexivity|intros filter]|]); [..|apply Forall_nil].
  - eapply respects_ext; [intros i; apply p_anchor|]. apply respects_anchor.
  - eapply respects_ext; [intros i; apply p_side|]. apply respects_side.
  - eapply respects_ext; [intros i; apply p_upper|]. unfold stepUpper. destruct (oScaleUpper o) as [|a [|b l]]; try exact respects_id. apply respects_scale.
  - eapply respects_ext; [intros i; apply p_lower|]. unfold stepLower. destruct (oScaleLower o) as [|a [|b l]]; try exact respects_id. apply respects_scale.
  - eapply respects_ext; [intros i; apply p_resize|]. apply respects_stepResize.
  - eapply respects_ext; [intros i; apply p_gray|]. unfold stepGray. destruct (oGray o); [|exact respects_id]. exact (respects_gives _ _ gray_gives (each_alike grayPixel)).
  - eapply respects_ext; [intros i; apply p_invert|]. unfold stepInvert. destruct (oInvert o); [|exact respects_id]. exact (respects_gives _ _ invert_gives (each_alike invertPixel)).
  - eapply respects_ext; [intros i; apply p_rotate|]. unfold stepRotate. destruct (oRotate o =? 0); [exact respects_id|apply respects_rotate].
  - eapply respects_ext; [intros i; apply p_flipH|]. unfold stepFlipH. destruct (oFlipH o); [|exact respects_id]. exact (respects_gives _ _ flipH_gives mirrorLR_alike).
  - eapply respects_ext; [intros i; apply p_flipV|]. unfold stepFlipV. destruct (oFlipV o); [|exact respects_id]. exact (respects_gives _ _ flipV_gives mirrorTB_alike).
  - eapply respects_ext; [intros i; apply p_blur|]. unfold stepBlur. destruct (fgt _ _); [|exact respects_id]. apply respects_blur.
Qed.
Lemma calls_lossless filter fmt l : keeps_pixels T fmt -> Forall single l -> forall d i j,
  decode T d = Some (j, fmt) -> at_origin i -> at_origin j -> alike (shows i) (shows j) ->
  (forall n, (n <= List.length l)%nat -> nonempty (image_after T filter n l i)) ->
  exists j', decode T (calls T filter l d) = Some (j', fmt) /\ alike (shows j') (shows (image_after T filter (List.length l) l i)).
Proof.
  intros Hk Hl. induction Hl as [|[[[w h] m] o] l [Hfmt Hr] Hl IH]; intros d i j Hd Ai Aj E Hn.
  - exists j. split; [exact Hd|]. apply alike_sym, E.
  - pose proof (Hn 0%nat ltac:(lia)) as N0. cbn in N0. pose proof (Hn 1%nat ltac:(cbn; lia)) as N1. cbn in N1.
    change (fold_left _ (firstn 0 l) ?x) with x in N1.
    destruct (Hr filter i j (proj1 N0) Ai Aj E (proj1 N1)) as (R1 & R2 & R3).
    assert (N2 : nonempty (parseImage T filter j w h m o)).
    { destruct N1 as (Q1 & Q2 & Q3). apply (nonempty_alike _ (shows (parseImage T filter i w h m o))); [exact (alike_proper _ _ R1 Q1)|exact (alike_sym _ _ R1)|exact Q2|exact Q3]. }
    destruct (encode_keeps T filter d j fmt w h m o Hd Hk Hfmt N2) as (j2 & D2 & A2 & E2 & P2).
    destruct (IH (Encode T filter d w h m (Some o)) (parseImage T filter i w h m o) j2 D2 R2 A2 (alike_trans _ _ _ R1 (alike_sym _ _ E2))) as (j' & D' & E').
    + intros n Hle. exact (Hn (S n) ltac:(cbn; lia)).
    + exists j'. split; [exact D'|exact E'].
Qed.
Lemma encode_all filter fmt d i w h m o : decode T d = Some (i, fmt) -> keeps_pixels T fmt -> at_origin i -> oFormat o = ""%string ->
  (forall n, (n <= 11)%nat -> nonempty (image_after T filter n (one_by_one w h m o) i)) ->
  alike_opt (picture_of T (Encode T filter d w h m (Some o))) (picture_of T (calls T filter (one_by_one w h m o) d)) /\
  alike_opt (picture_of T (Encode T filter d w h m (Some o))) (Some (shows (parseImage T filter i w h m o))).
Proof.
  intros Hd Hk Ai Ho Hn. destruct (calls_lossless filter fmt (one_by_one w h m o) Hk (singles w h m o) d i i Hd Ai Ai (alike_refl _) Hn) as (j' & D' & E').
  pose proof (Hn 11%nat ltac:(lia)) as N. cbn [List.length one_by_one] in E'. change (List.length (one_by_one w h m o)) with 11%nat in E'. rewrite all_is_one_by_one in N, E'.
  destruct (encode_keeps T filter d i fmt w h m o Hd Hk Ho N) as (j & D & _ & E & _). unfold picture_of. rewrite D, D'. cbn [option_map alike_opt].
  split; [|exact E]. exact (alike_trans _ _ _ E (alike_sym _ _ E')).
Qed.
End steps.
