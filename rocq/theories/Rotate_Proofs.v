(** Turns by any number of degrees. *)
From Coq Require Import ZArith List Bool Lia ZifyBool Reals Lra Psatz String.
From Flocq Require Import Core BinarySingleNaN.
From Verif Require Import GoInt GoFloat Image_Model Pixel_Model Pixel_Spec PixelGray_Proofs Pixel_Proofs Resample_Model Resample_Spec Resample_Err Resample_Proofs Resample_Steps Rotate_Model Rotate_Spec Rotate_Mix Rotate_Point Rotate_Geom.
Import ListNotations.
Local Open Scope Z_scope.

(** ** Multiples of 90 degrees *)
Lemma million_proper i : million (shows i) -> proper i.
Proof. intros [A B]. apply sides_proper. unfold sides. change (2 ^ 20) with 1048576. lia. Qed.
Lemma turned_step M T filter i d : turned M T filter i d = shows (stepRotate (withRotation M T) (orientation d false false) i).
Proof. unfold turned. change (orientation d false false) with (onlyRotate (orientation d false false)) at 1. rewrite p_rotate. reflexivity. Qed.
Lemma turned_quarters M T filter i d : million (shows i) -> - 2 ^ 53 < d < 2 ^ 53 -> d mod 90 = 0 -> alike (turned M T filter i d) (Nat.iter (turns d) quarter (shows i)).
Proof.
  intros Hm Hd H90. rewrite turned_step. unfold stepRotate. cbn [oRotate orientation]. destruct (Z.eqb_spec d 0) as [->|N]; [apply alike_refl|]. apply (rotateImage_gives (withRotation M T) i d (million_proper i Hm) Hd H90).
Qed.
Lemma turned_other M T filter i d : - 2 ^ 53 < d < 2 ^ 53 -> d mod 90 <> 0 -> turned M T filter i d = shows (rotateBy M (normAngle d) i).
Proof.
  intros Hd H90. rewrite turned_step. unfold stepRotate. cbn [oRotate orientation]. destruct (Z.eqb_spec d 0) as [->|N]; [exfalso; apply H90; reflexivity|]. unfold rotateImage. cbv zeta. rewrite !feq_norm by lia.
  assert (d mod 360 mod 90 = d mod 90) as E by (symmetry; apply Znumtheory.Zmod_div_mod; [lia|lia|exists 4; reflexivity]).
  destruct (Z.eqb_spec (d mod 360) 0) as [Q|_]; [rewrite Q in E; exfalso; apply H90; rewrite <- E; reflexivity|]. destruct (Z.eqb_spec (d mod 360) 90) as [Q|_]; [rewrite Q in E; exfalso; apply H90; rewrite <- E; reflexivity|].
  destruct (Z.eqb_spec (d mod 360) 180) as [Q|_]; [rewrite Q in E; exfalso; apply H90; rewrite <- E; reflexivity|]. destruct (Z.eqb_spec (d mod 360) 270) as [Q|_]; [rewrite Q in E; exfalso; apply H90; rewrite <- E; reflexivity|]. reflexivity.
Qed.
Lemma quarters_all P n : forall p, everywhere P p -> everywhere P (Nat.iter n quarter p).
Proof. induction n as [|n IH]; intros p H; [exact H|]. specialize (IH p H). change (Nat.iter (S n) quarter p) with (quarter (Nat.iter n quarter p)). set (q := Nat.iter n quarter p) in *. clearbody q. intros x y Hx Hy. cbn [quarter pw ph at_] in *. apply IH; lia. Qed.
Lemma quarters_rel Rel n : forall p q, pixelwise Rel p q -> pixelwise Rel (Nat.iter n quarter p) (Nat.iter n quarter q).
Proof.
  induction n as [|n IH]; intros p q H; [exact H|]. destruct (IH p q H) as (E1 & E2 & E3). change (Nat.iter (S n) quarter p) with (quarter (Nat.iter n quarter p)). change (Nat.iter (S n) quarter q) with (quarter (Nat.iter n quarter q)).
  set (p' := Nat.iter n quarter p) in *. set (q' := Nat.iter n quarter q) in *. clearbody p' q'. split; [exact E2|]. split; [exact E1|]. intros x y Hx Hy. cbn [quarter pw ph at_] in *. rewrite <- E1. apply E3; lia.
Qed.
Lemma alike_all P a b : alike a b -> everywhere P b -> everywhere P a.
Proof. intros (E1 & E2 & E3) H x y Hx Hy. rewrite E3 by assumption. apply H; lia. Qed.

(** ** Other angles *)
Lemma shows_fresh w h g : 0 <= w -> 0 <= h -> shows (fresh w h g) = Pic w h (fun x y => g x y).
Proof. intros Hw Hh. unfold shows, fresh, Rect. cbn. replace (w <? 0) with false by lia. replace (h <? 0) with false by lia. rewrite !Z.sub_0_r. reflexivity. Qed.
(** Each pixel is an interpolation or transparent. *)
Lemma rotateBy_px M angle i x y : px (rotateBy M angle i) x y = Transparent \/ exists xf yf, px (rotateBy M angle i) x y = interpolatePoint i xf yf.
Proof.
  unfold rotateBy. cbv zeta. destruct (rotatedSize _ _ _ _) as [W H]. destruct (_ || _); [left; reflexivity|right]. cbn [fresh px]. destruct (rotatePoint _ _ _ _) as [xf yf]. do 2 eexists. reflexivity.
Qed.
Lemma other_all M T filter i d (P : pixel -> Prop) : - 2 ^ 53 < d < 2 ^ 53 -> d mod 90 <> 0 -> P Transparent -> (forall xf yf, P (interpolatePoint i xf yf)) -> everywhere P (turned M T filter i d).
Proof. intros Hd H90 H0 HP x y _ _. rewrite turned_other by assumption. cbn [shows at_]. destruct (rotateBy_px M (normAngle d) i (minX (bounds (rotateBy M (normAngle d) i)) + x) (minY (bounds (rotateBy M (normAngle d) i)) + y)) as [->|(xf & yf & ->)]; [exact H0|apply HP]. Qed.

Lemma turned_between M T filter i d c lo hi : - 2 ^ 53 < d < 2 ^ 53 -> million (shows i) -> everywhere colour (shows i) -> a_channel c -> 0 <= lo -> hi <= 255 ->
  everywhere (fun q => visible q -> between c lo hi q) (shows i) -> everywhere (fun q => visible q -> between c lo hi q) (turned M T filter i d).
Proof.
  intros Hd Hm Hcol Hc H0 H255 He. destruct (Z.eq_dec (d mod 90) 0) as [E|E].
  - eapply alike_all; [apply turned_quarters; assumption|]. apply quarters_all. exact He.
  - apply other_all; [exact Hd|exact E|unfold visible; cbn; lia|]. intros xf yf. apply (interpolate_between i Hm Hcol); assumption.
Qed.
Lemma turned_alpha M T filter i d A : - 2 ^ 53 < d < 2 ^ 53 -> million (shows i) -> everywhere colour (shows i) -> everywhere (fun q => pa q <= A) (shows i) -> everywhere (fun q => colour q /\ pa q <= A) (turned M T filter i d).
Proof.
  intros Hd Hm Hcol He. assert (0 <= A) as HA. { destruct Hm as [M1 M2]. pose proof (He 0 0 ltac:(lia) ltac:(lia)) as H. destruct (Hcol 0 0 ltac:(lia) ltac:(lia)) as (_ & _ & _ & D). unfold byte in D. cbn beta in H. lia. }
  destruct (Z.eq_dec (d mod 90) 0) as [E|E].
  - eapply alike_all; [apply turned_quarters; assumption|]. apply quarters_all. intros x y Hx Hy. split; [apply Hcol; assumption|apply He; assumption].
  - apply other_all; [exact Hd|exact E|split; [repeat split; cbn; lia|exact HA]|]. intros xf yf. split; [apply (interpolate_colour i Hm)|apply (interpolate_alpha i Hm Hcol); assumption].
Qed.

(** ** Hidden colours *)
Lemma interpolate_veiled i j xf yf : million (shows i) -> pixelwise veiled (shows i) (shows j) -> interpolatePoint i xf yf = interpolatePoint j xf yf.
Proof.
  intros Hm (E1 & E2 & E3). pose proof (million_proper i Hm) as Pi. assert (million (shows j)) as Hmj by (unfold million in *; lia). pose proof (million_proper j Hmj) as Pj.
  unfold interpolatePoint. rewrite (Dx_proper i Pi), (Dy_proper i Pi), (Dx_proper j Pj), (Dy_proper j Pj), <- E1, <- E2. cbv zeta. destruct (negb _); [reflexivity|]. apply veiled_mix. intros iw _.
  destruct (inBounds _ _ _ _) eqn:E; [|split; [repeat split; cbn; lia|split; [repeat split; cbn; lia|left; reflexivity]]]. unfold inBounds in E. apply E3; lia.
Qed.
Lemma turned_veiled M T filter i j d : - 2 ^ 53 < d < 2 ^ 53 -> million (shows i) -> pixelwise veiled (shows i) (shows j) -> pixelwise look_same (turned M T filter i d) (turned M T filter j d).
Proof.
  intros Hd Hm HV. pose proof HV as (E1 & E2 & E3). assert (million (shows j)) as Hmj by (unfold million in *; lia). destruct (Z.eq_dec (d mod 90) 0) as [E|E].
  - destruct (turned_quarters M T filter i d Hm Hd E) as (A1 & A2 & A3). destruct (turned_quarters M T filter j d Hmj Hd E) as (B1 & B2 & B3). destruct (quarters_rel _ (turns d) _ _ HV) as (C1 & C2 & C3).
    split; [congruence|]. split; [congruence|]. intros x y Hx Hy. rewrite A3, B3 by lia. apply C3; lia.
  - rewrite !turned_other by assumption. unfold rotateBy. rewrite (Dx_proper i (million_proper i Hm)), (Dy_proper i (million_proper i Hm)), (Dx_proper j (million_proper j Hmj)), (Dy_proper j (million_proper j Hmj)), <- E1, <- E2. cbv zeta.
    destruct (rotatedSize _ _ _ _) as [W H]. destruct (_ || _); [repeat split; intros; left; reflexivity|]. split; [cbn [shows pw fresh bounds]; reflexivity|]. split; [cbn [shows ph fresh bounds]; reflexivity|]. intros x y _ _. left. cbn [shows at_ fresh px bounds]. destruct (rotatePoint _ _ _ _) as [xf yf]. apply interpolate_veiled; assumption.
Qed.

(** ** Sizes and places *)
Section trig.
Variables (M : mathf) (T : tools) (filter : Z) (i : img pixel) (d : Z).
Hypothesis HM : trig_ok M.
Hypothesis Hd : - 2 ^ 53 < d < 2 ^ 53.
Hypothesis Hm : million (shows i).
Let p := shows i.
Let r := turned M T filter i d.
Lemma sc_ok : app (Sin M (radians (normAngle d))) (sin (rad d)) eS /\ app (Cos M (radians (normAngle d))) (cos (rad d)) eC.
Proof. destruct (rad_mod d) as [-> ->]. apply sincos_ok; [exact HM|apply norm_val; exact Hd|apply Z.mod_pos_bound; lia]. Qed.
Lemma bounded w h x : 1 <= w <= 1000000 -> 1 <= h <= 1000000 -> (IZR (w - 1) * Rabs (cos x) + IZR (h - 1) * Rabs (sin x) + 1 <= 2000000)%R.
Proof.
  intros Hw Hh. destruct (trig_abs x) as [B1 B2]. assert (0 <= IZR (w - 1) <= 999999 /\ 0 <= IZR (h - 1) <= 999999)%R as [Rw Rh] by (repeat split; apply IZR_le; lia). pose proof (Rabs_pos (cos x)). pose proof (Rabs_pos (sin x)). nra.
Qed.
Lemma snug_le E s : (E <= 2000000)%R -> snug E s -> 1 <= s <= 2000002.
Proof.
  intros HE (H1 & _ & H2). split; [exact H1|]. destruct H2 as [H2|(k & H2 & ->)].
  - assert (s < 2000002); [apply lt_IZR; lra|lia].
  - apply Rabs_le_inv in H2. assert (k < 2000001); [apply lt_IZR; lra|lia].
Qed.
Lemma other_size : d mod 90 <> 0 -> snug (idealW d (pw p) (ph p)) (pw r) /\ snug (idealH d (pw p) (ph p)) (ph r) /\
  1 <= pw r <= 2000002 /\ 1 <= ph r <= 2000002 /\
  forall x y, 0 <= x < pw r -> 0 <= y < ph r -> exists xf yf, at_ r x y = interpolatePoint i xf yf /\
    app xf (cameX d (pw p) (pw r) (ph r) x y) dlt /\ app yf (cameY d (ph p) (pw r) (ph r) x y) dlt.
Proof.
  intros H90. unfold r. rewrite turned_other by assumption. unfold rotateBy. rewrite (Dx_proper i (million_proper i Hm)), (Dy_proper i (million_proper i Hm)). fold p. cbv zeta. destruct sc_ok as [Hs Hc]. pose proof Hm as [Mw Mh]. fold p in Mw, Mh.
  set (sf := Sin M _) in *. set (cf := Cos M _) in *. pose proof (size_ok (pw p) (ph p) sf cf (rad d) Mw Mh Hs Hc) as [S1 S2]. cbv zeta in S1, S2. destruct (rotatedSize _ _ _ _) as [W H]. cbn [fst snd] in S1, S2.
  pose proof (snug_le _ _ (bounded _ _ (rad d) Mw Mh) S1) as BW. assert (1 <= H <= 2000002) as BH by (apply (snug_le _ _ (bounded _ _ (rad d) Mh Mw)); rewrite (Rplus_comm (IZR (ph p - 1) * _)); exact S2).
  replace ((W <=? 0) || (H <=? 0)) with false by lia. rewrite shows_fresh by lia. cbn [pw ph at_]. split; [exact S1|]. split; [exact S2|]. split; [exact BW|]. split; [exact BH|]. intros x y Hx Hy.
  pose proof (place_ok (pw p) (ph p) W H sf cf (rad d) x y Mw Mh BW BH Hx Hy Hs Hc) as [P1 P2]. destruct (rotatePoint _ _ _ _) as [xf yf]. cbn [fst snd] in P1, P2. do 2 eexists. split; [reflexivity|]. split; assumption.
Qed.
Definition trig_quarter (n : nat) : R * R := match n with O => (1, 0) | 1%nat => (0, 1) | 2%nat => (-1, 0) | _ => (0, -1) end%R.
Lemma quarter_trig : d mod 90 = 0 -> (turns d <= 3)%nat /\ (cos (rad d), sin (rad d)) = trig_quarter (turns d).
Proof.
  intros H90. destruct (turns_90 d H90) as [Hn E]. split; [lia|]. destruct (rad_mod d) as [-> ->]. rewrite E. destruct (turns d) as [|[|[|[|n]]]]; [| | | |lia]; cbn [trig_quarter]; unfold rad.
  - cbn [Z.of_nat]. change (90 * 0) with 0. replace (PI * 0 / 180)%R with 0%R by field. rewrite cos_0, sin_0. reflexivity.
  - change (90 * Z.of_nat 1) with 90. replace (PI * 90 / 180)%R with (PI / 2)%R by field. rewrite cos_PI2, sin_PI2. reflexivity.
  - change (90 * Z.of_nat 2) with 180. replace (PI * 180 / 180)%R with PI by field. rewrite cos_PI, sin_PI. reflexivity.
  - change (90 * Z.of_nat 3) with 270. replace (PI * 270 / 180)%R with (3 * (PI / 2))%R by field. rewrite cos_3PI2, sin_3PI2. reflexivity.
Qed.
Lemma quarter_place : d mod 90 = 0 -> IZR (pw r) = idealW d (pw p) (ph p) /\ IZR (ph r) = idealH d (pw p) (ph p) /\ 1 <= pw r /\ 1 <= ph r /\
  forall x y, 0 <= x < pw r -> 0 <= y < ph r -> exists m k, 0 <= m < pw p /\ 0 <= k < ph p /\ at_ r x y = at_ p m k /\ cameX d (pw p) (pw r) (ph r) x y = IZR m /\ cameY d (ph p) (pw r) (ph r) x y = IZR k.
Proof.
  intros H90. destruct (turned_quarters M T filter i d Hm Hd H90) as (E1 & E2 & E3). fold r p in E1, E2, E3. destruct (quarter_trig H90) as [Hn ET]. unfold idealW, idealH, cameX, cameY. set (c := cos (rad d)) in *. set (s := sin (rad d)) in *. clearbody c s. pose proof Hm as [Mw Mh]. fold p in Mw, Mh.
  assert (Rabs (-1) = 1)%R as Am by (rewrite (Rabs_left (-1)) by lra; ring). destruct (turns d) as [|[|[|[|n]]]]; [| | | |lia]; injection ET as -> ->; cbn [Nat.iter nat_rect quarter pw ph at_] in E1, E2, E3; rewrite ?Rabs_R0, ?Rabs_R1, ?Am, E1, E2; rewrite ?minus_IZR.
  - split; [ring|]. split; [ring|]. split; [lia|]. split; [lia|]. intros x y Hx Hy. exists x, y. rewrite E3 by lia. repeat split; try lia; field.
  - split; [ring|]. split; [ring|]. split; [lia|]. split; [lia|]. intros x y Hx Hy. exists (pw p - 1 - y), x. rewrite E3 by lia. rewrite !minus_IZR. repeat split; try lia; field.
  - split; [ring|]. split; [ring|]. split; [lia|]. split; [lia|]. intros x y Hx Hy. exists (pw p - 1 - x), (ph p - 1 - y). rewrite E3 by lia. rewrite !minus_IZR. repeat split; try lia; field.
  - split; [ring|]. split; [ring|]. split; [lia|]. split; [lia|]. intros x y Hx Hy. exists y, (ph p - 1 - x). rewrite E3 by lia. rewrite !minus_IZR. split; [lia|]. split; [lia|]. split; [f_equal; lia|]. split; field.
Qed.
Lemma along_int f n : along f (IZR n) = f n.
Proof. unfold along. cbv zeta. rewrite Zfloor_IZR. ring. Qed.
Lemma sheet_int g m k : 0 <= m < pw p -> 0 <= k < ph p -> between_places (on_sheet g p) (IZR m) (IZR k) = IZR (g (at_ p m k)).
Proof. intros H1 H2. unfold between_places. rewrite !along_int. unfold on_sheet. replace (_ && _) with true by lia. reflexivity. Qed.
Lemma turned_size : snug (idealW d (pw p) (ph p)) (pw r) /\ snug (idealH d (pw p) (ph p)) (ph r).
Proof.
  destruct (Z.eq_dec (d mod 90) 0) as [E|E]; [|pose proof (other_size E) as (A & B & _); split; assumption]. destruct (quarter_place E) as (<- & <- & L1 & L2 & _). unfold snug. split; (split; [assumption|]); (split; [lra|left; lra]).
Qed.
Hypothesis Hcol : everywhere colour p.
Lemma turned_near x y : 0 <= x < pw r -> 0 <= y < ph r -> let X := cameX d (pw p) (pw r) (ph r) x y in let Y := cameY d (ph p) (pw r) (ph r) x y in
  (Rabs (IZR (pa (at_ r x y)) - opacity p X Y) <= / 2 + / 5000 /\
  forall c, a_channel c -> visible (at_ r x y) -> Rabs (opacity p X Y * IZR (c (at_ r x y)) - tint c p X Y) <= opacity p X Y / 2 + / 10)%R.
Proof.
  intros Hx Hy X Y. destruct (Z.eq_dec (d mod 90) 0) as [E|E].
  - destruct (quarter_place E) as (_ & _ & _ & _ & K). destruct (K x y Hx Hy) as (m & k & Bm & Bk & -> & EX & EY). unfold X, Y. rewrite EX, EY. unfold opacity, tint. pose proof (Hcol m k Bm Bk) as C.
    rewrite (sheet_int pa m k Bm Bk). split; [rewrite Rminus_eq_0, Rabs_R0; lra|]. intros c Hc _. rewrite (sheet_int _ m k Bm Bk). rewrite mult_IZR. replace (_ - _)%R with 0%R by ring. rewrite Rabs_R0. destruct C as (_ & _ & _ & D). unfold byte in D. assert (0 <= IZR (pa (at_ p m k)))%R by (apply (IZR_le 0); lia). lra.
  - destruct (other_size E) as (_ & _ & _ & _ & K). destruct (K x y Hx Hy) as (xf & yf & -> & (x' & Vx & Ex) & (y' & Vy & Ey)). fold X in Ex. fold Y in Ey. destruct (interpolate_near i Hm Hcol xf yf x' y' Vx Vy) as [NA NC]. fold p in NA, NC.
    pose proof (plane_lip (on_sheet pa p) 255 x' y' X Y dlt (sheet_alpha i Hcol) Ex Ey ltac:(unfold dlt; lra)) as LA. fold (opacity p x' y') (opacity p X Y) in LA. unfold dlt in LA. apply Rabs_le_inv in NA, LA. split; [apply Rabs_le; lra|]. intros c Hc Hv. specialize (NC c Hc Hv).
    pose proof (plane_lip (on_sheet (fun q => (c q * pa q)%Z) p) 65025 x' y' X Y dlt (fun m n => sheet_tint i Hcol c m n Hc) Ex Ey ltac:(unfold dlt; lra)) as LC. fold (tint c p x' y') (tint c p X Y) in LC. unfold dlt in LC. apply Rabs_le_inv in NC, LC.
    pose proof (channel_byte c _ Hc (interpolate_colour i Hm xf yf)) as [B1 B2]. apply IZR_le in B1, B2. set (q := IZR (c _)) in *. set (a := opacity p x' y') in *. set (a' := opacity p X Y) in *.
    assert (- / 23 <= (a - a') * q <= / 23)%R as D by (split; nra). apply Rabs_le. lra.
Qed.
(** One alpha. *)
Lemma along_inside f A n t : (0 <= t <= IZR (n - 1))%R -> (forall m, 0 <= m < n -> f m = A) -> along f t = A.
Proof.
  intros Ht Hf. unfold along. cbv zeta. pose proof (Zfloor_lb t) as L. pose proof (Zfloor_ub t) as U. set (k := Zfloor t) in *. assert (0 <= k) as K0 by (apply Zfloor_lub; lra). assert (k <= n - 1) as K1 by (apply le_IZR; lra).
  rewrite (Hf k) by lia. destruct (Z.eq_dec k (n - 1)) as [E|E]; [|rewrite (Hf (k + 1)) by lia; ring]. assert (t - IZR k = 0)%R as -> by (rewrite E in L |- *; lra). ring.
Qed.
Lemma opacity_inside A X Y : everywhere (alpha A) p -> inside p X Y -> opacity p X Y = IZR A.
Proof.
  intros HA [HX HY]. unfold opacity, between_places. apply (along_inside _ _ (ph p)); [exact HY|]. intros k Hk. apply (along_inside _ _ (pw p)); [exact HX|]. intros m Hmm. unfold on_sheet. replace (_ && _) with true by lia. f_equal. apply (HA m k Hmm Hk).
Qed.
Lemma tint_one A c X Y : everywhere (alpha A) p -> tint c p X Y = (IZR A * between_places (on_sheet c p) X Y)%R.
Proof.
  intros HA. assert (forall m k, on_sheet (fun q => (c q * pa q)) p m k = (IZR A * on_sheet c p m k)%R) as E.
  { intros m k. unfold on_sheet. destruct (_ && _) eqn:B; [|ring]. rewrite (proj2 (HA m k ltac:(lia) ltac:(lia))), mult_IZR. ring. }
  unfold tint, between_places, along. cbv zeta. rewrite !E. ring.
Qed.
Lemma turned_inside A x y : 1 <= A <= 255 -> everywhere (alpha A) p -> 0 <= x < pw r -> 0 <= y < ph r -> let X := cameX d (pw p) (pw r) (ph r) x y in let Y := cameY d (ph p) (pw r) (ph r) x y in
  inside p X Y -> pa (at_ r x y) = A /\ forall c, a_channel c -> (Rabs (IZR (c (at_ r x y)) - between_places (on_sheet c p) X Y) <= / 2 + / (10 * IZR A))%R.
Proof.
  intros HA He Hx Hy X Y HI. destruct (turned_near x y Hx Hy) as [NA NC]. fold X Y in NA, NC. rewrite (opacity_inside A X Y He HI) in NA, NC. apply Rabs_le_inv in NA.
  assert (pa (at_ r x y) = A) as EA. { assert (A - 1 < pa (at_ r x y) < A + 1); [|lia]. split; apply lt_IZR; rewrite ?minus_IZR, ?plus_IZR; lra. }
  split; [exact EA|]. intros c Hc. specialize (NC c Hc ltac:(unfold visible; lia)). rewrite (tint_one A c X Y He) in NC. assert (1 <= IZR A)%R as RA by (apply IZR_le; lia). rewrite <- Rmult_minus_distr_l, Rabs_mult, (Rabs_pos_eq (IZR A)) in NC by lra.
  apply (Rmult_le_reg_l (IZR A)); [lra|]. eapply Rle_trans; [exact NC|]. apply Req_le. field. lra.
Qed.
Lemma turned_outside x y : 0 <= x < pw r -> 0 <= y < ph r -> outside p (cameX d (pw p) (pw r) (ph r) x y) (cameY d (ph p) (pw r) (ph r) x y) -> pa (at_ r x y) = 0.
Proof.
  intros Hx Hy HO. destruct (turned_near x y Hx Hy) as [NA _]. set (X := cameX _ _ _ _ _ _) in *. set (Y := cameY _ _ _ _ _ _) in *.
  assert (opacity p X Y = 0)%R as E0.
  { assert (forall t n, (t <= -1 \/ IZR n <= t)%R -> 0 <= n -> forall f, (forall m, ~ 0 <= m < n -> f m = 0%R) -> along f t = 0%R) as K.
    { intros t n Ht Hn f Hf. unfold along. cbv zeta. pose proof (Zfloor_lb t) as L. pose proof (Zfloor_ub t) as U. set (k := Zfloor t) in *. destruct Ht as [Ht|Ht].
      - assert (k <= -1) as Hk by (apply le_IZR; lra). rewrite (Hf k) by lia. destruct (Z.eq_dec k (-1)) as [E|E]; [|rewrite Hf by lia; ring]. rewrite E in *. replace (t - -1)%R with 0%R by lra. ring.
      - assert (n <= k) as Hk by (apply Zfloor_lub; exact Ht). rewrite !Hf by lia. ring. }
    pose proof Hm as [Mw Mh]. fold p in Mw, Mh. unfold opacity, between_places.
    assert (forall f t, (forall m, f m = 0%R) -> along f t = 0%R) as Z0 by (intros f t Hf; unfold along; cbv zeta; rewrite !Hf; ring).
    destruct HO as [H|[H|H]]; [| |].
    - apply Z0. intros k. apply (K X (pw p)); [lra|lia|]. intros m Hmm. unfold on_sheet. destruct (_ && _) eqn:B; [exfalso; lia|reflexivity].
    - apply Z0. intros k. apply (K X (pw p)); [lra|lia|]. intros m Hmm. unfold on_sheet. destruct (_ && _) eqn:B; [exfalso; lia|reflexivity].
    - apply (K Y (ph p)); [lra|lia|]. intros k Hk. apply Z0. intros m. unfold on_sheet. destruct (_ && _) eqn:B; [exfalso; lia|reflexivity]. }
  rewrite E0 in NA. apply Rabs_le_inv in NA. assert (-1 < pa (at_ r x y) < 1); [|lia]. split; apply lt_IZR; lra.
Qed.
End trig.
