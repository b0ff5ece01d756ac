(** The pixel at a place between pixels. *)
From Coq Require Import ZArith List Bool Lia ZifyBool Reals Lra Psatz.
From Flocq Require Import Core BinarySingleNaN.
From Verif Require Import GoInt GoFloat Image_Model Pixel_Model Pixel_Spec Pixel_Proofs Resample_Model Resample_Spec Resample_Err Resample_Mix Resample_Proofs Resample_Steps Rotate_Model Rotate_Spec Rotate_Mix.
Import ListNotations.
Local Open Scope R_scope.

(** ** Interpolation along a line *)
Lemma along_seg f t n : IZR n <= t <= IZR n + 1 -> along f t = f n + (t - IZR n) * (f (n + 1)%Z - f n).
Proof.
  intros H. unfold along. cbn zeta. destruct (Rle_lt_or_eq_dec t (IZR n + 1) (proj2 H)) as [L|E].
  - replace (Zfloor t) with n by (symmetry; apply Zfloor_imp; rewrite plus_IZR; lra). ring.
  - subst t. replace (Zfloor (IZR n + 1)) with (n + 1)%Z by (rewrite <- (plus_IZR n 1); symmetry; apply Zfloor_IZR). rewrite plus_IZR. ring.
Qed.
Lemma along_lip f L s t : 0 <= L -> (forall n, Rabs (f (n + 1)%Z - f n) <= L) -> Rabs (s - t) <= 1 -> Rabs (along f s - along f t) <= L * Rabs (s - t).
Proof.
  intros HL Hf. assert (forall s t, s <= t -> t - s <= 1 -> Rabs (along f s - along f t) <= L * (t - s)) as K.
  { clear s t. intros s t H1 H2. set (n := Zfloor s). pose proof (Zfloor_lb s) as A. pose proof (Zfloor_ub s) as B. fold n in A, B. rewrite (along_seg f s n) by lra.
    destruct (Rle_dec t (IZR n + 1)) as [C|C].
    - rewrite (along_seg f t n) by lra. replace (_ - _) with ((s - t) * (f (n + 1)%Z - f n)) by ring. rewrite Rabs_mult, (Rabs_left1 (s - t)) by lra. specialize (Hf n). pose proof (Rabs_pos (f (n + 1)%Z - f n)). nra.
    - rewrite (along_seg f t (n + 1)) by (rewrite plus_IZR; lra). rewrite plus_IZR. replace (_ - _) with ((s - (IZR n + 1)) * (f (n + 1)%Z - f n) + ((IZR n + 1) - t) * (f (n + 1 + 1)%Z - f (n + 1)%Z)) by ring.
      eapply Rle_trans; [apply Rabs_triang|]. rewrite !Rabs_mult, (Rabs_left1 (s - (IZR n + 1))), (Rabs_left1 (IZR n + 1 - t)) by lra. pose proof (Hf n) as F1. pose proof (Hf (n + 1)%Z) as F2. set (p := Rabs _) in *. set (q := Rabs (f (n + 1 + 1)%Z - _)) in *. nra. }
  intros H. apply Rabs_le_inv in H. destruct (Rle_dec s t) as [E|E].
  - rewrite (Rabs_left1 (s - t)) by lra. replace (- (s - t)) with (t - s) by ring. apply K; lra.
  - rewrite (Rabs_pos_eq (s - t)) by lra. rewrite Rabs_minus_sym. apply K; lra.
Qed.
Lemma along_bound f Q t : (forall n, 0 <= f n <= Q) -> 0 <= along f t <= Q.
Proof.
  intros H. pose proof (Zfloor_lb t) as A. pose proof (Zfloor_ub t) as B. unfold along. cbn zeta. set (n := Zfloor t) in *. pose proof (H n). pose proof (H (n + 1)%Z). split; nra.
Qed.
Lemma plane_bound f Q x y : (forall m n, 0 <= f m n <= Q) -> 0 <= between_places f x y <= Q.
Proof. intros H. apply along_bound. intros n. apply along_bound. intros m. apply H. Qed.
Lemma plane_lip f Q x y x' y' d : (forall m n, 0 <= f m n <= Q) -> Rabs (x - x') <= d -> Rabs (y - y') <= d -> d <= 1 -> Rabs (between_places f x y - between_places f x' y') <= 2 * Q * d.
Proof.
  intros H Hx Hy Hd. assert (0 <= Q) as HQ by (pose proof (H 0%Z 0%Z); lra). unfold between_places.
  assert (Rabs (along (fun n => along (fun m => f m n) x) y - along (fun n => along (fun m => f m n) x) y') <= Q * d) as E1.
  { eapply Rle_trans; [apply (along_lip _ Q)|]; [exact HQ| |lra|apply Rmult_le_compat_l; lra]. intros n. pose proof (along_bound (fun m => f m n) Q x (fun m => H m n)). pose proof (along_bound (fun m => f m (n + 1)%Z) Q x (fun m => H m (n + 1)%Z)). apply Rabs_le. lra. }
  assert (forall n, Rabs (along (fun m => f m n) x - along (fun m => f m n) x') <= Q * d) as E2.
  { intros n. eapply Rle_trans; [apply (along_lip _ Q)|]; [exact HQ| |lra|apply Rmult_le_compat_l; lra]. intros m. pose proof (H m n). pose proof (H (m + 1)%Z n). apply Rabs_le. lra. }
  assert (Rabs (along (fun n => along (fun m => f m n) x) y' - along (fun n => along (fun m => f m n) x') y') <= Q * d) as E3.
  { set (g := fun n => along (fun m => f m n) x) in *. set (g' := fun n => along (fun m => f m n) x'). assert (forall n, Rabs (g n - g' n) <= Q * d) as E by exact E2. unfold along at 1 2. cbn zeta.
    pose proof (Zfloor_lb y') as A. pose proof (Zfloor_ub y') as B. set (n := Zfloor y') in *. pose proof (E n) as En. pose proof (E (n + 1)%Z) as En1. apply Rabs_le_inv in En, En1. apply Rabs_le. split; nra. }
  apply Rabs_le_inv in E1, E3. apply Rabs_le. lra.
Qed.

(** ** The weights *)
Definition unit_near (f : f64) (x k : R) : Prop := exists y, val f y /\ 0 <= y <= 1 /\ Rabs (y - x) <= k * u.
Lemma unit_sub f x k : unit_near f x k -> unit_near (fsub (of_int 1) f) (1 - x) (k + 2).
Proof.
  intros (y & V & B & E). pose proof u_small as Hu. exists (R64 (1 - y)). split; [apply val_sub; [apply (val_int 1); lia|exact V|apply huge; apply Rabs_le; lra]|]. split; [split; [apply R64_nonneg; lra|apply (R64_le_int _ 1); [cbn; lia|lra]]|].
  pose proof (R64_bound (1 - y) 1 ltac:(apply Rabs_le; lra)) as R. assert (h <= u) by (rewrite u_val; unfold h; lra). apply Rabs_le_inv in E. apply Rabs_le. lra.
Qed.
Lemma unit_mul f g x y k l : unit_near f x k -> unit_near g y l -> 0 <= x <= 1 -> unit_near (fmul f g) (x * y) (k + l + 2).
Proof.
  intros (a & Va & Ba & Ea) (b & Vb & Bb & Eb) Hx. pose proof u_small as Hu. assert (0 <= a * b <= 1) as B by (split; nra). exists (R64 (a * b)). split; [apply val_mul; [exact Va|exact Vb|apply huge; apply Rabs_le; lra]|]. split; [split; [apply R64_nonneg; lra|apply (R64_le_int _ 1); [cbn; lia|lra]]|].
  pose proof (R64_bound (a * b) 1 ltac:(apply Rabs_le; lra)) as R. assert (h <= u) by (rewrite u_val; unfold h; lra).
  assert (Rabs (a * b - x * y) <= k * u + l * u) as E.
  { replace (a * b - x * y) with ((a - x) * b + x * (b - y)) by ring. eapply Rle_trans; [apply Rabs_triang|]. rewrite !Rabs_mult, (Rabs_pos_eq b), (Rabs_pos_eq x) by lra. pose proof (Rabs_pos (a - x)). pose proof (Rabs_pos (b - y)). nra. }
  apply Rabs_le_inv in E. apply Rabs_le. lra.
Qed.
Lemma unit_frac f x : val f x -> (Z.abs (Zfloor x) <= 2 ^ 53)%Z -> unit_near (fsub f (of_int (Zfloor x))) (x - IZR (Zfloor x)) 2.
Proof.
  intros V H. pose proof (Zfloor_lb x) as A. pose proof (Zfloor_ub x) as B. pose proof u_small as Hu. exists (R64 (x - IZR (Zfloor x))). split; [apply val_sub; [exact V|apply val_int, H|apply huge; apply Rabs_le; lra]|].
  split; [split; [apply R64_nonneg; lra|apply (R64_le_int _ 1); [cbn; lia|lra]]|]. pose proof (R64_bound (x - IZR (Zfloor x)) 1 ltac:(apply Rabs_le; lra)) as R. assert (h <= u) by (rewrite u_val; unfold h; lra). apply Rabs_le. lra.
Qed.

(** ** The place *)
Lemma floor_int f x : val f x -> to_int (ffloor f) = Zfloor x \/ to_int (ffloor f) = (- 2 ^ 63)%Z /\ ~ (- 2 ^ 63 <= Zfloor x < 2 ^ 63)%Z.
Proof.
  intros V. pose proof (val_floor f x V) as Vf. unfold to_int. rewrite (proj1 Vf), (Btrunc_val _ _ Vf), Ztrunc_IZR. destruct (_ && _) eqn:E; [left; reflexivity|right]. split; [reflexivity|lia].
Qed.
Lemma floor_fin f : (-1 <= to_int (ffloor f))%Z -> exists x, val f x.
Proof.
  intros H. destruct (is_finite f) eqn:E; [exists (B2R f); split; [exact E|reflexivity]|]. exfalso. destruct f; try discriminate; cbn in H; lia.
Qed.

Definition quad (q00 q10 q01 q11 : f64) : list (Z * f64) := [(0%Z, q00); (1%Z, q10); (2%Z, q01); (3%Z, q11)].
Definition wR (iw : Z * f64) : R := B2R (snd iw).
Lemma unit_val f x k : unit_near f x k -> val f (B2R f) /\ 0 <= B2R f <= 1 /\ Rabs (B2R f - x) <= k * u.
Proof. intros (y & [F E] & B). rewrite E. split; [split; [exact F|exact E]|exact B]. Qed.

Section place.
Variable i : img pixel.
Let p := shows i.
Hypothesis Hm : million p.
Hypothesis Hcol : everywhere colour p.
Lemma Hproper : proper i.
Proof. apply sides_proper. destruct Hm as [A B]. unfold sides. fold p. change (2 ^ 20)%Z with 1048576%Z. lia. Qed.
Definition pointOf (x0 y0 k : Z) : pixel := let x := (x0 + k mod 2)%Z in let y := (y0 + k / 2)%Z in if inBounds (pw p) (ph p) x y then scan i x y else Transparent.
Lemma point_colour x0 y0 k : colour (pointOf x0 y0 k).
Proof.
  unfold pointOf. cbv zeta. destruct (inBounds _ _ _ _) eqn:E; [|repeat split; cbn; lia]. unfold inBounds in E. apply (Hcol (x0 + k mod 2)%Z (y0 + k / 2)%Z); lia.
Qed.
Lemma point_sheet g x0 y0 k : g Transparent = 0%Z -> IZR (g (pointOf x0 y0 k)) = on_sheet g p (x0 + k mod 2)%Z (y0 + k / 2)%Z.
Proof.
  intros Hg. unfold pointOf, on_sheet, inBounds. cbv zeta. destruct (_ && _); [reflexivity|]. rewrite Hg. reflexivity.
Qed.
(** What interpolatePoint does. *)
Lemma interpolate_cases xf yf :
  interpolatePoint i xf yf = Transparent /\ (forall x y, val xf x -> val yf y -> ~ (-1 <= Zfloor x < pw p /\ -1 <= Zfloor y < ph p)%Z) \/
  exists x y q00 q10 q01 q11, val xf x /\ val yf y /\ (-1 <= Zfloor x < pw p)%Z /\ (-1 <= Zfloor y < ph p)%Z /\ interpolatePoint i xf yf = mix (pointOf (Zfloor x) (Zfloor y)) (quad q00 q10 q01 q11) /\
    (let a := x - IZR (Zfloor x) in let b := y - IZR (Zfloor y) in 0 <= a <= 1 /\ 0 <= b <= 1 /\ unit_near q00 ((1 - a) * (1 - b)) 10 /\ unit_near q10 (a * (1 - b)) 10 /\ unit_near q01 ((1 - a) * b) 10 /\ unit_near q11 (a * b) 10).
Proof.
  unfold interpolatePoint. rewrite (Dx_proper i Hproper), (Dy_proper i Hproper). fold p. cbv zeta. set (x0 := to_int (ffloor xf)). set (y0 := to_int (ffloor yf)). pose proof Hm as [Mw Mh]. destruct (negb _) eqn:E; [left|right].
  - split; [reflexivity|]. intros x y Vx Vy [A B]. assert (x0 = Zfloor x) by (destruct (floor_int xf x Vx) as [H|[_ H]]; [exact H|lia]). assert (y0 = Zfloor y) by (destruct (floor_int yf y Vy) as [H'|[_ H']]; [exact H'|lia]). lia.
  - destruct (floor_fin xf) as [x Vx]; [fold x0; lia|]. destruct (floor_fin yf) as [y Vy]; [fold y0; lia|]. assert (x0 = Zfloor x) as Ex by (destruct (floor_int xf x Vx) as [H|[H _]]; [exact H|unfold x0 in E; rewrite H in E; exfalso; lia]). assert (y0 = Zfloor y) as Ey by (destruct (floor_int yf y Vy) as [H|[H _]]; [exact H|unfold y0 in E; rewrite H in E; exfalso; lia]).
    exists x, y. do 4 eexists. split; [exact Vx|]. split; [exact Vy|]. split; [lia|]. split; [lia|]. split; [rewrite Ex, Ey; reflexivity|]. cbv zeta. clear Ex Ey.
    pose proof (Zfloor_lb x) as A1. pose proof (Zfloor_ub x) as B1. pose proof (Zfloor_lb y) as A2. pose proof (Zfloor_ub y) as B2. split; [lra|]. split; [lra|].
    assert (- 1 <= Zfloor x <= 1000000 /\ - 1 <= Zfloor y <= 1000000)%Z as [L1 L2]. { split; [destruct (floor_int xf x Vx) as [H|[H _]]|destruct (floor_int yf y Vy) as [H|[H _]]]; unfold x0, y0 in E; lia. }
    pose proof (unit_frac xf x Vx ltac:(change (2 ^ 53)%Z with 9007199254740992%Z; lia)) as Ux. pose proof (unit_frac yf y Vy ltac:(change (2 ^ 53)%Z with 9007199254740992%Z; lia)) as Uy. pose proof (unit_sub _ _ _ Ux) as Ux1. pose proof (unit_sub _ _ _ Uy) as Uy1.
    assert (forall f z k, unit_near f z k -> k <= 10 -> unit_near f z 10) as Wk. { intros f z k (v & V & B & D) Hk. exists v. split; [exact V|]. split; [exact B|]. pose proof u_small. assert (k * u <= 10 * u) by (apply Rmult_le_compat_r; lra). lra. }
    split; [|split; [|split]]; eapply Wk; try (apply unit_mul; [eassumption|eassumption|lra]); lra.
Qed.

Lemma quad_ok x0 y0 q00 q10 q01 q11 v00 v10 v01 v11 : unit_near q00 v00 10 -> unit_near q10 v10 10 -> unit_near q01 v01 10 -> unit_near q11 v11 10 ->
  INR (length (quad q00 q10 q01 q11)) <= 4 /\ (forall iw, In iw (quad q00 q10 q01 q11) -> val (snd iw) (wR iw) /\ 0 <= wR iw <= 1) /\ (forall iw, In iw (quad q00 q10 q01 q11) -> colour (pointOf x0 y0 (fst iw))).
Proof.
  intros H1 H2 H3 H4. apply unit_val in H1, H2, H3, H4. split; [cbn; lra|]. split; [|intros; apply point_colour]. unfold wR. intros iw [ <- |[ <- |[ <- |[ <- |[]]]]]; cbn [snd]; tauto.
Qed.
(** The sums are those of the interpolation. *)
Lemma quad_sum g Q x y q00 q10 q01 q11 : g Transparent = 0%Z -> 0 <= Q <= 65025 -> (forall m n, 0 <= on_sheet g p m n <= Q) ->
  (let a := x - IZR (Zfloor x) in let b := y - IZR (Zfloor y) in unit_near q00 ((1 - a) * (1 - b)) 10 /\ unit_near q10 (a * (1 - b)) 10 /\ unit_near q01 ((1 - a) * b) 10 /\ unit_near q11 (a * b) 10) ->
  Rabs (total (quad q00 q10 q01 q11) (fun iw => IZR (g (pointOf (Zfloor x) (Zfloor y) (fst iw))) * wR iw) - between_places (on_sheet g p) x y) <= / 1000000000.
Proof.
  intros Hg HQ HB. cbv zeta. intros (U00 & U10 & U01 & U11). unfold total, quad. cbn [map sumR fst]. rewrite !point_sheet by exact Hg. unfold wR. cbn [snd].
  change (0 mod 2)%Z with 0%Z. change (1 mod 2)%Z with 1%Z. change (2 mod 2)%Z with 0%Z. change (3 mod 2)%Z with 1%Z. change (0 / 2)%Z with 0%Z. change (1 / 2)%Z with 0%Z. change (2 / 2)%Z with 1%Z. change (3 / 2)%Z with 1%Z. rewrite !Z.add_0_r.
  unfold between_places, along. cbv zeta. set (a := x - IZR (Zfloor x)) in *. set (b := y - IZR (Zfloor y)) in *. pose proof (HB (Zfloor x) (Zfloor y)) as B00. pose proof (HB (Zfloor x + 1)%Z (Zfloor y)) as B10. pose proof (HB (Zfloor x) (Zfloor y + 1)%Z) as B01. pose proof (HB (Zfloor x + 1)%Z (Zfloor y + 1)%Z) as B11.
  set (f00 := on_sheet g p (Zfloor x) (Zfloor y)) in *. set (f10 := on_sheet g p (Zfloor x + 1)%Z (Zfloor y)) in *. set (f01 := on_sheet g p (Zfloor x) (Zfloor y + 1)%Z) in *. set (f11 := on_sheet g p (Zfloor x + 1)%Z (Zfloor y + 1)%Z) in *.
  apply unit_val in U00, U10, U01, U11. destruct U00 as (_ & _ & U00), U10 as (_ & _ & U10), U01 as (_ & _ & U01), U11 as (_ & _ & U11).
  set (w00 := B2R q00) in *. set (w10 := B2R q10) in *. set (w01 := B2R q01) in *. set (w11 := B2R q11) in *. clearbody f00 f10 f01 f11 w00 w10 w01 w11 a b. clear - HQ B00 B10 B01 B11 U00 U10 U01 U11.
  replace (_ - _) with (f00 * (w00 - (1 - a) * (1 - b)) + f10 * (w10 - a * (1 - b)) + f01 * (w01 - (1 - a) * b) + f11 * (w11 - a * b)) by ring.
  assert (forall f d, 0 <= f <= Q -> Rabs d <= 10 * u -> - (650250 * u) <= f * d <= 650250 * u) as K. { intros f d Hf Hd. apply Rabs_le_inv. rewrite Rabs_mult, (Rabs_pos_eq f) by lra. replace (650250 * u) with (65025 * (10 * u)) by ring. apply Rmult_le_compat; try apply Rabs_pos; lra. }
  pose proof (K _ _ B00 U00). pose proof (K _ _ B10 U10). pose proof (K _ _ B01 U01). pose proof (K _ _ B11 U11). pose proof u_small. apply Rabs_le. lra.
Qed.
Lemma sheet_out g x y : g Transparent = 0%Z -> ~ (-1 <= Zfloor x < pw p /\ -1 <= Zfloor y < ph p)%Z -> between_places (on_sheet g p) x y = 0.
Proof.
  intros Hg H. unfold between_places, along. cbv zeta. set (m := Zfloor x) in *. set (n := Zfloor y) in *. unfold on_sheet.
  assert (forall m' n', m' = m \/ m' = (m + 1)%Z -> n' = n \/ n' = (n + 1)%Z -> (if ((0 <=? m') && (m' <? pw p) && (0 <=? n') && (n' <? ph p))%Z then IZR (g (at_ p m' n')) else 0) = 0) as K by (intros m' n' H1 H2; destruct (_ && _) eqn:E; [exfalso; lia|reflexivity]).
  rewrite !K by auto. ring.
Qed.
Lemma sheet_alpha m n : 0 <= on_sheet pa p m n <= 255.
Proof. unfold on_sheet. destruct (_ && _) eqn:E; [|lra]. destruct (Hcol m n ltac:(lia) ltac:(lia)) as (_ & _ & _ & D). unfold byte in D. split; apply IZR_le; lia. Qed.
Lemma sheet_tint c m n : a_channel c -> 0 <= on_sheet (fun q => (c q * pa q)%Z) p m n <= 65025.
Proof.
  intros Hc. unfold on_sheet. destruct (_ && _) eqn:E; [|lra]. pose proof (Hcol m n ltac:(lia) ltac:(lia)) as C. pose proof (channel_byte c _ Hc C) as B. destruct C as (_ & _ & _ & D). unfold byte in D. split; apply IZR_le; nia.
Qed.
(** The alpha and the channels that come out. *)
Lemma interpolate_near xf yf x y : val xf x -> val yf y -> let r := interpolatePoint i xf yf in
  Rabs (IZR (pa r) - opacity p x y) <= / 2 + / 100000000 /\
  forall c, a_channel c -> visible r -> Rabs (opacity p x y * IZR (c r) - tint c p x y) <= opacity p x y / 2 + / 50000.
Proof.
  intros Vx Vy. cbv zeta. destruct (interpolate_cases xf yf) as [[-> H]|(x' & y' & q00 & q10 & q01 & q11 & Vx' & Vy' & L1 & L2 & -> & U)].
  - specialize (H x y Vx Vy). unfold opacity. rewrite (sheet_out pa x y eq_refl H). split; [cbn [pa Transparent]; rewrite Rminus_0_r, Rabs_R0; lra|]. intros c Hc Hv. unfold visible in Hv. cbn in Hv. lia.
  - rewrite (val_unique _ _ _ Vx' Vx), (val_unique _ _ _ Vy' Vy) in *. clear x' y' Vx' Vy'. cbv zeta in U. destruct U as (Ua & Ub & U00 & U10 & U01 & U11).
    destruct (quad_ok (Zfloor x) (Zfloor y) _ _ _ _ _ _ _ _ U00 U10 U01 U11) as (Hl & Hw & Hc0). set (ws := quad q00 q10 q01 q11) in *.
    pose proof (quad_sum pa 255 x y q00 q10 q01 q11 eq_refl ltac:(lra) sheet_alpha (conj U00 (conj U10 (conj U01 U11)))) as SA. fold ws (opacity p x y) in SA. change (total ws _) with (A0 (pointOf (Zfloor x) (Zfloor y)) ws wR) in SA.
    pose proof (plane_bound (on_sheet pa p) 255 x y sheet_alpha) as BA. fold (opacity p x y) in BA. apply Rabs_le_inv in SA. split.
    + pose proof (blend_alpha _ ws wR Hl Hw Hc0 ltac:(lra)) as E. apply Rabs_le_inv in E. apply Rabs_le. lra.
    + intros c Hc Hv. destruct (blend_channel _ ws wR Hl Hw Hc0 c 0 255 Hc ltac:(lia) ltac:(lia)) as [B E]; [intros iw Hin _; apply channel_byte; [exact Hc|apply Hc0; exact Hin]|exact Hv|].
      pose proof (quad_sum (fun q => (c q * pa q)%Z) 65025 x y q00 q10 q01 q11 ltac:(cbn [pa Transparent]; lia) ltac:(lra) (fun m n => sheet_tint c m n Hc) (conj U00 (conj U10 (conj U01 U11)))) as SC. fold ws (tint c p x y) in SC. change (total ws _) with (C0 (pointOf (Zfloor x) (Zfloor y)) ws wR c) in SC.
      apply Rabs_le_inv in SC, E. destruct B as [B1 B2]. apply IZR_le in B1, B2. set (k := IZR (c _)) in *. apply Rabs_le. split; nra.
Qed.
(** No colour comes out that did not go in. *)
Lemma interpolate_colour xf yf : colour (interpolatePoint i xf yf).
Proof. destruct (interpolate_cases xf yf) as [[-> _]|(x & y & q00 & q10 & q01 & q11 & _ & _ & _ & _ & -> & _)]; [repeat split; cbn; lia|apply mix_colour]. Qed.
Lemma interpolate_between c lo hi xf yf : a_channel c -> (0 <= lo)%Z -> (hi <= 255)%Z -> everywhere (fun q => visible q -> between c lo hi q) p -> visible (interpolatePoint i xf yf) -> between c lo hi (interpolatePoint i xf yf).
Proof.
  intros Hc H0 H255 He. destruct (interpolate_cases xf yf) as [[-> _]|(x & y & q00 & q10 & q01 & q11 & _ & _ & L1 & L2 & -> & U)]; [unfold visible; cbn; lia|]. intros Hv. cbv zeta in U. destruct U as (Ua & Ub & U00 & U10 & U01 & U11).
  destruct (quad_ok (Zfloor x) (Zfloor y) _ _ _ _ _ _ _ _ U00 U10 U01 U11) as (Hl & Hw & Hc0).
  apply (blend_channel _ _ wR Hl Hw Hc0 c lo hi Hc H0 H255); [|exact Hv]. intros iw Hin. unfold pointOf. cbv zeta. destruct (inBounds _ _ _ _) eqn:E; [|cbn; lia]. unfold inBounds in E. apply (He (Zfloor x + fst iw mod 2)%Z (Zfloor y + fst iw / 2)%Z); lia.
Qed.
Lemma plane_alpha A x y : everywhere (fun q => (pa q <= A)%Z) p -> (0 <= A)%Z -> opacity p x y <= IZR A.
Proof.
  intros H HA. apply plane_bound. intros m n. split; [apply sheet_alpha|]. unfold on_sheet. destruct (_ && _) eqn:E; [apply IZR_le, H; lia|apply (IZR_le 0), HA].
Qed.
Lemma interpolate_alpha A xf yf : everywhere (fun q => (pa q <= A)%Z) p -> (0 <= A)%Z -> (pa (interpolatePoint i xf yf) <= A)%Z.
Proof.
  intros H HA. destruct (interpolate_cases xf yf) as [[-> _]|(x & y & _ & _ & _ & _ & Vx & Vy & _)]; [exact HA|]. destruct (interpolate_near xf yf x y Vx Vy) as [E _]. pose proof (plane_alpha A x y H HA). apply Rabs_le_inv in E.
  assert (pa (interpolatePoint i xf yf) < A + 1)%Z; [apply lt_IZR; rewrite plus_IZR; lra|lia].
Qed.
End place.
