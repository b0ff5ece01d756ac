(** Rounding errors of the sums of imaging's resampling. *)
From Coq Require Import ZArith List Bool Lia Reals Lra Psatz.
From Flocq Require Import Core BinarySingleNaN Relative.
From Verif Require Import GoInt GoFloat Image_Model Pixel_Model Resample_Model.
Import ListNotations.
Local Open Scope R_scope.

(** More than any rounding error of a number too small to be normal. *)
Definition h : R := / 1267650600228229401496703205376.
Lemma h_pos : 0 < h. Proof. unfold h. lra. Qed.
Lemma u_small : 0 < u <= / 9007199254740992. Proof. rewrite u_val. lra. Qed.
Lemma R64_abs x : Rabs (R64 x - x) <= u * Rabs x + h.
Proof.
  rewrite fexp_FLT. destruct (error_N_FLT radix2 (-1074) 53 eq_refl (fun z => negb (Z.even z)) x) as (eps & eta & He & Ht & _ & E).
  change (Generic_fmt.Znearest (fun z => negb (Z.even z))) with ZnearestE in E. rewrite E. replace (x * (1 + eps) + eta - x) with (eps * x + eta) by ring.
  eapply Rle_trans; [apply Rabs_triang|]. rewrite Rabs_mult. apply Rplus_le_compat.
  - apply Rmult_le_compat_r; [apply Rabs_pos|]. eapply Rle_trans; [exact He|]. unfold u. replace (- (53) + 1)%Z with (-52)%Z by lia. change (bpow radix2 (-52)) with (bpow radix2 (1 + -53)). rewrite bpow_plus. change (bpow radix2 1) with 2. lra.
  - eapply Rle_trans; [exact Ht|]. assert (bpow radix2 (-1074) <= bpow radix2 (-100)) by (apply bpow_le; lia). assert (bpow radix2 (-100) = h) as E2 by reflexivity. pose proof (bpow_ge_0 radix2 (-1074)). lra.
Qed.
Lemma R64_bound x e : Rabs x <= e -> x - (u * e + h) <= R64 x <= x + (u * e + h).
Proof. intros H. pose proof (R64_abs x) as A. apply Rabs_le_inv in A. pose proof u_small. assert (u * Rabs x <= u * e) by (apply Rmult_le_compat_l; lra). lra. Qed.
Lemma huge x : Rabs x <= 1267650600228229401496703205376 -> Rabs x <= bpow radix2 1000.
Proof. intros H. eapply Rle_trans; [exact H|]. change 1267650600228229401496703205376 with (bpow radix2 100). apply bpow_le. lia. Qed.
Lemma val_sub f g x y : val f x -> val g y -> Rabs (x - y) <= bpow radix2 1000 -> val (fsub f g) (R64 (x - y)).
Proof.
  intros [Hf <-] [Hg <-] H. pose proof (Bminus_correct 53 1024 prec_ok emax_ok mode_NE f g Hf Hg) as C. rewrite (big_ok _ H) in C. destruct C as (C1 & C2 & _). split; [exact C2|exact C1].
Qed.
Lemma val_abs f x : val f x -> val (fabs f) (Rabs x).
Proof. intros [Hf <-]. split; [unfold fabs; rewrite is_finite_Babs; exact Hf|apply B2R_Babs]. Qed.
Lemma val_neg f x : val f x -> val (fneg f) (- x).
Proof. intros [Hf <-]. split; [unfold fneg; rewrite is_finite_Bopp; exact Hf|apply B2R_Bopp]. Qed.
Lemma val_lt f g x y : val f x -> val g y -> flt f g = Rlt_bool x y.
Proof. intros [Hf <-] [Hg <-]. apply Bltb_correct; assumption. Qed.
Lemma val_le f g x y : val f x -> val g y -> fle f g = Rle_bool x y.
Proof. intros [Hf <-] [Hg <-]. apply Bleb_correct; assumption. Qed.
Lemma val_eq f g x y : val f x -> val g y -> feq f g = Req_bool x y.
Proof. intros [Hf <-] [Hg <-]. apply Beqb_correct; assumption. Qed.
Lemma val_ceil f x : val f x -> val (fceil f) (IZR (Zceil x)).
Proof.
  intros [Hf <-]. destruct (Bnearbyint_correct 53 1024 emax_ok mode_UP f) as (E & F & _). split; [unfold fceil; rewrite F; exact Hf|]. unfold fceil. rewrite E.
  unfold round, F2R, scaled_mantissa, cexp. cbn. rewrite !Rmult_1_r. reflexivity.
Qed.
Lemma val_unique f x y : val f x -> val f y -> x = y. Proof. intros [_ <-] [_ <-]. reflexivity. Qed.

(** ** Sums *)
Fixpoint sumR (l : list R) : R := match l with [] => 0 | x :: l => x + sumR l end.
Lemma sumR_map_mult {A} (g : A -> R) k l : sumR (map (fun x => k * g x) l) = k * sumR (map g l).
Proof. induction l as [|x l IH]; cbn [map sumR]; [ring|rewrite IH; ring]. Qed.
Lemma sumR_map_plus {A} (g g' : A -> R) l : sumR (map (fun x => g x + g' x) l) = sumR (map g l) + sumR (map g' l).
Proof. induction l as [|x l IH]; cbn [map sumR]; [ring|rewrite IH; ring]. Qed.
Lemma sumR_map_le {A} (g g' : A -> R) l : (forall x, In x l -> g x <= g' x) -> sumR (map g l) <= sumR (map g' l).
Proof. induction l as [|x l IH]; intros H; cbn [map sumR]; [lra|]. pose proof (H x (or_introl eq_refl)). specialize (IH (fun y Hy => H y (or_intror Hy))). lra. Qed.
Lemma sumR_const {A} c (l : list A) : sumR (map (fun _ => c) l) = c * INR (length l).
Proof. induction l as [|x l IH]; cbn [map sumR length]; [cbn; ring|rewrite IH, S_INR; ring]. Qed.
Lemma sumR_abs {A} (g : A -> R) l : Rabs (sumR (map g l)) <= sumR (map (fun x => Rabs (g x)) l).
Proof. induction l as [|x l IH]; cbn [map sumR]; [rewrite Rabs_R0; lra|]. eapply Rle_trans; [apply Rabs_triang|]. lra. Qed.

Definition fsum (l : list f64) : f64 := fold_left fadd l (of_int 0).
Definition n20 : R := 1048576.
Lemma fsum_gen {A} (F : A -> f64) (X : A -> R) l : (forall x, In x l -> val (F x) (X x)) ->
  forall acc a s T k, val acc a -> 0 <= k -> 0 <= T -> Rabs s <= T -> Rabs (a - s) <= 2 * k * (u * T + h) -> k + INR (length l) <= n20 ->
  T + sumR (map (fun x => Rabs (X x)) l) <= 1267650600228229 ->
  exists r, val (fold_left fadd (map F l) acc) r /\
    Rabs (r - (s + sumR (map X l))) <= 2 * (k + INR (length l)) * (u * (T + sumR (map (fun x => Rabs (X x)) l)) + h).
Proof.
  pose proof u_small as Hu. pose proof h_pos as Hh. assert (Hh2 : h <= 1) by (unfold h; lra).
  induction l as [|x l IH]; intros Hv acc a s T k Ha Hk HT Hs He Hn Hb.
  - exists a. split; [exact Ha|]. cbn [map sumR length]. change (INR 0) with 0. rewrite !Rplus_0_r. exact He.
  - cbn [map sumR length] in *. rewrite S_INR in *. pose proof (pos_INR (length l)) as Hl.
    assert (0 <= sumR (map (fun x => Rabs (X x)) l)) as Hrest.
    { clear. induction l as [|y l IH]; cbn [map sumR]; [lra|]. pose proof (Rabs_pos (X y)). lra. }
    pose proof (Rabs_pos (X x)) as Hx0. set (T' := T + Rabs (X x)) in *.
    assert (Hka : 2 * k * (u * T + h) <= T + 2 * k * h) by (unfold n20 in Hn; assert (2 * k * u <= 1) by nra; nra).
    assert (Hkh : 2 * k * h <= 1) by (unfold n20 in Hn; unfold h; nra).
    assert (Ha1 : Rabs a <= 2 * T + 1) by (replace a with ((a - s) + s) by ring; eapply Rle_trans; [apply Rabs_triang|]; lra).
    assert (Hax : Rabs (a + X x) <= T' + (2 * k * (u * T + h))).
    { replace (a + X x) with ((a - s) + (s + X x)) by ring. eapply Rle_trans; [apply Rabs_triang|]. pose proof (Rabs_triang s (X x)). unfold T'. lra. }
    assert (Hval : val (fadd acc (F x)) (R64 (a + X x))).
    { apply val_add; [exact Ha|apply Hv; left; reflexivity|]. apply huge. unfold T' in *. lra. }
    destruct (IH (fun y Hy => Hv y (or_intror Hy)) _ (R64 (a + X x)) (s + X x) T' (k + 1) Hval ltac:(lra) ltac:(unfold T'; lra)) as (r & Hr & Er).
    + unfold T'. pose proof (Rabs_triang s (X x)). lra.
    + replace (R64 (a + X x) - (s + X x)) with ((R64 (a + X x) - (a + X x)) + (a - s)) by ring. eapply Rle_trans; [apply Rabs_triang|].
      pose proof (R64_abs (a + X x)) as E. assert (u * Rabs (a + X x) <= u * (T' + (2 * k * (u * T + h)))) by (apply Rmult_le_compat_l; lra).
      assert (2 * k * (u * T + h) <= 2 * k * (u * T' + h)) by (unfold T'; assert (0 <= u * Rabs (X x)) by nra; nra).
      assert (u * (2 * k * (u * T + h)) <= u * T' + h).
      { assert (u * (2 * k * (u * T + h)) <= u * (T + 2 * k * h)) by (apply Rmult_le_compat_l; lra). assert (u * T <= u * T') by (unfold T'; nra). assert (u * (2 * k * h) <= h) by (unfold n20 in Hn; assert (u * (2 * k) <= 1) by nra; nra). lra. }
      lra.
    + lra.
    + unfold T'. lra.
    + exists r. split; [exact Hr|]. replace (s + (X x + sumR (map X l))) with (s + X x + sumR (map X l)) by ring. unfold T' in Er.
      replace (T + (Rabs (X x) + sumR (map (fun x0 => Rabs (X x0)) l))) with (T + Rabs (X x) + sumR (map (fun x0 => Rabs (X x0)) l)) by ring.
      replace (k + (INR (length l) + 1)) with (k + 1 + INR (length l)) by ring. exact Er.
Qed.
Lemma fsum_err {A} (F : A -> f64) (X : A -> R) l : (forall x, In x l -> val (F x) (X x)) -> INR (length l) <= n20 ->
  sumR (map (fun x => Rabs (X x)) l) <= 1267650600228229 ->
  exists r, val (fsum (map F l)) r /\ Rabs (r - sumR (map X l)) <= 2 * INR (length l) * (u * sumR (map (fun x => Rabs (X x)) l) + h).
Proof.
  intros Hv Hn Hb. destruct (fsum_gen F X l Hv (of_int 0) 0 0 0 0) as (r & Hr & Er); try lra.
  - apply (val_int 0). lia.
  - rewrite Rabs_R0. lra.
  - rewrite Rminus_0_r, Rabs_R0. pose proof h_pos. lra.
  - exists r. split; [exact Hr|]. rewrite !Rplus_0_l in Er. exact Er.
Qed.

Lemma sumR_nonneg {A} (g : A -> R) l : (forall x, In x l -> 0 <= g x) -> 0 <= sumR (map g l).
Proof. intros H. pose proof (sumR_map_le (fun _ => 0) g l H) as E. rewrite sumR_const in E. lra. Qed.
(** Sums of terms that are themselves rounded. *)
Lemma fsum_near {A} (F : A -> f64) (X Y g : A -> R) l : (forall x, In x l -> val (F x) (X x) /\ Rabs (X x - Y x) <= 4 * u * g x + 1000 * h /\ Rabs (Y x) <= g x) ->
  INR (length l) <= n20 -> sumR (map g l) <= 12676506002282 ->
  exists r, val (fsum (map F l)) r /\ Rabs (r - sumR (map Y l)) <= / 1073741824 * sumR (map g l) + 1073741824 * h.
Proof.
  intros H Hn Hb. pose proof u_small as Hu. pose proof h_pos as Hh. pose proof (pos_INR (length l)) as Hn0. unfold n20 in *.
  assert (HG : 0 <= sumR (map g l)). { apply sumR_nonneg. intros x Hx. destruct (H x Hx) as (_ & _ & E). pose proof (Rabs_pos (Y x)). lra. }
  assert (HX : sumR (map (fun x => Rabs (X x)) l) <= 2 * sumR (map g l) + 1000 * h * INR (length l)).
  { eapply Rle_trans; [apply (sumR_map_le _ (fun x => 2 * g x + 1000 * h))|rewrite sumR_map_plus, sumR_map_mult, sumR_const; lra].
    intros x Hx. destruct (H x Hx) as (_ & E1 & E2). replace (X x) with ((X x - Y x) + Y x) by ring. eapply Rle_trans; [apply Rabs_triang|].
    assert (0 <= g x) by (pose proof (Rabs_pos (Y x)); lra). assert (4 * u * g x <= g x) by nra. lra. }
  assert (HD : Rabs (sumR (map X l) - sumR (map Y l)) <= 4 * u * sumR (map g l) + 1000 * h * INR (length l)).
  { replace (sumR (map X l) - sumR (map Y l)) with (sumR (map (fun x => X x - Y x) l)).
    - eapply Rle_trans; [apply sumR_abs|]. eapply Rle_trans; [apply (sumR_map_le _ (fun x => 4 * u * g x + 1000 * h)); intros x Hx; apply (H x Hx)|]. rewrite sumR_map_plus, sumR_map_mult, sumR_const. lra.
    - clear. induction l as [|x l IH]; cbn [map sumR]; [ring|rewrite IH; ring]. }
  assert (1000 * h * INR (length l) <= / 1048576) as Hsm by (unfold h; nra).
  destruct (fsum_err F X l (fun x Hx => proj1 (H x Hx)) ltac:(unfold n20; lra) ltac:(lra)) as (r & Hr & Er). exists r. split; [exact Hr|].
  replace (r - sumR (map Y l)) with ((r - sumR (map X l)) + (sumR (map X l) - sumR (map Y l))) by ring. eapply Rle_trans; [apply Rabs_triang|].
  remember (sumR (map g l)) as G eqn:EG. remember (INR (length l)) as n eqn:En. remember (sumR (map (fun x => Rabs (X x)) l)) as T eqn:ET. clear EG En ET.
  assert (0 <= T -> u * T <= u * (2 * G + 1000 * h * n)) as HT by (intros; apply Rmult_le_compat_l; lra).
  assert (2 * n * (u * T + h) <= 2 * n * (u * (2 * G + 1000 * h * n) + h)) as HT2. { assert (u * T <= u * (2 * G + 1000 * h * n)) by (apply Rmult_le_compat_l; lra). nra. }
  assert (n * u <= / 8589934592) as Hnu by nra. assert (0 <= n * u) as Hnu0 by nra.
  assert (2 * n * (u * (2 * G + 1000 * h * n) + h) = 4 * (n * u) * G + 2000 * (n * u) * (n * h) + 2 * (n * h)) as E1 by ring.
  assert (0 <= n * h <= 1048576 * h) as Hnh by nra.
  assert (4 * (n * u) * G <= / 2147483648 * G) by nra. assert (4 * u * G <= / 4294967296 * G) by nra. assert (2000 * (n * u) * (n * h) <= n * h) by nra. lra.
Qed.

(** ** The channels *)
Lemma to_int_0 f x k : val f x -> IZR k <= x -> (0 <= k)%Z -> x < IZR (k + 1) -> (k < 2 ^ 53)%Z -> to_int f = k.
Proof.
  intros H H1 H2 H3 H4. rewrite (to_int_val f x H).
  - apply Zfloor_imp. split; assumption.
  - apply (Rle_trans _ (IZR k)); [apply IZR_le; exact H2|exact H1].
  - eapply Rlt_trans; [exact H3|]. change (bpow radix2 63) with (IZR (2 ^ 63)). apply IZR_lt. change (2 ^ 63)%Z with 9223372036854775808%Z. change (2 ^ 53)%Z with 9007199254740992%Z in H4. lia.
Qed.
Lemma clampF_near q x : val q x -> - / 4 <= x <= 255 + / 4 -> (0 <= clampF q <= 255)%Z /\ Rabs (IZR (clampF q) - x) <= / 2 + / 1000.
Proof.
  intros Hq Hx. pose proof u_small as Hu. assert (val (fadd q fhalf) (R64 (x + / 2))) as Hv.
  { apply val_add; [exact Hq|exact val_half|]. apply huge. apply Rabs_le. lra. }
  assert (- / 2000 <= R64 (x + / 2) - (x + / 2) <= / 2000) as He.
  { pose proof (R64_bound (x + / 2) 256 ltac:(apply Rabs_le; lra)) as E. unfold h in E. lra. }
  set (y := R64 (x + / 2)) in *. set (k := Zfloor y). pose proof (Zfloor_lb y) as L. pose proof (Zfloor_ub y) as U. fold k in L, U. rewrite <- (plus_IZR k 1) in U.
  assert (0 <= k)%Z as Hk0. { apply le_IZR. assert (-1 < k)%Z; [apply lt_IZR; rewrite plus_IZR in U; lra|apply IZR_le; lia]. }
  assert (k <= 255)%Z as Hk1 by (assert (k < 256)%Z by (apply lt_IZR; lra); lia).
  assert (to_int (fadd q fhalf) = k) as E by (apply (to_int_0 _ y); [exact Hv|exact L|exact Hk0|exact U|change (2 ^ 53)%Z with 9007199254740992%Z; lia]).
  assert (clampF q = k) as ->.
  { unfold clampF. rewrite E. assert (255 <? k = false)%Z as -> by lia. destruct (0 <? k)%Z eqn:K; [|lia]. unfold u8. apply Z.mod_small. change (2 ^ 8)%Z with 256%Z. lia. }
  split; [lia|]. rewrite plus_IZR in U. apply Rabs_le. lra.
Qed.
Lemma clampF_range q x lo hi : val q x -> (0 <= lo)%Z -> (hi <= 255)%Z -> IZR lo - / 4 <= x <= IZR hi + / 4 -> (lo <= clampF q <= hi)%Z.
Proof.
  intros Hq Hl Hh Hx. pose proof (IZR_le _ _ Hl). pose proof (IZR_le _ _ Hh). destruct (clampF_near q x Hq ltac:(lra)) as (_ & E). apply Rabs_le_inv in E.
  split.
  - assert (lo - 1 < clampF q)%Z; [apply lt_IZR; rewrite minus_IZR; lra|lia].
  - assert (clampF q < hi + 1)%Z; [apply lt_IZR; rewrite plus_IZR; lra|lia].
Qed.
