(** From the register to the standards and to error patterns. *)
From Coq Require Import ZArith List Bool Lia ZifyBool ZifyNat Znumtheory MSets.MSetPositive.
From Verif Require Import GoInt Crc_Model Crc_Spec Crc_Proofs CrcCode_Proofs.
Import ListNotations.
Local Open Scope Z_scope.

(** ** Reading bits backwards *)
Fixpoint revb (n : nat) (z : Z) : Z :=
  match n with O => 0 | S n' => 2 * revb n' z + Z.b2z (Z.testbit z (Z.of_nat n')) end.

Lemma revb_nn n z : 0 <= revb n z < 2^Z.of_nat n.
Proof.
  induction n as [|n IH]; cbn [revb]; [cbn; lia|].
  replace (Z.of_nat (S n)) with (Z.of_nat n + 1) by lia. rewrite Z.pow_add_r by lia. change (2^1) with 2.
  destruct (Z.testbit z (Z.of_nat n)); cbn [Z.b2z]; lia.
Qed.

Lemma revb_bit n z : 0 <= z < 2^Z.of_nat n -> forall i, Z.testbit (revb n z) i = Z.testbit z (Z.of_nat n - 1 - i).
Proof.
  intros Hz i. destruct (Z_lt_ge_dec i 0) as [L|L].
  - rewrite Z.testbit_neg_r, (high_bits z (Z.of_nat n)) by lia. reflexivity.
  - clear Hz. revert i L. induction n as [|n IH]; intros i L; cbn [revb].
    + rewrite Z.bits_0, Z.testbit_neg_r by lia. reflexivity.
    + destruct (Z.eq_dec i 0) as [->|].
      * rewrite Z.testbit_0_r. f_equal. lia.
      * replace i with (Z.succ (i - 1)) at 1 by lia. rewrite Z.testbit_succ_r, IH by lia. f_equal. lia.
Qed.

Lemma poly_of_bit bits : forall i, 0 <= i ->
  Z.testbit (poly_of bits) i = if i <? Z.of_nat (length bits) then nth (length bits - 1 - Z.to_nat i) bits false else false.
Proof.
  induction bits as [|b bits IH]; intros i Hi; cbn [poly_of length].
  - rewrite Z.bits_0. destruct (i <? Z.of_nat 0); reflexivity.
  - rewrite Z.lxor_spec, IH, Z.shiftl_spec by lia.
    assert (Hb : forall j, Z.testbit (Z.b2z b) j = if j =? 0 then b else false).
    { intros j. destruct (j =? 0) eqn:E; [replace j with 0 by lia; destruct b; reflexivity|].
      destruct (Z_lt_ge_dec j 0); [apply Z.testbit_neg_r; lia|]. apply (high_bits _ 1); [destruct b; cbn; lia|lia]. }
    rewrite Hb. destruct (i <? Z.of_nat (length bits)) eqn:E1.
    + replace (i - Z.of_nat (length bits) =? 0) with false by lia. replace (i <? Z.of_nat (S (length bits))) with true by lia.
      replace (S (length bits) - 1 - Z.to_nat i)%nat with (S (length bits - 1 - Z.to_nat i)) by lia. apply xorb_false_l.
    + destruct (i <? Z.of_nat (S (length bits))) eqn:E2.
      * replace (i - Z.of_nat (length bits) =? 0) with true by lia.
        replace (S (length bits) - 1 - Z.to_nat i)%nat with 0%nat by lia. rewrite xorb_false_r. reflexivity.
      * replace (i - Z.of_nat (length bits) =? 0) with false by lia. reflexivity.
Qed.

Lemma poly_stream m : is_bytes m -> forall i, Z.testbit (poly_of (stream m)) i = Z.testbit (lev m) (8 * Z.of_nat (length m) - 1 - i).
Proof.
  intros B i. destruct (Z_lt_ge_dec i 0) as [L|L].
  - pose proof (lev_nn m B). pose proof (lev_lt m B).
    rewrite Z.testbit_neg_r, (high_bits (lev m) (8 * Z.of_nat (length m))) by lia. reflexivity.
  - assert (LS : length (stream m) = (8 * length m)%nat) by (unfold stream; rewrite map_length, seq_length; reflexivity).
    rewrite poly_of_bit, LS by lia. destruct (i <? Z.of_nat (8 * length m)) eqn:E.
    + unfold stream. rewrite (nth_indep _ false (msg_bit m 0)) by (rewrite map_length, seq_length; lia).
      rewrite map_nth, seq_nth by lia. rewrite <- lev_bit by auto. f_equal. lia.
    + symmetry. apply Z.testbit_neg_r. lia.
Qed.

(** ** The register is the remainder of the standards *)
Section Std.
Variables (w poly : Z) (g mid gmid : list Z).
Hypothesis Hw : 8 <= w.
Hypothesis Hpoly : 0 <= poly < 2^w.
Let P := 0 :: mid ++ [w].
Hypothesis Hmid : Forall (fun e => 0 < e < w) mid.
Hypothesis HP : pmul 1 P = 2 * poly + 1.
Hypothesis Hg : map (fun e => w - e) g = P.
Hypothesis Hrev : rev g = 0 :: gmid ++ [w].
Hypothesis Hgmid : Forall (fun e => 0 < e < w) gmid.
Notation it k c := (Nat.iter k (tab_bit poly) c).

Lemma pmul_rev q es : pmul q (rev es) = pmul q es.
Proof.
  induction es as [|e es IH]; cbn [rev pmul]; [reflexivity|].
  rewrite pmul_app, IH. cbn [pmul]. rewrite Z.lxor_0_r. apply Z.lxor_comm.
Qed.

Lemma pmul_rev_bits k q : 0 <= q < 2^Z.of_nat k -> forall i, 0 <= i -> 0 <= w + Z.of_nat k - 1 - i ->
  Z.testbit (pmul (revb k q) g) i = Z.testbit (pmul q P) (w + Z.of_nat k - 1 - i).
Proof.
  intros Hq i Hi Hp. rewrite <- Hg. clear Hg Hrev. induction g as [|e es IH]; cbn [pmul map]; [rewrite !Z.bits_0; reflexivity|].
  rewrite !Z.lxor_spec, IH, !Z.shiftl_spec, revb_bit by lia. do 2 f_equal. lia.
Qed.

Lemma it_is_crc m : is_bytes m ->
  let c := Z.lxor (it (8 * length m) (Z.lxor (2^w - 1) (lev m))) (2^w - 1) in is_crc_w w g m c.
Proof.
  intros B. set (k := (8 * length m)%nat).
  pose proof (lev_nn m B) as L0. pose proof (lev_lt m B) as L1.
  assert (Hk : 8 * Z.of_nat (length m) = Z.of_nat k) by lia. rewrite Hk in L1.
  assert (W0 : 0 < 2^w) by (apply Z.pow_pos_nonneg; lia).
  assert (K0 : 0 < 2^Z.of_nat k) by (apply Z.pow_pos_nonneg; lia).
  assert (CR : 0 <= Z.lxor (2^w - 1) (lev m) < 2^(w + Z.of_nat k)).
  { apply xlt; [lia|split; [lia|]|split; [lia|]]; rewrite Z.pow_add_r by lia; nia. }
  pose proof (it_range w poly Hw Hpoly k _ CR) as RR.
  destruct (it_spec w poly mid Hw Hmid HP k _ (proj1 CR)) as (q & Hq & E). fold P in E.
  set (R := it k (Z.lxor (2^w - 1) (lev m))) in *. intros c.
  assert (ON : forall i, Z.testbit (2^w - 1) i = (0 <=? i) && (i <? w)).
  { intros i. replace (2^w - 1) with (Z.ones w) by (rewrite Z.ones_equiv; lia).
    destruct (Z_lt_ge_dec i 0); [rewrite Z.testbit_neg_r; lia|].
    destruct (Z_lt_ge_dec i w); [rewrite Z.ones_spec_low; lia|rewrite Z.ones_spec_high; lia]. }
  split; [unfold c; apply xlt; lia|].
  exists (revb k q), (revb (Z.to_nat w) R).
  assert (RW : 0 <= R < 2^Z.of_nat (Z.to_nat w)) by (rewrite Z2Nat.id; lia).
  split; [apply revb_nn|]. split; [pose proof (revb_nn (Z.to_nat w) R); rewrite Z2Nat.id in *; lia|]. split.
  - rewrite Hk. apply Z.bits_inj'. intros i Hi. rewrite !Z.lxor_spec, !Z.shiftl_spec by lia.
    rewrite poly_stream, ON, revb_bit, Hk, Z2Nat.id by (auto || lia).
    set (p := w + Z.of_nat k - 1 - i).
    replace (Z.of_nat k - 1 - (i - w)) with p by lia. replace (w - 1 - i) with (p - Z.of_nat k) by lia.
    destruct (Z_lt_ge_dec p 0) as [Lp|Lp].
    + rewrite !(Z.testbit_neg_r _ p), !(Z.testbit_neg_r R) by lia.
      replace ((0 <=? i - Z.of_nat k) && (i - Z.of_nat k <? w)) with false by lia. cbn [xorb].
      rewrite pmul_testbit_none; [reflexivity|lia|]. intros e He. rewrite revb_bit by lia. apply Z.testbit_neg_r.
      assert (He' : In (w - e) P) by (rewrite <- Hg; apply (in_map (fun e => w - e)); auto).
      destruct He' as [X|He']; [lia|]. apply in_app_or in He' as [X|[X|[]]]; [|lia].
      rewrite Forall_forall in Hmid. apply Hmid in X. lia.
    + rewrite pmul_rev_bits by lia. fold p. apply (f_equal (fun z => Z.testbit z p)) in E.
      rewrite Z.shiftl_spec, !Z.lxor_spec, ON in E by lia. rewrite E.
      replace ((0 <=? i - Z.of_nat k) && (i - Z.of_nat k <? w)) with ((0 <=? p) && (p <? w)) by lia.
      destruct (Z.testbit (lev m) p), ((0 <=? p) && (p <? w)), (Z.testbit (pmul q P) p); reflexivity.
  - intros i Hi. rewrite revb_bit by lia. rewrite Z2Nat.id by lia. unfold c. rewrite Z.lxor_spec, ON.
    replace ((0 <=? i) && (i <? w)) with true by lia. replace (w - 1 - (w - 1 - i)) with i by lia. apply xorb_true_r.
Qed.

Lemma is_crc_w_unique m c c' : is_crc_w w g m c -> is_crc_w w g m c' -> c = c'.
Proof.
  intros (Rc & q & r & Hq & Hr & E & Hb) (Rc' & q' & r' & Hq' & Hr' & E' & Hb').
  assert (X : cong w gmid r r').
  { exists (Z.lxor q q'). split; [apply xnn; lia|]. rewrite <- Hrev, pmul_rev, pmul_lxor.
    rewrite E in E'.
    replace (Z.lxor r r') with (Z.lxor (Z.lxor (Z.lxor (pmul q g) r) (Z.lxor (pmul q' g) r')) (Z.lxor (pmul q g) (pmul q' g))) by xsolve.
    rewrite E', Z.lxor_nilpotent, Z.lxor_0_l. reflexivity. }
  apply cong_eq in X; [|lia|exact Hgmid|auto|auto]. subst r'.
  apply Z.bits_inj'. intros i Hi. destruct (Z_lt_ge_dec i w).
  - rewrite Hb, Hb' by lia. reflexivity.
  - rewrite !(high_bits _ w) by lia. reflexivity.
Qed.

(** ** Error patterns *)
Definition xpat (ps : list nat) : Z := fold_right Z.lxor 0 (map (fun p => 2^Z.of_nat p) ps).

Lemma xpat_nn ps : 0 <= xpat ps.
Proof.
  unfold xpat. induction ps as [|p ps IH]; cbn [map fold_right]; [lia|].
  apply xnn; [apply Z.pow_nonneg; lia|auto].
Qed.

Lemma xpat_bit ps : NoDup ps -> forall p, Z.testbit (xpat ps) (Z.of_nat p) = true <-> In p ps.
Proof.
  unfold xpat. induction 1 as [|a ps Hn Hd IH]; intros p; cbn [map fold_right].
  - rewrite Z.bits_0. split; [discriminate|intros []].
  - rewrite Z.lxor_spec, Z.pow2_bits_eqb by lia. cbn [In].
    destruct (Z.of_nat a =? Z.of_nat p) eqn:E.
    + assert (a = p) by lia. subst a. split; [auto|]. intros _.
      destruct (Z.testbit _ (Z.of_nat p)) eqn:T; [|reflexivity]. apply IH in T. contradiction.
    + rewrite xorb_false_l, IH. split; [auto|]. intros [->|?]; [lia|auto].
Qed.

Lemma flipped_xpat m m' ps : is_bytes m -> is_bytes m' -> flipped m m' ps -> Z.lxor (lev m) (lev m') = xpat ps.
Proof.
  intros B B' (HL & HN & H). apply Z.bits_inj'. intros i Hi. rewrite <- (Z2Nat.id i) by lia.
  rewrite Z.lxor_spec, !lev_bit by auto. pose proof (xpat_bit ps HN (Z.to_nat i)) as X. rewrite <- H in X.
  destruct (msg_bit m (Z.to_nat i)), (msg_bit m' (Z.to_nat i)), (Z.testbit (xpat ps) (Z.of_nat (Z.to_nat i))); cbn; intuition congruence.
Qed.

Lemma same_multiple k C C' : 0 <= C -> 0 <= C' -> it k C = it k C' -> exists q, 0 <= q /\ Z.lxor C C' = pmul q P.
Proof.
  intros H H' E. destruct (it_spec w poly mid Hw Hmid HP k C H) as (q & Hq & E1).
  destruct (it_spec w poly mid Hw Hmid HP k C' H') as (q' & Hq' & E2). fold P in E1, E2.
  exists (Z.lxor q q'). split; [apply xnn; lia|]. rewrite E, E2 in E1. rewrite pmul_lxor.
  replace (Z.lxor C C') with (Z.lxor (Z.lxor (Z.lxor C' (pmul q' P)) (Z.lxor C (pmul q P))) (Z.lxor (pmul q P) (pmul q' P))) by xsolve.
  rewrite E1, Z.lxor_nilpotent, Z.lxor_0_l. reflexivity.
Qed.

Lemma multiple_same k C C' q : 0 <= C < 2^(w + Z.of_nat k) -> 0 <= C' < 2^(w + Z.of_nat k) -> 0 <= q ->
  Z.lxor C C' = pmul q P -> it k C = it k C'.
Proof.
  intros H H' Hq E. apply Z.lxor_eq. rewrite <- it_lxor, E.
  assert (HR : 0 <= pmul q P < 2^(w + Z.of_nat k)) by (rewrite <- E; apply xlt; lia).
  pose proof (it_range w poly Hw Hpoly k _ HR) as RR.
  destruct (it_spec w poly mid Hw Hmid HP k _ (proj1 HR)) as (q' & Hq' & E1). fold P in E1.
  rewrite <- pmul_lxor in E1. symmetry in E1.
  apply (pmul_unshift w mid Hw Hmid) in E1; [|apply xnn; lia]. destruct E1 as (q2 & Hq2 & E2).
  rewrite <- E2 in RR |- *. rewrite (pmul_small w mid Hw Hmid q2 Hq2 (proj2 RR)). apply pmul_0.
Qed.

Lemma flips_multiple m m' ps : is_bytes m -> is_bytes m' -> flipped m m' ps ->
  it (8 * length m) (Z.lxor (2^w - 1) (lev m)) = it (8 * length m') (Z.lxor (2^w - 1) (lev m')) ->
  exists q, 0 <= q /\ xpat ps = pmul q P.
Proof.
  intros B B' F E. pose proof (proj1 F) as HL. rewrite <- HL in E.
  assert (0 < 2^w) by (apply Z.pow_pos_nonneg; lia).
  pose proof (lev_nn m B). pose proof (lev_nn m' B').
  apply same_multiple in E; [|apply xnn; lia..]. destruct E as (q & Hq & E). exists q. split; [auto|].
  rewrite <- E, <- (flipped_xpat m m' ps B B' F). xsolve.
Qed.

Lemma xpat_window ps k n : (forall p, In p ps -> (k <= p < k + n)%nat) ->
  exists e, 0 <= e < 2^Z.of_nat n /\ xpat ps = Z.shiftl e (Z.of_nat k).
Proof.
  intros H. exists (xpat (map (fun p => p - k)%nat ps)). split.
  - split; [apply xpat_nn|]. assert (forall p, In p ps -> (p - k < n)%nat) as H' by (intros p Hp; apply H in Hp; lia).
    clear H. unfold xpat. induction ps as [|p ps IH]; cbn [map fold_right]; [apply Z.pow_pos_nonneg; lia|].
    apply xlt; [lia| |split; [apply xpat_nn|apply IH; auto using in_cons]].
    split; [apply Z.pow_nonneg; lia|]. apply Z.pow_lt_mono_r; [lia..|]. specialize (H' p (in_eq _ _)). lia.
  - unfold xpat. induction ps as [|p ps IH]; cbn [map fold_right]; [rewrite Z.shiftl_0_l; reflexivity|].
    rewrite Z.shiftl_lxor, IH by auto using in_cons. f_equal. rewrite Z.shiftl_mul_pow2, <- Z.pow_add_r by lia.
    f_equal. specialize (H p (in_eq _ _)). lia.
Qed.

Lemma xpat_nonzero ps : NoDup ps -> ps <> [] -> xpat ps <> 0.
Proof.
  intros HN Hne E. destruct ps as [|p ps]; [congruence|].
  pose proof (proj2 (xpat_bit _ HN p) (in_eq _ _)) as T. rewrite E, Z.bits_0 in T. discriminate.
Qed.

Lemma burst_detected ps k q : NoDup ps -> ps <> [] -> (forall p, In p ps -> (k <= p < k + Z.to_nat w)%nat) -> 0 <= q ->
  xpat ps <> pmul q P.
Proof.
  intros HN Hne H Hq E. destruct (xpat_window _ _ _ H) as (e & He & E'). rewrite Z2Nat.id in He by lia.
  pose proof (xpat_nonzero ps HN Hne) as Hz. rewrite E' in E, Hz.
  assert (e <> 0) by (intros ->; rewrite Z.shiftl_0_l in Hz; auto).
  symmetry in E. apply (burst_no_multiple w mid Hw Hmid) in E; auto; lia.
Qed.

(** Two flipped bits. *)
Lemma two_unit i j q : (i < j)%nat -> 0 <= q -> xpat [i; j] = pmul q P -> unit_exp w mid (Z.of_nat j - Z.of_nat i).
Proof.
  intros L Hq E. split; [lia|]. unfold xpat in E. cbn [map fold_right] in E. rewrite Z.lxor_0_r in E.
  apply (cong_unshift w mid Hw Hmid _ _ (Z.of_nat i)); [lia|]. exists q. split; [auto|]. fold P. rewrite <- E.
  rewrite !Z.shiftl_mul_pow2, <- Z.pow_add_r by lia. rewrite Z.lxor_comm. f_equal; [lia|f_equal; lia].
Qed.

Lemma unit_two d : unit_exp w mid d -> exists q, 0 <= q /\ Z.lxor 1 (2^d) = pmul q P.
Proof. intros [_ (q & Hq & E)]. exists q. rewrite Z.lxor_comm. auto. Qed.

(** An odd number of flipped bits, when the generator has an even number of terms. *)
Fixpoint par (p : positive) : bool := match p with xH => true | xO p => par p | xI p => negb (par p) end.
Definition wpar (z : Z) : bool := match z with Zpos p => par p | _ => false end.
Lemma wpar_double z : 0 <= z -> wpar (2 * z) = wpar z.
Proof. destruct z; [reflexivity|reflexivity|lia]. Qed.
Lemma wpar_succ z : 0 <= z -> wpar (2 * z + 1) = negb (wpar z).
Proof. destruct z; [reflexivity|reflexivity|lia]. Qed.
Lemma wpar_b2z z b : 0 <= z -> wpar (2 * z + Z.b2z b) = xorb b (wpar z).
Proof. intros. destruct b; cbn [Z.b2z]; [rewrite wpar_succ by auto; destruct (wpar z); reflexivity|rewrite Z.add_0_r, wpar_double by auto; destruct (wpar z); reflexivity]. Qed.
Lemma wpar_lxor_n n : forall a b, 0 <= a < 2^Z.of_nat n -> 0 <= b < 2^Z.of_nat n -> wpar (Z.lxor a b) = xorb (wpar a) (wpar b).
Proof.
  induction n as [|n IH]; intros a b Ha Hb.
  - change (2 ^ Z.of_nat 0) with 1 in *. replace a with 0 by lia. replace b with 0 by lia. reflexivity.
  - replace (Z.of_nat (S n)) with (Z.of_nat n + 1) in * by lia. rewrite Z.pow_add_r in Ha, Hb by lia. change (2^1) with 2 in *.
    assert (X : forall z, 0 <= z < 2 ^ Z.of_nat n * 2 -> exists y (c : bool), z = 2 * y + Z.b2z c /\ 0 <= y < 2 ^ Z.of_nat n).
    { intros z Hz. exists (Z.div2 z), (Z.odd z). pose proof (Z.div2_odd z). destruct (Z.odd z); cbn [Z.b2z] in *; lia. }
    destruct (X a Ha) as (a' & ca & -> & Ha'). destruct (X b Hb) as (b' & cb & -> & Hb').
    assert (Y : Z.lxor (2 * a' + Z.b2z ca) (2 * b' + Z.b2z cb) = 2 * Z.lxor a' b' + Z.b2z (xorb ca cb)).
    { apply Z.bits_inj'. intros i Hi. rewrite Z.lxor_spec. destruct (Z.eq_dec i 0) as [->|].
      - rewrite !Z.testbit_0_r. reflexivity.
      - replace i with (Z.succ (i - 1)) by lia. rewrite !Z.testbit_succ_r, Z.lxor_spec by lia. reflexivity. }
    assert (0 <= Z.lxor a' b') by (apply xnn; lia).
    rewrite Y, !wpar_b2z, (IH a' b') by lia. destruct ca, cb, (wpar a'), (wpar b'); reflexivity.
Qed.
Lemma wpar_lxor a b : 0 <= a -> 0 <= b -> wpar (Z.lxor a b) = xorb (wpar a) (wpar b).
Proof.
  intros Ha Hb. apply (wpar_lxor_n (Z.to_nat (a + b + 1))); (split; [lia|]).
  all: rewrite Z2Nat.id by lia; pose proof (Z.pow_gt_lin_r 2 (a + b + 1)); lia.
Qed.
Lemma wpar_shiftl a k : 0 <= a -> 0 <= k -> wpar (Z.shiftl a k) = wpar a.
Proof.
  intros Ha Hk. rewrite Z.shiftl_mul_pow2 by lia. revert k Hk. apply natlike_ind.
  - rewrite Z.mul_1_r. reflexivity.
  - intros k Hk IH. rewrite Z.pow_succ_r by lia. replace (a * (2 * 2^k)) with (2 * (a * 2^k)) by lia.
    rewrite wpar_double by (apply Z.mul_nonneg_nonneg; [lia|apply Z.pow_nonneg; lia]). exact IH.
Qed.
Lemma wpar_pmul q es : 0 <= q -> Forall (fun e => 0 <= e) es -> wpar (pmul q es) = (Nat.odd (length es) && wpar q)%bool.
Proof.
  intros Hq. induction 1 as [|e es He H IH]; cbn [pmul length]; [reflexivity|].
  rewrite wpar_lxor, wpar_shiftl, IH by first [lia | apply shiftl_nn; lia | apply pmul_nn; lia].
  rewrite Nat.odd_succ, <- Nat.negb_odd. destruct (Nat.odd (length es)), (wpar q); reflexivity.
Qed.
Lemma wpar_xpat ps : wpar (xpat ps) = Nat.odd (length ps).
Proof.
  unfold xpat. induction ps as [|p ps IH]; cbn [map fold_right length]; [reflexivity|].
  assert (0 <= fold_right Z.lxor 0 (map (fun p => 2^Z.of_nat p) ps)) by apply xpat_nn.
  rewrite wpar_lxor, IH by (try (apply Z.pow_nonneg); lia).
  replace (2^Z.of_nat p) with (Z.shiftl 1 (Z.of_nat p)) by (rewrite Z.shiftl_mul_pow2; lia).
  rewrite wpar_shiftl by lia. rewrite Nat.odd_succ, <- Nat.negb_odd. destruct (Nat.odd (length ps)); reflexivity.
Qed.

Lemma odd_detected ps q : Nat.odd (length P) = false -> Nat.odd (length ps) = true -> 0 <= q -> xpat ps <> pmul q P.
Proof.
  intros HP' Ho Hq E. apply (f_equal wpar) in E.
  rewrite wpar_xpat, wpar_pmul, HP', Ho in E by (auto; exact (P_nn w mid Hw Hmid)). discriminate.
Qed.

(** Three flipped bits: a search over all residues. *)
Definition xstep (r : Z) : Z := let s := Z.shiftl r 1 in if Z.testbit s w then Z.lxor s (2 * poly + 1) else s.
Fixpoint no_triple (n : nat) (r : Z) (seen : PositiveSet.t) : bool :=
  match n with
  | O => true
  | S n' => (0 <? r) && negb (PositiveSet.mem (Z.to_pos (Z.lxor r 1)) seen) &&
            no_triple n' (xstep r) (PositiveSet.add (Z.to_pos r) seen)
  end.

Lemma xstep_spec r : 0 <= r < 2^w -> 0 <= xstep r < 2^w /\ cong w mid (Z.shiftl r 1) (xstep r).
Proof.
  intros Hr. unfold xstep. cbv zeta. set (s := Z.shiftl r 1).
  assert (Hs : 0 <= s < 2^(w+1)). { unfold s. rewrite Z.shiftl_mul_pow2, Z.pow_add_r by lia. change (2^1) with 2. lia. }
  assert (HPr : 0 <= 2 * poly + 1 < 2^(w + 1)) by (rewrite Z.pow_add_r by lia; change (2^1) with 2; lia).
  assert (HPw : Z.testbit (2 * poly + 1) w = true).
  { pose proof (pmul_top w mid Hw Hmid 1 ltac:(lia)) as T. fold P in T. rewrite HP in T. exact T. }
  destruct (Z.testbit s w) eqn:E.
  - split.
    + split; [apply xnn; lia|]. apply lt_pow_bits; [lia|apply xnn; lia|]. intros i Hi. rewrite Z.lxor_spec.
      destruct (Z.eq_dec i w) as [->|]; [rewrite E, HPw; reflexivity|].
      rewrite (high_bits s (w+1)), (high_bits (2 * poly + 1) (w+1)) by lia. reflexivity.
    + exists 1. split; [lia|]. fold P. rewrite HP. xsolve.
  - split; [|apply cong_refl]. split; [lia|]. apply lt_pow_bits; [lia..|]. intros i Hi.
    destruct (Z.eq_dec i w) as [->|]; [auto|]. apply (high_bits s (w+1)); lia.
Qed.

(** The residue of x^(i+1). *)
Definition xres (i : nat) : Z := Nat.iter i xstep 2.
Lemma xres_S i : xres (S i) = xstep (xres i).
Proof. reflexivity. Qed.
Lemma xres_spec i : 0 <= xres i < 2^w /\ cong w mid (2^Z.of_nat (S i)) (xres i).
Proof.
  induction i as [|i [R C]].
  - split; [|apply cong_refl]. split; [discriminate|]. change (2^1 < 2^w). apply Z.pow_lt_mono_r; lia.
  - rewrite xres_S. destruct (xstep_spec _ R) as [R' C']. split; [auto|].
    eapply cong_trans; [|exact C']. replace (Z.of_nat (S (S i))) with (Z.of_nat (S i) + 1) by lia.
    rewrite Z.pow_add_r, <- Z.shiftl_mul_pow2 by lia. apply cong_shiftl; auto; lia.
Qed.

Lemma no_triple_sound n : forall j seen, no_triple n (xres j) seen = true ->
  (forall i, (i < j)%nat -> PositiveSet.mem (Z.to_pos (xres i)) seen = true) ->
  forall a b, (a < b)%nat -> (b < j + n)%nat -> (j <= b)%nat -> Z.lxor (xres b) 1 <> xres a.
Proof.
  induction n as [|n IH]; intros j seen H Hs a b Hab Hb Hj; [lia|]. cbn [no_triple] in H.
  apply andb_prop in H as [H H3]. apply andb_prop in H as [H1 H2].
  rewrite <- xres_S in H3. destruct (Nat.eq_dec b j) as [->|].
  - intros E. rewrite E, Hs in H2 by lia. discriminate.
  - apply (IH (S j) _ H3); [|lia..]. intros i Hi. rewrite PositiveSet.mem_spec, PositiveSet.add_spec.
    destruct (Nat.eq_dec i j) as [->|]; [left; reflexivity|right]. apply PositiveSet.mem_spec, Hs. lia.
Qed.

Lemma three_detected n i j k q : no_triple n 2 PositiveSet.empty = true -> (i < j < k)%nat -> (k - i <= n)%nat -> 0 <= q ->
  xpat [i; j; k] <> pmul q P.
Proof.
  intros H L Hn Hq E. unfold xpat in E. cbn [map fold_right] in E. rewrite Z.lxor_0_r in E.
  assert (C : cong w mid (Z.lxor (2^Z.of_nat (k - i)) 1) (2^Z.of_nat (j - i))).
  { apply (cong_unshift w mid Hw Hmid _ _ (Z.of_nat i)); [lia|]. exists q. split; [auto|]. fold P. rewrite <- E.
    rewrite Z.shiftl_lxor, !Z.shiftl_mul_pow2, <- !Z.pow_add_r by lia. rewrite Z.mul_1_l.
    replace (Z.of_nat (k - i) + Z.of_nat i) with (Z.of_nat k) by lia.
    replace (Z.of_nat (j - i) + Z.of_nat i) with (Z.of_nat j) by lia. xsolve. }
  apply (no_triple_sound n 0 _ H) with (a := (j - i - 1)%nat) (b := (k - i - 1)%nat); [lia..|].
  destruct (xres_spec (k - i - 1)) as [R1 C1]. destruct (xres_spec (j - i - 1)) as [R2 C2].
  replace (S (k - i - 1)) with (k - i)%nat in C1 by lia. replace (S (j - i - 1)) with (j - i)%nat in C2 by lia.
  apply (cong_eq w mid Hw Hmid); [apply xlt; [lia|auto|split; [lia|apply Z.pow_gt_1; lia]]|auto|].
  eapply cong_trans; [|exact C2]. eapply cong_trans; [|exact C].
  apply cong_lxor; [apply cong_sym; auto|apply cong_refl].
Qed.
End Std.

(** ** Primality by trial division *)
Fixpoint no_div (fuel : nat) (d p : Z) : bool :=
  match fuel with O => true | S f => negb (p mod d =? 0) && no_div f (d + 1) p end.
Lemma no_div_spec fuel : forall d p, no_div fuel d p = true -> forall n, d <= n < d + Z.of_nat fuel -> p mod n <> 0.
Proof.
  induction fuel as [|f IH]; intros d p H n Hn; [lia|]. cbn [no_div] in H. apply andb_prop in H as [H1 H2].
  destruct (Z.eq_dec n d) as [->|]; [lia|]. apply (IH (d + 1) p H2). lia.
Qed.
Definition prime_check (p : Z) : bool := (1 <? p) && no_div (Z.to_nat (p - 2)) 2 p.
Lemma prime_check_spec p : prime_check p = true -> prime p.
Proof.
  intros H. apply andb_prop in H as [H1 H2]. apply prime_alt. split; [lia|].
  intros n Hn D. apply (no_div_spec _ _ _ H2 n); [lia|]. apply Z.mod_divide; [lia|exact D].
Qed.
