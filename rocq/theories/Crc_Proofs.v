(** Lemmas about the reflected CRC register. *)
From Coq Require Import ZArith List Bool Lia ZifyBool ZifyNat Znumtheory.
From Verif Require Import GoInt Crc_Model Crc_Spec.
Import ListNotations.
Local Open Scope Z_scope.

Ltac xsolve := apply Z.bits_inj'; let i := fresh "i" in intros i ?; rewrite ?Z.lxor_spec, ?Z.bits_0;
  repeat match goal with |- context [Z.testbit ?x i] => destruct (Z.testbit x i); cbn [xorb] end; reflexivity.

Lemma xnn a b : 0 <= a -> 0 <= b -> 0 <= Z.lxor a b.
Proof. intros. apply Z.lxor_nonneg. lia. Qed.

Lemma lt_pow_bits a w : 0 <= w -> 0 <= a -> (forall i, w <= i -> Z.testbit a i = false) -> a < 2^w.
Proof.
  intros Hw Ha H. destruct (Z.eq_dec a 0) as [->|]; [apply Z.pow_pos_nonneg; lia|].
  apply Z.log2_lt_pow2; [lia|]. destruct (Z_lt_ge_dec (Z.log2 a) w); [lia|].
  pose proof (Z.bit_log2 a ltac:(lia)). rewrite H in H0 by lia. discriminate.
Qed.

Lemma high_bits a w i : 0 <= a < 2^w -> w <= i -> Z.testbit a i = false.
Proof.
  intros Ha Hi. destruct (Z.eq_dec a 0) as [->|]; [apply Z.bits_0|].
  apply Z.bits_above_log2; [lia|]. assert (Z.log2 a < w) by (apply Z.log2_lt_pow2; lia). lia.
Qed.

Lemma xlt a b w : 0 <= w -> 0 <= a < 2^w -> 0 <= b < 2^w -> 0 <= Z.lxor a b < 2^w.
Proof.
  intros Hw Ha Hb. split; [apply xnn; lia|]. apply lt_pow_bits; [lia|apply xnn; lia|].
  intros i Hi. rewrite Z.lxor_spec, (high_bits a w i), (high_bits b w i) by lia. reflexivity.
Qed.

Lemma shiftl_nn a k : 0 <= a -> 0 <= Z.shiftl a k.
Proof. rewrite Z.shiftl_nonneg. auto. Qed.

(** ** Products *)
Lemma pmul_lxor a b es : pmul (Z.lxor a b) es = Z.lxor (pmul a es) (pmul b es).
Proof.
  induction es as [|e es IH]; cbn [pmul]; [reflexivity|]. rewrite IH, Z.shiftl_lxor. xsolve.
Qed.
Lemma pmul_shiftl q k es : 0 <= k -> Forall (fun e => 0 <= e) es -> pmul (Z.shiftl q k) es = Z.shiftl (pmul q es) k.
Proof.
  intros Hk. induction 1 as [|e es He H IH]; cbn [pmul].
  - rewrite Z.shiftl_0_l. reflexivity.
  - rewrite IH, Z.shiftl_lxor, !Z.shiftl_shiftl by lia. f_equal. f_equal. lia.
Qed.
Lemma pmul_nn q es : 0 <= q -> 0 <= pmul q es.
Proof. intros. induction es; cbn [pmul]; [lia|]. apply xnn; [apply shiftl_nn; lia|auto]. Qed.
Lemma pmul_0 es : pmul 0 es = 0.
Proof. induction es as [|e es IH]; cbn [pmul]; [reflexivity|]. rewrite IH, Z.shiftl_0_l. reflexivity. Qed.
Lemma pmul_app q a b : pmul q (a ++ b) = Z.lxor (pmul q a) (pmul q b).
Proof. induction a as [|e a IH]; cbn [pmul app]; [rewrite Z.lxor_0_l; auto|]. rewrite IH, Z.lxor_assoc. reflexivity. Qed.

Lemma pmul_testbit_none q es i : 0 <= i -> (forall e, In e es -> Z.testbit q (i - e) = false) ->
  Z.testbit (pmul q es) i = false.
Proof.
  intros Hi. induction es as [|e es IH]; intros H; cbn [pmul]; [apply Z.bits_0|].
  rewrite Z.lxor_spec, Z.shiftl_spec, H, IH by (auto using in_eq; intros; auto using in_cons). reflexivity.
Qed.

(** Squaring spreads the bits. *)
Fixpoint sqp (p : positive) : positive :=
  match p with xH => xH | xO p => xO (xO (sqp p)) | xI p => xI (xO (sqp p)) end.
Definition sq (a : Z) : Z := match a with Zpos p => Zpos (sqp p) | _ => 0 end.

Lemma sq_double a : 0 <= a -> sq (2 * a) = 4 * sq a.
Proof. intros. destruct a; [reflexivity|reflexivity|lia]. Qed.

Lemma sq_succ_double a : 0 <= a -> sq (2 * a + 1) = 4 * sq a + 1.
Proof. intros. destruct a; [reflexivity|reflexivity|lia]. Qed.

Lemma sq_nn a : 0 <= sq a.
Proof. destruct a; cbn; lia. Qed.

Lemma sq_lxor_pos n : forall a b, 0 <= a < 2^Z.of_nat n -> 0 <= b < 2^Z.of_nat n -> sq (Z.lxor a b) = Z.lxor (sq a) (sq b).
Proof.
  induction n as [|n IH]; intros a b Ha Hb.
  - change (2 ^ Z.of_nat 0) with 1 in *. replace a with 0 by lia. replace b with 0 by lia. reflexivity.
  - replace (Z.of_nat (S n)) with (Z.of_nat n + 1) in * by lia. rewrite Z.pow_add_r in Ha, Hb by lia. change (2^1) with 2 in *.
    assert (X : forall z, 0 <= z < 2 ^ Z.of_nat n * 2 -> exists y (c : bool), z = 2 * y + Z.b2z c /\ 0 <= y < 2 ^ Z.of_nat n).
    { intros z Hz. exists (Z.div2 z), (Z.odd z). pose proof (Z.div2_odd z). destruct (Z.odd z); cbn [Z.b2z] in *; lia. }
    destruct (X a Ha) as (a' & ca & -> & Ha'). destruct (X b Hb) as (b' & cb & -> & Hb').
    assert (Y : forall x y c d, Z.lxor (2 * x + Z.b2z c) (2 * y + Z.b2z d) = 2 * Z.lxor x y + Z.b2z (xorb c d)).
    { intros x y c d. apply Z.bits_inj'. intros i Hi. rewrite Z.lxor_spec. destruct (Z.eq_dec i 0) as [->|].
      - rewrite !Z.testbit_0_r. reflexivity.
      - replace i with (Z.succ (i - 1)) by lia. rewrite !Z.testbit_succ_r, Z.lxor_spec by lia. reflexivity. }
    assert (S2 : forall z c, 0 <= z -> sq (2 * z + Z.b2z c) = 2 * (2 * sq z) + Z.b2z c).
    { intros z [] Hz; cbn [Z.b2z]; [rewrite sq_succ_double|rewrite Z.add_0_r, sq_double]; lia. }
    assert (0 <= Z.lxor a' b') by (apply xnn; lia).
    rewrite Y, !S2, Y, (IH a' b') by lia. f_equal. f_equal.
    replace (2 * sq a') with (2 * sq a' + Z.b2z false) by (cbn; lia).
    replace (2 * sq b') with (2 * sq b' + Z.b2z false) by (cbn; lia). rewrite Y. cbn; lia.
Qed.

Lemma sq_lxor a b : 0 <= a -> 0 <= b -> sq (Z.lxor a b) = Z.lxor (sq a) (sq b).
Proof.
  intros Ha Hb. apply (sq_lxor_pos (Z.to_nat (a + b + 1))); (split; [lia|]).
  all: rewrite Z2Nat.id by lia; pose proof (Z.pow_gt_lin_r 2 (a + b + 1)); lia.
Qed.

Lemma sq_shiftl a k : 0 <= a -> 0 <= k -> sq (Z.shiftl a k) = Z.shiftl (sq a) (2 * k).
Proof.
  intros Ha Hk. rewrite !Z.shiftl_mul_pow2 by lia. revert k Hk. apply natlike_ind.
  - rewrite !Z.mul_1_r. reflexivity.
  - intros k Hk IH. rewrite Z.pow_succ_r by lia. replace (a * (2 * 2^k)) with (2 * (a * 2^k)) by lia.
    rewrite sq_double by (apply Z.mul_nonneg_nonneg; [lia|apply Z.pow_nonneg; lia]). rewrite IH.
    replace (2 * Z.succ k) with (2 * k + 2) by lia. rewrite Z.pow_add_r by lia. change (2^2) with 4. lia.
Qed.

Lemma sq_pmul q es : 0 <= q -> Forall (fun e => 0 <= e) es -> sq (pmul q es) = pmul (sq q) (map (Z.mul 2) es).
Proof.
  intros Hq. induction 1 as [|e es He H IH]; cbn [pmul map]; [reflexivity|].
  rewrite sq_lxor, sq_shiftl, IH by first [lia | apply shiftl_nn; lia | apply pmul_nn; lia]. reflexivity.
Qed.

Lemma pmul_twice q es : Forall (fun e => 0 <= e) es -> pmul (pmul q es) es = pmul q (map (Z.mul 2) es).
Proof.
  induction 1 as [|e es He H IH]; cbn [pmul map]; [reflexivity|].
  rewrite pmul_lxor, IH, pmul_shiftl, Z.shiftl_lxor, Z.shiftl_shiftl by auto.
  replace (e + e) with (2 * e) by lia. xsolve.
Qed.

Lemma sq_pow2 k : 0 <= k -> sq (2^k) = 2^(2 * k).
Proof.
  intros. replace (2^k) with (Z.shiftl 1 k) by (rewrite Z.shiftl_mul_pow2; lia).
  rewrite sq_shiftl by lia. change (sq 1) with 1. rewrite Z.shiftl_mul_pow2; lia.
Qed.

(** ** The register *)
Section Bit.
Variable poly : Z.
(** Running the register [k] bits on a number that holds both the register and all of the message. *)
Notation it k c := (Nat.iter k (tab_bit poly) c).

Lemma tab_bit_alt c : tab_bit poly c = if Z.odd c then Z.lxor (Z.shiftr c 1) poly else Z.shiftr c 1.
Proof.
  unfold tab_bit. change 1 with (Z.ones 1) at 1. rewrite Z.land_ones by lia. change (2^1) with 2.
  rewrite Zmod_odd. destruct (Z.odd c); reflexivity.
Qed.

Lemma tab_bit_lxor a b : tab_bit poly (Z.lxor a b) = Z.lxor (tab_bit poly a) (tab_bit poly b).
Proof.
  rewrite !tab_bit_alt. rewrite <- !Z.bit0_odd, Z.lxor_spec, Z.shiftr_lxor.
  destruct (Z.testbit a 0), (Z.testbit b 0); cbn [xorb]; xsolve.
Qed.

Lemma tab_bit_double a : tab_bit poly (Z.shiftl a 1) = a.
Proof.
  rewrite tab_bit_alt, <- Z.bit0_odd, Z.shiftl_spec, Z.testbit_neg_r by lia.
  rewrite Z.shiftr_shiftl_l by lia. change (1 - 1) with 0. apply Z.shiftl_0_r.
Qed.

Lemma it_S k c : it (S k) c = it k (tab_bit poly c).
Proof. induction k as [|k IH]; [reflexivity|]. change (tab_bit poly (it (S k) c) = tab_bit poly (it k (tab_bit poly c))). rewrite IH. reflexivity. Qed.

Lemma it_add a b c : it (a + b) c = it a (it b c).
Proof. induction a as [|a IH]; [reflexivity|]. change (tab_bit poly (it (a + b) c) = tab_bit poly (it a (it b c))). rewrite IH. reflexivity. Qed.

Lemma it_lxor k a b : it k (Z.lxor a b) = Z.lxor (it k a) (it k b).
Proof. induction k as [|k IH]; [reflexivity|]. change (tab_bit poly (it k (Z.lxor a b)) = Z.lxor (tab_bit poly (it k a)) (tab_bit poly (it k b))). rewrite IH. apply tab_bit_lxor. Qed.

Lemma it_shift k a : it k (Z.shiftl a (Z.of_nat k)) = a.
Proof.
  revert a. induction k as [|k IH]; intros a; [apply Z.shiftl_0_r|].
  rewrite it_S. replace (Z.of_nat (S k)) with (Z.of_nat k + 1) by lia.
  rewrite <- Z.shiftl_shiftl, tab_bit_double by lia. apply IH.
Qed.

Lemma it_shift_le k j a : (j <= k)%nat -> it k (Z.shiftl a (Z.of_nat j)) = it (k - j) a.
Proof.
  intros. transitivity (it ((k - j) + j) (Z.shiftl a (Z.of_nat j))); [f_equal; lia|].
  rewrite it_add, it_shift. reflexivity.
Qed.

Lemma it_0 k : it k 0 = 0.
Proof. induction k as [|k IH]; [reflexivity|]. change (tab_bit poly (it k 0) = 0). rewrite IH. reflexivity. Qed.
End Bit.

Section Reg.
Variables (w poly : Z) (mid : list Z).
(** The reversed generator, with its x^w written: exponents 0, some between, and w. *)
Let P := 0 :: mid ++ [w].
Notation it k c := (Nat.iter k (tab_bit poly) c).
Hypothesis Hw : 8 <= w.
Hypothesis Hmid : Forall (fun e => 0 < e < w) mid.
Hypothesis Hpoly : 0 <= poly < 2^w.
Hypothesis HP : pmul 1 P = 2 * poly + 1.

Lemma P_nn : Forall (fun e => 0 <= e) P.
Proof.
  constructor; [lia|]. apply Forall_app. split; [|constructor; [lia|constructor]].
  eapply Forall_impl; [|exact Hmid]. cbn. intros. lia.
Qed.


Lemma tab_bit_nn c : 0 <= c -> 0 <= tab_bit poly c.
Proof.
  intros. rewrite tab_bit_alt. assert (0 <= Z.shiftr c 1) by (apply Z.shiftr_nonneg; lia).
  destruct (Z.odd c); [apply xnn; lia|lia].
Qed.



(** Twice a step subtracts the generator or nothing. *)
Lemma tab_bit_spec c : Z.shiftl (tab_bit poly c) 1 = Z.lxor c (pmul (Z.b2z (Z.odd c)) P).
Proof.
  rewrite tab_bit_alt. destruct (Z.odd c) eqn:E; cbn [Z.b2z].
  - rewrite HP, Z.shiftl_lxor. replace (2 * poly + 1) with (Z.lxor (Z.shiftl poly 1) 1).
    + replace c with (Z.lxor (Z.shiftl (Z.shiftr c 1) 1) 1) at 2; [xsolve|].
      apply Z.bits_inj'. intros i Hi. rewrite Z.lxor_spec. destruct (Z.eq_dec i 0) as [->|].
      * rewrite Z.shiftl_spec, Z.testbit_neg_r, (Z.bit0_odd c), E by lia. reflexivity.
      * rewrite Z.shiftl_spec, Z.shiftr_spec by lia. replace (i - 1 + 1) with i by lia.
        rewrite (high_bits 1 1 i) by lia. apply xorb_false_r.
    + apply Z.bits_inj'. intros i Hi. rewrite Z.lxor_spec. destruct (Z.eq_dec i 0) as [->|].
      * rewrite Z.shiftl_spec, Z.testbit_neg_r by lia. rewrite Z.testbit_odd_0. reflexivity.
      * rewrite Z.shiftl_spec, (high_bits 1 1 i) by lia.
        replace i with (Z.succ (i - 1)) at 2 by lia. rewrite Z.testbit_odd_succ by lia. apply xorb_false_r.
  - rewrite pmul_0, Z.lxor_0_r. apply Z.bits_inj'. intros i Hi. destruct (Z.eq_dec i 0) as [->|].
    + rewrite Z.shiftl_spec, Z.testbit_neg_r, Z.bit0_odd, E by lia. reflexivity.
    + rewrite Z.shiftl_spec, Z.shiftr_spec by lia. f_equal. lia.
Qed.

Lemma tab_bit_range v c : w <= v -> 0 <= c < 2^(v + 1) -> 0 <= tab_bit poly c < 2^v.
Proof.
  intros Hv Hc. assert (0 <= Z.shiftr c 1 < 2^v).
  { rewrite Z.shiftr_div_pow2 by lia. change (2^1) with 2. rewrite Z.pow_add_r in Hc by lia. change (2^1) with 2 in Hc.
    split; [apply Z.div_pos; lia|apply Z.div_lt_upper_bound; lia]. }
  assert (2^w <= 2^v) by (apply Z.pow_le_mono_r; lia).
  rewrite tab_bit_alt. destruct (Z.odd c); [apply xlt; lia|lia].
Qed.


Lemma it_nn k c : 0 <= c -> 0 <= it k c.
Proof. intros. induction k; [auto|]. apply tab_bit_nn. auto. Qed.

Lemma it_range k c : 0 <= c < 2^(w + Z.of_nat k) -> 0 <= it k c < 2^w.
Proof.
  revert c. induction k as [|k IH]; intros c Hc; [replace (w + Z.of_nat 0) with w in Hc by lia; auto|].
  rewrite it_S. apply IH. apply tab_bit_range; [lia|]. replace (w + Z.of_nat k + 1) with (w + Z.of_nat (S k)) by lia. auto.
Qed.

Lemma it_spec k : forall c, 0 <= c ->
  exists q, 0 <= q < 2^(Z.of_nat k) /\ Z.shiftl (it k c) (Z.of_nat k) = Z.lxor c (pmul q P).
Proof.
  induction k as [|k IH]; intros c Hc.
  - exists 0. rewrite pmul_0, Z.lxor_0_r. split; [lia|]. apply Z.shiftl_0_r.
  - destruct (IH c Hc) as [q [Hq E]]. set (r := it k c) in *.
    exists (Z.lxor q (Z.shiftl (Z.b2z (Z.odd r)) (Z.of_nat k))). split.
    + apply xlt; [lia| |].
      * replace (Z.of_nat (S k)) with (Z.of_nat k + 1) by lia. rewrite Z.pow_add_r by lia. change (2^1) with 2.
        assert (0 < 2^Z.of_nat k) by (apply Z.pow_pos_nonneg; lia). lia.
      * replace (Z.of_nat (S k)) with (Z.of_nat k + 1) by lia. rewrite Z.pow_add_r by lia. change (2^1) with 2.
        assert (0 < 2^Z.of_nat k) by (apply Z.pow_pos_nonneg; lia).
        rewrite Z.shiftl_mul_pow2 by lia. destruct (Z.odd r); cbn [Z.b2z]; lia.
    + change (it (S k) c) with (tab_bit poly r).
      replace (Z.of_nat (S k)) with (1 + Z.of_nat k) by lia.
      rewrite <- Z.shiftl_shiftl, tab_bit_spec, Z.shiftl_lxor, E by lia.
      rewrite pmul_lxor, pmul_shiftl by (lia || exact P_nn). apply Z.lxor_assoc.
Qed.

(** ** Multiples of the generator *)
Lemma pmul_bit0 q : Z.testbit (pmul q P) 0 = Z.testbit q 0.
Proof.
  unfold P. cbn [pmul]. rewrite Z.lxor_spec, Z.shiftl_0_r, pmul_testbit_none; [apply xorb_false_r|lia|].
  intros e He. rewrite Z.testbit_neg_r; [reflexivity|].
  apply in_app_or in He as [He|[<-|[]]]; [|lia]. rewrite Forall_forall in Hmid. apply Hmid in He. lia.
Qed.

Lemma pmul_top q : 0 < q -> Z.testbit (pmul q P) (Z.log2 q + w) = true.
Proof.
  intros Hq. pose proof (Z.log2_nonneg q). unfold P. change (0 :: mid ++ [w]) with ((0 :: mid) ++ [w]).
  rewrite pmul_app, Z.lxor_spec, pmul_testbit_none; [|lia|].
  - cbn [pmul]. rewrite Z.lxor_0_r, Z.shiftl_spec by lia. replace (Z.log2 q + w - w) with (Z.log2 q) by lia.
    rewrite Z.bit_log2 by lia. reflexivity.
  - intros e He. apply Z.bits_above_log2; [lia|]. destruct He as [<-|He]; [lia|].
    rewrite Forall_forall in Hmid. apply Hmid in He. lia.
Qed.

Lemma pmul_small q : 0 <= q -> pmul q P < 2^w -> q = 0.
Proof.
  intros Hq H. destruct (Z.eq_dec q 0) as [|Hn]; auto. exfalso.
  pose proof (pmul_top q ltac:(lia)) as T. pose proof (Z.log2_nonneg q).
  rewrite (high_bits _ w) in T; [discriminate| |lia]. split; [apply pmul_nn|]; lia.
Qed.

Lemma pmul_unshift k : forall q e, 0 <= q -> pmul q P = Z.shiftl e (Z.of_nat k) -> exists q', 0 <= q' /\ pmul q' P = e.
Proof.
  induction k as [|k IH]; intros q e Hq E.
  - exists q. rewrite Z.shiftl_0_r in E. auto.
  - assert (Hodd : Z.odd q = false).
    { rewrite <- Z.bit0_odd, <- pmul_bit0, E, Z.shiftl_spec, Z.testbit_neg_r by lia. reflexivity. }
    assert (Hq2 : q = Z.shiftl (Z.div2 q) 1).
    { rewrite Z.shiftl_mul_pow2 by lia. pose proof (Z.div2_odd q) as D. rewrite Hodd in D. cbn [Z.b2z] in D.
      change (2^1) with 2. lia. }
    apply (IH (Z.div2 q) e); [apply Z.div2_nonneg; lia|].
    rewrite Hq2, pmul_shiftl in E by (lia || exact P_nn).
    replace (Z.of_nat (S k)) with (Z.of_nat k + 1) in E by lia. rewrite <- Z.shiftl_shiftl in E by lia.
    rewrite !(Z.shiftl_mul_pow2 _ 1) in E by lia. change (2^1) with 2 in E. lia.
Qed.

Lemma burst_no_multiple q e k : 0 <= q -> 0 < e < 2^w -> pmul q P <> Z.shiftl e (Z.of_nat k).
Proof.
  intros Hq He E. destruct (pmul_unshift _ _ _ Hq E) as [q' [Hq' E']].
  rewrite (pmul_small q') in E' by lia. rewrite pmul_0 in E'. lia.
Qed.

(** ** Congruence modulo the generator *)
Definition cong (a b : Z) : Prop := exists q, 0 <= q /\ Z.lxor a b = pmul q P.

Lemma cong_refl a : cong a a.
Proof. exists 0. rewrite Z.lxor_nilpotent, pmul_0. split; [lia|reflexivity]. Qed.
Lemma cong_sym a b : cong a b -> cong b a.
Proof. intros [q [Hq E]]. exists q. rewrite Z.lxor_comm. auto. Qed.
Lemma cong_trans a b c : cong a b -> cong b c -> cong a c.
Proof.
  intros [q [Hq E]] [q' [Hq' E']]. exists (Z.lxor q q'). split; [apply xnn; lia|].
  rewrite pmul_lxor, <- E, <- E'. xsolve.
Qed.
Lemma cong_lxor a b c d : cong a b -> cong c d -> cong (Z.lxor a c) (Z.lxor b d).
Proof.
  intros [q [Hq E]] [q' [Hq' E']]. exists (Z.lxor q q'). split; [apply xnn; lia|].
  rewrite pmul_lxor, <- E, <- E'. xsolve.
Qed.
Lemma cong_shiftl a b k : 0 <= k -> cong a b -> cong (Z.shiftl a k) (Z.shiftl b k).
Proof.
  intros Hk [q [Hq E]]. exists (Z.shiftl q k). split; [apply shiftl_nn; lia|].
  rewrite pmul_shiftl, <- E, Z.shiftl_lxor by (lia || exact P_nn). reflexivity.
Qed.
Lemma cong_unshift a b k : 0 <= k -> cong (Z.shiftl a k) (Z.shiftl b k) -> cong a b.
Proof.
  intros Hk [q [Hq E]]. rewrite <- Z.shiftl_lxor in E. symmetry in E. rewrite <- (Z2Nat.id k) in E by lia.
  destruct (pmul_unshift _ _ _ Hq E) as [q' [Hq' E']]. exists q'. auto.
Qed.
Lemma cong_eq a b : 0 <= a < 2^w -> 0 <= b < 2^w -> cong a b -> a = b.
Proof.
  intros Ha Hb [q [Hq E]]. pose proof (xlt a b w ltac:(lia) Ha Hb).
  rewrite (pmul_small q) in E by lia. rewrite pmul_0 in E. apply Z.lxor_eq. auto.
Qed.








Lemma cong_sq a b : 0 <= a -> 0 <= b -> cong a b -> cong (sq a) (sq b).
Proof.
  intros Ha Hb [q [Hq E]]. exists (pmul (sq q) P). split; [apply pmul_nn, sq_nn|].
  rewrite <- sq_lxor, E, sq_pmul, pmul_twice by (auto using P_nn). reflexivity.
Qed.

(** ** Powers of x *)
(** Long division, remainder only. *)
Fixpoint red (fuel : nat) (a : Z) : Z :=
  match fuel with
  | O => a
  | S f => if a <? 2^w then a else red f (Z.lxor a (Z.shiftl (2 * poly + 1) (Z.log2 a - w)))
  end.
Lemma red_cong fuel : forall a, 0 <= a -> cong a (red fuel a) /\ 0 <= red fuel a.
Proof.
  induction fuel as [|f IH]; intros a Ha; cbn [red]; [split; [apply cong_refl|lia]|].
  destruct (a <? 2^w) eqn:E; [split; [apply cong_refl|lia]|].
  apply Z.ltb_ge in E. assert (0 < 2^w) by (apply Z.pow_pos_nonneg; lia).
  assert (w <= Z.log2 a) by (apply Z.log2_le_pow2; lia).
  destruct (IH (Z.lxor a (Z.shiftl (2 * poly + 1) (Z.log2 a - w)))) as [C N].
  { apply xnn; [lia|]. apply shiftl_nn. lia. }
  split; [|exact N]. eapply cong_trans; [|exact C].
  exists (Z.shiftl 1 (Z.log2 a - w)). split; [apply shiftl_nn; lia|].
  rewrite pmul_shiftl, HP by (lia || exact P_nn). xsolve.
Qed.

Fixpoint powx (p : positive) : Z :=
  let f := Z.to_nat (w + 1) in
  match p with
  | xH => 2
  | xO p => red f (sq (powx p))
  | xI p => red f (Z.shiftl (sq (powx p)) 1)
  end.


Lemma powx_spec p : cong (2^Zpos p) (powx p) /\ 0 <= powx p.
Proof.
  induction p as [p [C N]|p [C N]|]; cbn [powx].
  - assert (0 <= Z.shiftl (sq (powx p)) 1) by (apply shiftl_nn, sq_nn).
    destruct (red_cong (Z.to_nat (w + 1)) (Z.shiftl (sq (powx p)) 1) H) as [C' N']. split; [|exact N'].
    eapply cong_trans; [|exact C']. replace (Zpos (xI p)) with (2 * Zpos p + 1) by lia.
    rewrite Z.pow_add_r, <- sq_pow2 by lia. rewrite <- Z.shiftl_mul_pow2 by lia.
    apply cong_shiftl; [lia|]. apply cong_sq; [apply Z.pow_nonneg; lia|lia|auto].
  - destruct (red_cong (Z.to_nat (w + 1)) (sq (powx p)) (sq_nn _)) as [C' N']. split; [|exact N'].
    eapply cong_trans; [|exact C']. replace (Zpos (xO p)) with (2 * Zpos p) by lia.
    rewrite <- sq_pow2 by lia. apply cong_sq; [apply Z.pow_nonneg; lia|lia|auto].
  - split; [apply cong_refl|lia].
Qed.

Lemma one_lt : 0 <= 1 < 2^w.
Proof. split; [lia|]. apply Z.pow_gt_1; lia. Qed.

Lemma powx_not_one p : 0 <= powx p < 2^w -> powx p <> 1 -> ~ cong (2^Zpos p) 1.
Proof.
  intros Hr Hn C. apply Hn, cong_eq; [auto|apply one_lt|].
  eapply cong_trans; [apply cong_sym, powx_spec|exact C].
Qed.

(** The exponents [d] with x^d = 1 are closed under subtraction, hence under gcd. *)
Definition unit_exp (d : Z) : Prop := 0 <= d /\ cong (2^d) 1.

Lemma unit_sub a b : unit_exp a -> unit_exp b -> b <= a -> unit_exp (a - b).
Proof.
  intros [Ha Ca] [Hb Cb] L. split; [lia|].
  apply (cong_shiftl _ _ (a - b)) in Cb; [|lia].
  rewrite !Z.shiftl_mul_pow2, <- Z.pow_add_r in Cb by lia. replace (b + (a - b)) with a in Cb by lia.
  rewrite Z.mul_1_l in Cb. eapply cong_trans; [apply cong_sym, Cb|exact Ca].
Qed.
Lemma unit_mod a b : unit_exp a -> unit_exp b -> 0 < b -> unit_exp (a mod b).
Proof.
  intros Ha Hb P0. assert (Ha0 := proj1 Ha). revert Ha. pattern a. apply Z_lt_induction; [|exact Ha0].
  clear a Ha0. intros a IH Ha. destruct (Z_lt_ge_dec a b) as [L|L].
  - rewrite Z.mod_small; [auto|]. destruct Ha; lia.
  - replace (a mod b) with ((a - b) mod b).
    + apply IH; [lia|]. apply unit_sub; auto; lia.
    + rewrite <- (Z_mod_plus_full (a - b) 1 b). f_equal. lia.
Qed.
Lemma unit_gcd a b : unit_exp a -> unit_exp b -> unit_exp (Z.gcd a b).
Proof.
  intros Ha Hb. assert (Hb0 := proj1 Hb). revert a Ha Hb. pattern b. apply Z_lt_induction; [|exact Hb0].
  clear b Hb0. intros b IH a Ha Hb. destruct Hb as [Hb0 Hb']. destruct (Z.eq_dec b 0) as [->|].
  - rewrite Z.gcd_0_r, Z.abs_eq; [auto|apply Ha].
  - rewrite Z.gcd_comm, <- Z.gcd_mod by lia. rewrite Z.gcd_comm. pose proof (Z.mod_pos_bound a b ltac:(lia)).
    apply IH; [lia|split; auto|apply unit_mod; [auto|split; auto|lia]].
Qed.
Lemma unit_mul a k : 0 <= k -> unit_exp a -> unit_exp (k * a).
Proof.
  intros Hk Ha. revert k Hk. apply natlike_ind.
  - split; [lia|]. apply cong_refl.
  - intros k Hk [P0 C]. destruct Ha as [Pa Ca]. split; [lia|].
    replace (Z.succ k * a) with (k * a + a) by lia. rewrite Z.pow_add_r, <- Z.shiftl_mul_pow2 by lia.
    eapply cong_trans; [apply cong_shiftl; [lia|exact C]|]. rewrite Z.shiftl_mul_pow2, Z.mul_1_l by lia. exact Ca.
Qed.

(** If x^N = 1 and x^(N/p) <> 1 for every prime p of N, then N is the order. *)
Lemma order_exact (ps : list Z) : forall N, 0 < N -> unit_exp N -> Forall prime ps -> fold_right Z.mul 1 ps = N ->
  (forall p, In p ps -> ~ unit_exp (N / p)) -> forall d, 0 < d < N -> ~ unit_exp d.
Proof.
  intros N HN UN Hps HNeq Hno d Hd U.
  pose proof (unit_gcd _ _ UN U) as UG. set (g := Z.gcd N d) in *.
  assert (Hg : 0 < g). { pose proof (Z.gcd_nonneg N d). assert (g <> 0) by (unfold g; intros Z0; apply Z.gcd_eq_0 in Z0; lia). unfold g in *; lia. }
  destruct (Z.gcd_divide_l N d) as [m Hm]. fold g in Hm.
  assert (Hgd : g <= d). { apply Z.divide_pos_le; [lia|]. apply Z.gcd_divide_r. }
  assert (Hm1 : 1 < m) by nia.
  assert (E : exists p, In p ps /\ (p | m)).
  { assert (G : forall l, Forall prime l -> (forall p, In p l -> ~ (p | m)) -> Z.gcd m (fold_right Z.mul 1 l) = 1).
    { induction 1 as [|p l Hp Hl IH]; intros H; cbn [fold_right]; [apply Z.gcd_1_r|].
      apply Zgcd_1_rel_prime. apply rel_prime_mult.
      - apply rel_prime_sym. destruct (prime_rel_prime p Hp m) as [? ? ?]; [apply H, in_eq|]. constructor; auto.
      - apply Zgcd_1_rel_prime, IH. intros. apply H. right. auto. }
    destruct (Exists_dec (fun p => (p | m)) ps (fun p => Zdivide_dec p m)) as [X|X].
    - apply Exists_exists in X. destruct X as (p & ? & ?). eauto.
    - exfalso. assert (Z.gcd m N = 1).
      { rewrite <- HNeq. apply G; auto. intros p Hp D. apply X, Exists_exists. eauto. }
      rewrite Hm in H. rewrite Z.gcd_mul_diag_l in H by lia. lia. }
  destruct E as (p & Hp & [m' Em]). apply (Hno p Hp).
  assert (Pp : 0 < p). { rewrite Forall_forall in Hps. apply Hps in Hp. destruct Hp. lia. }
  replace (N / p) with (m' * g) by (apply Z.div_unique_exact; [lia|]; rewrite Hm, Em; lia).
  apply unit_mul; [nia|exact UG].
Qed.

Hypothesis Htop : Z.testbit poly (w - 1) = true.
(** Step back one bit. *)
Definition untab_bit (c : Z) : Z :=
  if Z.testbit c (w - 1) then 2 * Z.lxor c poly + 1 else 2 * c.

Lemma untab_range c : 0 <= c < 2^w -> 0 <= untab_bit c < 2^w.
Proof.
  intros Hc. unfold untab_bit. replace (2^w) with (2 * 2^(w-1)) by (rewrite <- Z.pow_succ_r by lia; f_equal; lia).
  destruct (Z.testbit c (w - 1)) eqn:E.
  - assert (0 <= Z.lxor c poly < 2^(w-1)); [|lia].
    split; [apply xnn; lia|]. apply lt_pow_bits; [lia|apply xnn; lia|]. intros i Hi. rewrite Z.lxor_spec.
    destruct (Z.eq_dec i (w-1)) as [->|]; [rewrite E, Htop; reflexivity|].
    rewrite !(high_bits _ w i) by lia. reflexivity.
  - assert (0 <= c < 2^(w-1)); [|lia]. split; [lia|]. apply lt_pow_bits; [lia..|]. intros i Hi.
    destruct (Z.eq_dec i (w-1)) as [->|]; [exact E|]. rewrite (high_bits _ w i) by lia. reflexivity.
Qed.

Lemma tab_untab c : 0 <= c -> tab_bit poly (untab_bit c) = c.
Proof.
  intros Hc. unfold untab_bit. rewrite tab_bit_alt. destruct (Z.testbit c (w - 1)).
  - rewrite Z.odd_add, Z.odd_mul. change (Z.odd 2) with false. change (Z.odd 1) with true. cbn [andb xorb].
    rewrite Z.shiftr_div_pow2 by lia. change (2^1) with 2.
    replace ((2 * Z.lxor c poly + 1) / 2) with (Z.lxor c poly) by (apply (Z.div_unique _ _ _ 1); lia). xsolve.
  - rewrite Z.odd_mul. change (Z.odd 2) with false. cbn [andb]. rewrite Z.shiftr_div_pow2 by lia. change (2^1) with 2.
    rewrite Z.mul_comm. apply Z.div_mul. lia.
Qed.

Lemma it_onto k c : 0 <= c < 2^w -> exists a, 0 <= a < 2^w /\ it k a = c.
Proof.
  revert c. induction k as [|k IH]; intros c Hc; [exists c; auto|].
  destruct (IH _ (untab_range c Hc)) as (a & Ha & E). exists a. split; [auto|].
  change (tab_bit poly (it k a) = c). rewrite E. apply tab_untab. lia.
Qed.

Lemma it_inj k a b : 0 <= a < 2^w -> 0 <= b < 2^w -> it k a = it k b -> a = b.
Proof.
  intros Ha Hb E. destruct (it_spec k a ltac:(lia)) as (q & Hq & E1). destruct (it_spec k b ltac:(lia)) as (q' & Hq' & E2).
  apply cong_eq; auto. exists (Z.lxor q q'). split; [apply xnn; lia|]. rewrite pmul_lxor.
  rewrite E in E1. rewrite E1 in E2.
  replace (Z.lxor a b) with (Z.lxor (Z.lxor (Z.lxor a (pmul q P)) (Z.lxor b (pmul q' P))) (Z.lxor (pmul q P) (pmul q' P))) by xsolve.
  rewrite E2, Z.lxor_nilpotent, Z.lxor_0_l. reflexivity.
Qed.
End Reg.
