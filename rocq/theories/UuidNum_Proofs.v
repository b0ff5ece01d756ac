(** Counting the outcomes in which numbers repeat. *)
From Coq Require Import ZArith List Bool Lia Reals Lra Permutation.
From Verif Require Import GoInt Num_Spec Num_Model Num_Proofs Uuid_Model Uuid_Spec Uuid_Proofs BloomRate_Spec BloomRate_Count UuidNum_Model UuidNum_Spec.
Import ListNotations.
Local Open Scope Z_scope.

Lemma repeats_nodup l : repeats l = false <-> NoDup l.
Proof.
  induction l as [|x l IH]; cbn [repeats]; [split; [constructor|reflexivity]|]. rewrite orb_false_iff, IH. split.
  - intros [H N]. constructor; [|exact N]. intros I. assert (has l x = true) as E by (apply has_in, I). unfold has in E. congruence.
  - intros N. inversion N as [|? ? N1 N2]; subst. split; [|exact N2]. destruct (existsb (Z.eqb x) l) eqn:E; [|reflexivity]. exfalso. apply N1, has_in, E.
Qed.
Lemma NoDup_map_on {A B} (f : A -> B) l : NoDup l -> (forall x y, In x l -> In y l -> f x = f y -> x = y) -> NoDup (map f l).
Proof.
  induction l as [|x l IH]; intros N H; [constructor|]. inversion N as [|? ? N1 N2]; subst. cbn [map]. constructor.
  - intros I. apply in_map_iff in I as (y & E & Hy). apply N1. rewrite (H x y); [exact Hy|left; reflexivity|right; exact Hy|congruence].
  - apply IH; [exact N2|]. intros a b Ha Hb. apply H; right; assumption.
Qed.
Lemma values_in M v : In v (values M) <-> 0 <= v < M.
Proof. unfold values. rewrite in_map_iff. split; [intros (n & <- & Hn); apply in_seq in Hn; lia|intros H; exists (Z.to_nat v); split; [lia|apply in_seq; lia]]. Qed.
(** As many places as numbers below [K]. *)
Lemma pigeon K (f : Z -> Z) l : 0 <= K -> NoDup l -> (forall x, In x l -> 0 <= f x < K) -> (forall x y, In x l -> In y l -> f x = f y -> x = y) -> Z.of_nat (length l) <= K.
Proof.
  intros HK N R I. rewrite <- (values_length K HK), <- (map_length f l). apply inj_le. apply NoDup_incl_length; [apply NoDup_map_on; assumption|].
  intros v Hv. apply in_map_iff in Hv as (x & <- & Hx). apply values_in, R, Hx.
Qed.
Lemma filter_len {A} (p : A -> bool) l : (length (filter p l) <= length l)%nat.
Proof. induction l as [|x l IH]; cbn; [lia|]. destruct (p x); cbn; lia. Qed.

(** ** Numbers below K * F, cut into K classes of F numbers each *)
Section classes.
Context (K F : Z) (key co : Z -> Z) (mk : Z -> Z -> Z) (HK : 0 < K) (HF : 0 < F).
Context (Hkey : forall v, 0 <= v < K * F -> 0 <= key v < K) (Hco : forall v, 0 <= v < K * F -> 0 <= co v < F).
Context (Hinj : forall v w, 0 <= v < K * F -> 0 <= w < K * F -> key v = key w -> co v = co w -> v = w).
Context (Hmk : forall k c, 0 <= k < K -> 0 <= c < F -> 0 <= mk k c < K * F /\ key (mk k c) = k /\ co (mk k c) = c).
Let M := K * F.
Lemma class_size k : 0 <= k < K -> sum (fun v => b2z (k =? key v)) (values M) = F.
Proof.
  intros Hk. rewrite <- sum_count. set (l := filter (fun v => k =? key v) (values M)). assert (0 <= M) as HM by (unfold M; nia). assert (forall v, In v l <-> 0 <= v < M /\ k = key v) as Hl by (intros v; unfold l; rewrite filter_In, values_in, Z.eqb_eq; tauto).
  assert (NoDup l) as Nl by apply NoDup_filter, values_nodup. apply Z.le_antisymm.
  - apply (pigeon F co); [lia|exact Nl|intros v Hv; apply Hl in Hv; apply Hco, Hv|]. intros x y Hx Hy. apply Hl in Hx as [H1 H2], Hy as [H3 H4]. apply Hinj; [exact H1|exact H3|congruence].
  - rewrite <- (values_length F) at 1 by lia. rewrite <- (map_length (mk k) (values F)). apply inj_le. apply NoDup_incl_length.
    + apply NoDup_map_on; [apply values_nodup|]. intros x y Hx Hy E. apply values_in in Hx, Hy. destruct (Hmk k x Hk Hx) as (_ & _ & <-). destruct (Hmk k y Hk Hy) as (_ & _ & <-). congruence.
    + intros v Hv. apply in_map_iff in Hv as (c & <- & Hc). apply values_in in Hc. apply Hl. destruct (Hmk k c Hk Hc) as (A & B & _). split; [exact A|congruence].
Qed.
Definition rep (n : nat) : Z := sum (fun t => b2z (repeats (map key t))) (tables M n).
Definition all (n : nat) : Z := M ^ Z.of_nat n.
Lemma all_S n : all (S n) = M * all n. Proof. unfold all. rewrite Nat2Z.inj_succ, Z.pow_succ_r by lia. reflexivity. Qed.
Lemma M0 : 0 <= M. Proof. unfold M. nia. Qed.
(** New values that repeat one of [t]. *)
Lemma again_le t : Forall (fun v => 0 <= v < M) t -> sum (fun v => b2z (existsb (Z.eqb (key v)) (map key t))) (values M) <= Z.of_nat (length t) * F.
Proof.
  induction t as [|w t IH]; intros Ht; [cbn [map existsb b2z]; rewrite sum_const; cbn; lia|]. inversion Ht as [|? ? Hw Hr]; subst. cbn [map existsb length].
  etransitivity; [apply (sum_le _ (fun v => b2z (key w =? key v) + b2z (existsb (Z.eqb (key v)) (map key t))))|].
  - intros v _. rewrite (Z.eqb_sym (key v)). destruct (_ =? _), (existsb _ _); cbn; lia.
  - rewrite sum_add, class_size by (apply Hkey, Hw). specialize (IH Hr). lia.
Qed.
Lemma again_eq t : Forall (fun v => 0 <= v < M) t -> repeats (map key t) = false -> sum (fun v => b2z (existsb (Z.eqb (key v)) (map key t))) (values M) = Z.of_nat (length t) * F.
Proof.
  induction t as [|w t IH]; intros Ht Hn; [cbn [map existsb b2z]; rewrite sum_const; cbn; lia|]. inversion Ht as [|? ? Hw Hr]; subst. cbn [map existsb length repeats] in *. apply orb_false_iff in Hn as [Hn1 Hn2].
  rewrite (sum_ext _ (fun v => b2z (key w =? key v) + b2z (existsb (Z.eqb (key v)) (map key t)))).
  - rewrite sum_add, class_size by (apply Hkey, Hw). rewrite (IH Hr Hn2). lia.
  - intros v _. rewrite (Z.eqb_sym (key v)). destruct (Z.eqb_spec (key w) (key v)) as [E|_]; [|destruct (existsb _ _); reflexivity]. rewrite <- E, Hn1. reflexivity.
Qed.
Lemma rep_S n : rep (S n) = sum (fun t => sum (fun v => b2z (existsb (Z.eqb (key v)) (map key t) || repeats (map key t))) (values M)) (tables M n).
Proof. unfold rep. rewrite sum_S, (sum_swap (fun v t => b2z (repeats (map key (v :: t))))). reflexivity. Qed.
Lemma rep_upper n : 2 * K * rep n <= Z.of_nat n * (Z.of_nat n - 1) * all n.
Proof.
  induction n as [|n IH]; [unfold rep, all; cbn; lia|]. rewrite rep_S, all_S.
  assert (sum (fun t => sum (fun v => b2z (existsb (Z.eqb (key v)) (map key t) || repeats (map key t))) (values M)) (tables M n) <= Z.of_nat n * F * all n + M * rep n) as B.
  { etransitivity; [apply (sum_le _ (fun t => Z.of_nat n * F + M * b2z (repeats (map key t))))|].
    - intros t Ht. apply tables_in in Ht as [L R]. destruct (repeats (map key t)).
      + rewrite (sum_ext _ (fun _ => 1)) by (intros; rewrite orb_true_r; reflexivity). rewrite sum_const, values_length by apply M0. cbn [b2z]. nia.
      + rewrite (sum_ext _ (fun v => b2z (existsb (Z.eqb (key v)) (map key t)))) by (intros; rewrite orb_false_r; reflexivity). pose proof (again_le t R). rewrite L in *. cbn [b2z]. lia.
    - rewrite sum_add, sum_const, sum_mul, tables_length by apply M0. unfold rep, all. lia. }
  rewrite Nat2Z.inj_succ. set (a := all n) in *. set (r := rep n) in *. set (N := Z.of_nat n) in *. assert (2 * K * (N * F * a + M * r) <= 2 * N * M * a + M * (N * (N - 1) * a)) by (pose proof M0; unfold M in *; nia). unfold Z.succ.
  assert ((N + 1) * (N + 1 - 1) * (M * a) = 2 * N * M * a + M * (N * (N - 1) * a)) as -> by ring. nia.
Qed.
(** Lists without a repetition. *)
Lemma free_upper n : (2 * K + Z.of_nat n * (Z.of_nat n - 1)) * (all n - rep n) <= 2 * K * all n.
Proof.
  induction n as [|n IH]; [unfold rep, all; cbn; lia|]. rewrite rep_S, all_S.
  assert (M * all n - sum (fun t => sum (fun v => b2z (existsb (Z.eqb (key v)) (map key t) || repeats (map key t))) (values M)) (tables M n) = (M - Z.of_nat n * F) * (all n - rep n)) as ->.
  { assert (sum (fun t => sum (fun v => b2z (existsb (Z.eqb (key v)) (map key t) || repeats (map key t))) (values M)) (tables M n) = Z.of_nat n * F * all n + (M - Z.of_nat n * F) * rep n) as ->; [|ring].
    rewrite (sum_ext _ (fun t => Z.of_nat n * F + (M - Z.of_nat n * F) * b2z (repeats (map key t)))).
    - rewrite sum_add, sum_const, sum_mul, tables_length by apply M0. unfold rep, all. lia.
    - intros t Ht. apply tables_in in Ht as [L R]. destruct (repeats (map key t)) eqn:E.
      + rewrite (sum_ext _ (fun _ => 1)) by (intros; rewrite orb_true_r; reflexivity). rewrite sum_const, values_length by apply M0. cbn [b2z]. lia.
      + rewrite (sum_ext _ (fun v => b2z (existsb (Z.eqb (key v)) (map key t)))) by (intros; rewrite orb_false_r; reflexivity). rewrite (again_eq t R E), L. cbn [b2z]. lia. }
  assert (0 <= all n - rep n) as P. { unfold all, rep. rewrite <- (tables_length M M0 n). rewrite <- sum_count. pose proof (filter_len (fun t => repeats (map key t)) (tables M n)). lia. }
  set (a := all n) in *. set (q := a - rep n) in *. rewrite Nat2Z.inj_succ. set (N := Z.of_nat n) in *. assert (0 <= N) by (unfold N; lia). unfold Z.succ, M.
  replace (K * F - N * F) with (F * (K - N)) by ring. replace (2 * K * (K * F * a)) with (F * (K * (2 * K * a))) by ring.
  replace ((2 * K + (N + 1) * (N + 1 - 1)) * (F * (K - N) * q)) with (F * ((2 * K + (N + 1) * N) * (K - N) * q)) by ring. apply Z.mul_le_mono_nonneg_l; [lia|].
  transitivity (K * ((2 * K + N * (N - 1)) * q)); [|apply Z.mul_le_mono_nonneg_l; [lia|exact IH]].
  rewrite Z.mul_assoc. apply Z.mul_le_mono_nonneg_r; [exact P|]. nia.
Qed.
End classes.

(** ** The two numbers *)
Definition k64 (v : Z) : Z := v / 2 ^ 16 * 2 ^ 12 + v mod 2 ^ 12.
Definition k32 (v : Z) : Z := v mod 2 ^ 32.
Lemma wrapS_inj n a b : 0 < n -> 0 <= a < 2 ^ n -> 0 <= b < 2 ^ n -> wrapS n a = wrapS n b -> a = b.
Proof.
  intros Hn Ha Hb E. unfold wrapS in E. rewrite <- (Z.mod_small a (2 ^ n)), <- (Z.mod_small b (2 ^ n)) by assumption.
  assert (P : 2 ^ n = 2 * 2 ^ (n - 1)) by (rewrite <- Z.pow_succ_r by lia; f_equal; lia). pose proof (Z.mod_pos_bound a (2 ^ n) ltac:(lia)). pose proof (Z.mod_pos_bound b (2 ^ n) ltac:(lia)).
  repeat match goal with H : context [if ?c then _ else _] |- _ => destruct c eqn:? end; lia.
Qed.
Lemma byte6_val b : 0 <= b < 256 -> Z.lor (Z.land b 15) 64 = 64 + b mod 16.
Proof.
  intros H. assert (forallb (fun b => Z.lor (Z.land b 15) 64 =? 64 + b mod 16) (map Z.of_nat (seq 0 256)) = true) as T by (vm_compute; reflexivity). rewrite forallb_forall in T.
  apply Z.eqb_eq, T, in_map_iff. exists (Z.to_nat b). split; [lia|apply in_seq; lia].
Qed.
Lemma int64_value h s : 0 <= h < 2 ^ 64 -> Int64_ (NewUUID h s) = wrapS 64 (h / 2 ^ 16 * 2 ^ 16 + 2 ^ 14 + h mod 2 ^ 12).
Proof.
  intros Hh. destruct (NewUUID_shape h s) as [[L B] _]. change (Int64_ (NewUUID h s)) with (get_int 8 (firstn 8 (NewUUID h s))).
  rewrite get_int_long; [|apply is_bytes_firstn, B|lia|rewrite firstn_length, L; lia]. change (8 * Z.of_nat 8) with 64. f_equal. rewrite firstn_firstn. change (Nat.min 8 8) with 8%nat.
  unfold NewUUID, int64ToBytes. pose proof (put_bytes_value 8 (i64 h)) as V. destruct (put8_explicit (i64 h)) as (a0&a1&a2&a3&a4&a5&a6&a7&E1&B1). destruct (put8_explicit s) as (c0&c1&c2&c3&c4&c5&c6&c7&E2&B2).
  rewrite E1 in V. rewrite E1, E2. cbn [app upd nth firstn]. clear E1 E2 B2 L B. repeat match goal with H : Forall _ (_ :: _) |- _ => inversion H; clear H; subst end.
  rewrite byte6_val by assumption. cbn [be_value length] in *. change (256 ^ Z.of_nat 8) with (2 ^ 64) in V.
  change (256 ^ Z.of_nat 7) with (2^56) in *. change (256 ^ Z.of_nat 6) with (2^48) in *.
  change (256 ^ Z.of_nat 5) with (2^40) in *. change (256 ^ Z.of_nat 4) with (2^32) in *.
  change (256 ^ Z.of_nat 3) with (2^24) in *. change (256 ^ Z.of_nat 2) with (2^16) in *.
  change (256 ^ Z.of_nat 1) with (2^8) in *. change (256 ^ Z.of_nat 0) with 1 in *.
  assert (i64 h mod 2 ^ 64 = h) as Eh. { unfold i64, wrapS. destruct (_ <? _); [rewrite Z.mod_mod by lia; apply Z.mod_small, Hh|]. rewrite <- (Z.mod_add _ 1) by lia. replace (h mod 2 ^ 64 - 2 ^ 64 + 1 * 2 ^ 64) with (h mod 2 ^ 64) by ring. rewrite Z.mod_mod by lia. apply Z.mod_small, Hh. }
  rewrite Eh in V. clear Eh Hh. subst h. Z.div_mod_to_equations. lia.
Qed.
Definition shown (h : Z) : Z := wrapS 64 (h / 2 ^ 16 * 2 ^ 16 + 2 ^ 14 + h mod 2 ^ 12).
Lemma inner_range h : 0 <= h < 2 ^ 64 -> 0 <= h / 2 ^ 16 * 2 ^ 16 + 2 ^ 14 + h mod 2 ^ 12 < 2 ^ 64.
Proof. intros H. change (2 ^ 64) with (2 ^ 48 * 2 ^ 16) in *. Z.div_mod_to_equations. lia. Qed.
Lemma shown_k64 v w : 0 <= v < 2 ^ 64 -> 0 <= w < 2 ^ 64 -> (shown v = shown w <-> k64 v = k64 w).
Proof.
  intros Hv Hw. assert (k64 v = k64 w <-> v / 2 ^ 16 = w / 2 ^ 16 /\ v mod 2 ^ 12 = w mod 2 ^ 12) as ->.
  { unfold k64. pose proof (Z.mod_pos_bound v (2 ^ 12) ltac:(lia)). pose proof (Z.mod_pos_bound w (2 ^ 12) ltac:(lia)). split; [lia|intros [-> ->]; reflexivity]. }
  split; [|unfold shown; intros [-> ->]; reflexivity]. intros E. apply wrapS_inj in E; [|lia|apply inner_range, Hv|apply inner_range, Hw].
  pose proof (Z.mod_pos_bound v (2 ^ 12) ltac:(lia)). pose proof (Z.mod_pos_bound w (2 ^ 12) ltac:(lia)). lia.
Qed.
Lemma k64_range v : 0 <= v < 2 ^ 64 -> 0 <= k64 v < 2 ^ 60.
Proof. intros H. unfold k64. change (2 ^ 60) with (2 ^ 48 * 2 ^ 12). change (2 ^ 64) with (2 ^ 48 * 2 ^ 16) in H. Z.div_mod_to_equations. lia. Qed.
Lemma any_hash h s : Int64_ (NewUUID h s) = shown (u64 h).
Proof.
  assert (NewUUID h s = NewUUID (u64 h) s) as ->. { unfold NewUUID. assert (i64 (u64 h) = i64 h) as -> by (apply wrapS_eq_mod; [lia|unfold u64; apply Z.mod_mod; lia]). reflexivity. }
  apply int64_value, u64_range.
Qed.

(** ** Runs *)
Inductive sub : list Z -> list Z -> Prop :=
| sub_nil l : sub [] l
| sub_skip x l r : sub l r -> sub l (x :: r)
| sub_take x l r : sub l r -> sub (x :: l) (x :: r).
Lemma sub_in l r x : sub l r -> In x l -> In x r.
Proof. induction 1; intros H0; [destruct H0|right; auto|]. destruct H0 as [->|H0]; [left; reflexivity|right; auto]. Qed.
Lemma sub_nodup (f : Z -> Z) l r : sub l r -> NoDup (map f r) -> NoDup (map f l).
Proof.
  induction 1 as [|x l r S IH|x l r S IH]; intros N; [constructor| |]; cbn [map] in *; inversion N as [|? ? N1 N2]; subst; [auto|]. constructor; [|auto].
  intros I. apply N1. apply in_map_iff in I as (y & E & Hy). apply in_map_iff. exists y. split; [exact E|exact (sub_in l r y S Hy)].
Qed.
Lemma sub_len l r : sub l r -> (length l <= length r)%nat. Proof. induction 1; cbn; lia. Qed.
Lemma sub_all l r : sub l r -> length l = length r -> l = r.
Proof. induction 1 as [l|x l r S IH|x l r S IH]; intros E; cbn in E; [destruct l; [reflexivity|discriminate]|apply sub_len in S; lia|]. f_equal. apply IH. lia. Qed.
Lemma run_shown es : forall t g, length t = returns es -> Forall (fun v => 0 <= v < 2 ^ 64) t -> exists l, sub l t /\ map Int64_ (out (fold_left gen_step (hashing t es) g)) = rev (map shown l) ++ map Int64_ (out g).
Proof.
  induction es as [|e es IH]; intros t g L R; [exists []; split; [constructor|reflexivity]|]. destruct e as [th|th h]; cbn [hashing fold_left].
  - destruct (IH t (gen_step g (EAdd th)) L R) as (l & S & E). exists l. split; [exact S|]. rewrite E. f_equal. cbn [gen_step]. destruct (find_pend th (pend g)); reflexivity.
  - destruct t as [|v t]; [discriminate|]. inversion R as [|? ? Rv Rt]; subst. cbn [hd tl]. unfold returns in L. cbn in L. assert (length t = returns es) as L' by (unfold returns; lia).
    destruct (IH t (gen_step g (EFin th v)) L' Rt) as (l & S & E). cbn [gen_step] in E |- *. destruct (find_pend th (pend g)) as [s|].
    + exists (v :: l). split; [constructor; exact S|]. rewrite E. cbn [out map rev]. rewrite any_hash, <- app_assoc. cbn [app]. unfold u64. rewrite Z.mod_small by exact Rv. reflexivity.
    + exists l. split; [constructor; exact S|exact E].
Qed.
Lemma run_sub start es t : length t = returns es -> Forall (fun v => 0 <= v < 2 ^ 64) t -> exists l, sub l t /\ uuid64s start (hashing t es) = rev (map shown l).
Proof. intros L R. destruct (run_shown es t (mkGen start [] []) L R) as (l & S & E). exists l. split; [exact S|]. unfold uuid64s, gen_run. rewrite E. cbn [out map]. apply app_nil_r. Qed.
Lemma nodup_ext (f g : Z -> Z) l : (forall x y, In x l -> In y l -> f x = f y -> g x = g y) -> NoDup (map g l) -> NoDup (map f l).
Proof.
  induction l as [|x l IH]; intros H N; [constructor|]. cbn [map] in *. inversion N as [|? ? N1 N2]; subst. constructor; [|apply IH; [intros; apply H; try right; assumption|exact N2]].
  intros I. apply in_map_iff in I as (y & E & Hy). apply N1. apply in_map_iff. exists y. split; [apply H; [right; exact Hy|left; reflexivity|exact E]|exact Hy].
Qed.
Lemma repeats_same l : Forall (fun v => 0 <= v < 2 ^ 64) l -> repeats (rev (map shown l)) = repeats (map k64 l).
Proof.
  intros R. rewrite Forall_forall in R. apply eq_true_iff_eq. rewrite <- !not_false_iff_true, !repeats_nodup.
  assert (NoDup (rev (map shown l)) <-> NoDup (map k64 l)) as ->; [|reflexivity]. split; intros N.
  - apply NoDup_rev in N. rewrite rev_involutive in N. revert N. apply nodup_ext. intros x y Hx Hy. apply shown_k64; auto.
  - apply NoDup_rev. revert N. apply nodup_ext. intros x y Hx Hy. apply shown_k64; auto.
Qed.
Lemma run_repeats start es t : length t = returns es -> Forall (fun v => 0 <= v < 2 ^ 64) t -> repeats (uuid64s start (hashing t es)) = true -> repeats (map k64 t) = true.
Proof.
  intros L R H. destruct (run_sub start es t L R) as (l & S & E). rewrite E in H. rewrite repeats_same in H by (rewrite Forall_forall in *; intros x Hx; apply R, (sub_in l t x S Hx)).
  destruct (repeats (map k64 t)) eqn:Q; [reflexivity|]. apply repeats_nodup in Q. apply (sub_nodup k64 l t S), repeats_nodup in Q. congruence.
Qed.
Lemma out_len es : forall t g g', map fst (pend g) = map fst (pend g') -> length (out g) = length (out g') -> length (out (fold_left gen_step (hashing t es) g)) = length (out (fold_left gen_step es g')).
Proof.
  assert (forall th (p q : list (nat * Z)), map fst p = map fst q -> (find_pend th p = None <-> find_pend th q = None) /\ map fst (drop_pend th p) = map fst (drop_pend th q)) as K.
  { intros th p. induction p as [|[a b] p IH]; intros [|[a' b'] q] E; try discriminate; [split; [tauto|reflexivity]|]. cbn [map fst] in E. inversion E; subst. destruct (IH q H1) as [I1 I2]. unfold drop_pend in *. cbn [find_pend filter fst]. destruct (Nat.eqb th a'); cbn [negb]; [split; [split; discriminate|exact I2]|]. split; [exact I1|cbn [map fst]; f_equal; exact I2]. }
  induction es as [|e es IH]; intros t g g' P O; [exact O|]. destruct e as [th|th h]; cbn [hashing fold_left gen_step]; destruct (K th _ _ P) as [K1 K2]; destruct (find_pend th (pend g)) eqn:F1, (find_pend th (pend g')) eqn:F2;
    try (apply IH; [exact P|exact O]); try (exfalso; (assert (Some z = None :> option Z) by (apply K1; reflexivity) || assert (Some z = None :> option Z) by (apply K1; reflexivity)); discriminate).
  - apply IH; cbn [pend out map fst]; [f_equal; exact P|exact O].
  - apply IH; cbn [pend out length]; [exact K2|lia].
Qed.
Lemma run_all start es t : length t = returns es -> length (out (gen_run start es)) = returns es -> Forall (fun v => 0 <= v < 2 ^ 64) t -> repeats (uuid64s start (hashing t es)) = repeats (map k64 t).
Proof.
  intros L O R. destruct (run_sub start es t L R) as (l & S & E). assert (l = t) as ->; [|rewrite E; apply repeats_same, R]. apply sub_all; [exact S|]. apply (f_equal (@length Z)) in E. unfold uuid64s in E. rewrite map_length, rev_length, map_length in E.
  rewrite <- E, L. unfold gen_run. rewrite (out_len es t (mkGen start [] []) (mkGen start [] [])) by reflexivity. exact O.
Qed.

(** ** Chances *)
Lemma chance_le n bad bad' : (forall t, In t (tables (2 ^ 64) n) -> bad t = true -> bad' t = true) -> (chance n bad <= chance n bad')%R.
Proof.
  intros H. unfold chance. apply Rmult_le_compat_r; [apply Rlt_le, Rinv_0_lt_compat, IZR_lt, Z.pow_pos_nonneg; lia|]. apply IZR_le. rewrite !sum_count. apply sum_le. intros t Ht. specialize (H t Ht). destruct (bad t); [rewrite H by reflexivity; cbn; lia|destruct (bad' t); cbn; lia].
Qed.
Lemma chance_ext n bad bad' : (forall t, In t (tables (2 ^ 64) n) -> bad t = bad' t) -> chance n bad = chance n bad'.
Proof. intros H. apply Rle_antisym; apply chance_le; intros t Ht; rewrite (H t Ht); auto. Qed.
Lemma bounds_of n a r K : 0 < K -> 0 < a -> 2 * K * r <= Z.of_nat n * (Z.of_nat n - 1) * a -> (2 * K + Z.of_nat n * (Z.of_nat n - 1)) * (a - r) <= 2 * K * a ->
  (IZR r / IZR a <= IZR (Z.of_nat n * (Z.of_nat n - 1)) / IZR (2 * K) /\ 1 - IZR r / IZR a <= IZR (2 * K) / IZR (2 * K + Z.of_nat n * (Z.of_nat n - 1)))%R.
Proof.
  intros HK Ha H1 H2. set (q := Z.of_nat n * (Z.of_nat n - 1)) in *. assert (0 <= q) by (unfold q; destruct n; [cbn; lia|nia]). apply IZR_le in H1, H2. rewrite !mult_IZR, ?plus_IZR, ?minus_IZR, ?mult_IZR in *.
  assert (0 < IZR a)%R by (apply IZR_lt; lia). assert (0 < IZR K)%R by (apply IZR_lt; lia). assert (0 <= IZR q)%R by (apply IZR_le; lia). split.
  - apply (Rmult_le_reg_r (IZR a * (2 * IZR K))); [nra|]. replace (IZR r / IZR a * (IZR a * (2 * IZR K)))%R with (2 * IZR K * IZR r)%R by (field; lra). replace (IZR q / (2 * IZR K) * (IZR a * (2 * IZR K)))%R with (IZR q * IZR a)%R by (field; lra). exact H1.
  - apply (Rmult_le_reg_r (IZR a * (2 * IZR K + IZR q))); [nra|]. replace ((1 - IZR r / IZR a) * (IZR a * (2 * IZR K + IZR q)))%R with ((2 * IZR K + IZR q) * (IZR a - IZR r))%R by (field; lra).
    replace (2 * IZR K / (2 * IZR K + IZR q) * (IZR a * (2 * IZR K + IZR q)))%R with (2 * IZR K * IZR a)%R by (field; lra). exact H2.
Qed.
Lemma chance64 n : (chance n (fun t => repeats (map k64 t)) <= IZR (Z.of_nat n * (Z.of_nat n - 1)) / IZR (2 * 2 ^ 60) /\ 1 - chance n (fun t => repeats (map k64 t)) <= IZR (2 * 2 ^ 60) / IZR (2 * 2 ^ 60 + Z.of_nat n * (Z.of_nat n - 1)))%R.
Proof.
  unfold chance. assert (2 ^ 64 = 2 ^ 60 * 2 ^ 4) as EM by reflexivity. assert (0 < (2 ^ 64) ^ Z.of_nat n) as Ha by (apply Z.pow_pos_nonneg; lia). rewrite sum_count.
  pose (mk := fun k c => k / 2 ^ 12 * 2 ^ 16 + c * 2 ^ 12 + k mod 2 ^ 12). pose (co := fun v => v / 2 ^ 12 mod 2 ^ 4).
  assert (forall v, 0 <= v < 2 ^ 60 * 2 ^ 4 -> 0 <= k64 v < 2 ^ 60) as A1 by exact k64_range. assert (forall v, 0 <= v < 2 ^ 60 * 2 ^ 4 -> 0 <= co v < 2 ^ 4) as A2 by (intros; apply Z.mod_pos_bound; lia).
  assert (forall v w, 0 <= v < 2 ^ 60 * 2 ^ 4 -> 0 <= w < 2 ^ 60 * 2 ^ 4 -> k64 v = k64 w -> co v = co w -> v = w) as A3. { intros v w Hv Hw. unfold k64, co. Z.div_mod_to_equations. lia. }
  assert (forall k c, 0 <= k < 2 ^ 60 -> 0 <= c < 2 ^ 4 -> 0 <= mk k c < 2 ^ 60 * 2 ^ 4 /\ k64 (mk k c) = k /\ co (mk k c) = c) as A4.
  { intros k c Hk Hc. assert (0 <= k / 2 ^ 12 < 2 ^ 48 /\ 0 <= k mod 2 ^ 12 < 2 ^ 12 /\ k = k / 2 ^ 12 * 2 ^ 12 + k mod 2 ^ 12) as (B1 & B2 & B3) by (change (2 ^ 60) with (2 ^ 48 * 2 ^ 12) in Hk; Z.div_mod_to_equations; lia).
    unfold mk, k64, co. set (a := k / 2 ^ 12) in *. set (b := k mod 2 ^ 12) in *. clearbody a b. subst k. split; [lia|]. Z.div_mod_to_equations. lia. }
  apply bounds_of; [lia|exact Ha| |].
  - exact (rep_upper (2 ^ 60) (2 ^ 4) k64 co mk ltac:(lia) ltac:(lia) A1 A2 A3 A4 n).
  - exact (free_upper (2 ^ 60) (2 ^ 4) k64 co mk ltac:(lia) ltac:(lia) A1 A2 A3 A4 n).
Qed.
Lemma chance32 n : (chance n (fun t => repeats (map k32 t)) <= IZR (Z.of_nat n * (Z.of_nat n - 1)) / IZR (2 * 2 ^ 32) /\ 1 - chance n (fun t => repeats (map k32 t)) <= IZR (2 * 2 ^ 32) / IZR (2 * 2 ^ 32 + Z.of_nat n * (Z.of_nat n - 1)))%R.
Proof.
  unfold chance. assert (0 < (2 ^ 64) ^ Z.of_nat n) as Ha by (apply Z.pow_pos_nonneg; lia). rewrite sum_count.
  pose (mk := fun k c => c * 2 ^ 32 + k). pose (co := fun v => v / 2 ^ 32).
  assert (forall v, 0 <= v < 2 ^ 32 * 2 ^ 32 -> 0 <= k32 v < 2 ^ 32) as A1 by (intros; apply Z.mod_pos_bound; lia). assert (forall v, 0 <= v < 2 ^ 32 * 2 ^ 32 -> 0 <= co v < 2 ^ 32) as A2 by (intros; unfold co; Z.div_mod_to_equations; lia).
  assert (forall v w, 0 <= v < 2 ^ 32 * 2 ^ 32 -> 0 <= w < 2 ^ 32 * 2 ^ 32 -> k32 v = k32 w -> co v = co w -> v = w) as A3. { intros v w Hv Hw. unfold k32, co. Z.div_mod_to_equations. lia. }
  assert (forall k c, 0 <= k < 2 ^ 32 -> 0 <= c < 2 ^ 32 -> 0 <= mk k c < 2 ^ 32 * 2 ^ 32 /\ k32 (mk k c) = k /\ co (mk k c) = c) as A4.
  { intros k c Hk Hc. unfold mk, k32, co. split; [lia|]. Z.div_mod_to_equations. lia. }
  apply bounds_of; [lia|exact Ha| |].
  - exact (rep_upper (2 ^ 32) (2 ^ 32) k32 co mk ltac:(lia) ltac:(lia) A1 A2 A3 A4 n).
  - exact (free_upper (2 ^ 32) (2 ^ 32) k32 co mk ltac:(lia) ltac:(lia) A1 A2 A3 A4 n).
Qed.
Lemma UUID32_eq h : UUID32 h = k32 h.
Proof. unfold UUID32, Int32_, u32, i32, k32. apply wrapS_mod. lia. Qed.
Lemma out_shown es : forall g, Forall (fun x => exists h, 0 <= h < 2 ^ 64 /\ x = shown h) (map Int64_ (out g)) -> Forall (fun x => exists h, 0 <= h < 2 ^ 64 /\ x = shown h) (map Int64_ (out (fold_left gen_step es g))).
Proof.
  induction es as [|e es IH]; intros g H; [exact H|]. cbn [fold_left]. apply IH. destruct e as [th|th h]; cbn [gen_step]; destruct (find_pend th (pend g)); try exact H. cbn [out map]. constructor; [|exact H]. exists (u64 h). split; [apply u64_range|apply any_hash].
Qed.
Lemma few_values start es : 2 ^ 60 < Z.of_nat (length (uuid64s start es)) -> repeats (uuid64s start es) = true.
Proof.
  intros L. destruct (repeats (uuid64s start es)) eqn:E; [reflexivity|]. exfalso. apply repeats_nodup in E.
  pose proof (out_shown es (mkGen start [] []) (Forall_nil _)) as S. fold (gen_run start es) in S. fold (uuid64s start es) in S. rewrite Forall_forall in S. revert L. apply Zle_not_lt.
  apply (pigeon (2 ^ 60) (fun x => k64 (u64 x))); [lia|exact E| |].
  - intros x _. apply k64_range, u64_range.
  - assert (forall h, 0 <= h < 2 ^ 64 -> u64 (shown h) = h / 2 ^ 16 * 2 ^ 16 + 2 ^ 14 + h mod 2 ^ 12) as U. { intros h Hh. unfold shown, u64. rewrite wrapS_mod by lia. apply Z.mod_small, inner_range, Hh. }
    intros x y Hx Hy. destruct (S x Hx) as (v & Hv & ->), (S y Hy) as (w & Hw & ->). rewrite !U by assumption. intros K. apply shown_k64; [exact Hv|exact Hw|]. unfold k64 in *. clear -K. Z.div_mod_to_equations. lia.
Qed.
