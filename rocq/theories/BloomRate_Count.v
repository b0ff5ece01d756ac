(** Counting tables of hash values. *)
From Coq Require Import ZArith List Bool Lia FinFun.
From Verif Require Import GoInt Bloom_Model Bloom_Spec Bloom_Proofs Bloom_Props BloomRate_Spec.
Import ListNotations.
Local Open Scope Z_scope.

(** ** Sums *)
Fixpoint sum {A} (f : A -> Z) (l : list A) : Z := match l with [] => 0 | x :: r => f x + sum f r end.
Definition b2z (b : bool) : Z := if b then 1 else 0.
Lemma sum_app {A} (f : A -> Z) l r : sum f (l ++ r) = sum f l + sum f r.
Proof. induction l as [|x l IH]; cbn [sum app]; lia. Qed.
Lemma sum_map {A B} (f : B -> Z) (g : A -> B) l : sum f (map g l) = sum (fun x => f (g x)) l.
Proof. induction l as [|x l IH]; cbn [sum map]; lia. Qed.
Lemma sum_flat_map {A B} (f : B -> Z) (g : A -> list B) l : sum f (flat_map g l) = sum (fun x => sum f (g x)) l.
Proof. induction l as [|x l IH]; cbn [sum flat_map]; [reflexivity|]. rewrite sum_app. lia. Qed.
Lemma sum_ext {A} (f g : A -> Z) l : (forall x, In x l -> f x = g x) -> sum f l = sum g l.
Proof. induction l as [|x l IH]; intros H; cbn [sum]; [reflexivity|]. rewrite (H x (or_introl eq_refl)), IH; [reflexivity|]. intros y Hy. apply H. right. exact Hy. Qed.
Lemma sum_le {A} (f g : A -> Z) l : (forall x, In x l -> f x <= g x) -> sum f l <= sum g l.
Proof. induction l as [|x l IH]; intros H; cbn [sum]; [lia|]. pose proof (H x (or_introl eq_refl)). assert (sum f l <= sum g l) by (apply IH; intros y Hy; apply H; right; exact Hy). lia. Qed.
Lemma sum_add {A} (f g : A -> Z) l : sum (fun x => f x + g x) l = sum f l + sum g l.
Proof. induction l as [|x l IH]; cbn [sum]; lia. Qed.
Lemma sum_mul {A} (f : A -> Z) c l : sum (fun x => c * f x) l = c * sum f l.
Proof. induction l as [|x l IH]; cbn [sum]; lia. Qed.
Lemma sum_const {A} c (l : list A) : sum (fun _ => c) l = c * Z.of_nat (length l).
Proof. induction l as [|x l IH]; cbn [sum length]; lia. Qed.
Lemma sum_swap {A B} (f : A -> B -> Z) l r : sum (fun x => sum (f x) r) l = sum (fun y => sum (fun x => f x y) l) r.
Proof.
  induction l as [|x l IH]; cbn [sum]; [symmetry; rewrite (sum_const 0); lia|]. rewrite IH, <- sum_add. reflexivity.
Qed.
Lemma sum_count {A} (p : A -> bool) l : Z.of_nat (length (filter p l)) = sum (fun x => b2z (p x)) l.
Proof. induction l as [|x l IH]; cbn [filter sum]; [reflexivity|]. destruct (p x); cbn [length b2z]; lia. Qed.

(** Chebyshev's inequality, and what follows for means of powers. *)
Lemma cheb_pair x y k : 0 <= x -> 0 <= y -> x * y ^ k + y * x ^ k <= x * x ^ k + y * y ^ k.
Proof.
  intros Hx Hy. destruct (Z_lt_le_dec k 0) as [Hk|Hk]; [rewrite !Z.pow_neg_r by lia; lia|].
  assert (C : forall a b, 0 <= a <= b -> a * b ^ k + b * a ^ k <= a * a ^ k + b * b ^ k).
  { intros a b H. pose proof (Z.pow_le_mono_l a b k H). nia. }
  destruct (Z_le_gt_dec x y); [apply C; lia|]. pose proof (C y x ltac:(lia)). lia.
Qed.
Lemma cheb {A} (f : A -> Z) k l : (forall x, In x l -> 0 <= f x) -> sum f l * sum (fun x => f x ^ k) l <= Z.of_nat (length l) * sum (fun x => f x * f x ^ k) l.
Proof.
  induction l as [|x l IH]; intros H; cbn [sum length]; [lia|]. assert (H' : forall y, In y l -> 0 <= f y) by (intros y Hy; apply H; right; exact Hy). specialize (IH H').
  assert (P : sum (fun y => f x * f y ^ k + f y * f x ^ k) l <= sum (fun y => f x * f x ^ k + f y * f y ^ k) l).
  { apply sum_le. intros y Hy. apply cheb_pair; [apply H; left; reflexivity|apply H', Hy]. }
  rewrite !sum_add, sum_mul, sum_const in P.
  replace (sum (fun y => f y * f x ^ k) l) with (f x ^ k * sum f l) in P by (rewrite <- sum_mul; apply sum_ext; intros; lia). nia.
Qed.
Lemma power_mean {A} (f : A -> Z) k l : (forall x, In x l -> 0 <= f x) -> sum f l ^ Z.of_nat (S k) <= Z.of_nat (length l) ^ Z.of_nat k * sum (fun x => f x ^ Z.of_nat (S k)) l.
Proof.
  intros H. assert (S0 : 0 <= sum f l) by (clear -H; induction l as [|x l IH]; cbn [sum]; [lia|]; pose proof (H x (or_introl eq_refl)); assert (0 <= sum f l) by (apply IH; intros y Hy; apply H; right; exact Hy); lia).
  induction k as [|k IH]; [change (Z.of_nat 1) with 1; change (Z.of_nat 0) with 0; rewrite (sum_ext (fun x => f x ^ _) f) by (intros; apply Z.pow_1_r); rewrite Z.pow_1_r, Z.pow_0_r; lia|].
  replace (sum f l ^ Z.of_nat (S (S k))) with (sum f l * sum f l ^ Z.of_nat (S k)) by (rewrite (Nat2Z.inj_succ (S k)), Z.pow_succ_r by lia; reflexivity).
  replace (Z.of_nat (length l) ^ Z.of_nat (S k)) with (Z.of_nat (length l) * Z.of_nat (length l) ^ Z.of_nat k) by (rewrite (Nat2Z.inj_succ k), Z.pow_succ_r by lia; reflexivity).
  replace (sum (fun x => f x ^ Z.of_nat (S (S k))) l) with (sum (fun x => f x * f x ^ Z.of_nat (S k)) l) by (apply sum_ext; intros x _; rewrite (Nat2Z.inj_succ (S k)), Z.pow_succ_r by lia; reflexivity).
  pose proof (cheb f (Z.of_nat (S k)) l H) as C.
  assert (0 <= Z.of_nat (length l) ^ Z.of_nat k) by (apply Z.pow_nonneg; lia). nia.
Qed.

(** ** Tables *)
Section tables.
Context (M : Z).
Definition values : list Z := map Z.of_nat (seq 0 (Z.to_nat M)).
Lemma tables_S c : tables M (S c) = flat_map (fun v => map (cons v) (tables M c)) values.
Proof. cbn [tables]. unfold values. rewrite !flat_map_concat_map, map_map. reflexivity. Qed.
Lemma sum_S f c : sum f (tables M (S c)) = sum (fun v => sum (fun t => f (v :: t)) (tables M c)) values.
Proof. rewrite tables_S, sum_flat_map. apply sum_ext. intros v _. apply sum_map. Qed.
Lemma sum_split a b f : sum f (tables M (a + b)) = sum (fun s => sum (fun t => f (s ++ t)) (tables M b)) (tables M a).
Proof.
  revert f. induction a as [|a IH]; intros f; [cbn [tables sum Nat.add app]; rewrite Z.add_0_r; reflexivity|]. cbn [Nat.add]. rewrite !sum_S. apply sum_ext. intros v _. rewrite IH. reflexivity.
Qed.
Lemma tables_in c t : In t (tables M c) <-> length t = c /\ Forall (fun v => 0 <= v < M) t.
Proof.
  revert t. induction c as [|c IH]; intros t; [cbn; split; [intros [<-|[]]; auto|intros [H _]; left; destruct t; [reflexivity|discriminate]]|].
  rewrite tables_S, in_flat_map. split.
  - intros (v & Hv & Ht). apply in_map_iff in Ht as (s & <- & Hs). apply IH in Hs as [H1 H2]. apply in_map_iff in Hv as (n & <- & Hn). apply in_seq in Hn. split; [cbn; lia|]. constructor; [lia|exact H2].
  - intros [H1 H2]. destruct t as [|v t]; [discriminate|]. inversion H2 as [|? ? Hv H3]; subst. exists v. split; [apply in_map_iff; exists (Z.to_nat v); split; [lia|apply in_seq; lia]|].
    apply in_map, IH. split; [cbn in H1; lia|exact H3].
Qed.
Context (HM : 0 <= M).
Lemma values_length : Z.of_nat (length values) = M.
Proof. unfold values. rewrite map_length, seq_length. lia. Qed.
Lemma tables_length c : Z.of_nat (length (tables M c)) = M ^ Z.of_nat c.
Proof.
  replace (Z.of_nat (length (tables M c))) with (sum (fun _ => 1) (tables M c)) by (rewrite sum_const; lia).
  induction c as [|c IH]; [reflexivity|]. rewrite sum_S. rewrite (sum_ext _ (fun _ => M ^ Z.of_nat c)) by (intros; exact IH). rewrite sum_const, values_length, Nat2Z.inj_succ, Z.pow_succ_r by lia. lia.
Qed.
(** How many tables have all their values in a set. *)
Lemma count_all (p : Z -> bool) c : sum (fun t => b2z (forallb p t)) (tables M c) = sum (fun v => b2z (p v)) values ^ Z.of_nat c.
Proof.
  induction c as [|c IH]; [reflexivity|]. rewrite sum_S, Nat2Z.inj_succ, Z.pow_succ_r, <- IH by lia. rewrite Z.mul_comm, <- sum_mul. apply sum_ext. intros v _. cbn [forallb].
  destruct (p v); cbn [andb b2z]; [lia|]. rewrite sum_const. lia.
Qed.
Definition has (s : list Z) (v : Z) : bool := existsb (Z.eqb v) s.
Lemma has_in s v : has s v = true <-> In v s.
Proof. unfold has. rewrite existsb_exists. split; [intros (x & H & E); apply Z.eqb_eq in E; subst; exact H|intros H; exists v; split; [exact H|apply Z.eqb_refl]]. Qed.
Definition distinct (s : list Z) : Z := sum (fun v => b2z (has s v)) values.
Lemma values_nodup : NoDup values.
Proof. unfold values. apply FinFun.Injective_map_NoDup; [intros x y; lia|apply seq_NoDup]. Qed.
Lemma sum_single w l : NoDup l -> In w l -> sum (fun v => b2z (negb (v =? w))) l = Z.of_nat (length l) - 1.
Proof.
  induction l as [|x l IH]; intros N H; [destruct H|]. inversion N as [|? ? N1 N2]; subst. cbn [sum length]. destruct (Z.eqb_spec x w) as [->|Hx].
  - cbn [negb b2z]. rewrite (sum_ext _ (fun _ => 1)) by (intros v Hv; destruct (Z.eqb_spec v w) as [->|]; [contradiction|reflexivity]). rewrite sum_const. lia.
  - cbn [negb b2z]. rewrite IH; [lia|exact N2|]. destruct H; [congruence|assumption].
Qed.
Lemma sum_distinct a : sum distinct (tables M a) = M * (M ^ Z.of_nat a - (M - 1) ^ Z.of_nat a).
Proof.
  unfold distinct. rewrite (sum_swap (fun s v => b2z (has s v))). rewrite (sum_ext _ (fun _ => M ^ Z.of_nat a - (M - 1) ^ Z.of_nat a)).
  - rewrite sum_const, values_length. lia.
  - intros w Hw. replace ((M - 1) ^ Z.of_nat a) with (sum (fun t => b2z (forallb (fun v => negb (v =? w)) t)) (tables M a)) by (rewrite count_all, (sum_single w) by (apply values_nodup || exact Hw); rewrite values_length; reflexivity).
    rewrite <- tables_length. replace (Z.of_nat (length (tables M a))) with (sum (fun _ => 1) (tables M a)) by (rewrite sum_const; lia).
    assert (E : forall l, sum (fun s => b2z (has s w)) l + sum (fun t => b2z (forallb (fun v => negb (v =? w)) t)) l = sum (fun _ : list Z => 1) l); [|pose proof (E (tables M a)); lia].
    intros l. rewrite <- sum_add. apply sum_ext. intros t _. assert (has t w = negb (forallb (fun v => negb (v =? w)) t)) as ->; [|destruct (forallb _ t); reflexivity].
    unfold has. induction t as [|v t IH]; cbn [existsb forallb]; [reflexivity|]. rewrite IH, Z.eqb_sym. destruct (v =? w); reflexivity.
Qed.
Lemma distinct_nonneg s : 0 <= distinct s.
Proof. unfold distinct. rewrite <- sum_count. lia. Qed.
Lemma distinct_le s : distinct s <= Z.of_nat (length s).
Proof.
  unfold distinct. rewrite <- sum_count. apply inj_le. apply NoDup_incl_length; [apply NoDup_filter, values_nodup|]. intros v Hv. apply filter_In in Hv as [_ Hv]. apply has_in, Hv.
Qed.
(** Pairs of tables, all values of the second in the first. *)
Definition covered (a b : nat) : Z := sum (fun s => sum (fun t => b2z (forallb (has s) t)) (tables M b)) (tables M a).
Lemma covered_eq a b : covered a b = sum (fun s => distinct s ^ Z.of_nat b) (tables M a).
Proof. unfold covered. apply sum_ext. intros s _. apply count_all. Qed.
Lemma covered_ge a b : (M * (M ^ Z.of_nat a - (M - 1) ^ Z.of_nat a)) ^ Z.of_nat (S b) <= (M ^ Z.of_nat a) ^ Z.of_nat b * covered a (S b).
Proof.
  rewrite covered_eq, <- sum_distinct, <- tables_length. apply power_mean. intros; apply distinct_nonneg.
Qed.
Lemma covered_le a b : covered a b <= M ^ Z.of_nat a * Z.of_nat a ^ Z.of_nat b.
Proof.
  rewrite covered_eq, <- tables_length, Z.mul_comm, <- sum_const. apply sum_le. intros s Hs. apply tables_in in Hs as [Hs _]. apply Z.pow_le_mono_l. split; [apply distinct_nonneg|]. rewrite <- Hs. apply distinct_le.
Qed.
End tables.

(** ** The filter *)
Lemma adds_all N : adds (add_all N) = seq 0 N.
Proof. unfold add_all. generalize 0%nat. induction N as [|N IH]; intros s; cbn [seq map adds]; [reflexivity|]. f_equal. apply IH. Qed.
Lemma count_adds N : count (add_all N) = Z.of_nat N.
Proof. unfold count. rewrite adds_all, seq_length. reflexivity. Qed.
Lemma added_all N c x : added_at (add_all N) c x <-> 1 <= c <= Z.of_nat N /\ x = Z.to_nat (c - 1).
Proof.
  unfold added_at. rewrite adds_all. split.
  - intros [H1 H2]. assert (Hn : (Z.to_nat (c - 1) < length (seq 0 N))%nat) by (apply nth_error_Some; rewrite H2; discriminate). rewrite seq_length in Hn. split; [lia|].
    rewrite (nth_error_nth' _ 0%nat) in H2 by (rewrite seq_length; lia). rewrite seq_nth in H2 by lia. injection H2 as <-. lia.
  - intros [H1 ->]. split; [lia|]. rewrite (nth_error_nth' _ 0%nat) by (rewrite seq_length; lia). rewrite seq_nth by lia. reflexivity.
Qed.
(** The last [w] of [o + w] adds are in the window. *)
Definition window (E : Z) (o w : nat) : Prop := let N := Z.of_nat (o + w) in
  forall c, 1 <= c <= N -> (generation E N - 1 <= generation E c <-> Z.of_nat o < c).
Lemma nth_in_range M l j : 0 < M -> Forall (fun v => 0 <= v < M) l -> 0 <= nth j l 0 < M.
Proof.
  intros HM H. rewrite Forall_forall in H. destruct (nth_in_or_default j l 0) as [Hi| -> ]; [apply H, Hi|lia].
Qed.
Lemma fp_table E m k o w a s y : sane E m k -> Z.of_nat (o + w) < 2 ^ 64 -> window E o w ->
  let K := clamp_k k in let M := 64 * words m in
  In a (tables M (Z.to_nat K * o)) -> In s (tables M (Z.to_nat K * w)) -> In y (tables M (Z.to_nat K)) ->
  let h := hash_in K (a ++ s ++ y) in
  fst (Contains h (brun h E m k (add_all (o + w))) (o + w)%nat) = forallb (has s) y.
Proof.
  intros HS HN HW K M Ha Hs Hy h. pose proof HS as (_ & _ & Hm & Hk). pose proof (clamp_bound k Hk) as HK. fold K in HK. pose proof (words_bound m Hm) as (HM & _).
  apply tables_in in Ha as [La Fa]. apply tables_in in Hs as [Ls Fs]. apply tables_in in Hy as [Ly Fy].
  assert (Hval : forall i x, 0 <= h i x < M) by (intros; apply nth_in_range; [subst M; lia|]; rewrite !Forall_app; auto).
  assert (Hn : forall j, 0 <= j < K -> h j (o + w)%nat = nth (Z.to_nat j) y 0).
  { intros j Hj. unfold h, hash_in. rewrite app_nth2 by nia. rewrite app_nth2 by nia. f_equal. rewrite La, Ls. nia. }
  assert (Ho : forall i x, (o <= x < o + w)%nat -> 0 <= i < K -> h i x = nth ((x - o) * Z.to_nat K + Z.to_nat i) s 0).
  { intros i x Hx Hi. unfold h, hash_in. rewrite app_nth2 by nia. rewrite app_nth1 by nia. f_equal. rewrite La. nia. }
  pose proof (c38_contains_exact nat h E m k (add_all (o + w)) (o + w)%nat HS ltac:(rewrite count_adds; exact HN)) as C. fold K M in C. rewrite count_adds in C.
  apply eq_true_iff_eq. rewrite C. rewrite forallb_forall. split.
  - intros H v Hv. apply (In_nth _ _ 0) in Hv as (j & Hj & <-). destruct (H (Z.of_nat j) ltac:(lia)) as (c & x & i & Hadd & Hg & Hi & Hh).
    apply added_all in Hadd as [Hc ->]. apply HW in Hg; [|exact Hc]. rewrite !Z.mod_small in Hh by apply Hval. rewrite Hn, Nat2Z.id in Hh by lia. rewrite <- Hh. rewrite Ho by lia. apply has_in, nth_In. rewrite Ls. nia.
  - intros H j Hj. assert (Hl : (Z.to_nat j < length y)%nat) by lia. pose proof (H (nth (Z.to_nat j) y 0) (nth_In _ _ Hl)) as Hv. apply has_in in Hv. apply (In_nth _ _ 0) in Hv as (q & Hq & E1). rewrite Ls in Hq.
    pose proof (Nat.div_mod q (Z.to_nat K) ltac:(lia)) as D. pose proof (Nat.mod_upper_bound q (Z.to_nat K) ltac:(lia)) as B. set (d := (q / Z.to_nat K)%nat) in *. set (r := (q mod Z.to_nat K)%nat) in *.
    assert (Hd : (d < w)%nat) by nia. exists (Z.of_nat (o + d) + 1), (o + d)%nat, (Z.of_nat r). split; [apply added_all; lia|]. split; [apply HW; lia|]. split; [lia|].
    rewrite !Z.mod_small by apply Hval. rewrite Hn by lia. rewrite Ho by lia. rewrite Nat2Z.id. replace ((o + d - o) * Z.to_nat K + r)%nat with q by nia. exact E1.
Qed.
Lemma fp_eq E m k o w : sane E m k -> Z.of_nat (o + w) < 2 ^ 64 -> window E o w ->
  let K := Z.to_nat (clamp_k k) in let M := 64 * words m in
  false_positives E m k (o + w) = M ^ Z.of_nat (K * o) * covered M (K * w) K.
Proof.
  intros HS HN HW K M. pose proof HS as (_ & _ & Hm & Hk). pose proof (words_bound m Hm) as (HM & _).
  unfold false_positives. fold M. fold K. rewrite sum_count. replace (K * (o + w + 1))%nat with (K * o + (K * w + K))%nat by lia. rewrite sum_split.
  rewrite (sum_ext _ (fun _ => covered M (K * w) K)); [rewrite sum_const, tables_length by (subst M; lia); lia|]. intros a Ha. rewrite sum_split. unfold covered. apply sum_ext. intros s Hs. apply sum_ext. intros y Hy. f_equal.
  apply (fp_table E m k o w a s y); assumption.
Qed.
