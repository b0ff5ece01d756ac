(** The rate of false positives from above: bits are set less often together than if each was set independently of the others. *)
From Coq Require Import ZArith List Bool Lia Reals Lra Psatz.
From Verif Require Import GoInt GoFloat Bloom_Model Bloom_Spec Bloom_Proofs Bloom_Props BloomRate_Model BloomRate_Spec BloomRate_Count BloomRate_Proofs.
Import ListNotations.
Local Open Scope R_scope.

Fixpoint rs {A} (f : A -> R) (l : list A) : R := match l with [] => 0 | x :: r => f x + rs f r end.
Lemma rs_sum {A} (f : A -> Z) l : IZR (sum f l) = rs (fun x => IZR (f x)) l.
Proof. induction l as [|x l IH]; cbn [sum rs]; [reflexivity|]. rewrite plus_IZR, IH. reflexivity. Qed.
Lemma rs_app {A} (f : A -> R) l r : rs f (l ++ r) = rs f l + rs f r.
Proof. induction l as [|x l IH]; cbn [rs app]; [ring|]. rewrite IH. ring. Qed.
Lemma rs_map {A B} (f : B -> R) (g : A -> B) l : rs f (map g l) = rs (fun x => f (g x)) l.
Proof. induction l as [|x l IH]; cbn [rs map]; [reflexivity|]. rewrite IH. reflexivity. Qed.
Lemma rs_flat_map {A B} (f : B -> R) (g : A -> list B) l : rs f (flat_map g l) = rs (fun x => rs f (g x)) l.
Proof. induction l as [|x l IH]; cbn [rs flat_map]; [reflexivity|]. rewrite rs_app, IH. reflexivity. Qed.
Lemma rs_le {A} (f g : A -> R) l : (forall x, In x l -> f x <= g x) -> rs f l <= rs g l.
Proof. induction l as [|x l IH]; intros H; cbn [rs]; [lra|]. pose proof (H x (or_introl eq_refl)). assert (rs f l <= rs g l) by (apply IH; intros y Hy; apply H; right; exact Hy). lra. Qed.
Lemma rs_mul {A} c (f : A -> R) l : rs (fun x => c * f x) l = c * rs f l.
Proof. induction l as [|x l IH]; cbn [rs]; [ring|]. rewrite IH. ring. Qed.
Lemma rs_if {A} (p : A -> bool) x y l : rs (fun v => if p v then x else y) l = IZR (sum (fun v => b2z (p v)) l) * x + (INR (length l) - IZR (sum (fun v => b2z (p v)) l)) * y.
Proof.
  induction l as [|v l IH]; cbn [rs sum]; [cbn; ring|]. change (length (v :: l)) with (S (length l)). rewrite IH, S_INR, plus_IZR. destruct (p v); cbn [b2z]; ring.
Qed.

(** (x + y)^r, its first two terms. *)
Lemma two_terms x y r : 0 <= x -> 0 <= y -> x ^ S r + INR (S r) * (x ^ r * y) <= (x + y) ^ S r.
Proof.
  intros Hx Hy. induction r as [|r IH]; [cbn; lra|]. set (z := (x + y) ^ S r) in *. replace ((x + y) ^ S (S r)) with ((x + y) * z) by reflexivity. rewrite (S_INR (S r)).
  assert (0 <= INR (S r)) by apply pos_INR. assert (0 <= x ^ r) by (apply pow_le; lra). cbn [pow] in *. set (a := x ^ r) in *. set (n := INR (S r)) in *. clearbody a n z.
  assert (0 <= a * y) by nra. assert (0 <= n * (a * y)) by nra. assert ((x + y) * (x * a + n * (a * y)) <= (x + y) * z) by (apply Rmult_le_compat_l; lra). nra.
Qed.

Section upper.
Context (M : Z) (HM : (1 <= M)%Z).
Local Lemma M1 : 1 <= IZR M.
Proof. apply IZR_le. exact HM. Qed.
(** How likely a bit is to be set after [a] hash values. *)
Definition setp (a : nat) : R := 1 - (1 - 1 / IZR M) ^ a.
Lemma setp_S a : setp (S a) = setp a + (1 - setp a) / IZR M.
Proof. pose proof M1. unfold setp. cbn [pow]. field. lra. Qed.
Lemma setp_bound a : 0 <= setp a <= 1.
Proof.
  pose proof M1. assert (0 < / IZR M <= 1) by (split; [apply Rinv_0_lt_compat; lra|rewrite <- Rinv_1; apply Rinv_le_contravar; lra]). assert (0 <= (1 - 1 / IZR M) ^ a <= 1); [|unfold setp; lra].
  assert (Q : 0 <= 1 - 1 / IZR M <= 1) by (unfold Rdiv; lra). split; [apply pow_le, Q|]. apply Rle_trans with (1 ^ a); [apply pow_incr, Q|rewrite pow1; lra].
Qed.
Lemma rs_S f c : rs f (tables M (S c)) = rs (fun v => rs (fun t => f (v :: t)) (tables M c)) (values M).
Proof. rewrite tables_S, rs_flat_map. assert (E : forall l, rs (fun x => rs f (map (cons x) (tables M c))) l = rs (fun v => rs (fun t => f (v :: t)) (tables M c)) l) by (induction l as [|v l IH]; cbn [rs]; [reflexivity|rewrite rs_map, IH; reflexivity]). apply E. Qed.
(** Tables with all values of [A] in them. *)
Definition cov (A : list Z) (a : nat) : R := rs (fun s => IZR (b2z (forallb (has s) A))) (tables M a).
Lemma forallb_remove v s A : forallb (has (v :: s)) A = forallb (has s) (remove Z.eq_dec v A).
Proof.
  induction A as [|x A IH]; [reflexivity|]. cbn [forallb remove]. destruct (Z.eq_dec v x) as [<-|Hx].
  - assert (has (v :: s) v = true) as -> by (apply has_in; left; reflexivity). exact IH.
  - cbn [forallb]. rewrite IH. f_equal. unfold has. cbn [existsb]. destruct (Z.eqb_spec x v); [congruence|reflexivity].
Qed.
Lemma remove_not v A : ~ In v A -> remove Z.eq_dec v A = A.
Proof. induction A as [|x A IH]; intros H; [reflexivity|]. cbn [remove]. destruct (Z.eq_dec v x) as [<-|Hx]; [exfalso; apply H; left; reflexivity|]. f_equal. apply IH. intros Hi. apply H. right. exact Hi. Qed.
Lemma remove_len v A : NoDup A -> length (remove Z.eq_dec v A) = if has A v then pred (length A) else length A.
Proof.
  intros N. destruct (has A v) eqn:Hv.
  - apply has_in in Hv. induction A as [|x A IH]; [destruct Hv|]. inversion N as [|? ? N1 N2]; subst. cbn [remove length pred]. destruct (Z.eq_dec v x) as [<-|Hx].
    + rewrite remove_not by exact N1. reflexivity.
    + cbn [length]. rewrite IH by (try assumption; destruct Hv; congruence). destruct Hv as [->|Hv]; [congruence|]. destruct A; [destruct Hv|reflexivity].
  - f_equal. apply remove_not. intros Hi. apply has_in in Hi. congruence.
Qed.
Lemma remove_nodup v A : NoDup A -> NoDup (remove Z.eq_dec v A).
Proof.
  induction A as [|x A IH]; intros N; [exact N|]. inversion N as [|? ? N1 N2]; subst. cbn [remove]. destruct (Z.eq_dec v x); [apply IH, N2|]. constructor; [|apply IH, N2]. intros Hi. apply in_remove in Hi. tauto.
Qed.
Lemma values_in v : In v (values M) <-> (0 <= v < M)%Z.
Proof.
  unfold values. rewrite in_map_iff. split; [intros (n & <- & Hn); apply in_seq in Hn; lia|intros H; exists (Z.to_nat v); rewrite in_seq; lia].
Qed.
Lemma distinct_nodup A : NoDup A -> Forall (fun v => (0 <= v < M)%Z) A -> distinct M A = Z.of_nat (length A).
Proof.
  intros N F. apply Z.le_antisymm; [apply distinct_le|]. unfold distinct. rewrite <- sum_count. apply inj_le, NoDup_incl_length; [exact N|].
  intros v Hv. apply filter_In. rewrite Forall_forall in F. split; [apply values_in, F, Hv|apply has_in, Hv].
Qed.
(** Given different bits are all set no more often than if each was set independently of the others. *)
Lemma cov_le a : forall A, NoDup A -> Forall (fun v => (0 <= v < M)%Z) A -> cov A a <= IZR M ^ a * setp a ^ length A.
Proof.
  pose proof M1 as M1. induction a as [|a IH]; intros A N F.
  - unfold cov. cbn [tables rs]. assert (setp 0 = 0) as -> by (unfold setp; rewrite pow_O; lra). destruct A as [|x A]; [cbn; lra|]. rewrite pow_i by (cbn [length]; lia). cbn. lra.
  - unfold cov. rewrite rs_S. pose proof (setp_bound a) as B. assert (P : 0 < IZR M ^ a) by (apply pow_lt; lra).
    apply Rle_trans with (rs (fun v => if has A v then IZR M ^ a * setp a ^ pred (length A) else IZR M ^ a * setp a ^ length A) (values M)).
    + apply rs_le. intros v Hv. assert (FR : Forall (fun v => (0 <= v < M)%Z) (remove Z.eq_dec v A)) by (rewrite Forall_forall in *; intros x Hx; apply in_remove in Hx; apply F, Hx).
      pose proof (IH (remove Z.eq_dec v A) (remove_nodup v A N) FR) as C. rewrite remove_len in C by exact N.
      assert (E : forall l, rs (fun t => IZR (b2z (forallb (has (v :: t)) A))) l = rs (fun s => IZR (b2z (forallb (has s) (remove Z.eq_dec v A)))) l) by (induction l as [|t l IHl]; cbn [rs]; [reflexivity|rewrite IHl, forallb_remove; reflexivity]).
      rewrite E. unfold cov in C. destruct (has A v); exact C.
    + rewrite rs_if. fold (distinct M A). rewrite distinct_nodup by assumption. rewrite <- INR_IZR_INZ. assert (INR (length (values M)) = IZR M) as -> by (rewrite INR_IZR_INZ, values_length by lia; reflexivity).
      rewrite setp_S. destruct (length A) as [|r]; [cbn; lra|]. pose proof (two_terms (setp a) ((1 - setp a) / IZR M) r ltac:(lra) ltac:(apply Rmult_le_pos; [lra|apply Rlt_le, Rinv_0_lt_compat; lra])) as T.
      apply Rmult_le_compat_l with (r := IZR M ^ S a) in T; [|apply pow_le; lra]. eapply Rle_trans; [|exact T]. right. cbn [pred pow]. field. lra.
Qed.
(** All probes. *)
Lemma nodup_forallb s t : forallb (has s) t = forallb (has s) (nodup Z.eq_dec t).
Proof.
  apply eq_true_iff_eq. rewrite !forallb_forall. split; intros H x Hx; apply H; apply (nodup_In Z.eq_dec); exact Hx.
Qed.
Lemma rs_swap {A B} (f : A -> B -> R) l r : rs (fun x => rs (f x) r) l = rs (fun y => rs (fun x => f x y) l) r.
Proof.
  induction l as [|x l IH]; cbn [rs]; [induction r; cbn [rs]; lra|]. rewrite IH. clear IH. induction r as [|y r IH]; cbn [rs]; [lra|]. lra.
Qed.
Definition step (s : R) (b : nat) : R := INR (pred b) + (IZR M - INR (pred b)) * s.
Lemma probes s b : 0 <= s <= 1 -> (INR (pred b) <= IZR M) -> rs (fun t => s ^ length (nodup Z.eq_dec t)) (tables M b) <= step s b ^ b.
Proof.
  intros Hs. pose proof M1 as M1. induction b as [|b IH]; intros Hb; [cbn; lra|]. rewrite rs_S. rewrite (rs_swap (fun v t => s ^ length (nodup Z.eq_dec (v :: t)))).
  assert (Hb' : INR (pred b) <= INR b) by (apply le_INR; lia). cbn [pred] in Hb.
  assert (S0 : 0 <= step s b <= step s (S b)) by (unfold step; cbn [pred]; pose proof (pos_INR (pred b)); split; nra).
  apply Rle_trans with (rs (fun t => step s (S b) * s ^ length (nodup Z.eq_dec t)) (tables M b)).
  - apply rs_le. intros t Ht. apply tables_in in Ht as [Lt Ft]. set (D := nodup Z.eq_dec t). assert (ND : NoDup D) by apply NoDup_nodup.
    assert (FD : Forall (fun v => (0 <= v < M)%Z) D) by (rewrite Forall_forall in *; intros x Hx; apply Ft, (nodup_In Z.eq_dec), Hx).
    assert (E : forall l, rs (fun v => s ^ length (nodup Z.eq_dec (v :: t))) l = rs (fun v => if has D v then s ^ length D else s * s ^ length D) l).
    { induction l as [|v l IHl]; cbn [rs]; [reflexivity|]. rewrite IHl. f_equal. cbn [nodup]. fold D. destruct (in_dec Z.eq_dec v t) as [Hi|Hi].
      - assert (has D v = true) as -> by (apply has_in, nodup_In, Hi). reflexivity.
      - assert (has D v = false) as -> by (apply not_true_is_false; intros H; apply Hi, (nodup_In Z.eq_dec), has_in, H). reflexivity. }
    rewrite E, rs_if. fold (distinct M D). rewrite distinct_nodup by assumption. rewrite <- INR_IZR_INZ. assert (INR (length (values M)) = IZR M) as -> by (rewrite INR_IZR_INZ, values_length by lia; reflexivity).
    assert (LD : INR (length D) <= INR b) by (apply le_INR; rewrite <- Lt; apply NoDup_incl_length; [exact ND|intros x; apply nodup_In]).
    unfold step. cbn [pred]. assert (0 <= s ^ length D) by (apply pow_le; lra). pose proof (pos_INR (length D)). assert (0 <= (INR b - INR (length D)) * (1 - s)) by nra. nra.
  - rewrite rs_mul. cbn [pow]. apply Rmult_le_compat_l; [lra|]. apply Rle_trans with (1 := IH ltac:(lra)). apply pow_incr. exact S0.
Qed.
Lemma covered_upper a b : INR (pred b) <= IZR M -> IZR (covered M a b) <= IZR M ^ a * step (setp a) b ^ b.
Proof.
  intros Hb. pose proof M1 as M1. unfold covered. rewrite (sum_swap (fun s t => b2z (forallb (has s) t))). rewrite rs_sum.
  apply Rle_trans with (rs (fun t => IZR M ^ a * setp a ^ length (nodup Z.eq_dec t)) (tables M b)).
  - apply rs_le. intros t Ht. apply tables_in in Ht as [Lt Ft]. rewrite rs_sum.
    assert (E : forall l, rs (fun s => IZR (b2z (forallb (has s) t))) l = rs (fun s => IZR (b2z (forallb (has s) (nodup Z.eq_dec t)))) l) by (induction l as [|s l IHl]; cbn [rs]; [reflexivity|rewrite IHl, (nodup_forallb s t); reflexivity]).
    rewrite E. apply cov_le; [apply NoDup_nodup|]. rewrite Forall_forall in *. intros x Hx. apply Ft, (nodup_In Z.eq_dec), Hx.
  - rewrite rs_mul. apply Rmult_le_compat_l; [apply pow_le; lra|]. apply probes; [apply setp_bound|exact Hb].
Qed.
End upper.

Lemma rate_upper E m k o w : sane E m k -> (Z.of_nat (o + w) < 2 ^ 64)%Z -> window E o w ->
  let K := Z.to_nat (clamp_k k) in let M := IZR (64 * words m) in let s := 1 - (1 - 1 / M) ^ (K * w) in
  rate E m k (o + w) <= (s + (INR K - 1) / M * (1 - s)) ^ K.
Proof.
  intros HS HN HW. destruct (rate_covered E m k o w HS HN HW) as [-> HM]. cbv zeta in *. pose proof HS as (_ & _ & Hm & Hk). pose proof (clamp_bound k Hk) as HK. pose proof (words_bound m Hm) as (HW0 & _).
  assert (HM64 : 64 <= IZR (64 * words m)) by (apply IZR_le; lia). set (M := (64 * words m)%Z) in *. destruct (Z.to_nat (clamp_k k)) as [|K] eqn:EK; [lia|]. set (a := (S K * w)%nat). assert (HM1 : (1 <= M)%Z) by (apply le_IZR; lra).
  assert (KM : INR K <= IZR M) by (apply Rle_trans with 30; [|lra]; rewrite INR_IZR_INZ; apply IZR_le; lia).
  pose proof (covered_upper M HM1 a (S K) KM) as C. fold (setp M a). set (s := setp M a) in *.
  assert (P : forall n, 0 < IZR M ^ n) by (intros n; apply pow_lt; lra). apply Rmult_le_reg_r with (IZR M ^ a * IZR M ^ S K); [apply Rmult_lt_0_compat; apply P|].
  replace (IZR (covered M a (S K)) / (IZR M ^ a * IZR M ^ S K) * (IZR M ^ a * IZR M ^ S K)) with (IZR (covered M a (S K))) by (field; split; apply Rgt_not_eq, P).
  eapply Rle_trans; [exact C|]. right. rewrite (Rmult_comm _ (IZR M ^ a * _)), Rmult_assoc. f_equal. rewrite <- Rpow_mult_distr. f_equal. unfold step. cbn [pred]. rewrite S_INR. field. lra.
Qed.
Lemma window_size E o w : (1 <= E)%Z -> window E o w -> (Z.of_nat w <= 2 * E + 1)%Z.
Proof.
  intros HE HW. destruct (Z_le_gt_dec (Z.of_nat w) (2 * E + 1)) as [H|H]; [exact H|exfalso]. unfold window in HW. pose proof (HW (Z.of_nat o + 1)%Z ltac:(lia)) as [_ W].
  pose proof (gen_far E (Z.of_nat o + 1) (Z.of_nat (o + w)) HE ltac:(lia) ltac:(lia)). specialize (W ltac:(lia)). lia.
Qed.
