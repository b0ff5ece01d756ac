From Coq Require Import ZArith List Bool Lia Psatz.
From Verif Require Import GoInt Bloom_Model Bloom_Spec.
Import ListNotations.
Local Open Scope Z_scope.

(** *** generations *)
Lemma gen_decomp E c : 1 <= E -> 0 <= c -> exists q f, 0 <= q /\ 0 <= f < 3 * E + 1 /\ c = q * (3 * E + 1) + f /\
  c mod (3 * E + 1) = f /\ c / (3 * E + 1) = q /\
  generation E c = 3 * q + (if f <? E then 0 else if f <? 2 * E then 1 else 2).
Proof.
  intros HE Hc. exists (c / (3 * E + 1)), (c mod (3 * E + 1)).
  pose proof (Z.div_mod c (3 * E + 1) ltac:(lia)). pose proof (Z.mod_pos_bound c (3 * E + 1) ltac:(lia)).
  pose proof (Z.div_pos c (3 * E + 1) Hc ltac:(lia)). repeat split; try lia.
Qed.

Ltac gcases := repeat match goal with |- context [?a <? ?b] => destruct (Z.ltb_spec a b) end.

Lemma gen_nonneg E c : 1 <= E -> 0 <= c -> 0 <= generation E c.
Proof. intros HE Hc. destruct (gen_decomp E c HE Hc) as (q & f & Hq & Hf & _ & _ & _ & ->). gcases; lia. Qed.

Lemma gen_window E c c' : 1 <= E -> 0 <= c <= c' -> c' <= c + E -> generation E c <= generation E c' <= generation E c + 1.
Proof.
  intros HE Hc Hd. destruct (gen_decomp E c HE ltac:(lia)) as (q & f & Hq & Hf & Ec & _ & _ & ->).
  destruct (gen_decomp E c' HE ltac:(lia)) as (q' & f' & Hq' & Hf' & Ec' & _ & _ & ->).
  assert (HC : q' = q \/ q' = q + 1).
  { assert (q <= q') by nia. assert (q' <= q + 1) by nia. lia. }
  destruct HC as [->| ->]; gcases; lia.
Qed.

Lemma gen_mono E c c' : 1 <= E -> 0 <= c <= c' -> generation E c <= generation E c'.
Proof.
  intros HE Hc. destruct (gen_decomp E c HE ltac:(lia)) as (q & f & Hq & Hf & Ec & _ & _ & ->).
  destruct (gen_decomp E c' HE ltac:(lia)) as (q' & f' & Hq' & Hf' & Ec' & _ & _ & ->).
  assert (q <= q') by nia. destruct (Z.eq_dec q q') as [->|]; gcases; lia.
Qed.

Lemma gen_far E c c' : 1 <= E -> 0 <= c -> c + 2 * E + 1 <= c' -> generation E c + 2 <= generation E c'.
Proof.
  intros HE Hc Hd. destruct (gen_decomp E c HE ltac:(lia)) as (q & f & Hq & Hf & Ec & _ & _ & ->).
  destruct (gen_decomp E c' HE ltac:(lia)) as (q' & f' & Hq' & Hf' & Ec' & _ & _ & ->).
  assert (q <= q') by nia. destruct (Z.eq_dec q' q) as [->|]; [gcases; lia|].
  destruct (Z.eq_dec q' (q + 1)) as [->|]; gcases; lia.
Qed.

Lemma gen_succ E c : 1 <= E -> 0 <= c -> generation E (c + 1) = generation E c \/ generation E (c + 1) = generation E c + 1.
Proof. intros HE Hc. pose proof (gen_window E c (c + 1) HE ltac:(lia) ltac:(lia)). lia. Qed.

(** *** arrays *)
Lemma get_set_same bf i a : 0 <= i < 3 -> get_arr (set_arr bf i a) i = a.
Proof. intros Hi. unfold get_arr, set_arr. destruct (Z.eqb_spec i 0), (Z.eqb_spec i 1); auto. Qed.
Lemma get_set_other bf i j a : 0 <= i < 3 -> 0 <= j < 3 -> i <> j -> get_arr (set_arr bf i a) j = get_arr bf j.
Proof.
  intros Hi Hj Hn. unfold get_arr, set_arr.
  destruct (Z.eqb_spec i 0), (Z.eqb_spec i 1), (Z.eqb_spec j 0), (Z.eqb_spec j 1); cbn; auto; lia.
Qed.
Lemma set_fields bf i a : hashCount (set_arr bf i a) = hashCount bf /\ numCount (set_arr bf i a) = numCount bf /\
  arraySize (set_arr bf i a) = arraySize bf /\ expectedItems (set_arr bf i a) = expectedItems bf.
Proof. unfold set_arr. destruct (i =? 0), (i =? 1); auto. Qed.

Definition arr_ok (A : Z) (a : list Z) (S : Z -> Prop) : Prop :=
  Z.of_nat (length a) = A /\ forall ix, 0 <= ix < 64 * A -> (Z.testbit (nth (Z.to_nat (ix / 64)) a 0) (ix mod 64) = true <-> S ix).

Lemma word_bounds A ix : 0 <= ix < 64 * A -> 0 <= ix / 64 < A /\ 0 <= ix mod 64 < 64.
Proof.
  intros H. split; [|apply Z.mod_pos_bound; lia]. split; [apply Z.div_pos; lia|apply Z.div_lt_upper_bound; lia].
Qed.

Lemma word_split ix iy : ix / 64 = iy / 64 -> ix mod 64 = iy mod 64 -> ix = iy.
Proof. intros. pose proof (Z.div_mod ix 64). pose proof (Z.div_mod iy 64). lia. Qed.

Lemma arr_ok_zero A : 0 <= A -> arr_ok A (repeat 0 (Z.to_nat A)) (fun _ => False).
Proof.
  intros HA. split; [rewrite repeat_length; lia|]. intros ix Hix. rewrite nth_repeat, Z.bits_0. split; [discriminate|tauto].
Qed.

Lemma arr_ok_set A a S ix : arr_ok A a S -> 0 <= ix < 64 * A ->
  arr_ok A (upd (Z.to_nat (ix / 64)) (Z.lor (nth (Z.to_nat (ix / 64)) a 0) (Z.shiftl 1 (ix mod 64))) a)
    (fun iy => S iy \/ iy = ix).
Proof.
  intros [HL HS] Hix. destruct (word_bounds A ix Hix) as [Hw Hb]. split; [rewrite upd_length; auto|].
  intros iy Hiy. destruct (word_bounds A iy Hiy) as [Hw' Hb']. rewrite nth_upd. specialize (HS iy Hiy).
  destruct (Nat.eqb_spec (Z.to_nat (ix / 64)) (Z.to_nat (iy / 64))) as [Ew|Ew].
  - replace (Nat.ltb _ _) with true by (symmetry; apply Nat.ltb_lt; lia).
    assert (ix / 64 = iy / 64) as Ew2 by lia. rewrite Ew2. rewrite Z.lor_spec, orb_true_iff, HS.
    rewrite Z.shiftl_spec by lia. split.
    + intros [H1|H1]; [auto|]. right. symmetry. apply word_split; [auto|].
      destruct (Z.eq_dec (iy mod 64 - ix mod 64) 0); [lia|].
      exfalso. destruct (Z.lt_ge_cases (iy mod 64 - ix mod 64) 0); [rewrite Z.testbit_neg_r in H1 by lia; discriminate|].
      change 1 with (2^0) in H1. rewrite Z.pow2_bits_eqb in H1 by lia. apply Z.eqb_eq in H1. lia.
    + intros [H1| ->]; [auto|]. right. rewrite Z.sub_diag. auto.
  - rewrite HS. split; [auto|]. intros [H1| ->]; [auto|]. congruence.
Qed.

Lemma land_bit w b : 0 <= b -> negb (Z.land w (Z.shiftl 1 b) =? 0) = Z.testbit w b.
Proof.
  intros Hb. rewrite Z.shiftl_1_l. destruct (Z.testbit w b) eqn:E.
  - destruct (Z.eqb_spec (Z.land w (2^b)) 0) as [E0|]; [|auto].
    assert (Z.testbit (Z.land w (2^b)) b = false) by (rewrite E0; apply Z.bits_0).
    rewrite Z.land_spec, E, Z.pow2_bits_true in H by lia. discriminate.
  - replace (Z.land w (2^b)) with 0; [auto|]. symmetry. apply Z.bits_inj'. intros n Hn. rewrite Z.bits_0, Z.land_spec.
    rewrite Z.pow2_bits_eqb by lia. destruct (Z.eqb_spec b n) as [->|]; [rewrite E|rewrite andb_false_r]; auto.
Qed.

(** *** the filter *)
Section view.
Context {item : Type} (h : Z -> item -> Z) (E A K : Z).
Hypothesis HE : 1 <= E.
Hypothesis HE64 : 3 * E + 1 < 2^64.
Hypothesis HA : 1 <= A.
Hypothesis HA64 : 64 * A < 2^64.

Record view (bf : bloom) (c : Z) (cur prev : Z -> Prop) : Prop := {
  v_k : hashCount bf = K; v_c : numCount bf = c; v_a : arraySize bf = A; v_e : expectedItems bf = E;
  v_pos : 0 <= c;
  v_cur : exists a, get_arr bf (generation E c mod 3) = Some a /\ arr_ok A a cur;
  v_prev : match get_arr bf ((generation E c + 2) mod 3) with
           | Some a => arr_ok A a prev | None => forall ix, ~ prev ix end;
  v_rm : get_arr bf ((generation E c + 1) mod 3) = None }.

Lemma gen_index_spec bf c : numCount bf = c -> expectedItems bf = E -> 0 <= c ->
  gen_index bf = (generation E c mod 3, (generation E c + 1) mod 3, (generation E c + 2) mod 3).
Proof.
  intros Hc He Hp. unfold gen_index. rewrite Hc, He. rewrite !u64_id by (unfold is_u64; lia).
  replace (E * 3 + 1) with (3 * E + 1) by lia. replace (E * 2) with (2 * E) by lia.
  destruct (gen_decomp E c HE Hp) as (q & f & Hq & Hf & _ & -> & _ & ->).
  assert (HM : forall r, (3 * q + r) mod 3 = r mod 3).
  { intros r. replace (3 * q + r) with (r + q * 3) by lia. apply Z.mod_add. lia. }
  gcases; rewrite <- !Z.add_assoc, !HM; reflexivity.
Qed.

Lemma mod3_bound x : 0 <= x mod 3 < 3.
Proof. apply Z.mod_pos_bound. lia. Qed.
Lemma mod3_ne x y : x mod 3 = y mod 3 -> (x - y) mod 3 = 0.
Proof. intros Hm. rewrite Zminus_mod, Hm, Z.sub_diag. auto. Qed.
Lemma mod3_01 x : x mod 3 <> (x + 1) mod 3.
Proof. intros Hm. apply mod3_ne in Hm. replace (x - (x + 1)) with (-1) in Hm by lia. discriminate. Qed.
Lemma mod3_02 x : x mod 3 <> (x + 2) mod 3.
Proof. intros Hm. apply mod3_ne in Hm. replace (x - (x + 2)) with (-2) in Hm by lia. discriminate. Qed.
Lemma mod3_12 x : (x + 1) mod 3 <> (x + 2) mod 3.
Proof. intros Hm. apply mod3_ne in Hm. replace (x + 1 - (x + 2)) with (-1) in Hm by lia. discriminate. Qed.
Lemma mod3_3 x : (x + 3) mod 3 = x mod 3.
Proof. rewrite Zplus_mod. change (3 mod 3) with 0. rewrite Z.add_0_r, Z.mod_mod by lia. auto. Qed.

Lemma getBitIndex_view bf c cur prev : view bf c cur prev ->
  getBitIndex bf = (generation E c mod 3, (generation E c + 2) mod 3, bf).
Proof.
  intros HV. destruct HV. unfold getBitIndex. rewrite (gen_index_spec bf c) by auto.
  destruct v_cur0 as (a & Ea & _). rewrite Ea. auto.
Qed.

(** entering the next count, possibly the next generation *)
Definition bump (bf : bloom) : bloom :=
  Bloom (b0 bf) (b1 bf) (b2 bf) (hashCount bf) (u64 (numCount bf + 1)) (arraySize bf) (expectedItems bf).

Lemma bump_view bf c cur prev : view bf c cur prev -> c + 1 < 2^64 ->
  exists bf', snd (getBitIndex (bump bf)) = bf' /\
    ((generation E (c + 1) = generation E c /\ view bf' (c + 1) cur prev) \/
     (generation E (c + 1) = generation E c + 1 /\ view bf' (c + 1) (fun _ => False) cur)).
Proof.
  intros HV Hc. destruct HV. eexists. split; [reflexivity|].
  assert (Hn : numCount (bump bf) = c + 1) by (cbn; rewrite v_c0; apply u64_id; unfold is_u64; lia).
  assert (Hget : forall i, get_arr (bump bf) i = get_arr bf i) by reflexivity.
  destruct (gen_succ E c HE v_pos0) as [Eg|Eg]; [left|right]; (split; [exact Eg|]);
    unfold getBitIndex; rewrite (gen_index_spec (bump bf) (c + 1)) by (auto; lia); rewrite Hget.
  - rewrite Eg. destruct v_cur0 as (a & Ea & Ha). rewrite Ea. cbn [snd].
    split; rewrite ?Eg; auto; [lia|]. exists a. auto.
  - rewrite Eg. rewrite v_rm0. cbn [snd].
    set (g := generation E c) in *. replace (g + 1 + 1) with (g + 2) by lia. replace (g + 1 + 2) with (g + 3) by lia.
    set (bf1 := set_arr (bump bf) ((g + 1) mod 3) _).
    destruct (set_fields (bump bf) ((g + 1) mod 3) (Some (repeat 0 (Z.to_nat (arraySize (bump bf)))))) as (F1 & F2 & F3 & F4).
    destruct (set_fields bf1 ((g + 2) mod 3) None) as (G1 & G2 & G3 & G4). fold bf1 in F1, F2, F3, F4.
    split; rewrite ?G1, ?G2, ?G3, ?G4, ?F1, ?F2, ?F3, ?F4, ?Hn; auto; try lia; rewrite ?Eg; fold g.
    + exists (repeat 0 (Z.to_nat A)). rewrite get_set_other by (try apply mod3_bound; intros Hx; symmetry in Hx; revert Hx; apply mod3_12).
      unfold bf1. rewrite get_set_same by apply mod3_bound. cbn [bump arraySize]. rewrite v_a0. split; [auto|]. apply arr_ok_zero. lia.
    + replace (g + 1 + 2) with (g + 3) by lia. rewrite mod3_3.
      rewrite get_set_other by (try apply mod3_bound; intros Hx; symmetry in Hx; revert Hx; apply mod3_02).
      unfold bf1. rewrite get_set_other by (try apply mod3_bound; intros Hx; symmetry in Hx; revert Hx; apply mod3_01).
      rewrite Hget. destruct v_cur0 as (a & -> & Ha). auto.
    + replace (g + 1 + 1) with (g + 2) by lia. apply get_set_same, mod3_bound.
Qed.

Lemma getBitIndex_idem bf : expectedItems bf = E -> 0 <= numCount bf ->
  getBitIndex (snd (getBitIndex bf)) = getBitIndex bf.
Proof.
  intros He Hc. unfold getBitIndex at 2 3. rewrite (gen_index_spec bf (numCount bf)) by auto.
  set (g := generation E (numCount bf)).
  destruct (get_arr bf (g mod 3)) eqn:Ea; cbn [snd].
  - unfold getBitIndex. rewrite (gen_index_spec bf (numCount bf)) by auto. fold g. rewrite Ea. auto.
  - set (bf1 := set_arr bf (g mod 3) _).
    destruct (set_fields bf (g mod 3) (Some (repeat 0 (Z.to_nat (arraySize bf))))) as (F1 & F2 & F3 & F4).
    destruct (set_fields bf1 ((g + 1) mod 3) None) as (G1 & G2 & G3 & G4). fold bf1 in F1, F2, F3, F4.
    unfold getBitIndex. rewrite (gen_index_spec _ (numCount bf)) by congruence. fold g.
    rewrite get_set_other by (try apply mod3_bound; intros Hx; symmetry in Hx; revert Hx; apply mod3_01).
    unfold bf1. rewrite get_set_same by apply mod3_bound. auto.
Qed.

Lemma setBit_pre bf ix : expectedItems bf = E -> 0 <= numCount bf -> setBit (snd (getBitIndex bf)) ix = setBit bf ix.
Proof. intros He Hc. unfold setBit. rewrite getBitIndex_idem by auto. auto. Qed.

Lemma setBit_view bf c cur prev ix : view bf c cur prev -> 0 <= ix < 64 * A ->
  exists bf', setBit bf ix = (bf', true) /\ view bf' c (fun iy => cur iy \/ iy = ix) prev.
Proof.
  intros HV Hix. unfold setBit. rewrite (getBitIndex_view bf c cur prev HV). destruct HV.
  destruct v_cur0 as (a & Ea & Ha). rewrite Ea. destruct (word_bounds A ix Hix) as [Hw Hb].
  replace (ix / 64 <? Z.of_nat (length a)) with true by (symmetry; apply Z.ltb_lt; destruct Ha; lia).
  eexists. split; [reflexivity|]. set (g := generation E c) in *.
  match goal with |- view (set_arr bf ?i ?x) _ _ _ => destruct (set_fields bf i x) as (F1 & F2 & F3 & F4) end.
  split; rewrite ?F1, ?F2, ?F3, ?F4; auto; fold g.
  - eexists. rewrite get_set_same by apply mod3_bound. split; [reflexivity|]. apply arr_ok_set; auto.
  - rewrite get_set_other by (try apply mod3_bound; apply mod3_02). auto.
  - rewrite get_set_other by (try apply mod3_bound; apply mod3_01). auto.
Qed.

Lemma testBit_view bf c cur prev ix : view bf c cur prev -> 0 <= ix < 64 * A ->
  exists r, testBit bf ix = (r, bf) /\ (r = true <-> cur ix \/ prev ix).
Proof.
  intros HV Hix. unfold testBit. rewrite (getBitIndex_view bf c cur prev HV). destruct HV.
  destruct v_cur0 as (a & Ea & [HLa HSa]). rewrite Ea. destruct (word_bounds A ix Hix) as [Hw Hb].
  replace (ix / 64 <? Z.of_nat (length a)) with true by (symmetry; apply Z.ltb_lt; lia).
  rewrite land_bit by lia. eexists. split; [reflexivity|]. specialize (HSa ix Hix).
  destruct (Z.testbit (nth (Z.to_nat (ix / 64)) a 0) (ix mod 64)); [tauto|].
  destruct (get_arr bf ((generation E c + 2) mod 3)) as [a'|].
  - destruct v_prev0 as [HLp HSp]. specialize (HSp ix Hix).
    replace (ix / 64 <? Z.of_nat (length a')) with true by (symmetry; apply Z.ltb_lt; lia).
    rewrite land_bit by lia. destruct (Z.testbit (nth (Z.to_nat (ix / 64)) a' 0) (ix mod 64)).
    + split; [intros _; right; apply HSp; auto|auto].
    + split; [discriminate|]. intros [H1|H1]; [apply HSa in H1|apply HSp in H1]; discriminate.
  - split; [discriminate|]. intros [H1|H1]; [apply HSa in H1; discriminate|]. exfalso. eapply v_prev0; eauto.
Qed.

Lemma bit_of_view bf i x : arraySize bf = A -> bit_of h bf i x = Some (h i x mod (64 * A)).
Proof.
  intros Ha. unfold bit_of. rewrite Ha. rewrite u64_id by (unfold is_u64; lia).
  replace (A * 64) with (64 * A) by lia. destruct (Z.eqb_spec (64 * A) 0); [lia|auto].
Qed.
Lemma bit_range i (x : item) : 0 <= h i x mod (64 * A) < 64 * A.
Proof. apply Z.mod_pos_bound. lia. Qed.

(** bits of an item under hash functions [i .. i+n) *)
Definition bits_from (n : nat) (i : Z) (x : item) (ix : Z) : Prop :=
  exists j, i <= j < i + Z.of_nat n /\ h j x mod (64 * A) = ix.

Lemma add_loop_view n : forall bf c cur prev i x, view bf c cur prev ->
  exists cur', view (add_loop h bf n i x) c cur' prev /\ (forall ix, cur' ix <-> cur ix \/ bits_from n i x ix).
Proof.
  induction n as [|n IH]; intros bf c cur prev i x HV; cbn [add_loop].
  - exists cur. split; [auto|]. intros ix. split; [auto|]. intros [H|(j & Hj & _)]; [auto|lia].
  - rewrite (bit_of_view bf i x) by (destruct HV; auto).
    destruct (setBit_view bf c cur prev _ HV (bit_range i x)) as (bf' & -> & HV').
    destruct (IH bf' c _ prev (i + 1) x HV') as (cur' & HV2 & Hc). exists cur'. split; [auto|].
    intros ix. rewrite Hc. split.
    + intros [[H| ->]|(j & Hj & Hx)]; [auto| |].
      * right. exists i. split; [lia|auto].
      * right. exists j. split; [lia|auto].
    + intros [H|(j & Hj & Hx)]; [auto|]. destruct (Z.eq_dec j i) as [->|]; [auto|]. right. exists j. split; [lia|auto].
Qed.

Lemma view_ext bf c cur prev cur' prev' : (forall ix, cur ix <-> cur' ix) -> (forall ix, prev ix <-> prev' ix) ->
  view bf c cur prev -> view bf c cur' prev'.
Proof.
  intros HC HP HV. destruct HV. split; auto.
  - destruct v_cur0 as (a & Ea & HL & HS). exists a. split; [auto|]. split; [auto|]. intros ix Hix. rewrite <- HC. auto.
  - destruct (get_arr bf ((generation E c + 2) mod 3)) as [a|].
    + destruct v_prev0 as [HL HS]. split; [auto|]. intros ix Hix. rewrite <- HP. auto.
    + intros ix Hx. apply HP in Hx. eapply v_prev0; eauto.
Qed.

Lemma Add_view bf c cur prev x : view bf c cur prev -> c + 1 < 2^64 -> 1 <= K ->
  (generation E (c + 1) = generation E c /\
     view (Add h bf x) (c + 1) (fun ix => cur ix \/ bits_from (Z.to_nat K) 0 x ix) prev) \/
  (generation E (c + 1) = generation E c + 1 /\
     view (Add h bf x) (c + 1) (bits_from (Z.to_nat K) 0 x) cur).
Proof.
  intros HV Hc HK. destruct (bump_view bf c cur prev HV Hc) as (bf' & Ebf & HB).
  assert (HAdd : Add h bf x = add_loop h bf' (Z.to_nat K) 0 x).
  { unfold Add. fold (bump bf). change (hashCount (bump bf)) with (hashCount bf). destruct HV. rewrite v_k0. destruct (Z.to_nat K) as [|n] eqn:En; [lia|].
    assert (Ha' : arraySize bf' = A) by (destruct HB as [[_ HB]|[_ HB]]; destruct HB; auto).
    cbn [add_loop]. rewrite (bit_of_view (bump bf)) by auto. rewrite (bit_of_view bf') by auto.
    rewrite <- Ebf. rewrite setBit_pre; auto. cbn. rewrite v_c0. rewrite u64_id by (unfold is_u64; lia). lia. }
  rewrite HAdd. destruct HB as [[Hg HB]|[Hg HB]]; [left|right]; (split; [auto|]);
    destruct (add_loop_view (Z.to_nat K) bf' (c + 1) _ _ 0 x HB) as (cur' & HV2 & Hcur); eapply view_ext; [| |exact HV2| | |exact HV2];
    try tauto; intros ix; rewrite Hcur; tauto.
Qed.

Lemma contains_loop_view n : forall bf c cur prev i x, view bf c cur prev ->
  exists r, contains_loop h bf n i x = (r, bf) /\
    (r = true <-> forall j, i <= j < i + Z.of_nat n -> cur (h j x mod (64 * A)) \/ prev (h j x mod (64 * A))).
Proof.
  induction n as [|n IH]; intros bf c cur prev i x HV; cbn [contains_loop].
  - exists true. split; [auto|]. split; [intros _ j Hj; lia|auto].
  - rewrite (bit_of_view bf i x) by (destruct HV; auto).
    destruct (testBit_view bf c cur prev _ HV (bit_range i x)) as (r & -> & Hr). destruct r.
    + destruct (IH bf c cur prev (i + 1) x HV) as (r' & -> & Hr'). exists r'. split; [auto|]. rewrite Hr'. split.
      * intros HF j Hj. destruct (Z.eq_dec j i) as [->|]; [apply Hr; auto|]. apply HF. lia.
      * intros HF j Hj. apply HF. lia.
    + exists false. split; [auto|]. split; [discriminate|]. intros HF. apply Hr. apply HF. lia.
Qed.

(** *** histories *)
(** the bits set by the Adds of generation [g] *)
Definition gen_bits (os : list (bop item)) (g : Z) (ix : Z) : Prop :=
  exists c x, added_at os c x /\ generation E c = g /\ bits_from (Z.to_nat K) 0 x ix.

Lemma adds_app os1 os2 : adds (os1 ++ os2) = adds os1 ++ @adds item os2.
Proof. induction os1 as [|[x|x] os1 IH]; cbn; congruence. Qed.

Lemma added_at_snoc (os : list (bop item)) x c y : added_at (os ++ [BAdd x]) c y <-> added_at os c y \/ (c = count os + 1 /\ y = x).
Proof.
  unfold added_at, count. rewrite adds_app. cbn [adds].
  destruct (Z.lt_ge_cases (c - 1) (Z.of_nat (length (adds os)))) as [Hlt|Hge].
  - split.
    + intros [H1 H2]. rewrite nth_error_app1 in H2 by lia. auto.
    + intros [[H1 H2]|[H1 _]]; [|lia]. rewrite nth_error_app1 by lia. auto.
  - split.
    + intros [H1 H2]. rewrite nth_error_app2 in H2 by lia. right.
      destruct (Z.to_nat (c - 1) - length (adds os))%nat as [|m] eqn:Em; cbn in H2; [|destruct m; discriminate].
      injection H2 as ->. split; [lia|auto].
    + intros [[H1 H2]|[-> ->]].
      * assert (HN : nth_error (adds os) (Z.to_nat (c - 1)) <> None) by congruence. apply nth_error_Some in HN. lia.
      * split; [lia|]. rewrite nth_error_app2 by lia.
        replace (Z.to_nat (Z.of_nat (length (adds os)) + 1 - 1) - length (adds os))%nat with 0%nat by lia. auto.
Qed.
Lemma added_at_bound (os : list (bop item)) c (y : item) : added_at os c y -> 1 <= c <= count os.
Proof.
  intros [H1 H2]. assert (HN : nth_error (adds os) (Z.to_nat (c - 1)) <> None) by congruence.
  apply nth_error_Some in HN. unfold count. lia.
Qed.

Lemma run_view bf0 : view bf0 0 (fun _ => False) (fun _ => False) -> 1 <= K -> forall os, count os < 2^64 ->
  view (fold_left (bstep h) os bf0) (count os)
    (gen_bits os (generation E (count os))) (gen_bits os (generation E (count os) - 1)).
Proof.
  intros H0 HK os. induction os as [|o os IH] using rev_ind; intros Hc.
  - cbn. eapply view_ext; [| |exact H0]; intros ix; (split; [tauto|]); intros (c & x & [H1 H2] & _);
      destruct (Z.to_nat (c - 1)); discriminate.
  - rewrite fold_left_app. cbn [fold_left]. destruct o as [x|x]; cbn [bstep].
    + assert (Hcount : count (os ++ [BAdd x]) = count os + 1) by (unfold count; rewrite adds_app, app_length; cbn; lia).
      rewrite Hcount in *. specialize (IH ltac:(lia)).
      assert (Hpos : 0 <= count os) by (unfold count; lia).
      assert (Hcur : forall g ix, gen_bits (os ++ [BAdd x]) g ix <->
         gen_bits os g ix \/ (generation E (count os + 1) = g /\ bits_from (Z.to_nat K) 0 x ix)).
      { intros g ix. unfold gen_bits. split.
        - intros (c & y & Ha & Hg & Hb). apply added_at_snoc in Ha as [Ha|[-> ->]]; [left; eauto|right; auto].
        - intros [(c & y & Ha & Hg & Hb)|[Hg Hb]].
          + exists c, y. split; [apply added_at_snoc; auto|auto].
          + exists (count os + 1), x. split; [apply added_at_snoc; auto|auto]. }
      assert (Hold : forall g ix, generation E (count os) < g -> ~ gen_bits os g ix).
      { intros g ix Hg (c & y & Ha & <- & _). pose proof (added_at_bound _ _ _ Ha).
        pose proof (gen_mono E c (count os) HE ltac:(lia)). lia. }
      destruct (Add_view _ _ _ _ x IH Hc HK) as [[Hg HV]|[Hg HV]]; (eapply view_ext; [| |exact HV]); intros ix; rewrite Hcur, Hg.
      * tauto.
      * split; [auto|]. intros [H|[H _]]; [auto|lia].
      * split; [auto|]. intros [H|[_ H]]; [exfalso; eapply Hold; [|exact H]; lia|auto].
      * replace (generation E (count os) + 1 - 1) with (generation E (count os)) by lia.
        split; [auto|]. intros [H|[H _]]; [auto|lia].
    + assert (Hcount : count (os ++ [BContains x]) = count os).
      { unfold count. rewrite adds_app. cbn [adds]. rewrite app_nil_r. auto. }
      rewrite Hcount in *. specialize (IH Hc). unfold Contains.
      destruct IH as [I1 I2 I3 I4 I5 I6 I7 I8] eqn:EI. clear EI.
      pose proof (Build_view _ _ _ _ I1 I2 I3 I4 I5 I6 I7 I8) as IH'.
      destruct (contains_loop_view (Z.to_nat (hashCount (fold_left (bstep h) os bf0))) _ _ _ _ 0 x IH') as (r & -> & _). cbn [snd].
      eapply view_ext; [| |exact IH']; intros ix; unfold gen_bits, added_at; rewrite adds_app; cbn [adds]; rewrite app_nil_r; tauto.
Qed.

Lemma new_view m k : words m = A -> clamp_k k = K -> view (NewBloomFilter E m k) 0 (fun _ => False) (fun _ => False).
Proof.
  intros Hm Hk. unfold NewBloomFilter, getBitIndex.
  rewrite (gen_index_spec _ 0) by (auto; lia).
  assert (Hg : generation E 0 = 0).
  { unfold generation. rewrite Z.mod_0_l, Z.div_0_l by lia. destruct (Z.ltb_spec 0 E); lia. }
  rewrite Hg. cbn -[Z.to_nat repeat]. rewrite Hm, Hk. split; rewrite ?Hg; auto; try lia.
  - exists (repeat 0 (Z.to_nat A)). split; [reflexivity|]. apply arr_ok_zero. lia.
  - cbn. auto.
Qed.
End view.
