(** Properties C37-C39 of cache/bloom.go.  [h] is an arbitrary family of hash functions; [E] is expectedItems,
    [m] and [k] the bit and hash counts that the constructor's floating point formula gave. *)
From Coq Require Import ZArith List Bool Lia.
From Verif Require Import GoInt Bloom_Model Bloom_Spec Bloom_Proofs Bloom_Conc.
Import ListNotations.
Local Open Scope Z_scope.

(** The constructor's sizes are sane: at least one item, at least one bit, at least zero hash functions before the clamp. *)
Definition sane (E m k : Z) : Prop := 1 <= E /\ 3 * E + 1 < 2^64 /\ 1 <= m < 2^64 - 128 /\ 0 <= k.

Lemma words_bound m : 1 <= m < 2^64 - 128 -> 1 <= words m /\ 64 * words m < 2^64 /\ m <= 64 * words m.
Proof.
  intros Hm. unfold words. rewrite u64_id by (unfold is_u64; lia).
  pose proof (Z.div_mod (m + 64 - 1) 64 ltac:(lia)). pose proof (Z.mod_pos_bound (m + 64 - 1) 64 ltac:(lia)). lia.
Qed.
Lemma clamp_bound k : 0 <= k -> 1 <= clamp_k k <= 30.
Proof. intros Hk. unfold clamp_k. destruct (Z.eqb_spec k 0), (Z.ltb_spec 29 k); lia. Qed.

(** C38, the exact answer. After any history, Contains(y) is true if and only if every bit of [y] was set by an item
    added in the current generation or the one before it. *)
Theorem c38_contains_exact : forall (item : Type) (h : Z -> item -> Z) (E m k : Z) (os : list (bop item)) (y : item),
  sane E m k -> count os < 2^64 ->
  (fst (Contains h (brun h E m k os) y) = true <->
   forall j, 0 <= j < clamp_k k -> exists c x i, added_at os c x /\
     generation E (count os) - 1 <= generation E c /\ 0 <= i < clamp_k k /\
     h i x mod (64 * words m) = h j y mod (64 * words m)).
Proof.
  intros item h E m k os y (HE & HE64 & Hm & Hk) Hc.
  destruct (words_bound m Hm) as (HA & HA64 & _). pose proof (clamp_bound k Hk) as HK.
  pose proof (run_view h E (words m) (clamp_k k) HE HE64 HA HA64 _
    (new_view h E (words m) (clamp_k k) HE HE64 HA m k eq_refl eq_refl) ltac:(lia) os Hc) as HV.
  fold (brun h E m k os) in HV. set (bf := brun h E m k os) in *. unfold Contains.
  assert (Hhc : hashCount bf = clamp_k k) by (destruct HV; auto). rewrite Hhc.
  destruct (contains_loop_view h E (words m) (clamp_k k) HE HE64 HA HA64 (Z.to_nat (clamp_k k)) bf _ _ _ 0 y HV) as (r & -> & Hr).
  cbn [fst]. rewrite Hr. rewrite Z2Nat.id by lia. cbn [Z.add].
  split; intros HF j Hj; specialize (HF j Hj).
  - destruct HF as [(c & x & Ha & Hg & (i & Hi & Hx))|(c & x & Ha & Hg & (i & Hi & Hx))];
      exists c, x, i; rewrite Z2Nat.id in Hi by lia; (split; [auto|]); (split; [lia|]); (split; [lia|auto]).
  - destruct HF as (c & x & i & Ha & Hg & Hi & Hx).
    pose proof (added_at_bound h _ _ _ Ha) as Hcb.
    pose proof (gen_mono E c (count os) HE ltac:(lia)) as Hmono.
    assert (HB : bits_from h (words m) (Z.to_nat (clamp_k k)) 0 x (h j y mod (64 * words m))).
    { exists i. rewrite Z2Nat.id by lia. split; [lia|auto]. }
    destruct (Z.eq_dec (generation E c) (generation E (count os))) as [Eg|Eg]; [left|right]; exists c, x; (split; [auto|]); (split; [lia|auto]).
Qed.
Print Assumptions c38_contains_exact.

(** C37. No false negative within the window: after an Add of [x], and at most E further Adds (and any number of
    Contains), Contains(x) is true. *)
Theorem c37_no_false_negative : forall (item : Type) (h : Z -> item -> Z) (E m k : Z) (pre post : list (bop item)) (x : item),
  sane E m k -> count (pre ++ BAdd x :: post) < 2^64 -> count post <= E ->
  fst (Contains h (brun h E m k (pre ++ BAdd x :: post)) x) = true.
Proof.
  intros item h E m k pre post x HS Hc Hp. apply c38_contains_exact; auto. intros j Hj.
  assert (Hcount : count (pre ++ BAdd x :: post) = count pre + 1 + count post).
  { unfold count. clear. induction pre as [|[y|y] pre IH]; cbn -[Z.of_nat] in *; lia. }
  exists (count pre + 1), x, j. split; [|split; [|split; [auto|auto]]].
  - split; [unfold count; lia|]. unfold count. replace (Z.to_nat (Z.of_nat (length (adds pre)) + 1 - 1)) with (length (adds pre)) by lia.
    clear. induction pre as [|[y|y] pre IH]; cbn; auto.
  - destruct HS as (HE & _). rewrite Hcount.
    assert (0 <= count pre) by (unfold count; lia). assert (0 <= count post) by (unfold count; lia).
    pose proof (gen_window E (count pre + 1) (count pre + 1 + count post) HE ltac:(lia) ltac:(lia)). lia.
Qed.
Print Assumptions c37_no_false_negative.

Definition ex_hash (i x : Z) : Z := x * 7 + i.
(** The window of E is exact: item 1 is still there after E = 3 further Adds and forgotten after 4. *)
Example c37_ex :
  let after := fun n => brun ex_hash 3 200 2 ([BAdd 100; BAdd 1] ++ map BAdd (firstn n [2; 3; 4; 5; 6])) in
  sane 3 200 2 /\ fst (Contains ex_hash (after 3%nat) 1) = true /\ fst (Contains ex_hash (after 4%nat) 1) = false.
Proof. vm_compute. repeat split; discriminate. Qed.
(** With no bit (m = 0) Add panics, is recovered, and the item is not found. *)
Example c37_ex_empty : fst (Contains ex_hash (brun ex_hash 3 0 2 [BAdd 1]) 1) = false.
Proof. reflexivity. Qed.

(** C37. The number of hash functions is between 1 and 30 and the array has at least [m] bits. *)
Theorem c37_sizes : forall E m k, 1 <= m < 2^64 - 128 -> 0 <= k ->
  let bf := NewBloomFilter E m k in 1 <= hashCount bf <= 30 /\ m <= 64 * arraySize bf < m + 64.
Proof.
  intros E m k Hm Hk bf. assert (HF : hashCount bf = clamp_k k /\ arraySize bf = words m).
  { unfold bf, NewBloomFilter, getBitIndex. destruct (gen_index _) as [[i r] p]. destruct (get_arr _ i); [auto|]. cbn [snd].
    set (x := Bloom None None None _ _ _ _). destruct (set_fields x i (Some (repeat 0 (Z.to_nat (arraySize x))))) as (F1 & _ & F3 & _).
    set (y := set_arr x i _) in *. destruct (set_fields y r None) as (G1 & _ & G3 & _). rewrite G1, G3, F1, F3. auto. }
  destruct HF as [-> ->]. split; [apply clamp_bound; auto|]. unfold words. rewrite u64_id by (unfold is_u64; lia).
  pose proof (Z.div_mod (m + 64 - 1) 64 ltac:(lia)). pose proof (Z.mod_pos_bound (m + 64 - 1) 64 ltac:(lia)). lia.
Qed.
Print Assumptions c37_sizes.

(** C38. Old items have no influence: two histories that differ only before the last 2E+1 Adds give the same answers. *)
Theorem c38_forgets : forall (item : Type) (h : Z -> item -> Z) (E m k : Z) (p1 p2 q : list (bop item)) (y : item),
  sane E m k -> count p1 = count p2 -> 2 * E + 1 <= count q -> count (p1 ++ q) < 2^64 ->
  fst (Contains h (brun h E m k (p1 ++ q)) y) = fst (Contains h (brun h E m k (p2 ++ q)) y).
Proof.
  intros item h E m k p1 p2 q y HS Hp Hq Hc.
  assert (Happ : forall p, count (p ++ q) = count p + count q).
  { intros p. unfold count. rewrite adds_app. rewrite app_length. lia. }
  assert (HG : forall p p', count p = count p' -> count (p ++ q) < 2^64 ->
     fst (Contains h (brun h E m k (p ++ q)) y) = true -> fst (Contains h (brun h E m k (p' ++ q)) y) = true).
  { intros p p' Hpp Hcp HC. rewrite c38_contains_exact in HC |- * by (auto; rewrite Happ, <- ?Hpp, <- Happ; auto).
    intros j Hj. destruct (HC j Hj) as (c & x & i & Ha & Hg & Hi & Hx). exists c, x, i.
    rewrite !Happ in *. rewrite <- Hpp. split; [|auto].
    destruct Ha as [Hc1 Ha]. destruct HS as (HE & _).
    assert (0 <= count p) by (unfold count; lia).
    assert (count p < c).
    { destruct (Z.lt_ge_cases (count p) c) as [|Hle]; [auto|]. exfalso.
      pose proof (gen_far E c (count p + count q) HE ltac:(lia) ltac:(lia)). lia. }
    split; [auto|]. rewrite adds_app in Ha |- *. unfold count in *.
    rewrite nth_error_app2 in Ha |- * by lia. replace (length (adds p')) with (length (adds p)) by lia. auto. }
  destruct (fst (Contains h (brun h E m k (p1 ++ q)) y)) eqn:E1.
  - symmetry. apply (HG p1 p2); auto.
  - destruct (fst (Contains h (brun h E m k (p2 ++ q)) y)) eqn:E2; [|auto].
    rewrite (HG p2 p1) in E1; auto. rewrite Happ, <- Hp, <- Happ. auto.
Qed.
Print Assumptions c38_forgets.
Example c38_ex : sane 3 200 2 /\
  fst (Contains ex_hash (brun ex_hash 3 200 2 (map BAdd [1; 2] ++ map BAdd [11; 12; 13; 14; 15; 16; 17])) 1) = false.
Proof. vm_compute. repeat split; discriminate. Qed.

(** C38. After every history at most two of the three arrays exist, each of the constructor's size. *)
Theorem c38_memory : forall (item : Type) (h : Z -> item -> Z) (E m k : Z) (os : list (bop item)),
  sane E m k -> count os < 2^64 ->
  let bf := brun h E m k os in
  (exists i, 0 <= i < 3 /\ get_arr bf i = None) /\
  (forall i a, 0 <= i < 3 -> get_arr bf i = Some a -> Z.of_nat (length a) = words m).
Proof.
  intros item h E m k os (HE & HE64 & Hm & Hk) Hc bf.
  destruct (words_bound m Hm) as (HA & HA64 & _). pose proof (clamp_bound k Hk) as HK.
  pose proof (run_view h E (words m) (clamp_k k) HE HE64 HA HA64 _
    (new_view h E (words m) (clamp_k k) HE HE64 HA m k eq_refl eq_refl) ltac:(lia) os Hc) as HV.
  fold (brun h E m k os) in HV. fold bf in HV. destruct HV. set (g := generation E (count os)) in *.
  assert (HB : forall x, 0 <= x mod 3 < 3) by (intros; apply Z.mod_pos_bound; lia).
  split; [exists ((g + 1) mod 3); auto|]. intros i a Hi Ha.
  assert (HC : i = g mod 3 \/ i = (g + 1) mod 3 \/ i = (g + 2) mod 3).
  { pose proof (Z.div_mod g 3 ltac:(lia)). pose proof (HB g).
    assert (forall r, (g + r) mod 3 = (g mod 3 + r) mod 3) as HR by (intros; rewrite Zplus_mod_idemp_l; auto).
    rewrite (HR 1), (HR 2). assert (g mod 3 = 0 \/ g mod 3 = 1 \/ g mod 3 = 2) as [-> |[-> | ->]] by lia; cbn; lia. }
  destruct HC as [-> |[-> | ->]].
  - destruct v_cur as (a' & E1 & [HL _]). congruence.
  - congruence.
  - rewrite Ha in v_prev. destruct v_prev. auto.
Qed.
Print Assumptions c38_memory.
Example c38_ex_memory : let bf := brun ex_hash 3 200 2 (map BAdd [1; 2; 3; 4; 5; 6; 7]) in
  (b0 bf, match b1 bf with Some a => length a | None => 0%nat end, match b2 bf with Some a => length a | None => 0%nat end) = (None, 4%nat, 4%nat).
Proof. vm_compute. reflexivity. Qed.

(** C39, refuted: two goroutines that each Add one item of the same word; both Adds have returned, the first item is lost. *)
Theorem c39_concurrent_add_refuted : exists (h : Z -> Z -> Z) (E m k : Z) (progs : list (list Z)) (sched : list nat) (x : Z),
  sane E m k /\ let c := bconf_run h E m k progs sched in
  map bpos (bths c) = [PIdle; PIdle] /\ map bdone (bths c) = progs /\ In x (concat progs) /\
  Z.of_nat (length (concat progs)) <= E /\ fst (Contains h (bf_of c) x) = false.
Proof.
  exists (fun _ x => x), 10, 64, 1, [[0]; [1]], [0; 0; 1; 1; 0; 1; 0; 1; 0; 1]%nat, 0. vm_compute.
  repeat split; auto; discriminate.
Qed.
Print Assumptions c39_concurrent_add_refuted.

(** C39, the part that holds: as long as goroutines touch different words and fewer than E Adds happen in all, every item
    whose Add has returned is found, in every interleaving. *)
Theorem c39_disjoint_words_partial : forall (item : Type) (h : Z -> item -> Z) (E m k : Z) (progs : list (list item))
    (sched : list nat) (t : nat) (th : bthread item) (x : item),
  sane E m k -> Z.of_nat (length (concat progs)) < E ->
  (forall t t' p p' x x' i i', t <> t' -> nth_error progs t = Some p -> nth_error progs t' = Some p' ->
     In x p -> In x' p' -> 0 <= i < clamp_k k -> 0 <= i' < clamp_k k ->
     h i x mod (64 * words m) / 64 <> h i' x' mod (64 * words m) / 64) ->
  let c := bconf_run h E m k progs sched in
  nth_error (bths c) t = Some th -> In x (bdone th) -> fst (Contains h (bf_of c) x) = true.
Proof.
  intros item h E m k progs sched t th x (HE & HE64 & Hm & Hk) Hlt Hdisj c Eth Hx.
  destruct (words_bound m Hm) as (HA & HA64 & _). pose proof (clamp_bound k Hk) as HK.
  eapply run_found; eauto. lia.
Qed.
Print Assumptions c39_disjoint_words_partial.
Example c39_ex : let c := bconf_run (fun _ x => x) 10 128 1 [[0; 1]; [70; 71]] (concat (repeat [0; 1]%nat 12)) in
  map bpos (bths c) = [PIdle; PIdle] /\ map bdone (bths c) = [[0; 1]; [70; 71]] /\ fst (Contains (fun _ x => x) (bf_of c) 71) = true.
Proof. vm_compute. auto. Qed.
