From stdpp Require Import gmap sorting.
From Coq Require Import ZArith Lia.
From Verif Require Import GoInt CHash_Model CHash_Spec CHash_Crc.
Local Open Scope Z_scope.

(** *** sort and search *)
Lemma usort_sorted l : Sorted Z.le (usort l).
Proof. apply Sorted_merge_sort. exact Z.le_ge_cases || (intros x y; lia). Qed.
Lemma usort_elem l x : x ∈ usort l <-> x ∈ l.
Proof. unfold usort. rewrite merge_sort_Permutation. auto. Qed.

Lemma sorted_nth ks i j : Sorted Z.le ks -> (i <= j < length ks)%nat -> nth i ks 0 <= nth j ks 0.
Proof.
  intros HS. apply Sorted_StronglySorted in HS; [|intros x y z; lia].
  revert i j. induction HS as [|x ks HS IH HF]; intros [|i] [|j] Hij; cbn in *; try lia.
  - rewrite Forall_forall in HF. apply HF. apply elem_of_list_In, nth_In. lia.
  - apply IH. lia.
Qed.

Lemma lookup_nth (ks : list Z) i : (i < length ks)%nat -> ks !! i = Some (nth i ks 0).
Proof. intros Hi. rewrite nth_lookup. destruct (lookup_lt_is_Some_2 ks i Hi) as [y ->]. auto. Qed.

Lemma search_spec fuel f : forall i j,
  (forall x y, i <= x -> x <= y -> y < j -> f x = true -> f y = true) ->
  0 <= i <= j -> j - i < Z.of_nat fuel ->
  let r := search fuel f i j in
  i <= r <= j /\ (forall x, i <= x < r -> f x = false) /\ (forall x, r <= x < j -> f x = true).
Proof.
  induction fuel as [|fuel IH]; intros i j Hm Hij Hf; [lia|]. cbn [search].
  destruct (Z.ltb_spec i j) as [Hlt|Hge]; cbv zeta; [|repeat split; intros; lia].
  assert (Hx : i <= (i + j) / 2 < j).
  { split; [apply Z.div_le_lower_bound|apply Z.div_lt_upper_bound]; lia. }
  assert (Hh : j - i - 1 <= 2 * ((i + j) / 2 - i) <= j - i).
  { pose proof (Z.div_mod (i + j) 2 ltac:(lia)). pose proof (Z.mod_pos_bound (i + j) 2 ltac:(lia)). lia. }
  set (x := (i + j) / 2) in *. destruct (f x) eqn:Ex.
  - destruct (IH i x) as (I1 & I2 & I3); [intros; apply Hm with x0; auto; lia|lia|lia|].
    split; [lia|]. split; [auto|]. intros y Hy. destruct (Z.lt_ge_cases y x); [apply I3; lia|].
    apply (Hm x y); auto; lia.
  - destruct (IH (x + 1) j) as (I1 & I2 & I3); [intros; apply Hm with x0; auto; lia|lia|lia|].
    split; [lia|]. split; [|auto]. intros y Hy. destruct (Z.le_gt_cases y x); [|apply I2; lia].
    destruct (f y) eqn:Ey; auto. rewrite (Hm y x) in Ex; auto; lia.
Qed.

(** the index found: the first point at or after hv, or 0 *)
Lemma find_idx_spec ks hv : Sorted Z.le ks -> ks <> [] ->
  exists p, ks !! Z.to_nat (find_idx ks hv) = Some p /\
    ((hv <= p /\ forall q, q ∈ ks -> hv <= q -> p <= q) \/
     (forall q, q ∈ ks -> q < hv /\ p <= q)) /\
    (forall q, q ∈ take (Z.to_nat (find_idx ks hv)) ks -> q < hv).
Proof.
  intros HS Hne. unfold find_idx.
  destruct (search_spec (S (length ks)) (fun i => hv <=? nth (Z.to_nat i) ks 0) 0 (Z.of_nat (length ks))) as (H1 & H2 & H3);
    [|lia|lia|].
  { intros x y Hx Hxy Hy E. rewrite Z.leb_le in *. pose proof (sorted_nth ks (Z.to_nat x) (Z.to_nat y) HS ltac:(lia)). lia. }
  set (r := search _ _ 0 _) in *.
  assert (Hlen : (0 < length ks)%nat) by (destruct ks; [congruence|cbn; lia]).
  destruct (Z.leb_spec (Z.of_nat (length ks)) r) as [Hr|Hr].
  - exists (nth 0 ks 0). split.
    { destruct ks; [congruence|]. reflexivity. }
    split; [|intros q Hq; cbn in Hq; apply elem_of_nil in Hq; tauto]. right. intros q Hq.
    apply elem_of_list_In, (In_nth _ _ 0) in Hq as (j & Hj & <-).
    specialize (H2 (Z.of_nat j) ltac:(lia)). cbn beta in H2. rewrite Nat2Z.id in H2. apply Z.leb_gt in H2.
    split; [auto|]. apply sorted_nth; auto. lia.
  - exists (nth (Z.to_nat r) ks 0). split.
    { apply lookup_nth. lia. }
    split.
    + left. specialize (H3 r ltac:(lia)) as Hp. cbn beta in Hp. apply Z.leb_le in Hp. split; [auto|].
      intros q Hq Hhq. apply elem_of_list_In, (In_nth _ _ 0) in Hq as (j & Hj & <-).
      destruct (Z.lt_ge_cases (Z.of_nat j) r) as [Hlt|Hge].
      * specialize (H2 (Z.of_nat j) ltac:(lia)). cbn beta in H2. rewrite Nat2Z.id in H2. apply Z.leb_gt in H2. lia.
      * apply sorted_nth; auto. lia.
    + intros q Hq. apply elem_of_list_lookup in Hq as (j & Hj).
      pose proof (lookup_lt_Some _ _ _ Hj) as Hjl. rewrite take_length in Hjl.
      rewrite lookup_take in Hj by lia. specialize (H2 (Z.of_nat j) ltac:(lia)). cbn beta in H2. rewrite Nat2Z.id in H2.
      rewrite (lookup_nth ks j) in Hj by lia. injection Hj as Hj. rewrite Hj in H2. apply Z.leb_gt in H2. auto.
Qed.

Lemma distance_first hv p q : is_u64 hv -> is_u64 p -> is_u64 q ->
  (hv <= p /\ (hv <= q -> p <= q)) \/ (q < hv /\ p <= q) -> distance hv p <= distance hv q.
Proof.
  unfold is_u64, distance. intros Hh Hp Hq HC.
  assert (Hge : forall a, hv <= a < 2^64 -> (a - hv) mod 2^64 = a - hv) by (intros; apply Z.mod_small; lia).
  assert (Hlt : forall a, 0 <= a < hv -> (a - hv) mod 2^64 = a - hv + 2^64).
  { intros a Ha. rewrite <- (Z.mod_small (a - hv + 2^64) (2^64)) by lia.
    rewrite <- (Z.mod_add (a - hv) 1) by lia. f_equal. }
  destruct (Z.le_gt_cases hv p), (Z.le_gt_cases hv q);
    rewrite ?(Hge p), ?(Hge q), ?(Hlt p), ?(Hlt q) by lia; lia.
Qed.

Lemma distance_inj hv p q : is_u64 p -> is_u64 q -> distance hv p = distance hv q -> p = q.
Proof.
  unfold is_u64, distance. intros Hp Hq E.
  assert (Hd : (p - q) mod 2^64 = 0).
  { replace (p - q) with ((p - hv) - (q - hv)) by lia. rewrite Zminus_mod, E, Z.sub_diag. auto. }
  apply Z.mod_divide in Hd as [z Hz]; [|lia]. assert (z = 0) by lia. lia.
Qed.

(** *** histories and lists *)
Lemma owns_ext (pt : Z -> Z -> Z) rep (P Q : Z -> Prop) hv n : (forall k, P k <-> Q k) -> owns pt rep P hv n -> owns pt rep Q hv n.
Proof.
  intros E (Hn & i & Hi & Hd). split; [apply E; auto|]. exists i. split; [auto|]. intros n' i' Hn'. apply Hd, E. auto.
Qed.

Lemma member_from_ext os k P Q : (P <-> Q) -> (member_from os k P <-> member_from os k Q).
Proof.
  revert P Q. induction os as [|o os IH]; intros P Q E; cbn; [auto|]. destruct o; apply IH; tauto.
Qed.
Lemma member_from_app os1 os2 k P : member_from (os1 ++ os2) k P <-> member_from os2 k (member_from os1 k P).
Proof.
  revert P. induction os1 as [|o os1 IH]; intros P; cbn; [tauto|]. destruct o; apply IH.
Qed.
Lemma member_add os k ks : member (os ++ [CAdd ks]) k <-> k ∈ ks \/ member os k.
Proof. unfold member. rewrite member_from_app. cbn. tauto. Qed.
Lemma member_del os k k' : member (os ++ [CDel k']) k <-> k' <> k /\ member os k.
Proof. unfold member. rewrite member_from_app. cbn. tauto. Qed.
Lemma member_from_added os k : forall P : Prop, member_from os k P -> added os k \/ P.
Proof.
  induction os as [|o os IH]; intros P HM; cbn in HM; [auto|].
  assert (Hw : added os k -> added (o :: os) k) by (intros (ks & H1 & H2); exists ks; split; [constructor; auto|auto]).
  destruct o as [ks|k']; apply IH in HM as [HM|HM]; auto.
  - destruct HM as [HM|HM]; [left; exists ks; split; [constructor|auto]|auto].
  - tauto.
Qed.
Lemma member_added os k : member os k -> added os k.
Proof. intros HM. apply member_from_added in HM as [|[]]; auto. Qed.
Lemma added_app os1 os2 k : added (os1 ++ os2) k <-> added os1 k \/ added os2 k.
Proof.
  unfold added. split.
  - intros (ks & H1 & H2). apply elem_of_app in H1 as [H1|H1]; eauto.
  - intros [(ks & H1 & H2)|(ks & H1 & H2)]; exists ks; rewrite elem_of_app; auto.
Qed.

Lemma no_collision_mono (pt : Z -> Z -> Z) rep (U V : Z -> Prop) : (forall n, U n -> V n) -> no_collision pt rep V -> no_collision pt rep U.
Proof. intros HUV HC n n' i i' Hn Hn'. apply HC; auto. Qed.

Lemma firsts_seen n1 xs : forall s1 s2, (forall x, x ∈ s1 <-> x ∈ s2) -> firsts n1 xs s1 = firsts n1 xs s2.
Proof.
  induction xs as [|x xs IH]; intros s1 s2 E; cbn; [auto|].
  destruct (decide (x = n1 \/ x ∈ s1)) as [H1|H1], (decide (x = n1 \/ x ∈ s2)) as [H2|H2].
  - auto.
  - exfalso. apply H2. rewrite <- E. auto.
  - exfalso. apply H1. rewrite E. auto.
  - f_equal. apply IH. intros y. rewrite !elem_of_cons, E. tauto.
Qed.

Lemma firsts_spec n1 xs : forall seen,
  NoDup (firsts n1 xs seen) /\ (forall x, x ∈ firsts n1 xs seen -> x <> n1 /\ x ∈ xs /\ x ∉ seen).
Proof.
  induction xs as [|x xs IH]; intros seen; cbn.
  - split; [constructor|]. intros x Hx. apply elem_of_nil in Hx. tauto.
  - destruct (decide (x = n1 \/ x ∈ seen)) as [Hd|Hd].
    + destruct (IH seen) as [I1 I2]. split; [auto|]. intros y Hy. destruct (I2 y Hy) as (H1 & H2 & H3).
      split; [auto|]. split; [constructor; auto|auto].
    + destruct (IH (x :: seen)) as [I1 I2]. split.
      * constructor; [|auto]. intros Hx. destruct (I2 x Hx) as (_ & _ & H3). apply H3. constructor.
      * intros y Hy. apply elem_of_cons in Hy as [->|Hy].
        -- split; [tauto|]. split; [constructor|tauto].
        -- destruct (I2 y Hy) as (H1 & H2 & H3). split; [auto|]. split; [constructor; auto|].
           intros Hs. apply H3. constructor. auto.
Qed.

Section ring.
Context (h : list Z -> Z).
Implicit Types t : ring.

(** *** invariant for every hash *)
Record inv (rep : Z) (t : ring) : Prop := {
  inv_rep : replicas t = rep;
  inv_keys : match keys t with
             | None => rm t = ∅
             | Some ks => forall p, p ∈ ks <-> is_Some (rm t !! p)
             end;
  inv_owner : forall p n, rm t !! p = Some n -> n ∈ nodes t /\ exists i, 0 <= i < rep /\ p = point h i n;
  inv_full : nodes t = ∅ \/ rep <= 0 \/ is_Some (keys t)
}.
Definition sorted_keys t : Prop := match keys t with None => True | Some ks => Sorted Z.le ks end.

(** every node owns all its points *)
Definition own_all (rep : Z) t : Prop := forall n i, n ∈ nodes t -> 0 <= i < rep -> rm t !! point h i n = Some n.

Lemma add_points_spec n : forall i key ks m,
  (match ks with None => m = ∅ | Some ks => forall p, p ∈ ks <-> is_Some (m !! p) end) ->
  let '(ks', m') := add_points h n i key ks m in
  (match ks' with None => m' = ∅ | Some ks => forall p, p ∈ ks <-> is_Some (m' !! p) end) /\
  (forall p, m' !! p = Some key \/ m' !! p = m !! p) /\
  (forall j, i <= j < i + Z.of_nat n -> m' !! point h j key = Some key) /\
  (forall p, m' !! p <> m !! p -> exists j, i <= j < i + Z.of_nat n /\ p = point h j key) /\
  ((0 < n)%nat \/ is_Some ks -> is_Some ks').
Proof.
  induction n as [|n IH]; intros i key ks m HI; cbn [add_points].
  - repeat split; auto; try (intros; lia); try congruence. intros [?|?]; [lia|auto].
  - cbv zeta. specialize (IH (i + 1) key (append1 ks (point h i key)) (<[point h i key:=key]> m)).
    destruct (add_points h n (i + 1) key _ _) as [ks' m'].
    destruct IH as (I1 & I2 & I3 & I4 & I5).
    { cbn. intros p. rewrite elem_of_app, elem_of_list_singleton.
      destruct (decide (p = point h i key)) as [->|Hne].
      - rewrite lookup_insert. split; [eauto|auto].
      - rewrite lookup_insert_ne by auto. destruct ks as [ks|]; cbn.
        + rewrite HI. tauto.
        + subst m. rewrite lookup_empty. rewrite elem_of_nil. split; [tauto|intros [? ?]; discriminate]. }
    split; [auto|]. split; [|split; [|split]].
    + intros p. destruct (I2 p) as [|E]; [auto|]. rewrite E.
      destruct (decide (p = point h i key)) as [->|Hne]; [rewrite lookup_insert; auto|rewrite lookup_insert_ne by auto; auto].
    + intros j Hj. destruct (decide (j = i)) as [->|]; [|apply I3; lia].
      destruct (I2 (point h i key)) as [|E]; [auto|]. rewrite E, lookup_insert. auto.
    + intros p Hp. destruct (decide (p = point h i key)) as [->|Hne]; [exists i; split; [lia|auto]|].
      destruct (I4 p) as (j & Hj & ->); [rewrite lookup_insert_ne by auto; auto|]. exists j. split; [lia|auto].
    + intros _. apply I5. right. unfold append1. eauto.
Qed.

Lemma add_one_inv rep t key : inv rep t -> inv rep (add_one h t key) /\ nodes (add_one h t key) = nodes t ∪ {[key]}.
Proof.
  intros [HR HK HO HF]. unfold add_one. destruct (decide (key ∈ nodes t)) as [Hin|Hin].
  - split; [split; auto|]. set_solver.
  - pose proof (add_points_spec (Z.to_nat (replicas t)) 0 key (keys t) (rm t) HK) as HA.
    destruct (add_points h _ 0 key (keys t) (rm t)) as [ks m]. destruct HA as (I1 & I2 & I3 & I4 & I5).
    split; [|auto]. split; cbn; auto.
    + intros p n Hp. destruct (decide (m !! p = rm t !! p)) as [E|E].
      * rewrite E in Hp. destruct (HO p n Hp) as [H1 H2]. split; [apply elem_of_union; auto|auto].
      * destruct (I2 p) as [E2|E2]; [|congruence]. rewrite E2 in Hp. injection Hp as <-.
        split; [apply elem_of_union_r, elem_of_singleton; auto|]. destruct (I4 p E) as (j & Hj & ->). exists j. split; [lia|auto].
    + destruct (Z.le_gt_cases rep 0); [auto|]. right. right. apply I5. left. lia.
Qed.

Lemma add_one_own rep t key (U : Z -> Prop) : inv rep t -> own_all rep t ->
  no_collision (point h) rep U -> (forall n, n ∈ nodes t -> U n) -> U key -> own_all rep (add_one h t key).
Proof.
  intros HI HA HC HU Hk. destruct HI as [HR HK HO HF]. unfold add_one.
  destruct (decide (key ∈ nodes t)) as [Hin|Hin]; [auto|].
  pose proof (add_points_spec (Z.to_nat (replicas t)) 0 key (keys t) (rm t) HK) as HP.
  destruct (add_points h _ 0 key (keys t) (rm t)) as [ks m]. destruct HP as (I1 & I2 & I3 & I4 & I5).
  intros n i Hn Hi. cbn in *. apply elem_of_union in Hn as [Hn|Hn].
  - destruct (decide (m !! point h i n = rm t !! point h i n)) as [E|E]; [rewrite E; auto|].
    destruct (I4 _ E) as (j & Hj & Ep). apply HC in Ep; auto; [subst; tauto|lia].
  - apply elem_of_singleton in Hn as ->. apply I3. lia.
Qed.

Lemma Add_inv rep t ks : inv rep t ->
  inv rep (Add h t ks) /\ (forall n, n ∈ nodes (Add h t ks) <-> n ∈ ks \/ n ∈ nodes t) /\ sorted_keys (Add h t ks).
Proof.
  intros HI. unfold Add.
  assert (HF : inv rep (fold_left (add_one h) ks t) /\
     (forall n, n ∈ nodes (fold_left (add_one h) ks t) <-> n ∈ ks \/ n ∈ nodes t)).
  { revert t HI. induction ks as [|k ks IH]; intros t HI; cbn.
    - split; [auto|]. intros n. rewrite elem_of_nil. tauto.
    - destruct (add_one_inv rep t k HI) as [H1 H2]. destruct (IH _ H1) as [J1 J2]. split; [auto|].
      intros n. rewrite J2, H2, elem_of_union, elem_of_singleton, elem_of_cons. tauto. }
  destruct HF as [[HR HK HO HF] HN]. set (t' := fold_left (add_one h) ks t) in *. split; [|split; [auto|]].
  - split; cbn; auto.
    + destruct (keys t') as [l|]; cbn; auto. intros p. rewrite usort_elem. auto.
    + destruct HF as [?|[?|[l El]]]; [auto|auto|]. right. right. rewrite El. cbn. eauto.
  - unfold sorted_keys. cbn. destruct (keys t'); cbn; [apply usort_sorted|auto].
Qed.

Lemma Add_own rep t ks (U : Z -> Prop) : inv rep t -> own_all rep t ->
  no_collision (point h) rep U -> (forall n, n ∈ nodes t -> U n) -> (forall n, n ∈ ks -> U n) -> own_all rep (Add h t ks).
Proof.
  intros HI HA HC. unfold Add. enough (G : forall t, inv rep t -> own_all rep t ->
     (forall n, n ∈ nodes t -> U n) -> (forall n, n ∈ ks -> U n) -> own_all rep (fold_left (add_one h) ks t)).
  { intros HU Hk. pose proof (G t HI HA HU Hk) as G1. intros n i Hn Hi. cbn in *. apply G1; auto. }
  clear t HI HA. induction ks as [|k ks IH]; intros t HI HA HU Hk; cbn; [auto|].
  destruct (add_one_inv rep t k HI) as [H1 H2]. apply IH; auto.
  - eapply add_one_own; eauto. apply Hk. constructor.
  - intros n Hn. rewrite H2 in Hn. apply elem_of_union in Hn as [Hn|Hn]; [auto|].
    apply elem_of_singleton in Hn as ->. apply Hk. constructor.
  - intros n Hn. apply Hk. constructor. auto.
Qed.

Lemma fold_append l : forall ks, fold_left append1 l (Some ks) = Some (ks ++ l).
Proof. induction l as [|x l IH]; intros ks; cbn [fold_left]; [rewrite app_nil_r; auto|].
  change (append1 (Some ks) x) with (Some (ks ++ [x])). rewrite IH, <- app_assoc. auto. Qed.
Lemma fold_append_None l : fold_left append1 l None = match l with [] => None | _ => Some l end.
Proof. destruct l as [|x l]; [auto|]. cbn [fold_left]. change (append1 None x) with (Some [x]). rewrite fold_append. auto. Qed.

Lemma Del_lookup (m : gmap Z Z) key p n :
  filter (fun kv => kv.2 <> key) m !! p = Some n <-> m !! p = Some n /\ n <> key.
Proof. rewrite map_filter_lookup_Some. cbn. tauto. Qed.

Lemma Del_inv rep t key : inv rep t -> sorted_keys t ->
  inv rep (Del t key) /\ (forall n, n ∈ nodes (Del t key) <-> key <> n /\ n ∈ nodes t) /\ sorted_keys (Del t key).
Proof.
  intros HI HS. unfold Del. destruct (decide (key ∈ nodes t)) as [Hin|Hin].
  2: { split; [auto|]. split; [|auto]. intros n. split; [|tauto]. intros Hn. split; [congruence|auto]. }
  destruct HI as [HR HK HO HF].
  set (lf := filter (fun kv => kv.2 <> key) (map_to_list (rm t))).
  assert (Hlf : forall p, p ∈ map fst lf <-> is_Some (filter (fun kv => kv.2 <> key) (rm t) !! p)).
  { intros p. rewrite elem_of_list_fmap. split.
    - intros ([p' n] & -> & Hpn). apply elem_of_list_filter in Hpn as [Hne Hpn]. cbn in *.
      apply elem_of_map_to_list in Hpn. exists n. apply Del_lookup. auto.
    - intros [n Hn]. apply Del_lookup in Hn as [Hn Hne]. exists (p, n). split; [auto|].
      apply elem_of_list_filter. split; [auto|]. apply elem_of_map_to_list. auto. }
  split; [|split].
  - split; cbn [replicas keys rm nodes]; auto.
    + destruct (keys t) as [ks|] eqn:Ek.
      * rewrite fold_append. cbn. intros p. rewrite usort_elem. apply Hlf.
      * rewrite fold_append_None. subst lf. rewrite HK, map_to_list_empty. cbn. apply map_filter_empty.
    + intros p n Hn. apply Del_lookup in Hn as [Hn Hne]. destruct (HO p n Hn) as [H1 H2]. split; [|auto].
      apply elem_of_difference. split; [auto|]. rewrite elem_of_singleton. auto.
    + destruct HF as [HF|[HF|[ks HF]]]; [set_solver|auto|]. right. right. rewrite HF, fold_append. cbn. eauto.
  - intros n. cbn. rewrite elem_of_difference, elem_of_singleton. split; intros [? ?]; auto.
  - unfold sorted_keys. cbn. destruct (fold_left _ _ _); cbn; [apply usort_sorted|auto].
Qed.

Lemma Del_own rep t key : own_all rep t -> own_all rep (Del t key).
Proof.
  intros HA. unfold Del. destruct (decide (key ∈ nodes t)); [|auto]. intros n i Hn Hi. cbn in *.
  apply elem_of_difference in Hn as [Hn Hne]. rewrite elem_of_singleton in Hne. apply Del_lookup. split; [apply HA; auto|auto].
Qed.

(** *** histories *)
Lemma run_inv rep os : forall t (P : Z -> Prop), inv rep t -> sorted_keys t -> (forall n, n ∈ nodes t <-> P n) ->
  inv rep (fold_left (cstep h) os t) /\ sorted_keys (fold_left (cstep h) os t) /\
  (forall n, n ∈ nodes (fold_left (cstep h) os t) <-> member_from os n (P n)).
Proof.
  induction os as [|o os IH]; intros t P HI HS HN; cbn [fold_left member_from]; [auto|].
  destruct o as [ks|k]; cbn [cstep].
  - destruct (Add_inv rep t ks HI) as (I1 & I2 & I3).
    apply (IH _ (fun n => n ∈ ks \/ P n)); auto. intros n. rewrite I2, HN. tauto.
  - destruct (Del_inv rep t k HI HS) as (I1 & I2 & I3).
    apply (IH _ (fun n => k <> n /\ P n)); auto. intros n. rewrite I2, HN. tauto.
Qed.

Lemma run_own rep os (U : Z -> Prop) : no_collision (point h) rep U -> forall t,
  inv rep t -> sorted_keys t -> own_all rep t -> (forall n, n ∈ nodes t -> U n) -> (forall n, added os n -> U n) ->
  own_all rep (fold_left (cstep h) os t).
Proof.
  intros HC. induction os as [|o os IH]; intros t HI HS HA HU Hos; cbn [fold_left]; [auto|].
  assert (Hos' : forall n, added os n -> U n).
  { intros n (ks & H1 & H2). apply Hos. exists ks. split; [constructor; auto|auto]. }
  destruct o as [ks|k]; cbn [cstep].
  - assert (Hks : forall n, n ∈ ks -> U n) by (intros n Hn; apply Hos; exists ks; split; [constructor|auto]).
    destruct (Add_inv rep t ks HI) as (I1 & I2 & I3). apply IH; auto.
    + eapply Add_own; eauto.
    + intros n Hn. apply I2 in Hn as [Hn|Hn]; auto.
  - destruct (Del_inv rep t k HI HS) as (I1 & I2 & I3). apply IH; auto.
    + apply Del_own; auto.
    + intros n Hn. apply I2 in Hn as [_ Hn]. auto.
Qed.

Lemma new_inv rep : inv rep (new_ring rep) /\ sorted_keys (new_ring rep) /\ own_all rep (new_ring rep).
Proof.
  split; [split; cbn; auto; intros p n E; rewrite lookup_empty in E; discriminate|]. split; [exact I|].
  intros n i Hn. cbn in Hn. set_solver.
Qed.

Lemma crun_inv rep os : inv rep (crun h rep os) /\ sorted_keys (crun h rep os) /\
  (forall n, n ∈ nodes (crun h rep os) <-> member os n).
Proof.
  destruct (new_inv rep) as (N1 & N2 & _). apply run_inv; auto. intros n. cbn. set_solver.
Qed.

Lemma crun_own rep os : no_collision (point h) rep (added os) -> own_all rep (crun h rep os).
Proof.
  intros HC. destruct (new_inv rep) as (N1 & N2 & N3). eapply run_own; eauto. intros n Hn. cbn in Hn. set_solver.
Qed.

(** *** lookups *)
Lemma lookup_cases rep t hv : inv rep t -> sorted_keys t ->
  match lookup_hash t hv with
  | LPanic => keys t = Some []
  | LRet n true => exists p, rm t !! p = Some n /\ n ∈ nodes t /\
      (is_u64 hv -> (forall q m, rm t !! q = Some m -> is_u64 q) ->
       forall q m, rm t !! q = Some m -> distance hv p <= distance hv q)
  | LRet n false => keys t = None /\ n = 0
  end.
Proof.
  intros [HR HK HO HF] HS. unfold lookup_hash, sorted_keys in *. destruct (keys t) as [ks|]; [|split; auto].
  destruct (decide (ks = [])) as [->|Hne]; [rewrite lookup_nil; reflexivity|].
  destruct (find_idx_spec ks hv HS Hne) as (p & Ep & Hp & _). rewrite Ep.
  assert (Hin : p ∈ ks) by (eapply elem_of_list_lookup_2; eauto).
  apply HK in Hin as [n En]. rewrite En. exists p. split; [auto|]. split; [destruct (HO p n En); auto|].
  intros Hv Hu q m Eq. assert (q ∈ ks) by (apply HK; eauto). apply distance_first; eauto.
  destruct Hp as [[H1 H2]|H1]; [left|right]; auto.
Qed.

(** *** GetNextNodeStr *)
Definition owners t (l : list Z) : list Z := omap (fun p => rm t !! p) l.

Lemma next_loop_spec t n1 step rest : forall acc,
  (Z.of_nat (length acc) < step \/ step < 0) ->
  next_loop t n1 step rest acc =
    if step <? 0 then acc ++ firsts n1 (owners t rest) acc
    else acc ++ take (Z.to_nat step - length acc) (firsts n1 (owners t rest) acc).
Proof.
  induction rest as [|p rest IH]; intros acc Hs; cbn [next_loop owners omap list_omap firsts].
  - destruct (step <? 0); rewrite ?take_nil, app_nil_r; auto.
  - fold (owners t rest). destruct (rm t !! p) as [n|] eqn:E; cbn [firsts].
    + destruct (decide (n <> n1 /\ n ∉ acc)) as [[H1 H2]|H1].
      * rewrite (decide_False (P := n = n1 \/ n ∈ acc)) by tauto. rewrite app_length. cbn [length].
        replace (Z.of_nat (length acc + 1)) with (Z.of_nat (length acc) + 1) by lia.
        destruct (Z.eqb_spec (Z.of_nat (length acc) + 1) step) as [Hst|Hst].
        -- destruct (Z.ltb_spec step 0); [lia|]. replace (Z.to_nat step - length acc)%nat with 1%nat by lia. auto.
        -- rewrite IH by (rewrite app_length; cbn; lia).
           rewrite (firsts_seen n1 (owners t rest) (acc ++ [n]) (n :: acc)).
           2: { intros y. rewrite elem_of_app, elem_of_list_singleton, elem_of_cons. tauto. }
           destruct (Z.ltb_spec step 0); rewrite <- app_assoc; cbn [app]; [auto|].
           rewrite app_length. cbn [length]. do 2 f_equal.
           replace (Z.to_nat step - length acc)%nat with (S (Z.to_nat step - (length acc + 1)))%nat by lia. auto.
      * rewrite (decide_True (P := n = n1 \/ n ∈ acc)).
        2: { destruct (decide (n = n1)); [auto|]. destruct (decide (n ∈ acc)); [auto|]. tauto. }
        destruct (Z.eqb_spec (Z.of_nat (length acc)) step) as [Hst|Hst]; [lia|]. rewrite IH by auto. auto.
    + destruct (Z.eqb_spec (Z.of_nat (length acc)) step) as [Hst|Hst]; [lia|]. rewrite IH by auto. auto.
Qed.

(** *** lookups without collisions *)
Context (Hh : forall bs, is_bytes bs -> is_u64 (h bs)).

Lemma point_u64 i k : is_u64 (point h i k).
Proof. apply Hh. apply Forall_app. split; apply int64ToBytes_bytes. Qed.

Lemma lookup_owner rep t hv : inv rep t -> sorted_keys t -> own_all rep t -> is_u64 hv -> 0 < rep ->
  (exists n, n ∈ nodes t) -> exists n, lookup_hash t hv = LRet n true /\ owns (point h) rep (fun n => n ∈ nodes t) hv n.
Proof.
  intros HI HS HA Hv Hr [n0 Hn0]. pose proof (lookup_cases rep t hv HI HS) as HC.
  destruct HI as [HR HK HO HF].
  assert (H0 : rm t !! point h 0 n0 = Some n0) by (apply HA; auto; lia).
  destruct (lookup_hash t hv) as [|n [|]].
  - rewrite HC in HK. assert (point h 0 n0 ∈ []) as Hn by (apply HK; eauto). apply elem_of_nil in Hn. tauto.
  - exists n. split; [auto|]. destruct HC as (p & Ep & Hn & Hd). split; [auto|].
    destruct (HO p n Ep) as (_ & i & Hi & ->). exists i. split; [auto|].
    intros n' i' Hn' Hi'. apply Hd with n'; auto. intros q m Eq. destruct (HO q m Eq) as (_ & j & _ & ->). apply point_u64.
  - destruct HC as [HC _]. rewrite HC in HK. rewrite HK, lookup_empty in H0. discriminate.
Qed.

Lemma owner_unique rep (U P : Z -> Prop) hv n n' : no_collision (point h) rep U -> (forall n, P n -> U n) ->
  owns (point h) rep P hv n -> owns (point h) rep P hv n' -> n = n'.
Proof.
  intros HC HU (Hn & i & Hi & Hd) (Hn' & i' & Hi' & Hd'). apply (HC n n' i i'); auto.
  apply (distance_inj hv); try apply point_u64. specialize (Hd n' i' Hn' Hi'). specialize (Hd' n i Hn Hi). lia.
Qed.

(** The lookup in the collision-free case. *)
Lemma crun_lookup rep os hv : 0 < rep -> is_u64 hv -> no_collision (point h) rep (added os) -> (exists n, member os n) ->
  exists n, lookup_hash (crun h rep os) hv = LRet n true /\ owns (point h) rep (member os) hv n.
Proof.
  intros Hr Hv HC [n0 Hn0]. destruct (crun_inv rep os) as (I1 & I2 & I3). pose proof (crun_own rep os HC) as I4.
  destruct (lookup_owner rep _ hv I1 I2 I4 Hv Hr) as (n & E & Ho); [exists n0; apply I3; auto|].
  exists n. split; [exact E|]. exact (owns_ext _ _ _ _ _ _ I3 Ho).
Qed.

End ring.
