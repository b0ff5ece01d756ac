(** Properties C31-C35 of hashmap/consistenthash.go.  [h] is any hash of byte strings to uint64;
    the code's hash is [crc64] (see [c31_crc64_is_a_hash]). *)
From stdpp Require Import gmap sorting.
From Coq Require Import ZArith Lia.
From Verif Require Import GoInt CHash_Model CHash_Spec CHash_Crc CHash_Proofs.
Local Open Scope Z_scope.

Definition uint64_hash (h : list Z -> Z) : Prop := forall bs, is_bytes bs -> is_u64 (h bs).

(** The code's hash qualifies, and it matches the published check value of CRC-64/XZ. *)
Theorem c31_crc64_is_a_hash : uint64_hash crc64 /\ crc64 [49; 50; 51; 52; 53; 54; 55; 56; 57] = 0x995DC9BBDF1939FA.
Proof. split; [exact crc64_u64|vm_compute; reflexivity]. Qed.
Print Assumptions c31_crc64_is_a_hash.

(** C31, for any hash and history: Nodes() lists the nodes added and not deleted since, once each. *)
Theorem c31_nodes : forall h rep os,
  NoDup (Nodes (crun h rep os)) /\ forall n, n ∈ Nodes (crun h rep os) <-> member os n.
Proof.
  intros h rep os. destruct (crun_inv h rep os) as (_ & _ & HN). unfold Nodes. split; [apply NoDup_elements|].
  intros n. rewrite elem_of_elements. apply HN.
Qed.
Print Assumptions c31_nodes.

(** C31, for any hash (collisions included) and history: whatever a lookup returns with ok = true is a current node. *)
Theorem c31_lookup_live : forall h rep os v n,
  Get h (crun h rep os) v = LRet n true \/ (exists s, GetStr h (crun h rep os) s = LRet n true) -> member os n.
Proof.
  intros h rep os v n HG. destruct (crun_inv h rep os) as (HI & HS & HN).
  assert (HL : forall hv, lookup_hash (crun h rep os) hv = LRet n true -> member os n).
  { intros hv E. pose proof (lookup_cases h rep _ hv HI HS) as HC. rewrite E in HC.
    destruct HC as (p & _ & Hn & _). apply HN; auto. }
  destruct HG as [HG|[s HG]]; eapply HL; exact HG.
Qed.
Print Assumptions c31_lookup_live.

(** C31. If no two nodes ever added share a point, and there is a node, Get returns the node whose point comes first
    clockwise from the hash of the value. *)
Theorem c31_get_owner : forall h rep os v, uint64_hash h -> 1 <= rep ->
  no_collision (point h) rep (added os) -> (exists n, member os n) ->
  exists n, Get h (crun h rep os) v = LRet n true /\ owns (point h) rep (member os) (h (int64ToBytes v)) n.
Proof.
  intros h rep os v Hh Hr HC HM. apply crun_lookup; auto; [lia|]. apply Hh, int64ToBytes_bytes.
Qed.
Print Assumptions c31_get_owner.

(** C31. The same for GetStr. *)
Theorem c31_getstr_owner : forall h rep os s, uint64_hash h -> 1 <= rep -> is_bytes s ->
  no_collision (point h) rep (added os) -> (exists n, member os n) ->
  exists n, GetStr h (crun h rep os) s = LRet n true /\ owns (point h) rep (member os) (h s) n.
Proof. intros h rep os s Hh Hr Hb HC HM. apply crun_lookup; auto. lia. Qed.
Print Assumptions c31_getstr_owner.

(** C31. The owner is unique, so the two theorems above determine the lookups. *)
Theorem c31_owner_unique : forall h rep (U : Z -> Prop) hv n n', uint64_hash h ->
  no_collision (point h) rep U -> owns (point h) rep U hv n -> owns (point h) rep U hv n' -> n = n'.
Proof. intros h rep U hv n n' Hh HC. apply owner_unique with (U := U); auto. Qed.
Print Assumptions c31_owner_unique.

(** C31. With one replica the code's CRC64 never collides on int64 nodes, so the hypothesis above is free. *)
Theorem c31_one_replica_no_collision : forall (U : Z -> Prop),
  (forall n, U n -> is_i64 n) -> no_collision (point crc64) 1 U.
Proof.
  intros U HU n n' i i' Hn Hn' Hi Hi' E. assert (i = 0) as -> by lia. assert (i' = 0) as -> by lia.
  apply point_inj in E; auto.
Qed.
Print Assumptions c31_one_replica_no_collision.

(** decidable collision check for concrete rings *)
Definition points_of (pt : Z -> Z -> Z) (rep : nat) (ns : list Z) : list (Z * Z) :=
  flat_map (fun n => map (fun i => (pt (Z.of_nat i) n, n)) (seq 0 rep)) ns.
Definition same_owner (a b : Z * Z) : bool := negb (fst a =? fst b) || (snd a =? snd b).
Definition ring_ok (pt : Z -> Z -> Z) (rep : nat) (ns : list Z) : bool :=
  forallb (fun a => forallb (same_owner a) (points_of pt rep ns)) (points_of pt rep ns).
Lemma ring_ok_spec pt rep ns (U : Z -> Prop) : ring_ok pt rep ns = true -> (forall n, U n -> n ∈ ns) ->
  no_collision pt (Z.of_nat rep) U.
Proof.
  intros HO HU n n' i i' Hn Hn' Hi Hi' E.
  assert (HP : forall n i, U n -> 0 <= i < Z.of_nat rep -> In (pt i n, n) (points_of pt rep ns)).
  { intros m j Hm Hj. apply in_flat_map. exists m. split; [apply elem_of_list_In, HU; auto|]. apply in_map_iff.
    exists (Z.to_nat j). rewrite Z2Nat.id by lia. split; [auto|]. apply in_seq. lia. }
  unfold ring_ok in HO. rewrite forallb_forall in HO. specialize (HO _ (HP n i Hn Hi)).
  rewrite forallb_forall in HO. specialize (HO _ (HP n' i' Hn' Hi')). unfold same_owner in HO. cbn [fst snd] in HO.
  rewrite E, Z.eqb_refl in HO. apply Z.eqb_eq. exact HO.
Qed.

Definition c31_history : list cop := [CAdd [1; 2; 3]; CDel 2; CAdd [7]].
Example c31_ex_hyps : no_collision (point crc64) 3 (added c31_history) /\ member c31_history 7 /\ ~ member c31_history 2.
Proof.
  split.
  - apply (ring_ok_spec _ 3 [1; 2; 3; 7]); [vm_compute; reflexivity|]. intros n (ks & Hks & Hn).
    unfold c31_history in Hks. repeat (apply elem_of_cons in Hks as [Hks|Hks]; [try discriminate; injection Hks as ->; set_solver|]).
    apply elem_of_nil in Hks. tauto.
  - unfold member, c31_history. cbn. set_solver.
Qed.
Example c31_ex : map (Get crc64 (crun crc64 3 c31_history)) [10; 11; 12; 13; 14] =
  [LRet 3 true; LRet 7 true; LRet 1 true; LRet 1 true; LRet 7 true].
Proof. vm_compute. reflexivity. Qed.

(** C32. Adding a node only moves values to it. *)
Theorem c32_add_moves_to_new : forall h rep os k v, uint64_hash h -> 1 <= rep ->
  no_collision (point h) rep (added (os ++ [CAdd [k]])) -> (exists n, member os n) ->
  Get h (crun h rep (os ++ [CAdd [k]])) v = Get h (crun h rep os) v \/
  Get h (crun h rep (os ++ [CAdd [k]])) v = LRet k true.
Proof.
  intros h rep os k v Hh Hr HC [n0 Hn0].
  assert (HC1 : no_collision (point h) rep (added os)).
  { eapply no_collision_mono; [|exact HC]. intros n Hn. apply added_app. auto. }
  destruct (c31_get_owner h rep os v Hh Hr HC1 (ex_intro _ n0 Hn0)) as (n & E & Ho).
  destruct (c31_get_owner h rep (os ++ [CAdd [k]]) v Hh Hr HC) as (n' & E' & Ho').
  { exists n0. rewrite member_add. right. exact Hn0. }
  destruct (decide (n' = k)) as [->|Hne]; [auto|]. left. rewrite E, E'. f_equal.
  apply (owner_unique h Hh rep (added os) (member os) (h (int64ToBytes v))); auto; [intros; apply member_added; auto|].
  destruct Ho' as (Hm & i & Hi & Hd). apply member_add in Hm as [Hm|Hm]; [apply elem_of_list_singleton in Hm; tauto|].
  split; [auto|]. exists i. split; [auto|]. intros n1 i1 Hn1 Hi1. apply Hd; auto. apply member_add. auto.
Qed.
Print Assumptions c32_add_moves_to_new.

(** C32. Removing a node only moves the values that were on it. *)
Theorem c32_del_moves_only_its_own : forall h rep os k v n, uint64_hash h -> 1 <= rep ->
  no_collision (point h) rep (added os) ->
  Get h (crun h rep os) v = LRet n true -> n <> k ->
  Get h (crun h rep (os ++ [CDel k])) v = LRet n true.
Proof.
  intros h rep os k v n Hh Hr HC E Hne.
  pose proof (c31_lookup_live h rep os v n (or_introl E)) as Hn.
  destruct (c31_get_owner h rep os v Hh Hr HC (ex_intro _ n Hn)) as (n2 & E2 & Ho).
  assert (n2 = n) as -> by congruence.
  assert (Hadd : forall m, added (os ++ [CDel k]) m -> added os m).
  { intros m Hm. apply added_app in Hm as [Hm|(ks & Hm & _)]; [auto|]. apply elem_of_list_singleton in Hm. discriminate. }
  destruct (c31_get_owner h rep (os ++ [CDel k]) v Hh Hr) as (n' & E' & Ho').
  { eapply no_collision_mono; [|exact HC]. auto. }
  { exists n. rewrite member_del. split; [congruence|exact Hn]. }
  rewrite E'. f_equal.
  apply (owner_unique h Hh rep (added os) (member (os ++ [CDel k])) (h (int64ToBytes v))); auto.
  { intros m Hm. apply member_del in Hm as [_ Hm]. apply member_added; auto. }
  destruct Ho as (Hm & i & Hi & Hd). split; [apply member_del; auto|]. exists i. split; [auto|].
  intros n1 i1 Hn1 Hi1. apply member_del in Hn1 as [_ Hn1]. auto.
Qed.
Print Assumptions c32_del_moves_only_its_own.

(** C32. Lookups depend only on the set of nodes: not on the order or the history of Add and Del. *)
Theorem c32_history_independent : forall h rep os os' v, uint64_hash h -> 1 <= rep ->
  no_collision (point h) rep (fun n => added os n \/ added os' n) ->
  (forall n, member os n <-> member os' n) -> (exists n, member os n) ->
  Get h (crun h rep os) v = Get h (crun h rep os') v.
Proof.
  intros h rep os os' v Hh Hr HC HE [n0 Hn0].
  destruct (c31_get_owner h rep os v Hh Hr) as (n & E & Ho); [eapply no_collision_mono; [|exact HC]; intros m Hm; left; exact Hm|eauto|].
  destruct (c31_get_owner h rep os' v Hh Hr) as (n' & E' & Ho').
  { eapply no_collision_mono; [|exact HC]. intros m Hm; right; exact Hm. } { exists n0. apply HE. auto. }
  rewrite E, E'. f_equal. apply (owner_unique h Hh rep (added os) (member os) (h (int64ToBytes v))); auto.
  - eapply no_collision_mono; [|exact HC]. intros m Hm; left; exact Hm.
  - intros; apply member_added; auto.
  - eapply owns_ext; [|exact Ho']. intros k. rewrite HE. tauto.
Qed.
Print Assumptions c32_history_independent.

(** C32. Adding a new node and removing it again restores every lookup. *)
Theorem c32_add_del_restores : forall h rep os k v, uint64_hash h -> 1 <= rep ->
  no_collision (point h) rep (added (os ++ [CAdd [k]])) -> (exists n, member os n) -> ~ member os k ->
  Get h (crun h rep (os ++ [CAdd [k]; CDel k])) v = Get h (crun h rep os) v.
Proof.
  intros h rep os k v Hh Hr HC [n0 Hn0] Hk. apply c32_history_independent; auto.
  - eapply no_collision_mono; [|exact HC]. intros n. rewrite !added_app. intros [[Hn|(ks & Hn & Hk2)]|Hn]; auto.
    right. apply elem_of_cons in Hn as [Hn|Hn].
    + exists ks. split; [rewrite Hn; constructor|auto].
    + apply elem_of_list_singleton in Hn. discriminate.
  - intros n. replace (os ++ [CAdd [k]; CDel k]) with ((os ++ [CAdd [k]]) ++ [CDel k]) by (rewrite <- app_assoc; auto).
    rewrite member_del, member_add, elem_of_list_singleton. split; [intros [? [?|?]]; congruence|].
    intros Hn. split; [|auto]. intros ->. tauto.
  - exists n0. replace (os ++ [CAdd [k]; CDel k]) with ((os ++ [CAdd [k]]) ++ [CDel k]) by (rewrite <- app_assoc; auto).
    rewrite member_del, member_add. split; [intros ->; tauto|auto].
Qed.
Print Assumptions c32_add_del_restores.

Example c32_ex : let t := crun crc64 3 [CAdd [1; 2; 3]] in let t' := crun crc64 3 ([CAdd [1; 2; 3]] ++ [CAdd [7]]) in
  existsb (fun v => match Get crc64 t v, Get crc64 t' v with LRet a _, LRet b _ => negb (a =? b) && (b =? 7) | _, _ => false end)
    [10; 11; 12; 13; 14; 15; 16; 17; 18; 19] = true.
Proof. vm_compute. reflexivity. Qed.

(** C33, violated: after the last node is deleted a lookup panics. *)
Theorem c33_empty_ring_lookup_refuted : exists os v,
  (forall n, ~ member os n) /\ Get crc64 (crun crc64 1 os) v = LPanic.
Proof.
  exists [CAdd [1]; CDel 1], 5. split; [|vm_compute; reflexivity]. intros n. unfold member. cbn.
  rewrite elem_of_list_singleton. intros [H1 [H2|[]]]. congruence.
Qed.
Print Assumptions c33_empty_ring_lookup_refuted.

(** C33, exactly when: a lookup panics if and only if the key slice is empty but not nil;
    before any Add (or without replicas) it returns (0, false); with a node and no collision it does not panic
    ([c31_get_owner]). *)
Theorem c33_lookup_no_panic_partial : forall h rep os hv,
  (lookup_hash (crun h rep os) hv = LPanic <-> keys (crun h rep os) = Some []) /\
  ((forall n, ~ added os n) \/ rep <= 0 -> lookup_hash (crun h rep os) hv = LRet 0 false).
Proof.
  intros h rep os hv. destruct (crun_inv h rep os) as (HI & HS & HN). split.
  - pose proof (lookup_cases h rep _ hv HI HS) as HC. split.
    + intros E. rewrite E in HC. auto.
    + intros E. unfold lookup_hash. rewrite E, lookup_nil. auto.
  - intros HA. enough (HK : keys (crun h rep os) = None) by (unfold lookup_hash; rewrite HK; auto).
    unfold crun. assert (G : forall t, keys t = None -> rm t = ∅ -> nodes t = ∅ \/ rep <= 0 -> replicas t = rep ->
      keys (fold_left (cstep h) os t) = None); [|apply G; auto].
    clear -HA. induction os as [|o os IH]; intros t Hk Hm Hn Hr; cbn [fold_left]; [auto|].
    assert (HA' : (forall n, ~ added os n) \/ rep <= 0).
    { destruct HA as [HA|HA]; [left|auto]. intros n (ks & H1 & H2). apply (HA n). exists ks. split; [constructor; auto|auto]. }
    destruct o as [ks|k]; cbn [cstep].
    + assert (HF : forall ks t, keys t = None -> rm t = ∅ -> nodes t = ∅ \/ rep <= 0 -> replicas t = rep -> (ks = [] \/ rep <= 0) ->
        let t' := fold_left (add_one h) ks t in keys t' = None /\ rm t' = ∅ /\ (nodes t' = ∅ \/ rep <= 0) /\ replicas t' = rep).
      { clear. induction ks as [|k ks IH]; intros t Hk Hm Hn Hr Hks; cbn; [auto|]. destruct Hks as [|Hks]; [discriminate|].
        apply IH; auto; unfold add_one; destruct (decide (k ∈ nodes t)); auto; rewrite Hr;
        replace (Z.to_nat rep) with 0%nat by lia; cbn; auto. }
      destruct (HF ks t Hk Hm Hn Hr) as (F1 & F2 & F3 & F4).
      { destruct HA as [HA|HA]; [|auto]. left. destruct ks as [|k ks]; [auto|]. exfalso. apply (HA k). exists (k :: ks).
        split; constructor. }
      apply IH; auto; cbn; rewrite ?F1; auto.
    + unfold Del. destruct (decide (k ∈ nodes t)); [|apply IH; auto].
      apply IH; auto; cbn; rewrite ?Hk, ?Hm, ?map_to_list_empty; cbn; auto.
      destruct Hn as [->|]; [left; set_solver|auto].
Qed.
Print Assumptions c33_lookup_no_panic_partial.
Example c33_ex : Get crc64 (crun crc64 3 []) 5 = LRet 0 false /\ Get crc64 (crun crc64 (-1) [CAdd [1]]) 5 = LRet 0 false /\
  keys (crun crc64 3 [CAdd [1]; CDel 1]) = Some [].
Proof. vm_compute. auto. Qed.

(** C34, violated for every node: with two replicas, deleting the partner [k xor delta] of node [k] leaves [k]
    in Nodes() without a single point on the ring, and then every lookup panics. *)
Theorem c34_partner_refuted : forall k, is_i64 k ->
  let k' := Z.lxor k delta in
  let t := crun crc64 2 [CAdd [k; k']; CDel k'] in
  is_i64 k' /\ k' <> k /\ Nodes t = [k] /\ forall v, Get crc64 t v = LPanic.
Proof.
  intros k Hk k' t. assert (Hne : k' <> k).
  { intros E. assert (HD : delta = 0); [|discriminate HD].
    rewrite <- (Z.lxor_0_l delta), <- (Z.lxor_nilpotent k), Z.lxor_assoc. fold k'. rewrite E. reflexivity. }
  split; [apply lxor_delta_i64; auto|]. split; [auto|].
  destruct (partner_points k) as [P0 P1]. fold k' in P0, P1.
  destruct (crun_inv crc64 2 [CAdd [k; k']; CDel k']) as (HI & HS & HN). fold t in HI, HS, HN. split.
  - symmetry. apply Permutation_singleton_l. symmetry. unfold Nodes. apply NoDup_Permutation; [apply NoDup_elements|apply NoDup_singleton|].
    intros n. rewrite elem_of_elements, HN. unfold member. cbn. rewrite elem_of_list_singleton, !elem_of_cons, elem_of_nil.
    split; [intros [H1 [[H2|[H2|[]]]|[]]]; congruence|intros ->; auto].
  - intros v. unfold Get. apply (c33_lookup_no_panic_partial crc64 2 [CAdd [k; k']; CDel k']). fold t.
    assert (Hrm : forall p, rm t !! p = None).
    { intros p. unfold t, crun. cbn [fold_left cstep]. unfold Add. cbn [fold_left].
      assert (S1 : add_one crc64 (new_ring 2) k =
        Ring 2 (Some ([point crc64 0 k] ++ [point crc64 1 k])) (<[point crc64 1 k := k]> (<[point crc64 0 k := k]> ∅)) (∅ ∪ {[k]})).
      { unfold add_one. rewrite decide_False by (apply not_elem_of_empty). reflexivity. }
      rewrite S1. set (m1 := <[point crc64 1 k := k]> (<[point crc64 0 k := k]> ∅)).
      set (ks1 := Some ([point crc64 0 k] ++ [point crc64 1 k])).
      assert (S2 : exists ks2, add_one crc64 (Ring 2 ks1 m1 (∅ ∪ {[k]})) k' =
        Ring 2 ks2 (<[point crc64 1 k' := k']> (<[point crc64 0 k' := k']> m1)) (∅ ∪ {[k]} ∪ {[k']})).
      { unfold add_one. cbn [nodes].
        rewrite decide_False by (rewrite elem_of_union, elem_of_singleton; intros [H1|H1]; [apply not_elem_of_empty in H1|]; tauto).
        eexists. reflexivity. }
      destruct S2 as [ks2 S2]. rewrite S2. cbn [replicas keys rm nodes]. rewrite P0, P1.
      unfold Del. cbn [nodes]. rewrite decide_True by (rewrite !elem_of_union, !elem_of_singleton; auto). cbn [rm].
      apply eq_None_ne_Some. intros n Hn. apply Del_lookup in Hn as [Hn Hnk]. cbn [rm] in Hn. subst m1.
      destruct (decide (p = point crc64 0 k)) as [->|]; [rewrite lookup_insert in Hn; congruence|rewrite lookup_insert_ne in Hn by auto].
      destruct (decide (p = point crc64 1 k)) as [->|]; [rewrite lookup_insert in Hn; congruence|rewrite lookup_insert_ne in Hn by auto].
      rewrite lookup_insert_ne in Hn by auto. rewrite lookup_insert_ne in Hn by auto. rewrite lookup_empty in Hn. discriminate. }
    destruct HI as [HR HK HO HF]. destruct HF as [HF|[HF|[ks HF]]]; [|lia|].
    + exfalso. assert (k ∈ nodes t); [apply HN; unfold member; cbn; rewrite !elem_of_cons; tauto|]. rewrite HF in H. set_solver.
    + rewrite HF in *. f_equal. destruct ks as [|p ks]; [auto|]. exfalso.
      destruct (proj1 (HK p) ltac:(constructor)) as [n Hn]. rewrite Hrm in Hn. discriminate.
Qed.
Print Assumptions c34_partner_refuted.
Example c34_ex : is_i64 1 /\ Z.lxor 1 delta = 8025316695516917426 /\
  Nodes (crun crc64 2 [CAdd [1; 8025316695516917426]; CDel 8025316695516917426]) = [1] /\
  Get crc64 (crun crc64 2 [CAdd [1; 8025316695516917426]; CDel 8025316695516917426]) 42 = LPanic.
Proof. vm_compute. repeat split; discriminate. Qed.

(** C34 without collisions: after any history, every node still answers for each of its own points
    (the byte string of the point hashes to the point). *)
Theorem c34_points_kept_partial : forall h rep os n i, uint64_hash h -> 1 <= rep ->
  no_collision (point h) rep (added os) -> member os n -> 0 <= i < rep ->
  GetStr h (crun h rep os) (int64ToBytes i ++ int64ToBytes n) = LRet n true.
Proof.
  intros h rep os n i Hh Hr HC Hn Hi.
  assert (Hb : is_bytes (int64ToBytes i ++ int64ToBytes n)) by (apply Forall_app; split; apply int64ToBytes_bytes).
  destruct (c31_getstr_owner h rep os _ Hh Hr Hb HC (ex_intro _ n Hn)) as (n' & E & Hn' & i' & Hi' & Hd).
  rewrite E. f_equal. apply (HC n' n i' i); auto using member_added.
  specialize (Hd n i Hn Hi). fold (point h i n) in Hd.
  assert (distance (point h i n) (point h i n) = 0) as H0 by (unfold distance; rewrite Z.sub_diag; auto).
  rewrite H0 in Hd. apply (distance_inj (point h i n)); try apply point_u64; auto. rewrite H0.
  assert (0 <= distance (point h i n) (point h i' n')) by (apply Z.mod_pos_bound; lia). lia.
Qed.
Print Assumptions c34_points_kept_partial.
Example c34_ex_partial : GetStr crc64 (crun crc64 3 c31_history) (int64ToBytes 2 ++ int64ToBytes 7) = LRet 7 true.
Proof. vm_compute. reflexivity. Qed.

(** C35, for any hash and history: the nodes returned are distinct, current, none is the owner of the value, and with
    step >= 1 there are at most [step] of them. *)
Theorem c35_next_nodes : forall h rep os s step ns ok,
  GetNextNodeStr h (crun h rep os) s step = NRet ns ok ->
  NoDup ns /\ (forall n, n ∈ ns -> member os n /\ GetStr h (crun h rep os) s <> LRet n true) /\
  (1 <= step -> Z.of_nat (length ns) <= step).
Proof.
  intros h rep os s step ns ok E. destruct (crun_inv h rep os) as (HI & HS & HN). set (t := crun h rep os) in *. clearbody t.
  unfold GetNextNodeStr in E. unfold GetStr, lookup_hash. destruct HI as [HR HK HO HF]. destruct (keys t) as [ks|].
  2: { injection E as <- <-. split; [constructor|]. split; [|cbn; lia]. intros n Hn. apply elem_of_nil in Hn. tauto. }
  destruct (ks !! Z.to_nat (find_idx ks (h s))) as [p|] eqn:Ep; [|discriminate].
  set (rest := drop (S (Z.to_nat (find_idx ks (h s)))) ks) in *.
  assert (HP : forall n1 acc, NoDup acc -> n1 ∉ acc -> (forall n, n ∈ acc -> member os n) -> (1 <= step -> Z.of_nat (length acc) < step) ->
     let r := next_loop t n1 step rest acc in
     NoDup r /\ n1 ∉ r /\ (forall n, n ∈ r -> member os n) /\ (1 <= step -> Z.of_nat (length r) <= step)).
  { clear E Ep. clearbody rest. clear -HN HO. induction rest as [|q rest IH]; intros n1 acc A1 A2 A3 A4; cbn [next_loop].
    - cbv zeta. repeat split; auto. intros; specialize (A4 ltac:(auto)); lia.
    - set (acc' := match rm t !! q with Some n => if decide (n <> n1 /\ n ∉ acc) then acc ++ [n] else acc | None => acc end).
      assert (HA : NoDup acc' /\ n1 ∉ acc' /\ (forall n, n ∈ acc' -> member os n) /\ (1 <= step -> Z.of_nat (length acc') <= step)).
      { subst acc'. destruct (rm t !! q) as [n|] eqn:Eq.
        - destruct (decide (n <> n1 /\ n ∉ acc)) as [[D1 D2]|D].
          + split; [apply NoDup_app; split; [auto|]; split; [|apply NoDup_singleton]; intros x Hx Hx2;
              apply elem_of_list_singleton in Hx2; subst; tauto|].
            split; [rewrite elem_of_app, elem_of_list_singleton; intros [?|?]; [tauto|congruence]|].
            split; [|intros Hst; specialize (A4 Hst); rewrite app_length; cbn; lia].
            intros x Hx. apply elem_of_app in Hx as [Hx|Hx]; [auto|]. apply elem_of_list_singleton in Hx as ->.
            apply HN. destruct (HO q n Eq). auto.
          + repeat split; auto. intros Hst; specialize (A4 Hst); lia.
        - repeat split; auto. intros Hst; specialize (A4 Hst); lia. }
      destruct HA as (B1 & B2 & B3 & B4). destruct (Z.eqb_spec (Z.of_nat (length acc')) step); cbv zeta.
      + repeat split; auto.
      + apply IH; auto. intros Hst. specialize (B4 Hst). lia. }
  assert (Hin : p ∈ ks) by (eapply elem_of_list_lookup_2; eauto). apply HK in Hin as [n1 En1]. rewrite En1 in E |- *.
  injection E as <- <-. destruct (HP n1 []) as (C1 & C2 & C3 & C4); [constructor|apply not_elem_of_nil|
    intros n Hn; apply elem_of_nil in Hn; tauto|cbn; lia|].
  split; [auto|]. split; [|auto]. intros n Hn. split; [auto|]. intros [= ->]. tauto.
Qed.
Print Assumptions c35_next_nodes.

(** C35. Which nodes exactly, without collisions: go up the circle from the point [p1] that owns the value to the top,
    without wrapping; take the owners in order of first appearance, skip the owner [n1] of the value, stop at [step]
    (a negative step never stops). *)
Theorem c35_next_nodes_in_ring_order : forall h rep os s step, uint64_hash h -> 1 <= rep -> is_bytes s ->
  no_collision (point h) rep (added os) -> (exists n, member os n) -> step <> 0 ->
  exists n1 p1 later,
    owns (point h) rep (member os) (h s) n1 /\ (exists i, 0 <= i < rep /\ p1 = point h i n1) /\
    Sorted Z.le later.*1 /\
    (forall p n, (p, n) ∈ later -> p1 <= p /\ member os n /\ exists i, 0 <= i < rep /\ p = point h i n) /\
    (forall n i, member os n -> 0 <= i < rep -> p1 < point h i n -> (point h i n, n) ∈ later) /\
    GetNextNodeStr h (crun h rep os) s step =
      NRet (if step <? 0 then firsts n1 later.*2 [] else take (Z.to_nat step) (firsts n1 later.*2 [])) true.
Proof.
  intros h rep os s step Hh Hr Hb HC HM Hst.
  destruct (c31_getstr_owner h rep os s Hh Hr Hb HC HM) as (n1 & E1 & Ho).
  destruct (crun_inv h rep os) as (HI & HS & HN). pose proof (crun_own h rep os HC) as HA. set (t := crun h rep os) in *.
  unfold GetNextNodeStr. unfold GetStr, lookup_hash in E1. destruct HI as [HR HK HO HF].
  unfold sorted_keys in HS. destruct (keys t) as [ks|]; [|discriminate].
  destruct (ks !! Z.to_nat (find_idx ks (h s))) as [p1|] eqn:Ep; [|discriminate].
  destruct (rm t !! p1) as [n1'|] eqn:Er; [|discriminate]. injection E1 as ->.
  set (idx := Z.to_nat (find_idx ks (h s))) in *. set (rest := drop (S idx) ks).
  assert (HKs : ks = take idx ks ++ p1 :: rest).
  { rewrite <- (take_drop idx ks) at 1. f_equal. subst rest. apply drop_S. auto. }
  assert (HSS : StronglySorted Z.le ks) by (apply Sorted_StronglySorted; [intros x y z; lia|auto]).
  rewrite HKs in HSS. apply StronglySorted_app in HSS as (_ & _ & HSS) || idtac.
  assert (HSr : StronglySorted Z.le (p1 :: rest)).
  { clear -HSS. revert HSS. induction (take idx ks) as [|x l IH]; cbn; auto. intros HSS. apply StronglySorted_inv in HSS as [? _]. auto. }
  apply StronglySorted_inv in HSr as [HSr HFr].
  set (owner := fun p => default 0 (rm t !! p)).
  assert (Hpt : forall p n, rm t !! p = Some n -> member os n /\ exists i, 0 <= i < rep /\ p = point h i n).
  { intros p n Hp. destruct (HO p n Hp) as [H1 H2]. split; [apply HN|]; auto. }
  assert (Hown : forall l, (forall p, p ∈ l -> is_Some (rm t !! p)) -> owners t l = map owner l).
  { induction l as [|p l IH]; intros Hl; [auto|]. cbn. fold (owners t l).
    destruct (Hl p ltac:(constructor)) as [n En]. unfold owner at 1. rewrite En. cbn. f_equal.
    apply IH. intros q Hq. apply Hl. constructor. auto. }
  assert (Hrest : forall p, p ∈ rest -> is_Some (rm t !! p)).
  { intros p Hp. apply HK. rewrite HKs. apply elem_of_app. right. constructor. auto. }
  exists n1, p1, (map (fun p => (p, owner p)) rest). split; [auto|]. split; [destruct (Hpt p1 n1 Er); auto|].
  assert (M1 : (map (fun p => (p, owner p)) rest).*1 = rest).
  { clear. induction rest as [|x l IH]; cbn; [auto|]. f_equal. auto. }
  assert (M2 : (map (fun p => (p, owner p)) rest).*2 = map owner rest).
  { clear. induction rest as [|x l IH]; cbn; [auto|]. f_equal. auto. }
  split; [rewrite M1; apply StronglySorted_Sorted; auto|]. split; [|split].
  - intros p n Hp. apply elem_of_list_fmap in Hp as (q & Eq & Hq). injection Eq as -> ->.
    split; [rewrite Forall_forall in HFr; auto|]. destruct (Hrest q Hq) as [m Em]. unfold owner. rewrite Em. cbn. apply Hpt; auto.
  - intros n i Hn Hi Hlt. assert (Hrm : rm t !! point h i n = Some n) by (apply HA; [apply HN|]; auto).
    apply elem_of_list_fmap. exists (point h i n). split; [unfold owner; rewrite Hrm; auto|].
    assert (Hin : point h i n ∈ ks) by (apply HK; eauto). rewrite HKs in Hin. apply elem_of_app in Hin as [Hin|Hin].
    + exfalso. assert (Hle : point h i n <= p1); [|lia].
      apply elem_of_list_lookup in Hin as (j & Hj). pose proof (lookup_lt_Some _ _ _ Hj) as Hjl. rewrite take_length in Hjl.
      rewrite lookup_take in Hj by lia. pose proof (lookup_lt_Some _ _ _ Hj).  pose proof (lookup_lt_Some _ _ _ Ep).
      rewrite (lookup_nth ks j) in Hj by lia. rewrite (lookup_nth ks idx) in Ep by lia. injection Hj as <-. injection Ep as <-.
      apply sorted_nth; auto. lia.
    + apply elem_of_cons in Hin as [Hin|Hin]; [lia|auto].
  - rewrite M2, <- Hown by auto. assert (Hst' : Z.of_nat (length (@nil Z)) < step \/ step < 0) by (change (length (@nil Z)) with 0%nat; lia).
    rewrite (next_loop_spec h) by exact Hst'. cbn [length app]. rewrite Nat.sub_0_r. auto.
Qed.
Print Assumptions c35_next_nodes_in_ring_order.

(** C35. It does not wrap: with two nodes on the ring it can return none for step = 1. *)
Theorem c35_does_not_wrap : exists s,
  no_collision (point crc64) 3 (added [CAdd [1; 2]]) /\
  GetNextNodeStr crc64 (crun crc64 3 [CAdd [1; 2]]) s 1 = NRet [] true.
Proof.
  exists [1]. split.
  - apply (ring_ok_spec _ 3 [1; 2]); [vm_compute; reflexivity|]. intros n (ks & Hks & Hn).
    apply elem_of_list_singleton in Hks. injection Hks as ->. auto.
  - vm_compute. reflexivity.
Qed.
Print Assumptions c35_does_not_wrap.
Example c35_ex : let t := crun crc64 3 [CAdd [1; 2; 3; 4; 5]] in
  GetStr crc64 t [3] = LRet 1 true /\ GetNextNodeStr crc64 t [3] 2 = NRet [4; 3] true /\
  GetNextNodeStr crc64 t [3] (-1) = NRet [4; 3; 2; 5] true /\
  ring_ok (point crc64) 3 [1; 2; 3; 4; 5] = true.
Proof. vm_compute. auto. Qed.
