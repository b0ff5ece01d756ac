(** Properties C23-C27 and C77 of hashmap/linkedhashmap.go. *)
From stdpp Require Import gmap.
From Coq Require Import ZArith Lia.
From Verif Require Import GoList_Model Assoc_Spec Keyed_Proofs Linked_Model Linked_Spec Linked_Proofs.
Local Open Scope Z_scope.

(** C23. Every history of calls has the results of the list specification. *)
Theorem c23_linked_refines {K V} `{Countable K} :
  forall (lim : Z) (os : list (op K V)),
    (run (NewLinkedHashMap lim) os).1 = (spec_run lim [] os).1.
Proof.
  intros lim os. pose proof (run_holds lim os _ _ (holds_new lim)) as HR.
  destruct (run _ os) as [rs t], (spec_run _ _ os) as [rs' s]. tauto.
Qed.
Print Assumptions c23_linked_refines.

Definition ex_hist : list (op nat nat) :=
  [OPut 1 10; OPut 2 20; OPut 1 11; OPut 3 30; OGet 2; OGet 1; OMoveToFront 1; OBack; OPut 4 40; OGet 3;
   ODelete 1; OLen; OFront; OLoadOrStore 4 41; OClear; OLen]%nat.
Example c23_ex : (run (NewLinkedHashMap 2) ex_hist).1 =
  [RUnit; RUnit; RUnit; RUnit; RVal None; RVal (Some 11); RUnit; RPair (Some (3, 30)); RUnit; RVal None;
   RUnit; RLen 1; RPair (Some (4, 40)); RVal (Some 40); RUnit; RLen 0]%nat.
Proof. vm_compute. reflexivity. Qed.
Example c23_ex_zero : (run (NewLinkedHashMap 0) [OPut 1 10; OGet 1; OLen]%nat).1 = [RUnit; RVal None; RLen 0].
Proof. vm_compute. reflexivity. Qed.

(** C24. Len, and the number of keys that answer Get, never exceed the limit. *)
Theorem c24_linked_limit {K V} `{Countable K} :
  forall (lim : Z) (os : list (op K V)),
    let t := (run (NewLinkedHashMap lim) os).2 in
    0 <= Len t <= Z.max 0 lim /\
    forall ks : list K, NoDup ks -> (forall k, k ∈ ks -> Get k t <> None) -> Z.of_nat (length ks) <= Len t.
Proof.
  intros lim os t. pose proof (run_holds_new lim os) as Hh. fold t in Hh.
  set (s := (spec_run lim [] os).2) in Hh. pose proof Hh as (Hk & Hc & Hl & Hb). unfold Len. split; [lia|].
  intros ks Hn Hg. rewrite Hc, <- (fmap_length fst s). apply Nat2Z.inj_le, submseteq_length, NoDup_submseteq; [auto|].
  intros k Hin. specialize (Hg k Hin). rewrite (Get_spec _ _ _ _ Hh), find_key_None in Hg.
  destruct (decide (k ∈ s.*1)); tauto.
Qed.
Print Assumptions c24_linked_limit.
Example c24_ex : let t := (run (NewLinkedHashMap 2) [OPut 1 10; OPut 2 20; OPut 3 30]%nat).2 in
  Len t = 2 /\ Get 1%nat t = None /\ Get 2%nat t = Some 20%nat /\ Get 3%nat t = Some 30%nat.
Proof. vm_compute. auto. Qed.

(** C25. Reading an iterator any number of times gives the entries in order, then ok = false. *)
Theorem c25_linked_iteration {K V} `{Countable K} :
  forall (lim : Z) (os : list (op K V)) (newest_first : bool) (n : nat),
    let t := (run (NewLinkedHashMap lim) os).2 in
    (nexts n t (Iterator newest_first t)).1 = reads n (in_order newest_first (spec_run lim [] os).2).
Proof.
  intros lim os fr n t. pose proof (at_rest_iterator _ _ _ fr (run_holds_new lim os)) as HR. fold t in HR.
  destruct (nexts_rest n _ _ _ _ HR) as (-> & _). unfold reads. apply map_ext. intros i.
  rewrite nth_error_lookup'. reflexivity.
Qed.
Print Assumptions c25_linked_iteration.

(** C25. Deleting some of the entries right after they are returned neither skips nor repeats any,
    and what is left is exactly the rest: every later call answers accordingly. *)
Theorem c25_linked_iteration_deleting {K V} `{Countable K} :
  forall (lim : Z) (os os' : list (op K V)) (newest_first : bool) (del : K * V -> bool) (n : nat),
    let t := (run (NewLinkedHashMap lim) os).2 in
    let l := in_order newest_first (spec_run lim [] os).2 in
    (visit del n t (Iterator newest_first t)).1 = reads n l /\
    (run (visit del n t (Iterator newest_first t)).2 os').1 =
    (spec_run lim (in_order newest_first (without_read del n l)) os').1.
Proof.
  intros lim os os' fr del n t l. pose proof (run_holds_new lim os) as Hh.
  pose proof (at_rest_iterator _ _ _ fr Hh) as HR. fold t in HR, Hh.
  set (s := (spec_run lim [] os).2) in *.
  assert (Hl : oriented fr ([] ++ l) = s).
  { unfold l, in_order, oriented. destruct fr; [auto|apply rev_involutive]. }
  assert (Hfr : front (Iterator fr t) = fr) by reflexivity.
  destruct (visit_rest lim del n t (Iterator fr t) [] l) as [A B].
  - rewrite Hfr, Hl. auto.
  - rewrite Hfr, Hl. auto.
  - rewrite Hfr in B. split.
    + rewrite A. unfold reads. apply map_ext. intros i. rewrite nth_error_lookup'. reflexivity.
    + cbn [app] in B. change (oriented fr ?x) with (in_order fr x) in B.
      pose proof (run_holds lim os' _ _ B) as HX. fold (without_read del n l) in HX.
      destruct (run _ os') as [rs t2], (spec_run _ _ os') as [rs' s2]. tauto.
Qed.
Print Assumptions c25_linked_iteration_deleting.
Example c25_ex : let t := (run (NewLinkedHashMap 3) [OPut 1 10; OPut 2 20; OPut 3 30; OPut 1 11; OPut 4 40]%nat).2 in
  (nexts 4 t (Iterator true t)).1 = [Some (4, 40); Some (1, 11); Some (3, 30); None]%nat /\
  (nexts 4 t (Iterator false t)).1 = [Some (3, 30); Some (1, 11); Some (4, 40); None]%nat /\
  (visit (fun p => Nat.odd p.1) 4 t (Iterator false t)).1 = [Some (3, 30); Some (1, 11); Some (4, 40); None]%nat /\
  (run (visit (fun p => Nat.odd p.1) 4 t (Iterator false t)).2 [OLen; OGet 4; OGet 1]%nat).1 =
    [RLen 1; RVal (Some 40); RVal None]%nat.
Proof. vm_compute. auto. Qed.

(** C26 is false: after Delete of the pending entry, and after Clear, Next returns entries that Get denies;
    in the first case the iteration also ends there although an entry remains. *)
Theorem c26_linked_iterator_stale_refuted :
  exists (lim : Z) (os os' : list (op nat nat)) (fr : bool) (n : nat) (k v : nat),
    let t := (run (NewLinkedHashMap lim) os).2 in
    let t' := (run t os').2 in
    let it := (nexts n t (Iterator fr t)).2 in
    (Next t' it).1 = Some (k, v) /\ Get k t' = None.
Proof.
  exists 5, [OPut 1 10; OPut 2 20; OPut 3 30]%nat, [ODelete 2]%nat, true, 1%nat, 2%nat, 20%nat.
  vm_compute. auto.
Qed.
Print Assumptions c26_linked_iterator_stale_refuted.
Theorem c26_linked_iterator_stops_early_refuted :
  exists (lim : Z) (os os' : list (op nat nat)) (fr : bool) (n : nat),
    let t := (run (NewLinkedHashMap lim) os).2 in
    let t' := (run t os').2 in
    let it := (nexts n t (Iterator fr t)).2 in
    (nexts 3 t it).1 = [Some (2, 20); Some (1, 10); None]%nat /\
    (nexts 3 t' it).1 = [Some (2, 20); None; None]%nat /\ Get 1%nat t' = Some 10%nat.
Proof.
  exists 5, [OPut 1 10; OPut 2 20; OPut 3 30]%nat, [ODelete 2]%nat, true, 1%nat.
  vm_compute. auto.
Qed.
Print Assumptions c26_linked_iterator_stops_early_refuted.
Theorem c26_linked_iterator_after_clear_refuted :
  exists (lim : Z) (os os' : list (op nat nat)) (fr : bool),
    let t := (run (NewLinkedHashMap lim) os).2 in
    let t' := (run t os').2 in
    (nexts 2 t' (Iterator fr t)).1 = [Some (2, 20); Some (1, 10)]%nat /\ Len t' = 0.
Proof.
  exists 5, [OPut 1 10; OPut 2 20]%nat, [OClear], true. vm_compute. auto.
Qed.
Print Assumptions c26_linked_iterator_after_clear_refuted.

(** C26, what does hold: whatever calls happen in between, if the key of the pending entry stays in the map
    and is not stored again, Next returns that entry, and it is in the map.
    Missing from the full claim: pending entries that were removed or stored again meanwhile. *)
Theorem c26_linked_iterator_pending_partial {K V} `{Countable K} :
  forall (lim : Z) (os os' : list (op K V)) (fr : bool) (n : nat) (k : K) (v : V),
    let t := (run (NewLinkedHashMap lim) os).2 in
    let s := (spec_run lim [] os).2 in
    let t' := (run t os').2 in
    let it := (nexts n t (Iterator fr t)).2 in
    nth_error (in_order fr s) n = Some (k, v) -> stays k lim s os' ->
    exists v', (Next t' it).1 = Some (k, v') /\ Get k t' = Some v'.
Proof.
  intros lim os os' fr n k v t s t' it Hnth Hs. pose proof (run_holds_new lim os) as Hh.
  pose proof (at_rest_iterator _ _ _ fr Hh) as HR. fold t s in HR, Hh.
  destruct (nexts_rest n _ _ _ _ HR) as (_ & _ & HR'). fold it in HR'.
  destruct (at_rest_current _ _ _ _ k v HR') as (x & Hcur & Hm).
  { change (if fr then s else rev s) with (in_order fr s). rewrite <- Hnth, nth_error_lookup'.
    rewrite head_lookup, lookup_drop. f_equal. lia. }
  pose proof (run_elem lim k x os' t s Hh Hm Hs) as Hm'. fold t' in Hm'.
  pose proof (run_holds lim os' t s Hh) as HX. unfold t' in *. destruct (run t os') as [rs t2].
  destruct (spec_run lim s os') as [rs' s2]. destruct HX as [_ HX]. cbn [snd] in *.
  destruct HX as (Hk & HX'). destruct (keyed_Some _ _ _ _ _ Hk Hm') as (v' & Hv & Hf).
  exists v'. split; [|rewrite (Get_spec lim t2 s2); [auto|split; auto]].
  eapply (next_pending lim t s t2 s2); eauto. split; auto.
Qed.
Print Assumptions c26_linked_iterator_pending_partial.
Example c26_ex : stays 2%nat 5 [(3, 30); (2, 20); (1, 10)]%nat [OPut 7 70; ODelete 3; OMoveToFront 1]%nat.
Proof. cbn. repeat split; try discriminate; lia. Qed.

(** C27 is false: LoadOrStore on a present key overwrites. *)
Theorem c27_load_or_store_keeps_refuted :
  exists (lim : Z) (os : list (op nat nat)) (k v old : nat),
    let t := (run (NewLinkedHashMap lim) os).2 in
    Get k t = Some old /\ (LoadOrStore k v t).1 = Some old /\ Get k (LoadOrStore k v t).2 = Some v /\ v <> old.
Proof. exists 5, [OPut 1 10]%nat, 1%nat, 11%nat, 10%nat. vm_compute. repeat (split; [reflexivity|]). discriminate. Qed.
Print Assumptions c27_load_or_store_keeps_refuted.

(** C27, what does hold in every reachable state: the returned pair is right (the existing value, or
    loaded = false); but the new value is always the one stored afterwards (for a positive limit).
    Missing: keeping the existing value. *)
Theorem c27_load_or_store_partial {K V} `{Countable K} :
  forall (lim : Z) (os : list (op K V)) (k : K) (v : V),
    let t := (run (NewLinkedHashMap lim) os).2 in
    (LoadOrStore k v t).1 = Get k t /\
    (1 <= lim -> Get k (LoadOrStore k v t).2 = Some v) /\
    (LoadOrStore k v t).2 = Put k v t.
Proof.
  intros lim os k v t. pose proof (run_holds_new lim os) as Hh. fold t in Hh.
  pose proof (put_body_holds lim t _ k v Hh) as HP. unfold LoadOrStore, Put.
  destruct (put_body k v t) as [pre t']. destruct HP as [HP Hr]. cbn [fst snd].
  rewrite Hr, (Get_spec _ _ _ _ Hh). split; [auto|]. split; [|auto].
  intros Hl. rewrite (Get_spec _ _ _ _ HP). apply find_key_spec_put. auto.
Qed.
Print Assumptions c27_load_or_store_partial.

(** C77 is false: between the insertion and the eviction inside Put, limit+1 keys answer Get. *)
Theorem c77_get_sees_over_limit_refuted :
  exists (lim : Z) (os : list (op nat nat)) (k v n : nat),
    let t := (run (NewLinkedHashMap lim) os).2 in
    let t' := (put_after n k v t).2 in
    lim = 1 /\ Get 1%nat t' = Some 10%nat /\ Get 2%nat t' = Some 20%nat.
Proof. exists 1, [OPut 1 10]%nat, 2%nat, 20%nat, 2%nat. vm_compute. auto. Qed.
Print Assumptions c77_get_sees_over_limit_refuted.

(** C77. With limit 0 a lock-free Get can even return an entry that is in the map neither before nor after. *)
Theorem c77_get_phantom_refuted :
  exists (lim : Z) (k v n : nat),
    let t := NewLinkedHashMap lim in
    Get k t = None /\ Get k (Put k v t) = None /\ Get k (put_after n k v t).2 = Some v.
Proof. exists 0, 1%nat, 10%nat, 2%nat. vm_compute. auto. Qed.
Print Assumptions c77_get_phantom_refuted.

(** C77, what does hold: with a positive limit each single Get, at any point inside a concurrent Put,
    returns the value from before or from after the Put; at most one key too many is visible.
    Missing: two Gets may not agree on one moment. *)
Theorem c77_get_single_partial {K V} `{Countable K} :
  forall (lim : Z) (os : list (op K V)) (k : K) (v : V) (n : nat),
    let t := (run (NewLinkedHashMap lim) os).2 in
    let t' := (put_after n k v t).2 in
    (1 <= lim -> forall k', Get k' t' = Get k' t \/ Get k' t' = Get k' (Put k v t)) /\
    (forall ks, NoDup ks -> (forall k', k' ∈ ks -> Get k' t' <> None) -> Z.of_nat (length ks) <= Z.max 0 lim + 1) /\
    ((4 <= n)%nat -> t' = Put k v t).
Proof.
  intros lim os k v n t t'. pose proof (run_holds_new lim os) as Hh. fold t in Hh.
  set (s := (spec_run lim [] os).2) in *. split; [|split].
  - intros Hl k'. eapply put_get_before_or_after; eauto.
  - intros ks Hn Hg. pose proof Hh as (_ & Hc & _ & Hb).
    assert (length ks <= length (k :: s.*1))%nat as HL.
    { apply submseteq_length, NoDup_submseteq; [auto|]. intros k' Hin. apply elem_of_cons.
      eapply put_visible; eauto. }
    cbn [length] in HL. rewrite fmap_length in HL. lia.
  - intros Hn. apply put_after_ge. auto.
Qed.
Print Assumptions c77_get_single_partial.
Example c77_ex : let t := (run (NewLinkedHashMap 1) [OPut 1 10]%nat).2 in
  map (fun n => (Get 1%nat (put_after n 2%nat 20%nat t).2, Get 2%nat (put_after n 2%nat 20%nat t).2)) [0; 1; 2; 3; 4]%nat =
  [(Some 10, None); (Some 10, None); (Some 10, Some 20); (Some 10, Some 20); (None, Some 20)]%nat.
Proof. vm_compute. reflexivity. Qed.
