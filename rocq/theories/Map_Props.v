(** Properties C28 and C29 of hashmap/map.go. *)
From stdpp Require Import gmap.
From Coq Require Import ZArith Lia.
From Verif Require Import GoInt Map_Model Map_Spec Map_Proofs.
Local Open Scope Z_scope.

(** C28. After every history, every call answers by the last Put of its key not followed by a Del.
    (In Go a nil interface value is the zero value of V.) *)
Theorem c28_map_answers {K V} `{Countable K} :
  forall (is_nil : V -> bool) (zero : V) (os : list (mop K V)) (o : mop K V),
    (forall v, is_nil v = true -> v = zero) ->
    (map_run is_nil zero ∅ (os ++ [o])).1 = (map_run is_nil zero ∅ os).1 ++ [answer is_nil zero os o].
Proof.
  intros is_nil zero os o Hz. rewrite map_run_app. f_equal. cbn [map_run].
  pose proof (map_run_lookup is_nil zero os ∅) as HL. set (m := (map_run is_nil zero ∅ os).2) in *.
  setoid_rewrite lookup_empty in HL.
  destruct (map_step is_nil zero m o) as [x m1] eqn:E. cbn [fst]. f_equal.
  destruct o as [k v|k|k|k]; cbn in E; rewrite HL in E; injection E as <- <-; cbn; auto.
  destruct (last_put k os None) as [v|]; [|auto]. destruct (is_nil v) eqn:En; [rewrite (Hz v En)|]; auto.
Qed.
Print Assumptions c28_map_answers.

(** C28. Range calls the callback on distinct present entries, each once, in the chosen enumeration order;
    on all of them if it never returns false; otherwise up to and including the first [false]. *)
Theorem c28_map_range {K V} `{Countable K} :
  forall (is_nil : V -> bool) (zero : V) (m : gmap K V) (l : list (K * V)) (f : K -> V -> bool),
    (forall v, is_nil v = true -> v = zero) ->
    l ≡ₚ map_to_list m ->
    (exists rest, l = range_visit is_nil zero f l ++ rest /\
       (forall k v, (k, v) ∈ rest -> exists k' v', last (range_visit is_nil zero f l) = Some (k', v') /\ f k' v' = false)) /\
    (forall k v, (k, v) ∈ range_visit is_nil zero f l -> m !! k = Some v) /\
    NoDup (range_visit is_nil zero f l).*1 /\
    (forall pre k v post, range_visit is_nil zero f l = pre ++ (k, v) :: post -> f k v = false -> post = []) /\
    ((forall k v, m !! k = Some v -> f k v = true) ->
       forall k v, m !! k = Some v -> (k, v) ∈ range_visit is_nil zero f l).
Proof.
  intros is_nil zero m l f Hz Hp.
  assert (Hid : forall v, (if is_nil v then zero else v) = v).
  { intros v. destruct (is_nil v) eqn:E; [symmetry; auto|auto]. }
  assert (Hpre : forall l, exists rest, l = range_visit is_nil zero f l ++ rest /\
     (forall k v, (k, v) ∈ rest -> exists k' v', last (range_visit is_nil zero f l) = Some (k', v') /\ f k' v' = false)).
  { clear Hp l. induction l as [|[k v] l (rest & IH & Hr)]; [exists []; split; [auto|]; intros ? ? Hin; apply elem_of_nil in Hin; tauto|].
    cbn. rewrite Hid. destruct (f k v) eqn:E.
    - exists rest. split; [cbn; congruence|]. intros k' v' Hin. destruct (Hr k' v' Hin) as (k1 & v1 & Hl & Hf).
      exists k1, v1. split; [|auto]. destruct (range_visit is_nil zero f l); [discriminate|]. auto.
    - exists l. split; [auto|]. intros. exists k, v. auto. }
  destruct (Hpre l) as (rest & Hl & Hr).
  assert (Hin : forall k v, (k, v) ∈ range_visit is_nil zero f l -> m !! k = Some v).
  { intros k v Hkv. apply elem_of_map_to_list. rewrite <- Hp, Hl. apply elem_of_app. auto. }
  split; [eauto|]. split; [auto|]. split; [|split].
  - assert (HN : NoDup (l.*1)) by (rewrite Hp; apply NoDup_fst_map_to_list).
    rewrite Hl, fmap_app in HN. apply NoDup_app in HN. tauto.
  - clear -Hid. induction l as [|[k0 v0] l IH]; intros pre k v post E Hf; cbn in E.
    + destruct pre; discriminate.
    + rewrite Hid in E. destruct pre as [|p pre].
      * injection E as E1 E1' E2. subst. rewrite Hf. auto.
      * injection E as E1 E2. destruct (f k0 v0); [eauto|]. destruct pre; discriminate.
  - intros Ht k v Hm. assert (Hkv : (k, v) ∈ l) by (rewrite Hp; apply elem_of_map_to_list; auto).
    rewrite Hl in Hkv. apply elem_of_app in Hkv as [Hkv|Hkv]; [auto|].
    destruct (Hr k v Hkv) as (k' & v' & Hlast & Hf). apply last_Some in Hlast as (l' & El).
    rewrite Ht in Hf; [discriminate|]. apply Hin. rewrite El. apply elem_of_app. right. constructor.
Qed.
Print Assumptions c28_map_range.
Example c28_ex : (map_run (fun v => bool_decide (v = None)) None (∅ : gmap nat (option nat))
    [MPut 1 (Some 5); MPut 2 None; MGet 2; MPut 2 (Some 7); MHas 2; MPut 1 None; MDel 1; MGet 1; MDel 1]%nat).1 =
  [MPair None false; MPair None false; MPair None true; MPair None false; MBool true; MPair (Some 5) true; MBool true;
   MPair None false; MBool false]%nat.
Proof. vm_compute. reflexivity. Qed.
Example c28_ex_range : range_visit (fun _ => false) 0%nat (fun k v => Nat.ltb v 20)
    [(3, 10); (1, 20); (2, 30)]%nat = [(3, 10); (1, 20)]%nat /\
  [(3, 10); (1, 20); (2, 30)]%nat ≡ₚ map_to_list (<[1%nat := 20%nat]> (<[2%nat := 30%nat]> (<[3%nat := 10%nat]> ∅)) : gmap nat nat).
Proof.
  split; [reflexivity|]. rewrite !map_to_list_insert, map_to_list_empty by (vm_compute; reflexivity).
  apply perm_trans with [(1, 20); (3, 10); (2, 30)]%nat; repeat constructor.
Qed.

(** C29. Under every interleaving the counter is the number of entries minus the additions still to be done
    (as an int64), so it is off by at most the number of calls in flight. *)
Theorem c29_mapl_len {K V} `{Countable K} :
  forall (is_nil : V -> bool) (zero : V) (progs : list (list (mop K V))) (sched : list nat),
    let c := mapl_exec is_nil zero sched (mapl_init progs) in
    let in_flight := filter (fun th => pend th <> 0) (ths c) in
    exists d, Z.abs d <= Z.of_nat (length in_flight) /\ mapl_Len c = i64 (Z.of_nat (size (mm c)) + d).
Proof.
  intros is_nil zero progs sched c in_flight.
  destruct (mapl_exec_ok is_nil zero sched _ (mapl_init_ok is_nil zero progs)) as [Hl Hp]. fold c in Hl, Hp.
  exists (- pending c). split; [rewrite Z.abs_opp; apply (pending_bound is_nil zero); auto|].
  unfold mapl_Len. rewrite Hl. f_equal.
Qed.
Print Assumptions c29_mapl_len.

(** C29. With no call in flight, Len() is exactly the number of entries. *)
Theorem c29_mapl_len_quiescent {K V} `{Countable K} :
  forall (is_nil : V -> bool) (zero : V) (progs : list (list (mop K V))) (sched : list nat),
    let c := mapl_exec is_nil zero sched (mapl_init progs) in
    Forall (fun th => pend th = 0) (ths c) -> Z.of_nat (size (mm c)) < 2^63 ->
    mapl_Len c = Z.of_nat (size (mm c)).
Proof.
  intros is_nil zero progs sched c Hq Hs.
  destruct (c29_mapl_len is_nil zero progs sched) as (d & Hd & HL). fold c in Hd, HL. rewrite HL.
  assert (HE : filter (fun th => pend th <> 0) (ths c) = []).
  { clear -Hq. induction Hq as [|th l Hth Hl IH]; [auto|]. rewrite filter_cons, decide_False by tauto. auto. }
  rewrite HE in Hd. cbn in Hd. replace d with 0 by lia. rewrite Z.add_0_r. apply wrapS_id; lia.
Qed.
Print Assumptions c29_mapl_len_quiescent.

(** While calls are in flight Len can even be negative: Put swaps, Del removes and subtracts, then Put adds. *)
Example c29_ex : let c := mapl_exec (fun _ => false) 0%nat [0; 1; 1]%nat (mapl_init [[MPut 1 1]; [MDel 1]]%nat) in
  mapl_Len c = -1 /\ map pend (ths c) = [1; 0] /\
  let c' := mapl_step (fun _ => false) 0%nat 0 c in mapl_Len c' = 0 /\ Forall (fun th => pend th = 0) (ths c').
Proof. vm_compute. repeat split; auto. Qed.
