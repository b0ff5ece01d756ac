(** C58, C59, C60, C81: gopool.  A pool is made by NewPoolWithFuncLimit(min, mx, lim); NewPool(min, mx) has lim = 1<<17. *)
From stdpp Require Import list.
From Coq Require Import ZArith Lia.
From Verif Require Import Conc Gopool_Model Gopool_Spec Gopool_Proofs Gopool_Limit Gopool_End.
Local Open Scope Z_scope.

Ltac evalto t E := let v := eval vm_compute in t in assert (E : t = v) by (vm_compute; reflexivity).
(** Goroutine [t] goes [n] steps, and functions return. *)
Definition go (t n : nat) : list (nat * bool) := replicate n (t, false).
(** In a given configuration: no goroutine can take a step. *)
Lemma stuck_by min max lim c :
  forallb (fun th => match gstep min max lim (gsh c) th false, gstep min max lim (gsh c) th true with None, None => true | _, _ => false end) (gths c) = true ->
  stuck min max lim c.
Proof.
  intros H t th ch Ht. rewrite forallb_forall in H. specialize (H th). rewrite <- elem_of_list_In in H. specialize (H (elem_of_list_lookup_2 _ _ _ Ht)).
  destruct (gstep _ _ _ _ _ false) eqn:E1; [discriminate|]. destruct (gstep _ _ _ _ _ true) eqn:E2; [discriminate|]. destruct ch; assumption.
Qed.
Lemma max_nonneg min mx : 0 <= min -> 0 <= maxlimit min mx.
Proof. intros H. unfold maxlimit. destruct (mx <? min) eqn:E; lia. Qed.

(** ** C58 *)
Theorem c58_at_most_once min mx lim progs evs :
  let c := grun min (maxlimit min mx) lim (ginit progs) evs in
  NoDup (gstart (gsh c)) /\ forall f, f ∈ gstart (gsh c) -> submits progs f.
Proof.
  intros c. pose proof (once_run min (maxlimit min mx) lim progs evs _ (once_init progs)) as I. fold c in I.
  assert (Hle : forall f, held f c <= tot f c).
  { intros f. unfold held, tot. rewrite sum_tok. assert (0 <= sumZ (future f) (gths c)); [|lia].
    apply sumZ_nonneg. intros th _. unfold future. destruct th; try lia. apply fut_nonneg. }
  assert (Hh : forall f, cnt f (gstart (gsh c)) <= held f c).
  { intros f. unfold held, rest. assert (0 <= sumZ (hold f) (gths c)) by (apply sumZ_nonneg; intros; apply hold_nonneg).
    pose proof (cnt_nonneg f (fq (gsh c))). pose proof (tasks_nonneg f (gws (gsh c))). lia. }
  split.
  - apply cnt_NoDup. intros f. pose proof (o_tot _ _ I f). specialize (Hle f). specialize (Hh f). lia.
  - intros f Hf. apply (o_held _ _ I). pose proof (cnt_elem _ _ Hf). specialize (Hh f). lia.
Qed.
Print Assumptions c58_at_most_once.
(** Two clients, one of which closes the pool: the worker runs one function, the dispatcher starts another by itself. *)
Definition ex58 : list (list gact) := [[AGo; AGo; AGo]; [AClose]].
Definition ex58_evs : list (nat * bool) := go 0 5 ++ go 2 7 ++ go 3 6 ++ go 0 5 ++ go 2 2 ++ go 1 3 ++ go 2 3 ++ go 4 2 ++ go 0 5 ++ go 5 2.
Example ex_c58 : gstart (gsh (grun 1 1 131072 (ginit ex58) ex58_evs)) = [(0, 0); (0, 1); (0, 2)]%nat.
Proof. vm_compute. reflexivity. Qed.

(** ** C59 *)
(** The wake-up can be lost: the dispatcher has seen that there is nothing to do, a call of Go adds a function and finds the mutex
    locked, the dispatcher unlocks it. *)
Theorem c59_all_run_refuted : exists progs evs f,
  let c := grun 1 1 131072 (ginit progs) evs in
  only_go progs /\ stuck 1 1 131072 c /\ accepted progs c f /\ f ∉ gstart (gsh c).
Proof.
  exists [[AGo; AGo]], (go 0 5 ++ go 1 9 ++ go 0 5 ++ go 1 1 ++ go 2 6), (0, 1)%nat.
  evalto (grun 1 1 131072 (ginit [[AGo; AGo]]) (go 0 5 ++ go 1 9 ++ go 0 5 ++ go 1 1 ++ go 2 6)) E. rewrite E. cbv zeta.
  split; [|split; [|split]].
  - intros p a Hp Ha. apply elem_of_list_singleton in Hp as ->. repeat (apply elem_of_cons in Ha as [->|Ha]; [reflexivity|]). exfalso. revert Ha. apply not_elem_of_nil.
  - apply stuck_by. vm_compute. reflexivity.
  - split; [eexists; split; reflexivity|]. eexists _, _, _. split; [reflexivity|]. right. split; reflexivity.
  - intros H. apply (proj1 (elem_of_list_singleton _ _)) in H. discriminate.
Qed.
Print Assumptions c59_all_run_refuted.
(** With FuncLimit 1 the next call of Go then never returns. *)
Theorem c59_go_returns_refuted : exists progs evs todo k f,
  let c := grun 1 1 1 (ginit progs) evs in
  only_go progs /\ stuck 1 1 1 c /\ gths c !! 0%nat = Some (GClient 0 todo k (CSend f)).
Proof.
  exists [[AGo; AGo; AGo]], (go 0 5 ++ go 1 9 ++ go 0 5 ++ go 1 1 ++ go 2 6 ++ go 0 9), [], 3%nat, (0, 2)%nat.
  evalto (grun 1 1 1 (ginit [[AGo; AGo; AGo]]) (go 0 5 ++ go 1 9 ++ go 0 5 ++ go 1 1 ++ go 2 6 ++ go 0 9)) E. rewrite E. cbv zeta.
  split; [|split].
  - intros p a Hp Ha. apply elem_of_list_singleton in Hp as ->. repeat (apply elem_of_cons in Ha as [->|Ha]; [reflexivity|]). exfalso. revert Ha. apply not_elem_of_nil.
  - apply stuck_by. vm_compute. reflexivity.
  - reflexivity.
Qed.
Print Assumptions c59_go_returns_refuted.
(** NewPool(0, 1): when two functions come at once the dispatcher waits for ever for a permanent worker. *)
Theorem c59_no_permanent_refuted : exists progs evs f,
  let c := grun 0 (maxlimit 0 1) 131072 (ginit progs) evs in
  only_go progs /\ stuck 0 (maxlimit 0 1) 131072 c /\ accepted progs c f /\ f ∉ gstart (gsh c) /\ gmux (gsh c) = true.
Proof.
  exists [[AGo; AGo]], (go 0 10 ++ go 1 12 ++ go 2 6), (0, 1)%nat.
  evalto (grun 0 (maxlimit 0 1) 131072 (ginit [[AGo; AGo]]) (go 0 10 ++ go 1 12 ++ go 2 6)) E. rewrite E. cbv zeta.
  split; [|split; [|split; [|split]]].
  - intros p a Hp Ha. apply elem_of_list_singleton in Hp as ->. repeat (apply elem_of_cons in Ha as [->|Ha]; [reflexivity|]). exfalso. revert Ha. apply not_elem_of_nil.
  - apply stuck_by. vm_compute. reflexivity.
  - split; [eexists; split; reflexivity|]. eexists _, _, _. split; [reflexivity|]. right. split; reflexivity.
  - intros H. apply (proj1 (elem_of_list_singleton _ _)) in H. discriminate.
  - reflexivity.
Qed.
Print Assumptions c59_no_permanent_refuted.
(** Close: a worker that has got a function may end without running it. *)
Theorem c59_close_drops_refuted : exists progs evs f,
  let c := grun 1 1 131072 (ginit progs) evs in
  stuck 1 1 131072 c /\ accepted progs c f /\ f ∉ gstart (gsh c) /\ f ∉ fq (gsh c).
Proof.
  exists [[AGo]; [AClose]], (go 0 5 ++ go 2 7 ++ go 1 6 ++ [(3%nat, true)] ++ go 2 5 ++ go 4 1), (0, 0)%nat.
  evalto (grun 1 1 131072 (ginit [[AGo]; [AClose]]) (go 0 5 ++ go 2 7 ++ go 1 6 ++ [(3%nat, true)] ++ go 2 5 ++ go 4 1)) E. rewrite E. cbv zeta.
  split; [|split; [|split]].
  - apply stuck_by. vm_compute. reflexivity.
  - split; [eexists; split; reflexivity|]. eexists _, _, _. split; [reflexivity|]. right. split; reflexivity.
  - apply not_elem_of_nil.
  - apply not_elem_of_nil.
Qed.
Print Assumptions c59_close_drops_refuted.
(** What holds when only Go is used and there are permanent workers.  Every run ends: a program with n calls of Go takes at most
    22 n steps. *)
Theorem c59_ends_partial min mx lim progs evs : 0 <= min -> only_go progs ->
  Z.of_nat (busy min (maxlimit min mx) lim (ginit progs) evs) <= 22 * Z.of_nat (length (concat progs)).
Proof.
  intros Hm Hgo. pose proof (busy_measure min (maxlimit min mx) lim progs evs _ Hgo (ginv_init _ _ progs (max_nonneg _ mx Hm))) as H.
  rewrite measure_init in H. pose proof (measure_nonneg (grun min (maxlimit min mx) lim (ginit progs) evs)). lia.
Qed.
Print Assumptions c59_ends_partial.
(** At its end every function whose call of Go has returned has been started, or is still in the queue and no dispatcher runs
    (the lost wake-up above; the next call of Go starts one). *)
Theorem c59_all_run_partial min mx lim progs evs f :
  let c := grun min (maxlimit min mx) lim (ginit progs) evs in
  1 <= min -> only_go progs -> stuck min (maxlimit min mx) lim c -> accepted progs c f ->
  f ∈ gstart (gsh c) \/ (f ∈ fq (gsh c) /\ gmux (gsh c) = false).
Proof.
  intros c Hm Hgo Hst Hacc. pose proof (ginv_init min (maxlimit min mx) progs (max_nonneg min mx ltac:(lia))) as I0.
  apply (st_found min (maxlimit min mx) lim progs c Hm (ginv_run _ _ _ _ evs _ Hgo I0) Hst f Hacc (once_run _ _ _ _ evs _ (once_init progs))).
  unfold c. rewrite (tot_run _ _ _ progs f evs _ Hgo I0). unfold tot. cbn [ginit gths gsh]. rewrite init_tok. destruct Hacc as [(p & Hp & _) _].
  rewrite one_true by (apply lookup_lt_Some in Hp; exact Hp). reflexivity.
Qed.
Print Assumptions c59_all_run_partial.
(** In terms of NumUnExecu: when it has gone down to 0 at the end, all calls of Go have returned and all functions have been started. *)
Theorem c59_none_left_partial min mx lim progs evs f :
  let c := grun min (maxlimit min mx) lim (ginit progs) evs in
  1 <= min -> 1 <= lim -> only_go progs -> stuck min (maxlimit min mx) lim c -> gtnum (gsh c) = 0 -> submits progs f -> f ∈ gstart (gsh c).
Proof.
  intros c Hm Hl Hgo Hst Htn Hsub. pose proof (ginv_init min (maxlimit min mx) progs (max_nonneg min mx ltac:(lia))) as I0.
  pose proof (ginv_run _ _ lim _ evs _ Hgo I0) as I. fold c in I. pose proof (once_run min (maxlimit min mx) lim progs evs _ (once_init progs)) as O. fold c in O.
  assert (Htot : tot f c = 1).
  { unfold c. rewrite (tot_run _ _ _ progs f evs _ Hgo I0). unfold tot. cbn [ginit gths gsh]. rewrite init_tok. destruct Hsub as (p & Hp & _).
    rewrite one_true by (apply lookup_lt_Some in Hp; exact Hp). reflexivity. }
  assert (Hfq : fq (gsh c) = []).
  { pose proof (g_tnum _ _ _ _ I) as Ht. rewrite Htn in Ht. rewrite sumZ_zero in Ht; [destruct (fq (gsh c)); [reflexivity|cbn [length] in Ht; lia]|].
    intros th Hth. apply elem_of_list_lookup in Hth as [i Hi]. destruct th as [t todo k p|p| | | | |]; try reflexivity.
    - destruct p; try reflexivity. pose proof (Hst _ _ false Hi). discriminate.
    - apply (st_disp _ _ lim _ _ Hm I Hst) in Hi as [-> _]. reflexivity. }
  assert (Hz : sumZ (tok f) (gths c) = 0).
  { apply sumZ_zero. intros th Hth. apply elem_of_list_lookup in Hth as [i Hi]. pose proof (g_thr _ _ _ _ I _ _ Hi) as Hthr. pose proof (g_off _ _ _ _ I) as Hoff. unfold tok.
    destruct th as [t todo k p|q|w q| | | |]; cbn [thr] in Hthr; try contradiction; try reflexivity.
    - pose proof (Hst _ _ false Hi) as Hs. destruct Hthr as [_ Hthr]. destruct Hoff as (Hfc & _ & Hcl & _).
      destruct p; try contradiction; cbn [gstep] in Hs; try discriminate.
      + destruct todo; [|discriminate]. cbn [hold chold future]. unfold fut. rewrite one_false; [reflexivity|]. intros [-> Hk].
        destruct (o_cl _ _ O _ _ _ _ _ Hi) as (_ & full & Hf & Hd & _). destruct Hsub as (p & Hp & Hpf). rewrite Hf in Hp. injection Hp as ->.
        apply lookup_lt_Some in Hpf. apply (f_equal length) in Hd. rewrite drop_length in Hd. cbn [length] in Hd. lia.
      + rewrite Hcl in Hs. discriminate.
      + rewrite Hfc, Hfq in Hs. cbn [length] in Hs. destruct (_ <? lim) eqn:E; [discriminate|]. lia.
      + destruct (gmux (gsh c)); discriminate.
    - apply (st_disp _ _ lim _ _ Hm I Hst) in Hi as [-> _]. reflexivity.
    - apply (st_runner _ _ lim _ _ Hm I Hst) in Hi as [-> _]. reflexivity. }
  assert (Ht : tasks f (gws (gsh c)) = 0).
  { apply sumZ_zero. intros x Hx. apply elem_of_list_lookup in Hx as [w Hw]. rewrite (st_task _ _ lim _ _ Hm I Hst _ _ Hw). apply one_false. discriminate. }
  unfold tot, rest in Htot. rewrite Hfq in Htot. change (cnt f []) with 0 in Htot.
  destruct (decide (f ∈ gstart (gsh c))) as [|Hn]; [assumption|]. exfalso.
  assert (cnt f (gstart (gsh c)) = 0) by (apply sumZ_zero; intros g Hg; unfold isf; apply one_false; intros ->; contradiction). lia.
Qed.
Print Assumptions c59_none_left_partial.
(** Two clients and three functions on a pool (1, 2): all are started and nothing is left. *)
Definition ex59 : list (list gact) := [[AGo; AGo]; [AGo]].
Definition ex59_evs : list (nat * bool) := go 0 5 ++ go 1 5 ++ go 2 7 ++ go 0 5 ++ go 2 20 ++ go 3 20 ++ go 4 20 ++ go 2 20 ++ go 3 20 ++ go 4 20.
Example ex_c59 : let c := grun 1 (maxlimit 1 2) 131072 (ginit ex59) ex59_evs in
  stuck 1 (maxlimit 1 2) 131072 c /\ gtnum (gsh c) = 0 /\ gstart (gsh c) = [(0, 0); (1, 0); (0, 1)]%nat.
Proof.
  evalto (grun 1 (maxlimit 1 2) 131072 (ginit ex59) ex59_evs) E. rewrite E. cbv zeta. split; [apply stuck_by; vm_compute; reflexivity|]. split; reflexivity.
Qed.

(** ** C60 *)
(** NewPool(1, 2): the permanent worker takes a function, a temporary one another; the permanent one finishes; a second temporary
    one takes the third function and the permanent one the fourth. *)
Definition ex60 : list (list gact) := [[AGo; AGo; AGo; AGo]].
Definition ex60_evs : list (nat * bool) := go 0 10 ++ go 1 15 ++ go 2 2 ++ go 3 2 ++ go 2 4 ++ go 0 10 ++ go 1 20 ++ go 4 2 ++ go 2 2.
Theorem c60_max_refuted : exists progs evs, only_go progs /\ maxlimit 1 2 = 2 /\ running (grun 1 (maxlimit 1 2) 131072 (ginit progs) evs) = 3.
Proof.
  exists ex60, ex60_evs. split; [|split; [reflexivity|vm_compute; reflexivity]].
  intros p a Hp Ha. apply elem_of_list_singleton in Hp as ->. repeat (apply elem_of_cons in Ha as [->|Ha]; [reflexivity|]). exfalso. revert Ha. apply not_elem_of_nil.
Qed.
Print Assumptions c60_max_refuted.
Theorem c60_sum_partial min mx lim progs evs : 0 <= min -> only_go progs ->
  running (grun min (maxlimit min mx) lim (ginit progs) evs) <= min + maxlimit min mx.
Proof.
  intros Hm Hgo. apply (running_le _ _ progs); [exact Hm|]. apply ginv_run; [exact Hgo|]. apply ginv_init, max_nonneg, Hm.
Qed.
Print Assumptions c60_sum_partial.
(** The bound is reached, by the run above. *)
Example ex_c60 : running (grun 1 (maxlimit 1 2) 131072 (ginit ex60) ex60_evs) = 1 + maxlimit 1 2.
Proof. vm_compute. reflexivity. Qed.

(** ** C81 *)
(** TurnOff(true) makes Go start a plain goroutine, which nothing protects. *)
Theorem c81_turned_off_refuted : exists progs evs, progs = [[ATurn true; AGo]] /\ gcrash (gsh (grun 1 1 131072 (ginit progs) evs)) = true.
Proof. exists [[ATurn true; AGo]], (go 0 5 ++ go 1 1 ++ [(1%nat, true)]). split; [reflexivity|]. vm_compute. reflexivity. Qed.
Print Assumptions c81_turned_off_refuted.
(** Close at the wrong time: a function panics in a worker, the deferred function puts the worker back and sends on the channel that
    Close has closed in between. *)
Theorem c81_close_refuted : exists progs evs, progs = [[AGo]; [AClose]] /\ gstart (gsh (grun 1 1 131072 (ginit progs) evs)) = [(0, 0)]%nat /\
  gcrash (gsh (grun 1 1 131072 (ginit progs) evs)) = true.
Proof.
  exists [[AGo]; [AClose]], (go 0 5 ++ go 2 7 ++ go 3 2 ++ [(3%nat, true)] ++ go 3 2 ++ go 1 6 ++ go 3 1). split; [reflexivity|]. vm_compute. split; reflexivity.
Qed.
Print Assumptions c81_close_refuted.
(** A call of Go that has passed the test of close before Close and gets to the send only after the channel has been closed. *)
Theorem c81_send_refuted : exists progs evs, progs = [[AGo]; [AClose]] /\ gcrash (gsh (grun 1 1 131072 (ginit progs) evs)) = true /\
  gstart (gsh (grun 1 1 131072 (ginit progs) evs)) = [].
Proof. exists [[AGo]; [AClose]], (go 0 2 ++ go 1 6 ++ go 2 1 ++ go 0 1). split; [reflexivity|]. vm_compute. split; reflexivity. Qed.
Print Assumptions c81_send_refuted.
(** Without Close and TurnOff panicking functions do no harm. *)
Theorem c81_panic_partial min mx lim progs evs : 0 <= min -> only_go progs ->
  gcrash (gsh (grun min (maxlimit min mx) lim (ginit progs) evs)) = false.
Proof.
  intros Hm Hgo. pose proof (ginv_run _ _ lim _ evs _ Hgo (ginv_init min (maxlimit min mx) progs (max_nonneg _ mx Hm))) as I. apply (g_off _ _ _ _ I).
Qed.
Print Assumptions c81_panic_partial.
(** Both functions panic, the worker goes on with the second after the first. *)
Example ex_c81 : let c := grun 1 1 131072 (ginit [[AGo; AGo]]) (go 0 10 ++ go 1 7 ++ go 2 2 ++ [(2%nat, true)] ++ go 2 3 ++ go 1 20 ++ go 2 2 ++ [(2%nat, true)] ++ go 2 3) in
  gcrash (gsh c) = false /\ gstart (gsh c) = [(0, 0); (0, 1)]%nat /\ running c = 0.
Proof. vm_compute. repeat split. Qed.
