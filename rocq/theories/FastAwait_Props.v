(** Properties C46-C47 of lock/fastawait.go.  [isdel] is the answer of the bloom filter; in C46 it is arbitrary. *)
From stdpp Require Import gmap.
From Coq Require Import ZArith Lia.
From Verif Require Import GoInt Conc Num_Model Bloom_Model Bloom_Spec Bloom_Props Await_Model FastAwait_Model FastAwait_Spec FastAwait_Proofs.
Local Open Scope Z_scope.

(** C46. CloseAndPut and Close take at most 66 steps: a goroutine that calls one has returned from it by then. *)
Theorem c46_closer_returns : forall {V} isdel (c : fconf V) sched t th i v rest,
  fths c !! t = Some th -> fpos th = FIdle -> ftodo th = FClose i v :: rest -> (66 <= moves isdel t c sched)%nat ->
  exists th' l r, fths (fast_run isdel c sched) !! t = Some th' /\ flog th' = l ++ (FClose i v, r) :: flog th.
Proof.
  intros V isdel c sched t th i v rest Et Hp Ht. revert c Et. induction sched as [|[t0 x] l IH]; intros c Et Hm; [cbn in Hm; lia|].
  cbn [moves fst snd] in Hm. rewrite Et in Hm. change (fast_run isdel c ((t0, x) :: l)) with (fast_run isdel (fconf_step isdel c (t0, x)) l).
  destruct (Nat.eqb_spec t0 t) as [->|Hne].
  - assert (Hs : fthread_step isdel (fsh c) th x = Some (fsh c, FTh rest (FC99 i v 30) (flog th))) by (unfold fthread_step; rewrite Hp, Ht; auto).
    assert (Hstep : fconf_step isdel c (t, x) = FConf (fsh c) (<[t := FTh rest (FC99 i v 30) (flog th)]> (fths c))) by (unfold fconf_step; cbn [fst snd]; rewrite Et, Hs; auto).
    rewrite Hs in Hm. rewrite Hstep in *.
    destruct (closer_returns isdel l (FConf (fsh c) (<[t := FTh rest (FC99 i v 30) (flog th)]> (fths c))) t (FTh rest (FC99 i v 30) (flog th)) i v 65) as (th' & l' & r & E1 & E2);
      [cbn [fths]; rewrite list_lookup_insert; [auto|eapply lookup_lt_Some; eauto]|split; reflexivity|cbn; lia|lia|]. eauto.
  - apply IH; [|auto]. unfold fconf_step. cbn [fst snd]. destruct (fths c !! t0) as [th0|]; [|auto].
    destruct (fthread_step isdel (fsh c) th0 x) as [[s' th']|]; [|auto]. cbn [fths]. rewrite list_lookup_insert_ne by auto. auto.
Qed.
Print Assumptions c46_closer_returns.

(** C46. Nobody is ever blocked except a goroutine with nothing left to do, a wait without a timeout on a channel that is
    open and empty, and a CloseAndPut whose way another goroutine is about to free: that one can step, and any step of it
    frees the blocked one. *)
Theorem c46_no_deadlock : forall {V} isdel (progs : list (list (fcall V))) sched t th,
  let c := fast_run isdel (fast_init progs) sched in
  fths c !! t = Some th -> ~ fcan_step isdel c t ->
  (fpos th = FIdle /\ ftodo th = []) \/
  (exists i cn ch d, fpos th = FW49 i false cn ch /\ fchans (fsh c) !! ch = Some d /\ cbuf d = None /\ cclosed d = false) \/
  (exists i v t', in_close i (Some v) (fpos th) /\ t' <> t /\ fcan_step isdel c t' /\ forall x, fcan_step isdel (fconf_step isdel c (t', x)) t).
Proof.
  intros V isdel progs sched t th c Et Hs. pose proof (finv_run isdel progs sched) as HI. fold c in HI.
  destruct (f_stuck isdel c t th HI Et Hs) as [H|[H|(i & v & ch & Hp)]]; [auto|auto|]. right. right.
  destruct v as [v|]; [|exfalso; eapply (fi_102 _ HI); eauto].
  destruct (f_unblock isdel c t th i (Some v) ch HI Et Hp Hs) as (t' & H1 & H2 & H3). exists i, v, t'. rewrite Hp. repeat split; auto.
Qed.
Print Assumptions c46_no_deadlock.

(** C46. What a wait on [i] returns: a value for which CloseAndPut(i, v) was called, the zero value after a Close(i), or a
    timeout or cancellation error; nothing else. *)
Theorem c46_wait_results : forall {V} isdel (progs : list (list (fcall V))) sched t th i tm cn r,
  let c := fast_run isdel (fast_init progs) sched in
  fths c !! t = Some th -> (FWait i tm cn, r) ∈ flog th ->
  match r with
  | FGot v => exists t' th', fths c !! t' = Some th' /\ fputting i v th'
  | FZero => exists t' th', fths c !! t' = Some th' /\ (FClose i None, FClosed) ∈ flog th'
  | FTimeout | FCancel => True
  | _ => False
  end.
Proof. intros V isdel progs sched t th i tm cn r c Et Hin. exact (fi_log _ (finv_run isdel progs sched) t th i tm cn r Et Hin). Qed.
Print Assumptions c46_wait_results.

(** C46. A put value is received at most once. *)
Theorem c46_received_at_most_once : forall {V} isdel (progs : list (list (fcall V))) sched i,
  let c := fast_run isdel (fast_init progs) sched in
  fcount_log (fgot_entry i) c <= fcount_log (fput_entry i) c + fputs_in_flight i c.
Proof. intros V isdel progs sched i. exact (fgot_at_most isdel i progs sched). Qed.
Print Assumptions c46_received_at_most_once.

(** C46. Delivery: at some reachable moment [w] waits on [i] and is registered, [k] is about to call CloseAndPut(i, v) or is
    between two rounds of its loop, and nobody else uses [i] from then on.  Whatever follows (the timer of [w]'s wait not
    firing, if it has one), the wait of [w] returns v, [k]'s call sends it, and once that has returned [w] needs at most
    three steps of its own. *)
Theorem c46_delivers : forall {V} isdel (progs : list (list (fcall V))) s1 s2 i w k v tm cn ch thw thk,
  w <> k ->
  let c := fast_run isdel (fast_init progs) s1 in
  fths c !! w = Some thw -> fpos thw = FW49 i tm cn ch -> (forall e, e ∈ ftodo thw -> fcall_id e <> i) ->
  fths c !! k = Some thk ->
  (fpos thk = FIdle /\ exists r, ftodo thk = FClose i (Some v) :: r /\ forall e, e ∈ r -> fcall_id e <> i) \/
  ((forall e, e ∈ ftodo thk -> fcall_id e <> i) /\ exists l, fpos thk = FC99 i (Some v) l) ->
  (forall t th, t <> w -> t <> k -> fths c !! t = Some th -> no_fcalls_on i th) ->
  fdb (fsh c) !! i <> None ->
  (tm = true -> forall x, (w, x) ∈ s2 -> x = ChChan) ->
  let c' := fast_run isdel c s2 in
  exists thw' thk', fths c' !! w = Some thw' /\ fths c' !! k = Some thk' /\
    ((exists l, flog thw' = l ++ (FWait i tm cn, FGot v) :: flog thw) \/
     (flog thw' = flog thw /\ fpc_id (fpos thw') = Some i /\
      (flog thk' <> flog thk -> exists m, (m <= 3)%nat /\ exists thw2, fths (fast_run isdel c' (replicate m (w, ChChan))) !! w = Some thw2 /\
         flog thw2 = (FWait i tm cn, FGot v) :: flog thw))) /\
    (flog thk' = flog thk \/ exists l, flog thk' = l ++ (FClose i (Some v), FSent) :: flog thk).
Proof.
  intros V isdel progs s1 s2 i w k v tm cn ch thw thk Hwk c Ew Pw Tw Ek Tk Ho Hhas Htm c'.
  assert (HD : fdinv i w k ch v tm cn (flog thw) (flog thk) c).
  { eapply (fdinv_start i w k ch v tm cn (flog thw) (flog thk) c thw thk); eauto; [apply finv_run|apply (freg_run isdel)]. }
  pose proof (fdinv_run isdel i w k Hwk ch v tm cn (flog thw) (flog thk) s2 Htm c (finv_run isdel progs s1) HD) as HD'. fold c' in HD'.
  pose proof HD' as [_ (thw' & thk' & d & Ew' & Ek' & _)]. exists thw', thk'. split; [auto|]. split; [auto|]. split.
  - destruct (fdinv_end isdel i w k Hwk ch v tm cn (flog thw) (flog thk) c' thw' HD' Ew') as [[_ Hd]|(H1 & H2 & H3)]; [auto|]. right. split; [auto|]. split; [auto|].
    intros Hne. exact (H3 thk' Ek' Hne).
  - exact (fdinv_closer i w k ch v tm cn (flog thw) (flog thk) c' thk' HD' Ek').
Qed.
Print Assumptions c46_delivers.

(** A case, with a filter that knows everything: two closers of 7 at once.  The second one blocks at its send, the first
    one frees it, and its panic is returned as an error. *)
Definition honest (hist : list (bop (list Z))) (x : list Z) : bool :=
  existsb (fun o => match o with BAdd y => if decide (x = y) then true else false | _ => false end) hist.
Example c46_case : let c := fast_run honest (fast_init [[FWait 7 false false]; [FClose 7 (Some 5)]; [FClose 7 (Some 6)]])
    (replicate 2 (0%nat, ChChan) ++ replicate 2 (1%nat, ChChan) ++ replicate 2 (2%nat, ChChan) ++ replicate 2 (1%nat, ChChan) ++ replicate 2 (2%nat, ChChan)) in
  fthread_step honest (fsh c) (FTh [] (FC102 7 (Some 6) 0) []) ChChan = None /\
  fths c !! 2%nat = Some (FTh [] (FC102 7 (Some 6) 0) []) /\
  flog <$> fths (fast_run honest c ([(1%nat, ChChan); (2%nat, ChChan)] ++ replicate 3 (0%nat, ChChan))) =
    [[(FWait 7 false false, FGot 5)]; [(FClose 7 (Some 5), FSent)]; [(FClose 7 (Some 6), FPanic)]].
Proof. vm_compute. auto. Qed.
(** A case of c46_delivers: the closer came first and sleeps while the waiter registers. *)
Example c46_deliver_case : let c := fast_run honest (fast_init [[FWait 7 true false]; [FClose 7 (Some 5)]])
    (replicate 3 (1%nat, ChChan) ++ replicate 2 (0%nat, ChChan)) in
  (exists thw, fths c !! 0%nat = Some thw /\ fpos thw = FW49 7 true false 0 /\ ftodo thw = []) /\
  (exists thk, fths c !! 1%nat = Some thk /\ ftodo thk = [] /\ fpos thk = FC99 7 (Some 5) 29) /\ fdb (fsh c) !! 7 <> None.
Proof.
  cbn zeta. match goal with |- context [fast_run ?f ?a ?s] => remember (fast_run f a s) as c0 eqn:E; vm_compute in E; subst c0 end.
  split; [eexists; repeat split|]. split; [eexists; repeat split|vm_compute; discriminate].
Qed.

(** Evaluate a closed run and keep the equation. *)
Ltac evalto t E := let v := eval vm_compute in t in assert (E : t = v) by (vm_compute; reflexivity).
(** C47 is false for every filter size and hash: goroutine 0 has waited on 7 before.  Goroutine 1 calls CloseAndPut(7, 2)
    before goroutine 0 has registered its second wait on 7: the call returns at once with nil, and the second wait is never
    woken. *)
Lemma reuse_drops f : f [BAdd (Int64ToBytes 7)] (Int64ToBytes 7) = true ->
  exists (progs : list (list (fcall Z))) s1 s2 thk, let c := fast_run f (fast_init progs) s1 in
  fths c !! 1%nat = Some thk /\ fpos thk = FIdle /\ ftodo thk = [FClose 7 (Some 2)] /\
  fths c !! 0%nat = Some (FTh [FWait 7 false false] FIdle [(FWait 7 false false, FGot 1)]) /\
  fths (fast_run f c [(1%nat, ChChan); (1%nat, ChChan); (1%nat, ChChan)]) !! 1%nat = Some (FTh [] FIdle ((FClose 7 (Some 2), FNone) :: flog thk)) /\
  forall s3, exists th, fths (fast_run f c (s2 ++ s3)) !! 0%nat = Some th /\ fpos th = FW49 7 false false 1.
Proof.
  intros Hf.
  exists [[FWait 7 false false; FWait 7 false false]; [FClose 7 (Some 1); FClose 7 (Some 2)]],
    (replicate 2 (0%nat, ChChan) ++ replicate 5 (1%nat, ChChan) ++ replicate 3 (0%nat, ChChan)), (replicate 3 (1%nat, ChChan) ++ replicate 2 (0%nat, ChChan)).
  eexists. cbn zeta.
  match goal with |- context [fast_run f (fast_init ?a) ?s] => evalto (fast_run f (fast_init a) s) Ec end. rewrite Ec.
  match type of Ec with _ = ?c => set (c0 := c) in *; evalto (fast_run f c [(1%nat, ChChan); (1%nat, ChChan)]) E2 end. fold c0 in E2.
  match type of E2 with _ = ?c => set (c2 := c) in * end.
  assert (E3 : fconf_step f c2 (1%nat, ChChan) = FConf (FSh (fdb (fsh c2)) (fchans (fsh c2)) [BAdd (Int64ToBytes 7); BContains (Int64ToBytes 7)])
    [FTh [FWait 7 false false] FIdle [(FWait 7 false false, FGot 1)]; FTh [] FIdle [(FClose 7 (Some 2), FNone); (FClose 7 (Some 1), FSent)]]).
  { unfold fconf_step. cbn [fst snd fths fsh c2 lookup list_lookup]. unfold fthread_step. cbn [fpos flog fhist ftodo].
    change [BAdd [0; 0; 0; 0; 0; 0; 0; 7]] with [BAdd (Int64ToBytes 7)]. rewrite Hf. reflexivity. }
  match type of E3 with _ = ?c => set (c3 := c) in *; evalto (fast_run f c [(0%nat, ChChan); (0%nat, ChChan)]) E5 end. fold c3 in E5.
  match type of E5 with _ = ?c => set (c5 := c) in * end.
  assert (R3 : fast_run f c0 [(1%nat, ChChan); (1%nat, ChChan); (1%nat, ChChan)] = c3) by (rewrite <- E3, <- E2; reflexivity).
  clearbody c2.
  split; [reflexivity|]. split; [reflexivity|]. split; [reflexivity|]. split; [reflexivity|].
  split; [rewrite R3; reflexivity|].
  intros s3. assert (Hrun : fast_run f c0 ((replicate 3 (1%nat, ChChan) ++ replicate 2 (0%nat, ChChan)) ++ s3) = fast_run f c5 s3).
  { unfold fast_run in *. rewrite foldl_app, foldl_app. cbn [replicate]. rewrite R3. rewrite <- E5. auto. }
  rewrite Hrun. assert (Hdead : fast_run f c5 s3 = c5).
  { clear Hrun. unfold fast_run. induction s3 as [|[t x] l IH]; [auto|]. cbn [foldl]. assert (fconf_step f c5 (t, x) = c5) as ->; [|auto].
    unfold fconf_step. cbn [fst snd fths fsh c5]. destruct t as [|[|t]]; [..|reflexivity]; destruct x; reflexivity. }
  rewrite Hdead. eexists. split; reflexivity.
Qed.
Theorem c47_reused_id_value_dropped_refuted : forall h E m k, sane E m k ->
  let f := bloom_isdel h E m k in
  exists (progs : list (list (fcall Z))) s1 s2 thk, let c := fast_run f (fast_init progs) s1 in
  fths c !! 1%nat = Some thk /\ fpos thk = FIdle /\ ftodo thk = [FClose 7 (Some 2)] /\
  fths c !! 0%nat = Some (FTh [FWait 7 false false] FIdle [(FWait 7 false false, FGot 1)]) /\
  fths (fast_run f c [(1%nat, ChChan); (1%nat, ChChan); (1%nat, ChChan)]) !! 1%nat = Some (FTh [] FIdle ((FClose 7 (Some 2), FNone) :: flog thk)) /\
  forall s3, exists th, fths (fast_run f c (s2 ++ s3)) !! 0%nat = Some th /\ fpos th = FW49 7 false false 1.
Proof.
  intros h E m k HS f. apply (reuse_drops f). unfold f, bloom_isdel. apply (c37_no_false_negative _ h E m k [] [] (Int64ToBytes 7)); auto.
  - vm_compute. reflexivity.
  - destruct HS as (HE & _). unfold count. cbn [adds length]. lia.
Qed.
Print Assumptions c47_reused_id_value_dropped_refuted.
Example c47_sane : sane (2^20) 15000000 10.
Proof. unfold sane. lia. Qed.

(** C47, what holds: for an id the filter does not wrongly know, CloseAndPut (and Close) does not give up within its first
    62 steps, that is 30 sleeps of 100 ms, unless a wait on that id has come to its end meanwhile.
    (Missing: ids that were waited on before; false, see above.) *)
Theorem c47_fresh_id_waits_partial : forall {V} isdel (c : fconf V) sched k th i v rest,
  (forall hist, BAdd (Int64ToBytes i) ∉ hist -> isdel hist (Int64ToBytes i) = false) ->
  fths c !! k = Some th -> fpos th = FIdle -> ftodo th = FClose i v :: rest ->
  (length (List.filter (fun a => Nat.eqb a.1 k) sched) <= 62)%nat ->
  let c' := fast_run isdel c sched in
  BAdd (Int64ToBytes i) ∉ fhist (fsh c') ->
  exists th', fths c' !! k = Some th' /\ (flog th' = flog th \/ exists l r, flog th' = l ++ (FClose i v, r) :: flog th /\ r <> FNone).
Proof.
  intros V isdel c sched k th i v rest Hn Ek Hp Ht Hl c' Hh.
  destruct (polling_run isdel i k v (flog th) Hn sched c 0) as (m & th' & E & H); auto.
  { exists th. split; [auto|]. left. eauto. }
  exists th'. split; [auto|]. destruct H as [(_ & H & _)|[(_ & H & _)|H]]; auto.
Qed.
Print Assumptions c47_fresh_id_waits_partial.
(** A case: the closer is alone for 61 steps, then the waiter comes and gets the value; one more and it gives up. *)
Lemma honest_ok x : forall hist, BAdd x ∉ hist -> honest hist x = false.
Proof.
  induction hist as [|o l IH]; intros H; [auto|]. apply not_elem_of_cons in H as [H1 H2]. unfold honest. cbn [existsb].
  apply orb_false_iff. split; [|apply (IH H2)]. destruct o as [y|]; [|auto]. destruct (decide (x = y)); [congruence|auto].
Qed.
Example c47_case : 
  flog <$> fths (fast_run honest (fast_init [[FWait 7 false false]; [FClose 7 (Some 5)]])
    (replicate 61 (1%nat, ChChan) ++ replicate 2 (0%nat, ChChan) ++ replicate 4 (1%nat, ChChan) ++ replicate 3 (0%nat, ChChan))) =
    [[(FWait 7 false false, FGot 5)]; [(FClose 7 (Some 5), FSent)]] /\
  flog <$> fths (fast_run honest (fast_init [[FWait 7 false false]; [FClose 7 (Some 5)]])
    (replicate 63 (1%nat, ChChan) ++ replicate 2 (0%nat, ChChan))) = [[]; [(FClose 7 (Some 5), FNone)]].
Proof. vm_compute. auto. Qed.
