(** Properties C43-C45 of lock/await.go. *)
From stdpp Require Import gmap.
From Coq Require Import ZArith Lia.
From Verif Require Import GoInt Conc Lock_Model Lock_Spec Lock_Proofs Await_Model Await_Spec Await_Proofs Await_Deliver.
Local Open Scope Z_scope.

(** C43.  Any goroutines, any calls, any interleaving up to a moment at which [w] waits in a receive on [i], [i] is
    registered, [k] is about to call CloseAndPut(i, v), and nobody else uses [i] from then on.  Then, whatever follows (the
    timer of [w]'s wait not firing, if it has one): the wait of [w] returns v and nothing else; [k]'s call sends its value;
    and once [k]'s call has returned, [w] needs at most two steps of its own to return. *)
Theorem c43_delivers : forall {V} n (progs : list (list (acall V))) s1 s2 i w k v tm cn ch thw thk rest,
  1 <= n < 2^63 -> w <> k ->
  let c := await_run (await_init n progs) s1 in
  aths c !! w = Some thw -> apos thw = AW125 i tm cn ch -> (forall e, e ∈ atodo thw -> call_idx e <> i) ->
  aths c !! k = Some thk -> apos thk = AIdle -> atodo thk = AClose i (Some v) :: rest -> (forall e, e ∈ rest -> call_idx e <> i) ->
  (forall t th, t <> w -> t <> k -> aths c !! t = Some th -> no_calls_on i th) ->
  am (ash c) !! i <> None ->
  (tm = true -> forall x, (w, x) ∈ s2 -> x = ChChan) ->
  let c' := await_run c s2 in
  exists thw' thk', aths c' !! w = Some thw' /\ aths c' !! k = Some thk' /\
    ((exists l, alog thw' = l ++ (AWait i tm cn, WGot v) :: alog thw) \/
     (alog thw' = alog thw /\ pc_idx (apos thw') = Some i /\
      (alog thk' <> alog thk -> exists m, (m <= 2)%nat /\ exists thw2, aths (await_run c' (replicate m (w, ChChan))) !! w = Some thw2 /\
         alog thw2 = (AWait i tm cn, WGot v) :: alog thw))) /\
    (alog thk' = alog thk \/ exists l, alog thk' = l ++ (AClose i (Some v), CSent) :: alog thk).
Proof.
  intros V n progs s1 s2 i w k v tm cn ch thw thk rest Hn Hwk c Ew Pw Tw Ek Pk Tk Trest Ho Hhas Htm c'.
  assert (HD : dinv i w k ch v tm cn (alog thw) (alog thk) c).
  { eapply (dinv_start n i w k ch v tm cn (alog thw) (alog thk) c thw thk); eauto; [apply ainv_run; auto|apply reg_run; auto]. }
  destruct (dinv_run n Hn i w k Hwk ch v tm cn (alog thw) (alog thk) s2 Htm c (ainv_run n Hn progs s1) HD) as [_ HD']. fold c' in HD'.
  pose proof HD' as [_ (thw' & thk' & d & Ew' & Ek' & _)]. exists thw', thk'. split; [auto|]. split; [auto|]. split.
  - destruct (dinv_end i w k Hwk ch v tm cn (alog thw) (alog thk) c' thw' HD' Ew') as [[_ Hd]|(H1 & H2 & H3)]; [auto|]. right. split; [auto|]. split; [auto|].
    intros Hne. exact (H3 thk' Ek' Hne).
  - exact (dinv_closer i w k ch v tm cn (alog thw) (alog thk) c' thk' HD' Ek').
Qed.
Print Assumptions c43_delivers.

(** C43.  A wait on [i] never returns a value that was not put for [i]: some goroutine has called CloseAndPut(i, v) and has
    sent it. *)
Theorem c43_no_foreign_value : forall {V} n (progs : list (list (acall V))) sched t th i tm cn v, 1 <= n < 2^63 ->
  let c := await_run (await_init n progs) sched in
  aths c !! t = Some th -> (AWait i tm cn, WGot v) ∈ alog th ->
  exists t' th', aths c !! t' = Some th' /\ putting i v th'.
Proof.
  intros V n progs sched t th i tm cn v Hn c Et Hin. destruct (ainv_run n Hn progs sched) as (_ & _ & HV). fold c in HV.
  eapply (vi_log _ HV); eauto.
Qed.
Print Assumptions c43_no_foreign_value.

(** C43.  Nobody is ever blocked except a goroutine with nothing left to do, a wait without a timeout on a channel that is
    open and empty, and a goroutine waiting for a mutex whose holder can go on. *)
Theorem c43_never_stuck : forall {V} n (progs : list (list (acall V))) sched t th, 1 <= n < 2^63 ->
  let c := await_run (await_init n progs) sched in
  aths c !! t = Some th -> ~ can_step c t ->
  (apos th = AIdle /\ atodo th = []) \/
  (exists i cn ch d, apos th = AW125 i false cn ch /\ chans (ash c) !! ch = Some d /\ cbuf d = None /\ cclosed d = false) \/
  (exists i t', ((exists tm cn, apos th = AW31 i tm cn) \/ exists v, apos th = AC72 i v) /\ t' <> t /\ can_step c t').
Proof.
  intros V n progs sched t th Hn c Et Hs. destruct (stuck n Hn c t th (ainv_run n Hn progs sched) Et Hs) as [H|[H|H]]; [auto|auto|].
  right. right. destruct H as (i & t' & H1 & H2 & _). exists i, t'. split; [auto|]. split; [|auto]. intros ->. contradiction.
Qed.
Print Assumptions c43_never_stuck.

(** C43.  Nothing is left in the map: Has(i) is true only while some wait on [i] has not returned. *)
Theorem c43_no_leak : forall {V} n (progs : list (list (acall V))) sched i, 1 <= n < 2^63 ->
  let c := await_run (await_init n progs) sched in
  am (ash c) !! i <> None -> exists t th, aths c !! t = Some th /\ waiting_on i (apos th).
Proof.
  intros V n progs sched i Hn c Hi. destruct (am (ash c) !! i) as [ch|] eqn:E; [|contradiction]. exact (leak_run n progs sched i ch E).
Qed.
Print Assumptions c43_no_leak.

Ltac crunch := cbn zeta;
  match goal with |- context [await_run (await_init ?n ?p) ?s] =>
    let c0 := fresh "c0" in let E := fresh "E" in remember (await_run (await_init n p) s) as c0 eqn:E; vm_compute in E; subst c0 end.
(** A case: goroutine 0 waits on 7, goroutine 1 puts 5 for 7, goroutine 2 waits on another index meanwhile. *)
Example c43_case : let c := await_run (await_init 4 [[AWait 7 false false]; [AClose 7 (Some 5)]; [AWait 9 true false]])
    (replicate 5 (0%nat, ChChan) ++ replicate 3 (2%nat, ChChan)) in
  (exists thw, aths c !! 0%nat = Some thw /\ apos thw = AW125 7 false false 0 /\ atodo thw = []) /\
  (exists thk, aths c !! 1%nat = Some thk /\ apos thk = AIdle /\ atodo thk = [AClose 7 (Some 5)]) /\
  (forall t th, t <> 0%nat -> t <> 1%nat -> aths c !! t = Some th -> no_calls_on 7 th) /\ am (ash c) !! 7 <> None /\
  (aths (await_run c (replicate 9 (1%nat, ChChan) ++ replicate 2 (0%nat, ChChan))) !! 0%nat) ≫= (fun th => Some (alog th)) = Some [(AWait 7 false false, WGot 5)].
Proof.
  crunch. split; [eexists; repeat split|]. split; [eexists; repeat split|]. split; [|split; [vm_compute; discriminate|vm_compute; reflexivity]].
  intros t th N1 N2 E. destruct t as [|[|[|t]]]; try contradiction; [|discriminate].
  vm_compute in E. injection E as <-. split; [discriminate|]. intros e He. inversion He.
Qed.

(** A configuration in which nobody can step stays as it is. *)
Lemma dead_run {V} (c : aconf V) sched : (forall t, ~ can_step c t) -> await_run c sched = c.
Proof.
  intros H. unfold await_run. induction sched as [|[t x] l IH]; [auto|]. cbn [foldl].
  assert (aconf_step c (t, x) = c) as ->; [|auto]. unfold aconf_step. cbn [fst snd].
  destruct (aths c !! t) as [th|] eqn:Et; [|auto]. destruct (athread_step t (ash c) th x) eqn:Es; [|auto].
  exfalso. apply (H t). exists th, x. split; [auto|congruence].
Qed.

(** C44 is false.  Goroutine 0 waits on 7 and has received the first value, but has not yet run its deferred Del; goroutine
    2 waits on 7 and is registered; only then does goroutine 1 call CloseAndPut(7, 2).  Goroutine 0's Del comes first: the
    call finds nothing, returns nil, and goroutine 2 is never woken, whatever happens next. *)
Theorem c44_registered_waiter_stranded_refuted : exists n (progs : list (list (acall Z))) s1 s2 thw thk, 1 <= n < 2^63 /\
  let c := await_run (await_init n progs) s1 in
  aths c !! 2%nat = Some thw /\ (exists ch, apos thw = AW125 7 false false ch) /\ am (ash c) !! 7 <> None /\
  aths c !! 1%nat = Some thk /\ apos thk = AIdle /\ atodo thk = [AClose 7 (Some 2)] /\
  let c' := await_run c s2 in
  (exists th, aths c' !! 1%nat = Some th /\ alog th = (AClose 7 (Some 2), CNone) :: alog thk) /\
  (forall s3, exists th, aths (await_run c' s3) !! 2%nat = Some th /\ alog th = []).
Proof.
  exists 1, [[AWait 7 false false]; [AClose 7 (Some 1); AClose 7 (Some 2)]; [AWait 7 false false]],
    (replicate 5 (0%nat, ChChan) ++ replicate 8 (1%nat, ChChan) ++ [(0%nat, ChChan)] ++ replicate 5 (2%nat, ChChan)),
    ((0%nat, ChChan) :: replicate 1002 (1%nat, ChChan)).
  do 2 eexists. split; [lia|]. crunch. split; [reflexivity|]. split; [eexists; reflexivity|].
  split; [vm_compute; discriminate|]. split; [reflexivity|]. split; [reflexivity|]. split; [reflexivity|].
  match goal with |- context [await_run ?c ?s] => remember (await_run c s) as c' eqn:Ec end. vm_compute in Ec. split.
  - subst c'. eexists. split; reflexivity.
  - intros s3. rewrite dead_run.
    + subst c'. eexists. split; reflexivity.
    + intros t (th & x & E & Hs). apply Hs. subst c'. destruct t as [|[|[|t]]]; [..|discriminate]; injection E as <-; destruct x; reflexivity.
Qed.
Print Assumptions c44_registered_waiter_stranded_refuted.

(** C44, what holds: with no other wait on [i] from the registration on, and any number of CloseAndPut/Close calls on [i] by
    any number of goroutines, once one of these has returned and none is running, the waiter has returned or can go on.
    (Missing: other waits on [i]; with those the statement is false, see above.) *)
Theorem c44_sole_waiter_woken_partial : forall {V} n (progs : list (list (acall V))) s1 s2 i w tm cn ch thw,
  1 <= n < 2^63 ->
  let c := await_run (await_init n progs) s1 in
  aths c !! w = Some thw -> apos thw = AW125 i tm cn ch -> am (ash c) !! i <> None ->
  (forall t th, t <> w -> aths c !! t = Some th -> pc_idx (apos th) <> Some i /\ no_waits_on i th) ->
  let c' := await_run c s2 in
  (forall t th, t <> w -> aths c' !! t = Some th -> pc_idx (apos th) <> Some i) ->
  (exists t th th', t <> w /\ aths c !! t = Some th /\ aths c' !! t = Some th' /\ closes_done i th' <> closes_done i th) ->
  exists thw', aths c' !! w = Some thw' /\
    ((alog thw' = alog thw /\ can_step c' w) \/ exists l r, alog thw' = l ++ (AWait i tm cn, r) :: alog thw).
Proof.
  intros V n progs s1 s2 i w tm cn ch thw Hn c Ew Pw Hhas Ho c' Hno (t0 & th0 & th1 & N0 & E0 & E1 & Hne).
  set (N := fun t => match aths c !! t with Some th => closes_done i th | None => 0%nat end).
  assert (HE : einv i w ch tm cn (alog thw) N c).
  { eapply (einv_start i w ch tm cn (alog thw) N c thw); eauto; [apply (reg_run n Hn)|].
    intros t th Nt Et. destruct (Ho _ _ Nt Et). split; [auto|]. split; [auto|]. unfold N. rewrite Et. auto. }
  destruct (einv_run n Hn i w ch tm cn (alog thw) N s2 c (ainv_run n Hn progs s1) HE) as [HI' HE']. fold c' in HI', HE'.
  pose proof HE' as [_ (thw' & Ew' & _)]. exists thw'. split; [auto|].
  eapply (einv_end n i w ch tm cn (alog thw) N c'); eauto. exists t0, th1. split; [auto|]. split; [auto|]. unfold N. rewrite E0. auto.
Qed.
Print Assumptions c44_sole_waiter_woken_partial.

(** A case: two goroutines close 7 at the same time. *)
Example c44_case : let c := await_run (await_init 4 [[AWait 7 false false]; [AClose 7 (Some 5)]; [AClose 7 None]])
    (replicate 5 (0%nat, ChChan)) in
  (exists thw, aths c !! 0%nat = Some thw /\ apos thw = AW125 7 false false 0) /\ am (ash c) !! 7 <> None /\
  (forall t th, t <> 0%nat -> aths c !! t = Some th -> pc_idx (apos th) <> Some 7 /\ no_waits_on 7 th) /\
  let c' := await_run c (replicate 2 (1%nat, ChChan) ++ replicate 7 (2%nat, ChChan) ++ replicate 3 (1%nat, ChChan)) in
  (forall t th, t <> 0%nat -> aths c' !! t = Some th -> pc_idx (apos th) <> Some 7) /\
  (exists th th', aths c !! 2%nat = Some th /\ aths c' !! 2%nat = Some th' /\ closes_done 7 th' <> closes_done 7 th) /\
  aths c' !! 1%nat ≫= (fun th => Some (alog th)) = Some [(AClose 7 (Some 5), CNone)].
Proof.
  crunch. split; [eexists; repeat split|]. split; [vm_compute; discriminate|]. split.
  - intros t th N1 E. destruct t as [|[|[|t]]]; try contradiction; try discriminate;
      vm_compute in E; injection E as <-; (split; [discriminate|split; [intros []|intros tm cn He; apply elem_of_list_singleton in He; discriminate]]).
  - match goal with |- context [await_run ?c ?s] => remember (await_run c s) as c' eqn:Ec end. vm_compute in Ec. subst c'. split; [|split].
    + intros t th N1 E. destruct t as [|[|[|t]]]; try contradiction; try discriminate; vm_compute in E; injection E as <-; discriminate.
    + do 2 eexists. split; [reflexivity|]. split; [vm_compute; reflexivity|]. discriminate.
    + vm_compute. reflexivity.
Qed.

(** C45 is false: goroutines 0 and 1 both wait on 7, CloseAndPut(7, 5) is called once; one returns 5, the other returns the
    zero value with a nil error. *)
Theorem c45_every_waiter_gets_value_refuted : exists n (progs : list (list (acall Z))) sched, 1 <= n < 2^63 /\
  let c := await_run (await_init n progs) sched in
  alog <$> aths c = [[(AWait 7 false false, WGot 5)]; [(AWait 7 false false, WZero)]; [(AClose 7 (Some 5), CSent)]].
Proof.
  exists 1, [[AWait 7 false false]; [AWait 7 false false]; [AClose 7 (Some 5)]],
    (replicate 5 (0%nat, ChChan) ++ replicate 4 (1%nat, ChChan) ++ replicate 8 (2%nat, ChChan) ++ replicate 2 (0%nat, ChChan) ++ replicate 2 (1%nat, ChChan)).
  split; [lia|]. vm_compute. reflexivity.
Qed.
Print Assumptions c45_every_waiter_gets_value_refuted.

(** C45, what holds: under every interleaving, a put value is received at most once, so at most as many waits on [i] return
    a value as there were calls of CloseAndPut on [i].  (Missing: that every waiter gets one; false, see above.) *)
Theorem c45_received_at_most_once_partial : forall {V} n (progs : list (list (acall V))) sched i, 1 <= n < 2^63 ->
  let c := await_run (await_init n progs) sched in
  count_log (got_entry i) c <= count_log (put_entry i) c + puts_in_flight i c.
Proof. intros V n progs sched i Hn. exact (got_at_most n Hn i progs sched). Qed.
Print Assumptions c45_received_at_most_once_partial.

(** A case: one put, two waits. *)
Example c45_case : let c := await_run (await_init 1 [[AWait 7 false false]; [AWait 7 false false]; [AClose 7 (Some 5)]])
    (replicate 5 (0%nat, ChChan) ++ replicate 4 (1%nat, ChChan) ++ replicate 8 (2%nat, ChChan) ++ replicate 2 (1%nat, ChChan) ++ replicate 2 (0%nat, ChChan)) in
  count_log (got_entry 7) c = 1 /\ count_log (put_entry 7) c = 1 /\ puts_in_flight 7 c = 0.
Proof. vm_compute. auto. Qed.
