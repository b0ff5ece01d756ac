(** Delivery, progress and counting for lock/await.go. *)
From stdpp Require Import gmap.
From Coq Require Import ZArith Lia.
From Verif Require Import GoInt Conc Lock_Model Lock_Spec Lock_Proofs Await_Model Await_Spec Await_Proofs.
Local Open Scope Z_scope.

Ltac step_cases H :=
  unfold athread_step in H; cbn [apos atodo alog] in H;
  repeat match type of H with
  | context [match ?x with _ => _ end] => destruct x eqn:?
  end; try discriminate H; simplify_eq/=.

Section deliver.
Context {V : Type} (n : Z) (Hn : 1 <= n < 2^63).
Implicit Types (s : ashared V) (th : athread V) (p : apc V) (c : aconf V).

Definition ainv c : Prop := linv n c /\ cinv c /\ vinv c.
Lemma ainv_step c a : ainv c -> ainv (aconf_step c a).
Proof.
  intros (HL & HC & HV). unfold aconf_step. destruct a as [t x]. cbn [fst snd].
  destruct (aths c !! t) as [th|] eqn:Et; [|split; auto].
  destruct (athread_step t (ash c) th x) as [[s' th']|] eqn:Es; [|split; auto].
  split; [eapply linv_step; eauto|]. split; [eapply cinv_step; eauto|eapply vinv_step; eauto].
Qed.
Lemma ainv_init progs : ainv (await_init n progs).
Proof.
  assert (Ht : forall t th, aths (await_init n progs) !! t = Some th -> apos th = AIdle /\ alog th = []).
  { intros t th Ht. cbn [await_init aths] in Ht. rewrite list_lookup_fmap in Ht. destruct (progs !! t); [|discriminate]. injection Ht as <-. auto. }
  split; [|split].
  - constructor; [auto| |].
    + intros z Hz. exists false. cbn [await_init ash amux NewNumLock lockm]. rewrite put_all_lookup. destruct (decide _); [|lia].
      split; [auto|]. split; [discriminate|]. intros (t & th & i & E & Hl & _). destruct (Ht _ _ E) as [Ep _]. rewrite Ep in Hl. discriminate.
    + intros t1 t2 th1 th2 i1 i2 E1 E2 Hl. destruct (Ht _ _ E1) as [Ep _]. rewrite Ep in Hl. discriminate.
  - constructor.
    + intros i ch Hi. cbn in Hi. rewrite lookup_empty in Hi. discriminate.
    + intros t th i ch E Hr. destruct (Ht _ _ E) as [Ep _]. rewrite Ep in Hr. discriminate.
    + intros t th i v ch E Hr. destruct (Ht _ _ E) as [Ep _]. congruence.
    + intros t th i v ch E Hr. destruct (Ht _ _ E) as [Ep _]. congruence.
  - constructor.
    + intros ch d v Hd. discriminate.
    + intros t th i tm cn v E Hr. destruct (Ht _ _ E) as [Ep _]. congruence.
    + intros t th i tm cn ch r E Hr. destruct (Ht _ _ E) as [Ep _]. congruence.
    + intros t th i tm cn v E Hr. destruct (Ht _ _ E) as [_ El]. rewrite El in Hr. inversion Hr.
Qed.
Lemma ainv_run progs sched : ainv (await_run (await_init n progs) sched).
Proof.
  unfold await_run. induction sched as [|a l IH] using rev_ind; [apply ainv_init|]. rewrite foldl_app. cbn [foldl]. apply ainv_step. auto.
Qed.

(** *** Progress. *)
Lemma inside_steps c t th i : ainv c -> aths c !! t = Some th -> lk (apos th) = Some i -> can_step c t.
Proof.
  intros (HL & HC & HV) Et Hlk. exists th, ChChan. split; [auto|]. intros H. destruct th as [td p lg].
  destruct p; try discriminate; unfold athread_step in H; cbn [apos] in H; try discriminate.
  - destruct (ci_76 _ HC _ _ _ _ _ Et eq_refl) as ((d & E1 & E2) & _). rewrite E1, E2 in H. destruct (cclosed d); discriminate.
  - destruct (ci_refs _ HC _ _ _ _ Et eq_refl) as (d & E1 & E2). rewrite E1 in H. destruct (cclosed d); discriminate.
Qed.
Lemma blocked_lock c t i : ainv c -> (num_step (amux (ash c)) (NLock t i)).1 <> RAcquired ->
  exists t' th' i', aths c !! t' = Some th' /\ lk (apos th') = Some i' /\ slot n i' = slot n i.
Proof.
  intros (HL & _ & _) H. unfold num_step in H. rewrite (li_num _ _ HL), num_index_slot in H by auto.
  destruct (li_some _ _ HL (slot n i) (slot_range n i ltac:(lia))) as (b & E1 & E2). rewrite E1 in H. destruct b; [|contradiction H; auto].
  destruct (proj1 E2 eq_refl) as (t' & th' & i' & F). exists t', th', i'. auto.
Qed.
Lemma lock_no_panic c t i : ainv c -> (num_step (amux (ash c)) (NLock t i)).1 <> RPanic.
Proof.
  intros (HL & _ & _). unfold num_step. rewrite (li_num _ _ HL), num_index_slot by auto.
  destruct (li_some _ _ HL (slot n i) (slot_range n i ltac:(lia))) as (b & E1 & _). rewrite E1. destruct b; discriminate.
Qed.
Lemma stuck c t th : ainv c -> aths c !! t = Some th -> ~ can_step c t ->
  (apos th = AIdle /\ atodo th = []) \/
  (exists i cn ch d, apos th = AW125 i false cn ch /\ chans (ash c) !! ch = Some d /\ cbuf d = None /\ cclosed d = false) \/
  (exists i t', ((exists tm cn, apos th = AW31 i tm cn) \/ exists v, apos th = AC72 i v) /\ can_step c t' /\
     exists th' i', aths c !! t' = Some th' /\ lk (apos th') = Some i' /\ slot n i' = slot n i).
Proof.
  intros HI Et Hst. pose proof HI as (HL & HC & HV).
  assert (HN : forall x, athread_step t (ash c) th x = None).
  { intros x. destruct (athread_step t (ash c) th x) eqn:E; [|auto]. exfalso. apply Hst. exists th, x. split; [auto|congruence]. }
  destruct (lk (apos th)) as [i|] eqn:Hlk. { exfalso. apply Hst. eapply inside_steps; eauto. }
  destruct th as [td p lg]. pose proof (HN ChChan) as H. pose proof (HN ChTimer) as HT. unfold athread_step in H, HT.
  destruct p; cbn [apos atodo alog] in *; try discriminate.
  - destruct td as [|[] td]; [auto|discriminate..].
  - right. right. pose proof (lock_no_panic c t idx HI) as Hp. destruct (num_step (amux (ash c)) (NLock t idx)) as [r mx] eqn:En. cbn [fst] in Hp.
    assert (r <> RAcquired) as Hr by (destruct r; discriminate).
    destruct (blocked_lock c t idx HI) as (t' & th' & i' & E1 & E2 & E3); [rewrite En; auto|].
    exists idx, t'. split; [eauto|]. split; [eapply inside_steps; eauto|]. exists th', i'. auto.
  - destruct tmo; [discriminate|]. right. left. destruct (ci_refs _ HC _ _ _ _ Et eq_refl) as (d & E1 & E2). rewrite E1 in H.
    destruct (cbuf d) eqn:Eb; [discriminate|]. destruct (cclosed d) eqn:Ec; [discriminate|]. exists idx, can, ch, d. auto.
  - destruct (ci_refs _ HC _ _ _ _ Et eq_refl) as (d & E1 & E2). rewrite E1 in H. discriminate.
  - destruct (am (ash c) !! idx); [discriminate|]. destruct loop; discriminate.
  - right. right. pose proof (lock_no_panic c t idx HI) as Hp. destruct (num_step (amux (ash c)) (NLock t idx)) as [r mx] eqn:En. cbn [fst] in Hp.
    assert (r <> RAcquired) as Hr by (destruct r; discriminate).
    destruct (blocked_lock c t idx HI) as (t' & th' & i' & E1 & E2 & E3); [rewrite En; auto|].
    exists idx, t'. split; [eauto|]. split; [eapply inside_steps; eauto|]. exists th', i'. auto.
Qed.

(** *** No channel is left behind. *)
Definition leak_inv c : Prop := forall i ch, am (ash c) !! i = Some ch ->
  exists t th, aths c !! t = Some th /\ waiting_on i (apos th).
Lemma waiting_step t s th x s' th' i : athread_step t s th x = Some (s', th') -> waiting_on i (apos th) ->
  waiting_on i (apos th') \/ am s' !! i = None.
Proof.
  intros H Hw. destruct th as [td p lg]. destruct p; cbn [apos waiting_on] in Hw; try contradiction; subst;
    step_cases H; auto. right. apply lookup_delete.
Qed.
Lemma leak_step c a : leak_inv c -> leak_inv (aconf_step c a).
Proof.
  intros HI. unfold aconf_step. destruct a as [t x]. cbn [fst snd].
  destruct (aths c !! t) as [th|] eqn:Et; [|auto].
  destruct (athread_step t (ash c) th x) as [[s' th']|] eqn:Es; [|auto].
  assert (Hlt : (t < length (aths c))%nat) by (eapply lookup_lt_Some; eauto).
  intros i ch Hi. cbn [ash aths] in *. destruct (am_step _ _ _ _ _ _ Es _ _ Hi) as [Hold|(tm & cn & Hp & _ & _ & Hp')].
  - destruct (HI _ _ Hold) as (t0 & th0 & E0 & Hw). destruct (decide (t = t0)) as [<-|Hne].
    + exists t, th'. rewrite list_lookup_insert by auto. split; [auto|]. assert (th0 = th) as -> by congruence.
      destruct (waiting_step _ _ _ _ _ _ _ Es Hw) as [|Hno]; [auto|congruence].
    + exists t0, th0. rewrite list_lookup_insert_ne by auto. auto.
  - exists t, th'. rewrite list_lookup_insert by auto. split; [auto|]. rewrite Hp'. reflexivity.
Qed.
Lemma leak_run progs sched : leak_inv (await_run (await_init n progs) sched).
Proof.
  unfold await_run. induction sched as [|a l IH] using rev_ind.
  - intros i ch Hi. cbn in Hi. rewrite lookup_empty in Hi. discriminate.
  - rewrite foldl_app. cbn [foldl]. apply leak_step. auto.
Qed.

(** *** Who holds a registered channel. *)
Definition holds (i : Z) (ch : nat) (p : apc V) : Prop :=
  (waiting_on i p /\ refs p = Some (i, ch)) \/ exists tm cn r, p = AW120 i tm cn r.
Record reg_inv c : Prop := {
  rg_hold : forall i ch, am (ash c) !! i = Some ch -> exists t th, aths c !! t = Some th /\ holds i ch (apos th);
  rg_closed : forall i ch d, am (ash c) !! i = Some ch -> chans (ash c) !! ch = Some d -> cclosed d = true ->
    exists t th tm cn r, aths c !! t = Some th /\ apos th = AW120 i tm cn r;
  rg_77 : forall t th i v ch, aths c !! t = Some th -> apos th = AC76 i v ch \/ apos th = AC77 i v ch -> am (ash c) !! i <> Some ch }.
Lemma holds_step t s th x s' th' i ch : athread_step t s th x = Some (s', th') -> holds i ch (apos th) ->
  holds i ch (apos th') \/ am s' !! i = None.
Proof.
  intros H Hw. destruct th as [td p lg]. destruct Hw as [[Hw Hr]|(tm & cn & r & Hp)]; cbn [apos] in *.
  - destruct p; cbn [waiting_on refs] in Hw, Hr; try contradiction; try discriminate; subst; injection Hr as ->; step_cases H; unfold holds;
      first [left; left; split; reflexivity|left; right; cbn [apos]; do 3 eexists; reflexivity].
  - subst p. step_cases H. right. apply lookup_delete.
Qed.
Lemma close_step t s th x s' th' ch d : athread_step t s th x = Some (s', th') ->
  chans s' !! ch = Some d -> cclosed d = true ->
  (exists d0, chans s !! ch = Some d0 /\ cclosed d0 = true) \/
  (exists i tm cn r, refs (apos th) = Some (i, ch) /\ apos th' = AW120 i tm cn r) \/ (exists i v, apos th = AC77 i v ch).
Proof.
  intros H Hd Hc. destruct th as [td p lg]. destruct p; step_cases H; cbn [set_ch chans apos refs] in *; eauto;
    try (apply lookup_app_Some in Hd as [Hd|[_ Hd]]; [eauto|]; apply list_lookup_singleton_Some in Hd as [_ <-]; discriminate);
    (apply list_lookup_insert_Some in Hd as [(<- & <- & _)|[_ Hd]]; [|eauto]); cbn [put_buf close_ch cclosed] in Hc; eauto 9.
Qed.
Lemma reg_step c a : ainv c -> reg_inv c -> reg_inv (aconf_step c a).
Proof.
  intros (HL & HC & HV) [R1 R2 R3]. unfold aconf_step. destruct a as [t x]. cbn [fst snd].
  destruct (aths c !! t) as [th|] eqn:Et; [|constructor; auto].
  destruct (athread_step t (ash c) th x) as [[s' th']|] eqn:Es; [|constructor; auto].
  assert (Hlt : (t < length (aths c))%nat) by (eapply lookup_lt_Some; eauto).
  pose proof (am_step _ _ _ _ _ _ Es) as Ham.
  constructor; cbn [ash aths].
  - intros i ch Hi. destruct (Ham _ _ Hi) as [Hold|(tm & cn & Hp & _ & _ & Hp')].
    + destruct (R1 _ _ Hold) as (t0 & th0 & E0 & Hw). destruct (decide (t = t0)) as [<-|Hne].
      * exists t, th'. rewrite list_lookup_insert by auto. split; [auto|]. assert (th0 = th) as -> by congruence.
        destruct (holds_step _ _ _ _ _ _ _ _ Es Hw) as [|Hno]; [auto|congruence].
      * exists t0, th0. rewrite list_lookup_insert_ne by auto. auto.
    + exists t, th'. rewrite list_lookup_insert by auto. split; [auto|]. rewrite Hp'. left. split; reflexivity.
  - intros i ch d Hi Hd Hc. destruct (Ham _ _ Hi) as [Hold|(tm & cn & Hp & -> & Hnew & Hp')].
    + destruct (close_step _ _ _ _ _ _ _ _ Es Hd Hc) as [(d0 & E1 & E2)|[(j & tm & cn & r & E1 & E2)|(j & v & E1)]].
      * destruct (R2 _ _ _ Hold E1 E2) as (t0 & th0 & tm & cn & r & E0 & Hw). destruct (decide (t = t0)) as [<-|Hne].
        -- assert (th0 = th) as -> by congruence. exfalso.
           destruct th as [td p lg]. cbn [apos] in Hw. subst p. step_cases Es. rewrite lookup_delete in Hi. discriminate.
        -- exists t0, th0, tm, cn, r. rewrite list_lookup_insert_ne by auto. auto.
      * destruct (ci_refs _ HC _ _ _ _ Et E1) as (d1 & F1 & F2). destruct (ci_am _ HC _ _ Hold) as (d2 & F3 & F4 & _).
        assert (j = i) as -> by congruence. exists t, th', tm, cn, r. rewrite list_lookup_insert by auto. auto.
      * exfalso. assert (refs (apos th) = Some (j, ch)) as Hr by (rewrite E1; auto).
        destruct (ci_refs _ HC _ _ _ _ Et Hr) as (d1 & F1 & F2). destruct (ci_am _ HC _ _ Hold) as (d2 & F3 & F4 & _).
        assert (j = i) as -> by congruence. eapply (R3 t th i v ch); eauto.
    + exfalso. rewrite Hnew in Hd. injection Hd as <-. discriminate.
  - intros t0 th0 i v ch E0 Hp Hi.
    assert (Hold : am (ash c) !! i = Some ch -> False).
    { intros Hold. destruct (decide (t = t0)) as [<-|Hne].
      - rewrite list_lookup_insert in E0 by auto. injection E0 as <-.
        destruct th as [td p lg]. destruct p; step_cases Es; cbn [apos am] in *; destruct Hp; simplify_eq/=;
          try (rewrite lookup_delete in Hi; discriminate); try (eapply R3; eauto; fail).
      - rewrite list_lookup_insert_ne in E0 by auto. eapply R3; eauto. }
    destruct (Ham _ _ Hi) as [Hi0|(tm & cn & Hpc & -> & Hnew & Hp')]; [auto|].
    destruct (decide (t = t0)) as [<-|Hne].
    + rewrite list_lookup_insert in E0 by auto. injection E0 as <-. rewrite Hp' in Hp. destruct Hp; discriminate.
    + rewrite list_lookup_insert_ne in E0 by auto.
      assert (refs (apos th0) = Some (i, length (chans (ash c)))) as Hr by (destruct Hp as [-> | ->]; auto).
      destruct (ci_refs _ HC _ _ _ _ E0 Hr) as (d1 & F1 & F2). apply lookup_lt_Some in F1. lia.
Qed.
Lemma reg_run progs sched : reg_inv (await_run (await_init n progs) sched).
Proof.
  unfold await_run. induction sched as [|a l IH] using rev_ind.
  - constructor; [intros i ch Hi|intros i ch d Hi|intros t th i v ch _ _ Hi]; cbn in Hi; rewrite lookup_empty in Hi; discriminate.
  - rewrite foldl_app. cbn [foldl]. apply reg_step; [apply (ainv_run progs l)|auto].
Qed.

(** *** Every put is received at most once. *)
Section count.
Context (i : Z).
Definition got_th th : Z := Z.of_nat (length (List.filter (got_entry i) (alog th))) +
  match apos th with AW120 j _ _ (WGot _) => if j =? i then 1 else 0 | _ => 0 end.
Definition sent_th th : Z := Z.of_nat (length (List.filter (put_entry i) (alog th))) +
  match apos th with AC77 j (Some _) _ | AC73 j (Some _) _ => if j =? i then 1 else 0 | _ => 0 end.
Definition buf_ch (d : chan V) : Z := match cbuf d with Some _ => if cidx d =? i then 1 else 0 | None => 0 end.
Definition kinv c : Prop := sumZ got_th (aths c) + sumZ buf_ch (chans (ash c)) <= sumZ sent_th (aths c).
Lemma kinv_thread c t th x s' th' : cinv c -> aths c !! t = Some th -> athread_step t (ash c) th x = Some (s', th') ->
  (forall tm cn ch j r, apos th = AW129 j tm cn ch r -> r = WTimeout \/ r = WCancel) ->
  got_th th' - got_th th + (sumZ buf_ch (chans s') - sumZ buf_ch (chans (ash c))) <= sent_th th' - sent_th th.
Proof.
  intros HC Et H Htm. pose proof (fun j ch => ci_refs _ HC t th j ch Et) as Href.
  destruct th as [td p lg]. cbn [apos] in *. unfold got_th, sent_th.
  destruct p; step_cases H; cbn [alog apos got_entry put_entry]; try lia;
    repeat match goal with |- context [if ?b then _ else _] => destruct b eqn:? end; cbn [length] in *; try lia.
  all: try (destruct (Htm _ _ _ _ _ eq_refl); discriminate).
  all: try (rewrite sumZ_app, sumZ_cons; unfold buf_ch at 2; cbn [cbuf sumZ foldr]; lia).
  all: try match goal with E : chans _ !! ?k = Some ?d |- _ => rewrite (sumZ_insert _ _ _ _ _ E);
      destruct (Href _ _ eq_refl) as (d1 & F1 & F2); assert (d1 = d) as -> by congruence; unfold buf_ch at 2 3 end.
  all: cbn [put_buf close_ch cbuf cidx];
    repeat match goal with E : cbuf _ = _ |- _ => rewrite E end;
    repeat match goal with r : ares V |- _ => destruct r end; try discriminate;
    try (destruct (Htm _ _ _ _ _ eq_refl); discriminate);
    repeat match goal with |- context [match ?b with _ => _ end] => destruct b eqn:? end; try lia.
Qed.
Lemma kinv_step c a : ainv c -> kinv c -> kinv (aconf_step c a).
Proof.
  intros (HL & HC & HV) HK. unfold aconf_step. destruct a as [t x]. cbn [fst snd].
  destruct (aths c !! t) as [th|] eqn:Et; [|auto].
  destruct (athread_step t (ash c) th x) as [[s' th']|] eqn:Es; [|auto].
  pose proof (kinv_thread c t th x s' th' HC Et Es ltac:(intros; eapply (vi_tmo _ HV); eauto)).
  unfold kinv in *. cbn [aths ash]. rewrite !(sumZ_insert _ _ _ _ _ Et). lia.
Qed.
Lemma kinv_run progs sched : kinv (await_run (await_init n progs) sched).
Proof.
  unfold await_run. induction sched as [|a l IH] using rev_ind.
  - unfold kinv. cbn [foldl await_init aths ash chans]. rewrite !sumZ_fmap.
    rewrite (sumZ_zero _ progs), (sumZ_zero (fun q => sent_th (ATh q AIdle [])) progs) by reflexivity. cbn. lia.
  - rewrite foldl_app. cbn [foldl]. apply kinv_step; [|auto]. apply (ainv_run progs l).
Qed.
Lemma got_at_most (progs : list (list (acall V))) sched : let c := await_run (await_init n progs) sched in
  count_log (got_entry i) c <= count_log (put_entry i) c + puts_in_flight i c.
Proof.
  intros c. pose proof (kinv_run progs sched) as HK. fold c in HK. unfold kinv, count_log, puts_in_flight in *.
  assert (0 <= sumZ buf_ch (chans (ash c))).
  { apply sumZ_nonneg. intros d _. unfold buf_ch. destruct (cbuf d); [|lia]. destruct (_ =? _); lia. }
  assert (H1 : sumZ (fun th => Z.of_nat (length (List.filter (got_entry i) (alog th)))) (aths c) <= sumZ got_th (aths c)).
  { apply sumZ_le. intros th _. unfold got_th. destruct (apos th); try lia. destruct r; try lia. destruct (_ =? _); lia. }
  set (f := fun th : athread V => Z.of_nat (length (List.filter (put_entry i) (alog th)))).
  set (g := fun th : athread V => match apos th with AC71 j (Some _) _ | AC72 j (Some _) | AC74 j (Some _) | AC75 j (Some _) _ | AC76 j (Some _) _
                  | AC77 j (Some _) _ | AC73 j (Some _) _ => if j =? i then 1 else 0 | _ => 0 end).
  assert (H2 : sumZ sent_th (aths c) <= sumZ (fun th => f th + g th) (aths c)).
  { apply sumZ_le. intros th _. unfold sent_th, f, g. destruct (apos th); try lia; destruct v; try lia; destruct (_ =? _); lia. }
  assert (H3 : forall l, sumZ (fun th => f th + g th) l = sumZ f l + sumZ g l).
  { induction l as [|y l IH]; [reflexivity|]. rewrite !sumZ_cons. lia. }
  rewrite H3 in H2. lia.
Qed.
End count.

(** *** Frame: a goroutine that has nothing to do with [i]. *)
Lemma frame c t th x s' th' i : cinv c -> aths c !! t = Some th -> no_calls_on i th ->
  athread_step t (ash c) th x = Some (s', th') ->
  am s' !! i = am (ash c) !! i /\ (forall ch d, chans (ash c) !! ch = Some d -> cidx d = i -> chans s' !! ch = Some d) /\
  no_calls_on i th' /\ exists l, alog th' = l ++ alog th.
Proof.
  intros HC Et [Hpc Htd] H. pose proof (fun j ch => ci_refs _ HC t th j ch Et) as Href.
  assert (Hset : forall j ch0 e, refs (apos th) = Some (j, ch0) -> j <> i ->
    forall ch d, chans (ash c) !! ch = Some d -> cidx d = i -> (<[ch0 := e]> (chans (ash c)) : list _) !! ch = Some d).
  { intros j ch0 e Hr Hj ch d Hd Hi. rewrite list_lookup_insert_ne; [auto|]. intros ->. destruct (Href _ _ Hr) as (d1 & F1 & F2). congruence. }
  destruct th as [td p lg]. cbn [apos atodo alog refs] in *.
  assert (HT : forall p0 lg0, pc_idx p0 <> Some i -> no_calls_on i (ATh td p0 lg0)) by (intros; split; auto).
  assert (Hl0 : exists l, lg = l ++ lg) by (exists []; auto).
  assert (Hl1 : forall e, exists l, e :: lg = l ++ lg) by (intros e; exists [e]; auto).
  destruct p; step_cases H;
    repeat split; auto;
    try (eapply Hset; [reflexivity|]; intros <-; apply Hpc; reflexivity);
    try (rewrite lookup_delete_ne; [auto|]; intros <-; apply Hpc; reflexivity).
  all: try (cbn [apos pc_idx atodo]; first [discriminate|intros HE; injection HE as ->; apply (Htd _ (elem_of_list_here _ _)); reflexivity]).
  all: try (intros c0 Hc0; apply Htd; right; exact Hc0).
  - rewrite lookup_insert_ne; [auto|]. intros <-. apply Hpc. reflexivity.
  - intros ch d Hd _. rewrite lookup_app_l by (eapply lookup_lt_Some; eauto). auto.
Qed.

(** *** Delivery to a registered waiter. *)
Section one.
Context (i : Z) (w k : nat) (Hwk : w <> k) (ch : nat) (v : V) (tm cn : bool) (Lw Lk : list (acall V * ares V)).
Definition todo_free th : Prop := forall e, e ∈ atodo th -> call_idx e <> i.
Definition wwait th : Prop := apos th = AW125 i tm cn ch /\ alog th = Lw /\ todo_free th.
Definition wdone th : Prop := no_calls_on i th /\ exists l, alog th = l ++ (AWait i tm cn, WGot v) :: Lw.
Definition wrecv th (d : chan V) : Prop :=
  (wwait th /\ cbuf d = Some v) \/ (apos th = AW120 i tm cn (WGot v) /\ alog th = Lw /\ todo_free th) \/ wdone th.
Definition kpre th : Prop := alog th = Lk /\
  ((apos th = AIdle /\ exists r, atodo th = AClose i (Some v) :: r /\ forall e, e ∈ r -> call_idx e <> i) \/
   (todo_free th /\ ((exists l, apos th = AC71 i (Some v) l) \/ apos th = AC72 i (Some v) \/ apos th = AC74 i (Some v) \/ apos th = AC75 i (Some v) ch))).
Definition kpost th : Prop :=
  (apos th = AC73 i (Some v) CSent /\ alog th = Lk /\ todo_free th) \/
  (no_calls_on i th /\ exists l, alog th = l ++ (AClose i (Some v), CSent) :: Lk).
Definition phase c thw thk d : Prop :=
  (wwait thw /\ kpre thk /\ am (ash c) !! i = Some ch /\ cbuf d = None /\ cclosed d = false) \/
  (am (ash c) !! i = None /\
   ((wwait thw /\ cbuf d = None /\ cclosed d = false /\ apos thk = AC76 i (Some v) ch /\ alog thk = Lk /\ todo_free thk) \/
    (wrecv thw d /\ cclosed d = false /\ apos thk = AC77 i (Some v) ch /\ alog thk = Lk /\ todo_free thk) \/
    (wrecv thw d /\ kpost thk))).
Record dinv c : Prop := {
  d_oth : forall t th, t <> w -> t <> k -> aths c !! t = Some th -> no_calls_on i th;
  d_all : exists thw thk d, aths c !! w = Some thw /\ aths c !! k = Some thk /\ chans (ash c) !! ch = Some d /\ cidx d = i /\ phase c thw thk d }.

Local Ltac sp := repeat match goal with |- _ /\ _ => split end; auto.
Lemma dinv_step c a : (tm = true -> fst a = w -> snd a = ChChan) -> ainv c -> dinv c -> dinv (aconf_step c a).
Proof.
  intros Hcho HI [Hoth (thw & thk & d & Ew & Ek & Ed & Hi & Hph)]. pose proof HI as (HL & HC & HV).
  unfold aconf_step. destruct a as [t x]. cbn [fst snd] in *.
  destruct (aths c !! t) as [th|] eqn:Et; [|constructor; [auto|exists thw, thk, d; auto]].
  destruct (athread_step t (ash c) th x) as [[s' th']|] eqn:Es; [|constructor; [auto|exists thw, thk, d; auto]].
  assert (Hlt : (t < length (aths c))%nat) by (eapply lookup_lt_Some; eauto).
  assert (Hoth' : (t <> w -> t <> k -> no_calls_on i th') ->
    forall t0 th0, t0 <> w -> t0 <> k -> aths (AConf s' (<[t := th']> (aths c))) !! t0 = Some th0 -> no_calls_on i th0).
  { intros Hme t0 th0 N1 N2 E0. cbn [aths] in E0. destruct (decide (t = t0)) as [<-|Hne].
    - rewrite list_lookup_insert in E0 by auto. injection E0 as <-. auto.
    - rewrite list_lookup_insert_ne in E0 by auto. eauto. }
  assert (Hnocall : no_calls_on i th -> am s' !! i = am (ash c) !! i /\ chans s' !! ch = Some d /\ no_calls_on i th' /\ exists l, alog th' = l ++ alog th).
  { intros Hno. destruct (frame c t th x s' th' i HC Et Hno Es) as (F1 & F2 & F3 & F4). auto. }
  destruct (decide (t = w)) as [->|Nw]; [|destruct (decide (t = k)) as [->|Nk]].
  - (* the waiter *)
    assert (th = thw) as -> by congruence. constructor; [apply Hoth'; congruence|]. cbn [aths ash].
    rewrite list_lookup_insert by auto. rewrite list_lookup_insert_ne by auto.
    assert (Hdone : wdone thw -> exists thw0 thk0 d0, Some th' = Some thw0 /\ aths c !! k = Some thk0 /\ chans s' !! ch = Some d0 /\
       cidx d0 = i /\ am s' !! i = am (ash c) !! i /\ d0 = d /\ thk0 = thk /\ wdone thw0).
    { intros [Hno [l El]]. destruct (Hnocall Hno) as (F1 & F2 & F3 & [l2 F4]). exists th', thk, d. split; [auto|]. split; [auto|]. split; [auto|]. split; [auto|].
      split; [auto|]. split; [auto|]. split; [auto|]. split; [auto|]. exists (l2 ++ l). rewrite F4, El, app_assoc. auto. }
    assert (Hwait : wwait thw -> cbuf d = None -> cclosed d = false -> False).
    { intros (Hp & _ & _) Hb Hc. unfold athread_step in Es. rewrite Hp in Es.
      assert (x = ChChan) as -> by (destruct x; [auto| |]; destruct tm; try discriminate Es; auto). rewrite Ed, Hb, Hc in Es. discriminate. }
    assert (Hrecv : wrecv thw d -> am (ash c) !! i = None -> exists d0, chans s' !! ch = Some d0 /\ cidx d0 = i /\ am s' !! i = None /\ cclosed d0 = cclosed d /\ wrecv th' d0).
    { intros [[(Hp & Hlg & Htd) Hb]|[(Hp & Hlg & Htd)|Hd]] Ha.
      - unfold athread_step in Es. rewrite Hp in Es.
      assert (x = ChChan) as -> by (destruct x; [auto| |]; destruct tm; try discriminate Es; auto). rewrite Ed, Hb in Es. injection Es as <- <-.
        exists (put_buf None d). cbn [set_ch chans am]. rewrite list_lookup_insert by (eapply lookup_lt_Some; eauto).
        sp. right. left. auto.
      - unfold athread_step in Es. rewrite Hp in Es. injection Es as <- <-. exists d. cbn [chans am]. rewrite lookup_delete. sp.
        right. right. split; [split; [discriminate|auto]|]. exists []. cbn [alog app]. rewrite Hlg. auto.
      - destruct (Hdone Hd) as (? & ? & ? & E1 & E2 & E3 & E4 & E5 & -> & -> & Hw). injection E1 as <-. exists d. rewrite E5. sp. right. right. auto. }
    destruct Hph as [(Hw & Hk & Ha & Hb & Hc)|(Ha & [(Hw & Hb & Hc & _)|[(Hw & Hc & Hk)|(Hw & Hk)]])].
    + exfalso. eauto.
    + exfalso. eauto.
    + destruct (Hrecv Hw Ha) as (d0 & F1 & F2 & F3 & F4 & F5). exists th', thk, d0. sp. right. cbn [ash]. split; [auto|].
      right. left. split; [auto|]. split; [congruence|auto].
    + destruct (Hrecv Hw Ha) as (d0 & F1 & F2 & F3 & F4 & F5). exists th', thk, d0. sp. right. cbn [ash]. split; [auto|].
      right. right. auto.
  - (* the closer *)
    assert (th = thk) as -> by congruence. constructor; [apply Hoth'; congruence|]. cbn [aths ash].
    rewrite list_lookup_insert by auto. rewrite list_lookup_insert_ne by auto.
    destruct Hph as [(Hw & (Hlg & Hk) & Ha & Hb & Hc)|(Ha & [(Hw & Hb & Hc & Hp & Hlg & Htd)|[(Hw & Hc & Hp & Hlg & Htd)|(Hw & [(Hp & Hlg & Htd)|(Hno & l & El)])]])].
    + destruct thk as [td p lg]. unfold todo_free in Hk. cbn [apos atodo alog] in *. unfold athread_step in Es. cbn [apos atodo alog] in Es.
      destruct Hk as [(-> & r & -> & Hr)|[Htd [[l ->]|[->|[->| ->]]]]].
      * injection Es as <- <-. exists thw, (ATh r (AC71 i (Some v) 1000) lg), d. sp. left. unfold kpre; sp.
        right. split; [auto|]. left. eauto.
      * rewrite Ha in Es. injection Es as <- <-. exists thw, (ATh td (AC72 i (Some v)) lg), d. sp. left. unfold kpre; sp. all: right; split; [assumption|]; auto 6.
      * pose proof (lock_no_panic c k i HI) as Hp. destruct (num_step (amux (ash c)) (NLock k i)) as [r mx]. destruct r; try discriminate; [|contradiction Hp; auto].
        injection Es as <- <-. exists thw, (ATh td (AC74 i (Some v)) lg), d. sp. left. unfold kpre; sp. all: right; split; [assumption|]; auto 6.
      * rewrite Ha in Es. injection Es as <- <-. exists thw, (ATh td (AC75 i (Some v) ch) lg), d. sp. left. unfold kpre; sp. all: right; split; [assumption|]; auto 6.
      * injection Es as <- <-. exists thw, (ATh td (AC76 i (Some v) ch) lg), d. sp. right. cbn [ash am]. rewrite lookup_delete. split; [auto|].
        left. sp.
    + unfold athread_step in Es. rewrite Hp, Ed, Hc, Hb in Es. injection Es as <- <-.
      exists thw, (ATh (atodo thk) (AC77 i (Some v) ch) (alog thk)), (put_buf (Some v) d). cbn [set_ch chans]. rewrite list_lookup_insert by (eapply lookup_lt_Some; eauto).
      sp. right. split; [auto|]. right. left. split; [left; split; [exact Hw|auto]|]. sp.
    + unfold athread_step in Es. rewrite Hp, Ed, Hc in Es. injection Es as <- <-.
      exists thw, (ATh (atodo thk) (AC73 i (Some v) CSent) (alog thk)), (close_ch d). cbn [set_ch chans]. rewrite list_lookup_insert by (eapply lookup_lt_Some; eauto).
      sp. right. split; [auto|]. right. right. split; [|left; sp]. exact Hw.
    + unfold athread_step in Es. rewrite Hp in Es. injection Es as <- <-.
      eexists thw, _, d. split; [auto|]. split; [reflexivity|]. split; [auto|]. split; [auto|]. right. split; [auto|]. right. right. split; [auto|].
      right. split; [split; [discriminate|auto]|]. exists []. cbn [alog app]. rewrite Hlg. auto.
    + destruct (Hnocall Hno) as (F1 & F2 & F3 & [l2 F4]). exists thw, th', d. sp. 
      right. cbn [ash]. split; [congruence|]. right. right. split; [auto|]. right. split; [auto|]. exists (l2 ++ l). rewrite F4, El, app_assoc. auto.
  - destruct (Hnocall (Hoth _ _ Nw Nk Et)) as (F1 & F2 & F3 & _). constructor; [apply Hoth'; auto|]. cbn [aths ash].
    rewrite !list_lookup_insert_ne by auto. exists thw, thk, d. sp. unfold phase in *. cbn [ash]. rewrite F1. exact Hph.
Qed.
Lemma dinv_run sched : (tm = true -> forall x, (w, x) ∈ sched -> x = ChChan) -> forall c, ainv c -> dinv c -> ainv (await_run c sched) /\ dinv (await_run c sched).
Proof.
  unfold await_run. induction sched as [|a l IH]; intros Hs c HI HD; cbn [foldl]; [auto|].
  apply IH; [intros Ht x Hx; apply Hs; [auto|right; auto]|apply ainv_step; auto|apply dinv_step; auto].
  destruct a as [u x]. cbn [fst snd]. intros Ht ->. apply Hs; [auto|left].
Qed.
Lemma dinv_start c thw thk : ainv c -> reg_inv c -> aths c !! w = Some thw -> aths c !! k = Some thk ->
  (forall t th, t <> w -> t <> k -> aths c !! t = Some th -> no_calls_on i th) ->
  apos thw = AW125 i tm cn ch -> alog thw = Lw -> todo_free thw -> apos thk = AIdle -> alog thk = Lk ->
  (exists r, atodo thk = AClose i (Some v) :: r /\ forall e, e ∈ r -> call_idx e <> i) ->
  am (ash c) !! i <> None -> dinv c.
Proof.
  intros (HL & HC & HV) [R1 R2 _] Ew Ek Ho Pw Lgw Tw Pk Lgk Tk Hhas. constructor; [exact Ho|].
  assert (Hin : forall t th, aths c !! t = Some th -> pc_idx (apos th) = Some i -> t = w).
  { intros t th E Hp. destruct (decide (t = w)) as [|N1]; [auto|]. exfalso. destruct (decide (t = k)) as [->|N2].
    - assert (th = thk) as -> by congruence. rewrite Pk in Hp. discriminate.
    - destruct (Ho _ _ N1 N2 E) as [Hno _]. contradiction. }
  destruct (am (ash c) !! i) as [ch'|] eqn:Ea; [|contradiction].
  assert (ch' = ch) as ->.
  { destruct (R1 _ _ Ea) as (t & th & E & [[Hw Hr]|(tm' & cn' & r & Hp)]).
    - assert (t = w) as -> by (eapply Hin; [eauto|]; destruct (apos th); cbn in *; try contradiction; congruence).
      assert (th = thw) as -> by congruence. rewrite Pw in Hr. cbn in Hr. congruence.
    - assert (t = w) as -> by (eapply Hin; [eauto|]; rewrite Hp; reflexivity). exfalso. congruence. }
  destruct (ci_am _ HC _ _ Ea) as (d & Ed & Hi & Hb).
  exists thw, thk, d. split; [auto|]. split; [auto|]. split; [auto|]. split; [auto|]. left.
  split; [repeat split; auto|]. split; [split; auto|]. split; [auto|]. split; [auto|].
  destruct (cclosed d) eqn:Ec; [|auto]. exfalso. destruct (R2 _ _ _ Ea Ed Ec) as (t & th & tm' & cn' & r & E & Hp).
  assert (t = w) as -> by (eapply Hin; [eauto|]; rewrite Hp; reflexivity). congruence.
Qed.
Definition soon c : Prop := exists m, (m <= 2)%nat /\ exists thw', aths (await_run c (replicate m (w, ChChan))) !! w = Some thw' /\
  alog thw' = (AWait i tm cn, WGot v) :: Lw.
Lemma dinv_end c thw : dinv c -> aths c !! w = Some thw -> wdone thw \/
  (alog thw = Lw /\ pc_idx (apos thw) = Some i /\ forall thk, aths c !! k = Some thk -> alog thk <> Lk -> soon c).
Proof.
  intros [_ (thw0 & thk0 & d & Ew & Ek & Ed & Hi & Hph)] Ew'. assert (thw0 = thw) as -> by congruence.
  assert (Hlt : (w < length (aths c))%nat) by (eapply lookup_lt_Some; eauto).
  assert (Hrecv : wrecv thw d -> wdone thw \/ (alog thw = Lw /\ pc_idx (apos thw) = Some i /\ soon c)).
  { intros [[(Hp & Hlg & Htd) Hb]|[(Hp & Hlg & Htd)|H]]; [| |auto].
    - right. split; [auto|]. split; [rewrite Hp; auto|]. exists 2%nat. split; [lia|].
      unfold await_run. cbn [replicate foldl]. unfold aconf_step at 2. cbn [fst snd]. rewrite Ew'. unfold athread_step. rewrite Hp, Ed, Hb.
      unfold aconf_step. cbn [fst snd aths ash]. rewrite list_lookup_insert by auto. unfold athread_step. cbn [apos atodo alog aths].
      rewrite list_insert_insert, list_lookup_insert by auto. eexists. split; [reflexivity|]. cbn [alog]. rewrite Hlg. auto.
    - right. split; [auto|]. split; [rewrite Hp; auto|]. exists 1%nat. split; [lia|].
      unfold await_run. cbn [replicate foldl]. unfold aconf_step. cbn [fst snd]. rewrite Ew'. unfold athread_step. rewrite Hp. cbn [aths].
      rewrite list_lookup_insert by auto. eexists. split; [reflexivity|]. cbn [alog]. rewrite Hlg. auto. }
  destruct Hph as [(Hw & (Hlg & Hk) & _)|(Ha & [(Hw & Hb & Hc & Hp & Hlg & Htd)|[(Hw & Hc & Hp & Hlg & Htd)|(Hw & Hk)]])].
  - right. destruct Hw as (Hp & Hl & _). split; [auto|]. split; [rewrite Hp; auto|]. intros thk E El. congruence.
  - right. destruct Hw as (Hp' & Hl & _). split; [auto|]. split; [rewrite Hp'; auto|]. intros thk E El. congruence.
  - destruct (Hrecv Hw) as [?|(H1 & H2 & H3)]; auto.
  - destruct (Hrecv Hw) as [?|(H1 & H2 & H3)]; auto.
Qed.
Lemma dinv_closer c thk : dinv c -> aths c !! k = Some thk ->
  alog thk = Lk \/ (exists l, alog thk = l ++ (AClose i (Some v), CSent) :: Lk).
Proof.
  intros [_ (thw0 & thk0 & d & Ew & Ek & Ed & Hi & Hph)] Ek'. assert (thk0 = thk) as -> by congruence.
  destruct Hph as [(Hw & (Hlg & Hk) & _)|(Ha & [(Hw & Hb & Hc & Hp & Hlg & Htd)|[(Hw & Hc & Hp & Hlg & Htd)|(Hw & [(Hp & Hlg & _)|(_ & Hl)])]])]; auto.
Qed.
End one.

(** *** One waiter, any number of closers. *)
Section many.
Context (i : Z) (w : nat) (ch : nat) (tm cn : bool) (Lw : list (acall V * ares V)) (N : nat -> nat).
Definition quiet (t : nat) th : Prop := closes_done i th = N t /\
  match apos th with AC76 j _ _ | AC77 j _ _ | AC73 j _ _ => j <> i | AC75 j _ ch0 => j = i -> ch0 = ch | _ => True end.
Definition closing th : Prop := exists v, apos th = AC76 i v ch \/ apos th = AC77 i v ch.
Definition wakes c : Prop :=
  (am (ash c) !! i = Some ch /\ forall t th, t <> w -> aths c !! t = Some th -> quiet t th) \/
  (exists t th, t <> w /\ aths c !! t = Some th /\ closing th) \/ exists d, chans (ash c) !! ch = Some d /\ cclosed d = true.
Definition left_wait th : Prop :=
  (exists r, apos th = AW120 i tm cn r \/ apos th = AW129 i tm cn ch r) \/ exists l r, alog th = l ++ (AWait i tm cn, r) :: Lw.
Record einv c : Prop := {
  e_oth : forall t th, t <> w -> aths c !! t = Some th -> no_waits_on i th;
  e_w : exists th, aths c !! w = Some th /\ ((apos th = AW125 i tm cn ch /\ alog th = Lw /\ wakes c) \/ (alog th = Lw /\ left_wait th) \/ (exists l r, alog th = l ++ (AWait i tm cn, r) :: Lw)) }.
Lemma closed_mono t s th x s' th' d : athread_step t s th x = Some (s', th') -> chans s !! ch = Some d -> cclosed d = true ->
  exists d', chans s' !! ch = Some d' /\ cclosed d' = true.
Proof.
  intros H Hd Hc.
  assert (Hset : forall k e, (k = ch -> cclosed e = true) -> exists d', (<[k := e]> (chans s) : list _) !! ch = Some d' /\ cclosed d' = true).
  { intros k e He. destruct (decide (k = ch)) as [->|Hne].
    - exists e. rewrite list_lookup_insert by (eapply lookup_lt_Some; eauto). auto.
    - exists d. rewrite list_lookup_insert_ne by auto. auto. }
  destruct th as [td p lg]. destruct p; step_cases H; cbn [set_ch chans]; eauto.
  1: { exists d. rewrite lookup_app_l by (eapply lookup_lt_Some; eauto). auto. }
  all: apply Hset; intros ->; cbn [put_buf close_ch cclosed]; congruence.
Qed.
Lemma log_step t s th x s' th' : athread_step t s th x = Some (s', th') -> exists l, alog th' = l ++ alog th.
Proof.
  intros H. destruct th as [td p lg]. destruct p; step_cases H; cbn [alog]; first [exists []; reflexivity|eexists [_]; reflexivity].
Qed.
Lemma no_waits_step t s th x s' th' : athread_step t s th x = Some (s', th') -> no_waits_on i th -> no_waits_on i th'.
Proof.
  intros H [Hp Ht]. unfold no_waits_on. destruct th as [td p lg]. cbn [apos atodo] in *.
  assert (Htl : forall a r, td = a :: r -> forall tm cn, AWait i tm cn ∉ r) by (intros a r -> tm0 cn0 Hin; apply (Ht tm0 cn0); right; auto).
  destruct p; step_cases H; cbn [apos atodo waiting_on] in *; (split; [|eauto]); auto.
  intros ->. eapply Ht. left.
Qed.
Lemma einv_step c a : ainv c -> einv c -> einv (aconf_step c a).
Proof.
  intros (HL & HC & HV) [E1 (thw & Ew & Hw)]. unfold aconf_step. destruct a as [t x]. cbn [fst snd].
  destruct (aths c !! t) as [th|] eqn:Et; [|constructor; eauto].
  destruct (athread_step t (ash c) th x) as [[s' th']|] eqn:Es; [|constructor; eauto].
  assert (Hlt : (t < length (aths c))%nat) by (eapply lookup_lt_Some; eauto).
  constructor; cbn [aths ash].
  { intros t0 th0 N0 E0. destruct (decide (t = t0)) as [<-|Hne].
    - rewrite list_lookup_insert in E0 by auto. injection E0 as <-. eapply no_waits_step; eauto.
    - rewrite list_lookup_insert_ne in E0 by auto. eauto. }
  destruct (decide (t = w)) as [->|Nw].
  - assert (th = thw) as -> by congruence. exists th'. rewrite list_lookup_insert by auto. split; [auto|]. right.
    destruct Hw as [(Hp & Hl & _)|[[Hl [(r & Hp)|Hd]]|(l & r & Hl)]].
    + left. destruct thw as [td p lg]. cbn [apos alog] in *. subst p lg. unfold left_wait. step_cases Es; (split; [auto|]); left; eexists;
      repeat match goal with E : tm && cn = true |- _ => apply andb_true_iff in E as [E ?] | E : _ = true |- _ => rewrite E end; first [left; reflexivity|right; reflexivity].
    + destruct thw as [td p lg]. cbn [apos alog] in *. subst lg. destruct Hp as [-> | ->]; step_cases Es.
      * right. eexists [], _. reflexivity.
      * left. split; [auto|]. left. eexists. left. reflexivity.
    + exfalso. destruct Hd as (l & r & Hd). rewrite Hl in Hd. apply (f_equal length) in Hd. rewrite app_length in Hd. cbn in Hd. lia.
    + right. destruct (log_step _ _ _ _ _ _ Es) as [l2 El]. exists (l2 ++ l), r. rewrite El, Hl, app_assoc. auto.
  - exists thw. rewrite list_lookup_insert_ne by auto. split; [auto|]. destruct Hw as [(Hp & Hl & Hk)|Hw]; [|auto]. left. split; [auto|]. split; [auto|].
    assert (refs (apos thw) = Some (i, ch)) as Hrw by (rewrite Hp; auto). destruct (ci_refs _ HC _ _ _ _ Ew Hrw) as (d & Ed & Hi).
    pose proof (E1 _ _ Nw Et) as [Hnw Hnt]. pose proof (fun j k => ci_refs _ HC t th j k Et) as Href.
    unfold wakes. cbn [aths ash].
    destruct Hk as [(Ha & Hq)|[(t0 & th0 & N0 & E0 & Hcl)|(d0 & F1 & F2)]].
    + assert (Hq' : quiet t th' -> forall t1 th1, t1 <> w -> (<[t := th']> (aths c) : list _) !! t1 = Some th1 -> quiet t1 th1).
      { intros Hme t1 th1 N1 G1. destruct (decide (t = t1)) as [<-|Hne].
        - rewrite list_lookup_insert in G1 by auto. injection G1 as <-. auto.
        - rewrite list_lookup_insert_ne in G1 by auto. eauto. }
      pose proof (Hq _ _ Nw Et) as [Q1 Q2].
      assert (Hcls : closing th' -> exists t1 th1, t1 <> w /\ (<[t := th']> (aths c) : list _) !! t1 = Some th1 /\ closing th1).
      { intros Hcl. exists t, th'. rewrite list_lookup_insert by auto. auto. }
      destruct th as [td p lg]. unfold closes_done in Q1. cbn [apos alog waiting_on] in *.
      assert (Hdel : forall j, j <> i -> delete j (am (ash c)) !! i = Some ch) by (intros; rewrite lookup_delete_ne; auto).
      assert (Hins : forall j y, j <> i -> <[j:=y]> (am (ash c)) !! i = Some ch) by (intros; rewrite lookup_insert_ne; auto).
      destruct p; step_cases Es; cbn [am set_ch chans] in *;
        try (left; split; [solve [auto]|]; apply Hq'; unfold quiet, closes_done; cbn [alog apos List.filter close_entry]; split; auto;
             rewrite ?(proj2 (Z.eqb_neq idx i)) by (assumption || congruence); auto; fail).
      * exfalso. apply (lock_no_panic c t idx); [split; auto|]. rewrite Heqp. auto.
      * left. split; [auto|]. apply Hq'. split; [auto|]. cbn [apos]. congruence.
      * left. split; [auto|]. apply Hq'. split; [auto|]. cbn [apos]. congruence.
      * destruct (decide (idx = i)) as [->|Hne].
        -- right. left. apply Hcls. rewrite (Q2 eq_refl). eexists. left. reflexivity.
        -- left. split; [auto|]. apply Hq'. split; auto.
      * destruct (decide (idx = i)) as [->|Hne].
        -- right. left. apply Hcls. rewrite (Q2 eq_refl). eexists. right. reflexivity.
        -- left. split; [auto|]. apply Hq'. split; auto.
    + right. destruct (decide (t = t0)) as [<-|Hne].
      * assert (th0 = th) as -> by congruence. destruct Hcl as (v & Hcl).
        assert (Hcls : closing th' -> exists t1 th1, t1 <> w /\ (<[t := th']> (aths c) : list _) !! t1 = Some th1 /\ closing th1).
        { intros Hcl'. exists t, th'. rewrite list_lookup_insert by auto. auto. }
        destruct th as [td p lg]. cbn [apos] in *. destruct Hcl as [-> | ->]; step_cases Es; cbn [set_ch chans].
        -- right. exists d. auto.
        -- left. apply Hcls. eexists. right. reflexivity.
        -- right. exists d. auto.
        -- right. exists (close_ch d). rewrite list_lookup_insert by (eapply lookup_lt_Some; eauto). auto.
        -- right. exists (close_ch d). rewrite list_lookup_insert by (eapply lookup_lt_Some; eauto). auto.
      * left. exists t0, th0. rewrite list_lookup_insert_ne by auto. auto.
    + right. right. exact (closed_mono _ _ _ _ _ _ _ Es F1 F2).
Qed.
Lemma einv_run sched : forall c, ainv c -> einv c -> ainv (await_run c sched) /\ einv (await_run c sched).
Proof.
  unfold await_run. induction sched as [|a l IH]; intros c HI HD; cbn [foldl]; [auto|].
  apply IH; [apply ainv_step; auto|apply einv_step; auto].
Qed.
Lemma einv_start c thw : reg_inv c -> aths c !! w = Some thw -> apos thw = AW125 i tm cn ch -> alog thw = Lw ->
  (forall t th, t <> w -> aths c !! t = Some th -> pc_idx (apos th) <> Some i /\ no_waits_on i th /\ N t = closes_done i th) ->
  am (ash c) !! i <> None -> einv c.
Proof.
  intros [R1 _ _] Ew Hp Hl Ho Hhas.
  constructor; [intros t th Nt Et; destruct (Ho _ _ Nt Et) as (_ & H & _); exact H|].
  exists thw. split; [auto|]. left. split; [auto|]. split; [auto|]. left.
  destruct (am (ash c) !! i) as [ch'|] eqn:Ea; [|contradiction]. split.
  - destruct (R1 _ _ Ea) as (t & th & E & Hh). destruct (decide (t = w)) as [->|Hne].
    + assert (th = thw) as -> by congruence. rewrite Hp in Hh. destruct Hh as [[_ Hr]|(? & ? & ? & Hr)]; [|discriminate]. cbn in Hr. congruence.
    + exfalso. destruct (Ho _ _ Hne E) as (H1 & _). apply H1. destruct Hh as [[Hw Hr]|(? & ? & ? & ->)]; [|auto].
      destruct (apos th); cbn in *; try contradiction; congruence.
  - intros t th Nt Et. destruct (Ho _ _ Nt Et) as (H1 & _ & H3). split; [auto|]. destruct (apos th); cbn in *; try exact I; congruence.
Qed.
Lemma einv_end c thw : ainv c -> einv c -> aths c !! w = Some thw ->
  (forall t th, t <> w -> aths c !! t = Some th -> pc_idx (apos th) <> Some i) ->
  (exists t th, t <> w /\ aths c !! t = Some th /\ closes_done i th <> N t) ->
  (alog thw = Lw /\ can_step c w) \/ exists l r, alog thw = l ++ (AWait i tm cn, r) :: Lw.
Proof.
  intros (_ & HC & _) [_ (th & Ew' & Hw)] Ew Hno (t0 & th0 & N0 & E0 & Hne). assert (th = thw) as -> by congruence.
  assert (Hcan : forall x, athread_step w (ash c) thw x <> None -> can_step c w) by (intros x Hx; exists thw, x; auto).
  destruct Hw as [(Hp & Hl & [[_ Hq]|[(t & th & Nt & Et & (v & Hcl))|(d & Ed & Hc)]])|[(Hl & [(r & Hp)|(l & r & Hd)])|Hw]]; [| | | | |right; auto].
  - exfalso. apply Hne. apply (Hq _ _ N0 E0).
  - exfalso. apply (Hno _ _ Nt Et). destruct Hcl as [-> | ->]; auto.
  - left. split; [auto|]. apply (Hcan ChChan). unfold athread_step. rewrite Hp, Ed, Hc. destruct (cbuf d); discriminate.
  - left. split; [auto|]. apply (Hcan ChChan). unfold athread_step. destruct Hp as [Hp|Hp].
    { rewrite Hp. discriminate. }
    destruct (ci_refs _ HC w thw i ch Ew) as (d & Ed & _); [rewrite Hp; auto|]. rewrite Hp, Ed. discriminate.
  - right. eauto.
Qed.
End many.
End deliver.
