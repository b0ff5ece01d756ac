(** Invariants of lock/await.go. *)
From stdpp Require Import gmap.
From Coq Require Import ZArith Lia.
From Verif Require Import GoInt Conc Lock_Model Lock_Spec Lock_Proofs Await_Model Await_Spec.
Local Open Scope Z_scope.

Section proofs.
Context {V : Type}.
Implicit Types (s : ashared V) (th : athread V) (p : apc V).

(** Positions inside the mutex of an index. *)
Definition lk p : option Z :=
  match p with
  | AW34 i _ _ | AW36 i _ _ | AW32 i _ _ _ | AC74 i _ | AC75 i _ _ | AC76 i _ _ | AC77 i _ _ | AC73 i _ _ => Some i
  | _ => None
  end.
Definition refs p : option (Z * nat) :=
  match p with
  | AW32 i _ _ ch | AW125 i _ _ ch | AW129 i _ _ ch _ | AC75 i _ ch | AC76 i _ ch | AC77 i _ ch => Some (i, ch)
  | _ => None
  end.

Ltac step_cases H :=
  unfold athread_step in H; cbn [apos atodo alog] in H;
  repeat match type of H with
  | context [match ?x with _ => _ end] => destruct x eqn:?
  end; try discriminate H; simplify_eq/=.

(** What a step does to the channels. *)
Lemma evolve t s th x s' th' : athread_step t s th x = Some (s', th') ->
  forall ch c, chans s !! ch = Some c -> exists c', chans s' !! ch = Some c' /\ cidx c' = cidx c /\
    (cbuf c' = cbuf c \/ cbuf c' = None \/ exists i v, apos th = AC76 i v ch /\ cclosed c = false /\ cbuf c = None /\ cbuf c' = v).
Proof.
  intros H ch c Hc.
  assert (Hset : forall ch0 c0 d, chans s !! ch0 = Some c0 -> cidx d = cidx c0 ->
    (cbuf d = cbuf c0 \/ cbuf d = None \/ exists i v, apos th = AC76 i v ch0 /\ cclosed c0 = false /\ cbuf c0 = None /\ cbuf d = v) ->
    exists c', <[ch0 := d]> (chans s) !! ch = Some c' /\ cidx c' = cidx c /\
    (cbuf c' = cbuf c \/ cbuf c' = None \/ exists i v, apos th = AC76 i v ch /\ cclosed c = false /\ cbuf c = None /\ cbuf c' = v)).
  { intros ch0 c0 d Hc0 Hd Hb. destruct (decide (ch0 = ch)) as [->|Hne].
    - rewrite Hc in Hc0. injection Hc0 as <-. exists d. rewrite list_lookup_insert by (eapply lookup_lt_Some; eauto). auto.
    - exists c. rewrite list_lookup_insert_ne by auto. auto. }
  destruct th as [td p lg]. cbn [apos] in *.
  destruct p; step_cases H; try (exists c; split; [exact Hc|split; auto]; fail);
    try (eapply Hset; eauto; cbn [cidx cbuf put_buf close_ch]; eauto 10; fail).
  exists c. rewrite lookup_app_l by (eapply lookup_lt_Some; eauto). auto.
Qed.
(** What a step does to the map. *)
Lemma am_step t s th x s' th' : athread_step t s th x = Some (s', th') ->
  forall j ch, am s' !! j = Some ch -> am s !! j = Some ch \/
    exists tm cn, apos th = AW36 j tm cn /\ ch = length (chans s) /\ chans s' !! ch = Some (Chan None false j) /\ apos th' = AW32 j tm cn ch.
Proof.
  intros H j ch Hj. destruct th as [td p lg]. cbn [apos] in *.
  destruct p; step_cases H; auto; try (apply lookup_delete_Some in Hj; left; tauto).
  apply lookup_insert_Some in Hj. destruct Hj as [[-> <-]|[_ Hj]]; [|auto]. right. exists tmo, can.
  split; [auto|]. split; [auto|]. split; [|auto]. rewrite lookup_app_r by lia. rewrite Nat.sub_diag. auto.
Qed.
Lemma refs_step t s th x s' th' : athread_step t s th x = Some (s', th') ->
  forall j ch, refs (apos th') = Some (j, ch) -> refs (apos th) = Some (j, ch) \/ am s !! j = Some ch \/ chans s' !! ch = Some (Chan None false j).
Proof.
  intros H j ch Hj. destruct th as [td p lg]. cbn [apos] in *.
  destruct p; step_cases H; auto.
  right; right. rewrite lookup_app_r by lia. rewrite Nat.sub_diag. auto.
Qed.

Section inv.
Context (n : Z) (Hn : 1 <= n < 2^63).

(** *** The mutexes. *)
Record linv (c : aconf V) : Prop := {
  li_num : muxNum (amux (ash c)) = n;
  li_some : forall z, 0 <= z < n -> exists b : bool, lockm (amux (ash c)) !! z = Some b /\
    (b = true <-> exists t th i, aths c !! t = Some th /\ lk (apos th) = Some i /\ slot n i = z);
  li_uniq : forall t1 t2 th1 th2 i1 i2, aths c !! t1 = Some th1 -> aths c !! t2 = Some th2 ->
    lk (apos th1) = Some i1 -> lk (apos th2) = Some i2 -> slot n i1 = slot n i2 -> t1 = t2 }.

Lemma linv_same (c : aconf V) t th th' s' : linv c -> aths c !! t = Some th -> lk (apos th') = lk (apos th) -> amux s' = amux (ash c) ->
  linv (AConf s' (<[t := th']> (aths c))).
Proof.
  intros [H1 H2 H3] Et Hlk Hm. assert (Hlt : (t < length (aths c))%nat) by (eapply lookup_lt_Some; eauto).
  assert (Hback : forall t0 th0, (<[t := th']> (aths c) : list _) !! t0 = Some th0 -> exists th1, aths c !! t0 = Some th1 /\ lk (apos th0) = lk (apos th1)).
  { intros t0 th0 H0. destruct (decide (t = t0)) as [<-|Hne].
    - rewrite list_lookup_insert in H0 by auto. injection H0 as <-. eauto.
    - rewrite list_lookup_insert_ne in H0 by auto. eauto. }
  constructor; cbn [ash aths]; rewrite ?Hm; [auto| |].
  - intros s0 Hs0. destruct (H2 s0 Hs0) as (b & E1 & E2). exists b. split; [auto|]. rewrite E2. split.
    + intros (t0 & th0 & i & F1 & F2 & F3). destruct (decide (t = t0)) as [<-|Hne].
      * exists t, th', i. rewrite list_lookup_insert by auto. rewrite Hlk. split; [auto|]. split; [congruence|auto].
      * exists t0, th0, i. rewrite list_lookup_insert_ne by auto. auto.
    + intros (t0 & th0 & i & F1 & F2 & F3). destruct (Hback _ _ F1) as (th1 & G1 & G2). exists t0, th1, i. rewrite <- G2. auto.
  - intros t1 t2 th1 th2 i1 i2 F1 F2 F3 F4 F5. destruct (Hback _ _ F1) as (u1 & G1 & G2). destruct (Hback _ _ F2) as (u2 & G3 & G4).
    eapply H3; eauto; congruence.
Qed.
Lemma linv_acquire (c : aconf V) t th th' s' i mx : linv c -> aths c !! t = Some th -> lk (apos th) = None -> lk (apos th') = Some i ->
  num_step (amux (ash c)) (NLock t i) = (RAcquired, mx) -> amux s' = mx ->
  linv (AConf s' (<[t := th']> (aths c))).
Proof.
  intros [H1 H2 H3] Et Hlk Hlk' Hst Hm. assert (Hlt : (t < length (aths c))%nat) by (eapply lookup_lt_Some; eauto).
  unfold num_step in Hst. rewrite H1, num_index_slot in Hst by auto. pose proof (slot_range n i ltac:(lia)) as Hr.
  destruct (H2 _ Hr) as (b & E1 & E2). rewrite E1 in Hst. destruct b; [discriminate|]. injection Hst as <-.
  assert (Hnone : forall t0 th0 i0, aths c !! t0 = Some th0 -> lk (apos th0) = Some i0 -> slot n i0 <> slot n i).
  { intros t0 th0 i0 F1 F2 F3. assert (false = true) by (apply E2; exists t0, th0, i0; auto). discriminate. }
  constructor; cbn [ash aths]; rewrite ?Hm; cbn [muxNum lockm]; [auto| |].
  - intros s0 Hs0. destruct (decide (s0 = slot n i)) as [->|Hne].
    + exists true. rewrite lookup_insert. split; [auto|]. split; [|auto]. intros _. exists t, th', i.
      rewrite list_lookup_insert by auto. auto.
    + rewrite lookup_insert_ne by auto. destruct (H2 s0 Hs0) as (b & F1 & F2). exists b. split; [auto|]. rewrite F2. split.
      * intros (t0 & th0 & i0 & G1 & G2 & G3). exists t0, th0, i0. rewrite list_lookup_insert_ne; [auto|]. intros <-. congruence.
      * intros (t0 & th0 & i0 & G1 & G2 & G3). destruct (decide (t = t0)) as [<-|Hne'].
        -- rewrite list_lookup_insert in G1 by auto. injection G1 as <-. congruence.
        -- rewrite list_lookup_insert_ne in G1 by auto. exists t0, th0, i0. auto.
  - intros t1 t2 th1 th2 i1 i2 F1 F2 F3 F4 F5. destruct (decide (t = t1)) as [<-|N1], (decide (t = t2)) as [<-|N2]; auto.
    + rewrite list_lookup_insert in F1 by auto. injection F1 as <-. rewrite list_lookup_insert_ne in F2 by auto.
      exfalso. apply (Hnone _ _ _ F2 F4). congruence.
    + rewrite list_lookup_insert in F2 by auto. injection F2 as <-. rewrite list_lookup_insert_ne in F1 by auto.
      exfalso. apply (Hnone _ _ _ F1 F3). congruence.
    + rewrite list_lookup_insert_ne in F1 by auto. rewrite list_lookup_insert_ne in F2 by auto. eauto.
Qed.
Lemma linv_release (c : aconf V) t th th' s' i : linv c -> aths c !! t = Some th -> lk (apos th) = Some i -> lk (apos th') = None ->
  amux s' = (num_step (amux (ash c)) (NUnlock t i)).2 ->
  linv (AConf s' (<[t := th']> (aths c))).
Proof.
  intros [H1 H2 H3] Et Hlk Hlk' Hm. assert (Hlt : (t < length (aths c))%nat) by (eapply lookup_lt_Some; eauto).
  unfold num_step in Hm. rewrite H1, num_index_slot in Hm by auto. pose proof (slot_range n i ltac:(lia)) as Hr.
  destruct (H2 _ Hr) as (b & E1 & E2). rewrite E1 in Hm.
  assert (b = true) as -> by (apply E2; exists t, th, i; auto). cbn [snd] in Hm.
  constructor; cbn [ash aths]; rewrite ?Hm; cbn [muxNum lockm]; [auto| |].
  - intros s0 Hs0. destruct (decide (s0 = slot n i)) as [->|Hne].
    + exists false. rewrite lookup_insert. split; [auto|]. split; [discriminate|]. intros (t0 & th0 & i0 & G1 & G2 & G3).
      destruct (decide (t = t0)) as [<-|Hne'].
      * rewrite list_lookup_insert in G1 by auto. injection G1 as <-. congruence.
      * rewrite list_lookup_insert_ne in G1 by auto. exfalso. apply Hne'. eapply (H3 t t0); eauto.
    + rewrite lookup_insert_ne by auto. destruct (H2 s0 Hs0) as (b & F1 & F2). exists b. split; [auto|]. rewrite F2. split.
      * intros (t0 & th0 & i0 & G1 & G2 & G3). exists t0, th0, i0. rewrite list_lookup_insert_ne; [auto|]. intros <-. congruence.
      * intros (t0 & th0 & i0 & G1 & G2 & G3). destruct (decide (t = t0)) as [<-|Hne'].
        -- rewrite list_lookup_insert in G1 by auto. injection G1 as <-. congruence.
        -- rewrite list_lookup_insert_ne in G1 by auto. exists t0, th0, i0. auto.
  - intros t1 t2 th1 th2 i1 i2 F1 F2 F3 F4 F5. destruct (decide (t = t1)) as [<-|N1].
    { rewrite list_lookup_insert in F1 by auto. injection F1 as <-. congruence. }
    destruct (decide (t = t2)) as [<-|N2].
    { rewrite list_lookup_insert in F2 by auto. injection F2 as <-. congruence. }
    rewrite list_lookup_insert_ne in F1 by auto. rewrite list_lookup_insert_ne in F2 by auto. eauto.
Qed.

Lemma linv_step (c : aconf V) t th x s' th' : linv c -> aths c !! t = Some th -> athread_step t (ash c) th x = Some (s', th') ->
  linv (AConf s' (<[t := th']> (aths c))).
Proof.
  intros HI Et H.
  assert (Hsame : lk (apos th') = lk (apos th) -> amux s' = amux (ash c) -> linv (AConf s' (<[t := th']> (aths c)))).
  { intros. eapply linv_same; eauto. }
  assert (Hacq : forall i mx, lk (apos th) = None -> lk (apos th') = Some i ->
    num_step (amux (ash c)) (NLock t i) = (RAcquired, mx) -> amux s' = mx -> linv (AConf s' (<[t := th']> (aths c)))).
  { intros. eapply linv_acquire; eauto. }
  assert (Hrel : forall i, lk (apos th) = Some i -> lk (apos th') = None ->
    amux s' = (num_step (amux (ash c)) (NUnlock t i)).2 -> linv (AConf s' (<[t := th']> (aths c)))).
  { intros. eapply linv_release; eauto. }
  clear HI Et. set (c' := AConf s' _) in *. clearbody c'.
  destruct th as [td p lg]. cbn [apos] in *.
  destruct p; step_cases H; try (apply Hsame; reflexivity); try (eapply Hacq; eauto; reflexivity); try (eapply Hrel; reflexivity).
Qed.

(** *** The channels. *)
Record cinv (c : aconf V) : Prop := {
  ci_am : forall i ch, am (ash c) !! i = Some ch -> exists d, chans (ash c) !! ch = Some d /\ cidx d = i /\ cbuf d = None;
  ci_refs : forall t th i ch, aths c !! t = Some th -> refs (apos th) = Some (i, ch) -> exists d, chans (ash c) !! ch = Some d /\ cidx d = i;
  ci_75 : forall t th i v ch, aths c !! t = Some th -> apos th = AC75 i v ch -> exists d, chans (ash c) !! ch = Some d /\ cbuf d = None;
  ci_76 : forall t th i v ch, aths c !! t = Some th -> apos th = AC76 i v ch ->
    (exists d, chans (ash c) !! ch = Some d /\ cbuf d = None) /\ am (ash c) !! i <> Some ch /\ v <> None }.

Lemma cinv_step (c : aconf V) t th x s' th' : linv c -> cinv c -> aths c !! t = Some th -> athread_step t (ash c) th x = Some (s', th') ->
  cinv (AConf s' (<[t := th']> (aths c))).
Proof.
  intros HL HC Et H. pose proof HC as [H1 H2 H3 H4].
  assert (Hlt : (t < length (aths c))%nat) by (eapply lookup_lt_Some; eauto).
  pose proof (evolve _ _ _ _ _ _ H) as Hev. pose proof (am_step _ _ _ _ _ _ H) as Ham. pose proof (refs_step _ _ _ _ _ _ H) as Hrf.
  assert (Hcase : forall t0 th0, (<[t := th']> (aths c) : list _) !! t0 = Some th0 -> (t0 = t /\ th0 = th') \/ (t0 <> t /\ aths c !! t0 = Some th0)).
  { intros t0 th0 H0. destruct (decide (t = t0)) as [<-|Hne].
    - rewrite list_lookup_insert in H0 by auto. injection H0 as <-. auto.
    - rewrite list_lookup_insert_ne in H0 by auto. auto. }
  (* no other goroutine in the mutex of [i] can have its empty channel filled *)
  assert (Hkeep : forall t0 th0 i ch d, t0 <> t -> aths c !! t0 = Some th0 -> lk (apos th0) = Some i -> refs (apos th0) = Some (i, ch) ->
     chans (ash c) !! ch = Some d -> cbuf d = None -> exists d', chans s' !! ch = Some d' /\ cbuf d' = None).
  { intros t0 th0 i ch d Hne E0 Hlk0 Hr0 Hd Hb. destruct (Hev _ _ Hd) as (d' & E1 & _ & [E2|[E2|E2]]); [exists d'; split; [auto|congruence]|exists d'; auto|].
    exfalso. destruct E2 as (i0 & v0 & Epc & _). apply Hne.
    destruct (H2 _ _ _ _ E0 Hr0) as (d1 & F1 & F2). assert (refs (apos th) = Some (i0, ch)) as Hr by (rewrite Epc; auto).
    destruct (H2 _ _ _ _ Et Hr) as (d2 & F3 & F4).
    apply (li_uniq c HL t0 t th0 th i i0); auto; [rewrite Epc; reflexivity|congruence]. }
  constructor; cbn [ash aths].
  - intros i ch Hi. destruct (Ham _ _ Hi) as [Hold|(tm & cn & _ & _ & Hnew & _)].
    + destruct (H1 _ _ Hold) as (d & E1 & E2 & E3). destruct (Hev _ _ E1) as (d' & F1 & F2 & F3). exists d'. split; [auto|]. split; [congruence|].
      destruct F3 as [F3|[F3|(i0 & v0 & Epc & _ & _ & _)]]; [congruence|auto|]. exfalso.
      destruct (H4 _ _ _ _ _ Et Epc) as (_ & Hno & _). apply Hno. assert (refs (apos th) = Some (i0, ch)) as Hr by (rewrite Epc; auto).
      destruct (H2 _ _ _ _ Et Hr) as (d2 & G1 & G2). congruence.
    + eauto.
  - intros t0 th0 i ch H0 Hr. destruct (Hcase _ _ H0) as [[-> ->]|[Hne E0]].
    + destruct (Hrf _ _ Hr) as [Hr0|[Hr0|Hr0]].
      * destruct (H2 _ _ _ _ Et Hr0) as (d & E1 & E2). destruct (Hev _ _ E1) as (d' & F1 & F2 & _). exists d'. split; [auto|congruence].
      * destruct (H1 _ _ Hr0) as (d & E1 & E2 & _). destruct (Hev _ _ E1) as (d' & F1 & F2 & _). exists d'. split; [auto|congruence].
      * eauto.
    + destruct (H2 _ _ _ _ E0 Hr) as (d & E1 & E2). destruct (Hev _ _ E1) as (d' & F1 & F2 & _). exists d'. split; [auto|congruence].
  - intros t0 th0 i v ch H0 Hp. destruct (Hcase _ _ H0) as [[-> ->]|[Hne E0]].
    + clear - H H1 Hp. destruct th as [td p lg]. destruct p; step_cases H; simplify_eq.
      match goal with E : am _ !! _ = Some _ |- _ => destruct (H1 _ _ E) as (d & F1 & _ & F2) end. eauto.
    + destruct (H3 _ _ _ _ _ E0 Hp) as (d & E1 & E2). apply (Hkeep t0 th0 i ch d); auto; rewrite Hp; reflexivity.
  - intros t0 th0 i v ch H0 Hp. destruct (Hcase _ _ H0) as [[-> ->]|[Hne E0]].
    + assert (exists w, apos th = AC75 i (Some w) ch /\ v = Some w /\ chans s' = chans (ash c) /\ am s' = delete i (am (ash c))) as (w & Ep & -> & Ec & Ea).
      { clear - H Hp. destruct th as [td p lg]. destruct p; step_cases H; simplify_eq; eauto. }
      destruct (H3 _ _ _ _ _ Et Ep) as (d & E1 & E2). split; [rewrite Ec; eauto|]. split; [|discriminate]. rewrite Ea, lookup_delete. discriminate.
    + destruct (H4 _ _ _ _ _ E0 Hp) as ((d & E1 & E2) & E3 & E4).
      split; [apply (Hkeep t0 th0 i ch d); auto; rewrite Hp; reflexivity|]. split; [|auto]. intros Hbad.
      destruct (Ham _ _ Hbad) as [|(tm & cn & _ & -> & _)]; [auto|]. apply lookup_lt_Some in E1. lia.
Qed.

(** *** Where values come from. *)
Definition started (i : Z) (v : V) (c : aconf V) : Prop := exists t th, aths c !! t = Some th /\ putting i v th.
Record vinv (c : aconf V) : Prop := {
  vi_buf : forall ch d v, chans (ash c) !! ch = Some d -> cbuf d = Some v -> started (cidx d) v c;
  vi_pc : forall t th i tm cn v, aths c !! t = Some th -> apos th = AW120 i tm cn (WGot v) -> started i v c;
  vi_tmo : forall t th i tm cn ch r, aths c !! t = Some th -> apos th = AW129 i tm cn ch r -> r = WTimeout \/ r = WCancel;
  vi_log : forall t th i tm cn v, aths c !! t = Some th -> (AWait i tm cn, WGot v) ∈ alog th -> started i v c }.
Lemma putting_step t s th x s' th' i v : athread_step t s th x = Some (s', th') -> putting i v th -> putting i v th'.
Proof.
  intros H HP. destruct th as [td p lg]. unfold putting in *. cbn [apos alog] in *.
  destruct p; step_cases H;
  (destruct HP as [[r0 HP]|[[ch0 HP]|[r0 HP]]]; simplify_eq; [left; exists r0; first [exact HP|right; exact HP]|..]);
  eauto; left; eexists; left.
Qed.
Lemma vinv_step (c : aconf V) t th x s' th' : cinv c -> vinv c -> aths c !! t = Some th -> athread_step t (ash c) th x = Some (s', th') ->
  vinv (AConf s' (<[t := th']> (aths c))).
Proof.
  intros HC [H1 H2 H2b H3] Et H. assert (Hlt : (t < length (aths c))%nat) by (eapply lookup_lt_Some; eauto).
  set (c' := AConf s' (<[t := th']> (aths c))).
  assert (Hmono : forall i v, started i v c -> started i v c').
  { intros i v (t0 & th0 & E0 & HP). destruct (decide (t = t0)) as [<-|Hne].
    - exists t, th'. unfold c'. cbn [aths]. rewrite list_lookup_insert by auto. split; [auto|]. eapply putting_step; eauto. congruence.
    - exists t0, th0. unfold c'. cbn [aths]. rewrite list_lookup_insert_ne by auto. auto. }
  assert (Hcase : forall t0 th0, aths c' !! t0 = Some th0 -> (t0 = t /\ th0 = th') \/ (t0 <> t /\ aths c !! t0 = Some th0)).
  { intros t0 th0 H0. unfold c' in H0. cbn [aths] in H0. destruct (decide (t = t0)) as [<-|Hne].
    - rewrite list_lookup_insert in H0 by auto. injection H0 as <-. auto.
    - rewrite list_lookup_insert_ne in H0 by auto. auto. }
  constructor.
  - intros ch d v Hd Hb. unfold c' in Hd. cbn [ash] in Hd. destruct (chans (ash c) !! ch) as [d0|] eqn:E0.
    + destruct (evolve _ _ _ _ _ _ H _ _ E0) as (d1 & F1 & F2 & F3). assert (d1 = d) as -> by congruence. rewrite F2.
      destruct F3 as [F3|[F3|(i0 & v0 & Epc & Ecl & _ & F3)]]; [apply Hmono; eapply H1; eauto; congruence|congruence|].
      assert (refs (apos th) = Some (i0, ch)) as Hr by (rewrite Epc; auto). destruct (ci_refs c HC _ _ _ _ Et Hr) as (d2 & G1 & G2).
      assert (cidx d0 = i0) as -> by congruence. exists t, th'. unfold c'. cbn [aths]. rewrite list_lookup_insert by auto. split; [auto|].
      right. left. clear - H Epc F3 Hb E0 Ecl F1. destruct th as [td p lg]. cbn [apos] in Epc. subst p. step_cases H; [congruence|].
      exists ch. congruence.
    + exfalso. clear - H E0 Hd Hb. destruct th as [td p lg]. destruct p; step_cases H;
        try (rewrite list_lookup_insert_Some in Hd; destruct Hd as [(-> & _ & _)|[_ Hd]]; congruence); try congruence.
      apply lookup_ge_None in E0. rewrite lookup_app_r in Hd by lia. destruct (ch - length (chans (ash c)))%nat as [|k]; [|destruct k; discriminate].
      injection Hd as <-. discriminate.
  - intros t0 th0 i tm cn v E0 Hp. destruct (Hcase _ _ E0) as [[-> ->]|[_ E1]]; [|apply Hmono; eauto].
    apply Hmono. destruct th as [td p lg]. destruct p; step_cases H; simplify_eq.
    + destruct (ci_refs c HC _ _ i ch Et eq_refl) as (d & F1 & F2). rewrite <- F2. assert (d = c0) as -> by congruence. eauto.
    + destruct (H2b _ _ _ _ _ _ _ Et eq_refl); discriminate.
  - intros t0 th0 i tm cn ch r E0 Hp. destruct (Hcase _ _ E0) as [[-> ->]|[_ E1]]; [|eauto].
    destruct th as [td p lg]. destruct p; step_cases H; simplify_eq; auto.
  - intros t0 th0 i tm cn v E0 Hp. destruct (Hcase _ _ E0) as [[-> ->]|[_ E1]]; [|apply Hmono; eauto].
    apply Hmono. destruct th as [td p lg]. cbn [alog] in *. destruct p; step_cases H; first [solve [eapply (H3 _ _ _ _ _ _ Et); exact Hp]|idtac];
      apply elem_of_cons in Hp; destruct Hp as [Hp|Hp]; simplify_eq; first [solve [eapply (H3 _ _ _ _ _ _ Et); exact Hp]|eauto].
Qed.
End inv.
End proofs.
