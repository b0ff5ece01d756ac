(** Proofs about lock/fastawait.go. *)
From stdpp Require Import gmap.
From Coq Require Import ZArith Lia.
From Verif Require Import GoInt Conc Num_Model Bloom_Model Await_Model FastAwait_Model FastAwait_Spec.
Local Open Scope Z_scope.

Ltac fcases H :=
  unfold fthread_step in H; cbn [fpos ftodo flog] in H;
  repeat match type of H with
  | context [match ?x with _ => _ end] => destruct x eqn:?
  end; try discriminate H; simplify_eq/=.

Section fast.
Context {V : Type} (isdel : list (bop (list Z)) -> list Z -> bool).
Implicit Types (s : fshared V) (th : fthread V) (p : fpc V) (c : fconf V).

Definition frefs p : option (Z * nat) :=
  match p with FW49 i _ _ ch | FW53 i _ _ ch _ | FC101 i _ ch | FC102 i _ ch | FC100 i _ ch => Some (i, ch) | _ => None end.
(** The channel a wait made. *)
Definition own p : option nat := match p with FW49 _ _ _ ch | FW53 _ _ _ ch _ => Some ch | _ => None end.

(** What a step does to the channels. *)
Inductive chg s th th' (ch : nat) (d' : chan V) : Prop :=
| c_same : fchans s !! ch = Some d' -> chg s th th' ch d'
| c_new i tm cn : fpos th = FW44 i tm cn -> ch = length (fchans s) -> d' = Chan None false i -> fpos th' = FW49 i tm cn ch -> chg s th th' ch d'
| c_recv i tm cn d v : fpos th = FW49 i tm cn ch -> fchans s !! ch = Some d -> cbuf d = Some v -> d' = put_buf None d ->
    fpos th' = FW33 i tm cn (FGot v) -> chg s th th' ch d'
| c_wclose i tm cn r d : fpos th = FW53 i tm cn ch r -> fchans s !! ch = Some d -> d' = close_ch d -> fpos th' = FW33 i tm cn r -> chg s th th' ch d'
| c_send i v d : fpos th = FC102 i v ch -> fchans s !! ch = Some d -> cclosed d = false -> cbuf d = None -> d' = put_buf v d ->
    fpos th' = FC100 i v ch -> chg s th th' ch d'
| c_close i v d : fpos th = FC100 i v ch -> fchans s !! ch = Some d -> cclosed d = false -> d' = close_ch d -> fpos th' = FIdle ->
    flog th' = (FClose i v, match v with Some _ => FSent | None => FClosed end) :: flog th -> chg s th th' ch d'.
Lemma chg_step s th x s' th' : fthread_step isdel s th x = Some (s', th') -> forall ch d', fchans s' !! ch = Some d' -> chg s th th' ch d'.
Proof.
  intros H ch d' Hd. destruct th as [td p lg]. destruct p; fcases H; cbn [fset_ch fchans] in Hd; try (apply c_same; exact Hd);
    try (apply list_lookup_insert_Some in Hd as [(<- & <- & _)|[_ Hd]]; [|apply c_same; exact Hd]).
  - apply lookup_app_Some in Hd as [Hd|[Hl Hd]]; [apply c_same; exact Hd|]. apply list_lookup_singleton_Some in Hd as [H0 <-].
    eapply c_new; try reflexivity. lia. cbn [fpos]. f_equal. lia.
  - eapply c_recv; try reflexivity; eauto.
  - eapply c_wclose; try reflexivity; eauto.
  - eapply c_send; try reflexivity; eauto.
  - eapply c_close; try reflexivity; eauto.
  - eapply c_close; try reflexivity; eauto.
Qed.
Lemma chans_keep s th x s' th' : fthread_step isdel s th x = Some (s', th') -> forall ch d, fchans s !! ch = Some d ->
  exists d', fchans s' !! ch = Some d' /\ cidx d' = cidx d.
Proof.
  intros H ch d Hd.
  assert (Hset : forall k e d0, fchans s !! k = Some d0 -> cidx e = cidx d0 -> exists d', (<[k := e]> (fchans s) : list _) !! ch = Some d' /\ cidx d' = cidx d).
  { intros k e d0 Hk He. destruct (decide (k = ch)) as [->|Hne].
    - exists e. rewrite list_lookup_insert by (eapply lookup_lt_Some; eauto). split; [auto|congruence].
    - exists d. rewrite list_lookup_insert_ne by auto. auto. }
  destruct th as [td p lg]. destruct p; fcases H; cbn [fset_ch fchans]; eauto; try (eapply Hset; eauto; fail).
  exists d. rewrite lookup_app_l by (eapply lookup_lt_Some; eauto). auto.
Qed.
Lemma fdb_step s th x s' th' : fthread_step isdel s th x = Some (s', th') -> forall j ch, fdb s' !! j = Some ch ->
  fdb s !! j = Some ch \/ exists tm cn, fpos th = FW44 j tm cn /\ ch = length (fchans s) /\ fchans s' !! ch = Some (Chan None false j).
Proof.
  intros H j ch Hj. destruct th as [td p lg]. destruct p; fcases H; auto; try (apply lookup_delete_Some in Hj; left; tauto).
  apply lookup_insert_Some in Hj. destruct Hj as [[-> <-]|[_ Hj]]; [|auto]. right. exists tmo, can. repeat split.
  rewrite lookup_app_r by lia. rewrite Nat.sub_diag. auto.
Qed.
Lemma frefs_step s th x s' th' : fthread_step isdel s th x = Some (s', th') -> forall j ch, frefs (fpos th') = Some (j, ch) ->
  frefs (fpos th) = Some (j, ch) \/ fdb s !! j = Some ch \/ fchans s' !! ch = Some (Chan None false j).
Proof.
  intros H j ch Hj. destruct th as [td p lg]. destruct p; fcases H; auto.
  right; right. rewrite lookup_app_r by lia. rewrite Nat.sub_diag. auto.
Qed.
Lemma own_step s th x s' th' ch : fthread_step isdel s th x = Some (s', th') -> own (fpos th') = Some ch ->
  own (fpos th) = Some ch \/ ch = length (fchans s).
Proof. intros H Hj. destruct th as [td p lg]. destruct p; fcases H; auto. Qed.
Lemma own_refs p ch : own p = Some ch -> exists i, frefs p = Some (i, ch).
Proof. destruct p; cbn; try discriminate; intros [= <-]; eauto. Qed.

(** A Close(i) has closed a channel. *)
Definition shut i c : Prop := exists t th, fths c !! t = Some th /\ (FClose i None, FClosed) ∈ flog th.
Definition sent i v c : Prop := exists t th, fths c !! t = Some th /\ fputting i v th.
Definition rgood i c (r : fres V) : Prop :=
  match r with FGot v => sent i v c | FZero => shut i c | FTimeout | FCancel => True | _ => False end.

Record finv c : Prop := {
  fi_db : forall i ch, fdb (fsh c) !! i = Some ch -> exists d, fchans (fsh c) !! ch = Some d /\ cidx d = i;
  fi_refs : forall t th i ch, fths c !! t = Some th -> frefs (fpos th) = Some (i, ch) -> exists d, fchans (fsh c) !! ch = Some d /\ cidx d = i;
  fi_own : forall t1 t2 th1 th2 ch, fths c !! t1 = Some th1 -> fths c !! t2 = Some th2 -> own (fpos th1) = Some ch -> own (fpos th2) = Some ch -> t1 = t2;
  fi_full : forall ch d v, fchans (fsh c) !! ch = Some d -> cbuf d = Some v -> cclosed d = false ->
    exists t th, fths c !! t = Some th /\ fpos th = FC100 (cidx d) (Some v) ch;
  fi_val : forall ch d v, fchans (fsh c) !! ch = Some d -> cbuf d = Some v -> sent (cidx d) v c;
  fi_102 : forall t th i ch, fths c !! t = Some th -> fpos th <> FC102 i None ch;
  fi_100 : forall t t' th th' i v tm cn ch d, fths c !! t = Some th -> fths c !! t' = Some th' -> fpos th = FW49 i tm cn ch ->
    fpos th' = FC100 i (Some v) ch -> fchans (fsh c) !! ch = Some d -> cclosed d = false -> cbuf d <> None;
  fi_zero : forall t th i tm cn ch d, fths c !! t = Some th -> fpos th = FW49 i tm cn ch -> fchans (fsh c) !! ch = Some d ->
    cclosed d = true -> cbuf d = None -> shut i c;
  fi_53 : forall t th i tm cn ch r, fths c !! t = Some th -> fpos th = FW53 i tm cn ch r -> r = FTimeout \/ r = FCancel;
  fi_33 : forall t th i tm cn r, fths c !! t = Some th -> fpos th = FW33 i tm cn r \/ fpos th = FW34 i tm cn r -> rgood i c r;
  fi_log : forall t th i tm cn r, fths c !! t = Some th -> (FWait i tm cn, r) ∈ flog th -> rgood i c r }.

Lemma putting_mono s th x s' th' i v : fthread_step isdel s th x = Some (s', th') -> fputting i v th -> fputting i v th'.
Proof.
  intros H HP. destruct th as [td p lg]. unfold fputting in *. cbn [fpos flog] in *.
  destruct p; fcases H;
  (destruct HP as [[r0 HP]|[ch0 HP]]; simplify_eq; [left; exists r0; first [exact HP|right; exact HP]|..]);
  eauto; left; eexists; left.
Qed.
Lemma flog_step s th x s' th' : fthread_step isdel s th x = Some (s', th') -> exists l, flog th' = l ++ flog th.
Proof. intros H. destruct th as [td p lg]. destruct p; fcases H; cbn [flog]; first [exists []; reflexivity|eexists [_]; reflexivity]. Qed.

Lemma finv_step c t th x s' th' : finv c -> fths c !! t = Some th -> fthread_step isdel (fsh c) th x = Some (s', th') ->
  finv (FConf s' (<[t := th']> (fths c))).
Proof.
  intros HI Et H. pose proof HI as [H1 H2 H3 H4 H5 H6 H7 H8 H9 H10 H11].
  assert (Hlt : (t < length (fths c))%nat) by (eapply lookup_lt_Some; eauto).
  set (c' := FConf s' (<[t := th']> (fths c))).
  pose proof (chg_step _ _ _ _ _ H) as Hchg. pose proof (chans_keep _ _ _ _ _ H) as Hkeep. pose proof (frefs_step _ _ _ _ _ H) as Hrf.
  assert (Hme : fths c' !! t = Some th') by (unfold c'; cbn [fths]; rewrite list_lookup_insert; auto).
  assert (Hother : forall t0 th0, t0 <> t -> fths c !! t0 = Some th0 -> fths c' !! t0 = Some th0)
    by (intros; unfold c'; cbn [fths]; rewrite list_lookup_insert_ne; auto).
  assert (Hcase : forall t0 th0, fths c' !! t0 = Some th0 -> (t0 = t /\ th0 = th') \/ (t0 <> t /\ fths c !! t0 = Some th0)).
  { intros t0 th0 H0. unfold c' in H0. cbn [fths] in H0. destruct (decide (t = t0)) as [<-|Hne].
    - rewrite list_lookup_insert in H0 by auto. injection H0 as <-. auto.
    - rewrite list_lookup_insert_ne in H0 by auto. auto. }
  assert (Msent : forall i v, sent i v c -> sent i v c').
  { intros i v (t0 & th0 & E0 & HP). destruct (decide (t = t0)) as [<-|Hne]; [|exists t0, th0; auto].
    exists t, th'. split; [auto|]. eapply putting_mono; eauto. congruence. }
  assert (Mshut : forall i, shut i c -> shut i c').
  { intros i (t0 & th0 & E0 & HP). destruct (decide (t = t0)) as [<-|Hne]; [|exists t0, th0; auto].
    exists t, th'. split; [auto|]. destruct (flog_step _ _ _ _ _ H) as [l ->]. apply elem_of_app. right. congruence. }
  assert (Mgood : forall i r, rgood i c r -> rgood i c' r) by (intros i r; destruct r; cbn; auto).
  assert (Hidx : forall i ch d, frefs (fpos th) = Some (i, ch) -> fchans (fsh c) !! ch = Some d -> cidx d = i).
  { intros i ch d Hr Hd. destruct (H2 _ _ _ _ Et Hr) as (d0 & E1 & E2). congruence. }
  constructor; change (fsh c') with s'.
  - intros i ch Hi. destruct (fdb_step _ _ _ _ _ H _ _ Hi) as [Hold|(tm & cn & _ & _ & Hnew)]; [|eauto].
    destruct (H1 _ _ Hold) as (d & E1 & E2). destruct (Hkeep _ _ E1) as (d' & F1 & F2). exists d'. split; [auto|congruence].
  - intros t0 th0 i ch E0 Hr. assert (Hold : (exists d, fchans (fsh c) !! ch = Some d /\ cidx d = i) -> exists d, fchans s' !! ch = Some d /\ cidx d = i).
    { intros (d & E1 & E2). destruct (Hkeep _ _ E1) as (d' & F1 & F2). exists d'. split; [auto|congruence]. }
    destruct (Hcase _ _ E0) as [[-> ->]|[_ E1]]; [|eauto]. destruct (Hrf _ _ Hr) as [Hr0|[Hr0|Hr0]]; eauto.
  - intros t1 t2 th1 th2 ch E1 E2 O1 O2.
    assert (Hfr : forall t0 th0 ch0, t0 <> t -> fths c !! t0 = Some th0 -> own (fpos th0) = Some ch0 -> own (fpos th') = Some ch0 -> False).
    { intros t0 th0 ch0 N0 F0 O0 O'. destruct (own_step _ _ _ _ _ _ H O') as [Ho|Ho].
      - apply N0. eapply H3; eauto.
      - destruct (own_refs _ _ O0) as [i Hr]. destruct (H2 _ _ _ _ F0 Hr) as (d & F1 & _). apply lookup_lt_Some in F1. lia. }
    destruct (Hcase _ _ E1) as [[-> ->]|[N1 F1]], (Hcase _ _ E2) as [[-> ->]|[N2 F2]]; auto; [exfalso; eauto..|eauto].
  - intros ch d v Hd Hb Hc.
    assert (Hold : fchans (fsh c) !! ch = Some d -> exists t0 th0, fths c' !! t0 = Some th0 /\ fpos th0 = FC100 (cidx d) (Some v) ch).
    { intros Hd0. destruct (H4 _ _ _ Hd0 Hb Hc) as (t0 & th0 & E0 & Hp). destruct (decide (t0 = t)) as [->|Hne]; [|exists t0, th0; auto].
      exfalso. assert (th0 = th) as -> by congruence. destruct th as [td p lg]. cbn [fpos] in Hp. subst p.
      unfold fthread_step in H. cbn [fpos] in H. rewrite Hd0, Hc in H. injection H as <- <-. cbn [fset_ch fchans] in Hd.
      rewrite list_lookup_insert in Hd by (eapply lookup_lt_Some; eauto). injection Hd as Hd. rewrite <- Hd in Hc. discriminate. }
    destruct (Hchg _ _ Hd) as [Hs|i tm cn _ _ -> _|i tm cn d0 v0 _ _ _ -> _|i tm cn r d0 _ _ -> _|i v0 d0 Hp E0 Hc0 Hb0 -> Hp'|i v0 d0 _ _ _ -> _ _];
      try discriminate; [auto|]. cbn [put_buf cbuf cidx] in *. subst v0. exists t, th'. split; [auto|].
    assert (frefs (fpos th) = Some (i, ch)) as Hr by (rewrite Hp; auto). rewrite (Hidx _ _ _ Hr E0). auto.
  - intros ch d v Hd Hb.
    destruct (Hchg _ _ Hd) as [Hs|i tm cn _ _ -> _|i tm cn d0 v0 _ _ _ -> _|i tm cn r d0 Hp E0 -> _|i v0 d0 Hp E0 Hc0 Hb0 -> Hp'|i v0 d0 Hp E0 _ -> _ _];
      try discriminate; eauto; cbn [put_buf close_ch cbuf cidx] in *; eauto.
    subst v0. exists t, th'. split; [auto|]. right. exists ch.
    assert (frefs (fpos th) = Some (i, ch)) as Hr by (rewrite Hp; auto). rewrite (Hidx _ _ _ Hr E0). auto.
  - intros t0 th0 i ch E0 Hp. destruct (Hcase _ _ E0) as [[-> ->]|[_ E1]]; [|eapply H6; eauto].
    destruct th as [td p lg]. destruct p; fcases H.
  - intros ta tb tha thb i v tm cn ch d Ea Eb Pa Pb Hd Hc Hb.
    destruct (Hcase _ _ Ea) as [[-> ->]|[Na Fa]].
    + destruct (Hcase _ _ Eb) as [[-> ->]|[Nb Fb]]; [congruence|].
      destruct th as [td p lg]. destruct p; fcases H.
      destruct (H2 tb thb i _ Fb ltac:(rewrite Pb; reflexivity)) as (d0 & F0 & _). apply lookup_lt_Some in F0. lia.
    + assert (Hown : own (fpos th) <> Some ch) by (intros Ho; apply Na; eapply H3; eauto; rewrite Pa; auto).
      destruct (Hchg _ _ Hd) as [Hs|i0 tm0 cn0 _ -> -> Hp'|i0 tm0 cn0 d0 v0 Hp _ _ -> _|i0 tm0 cn0 r d0 Hp E0 -> _|i0 v0 d0 Hp E0 Hc0 Hb0 -> Hp'|i0 v0 d0 Hp E0 _ -> _ _];
        try discriminate Hc.
      * destruct (Hcase _ _ Eb) as [[-> ->]|[Nb Fb]]; [|eapply (H7 ta tb); eauto].
        destruct th as [td p lg]. destruct p; fcases H.
        rewrite list_lookup_insert in Hd by (eapply lookup_lt_Some; eauto). injection Hd as Hd. apply (f_equal cbuf) in Hd. cbn in Hd. congruence.
      * destruct (H2 ta tha i _ Fa ltac:(rewrite Pa; reflexivity)) as (d0 & F0 & _). apply lookup_lt_Some in F0. lia.
      * apply Hown. rewrite Hp. auto.
      * cbn [put_buf cbuf] in Hb. subst v0. exact (H6 _ _ _ _ Et Hp).
  - intros t0 th0 i tm cn ch d E0 Hp Hd Hc Hb. destruct (Hcase _ _ E0) as [[-> ->]|[N0 F0]].
    + destruct th as [td p lg]. destruct p; fcases H. rewrite lookup_app_r in Hd by lia. rewrite Nat.sub_diag in Hd. injection Hd as <-. discriminate.
    + assert (Hown : own (fpos th) <> Some ch) by (intros Ho; apply N0; eapply H3; eauto; rewrite Hp; auto).
      destruct (Hchg _ _ Hd) as [Hs|i0 tm0 cn0 _ _ -> _|i0 tm0 cn0 d0 v0 Hq _ _ -> _|i0 tm0 cn0 r d0 Hq E1 -> _|i0 v0 d0 Hq E1 Hc0 Hb0 -> Hp'|i0 v0 d0 Hq E1 Hc0 -> _ Hl];
        try discriminate Hc.
      * apply Mshut. eauto.
      * exfalso. apply Hown. rewrite Hq. auto.
      * exfalso. apply Hown. rewrite Hq. auto.
      * cbn [put_buf cclosed] in Hc. congruence.
      * cbn [close_ch cbuf] in Hb.
        assert (frefs (fpos th) = Some (i0, ch)) as Hr by (rewrite Hq; auto). pose proof (Hidx _ _ _ Hr E1) as Hi0.
        destruct (H2 t0 th0 i ch F0 ltac:(rewrite Hp; reflexivity)) as (d1 & G1 & G2). assert (i0 = i) as -> by congruence.
        destruct v0 as [v0|].
        -- exfalso. exact (H7 _ _ _ _ _ _ _ _ _ _ F0 Et Hp Hq E1 Hc0 Hb).
        -- exists t, th'. split; [auto|]. rewrite Hl. left.
  - intros t0 th0 i tm cn ch r E0 Hp. destruct (Hcase _ _ E0) as [[-> ->]|[N0 F0]]; [|eauto].
    destruct th as [td p lg]. destruct p; fcases H; auto.
  - intros t0 th0 i tm cn r E0 Hp. destruct (Hcase _ _ E0) as [[-> ->]|[N0 F0]]; [|apply Mgood; eauto].
    apply Mgood. destruct th as [td p lg]. destruct p; fcases H; destruct Hp as [Hp|Hp]; simplify_eq.
    + cbn. rewrite <- (Hidx i ch c0 eq_refl) by auto. eauto.
    + cbn. eauto.
    + destruct (H9 _ _ _ _ _ _ _ Et eq_refl) as [-> | ->]; exact I.
    + eauto.
  - intros t0 th0 i tm cn r E0 Hp. destruct (Hcase _ _ E0) as [[-> ->]|[N0 F0]]; [|apply Mgood; eauto].
    apply Mgood. destruct th as [td p lg]. cbn [flog] in *. destruct p; fcases H; first [solve [eapply (H11 _ _ _ _ _ _ Et); exact Hp]|idtac];
      apply elem_of_cons in Hp; destruct Hp as [Hp|Hp]; simplify_eq; first [solve [eapply (H11 _ _ _ _ _ _ Et); exact Hp]|eauto].
Qed.
Lemma finv_init progs : finv (fast_init progs).
Proof.
  assert (Ht : forall t th, fths (fast_init progs) !! t = Some th -> fpos th = FIdle /\ flog th = []).
  { intros t th Ht. cbn [fast_init fths] in Ht. rewrite list_lookup_fmap in Ht. destruct (progs !! t); [|discriminate]. injection Ht as <-. auto. }
  assert (Hp : forall t th p, fths (fast_init progs) !! t = Some th -> fpos th = p -> p = FIdle) by (intros t th p E <-; eapply Ht; eauto).
  constructor; cbn [fsh fast_init fdb fchans].
  - intros i ch Hi. rewrite lookup_empty in Hi. discriminate.
  - intros t th i ch E Hr. rewrite (proj1 (Ht _ _ E)) in Hr. discriminate.
  - intros t1 t2 th1 th2 ch E _ Hr. rewrite (proj1 (Ht _ _ E)) in Hr. discriminate.
  - intros ch d v Hd. discriminate.
  - intros ch d v Hd. discriminate.
  - intros t th i ch E Hr. discriminate (Hp _ _ _ E Hr).
  - intros t t' th th' i v tm cn ch d E _ Hr. discriminate (Hp _ _ _ E Hr).
  - intros t th i tm cn ch d E Hr. discriminate (Hp _ _ _ E Hr).
  - intros t th i tm cn ch r E Hr. discriminate (Hp _ _ _ E Hr).
  - intros t th i tm cn r E [Hr|Hr]; discriminate (Hp _ _ _ E Hr).
  - intros t th i tm cn r E Hr. rewrite (proj2 (Ht _ _ E)) in Hr. inversion Hr.
Qed.
Lemma finv_cstep c a : finv c -> finv (fconf_step isdel c a).
Proof.
  intros HI. unfold fconf_step. destruct a as [t x]. cbn [fst snd].
  destruct (fths c !! t) as [th|] eqn:Et; [|auto].
  destruct (fthread_step isdel (fsh c) th x) as [[s' th']|] eqn:Es; [|auto]. eapply finv_step; eauto.
Qed.
Lemma finv_run progs sched : finv (fast_run isdel (fast_init progs) sched).
Proof.
  unfold fast_run. induction sched as [|a l IH] using rev_ind; [apply finv_init|]. rewrite foldl_app. cbn [foldl]. apply finv_cstep. auto.
Qed.

(** *** Nobody blocks but a wait. *)
Lemma f_unblock c t th i v ch : finv c -> fths c !! t = Some th -> fpos th = FC102 i v ch -> ~ fcan_step isdel c t ->
  exists t', t' <> t /\ fcan_step isdel c t' /\ forall x, fcan_step isdel (fconf_step isdel c (t', x)) t.
Proof.
  intros HI Et Hp Hs. destruct (fi_refs _ HI t th i ch Et) as (d & Ed & Hi); [rewrite Hp; auto|].
  assert (Hc : cclosed d = false).
  { destruct (cclosed d) eqn:Ec; [|auto]. exfalso. apply Hs. exists th, ChChan. split; [auto|]. unfold fthread_step. rewrite Hp, Ed, Ec. discriminate. }
  destruct (cbuf d) as [v0|] eqn:Hb; [|exfalso; apply Hs; exists th, ChChan; split; [auto|]; unfold fthread_step; rewrite Hp, Ed, Hc, Hb; discriminate].
  destruct (fi_full _ HI _ _ _ Ed Hb Hc) as (t' & th' & E' & Hp'). exists t'.
  assert (Hne : t' <> t) by (intros ->; congruence). split; [auto|]. split.
  - exists th', ChChan. split; [auto|]. unfold fthread_step. rewrite Hp', Ed, Hc. discriminate.
  - intros x. unfold fconf_step. cbn [fst snd]. rewrite E'. unfold fthread_step. rewrite Hp', Ed, Hc.
    exists th, ChChan. cbn [fths fsh]. rewrite list_lookup_insert_ne by auto. split; [auto|]. unfold fthread_step. rewrite Hp. cbn [fset_ch fchans].
    rewrite list_lookup_insert by (eapply lookup_lt_Some; eauto). cbn [close_ch cclosed]. discriminate.
Qed.
Lemma f_stuck c t th : finv c -> fths c !! t = Some th -> ~ fcan_step isdel c t ->
  (fpos th = FIdle /\ ftodo th = []) \/
  (exists i cn ch d, fpos th = FW49 i false cn ch /\ fchans (fsh c) !! ch = Some d /\ cbuf d = None /\ cclosed d = false) \/
  (exists i v ch, fpos th = FC102 i v ch).
Proof.
  intros HI Et Hs.
  assert (HN : forall x, fthread_step isdel (fsh c) th x = None).
  { intros x. destruct (fthread_step isdel (fsh c) th x) eqn:E; [|auto]. exfalso. apply Hs. exists th, x. split; [auto|congruence]. }
  pose proof (HN ChChan) as H. pose proof (HN ChTimer) as HT. pose proof (fun i ch => fi_refs _ HI t th i ch Et) as Href.
  destruct th as [td p lg]. unfold fthread_step in H, HT.
  destruct p; cbn [fpos ftodo flog frefs] in *; try discriminate; eauto 8.
  - destruct td as [|[] td]; [auto|discriminate..].
  - destruct tmo; [discriminate|]. right. left. destruct (Href _ _ eq_refl) as (d & E1 & E2). rewrite E1 in H.
    destruct (cbuf d) eqn:Eb; [discriminate|]. destruct (cclosed d) eqn:Ec; [discriminate|]. exists id, can, ch, d. auto.
  - destruct (Href _ _ eq_refl) as (d & E1 & E2). rewrite E1 in H. discriminate.
  - destruct (Href _ _ eq_refl) as (d & E1 & E2). rewrite E1 in H. destruct (cclosed d); discriminate.
  - destruct loop; [discriminate|]. destruct (isdel _ _); discriminate.
Qed.

(** *** A closer takes a bounded number of steps. *)
Definition fuel p : nat :=
  match p with FC99 _ _ l => 2 * l + 5 | FC103 _ _ l => 2 * l + 4 | FC101 _ _ _ => 3 | FC102 _ _ _ => 2 | FC100 _ _ _ => 1 | _ => 0 end.
Lemma fuel_step s th x s' th' i v : fthread_step isdel s th x = Some (s', th') -> in_close i v (fpos th) ->
  (in_close i v (fpos th') /\ flog th' = flog th /\ (fuel (fpos th') < fuel (fpos th))%nat) \/
  (exists r, fpos th' = FIdle /\ flog th' = (FClose i v, r) :: flog th).
Proof.
  intros H Hc. destruct th as [td p lg]. destruct p; cbn [fpos in_close] in Hc; try contradiction; destruct Hc as [-> ->];
    fcases H; cbn [fpos flog in_close fuel]; try (left; split; [auto|split; [auto|lia]]; fail); right; eexists; split; reflexivity.
Qed.
Lemma flog_run sched : forall c t th, fths c !! t = Some th -> exists th' l, fths (fast_run isdel c sched) !! t = Some th' /\ flog th' = l ++ flog th.
Proof.
  unfold fast_run. induction sched as [|[t0 x] l IH]; intros c t th Et; cbn [foldl]; [exists th, []; auto|].
  assert (exists th1 l1, fths (fconf_step isdel c (t0, x)) !! t = Some th1 /\ flog th1 = l1 ++ flog th) as (th1 & l1 & E1 & F1).
  { unfold fconf_step. cbn [fst snd]. destruct (fths c !! t0) as [th0|] eqn:E0; [|exists th, []; auto].
    destruct (fthread_step isdel (fsh c) th0 x) as [[s' th']|] eqn:Es; [|exists th, []; auto]. cbn [fths].
    destruct (decide (t0 = t)) as [->|Hne].
    - rewrite list_lookup_insert by (eapply lookup_lt_Some; eauto). destruct (flog_step _ _ _ _ _ Es) as [l1 F]. exists th', l1. split; [auto|]. congruence.
    - rewrite list_lookup_insert_ne by auto. exists th, []. auto. }
  destruct (IH _ _ _ E1) as (th2 & l2 & E2 & F2). exists th2, (l2 ++ l1). split; [auto|]. rewrite F2, F1, app_assoc. auto.
Qed.
Lemma closer_returns sched : forall c t th i v m, fths c !! t = Some th -> in_close i v (fpos th) -> (fuel (fpos th) <= m)%nat ->
  (m <= moves isdel t c sched)%nat ->
  exists th' l r, fths (fast_run isdel c sched) !! t = Some th' /\ flog th' = l ++ (FClose i v, r) :: flog th.
Proof.
  induction sched as [|[t0 x] l IH]; intros c t th i v m Et Hc Hf Hm.
  - exfalso. cbn in Hm. destruct (fpos th); cbn [in_close fuel] in *; try contradiction; lia.
  - cbn [moves fst snd] in Hm. rewrite Et in Hm. change (fast_run isdel c ((t0, x) :: l)) with (fast_run isdel (fconf_step isdel c (t0, x)) l).
    destruct (Nat.eqb_spec t0 t) as [->|Hne].
    + destruct (fthread_step isdel (fsh c) th x) as [[s' th']|] eqn:Es.
      * assert (Hstep : fconf_step isdel c (t, x) = FConf s' (<[t := th']> (fths c))) by (unfold fconf_step; cbn [fst snd]; rewrite Et, Es; auto).
        rewrite Hstep in *. assert (E' : fths (FConf s' (<[t := th']> (fths c))) !! t = Some th').
        { cbn [fths]. rewrite list_lookup_insert; [auto|]. eapply lookup_lt_Some; eauto. }
        destruct (fuel_step _ _ _ _ _ _ _ Es Hc) as [(H1 & H2 & H3)|(r & H1 & H2)].
        -- rewrite <- H2. eapply (IH _ _ _ _ _ (m - 1)%nat); eauto; lia.
        -- destruct (flog_run l _ _ _ E') as (th2 & l2 & E2 & F2). exists th2, l2, r. split; [auto|]. rewrite F2, H2. auto.
      * assert (Hstep : fconf_step isdel c (t, x) = c) by (unfold fconf_step; cbn [fst snd]; rewrite Et, Es; auto).
        rewrite Hstep in *. eapply IH; eauto.
    + eapply IH; eauto. unfold fconf_step. cbn [fst snd]. destruct (fths c !! t0) as [th0|]; [|auto].
      destruct (fthread_step isdel (fsh c) th0 x) as [[s' th']|]; [|auto]. cbn [fths]. rewrite list_lookup_insert_ne by auto. auto.
Qed.

(** *** Every put is received at most once. *)
Section count.
Context (i : Z).
Definition fgot_th th : Z := Z.of_nat (length (List.filter (fgot_entry i) (flog th))) +
  match fpos th with FW33 j _ _ (FGot _) | FW34 j _ _ (FGot _) => if j =? i then 1 else 0 | _ => 0 end.
Definition fsent_th th : Z := Z.of_nat (length (List.filter (fput_entry i) (flog th))) +
  match fpos th with FC100 j (Some _) _ => if j =? i then 1 else 0 | _ => 0 end.
Definition fbuf_ch (d : chan V) : Z := match cbuf d with Some _ => if cidx d =? i then 1 else 0 | None => 0 end.
Definition fkinv c : Prop := sumZ fgot_th (fths c) + sumZ fbuf_ch (fchans (fsh c)) <= sumZ fsent_th (fths c).
Lemma fkinv_thread c t th x s' th' : finv c -> fths c !! t = Some th -> fthread_step isdel (fsh c) th x = Some (s', th') ->
  fgot_th th' - fgot_th th + (sumZ fbuf_ch (fchans s') - sumZ fbuf_ch (fchans (fsh c))) <= fsent_th th' - fsent_th th.
Proof.
  intros HC Et H. pose proof (fun j ch => fi_refs _ HC t th j ch Et) as Href.
  pose proof (fun j tm cn ch r => fi_53 _ HC t th j tm cn ch r Et) as Htm.
  destruct th as [td p lg]. cbn [fpos] in *. unfold fgot_th, fsent_th.
  destruct p; fcases H; cbn [flog fpos fgot_entry fput_entry]; try lia;
    repeat match goal with |- context [if ?b then _ else _] => destruct b eqn:? end; cbn [length] in *; try lia.
  all: try (rewrite sumZ_app, sumZ_cons; unfold fbuf_ch at 2; cbn [cbuf sumZ foldr]; lia).
  all: try match goal with E : fchans _ !! ?k = Some ?d |- _ => rewrite (sumZ_insert _ _ _ _ _ E);
    destruct (Href _ _ eq_refl) as (d1 & F1 & F2); assert (d1 = d) as -> by congruence; unfold fbuf_ch at 2 3 end.
  all: cbn [put_buf close_ch cbuf cidx];
    repeat match goal with E : cbuf _ = _ |- _ => rewrite E end;
    repeat match goal with r : fres V |- _ => destruct r end; try discriminate;
    try (destruct (Htm _ _ _ _ _ eq_refl); discriminate);
    repeat match goal with |- context [match ?b with _ => _ end] => destruct b eqn:? end; try lia.
Qed.
Lemma fkinv_step c a : finv c -> fkinv c -> fkinv (fconf_step isdel c a).
Proof.
  intros HC HK. unfold fconf_step. destruct a as [t x]. cbn [fst snd].
  destruct (fths c !! t) as [th|] eqn:Et; [|auto].
  destruct (fthread_step isdel (fsh c) th x) as [[s' th']|] eqn:Es; [|auto].
  pose proof (fkinv_thread c t th x s' th' HC Et Es).
  unfold fkinv in *. cbn [fths fsh]. rewrite !(sumZ_insert _ _ _ _ _ Et). lia.
Qed.
Lemma fgot_at_most (progs : list (list (fcall V))) sched : let c := fast_run isdel (fast_init progs) sched in
  fcount_log (fgot_entry i) c <= fcount_log (fput_entry i) c + fputs_in_flight i c.
Proof.
  intros c. assert (HK : fkinv c).
  { unfold c, fast_run. clear c. induction sched as [|a l IH] using rev_ind.
    - unfold fkinv. cbn [foldl fast_init fths fsh fchans]. rewrite !sumZ_fmap.
      rewrite (sumZ_zero _ progs), (sumZ_zero (fun q => fsent_th (FTh q FIdle [])) progs) by reflexivity. cbn. lia.
    - rewrite foldl_app. cbn [foldl]. apply fkinv_step; [apply (finv_run progs l)|auto]. }
  unfold fkinv, fcount_log, fputs_in_flight in *.
  assert (0 <= sumZ fbuf_ch (fchans (fsh c))).
  { apply sumZ_nonneg. intros d _. unfold fbuf_ch. destruct (cbuf d); [|lia]. destruct (_ =? _); lia. }
  assert (H1 : sumZ (fun th => Z.of_nat (length (List.filter (fgot_entry i) (flog th)))) (fths c) <= sumZ fgot_th (fths c)).
  { apply sumZ_le. intros th _. unfold fgot_th. destruct (fpos th); try lia; destruct r; try lia; destruct (_ =? _); lia. }
  set (f := fun th : fthread V => Z.of_nat (length (List.filter (fput_entry i) (flog th)))).
  set (g := fun th : fthread V => match fpos th with FC99 j (Some _) _ | FC101 j (Some _) _ | FC102 j (Some _) _ | FC100 j (Some _) _ | FC103 j (Some _) _ =>
                    if j =? i then 1 else 0 | _ => 0 end).
  assert (H2 : sumZ fsent_th (fths c) <= sumZ (fun th => f th + g th) (fths c)).
  { apply sumZ_le. intros th _. unfold fsent_th, f, g. destruct (fpos th); try lia; destruct v; try lia; destruct (_ =? _); lia. }
  assert (H3 : forall l, sumZ (fun th => f th + g th) l = sumZ f l + sumZ g l).
  { induction l as [|y l IH]; [reflexivity|]. rewrite !sumZ_cons. lia. }
  rewrite H3 in H2. lia.
Qed.
End count.

(** *** Who holds a registered channel. *)
Definition leaving (i : Z) p : Prop := exists tm cn r, p = FW33 i tm cn r \/ p = FW34 i tm cn r.
Record freg c : Prop := {
  fr_hold : forall i ch, fdb (fsh c) !! i = Some ch -> exists t th, fths c !! t = Some th /\ (own (fpos th) = Some ch \/ leaving i (fpos th));
  fr_empty : forall i ch d, fdb (fsh c) !! i = Some ch -> fchans (fsh c) !! ch = Some d -> cbuf d = None;
  fr_closed : forall i ch d, fdb (fsh c) !! i = Some ch -> fchans (fsh c) !! ch = Some d -> cclosed d = true ->
    exists t th, fths c !! t = Some th /\ leaving i (fpos th);
  fr_77 : forall t th i v ch, fths c !! t = Some th -> fpos th = FC102 i v ch \/ fpos th = FC100 i v ch -> fdb (fsh c) !! i <> Some ch }.
Lemma leaving_step s th x s' th' i : fthread_step isdel s th x = Some (s', th') -> leaving i (fpos th) ->
  leaving i (fpos th') \/ fdb s' !! i = None.
Proof.
  intros H (tm & cn & r & Hp). destruct th as [td p lg]. cbn [fpos] in *. destruct Hp as [-> | ->]; fcases H.
  - left. exists tm, cn, r. auto.
  - right. apply lookup_delete.
Qed.
Lemma own_next s th x s' th' i ch : fthread_step isdel s th x = Some (s', th') -> frefs (fpos th) = Some (i, ch) -> own (fpos th) = Some ch ->
  own (fpos th') = Some ch \/ leaving i (fpos th').
Proof.
  intros H Hr Ho. destruct th as [td p lg]. cbn [fpos] in *. destruct p; try discriminate; cbn in Hr; injection Hr as -> ->; fcases H; auto;
    right; unfold leaving; cbn [fpos]; eauto 6.
Qed.
Lemma freg_step c a : finv c -> freg c -> freg (fconf_step isdel c a).
Proof.
  intros HI [R1 R2 R3 R4]. unfold fconf_step. destruct a as [t x]. cbn [fst snd].
  destruct (fths c !! t) as [th|] eqn:Et; [|constructor; auto].
  destruct (fthread_step isdel (fsh c) th x) as [[s' th']|] eqn:Es; [|constructor; auto].
  assert (Hlt : (t < length (fths c))%nat) by (eapply lookup_lt_Some; eauto).
  pose proof (fdb_step _ _ _ _ _ Es) as Ham. pose proof (chg_step _ _ _ _ _ Es) as Hchg.
  assert (Hidx : forall i i0 ch, fdb (fsh c) !! i = Some ch -> frefs (fpos th) = Some (i0, ch) -> i0 = i).
  { intros i i0 ch Hi Hr. destruct (fi_refs _ HI _ _ _ _ Et Hr) as (d1 & F1 & F2). destruct (fi_db _ HI _ _ Hi) as (d2 & F3 & F4). congruence. }
  constructor; cbn [fsh fths].
  - intros i ch Hi. destruct (Ham _ _ Hi) as [Hold|(tm & cn & Hp & -> & _)].
    + destruct (R1 _ _ Hold) as (t0 & th0 & E0 & Hw). destruct (decide (t = t0)) as [<-|Hne].
      * exists t, th'. rewrite list_lookup_insert by auto. split; [auto|]. assert (th0 = th) as -> by congruence.
        destruct Hw as [Hw|Hw].
        -- destruct (own_refs _ _ Hw) as [i0 Hr]. rewrite (Hidx _ _ _ Hold Hr) in Hr. eapply own_next; eauto.
        -- destruct (leaving_step _ _ _ _ _ _ Es Hw) as [|Hno]; [auto|congruence].
      * exists t0, th0. rewrite list_lookup_insert_ne by auto. auto.
    + exists t, th'. rewrite list_lookup_insert by auto. split; [auto|]. left. destruct th as [td p lg]. cbn [fpos] in Hp. subst p. fcases Es. auto.
  - intros i ch d Hi Hd. destruct (Ham _ _ Hi) as [Hold|(tm & cn & Hp & -> & Hnew)]; [|rewrite Hnew in Hd; injection Hd as <-; auto].
    destruct (Hchg _ _ Hd) as [Hs|i0 tm0 cn0 _ _ -> _|i0 tm0 cn0 d0 v0 Hq _ _ -> _|i0 tm0 cn0 r d0 Hq E1 -> _|i0 v0 d0 Hq E1 Hc0 Hb0 -> Hp'|i0 v0 d0 Hq E1 Hc0 -> _ Hl]; eauto.
    + cbn. eauto.
    + exfalso. assert (i0 = i) as -> by (eapply Hidx; eauto; rewrite Hq; auto). eapply (R4 t th); eauto.
    + cbn. eauto.
  - intros i ch d Hi Hd Hc. destruct (Ham _ _ Hi) as [Hold|(tm & cn & Hp & -> & Hnew)]; [|rewrite Hnew in Hd; injection Hd as <-; discriminate].
    assert (Hkeep : forall d0, fchans (fsh c) !! ch = Some d0 -> cclosed d0 = true ->
      exists t0 th0, (<[t := th']> (fths c) : list _) !! t0 = Some th0 /\ leaving i (fpos th0)).
    { intros d0 Hd0 Hc0. destruct (R3 _ _ _ Hold Hd0 Hc0) as (t0 & th0 & E0 & Hw). destruct (decide (t = t0)) as [<-|Hne].
      - exists t, th'. rewrite list_lookup_insert by auto. split; [auto|]. assert (th0 = th) as -> by congruence.
        destruct (leaving_step _ _ _ _ _ _ Es Hw) as [|Hno]; [auto|congruence].
      - exists t0, th0. rewrite list_lookup_insert_ne by auto. auto. }
    destruct (Hchg _ _ Hd) as [Hs|i0 tm0 cn0 _ _ -> _|i0 tm0 cn0 d0 v0 Hq E1 _ -> _|i0 tm0 cn0 r d0 Hq E1 -> Hp'|i0 v0 d0 Hq E1 Hc0 Hb0 -> Hp'|i0 v0 d0 Hq E1 Hc0 -> _ Hl]; eauto.
    + discriminate.
    + assert (i0 = i) as -> by (eapply Hidx; eauto; rewrite Hq; auto). exists t, th'. rewrite list_lookup_insert by auto. split; [auto|]. rewrite Hp'. unfold leaving. eauto.
    + exfalso. assert (i0 = i) as -> by (eapply Hidx; eauto; rewrite Hq; auto). eapply (R4 t th); eauto.
  - intros t0 th0 i v ch E0 Hp Hi.
    assert (Hold : fdb (fsh c) !! i = Some ch -> False).
    { intros Hold. destruct (decide (t = t0)) as [<-|Hne].
      - rewrite list_lookup_insert in E0 by auto. injection E0 as <-.
        destruct th as [td p lg]. destruct p; fcases Es; cbn [fpos fdb] in *; destruct Hp; simplify_eq/=;
          try (rewrite lookup_delete in Hi; discriminate); try (eapply R4; eauto; fail).
      - rewrite list_lookup_insert_ne in E0 by auto. eapply R4; eauto. }
    destruct (Ham _ _ Hi) as [Hi0|(tm & cn & Hpc & -> & Hnew)]; [auto|].
    destruct (decide (t = t0)) as [<-|Hne].
    + rewrite list_lookup_insert in E0 by auto. injection E0 as <-. destruct th as [td p lg]. cbn [fpos] in Hpc. subst p. fcases Es. destruct Hp; discriminate.
    + rewrite list_lookup_insert_ne in E0 by auto.
      assert (frefs (fpos th0) = Some (i, length (fchans (fsh c)))) as Hr by (destruct Hp as [-> | ->]; auto).
      destruct (fi_refs _ HI _ _ _ _ E0 Hr) as (d1 & F1 & F2). apply lookup_lt_Some in F1. lia.
Qed.
Lemma freg_run progs sched : freg (fast_run isdel (fast_init progs) sched).
Proof.
  unfold fast_run. induction sched as [|a l IH] using rev_ind.
  - constructor; [intros i ch Hi|intros i ch d Hi|intros i ch d Hi|intros t th i v ch _ _ Hi]; cbn in Hi; rewrite lookup_empty in Hi; discriminate.
  - rewrite foldl_app. cbn [foldl]. apply freg_step; [apply (finv_run progs l)|auto].
Qed.
Lemma fframe c t th x s' th' i : finv c -> fths c !! t = Some th -> no_fcalls_on i th ->
  fthread_step isdel (fsh c) th x = Some (s', th') ->
  fdb s' !! i = fdb (fsh c) !! i /\ (forall ch d, fchans (fsh c) !! ch = Some d -> cidx d = i -> fchans s' !! ch = Some d) /\
  no_fcalls_on i th' /\ exists l, flog th' = l ++ flog th.
Proof.
  intros HC Et [Hpc Htd] H. pose proof (fun j ch => fi_refs _ HC t th j ch Et) as Href.
  assert (Hset : forall j ch0 e, frefs (fpos th) = Some (j, ch0) -> j <> i ->
    forall ch d, fchans (fsh c) !! ch = Some d -> cidx d = i -> (<[ch0 := e]> (fchans (fsh c)) : list _) !! ch = Some d).
  { intros j ch0 e Hr Hj ch d Hd Hi. rewrite list_lookup_insert_ne; [auto|]. intros ->. destruct (Href _ _ Hr) as (d1 & F1 & F2). congruence. }
  destruct th as [td p lg]. cbn [fpos ftodo flog frefs] in *.
  assert (Hl0 : exists l, lg = l ++ lg) by (exists []; auto).
  assert (Hl1 : forall e, exists l, e :: lg = l ++ lg) by (intros e; exists [e]; auto).
  destruct p; fcases H;
    repeat split; auto;
    try (eapply Hset; [reflexivity|]; intros <-; apply Hpc; reflexivity);
    try (rewrite lookup_delete_ne; [auto|]; intros <-; apply Hpc; reflexivity).
  all: try (cbn [fpos fpc_id ftodo]; first [discriminate|intros HE; injection HE as ->; apply (Htd _ (elem_of_list_here _ _)); reflexivity]).
  all: try (intros e0 He0; apply Htd; right; exact He0).
  - rewrite lookup_insert_ne; [auto|]. intros <-. apply Hpc. reflexivity.
  - intros ch d Hd _. rewrite lookup_app_l by (eapply lookup_lt_Some; eauto). auto.
Qed.

(** *** Delivery to a registered waiter. *)
Section one.
Context (i : Z) (w k : nat) (Hwk : w <> k) (ch : nat) (v : V) (tm cn : bool) (Lw Lk : list (fcall V * fres V)).
Definition ftodo_free th : Prop := forall e, e ∈ ftodo th -> fcall_id e <> i.
Definition fwwait th : Prop := fpos th = FW49 i tm cn ch /\ flog th = Lw /\ ftodo_free th.
Definition fwdone th : Prop := no_fcalls_on i th /\ exists l, flog th = l ++ (FWait i tm cn, FGot v) :: Lw.
Definition fwrecv th (d : chan V) : Prop :=
  (fwwait th /\ cbuf d = Some v) \/ ((fpos th = FW33 i tm cn (FGot v) \/ fpos th = FW34 i tm cn (FGot v)) /\ flog th = Lw /\ ftodo_free th) \/ fwdone th.
Definition fkpre th : Prop := flog th = Lk /\
  ((fpos th = FIdle /\ exists r, ftodo th = FClose i (Some v) :: r /\ forall e, e ∈ r -> fcall_id e <> i) \/
   (ftodo_free th /\ ((exists l, fpos th = FC99 i (Some v) l) \/ fpos th = FC101 i (Some v) ch))).
Definition fkpost th : Prop := no_fcalls_on i th /\ exists l, flog th = l ++ (FClose i (Some v), FSent) :: Lk.
Definition fphase c thw thk d : Prop :=
  (fwwait thw /\ fkpre thk /\ fdb (fsh c) !! i = Some ch /\ cbuf d = None /\ cclosed d = false) \/
  (fdb (fsh c) !! i = None /\
   ((fwwait thw /\ cbuf d = None /\ cclosed d = false /\ fpos thk = FC102 i (Some v) ch /\ flog thk = Lk /\ ftodo_free thk) \/
    (fwrecv thw d /\ cclosed d = false /\ fpos thk = FC100 i (Some v) ch /\ flog thk = Lk /\ ftodo_free thk) \/
    (fwrecv thw d /\ fkpost thk))).
Record fdinv c : Prop := {
  fd_oth : forall t th, t <> w -> t <> k -> fths c !! t = Some th -> no_fcalls_on i th;
  fd_all : exists thw thk d, fths c !! w = Some thw /\ fths c !! k = Some thk /\ fchans (fsh c) !! ch = Some d /\ cidx d = i /\ fphase c thw thk d }.
Local Ltac sp := repeat match goal with |- _ /\ _ => split end; auto.
Lemma fdinv_step c a : (tm = true -> fst a = w -> snd a = ChChan) -> finv c -> fdinv c -> fdinv (fconf_step isdel c a).
Proof.
  intros Hcho HC [Hoth (thw & thk & d & Ew & Ek & Ed & Hi & Hph)].
  unfold fconf_step. destruct a as [t x]. cbn [fst snd] in *.
  destruct (fths c !! t) as [th|] eqn:Et; [|constructor; [auto|exists thw, thk, d; auto]].
  destruct (fthread_step isdel (fsh c) th x) as [[s' th']|] eqn:Es; [|constructor; [auto|exists thw, thk, d; auto]].
  assert (Hlt : (t < length (fths c))%nat) by (eapply lookup_lt_Some; eauto).
  assert (Hoth' : (t <> w -> t <> k -> no_fcalls_on i th') ->
    forall t0 th0, t0 <> w -> t0 <> k -> fths (FConf s' (<[t := th']> (fths c))) !! t0 = Some th0 -> no_fcalls_on i th0).
  { intros Hme t0 th0 N1 N2 E0. cbn [fths] in E0. destruct (decide (t = t0)) as [<-|Hne].
    - rewrite list_lookup_insert in E0 by auto. injection E0 as <-. auto.
    - rewrite list_lookup_insert_ne in E0 by auto. eauto. }
  assert (Hnocall : no_fcalls_on i th -> fdb s' !! i = fdb (fsh c) !! i /\ fchans s' !! ch = Some d /\ no_fcalls_on i th' /\ exists l, flog th' = l ++ flog th).
  { intros Hno. destruct (fframe c t th x s' th' i HC Et Hno Es) as (F1 & F2 & F3 & F4). auto. }
  destruct (decide (t = w)) as [->|Nw]; [|destruct (decide (t = k)) as [->|Nk]].
  - assert (th = thw) as -> by congruence. constructor; [apply Hoth'; congruence|]. cbn [fths fsh].
    rewrite list_lookup_insert by auto. rewrite list_lookup_insert_ne by auto.
    assert (Hwait : fwwait thw -> cbuf d = None -> cclosed d = false -> False).
    { intros (Hp & _ & _) Hb Hc. unfold fthread_step in Es. rewrite Hp in Es.
      assert (x = ChChan) as -> by (destruct x; [auto| |]; destruct tm; try discriminate Es; auto). rewrite Ed, Hb, Hc in Es. discriminate. }
    assert (Hrecv : fwrecv thw d -> fdb (fsh c) !! i = None -> exists d0, fchans s' !! ch = Some d0 /\ cidx d0 = i /\ fdb s' !! i = None /\ cclosed d0 = cclosed d /\ fwrecv th' d0).
    { intros [[(Hp & Hlg & Htd) Hb]|[([Hp|Hp] & Hlg & Htd)|[Hno [l El]]]] Ha.
      - unfold fthread_step in Es. rewrite Hp in Es.
        assert (x = ChChan) as -> by (destruct x; [auto| |]; destruct tm; try discriminate Es; auto). rewrite Ed, Hb in Es. injection Es as <- <-.
        exists (put_buf None d). cbn [fset_ch fchans fdb]. rewrite list_lookup_insert by (eapply lookup_lt_Some; eauto).
        repeat split; auto. right. left. auto.
      - unfold fthread_step in Es. rewrite Hp in Es. injection Es as <- <-. exists d. cbn [fchans fdb]. repeat split; auto. right. left. auto.
      - unfold fthread_step in Es. rewrite Hp in Es. injection Es as <- <-. exists d. cbn [fchans fdb]. rewrite lookup_delete. repeat split; auto.
        right. right. split; [split; [discriminate|auto]|]. exists []. cbn [flog app]. rewrite Hlg. auto.
      - destruct (Hnocall Hno) as (F1 & F2 & F3 & [l2 F4]). exists d. rewrite F1. repeat split; auto. right. right. split; [auto|].
        exists (l2 ++ l). rewrite F4, El, app_assoc. auto. }
    destruct Hph as [(Hw & Hk & Ha & Hb & Hc)|(Ha & [(Hw & Hb & Hc & _)|[(Hw & Hc & Hk)|(Hw & Hk)]])].
    + exfalso. eauto.
    + exfalso. eauto.
    + destruct (Hrecv Hw Ha) as (d0 & F1 & F2 & F3 & F4 & F5). exists th', thk, d0. sp. right. cbn [fsh]. split; [auto|].
      right. left. split; [auto|]. split; [congruence|auto].
    + destruct (Hrecv Hw Ha) as (d0 & F1 & F2 & F3 & F4 & F5). exists th', thk, d0. sp. right. cbn [fsh]. split; [auto|].
      right. right. auto.
  - assert (th = thk) as -> by congruence. constructor; [apply Hoth'; congruence|]. cbn [fths fsh].
    rewrite list_lookup_insert by auto. rewrite list_lookup_insert_ne by auto.
    destruct Hph as [(Hw & (Hlg & Hk) & Ha & Hb & Hc)|(Ha & [(Hw & Hb & Hc & Hp & Hlg & Htd)|[(Hw & Hc & Hp & Hlg & Htd)|(Hw & (Hno & l & El))]])].
    + destruct thk as [td p lg]. unfold ftodo_free in Hk. cbn [fpos ftodo flog] in *. unfold fthread_step in Es. cbn [fpos ftodo flog] in Es.
      destruct Hk as [(-> & r & -> & Hr)|[Htd [[l ->]| ->]]].
      * injection Es as <- <-. exists thw, (FTh r (FC99 i (Some v) 30) lg), d. sp. left. unfold fkpre; sp. all: right; split; [assumption|]; left; eauto.
      * rewrite Ha in Es. injection Es as <- <-. exists thw, (FTh td (FC101 i (Some v) ch) lg), d. sp. left. unfold fkpre; sp. all: right; split; [assumption|]; auto.
      * injection Es as <- <-. exists thw, (FTh td (FC102 i (Some v) ch) lg), d. sp. right. cbn [fsh fdb]. rewrite lookup_delete. split; [auto|].
        left. sp.
    + unfold fthread_step in Es. rewrite Hp, Ed, Hc, Hb in Es. injection Es as <- <-.
      exists thw, (FTh (ftodo thk) (FC100 i (Some v) ch) (flog thk)), (put_buf (Some v) d). cbn [fset_ch fchans]. rewrite list_lookup_insert by (eapply lookup_lt_Some; eauto).
      sp. right. split; [auto|]. right. left. split; [left; split; [exact Hw|auto]|]. sp.
    + unfold fthread_step in Es. rewrite Hp, Ed, Hc in Es. injection Es as <- <-.
      exists thw, (FTh (ftodo thk) FIdle ((FClose i (Some v), FSent) :: flog thk)), (close_ch d). cbn [fset_ch fchans]. rewrite list_lookup_insert by (eapply lookup_lt_Some; eauto).
      sp. right. split; [auto|]. right. right. split; [exact Hw|]. split; [split; [discriminate|auto]|]. exists []. cbn [flog app]. rewrite Hlg. auto.
    + destruct (Hnocall Hno) as (F1 & F2 & F3 & [l2 F4]). exists thw, th', d. sp.
      right. cbn [fsh]. split; [congruence|]. right. right. split; [auto|]. split; [auto|]. exists (l2 ++ l). rewrite F4, El, app_assoc. auto.
  - destruct (Hnocall (Hoth _ _ Nw Nk Et)) as (F1 & F2 & F3 & _). constructor; [apply Hoth'; auto|]. cbn [fths fsh].
    rewrite !list_lookup_insert_ne by auto. exists thw, thk, d. sp. unfold fphase in *. cbn [fsh]. rewrite F1. exact Hph.
Qed.
Lemma fdinv_run sched : (tm = true -> forall x, (w, x) ∈ sched -> x = ChChan) -> forall c, finv c -> fdinv c -> fdinv (fast_run isdel c sched).
Proof.
  unfold fast_run. induction sched as [|a l IH]; intros Hs c HI HD; cbn [foldl]; [auto|].
  apply IH; [intros Ht x Hx; apply Hs; [auto|right; auto]|apply finv_cstep; auto|apply fdinv_step; auto].
  destruct a as [u x]. cbn [fst snd]. intros Ht ->. apply Hs; [auto|left].
Qed.
Lemma fdinv_start c thw thk : finv c -> freg c -> fths c !! w = Some thw -> fths c !! k = Some thk ->
  (forall t th, t <> w -> t <> k -> fths c !! t = Some th -> no_fcalls_on i th) ->
  fpos thw = FW49 i tm cn ch -> flog thw = Lw -> ftodo_free thw -> flog thk = Lk ->
  (fpos thk = FIdle /\ exists r, ftodo thk = FClose i (Some v) :: r /\ forall e, e ∈ r -> fcall_id e <> i) \/
  (ftodo_free thk /\ exists l, fpos thk = FC99 i (Some v) l) ->
  fdb (fsh c) !! i <> None -> fdinv c.
Proof.
  intros HC [R1 R2 R3 _] Ew Ek Ho Pw Lgw Tw Lgk Tk Hhas. constructor; [exact Ho|].
  assert (Hin : forall t th, fths c !! t = Some th -> (fpc_id (fpos th) = Some i -> forall l, fpos th <> FC99 i (Some v) l) -> fpc_id (fpos th) = Some i -> t = w).
  { intros t th E Hn Hp. destruct (decide (t = w)) as [|N1]; [auto|]. exfalso. destruct (decide (t = k)) as [->|N2].
    - assert (th = thk) as -> by congruence. destruct Tk as [[Pk _]|[_ [l Pk]]]; [rewrite Pk in Hp; discriminate|]. eapply Hn; eauto.
    - destruct (Ho _ _ N1 N2 E) as [Hno _]. contradiction. }
  destruct (fdb (fsh c) !! i) as [ch'|] eqn:Ea; [|contradiction].
  assert (ch' = ch) as ->.
  { destruct (R1 _ _ Ea) as (t & th & E & [Ho'|(tm' & cn' & r & Hp)]).
    - assert (t = w) as ->.
      { destruct (own_refs _ _ Ho') as [i0 Hr]. destruct (fi_refs _ HC _ _ _ _ E Hr) as (d1 & F1 & F2). destruct (fi_db _ HC _ _ Ea) as (d2 & F3 & F4).
        assert (i0 = i) as -> by congruence. apply (Hin t th E); [intros _ l Hl; rewrite Hl in Ho'; discriminate|].
        destruct (fpos th); cbn in *; try discriminate; congruence. }
      assert (th = thw) as -> by congruence. rewrite Pw in Ho'. cbn in Ho'. congruence.
    - assert (t = w) as -> by (apply (Hin t th E); [intros _ l Hl; destruct Hp; congruence|]; destruct Hp as [-> | ->]; reflexivity). exfalso. destruct Hp; congruence. }
  destruct (fi_db _ HC _ _ Ea) as (d & Ed & Hi).
  exists thw, thk, d. split; [auto|]. split; [auto|]. split; [auto|]. split; [auto|]. left.
  split; [repeat split; auto|]. split; [split; [auto|destruct Tk as [Tk|[T1 T2]]; auto]|]. split; [auto|]. split; [eapply R2; eauto|].
  destruct (cclosed d) eqn:Ec; [|auto]. exfalso. destruct (R3 _ _ _ Ea Ed Ec) as (t & th & E & (tm' & cn' & r & Hp)).
  assert (t = w) as -> by (apply (Hin t th E); [intros _ l Hl; destruct Hp; congruence|]; destruct Hp as [-> | ->]; reflexivity). destruct Hp; congruence.
Qed.
Definition fsoon c : Prop := exists m, (m <= 3)%nat /\ exists thw', fths (fast_run isdel c (replicate m (w, ChChan))) !! w = Some thw' /\
  flog thw' = (FWait i tm cn, FGot v) :: Lw.
Lemma fdinv_end c thw : fdinv c -> fths c !! w = Some thw -> fwdone thw \/
  (flog thw = Lw /\ fpc_id (fpos thw) = Some i /\ forall thk, fths c !! k = Some thk -> flog thk <> Lk -> fsoon c).
Proof.
  intros [_ (thw0 & thk0 & d & Ew & Ek & Ed & Hi & Hph)] Ew'. assert (thw0 = thw) as -> by congruence.
  assert (Hlt : (w < length (fths c))%nat) by (eapply lookup_lt_Some; eauto).
  assert (Hrecv : fwrecv thw d -> fwdone thw \/ (flog thw = Lw /\ fpc_id (fpos thw) = Some i /\ fsoon c)).
  { intros [[(Hp & Hlg & Htd) Hb]|[([Hp|Hp] & Hlg & Htd)|H]]; [| | |auto]; right; (split; [auto|]); (split; [rewrite Hp; auto|]).
    - exists 3%nat. split; [lia|].
      unfold fast_run. cbn [replicate foldl]. unfold fconf_step at 3. cbn [fst snd]. rewrite Ew'. unfold fthread_step. rewrite Hp, Ed, Hb.
      unfold fconf_step at 2. cbn [fst snd fths fsh]. rewrite list_lookup_insert by auto. unfold fthread_step. cbn [fpos ftodo flog fths].
      rewrite list_insert_insert. unfold fconf_step. cbn [fst snd fths fsh]. rewrite list_lookup_insert by auto. unfold fthread_step. cbn [fpos ftodo flog fths].
      rewrite list_insert_insert, list_lookup_insert by auto. eexists. split; [reflexivity|]. cbn [flog]. rewrite Hlg. auto.
    - exists 2%nat. split; [lia|].
      unfold fast_run. cbn [replicate foldl]. unfold fconf_step at 2. cbn [fst snd]. rewrite Ew'. unfold fthread_step. rewrite Hp.
      unfold fconf_step. cbn [fst snd fths fsh]. rewrite list_lookup_insert by auto. unfold fthread_step. cbn [fpos ftodo flog fths].
      rewrite list_insert_insert, list_lookup_insert by auto. eexists. split; [reflexivity|]. cbn [flog]. rewrite Hlg. auto.
    - exists 1%nat. split; [lia|].
      unfold fast_run. cbn [replicate foldl]. unfold fconf_step. cbn [fst snd]. rewrite Ew'. unfold fthread_step. rewrite Hp. cbn [fths].
      rewrite list_lookup_insert by auto. eexists. split; [reflexivity|]. cbn [flog]. rewrite Hlg. auto. }
  destruct Hph as [(Hw & (Hlg & Hk) & _)|(Ha & [(Hw & Hb & Hc & Hp & Hlg & Htd)|[(Hw & Hc & Hp & Hlg & Htd)|(Hw & Hk)]])].
  - right. destruct Hw as (Hp & Hl & _). split; [auto|]. split; [rewrite Hp; auto|]. intros thk E El. congruence.
  - right. destruct Hw as (Hp' & Hl & _). split; [auto|]. split; [rewrite Hp'; auto|]. intros thk E El. congruence.
  - destruct (Hrecv Hw) as [?|(H1 & H2 & H3)]; auto.
  - destruct (Hrecv Hw) as [?|(H1 & H2 & H3)]; auto.
Qed.
Lemma fdinv_closer c thk : fdinv c -> fths c !! k = Some thk ->
  flog thk = Lk \/ (exists l, flog thk = l ++ (FClose i (Some v), FSent) :: Lk).
Proof.
  intros [_ (thw0 & thk0 & d & Ew & Ek & Ed & Hi & Hph)] Ek'. assert (thk0 = thk) as -> by congruence.
  destruct Hph as [(Hw & (Hlg & Hk) & _)|(Ha & [(Hw & Hb & Hc & Hp & Hlg & Htd)|[(Hw & Hc & Hp & Hlg & Htd)|(Hw & (_ & Hl))]])]; auto.
Qed.
End one.

(** *** CloseAndPut of an id that no wait has finished with keeps looking for 30 rounds. *)
Section poll.
Context (i : Z) (k : nat) (v : option V) (Lk : list (fcall V * fres V)).
Context (Hnfp : forall hist, BAdd (Int64ToBytes i) ∉ hist -> isdel hist (Int64ToBytes i) = false).
Definition spent p : nat := match p with FC99 _ _ l => 1 + 2 * (30 - l) | FC103 _ _ l => 2 + 2 * (30 - l) | _ => 0 end.
Definition polling (n : nat) c : Prop := exists th, fths c !! k = Some th /\
  ((fpos th = FIdle /\ flog th = Lk /\ exists r, ftodo th = FClose i v :: r) \/
   (in_close i v (fpos th) /\ flog th = Lk /\ (spent (fpos th) <= n)%nat /\ match fpos th with FC99 _ _ l | FC103 _ _ l => (l <= 30)%nat | _ => True end) \/
   (exists l r, flog th = l ++ (FClose i v, r) :: Lk /\ r <> FNone)).
Lemma hist_mono s th x s' th' b : fthread_step isdel s th x = Some (s', th') -> b ∈ fhist s -> b ∈ fhist s'.
Proof.
  intros H Hb. destruct th as [td p lg]. destruct p; fcases H; auto; apply elem_of_app; auto.
Qed.
Lemma polling_step c a n : polling n c -> (n + (if Nat.eqb a.1 k then 1 else 0) <= 62)%nat ->
  BAdd (Int64ToBytes i) ∉ fhist (fsh c) -> polling (n + (if Nat.eqb a.1 k then 1 else 0)) (fconf_step isdel c a).
Proof.
  intros (th & Ek & Hp) Hn Hh. destruct a as [t x]. cbn [fst] in *. unfold fconf_step. cbn [fst snd].
  assert (Hmon : forall m p, (n <= m)%nat -> (spent p <= n)%nat -> (spent p <= m)%nat) by (intros; lia).
  assert (Hstay : polling (n + (if Nat.eqb t k then 1 else 0)) c).
  { exists th. split; [auto|]. destruct Hp as [Hp|[(H1 & H2 & H3 & H4)|Hp]]; auto. right. left. split; [auto|]. split; [auto|]. split; [|auto]. lia. }
  destruct (fths c !! t) as [th0|] eqn:E0; [|exact Hstay].
  destruct (fthread_step isdel (fsh c) th0 x) as [[s' th']|] eqn:Es; [|exact Hstay].
  destruct (Nat.eqb_spec t k) as [->|Hne].
  - assert (th0 = th) as -> by congruence. exists th'. cbn [fths]. rewrite list_lookup_insert by (eapply lookup_lt_Some; eauto). split; [auto|].
    destruct Hp as [(H1 & H2 & r & H3)|[(H1 & H2 & H3 & H4)|(l & r & H1 & H2)]].
    + right. left. destruct th as [td p lg]. cbn [fpos ftodo flog] in *. subst. fcases Es. repeat split; auto; lia.
    + destruct th as [td p lg]. cbn [fpos ftodo flog] in *.
      destruct p; cbn [in_close] in H1; try contradiction; destruct H1 as [-> ->]; cbn [spent] in H3; unfold fthread_step in Es; cbn [fpos flog ftodo] in Es.
      * right. left. injection Es as <- <-. cbn [fpos flog]. destruct (fdb (fsh c) !! i); cbn [in_close spent]; repeat split; auto; lia.
      * right. left. injection Es as <- <-. cbn [fpos flog]. destruct v; cbn [in_close spent]; repeat split; auto; lia.
      * destruct (fchans (fsh c) !! ch) as [d|]; [|discriminate]. destruct (cclosed d).
        -- right. right. injection Es as <- <-. exists [], FPanic. cbn [flog app]. split; [congruence|discriminate].
        -- destruct (cbuf d); [discriminate|]. right. left. injection Es as <- <-. cbn [fpos flog in_close spent]. repeat split; auto; lia.
      * destruct (fchans (fsh c) !! ch) as [d|]; [|discriminate]. destruct (cclosed d); injection Es as <- <-; right; right.
        -- exists [], FPanic. cbn [flog app]. split; [congruence|discriminate].
        -- eexists [], _. cbn [flog app]. split; [f_equal; eauto|]. destruct v; discriminate.
      * destruct loop as [|l].
        -- exfalso. lia.
        -- rewrite (Hnfp _ Hh) in Es. injection Es as <- <-. right. left. cbn [fpos flog in_close spent]. repeat split; auto; lia.
    + right. right. destruct (flog_step _ _ _ _ _ Es) as [l2 F]. exists (l2 ++ l), r. rewrite F, H1, app_assoc. auto.
  - rewrite Nat.add_0_r. exists th. cbn [fths]. rewrite list_lookup_insert_ne by auto. auto.
Qed.
Lemma polling_run sched : forall c n, polling n c -> (n + length (List.filter (fun a => Nat.eqb a.1 k) sched) <= 62)%nat ->
  BAdd (Int64ToBytes i) ∉ fhist (fsh (fast_run isdel c sched)) -> exists m, polling m (fast_run isdel c sched).
Proof.
  induction sched as [|a l IH]; intros c n Hp Hn Hh; [eauto|].
  change (fast_run isdel c (a :: l)) with (fast_run isdel (fconf_step isdel c a) l) in *.
  assert (Hh0 : BAdd (Int64ToBytes i) ∉ fhist (fsh c)).
  { intros Hin. apply Hh. assert (Hm : forall l c0, BAdd (Int64ToBytes i) ∈ fhist (fsh c0) -> BAdd (Int64ToBytes i) ∈ fhist (fsh (fast_run isdel c0 l))).
    { clear. induction l as [|[t x] l IH]; intros c0 H0; [auto|]. change (fast_run isdel c0 ((t, x) :: l)) with (fast_run isdel (fconf_step isdel c0 (t, x)) l).
      apply IH. unfold fconf_step. cbn [fst snd]. destruct (fths c0 !! t) as [th|]; [|auto].
      destruct (fthread_step isdel (fsh c0) th x) as [[s' th']|] eqn:Es; [|auto]. cbn [fsh]. eapply hist_mono; eauto. }
    apply (Hm (a :: l)). auto. }
  cbn [List.filter] in Hn.
  eapply (IH _ (n + (if Nat.eqb a.1 k then 1 else 0))%nat); [apply polling_step; auto| |auto]; destruct (Nat.eqb a.1 k); cbn [length] in Hn; lia.
Qed.
End poll.
End fast.
