(** More about goroutines and locks: nothing gets stuck; calls are made in order; from one specification to another. *)
From stdpp Require Import list.
From Coq Require Import ZArith Lia.
From Verif Require Import Conc Lin_Model Lin_Spec Lin_Proofs.
Local Open Scope Z_scope.

Scheme code_mut := Induction for code Sort Prop with inner_mut := Induction for inner Sort Prop.

Section more.
Context {St Op Res : Type} (body : Op -> code St Res).
Notation cfg := (cfg St Op Res). Notation thread := (thread St Op Res).
Notation step := (lstep1 body).

Lemma locks_step (g : cfg) t : locks g -> locks (step g t).
Proof.
  intros I5. unfold lstep1. destruct (threads g !! t) as [[td n c]|] eqn:Ht; [|exact I5]. destruct c as [|o c|o i x p].
  - destruct td as [|o td]; [exact I5|]. eapply locks_keep; [exact I5|exact Ht|]. intros i. split; reflexivity.
  - destruct c as [r|i k|i [] p].
    + eapply locks_keep; [exact I5|exact Ht|]. intros j. split; reflexivity.
    + eapply locks_keep; [exact I5|exact Ht|]. intros j. split; reflexivity.
    + destruct (negb (writer (lk g i)) && Nat.eqb (readers (lk g i)) 0) eqn:W; [|exact I5]. apply andb_true_iff in W as [W1 W2]. apply negb_true_iff in W1. apply Nat.eqb_eq in W2.
      eapply locks_set; [exact I5|exact Ht| | | |reflexivity].
      * intros j Hj. unfold wr, rd. cbn [at_]. destruct (Nat.eqb_spec i j); [congruence|auto].
      * rewrite W1. unfold wr. cbn [at_]. rewrite Nat.eqb_refl. reflexivity.
      * rewrite W2. reflexivity.
    + destruct (negb (writer (lk g i))) eqn:W; [|exact I5]. apply negb_true_iff in W.
      eapply locks_set; [exact I5|exact Ht| | | |discriminate].
      * intros j Hj. unfold wr, rd. cbn [at_]. destruct (Nat.eqb_spec i j); [congruence|auto].
      * rewrite W. reflexivity.
      * unfold rd. cbn [at_]. rewrite Nat.eqb_refl. lia.
  - destruct p as [c|f k].
    + destruct x.
      * destruct (writing _ _ _ _ _ _ _ I5 Ht) as [W1 W2]. eapply locks_set; [exact I5|exact Ht| | | |discriminate].
        -- intros j Hj. unfold wr, rd. cbn [at_]. destruct (Nat.eqb_spec i j); [congruence|auto].
        -- rewrite W1. unfold wr. cbn [at_]. rewrite Nat.eqb_refl. reflexivity.
        -- unfold rd. cbn [at_]. lia.
      * pose proof (reading _ _ _ _ _ _ _ I5 Ht) as W. destruct (I5 i) as (_ & H2 & _). pose proof (sumZ_lookup (rd i) _ _ _ (fun z _ => rd_pos i z) Ht) as HR. unfold rd at 1 in HR. cbn [at_] in HR. rewrite Nat.eqb_refl in HR.
        eapply locks_set; [exact I5|exact Ht| | | |].
        -- intros j Hj. unfold wr, rd. cbn [at_]. destruct (Nat.eqb_spec i j); [congruence|auto].
        -- unfold wr. cbn [at_]. lia.
        -- unfold rd. cbn [at_]. rewrite Nat.eqb_refl. lia.
        -- rewrite W. discriminate.
    + eapply locks_keep; [exact I5|exact Ht|]. intros j. split; reflexivity.
Qed.
Lemma locks_run sched (g : cfg) : locks g -> locks (foldl step g sched).
Proof. revert g. induction sched as [|t s IH]; intros g H; [exact H|]. cbn [foldl]. apply IH, locks_step, H. Qed.
Lemma locks_start s0 ops : locks (linit s0 ops : cfg).
Proof. intros i. unfold linit. cbn [threads lk writer readers]. rewrite !sumZ_fmap. rewrite !sumZ_zero by reflexivity. auto. Qed.

(** ** Nothing gets stuck *)
Definition outside (th : thread) : Prop := match at_ th with In _ _ _ _ => False | _ => True end.
(** Goroutine [t] alone can get where it wants. *)
Definition reach (g : cfg) (ths : list thread) : Prop := exists sched, threads (foldl step g sched) = ths.
Lemma reach_step g t ths : reach (step g t) ths -> reach g ths.
Proof. intros [s H]. exists (t :: s). exact H. Qed.
Lemma reach_self g : reach g (threads g).
Proof. exists []. reflexivity. Qed.
Lemma leave_one p (g : cfg) t td n o i x : threads g !! t = Some (Thr td n (In o i x p)) -> exists c, reach g (<[t := Thr td n (At o c)]> (threads g)).
Proof.
  revert g. induction p as [c|f k IH]; intros g Ht.
  - exists c. apply (reach_step _ t). eexists []. cbn [foldl]. unfold lstep1. rewrite Ht. destruct x; reflexivity.
  - assert (E : step g t = Cfg (<[t := Thr td n (In o i x (k (mem g i)))]> (threads g)) (upd (mem g) i (f (mem g i))) (lk g) (hist g)) by (unfold lstep1; rewrite Ht; reflexivity).
    destruct (IH (mem g i) (step g t)) as [c Hc]; [rewrite E; cbn [threads]; apply list_lookup_insert; eapply lookup_lt_Some; exact Ht|].
    exists c. apply (reach_step _ t). rewrite E in Hc at 2. cbn [threads] in Hc. rewrite list_insert_insert in Hc. exact Hc.
Qed.
Lemma all_leave (g : cfg) : exists sched, forall t th, threads (foldl step g sched) !! t = Some th -> outside th.
Proof.
  assert (H : forall k, exists sched, forall t th, (t < k)%nat -> threads (foldl step g sched) !! t = Some th -> outside th).
  { induction k as [|k [s Hs]]; [exists []; intros; lia|]. destruct (threads (foldl step g s) !! k) as [[td n [|o c|o i x p]]|] eqn:E.
    - exists s. intros t th Ht Hth. destruct (decide (t = k)) as [->|]; [|apply (Hs t); [lia|exact Hth]]. assert (th = Thr td n Idle) as -> by congruence. exact I.
    - exists s. intros t th Ht Hth. destruct (decide (t = k)) as [->|]; [|apply (Hs t); [lia|exact Hth]]. assert (th = Thr td n (At o c)) as -> by congruence. exact I.
    - destruct (leave_one _ _ _ _ _ _ _ _ E) as (c & s' & Hs'). exists (s ++ s'). rewrite foldl_app, Hs'. intros t th Ht Hth. destruct (decide (t = k)) as [->|].
      + rewrite list_lookup_insert in Hth by (eapply lookup_lt_Some; exact E). injection Hth as <-. exact I.
      + rewrite list_lookup_insert_ne in Hth by congruence. apply (Hs t); [lia|exact Hth].
    - exists s. intros t th Ht Hth. destruct (decide (t = k)) as [->|]; [congruence|apply (Hs t); [lia|exact Hth]]. }
  destruct (H (length (threads g))) as [s Hs]. exists s. intros t th Hth. apply (Hs t); [|exact Hth]. apply lookup_lt_Some in Hth. revert Hth.
  assert (L : forall s (g' : cfg), length (threads (foldl step g' s)) = length (threads g')).
  { clear. induction s as [|t s IH]; intros g'; [reflexivity|]. cbn [foldl]. rewrite IH. unfold lstep1. destruct (threads g' !! t) as [[td n c]|]; [|reflexivity].
    destruct c as [|o [r|i k|i [] p]|o i [] [c|f k]]; try destruct td; try destruct (negb _ && _); try destruct (negb _); cbn [threads]; rewrite ?insert_length; reflexivity. }
  rewrite L. auto.
Qed.
Definition others_out (g : cfg) (t : nat) : Prop := forall t' th, t' <> t -> threads g !! t' = Some th -> outside th.
Lemma free_lock (g : cfg) t td n o c : locks g -> others_out g t -> threads g !! t = Some (Thr td n (At o c)) -> forall i, lk g i = Rw false 0.
Proof.
  intros HL Ho Ht i. destruct (HL i) as (H1 & H2 & H3).
  assert (Z1 : sumZ (wr i) (threads g) = 0 /\ sumZ (rd i) (threads g) = 0).
  { split; apply sumZ_zero; intros th Hth; apply elem_of_list_lookup in Hth as [t' Hth]; (destruct (decide (t' = t)) as [->|Hne]; [assert (th = Thr td n (At o c)) as -> by congruence; reflexivity|]); specialize (Ho _ _ Hne Hth); unfold outside, wr, rd in *; destruct (at_ th); tauto. }
  destruct Z1 as [Z1 Z2]. rewrite Z1 in H1. rewrite Z2 in H2. destruct (lk g i) as [w r]. cbn [writer readers] in *. destruct w; [discriminate|]. f_equal. lia.
Qed.
Lemma others_same (g g' : cfg) t th : threads g' = <[t := th]> (threads g) -> others_out g t -> others_out g' t.
Proof. intros E Ho t' th' Hne Ht'. rewrite E, list_lookup_insert_ne in Ht' by congruence. eauto. Qed.
Lemma finish_call c : forall (g : cfg) t td n o, locks g -> others_out g t -> threads g !! t = Some (Thr td n (At o c)) -> reach g (<[t := Thr td (S n) Idle]> (threads g)).
Proof.
  apply (code_mut St Res
    (fun c => forall (g : cfg) t td n o, locks g -> others_out g t -> threads g !! t = Some (Thr td n (At o c)) -> reach g (<[t := Thr td (S n) Idle]> (threads g)))
    (fun p => forall (g : cfg) t td n o i x, locks g -> others_out g t -> threads g !! t = Some (Thr td n (In o i x p)) -> reach g (<[t := Thr td (S n) Idle]> (threads g)))); clear c.
  - intros r g t td n o HL Ho Ht. apply (reach_step _ t). exists []. cbn [foldl]. unfold lstep1. rewrite Ht. reflexivity.
  - intros i k IH g t td n o HL Ho Ht. apply (reach_step _ t).
    assert (E : threads (step g t) = <[t := Thr td n (At o (k (mem g i)))]> (threads g)) by (unfold lstep1; rewrite Ht; reflexivity).
    pose proof (IH (mem g i) (step g t) t td n o (locks_step _ _ HL) (others_same _ _ _ _ E Ho)) as R. rewrite E, list_insert_insert in R. apply R. apply list_lookup_insert. eapply lookup_lt_Some. exact Ht.
  - intros i x p IH g t td n o HL Ho Ht. apply (reach_step _ t).
    assert (E : threads (step g t) = <[t := Thr td n (In o i x p)]> (threads g)) by (unfold lstep1; rewrite Ht, (free_lock _ _ _ _ _ _ HL Ho Ht i); destruct x; reflexivity).
    pose proof (IH (step g t) t td n o i x (locks_step _ _ HL) (others_same _ _ _ _ E Ho)) as R. rewrite E, list_insert_insert in R. apply R. apply list_lookup_insert. eapply lookup_lt_Some. exact Ht.
  - intros c IH g t td n o i x HL Ho Ht. apply (reach_step _ t).
    assert (E : threads (step g t) = <[t := Thr td n (At o c)]> (threads g)) by (unfold lstep1; rewrite Ht; destruct x; reflexivity).
    pose proof (IH (step g t) t td n o (locks_step _ _ HL) (others_same _ _ _ _ E Ho)) as R. rewrite E, list_insert_insert in R. apply R. apply list_lookup_insert. eapply lookup_lt_Some. exact Ht.
  - intros f k IH g t td n o i x HL Ho Ht. apply (reach_step _ t).
    assert (E : threads (step g t) = <[t := Thr td n (In o i x (k (mem g i)))]> (threads g)) by (unfold lstep1; rewrite Ht; reflexivity).
    pose proof (IH (mem g i) (step g t) t td n o i x (locks_step _ _ HL) (others_same _ _ _ _ E Ho)) as R. rewrite E, list_insert_insert in R. apply R. apply list_lookup_insert. eapply lookup_lt_Some. exact Ht.
Qed.
Lemma reach_trans (g : cfg) th t ths : locks g -> reach g (<[t := th]> (threads g)) -> (forall g' : cfg, locks g' -> threads g' = <[t := th]> (threads g) -> reach g' ths) -> reach g ths.
Proof. intros HL [s Hs] H. destruct (H _ (locks_run s _ HL) Hs) as [s' Hs']. exists (s ++ s'). rewrite foldl_app. exact Hs'. Qed.
Lemma finish_thread td : forall (g : cfg) t n, locks g -> others_out g t -> threads g !! t = Some (Thr td n Idle) -> exists n', reach g (<[t := Thr [] n' Idle]> (threads g)).
Proof.
  induction td as [|o td IH]; intros g t n HL Ho Ht.
  - exists n. rewrite list_insert_id by exact Ht. apply reach_self.
  - assert (Hlt := lookup_lt_Some _ _ _ Ht).
    assert (E : threads (step g t) = <[t := Thr td n (At o (body o))]> (threads g)) by (unfold lstep1; rewrite Ht; reflexivity).
    assert (HL1 := locks_step _ t HL). assert (Ho1 := others_same _ _ _ _ E Ho). assert (Ht1 : threads (step g t) !! t = Some (Thr td n (At o (body o)))) by (rewrite E; apply list_lookup_insert; exact Hlt).
    destruct (finish_call _ _ _ _ _ _ HL1 Ho1 Ht1) as [s Hs]. rewrite E, list_insert_insert in Hs.
    destruct (IH _ t (S n) (locks_run s _ HL1) (others_same _ _ _ _ Hs Ho)) as [n' [s' Hs']]; [rewrite Hs; apply list_lookup_insert; exact Hlt|].
    exists n'. exists (t :: s ++ s'). cbn [foldl]. rewrite foldl_app, Hs', Hs, list_insert_insert. reflexivity.
Qed.
Lemma finish_all (g : cfg) : locks g -> exists sched, all_returned (foldl step g sched).
Proof.
  intros HL. destruct (all_leave g) as [s0 H0]. pose proof (locks_run s0 _ HL) as HL0.
  assert (H : forall k, exists sched, let g' := foldl step g (s0 ++ sched) in (forall t th, threads g' !! t = Some th -> outside th) /\ forall t th, (t < k)%nat -> threads g' !! t = Some th -> todo th = [] /\ at_ th = Idle).
  { induction k as [|k (s & Hs1 & Hs2)]; [exists []; rewrite app_nil_r; split; [exact H0|intros; lia]|]. cbn zeta in *. set (g1 := foldl step g (s0 ++ s)) in *.
    assert (HL1 : locks g1) by (apply locks_run; exact HL).
    destruct (threads g1 !! k) as [[td n c]|] eqn:E.
    - assert (exists n' s', threads (foldl step g1 s') = <[k := Thr [] n' Idle]> (threads g1)) as (n' & s' & Hs').
      { assert (Ho : others_out g1 k) by (intros t' th' _ Ht'; eauto). pose proof (Hs1 _ _ E) as Hout. destruct c as [|o c|o i x p].
        - destruct (finish_thread _ _ _ _ HL1 Ho E) as (n' & s' & R). eauto.
        - destruct (finish_call _ _ _ _ _ _ HL1 Ho E) as [s1 R1]. pose proof (lookup_lt_Some _ _ _ E) as Hlt.
          destruct (finish_thread td (foldl step g1 s1) k (S n) (locks_run s1 _ HL1) (others_same _ _ _ _ R1 Ho)) as (n' & s' & R); [rewrite R1; apply list_lookup_insert; exact Hlt|].
          exists n', (s1 ++ s'). rewrite foldl_app, R, R1, list_insert_insert. reflexivity.
        - destruct Hout. }
      exists (s ++ s'). rewrite app_assoc, foldl_app. fold g1. rewrite Hs'. pose proof (lookup_lt_Some _ _ _ E) as Hlt. split.
      + intros t th Hth. destruct (decide (t = k)) as [->|]; [rewrite list_lookup_insert in Hth by exact Hlt; injection Hth as <-; exact I|]. rewrite list_lookup_insert_ne in Hth by congruence. eauto.
      + intros t th Ht Hth. destruct (decide (t = k)) as [->|]; [rewrite list_lookup_insert in Hth by exact Hlt; injection Hth as <-; auto|]. rewrite list_lookup_insert_ne in Hth by congruence. apply (Hs2 t); [lia|exact Hth].
    - exists s. fold g1. split; [exact Hs1|]. intros t th Ht Hth. destruct (decide (t = k)) as [->|]; [congruence|]. apply (Hs2 t); [lia|exact Hth]. }
  destruct (H (length (threads g))) as (s & _ & Hs). exists (s0 ++ s). intros t th Hth. apply (Hs t); [|exact Hth]. apply lookup_lt_Some in Hth. revert Hth.
  assert (L : forall s (g' : cfg), length (threads (foldl step g' s)) = length (threads g')).
  { clear. induction s as [|t s IH]; intros g'; [reflexivity|]. cbn [foldl]. rewrite IH. unfold lstep1. destruct (threads g' !! t) as [[td n c]|]; [|reflexivity].
    destruct c as [|o [r|i k|i [] p]|o i [] [c|f k]]; try destruct td; try destruct (negb _ && _); try destruct (negb _); cbn [threads]; rewrite ?insert_length; reflexivity. }
  rewrite L. auto.
Qed.
Theorem never_stuck s0 ops sched : exists sched', all_returned (lexec body s0 ops (sched ++ sched')).
Proof. destruct (finish_all (lexec body s0 ops sched)) as [s' H]; [apply locks_run, locks_start|]. exists s'. unfold lexec in *. rewrite foldl_app. exact H. Qed.

(** ** Which calls there are *)
Lemma calls_from s0 ops sched : (forall i o, Call i o ∈ hist (lexec body s0 ops sched) -> exists os, os ∈ ops /\ o ∈ os).
Proof.
  unfold lexec. set (P := fun o => exists os, os ∈ ops /\ o ∈ os).
  assert (H : forall (g : cfg), (forall i o, Call i o ∈ hist g -> P o) /\ (forall t th, threads g !! t = Some th -> Forall P (todo th)) -> forall i o, Call i o ∈ hist (foldl step g sched) -> P o).
  { induction sched as [|t s IH]; intros g [H1 H2]; [exact H1|]. cbn [foldl]. apply IH. clear IH. unfold lstep1. destruct (threads g !! t) as [[td n c]|] eqn:Ht; [|auto]. pose proof (H2 _ _ Ht) as Htd. cbn [todo] in Htd.
    assert (K : forall td' n' c' m' lk' h', Forall P td' -> (forall i o, Call i o ∈ h' -> P o) ->
      (forall i o, Call i o ∈ hist (Cfg (<[t := Thr td' n' c']> (threads g)) m' lk' h' : cfg) -> P o) /\ (forall t0 th, threads (Cfg (<[t := Thr td' n' c']> (threads g)) m' lk' h' : cfg) !! t0 = Some th -> Forall P (todo th))).
    { intros td' n' c' m' lk' h' K1 K2. split; [exact K2|]. cbn [threads]. intros t0 th H. destruct (decide (t0 = t)) as [->|]; [rewrite list_lookup_insert in H by (eapply lookup_lt_Some; exact Ht); injection H as <-; exact K1|]. rewrite list_lookup_insert_ne in H by congruence. eauto. }
    assert (R : forall i r, forall i0 o, Call i0 o ∈ hist g ++ [Return i r] -> P o) by (intros i r i0 o H; apply elem_of_app in H as [H|H]; [eauto|apply elem_of_list_singleton in H; discriminate]).
    destruct c as [|o [r|i k|i [] p]|o i [] [c|f k]]; try destruct td as [|o td]; try destruct (negb _ && _); try destruct (negb _); auto; try (apply K; eauto; fail).
    - apply Forall_cons in Htd as [Ho Htd]. apply K; [exact Htd|]. intros i o' H. apply elem_of_app in H as [H|H]; [eauto|]. apply elem_of_list_singleton in H. injection H as _ ->. exact Ho. }
  apply H. unfold linit. cbn [hist threads]. split; [intros i o X; apply elem_of_nil in X; destruct X|]. intros t th Ht. rewrite list_lookup_fmap in Ht. destruct (ops !! t) as [os|] eqn:E; [|discriminate]. injection Ht as <-. cbn [todo].
  apply Forall_forall. intros o Ho. exists os. split; [eapply elem_of_list_lookup_2; exact E|exact Ho].
Qed.
End more.

(** ** From one specification to another *)
Lemma in_turn_sim {S1 S2 Op Res} (step1 : S1 -> Op -> Res * S1) (step2 : S2 -> Op -> Res * S2) (R : S1 -> S2 -> Prop) (P : Op -> Prop) os : forall s1 s2,
  (forall s1 s2 o, P o -> R s1 s2 -> fst (step1 s1 o) = fst (step2 s2 o) /\ R (snd (step1 s1 o)) (snd (step2 s2 o))) -> Forall P os -> R s1 s2 ->
  fst (in_turn step1 s1 os) = fst (in_turn step2 s2 os).
Proof.
  induction os as [|o os IH]; intros s1 s2 H HP HR; [reflexivity|]. apply Forall_cons in HP as [Ho HP]. cbn [in_turn]. destruct (H s1 s2 o Ho HR) as [E HR']. destruct (step1 s1 o) as [x1 t1], (step2 s2 o) as [x2 t2]. cbn [fst snd] in *.
  specialize (IH t1 t2 H HP HR'). destruct (in_turn step1 t1 os) as [y1 u1], (in_turn step2 t2 os) as [y2 u2]. cbn [fst] in *. congruence.
Qed.
Lemma linearizable_sim {S1 S2 Op Res} (step1 : S1 -> Op -> Res * S1) (step2 : S2 -> Op -> Res * S2) (R : S1 -> S2 -> Prop) (P : Op -> Prop) s1 s2 h :
  (forall s1 s2 o, P o -> R s1 s2 -> fst (step1 s1 o) = fst (step2 s2 o) /\ R (snd (step1 s1 o)) (snd (step2 s2 o))) -> R s1 s2 -> (forall i o, Call i o ∈ h -> P o) ->
  linearizable step1 s1 h -> linearizable step2 s2 h.
Proof.
  intros H HR HP (l & L1 & L2 & L3 & L4 & L5). exists l. split; [exact L1|]. split; [|auto]. rewrite <- L2. symmetry. eapply in_turn_sim; [exact H| |exact HR].
  apply Forall_forall. intros o Ho. apply elem_of_list_fmap in Ho as ([[i o'] r] & -> & Ho). eapply HP. eapply L3. exact Ho.
Qed.

(** An object with one lock, and no operation that does without. *)
Section one.
Context {St Op Res : Type} (body : Op -> code St Res) (seq : St -> Op -> Res * St).
(** One critical section of the only lock, or none if there is nothing to do. *)
Definition locked (o : Op) : Prop :=
  match body o with
  | Fin r => forall s, seq s o = (r, s)
  | Peek _ _ => False
  | Enter i x p => i = 0%nat /\ (forall s, exec p s = (Fin (fst (seq s o)), snd (seq s o))) /\ (x = false -> readonly p)
  end.
Lemma tidy_free (body' : Op -> code St Res) i (ok : Op -> Prop) A A' p s : (forall o j k, ok o -> body' o <> Peek j k) -> tidy body' ok i A A' p s.
Proof.
  intros H. assert (Hal : forall s A, alike body' ok i s A) by (intros s1 A1 o k Ho E; destruct (H _ _ _ Ho E)). revert s. induction p as [c|f k IH]; intros s; cbn [tidy]; auto.
Qed.
Lemma linearizable_one s0 ops sched : (forall o, locked o) -> linearizable seq s0 (hist (lexec body (fun _ => s0) ops sched)).
Proof.
  intros Hall. apply (linearizable_sim (vseq seq (fun _ => 0%nat)) seq (fun A s => A 0%nat = s) (fun _ => True) (fun _ => s0) s0); [|reflexivity|auto|].
  - intros A s o _ <-. cbn [vseq fst snd]. rewrite upd_same. auto.
  - apply (linearizable_parts body seq (fun _ => 0%nat) (fun _ => True) (fun _ => True)); auto.
    + intros o _. pose proof (Hall o) as H. unfold locked, sound in *. destruct (body o) as [r|i k|i x p] eqn:E; [auto|destruct H|]. destruct H as (-> & H1 & H2). split; [reflexivity|]. intros s _. split; [apply H1|]. destruct x.
      * apply tidy_free. intros o' j k _ E'. specialize (Hall o'). unfold locked in Hall. rewrite E' in Hall. exact Hall.
      * split; [apply H2; reflexivity|]. specialize (H1 s). pose proof (readonly_exec p s (H2 eq_refl)) as R. rewrite H1 in R. exact R.
    + intros os _. apply Forall_forall. auto.
Qed.
End one.
