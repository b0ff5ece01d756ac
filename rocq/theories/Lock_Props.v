(** Properties C40-C42 of lock/lock.go. *)
From stdpp Require Import gmap.
From Coq Require Import ZArith Lia.
From Verif Require Import GoInt Conc Lock_Model Lock_Spec Lock_Proofs.
Local Open Scope Z_scope.

(** C40. If goroutines unlock only what they hold, no mutex ever has two holders (no goroutine holds one twice either). *)
Theorem c40_exclusion : forall n es, 1 <= n < 2^63 -> ndisciplined n es ->
  NoDup (nholders n (num_run (NewNumLock n) es).1).*2.
Proof. intros n es Hn Hd. destruct (num_run_inv n Hn es Hd) as [[_ _ H] _]. exact H. Qed.
Print Assumptions c40_exclusion.

(** C40. In other words: two holders of congruent keys are the same goroutine. *)
Theorem c40_same_key_one_holder : forall n es t t' k k', 1 <= n < 2^63 -> ndisciplined n es ->
  k mod 2^64 mod n = k' mod 2^64 mod n ->
  (t, slot n k) ∈ nholders n (num_run (NewNumLock n) es).1 -> (t', slot n k') ∈ nholders n (num_run (NewNumLock n) es).1 -> t = t'.
Proof.
  intros n es t t' k k' Hn Hd Hk H1 H2. pose proof (c40_exclusion n es Hn Hd) as Hnd.
  assert (slot n k' = slot n k) as E by (unfold slot; auto). rewrite E in H2. clear E.
  set (hs := nholders n _) in *. clearbody hs. clear Hk Hd.
  apply elem_of_list_lookup in H1, H2. destruct H1 as [i Hi], H2 as [j Hj].
  assert (i = j) as ->.
  { eapply NoDup_lookup; [exact Hnd|..]; rewrite list_lookup_fmap; [rewrite Hi|rewrite Hj]; reflexivity. }
  congruence.
Qed.
Print Assumptions c40_same_key_one_holder.

(** C40. No call panics: every key, also a negative one, has its mutex, and an Unlock by a holder finds it locked. *)
Theorem c40_no_panic : forall n es, 1 <= n < 2^63 -> ndisciplined n es ->
  Forall (fun x => x.2 <> RPanic) (num_run (NewNumLock n) es).1.
Proof. intros n es Hn Hd. apply (num_run_inv n Hn es Hd). Qed.
Print Assumptions c40_no_panic.

(** C40. Exactly when a call gets the lock: nobody holds a congruent key. Otherwise Lock waits and TryLock fails. *)
Theorem c40_outcome : forall n es t k, 1 <= n < 2^63 -> ndisciplined n es ->
  let nl := (num_run (NewNumLock n) es).2 in
  let busy := exists t', (t', slot n k) ∈ nholders n (num_run (NewNumLock n) es).1 in
  (~ busy -> (num_step nl (NLock t k)).1 = RAcquired /\ (num_step nl (NTryLock t k)).1 = RAcquired) /\
  (busy -> (num_step nl (NLock t k)).1 = RBlocked /\ (num_step nl (NTryLock t k)).1 = RFailed).
Proof.
  intros n es t k Hn Hd nl busy. destruct (num_run_inv n Hn es Hd) as [[Hnum Hl _] _]. fold nl in Hnum, Hl.
  unfold num_step. rewrite Hnum, num_index_slot by auto. rewrite (Hl (slot n k)) by (apply slot_range; lia).
  assert (HB : busy <-> slot n k ∈ (nholders n (num_run (NewNumLock n) es).1).*2).
  { rewrite elem_of_list_fmap. split.
    - intros [t' Ht']. exists (t', slot n k). auto.
    - intros ([t' s] & Es & Ht'). cbn [snd] in Es. subst s. exists t'. auto. }
  case_bool_decide as Hin; split; intros Hb; auto; exfalso; tauto.
Qed.
Print Assumptions c40_outcome.

(** C40, with no assumption on who unlocks: Lock and TryLock never panic, and between two acquisitions of congruent keys
    there is a release of a congruent key. *)
Theorem c40_acquisitions_alternate : forall n es, 1 <= n < 2^63 ->
  let tr := (num_run (NewNumLock n) es).1 in
  (forall e, e ∈ tr -> e.2 = RPanic -> exists t k, e.1 = NUnlock t k) /\
  (forall a b c t k t' k' e e', tr = a ++ e :: b ++ e' :: c ->
     (e = (NLock t k, RAcquired) \/ e = (NTryLock t k, RAcquired)) ->
     (e' = (NLock t' k', RAcquired) \/ e' = (NTryLock t' k', RAcquired)) -> slot n k = slot n k' ->
     exists u j, (NUnlock u j, RReleased) ∈ b /\ slot n j = slot n k).
Proof.
  intros n es Hn tr.
  assert (HG : forall es nl, muxNum nl = n -> (forall j, 0 <= j < n -> is_Some (lockm nl !! j)) ->
    (forall e, e ∈ (num_run nl es).1 -> e.2 = RPanic -> exists t k, e.1 = NUnlock t k) /\
    (forall i, 0 <= i < n -> lockm nl !! i = Some true -> forall b c t' k' e',
       (num_run nl es).1 = b ++ e' :: c -> (e' = (NLock t' k', RAcquired) \/ e' = (NTryLock t' k', RAcquired)) -> slot n k' = i ->
       exists u j, (NUnlock u j, RReleased) ∈ b /\ slot n j = i) /\
    (forall a b c t k t' k' e e', (num_run nl es).1 = a ++ e :: b ++ e' :: c ->
       (e = (NLock t k, RAcquired) \/ e = (NTryLock t k, RAcquired)) ->
       (e' = (NLock t' k', RAcquired) \/ e' = (NTryLock t' k', RAcquired)) -> slot n k = slot n k' ->
       exists u j, (NUnlock u j, RReleased) ∈ b /\ slot n j = slot n k)).
  { clear es tr. induction es as [|e es IH]; intros nl Hnum Hs; cbn [num_run].
    - cbn [fst]. split; [intros e He; inversion He|]. split; [intros i _ _ [|? ?] c t' k' e' HE; discriminate|].
      intros [|? ?] b c t k t' k' e e' HE; discriminate.
    - pose proof (fun i => num_bit n Hn nl e i Hnum Hs) as HB. destruct (num_step nl e) as [x nl'] eqn:Es.
      assert (H0n : 0 <= 0 < n) by lia. destruct (HB 0 H0n) as (Hnum' & Hs' & _ & _).
      destruct (IH nl' Hnum' Hs') as (IH1 & IH2 & IH3). destruct (num_run nl' es) as [tr' nl2]. cbn [fst] in *. split; [|split].
      + intros y Hy Hp. apply elem_of_cons in Hy. destruct Hy as [->|Hy]; [|auto]. cbn [fst snd] in *.
        destruct e as [t k|t k|t k]; [exfalso..|eauto].
        * destruct (HB _ (slot_range n k ltac:(lia))) as (_ & _ & _ & HP). destruct (HP t k ltac:(auto) eq_refl). auto.
        * destruct (HB _ (slot_range n k ltac:(lia))) as (_ & _ & _ & HP). destruct (HP t k ltac:(auto) eq_refl). auto.
      + intros i Hi Hlk b c t' k' e' HE He' Hk'. destruct (HB i Hi) as (_ & _ & Hcase & HP). destruct b as [|y b].
        * cbn [app] in HE. injection HE as HE1 HE2. subst e'. exfalso.
          assert (x = RAcquired /\ (e = NLock t' k' \/ e = NTryLock t' k')) as [-> He].
          { destruct He' as [He'|He']; injection He' as -> ->; auto. }
          destruct (HP t' k' He Hk') as [_ HF]. rewrite (HF eq_refl) in Hlk. discriminate.
        * cbn [app] in HE. injection HE as HE1 HE2. subst y. destruct Hcase as [Hsame|[Hacq|Hrel]].
          -- rewrite Hlk in Hsame. destruct (IH2 i Hi Hsame b c t' k' e' HE2 He' Hk') as (u & j & Hin & Hj).
             exists u, j. split; [right; auto|auto].
          -- destruct Hacq as (? & ? & _ & _ & _ & Hf & _). congruence.
          -- destruct Hrel as (u & j & -> & Hj & -> & _). exists u, j. split; [left|auto].
      + intros [|y a] b c t k t' k' e1 e' HE He1 He' Hk.
        * cbn [app] in HE. injection HE as HE1 HE2. subst e1.
          assert (x = RAcquired /\ (e = NLock t k \/ e = NTryLock t k)) as [-> He].
          { destruct He1 as [He1|He1]; injection He1 as -> ->; auto. }
          destruct (HB _ (slot_range n k ltac:(lia))) as (_ & _ & Hcase & HP). destruct (HP t k He eq_refl) as [_ HF]. specialize (HF eq_refl).
          assert (Ht : lockm nl' !! slot n k = Some true).
          { destruct Hcase as [Hsame|[(? & ? & _ & _ & _ & _ & Hok)|(? & ? & Hu & _)]]; [|auto|destruct He; congruence].
            exfalso. clear - Es HF He Hn Hnum Hsame. unfold num_step in Es.
            destruct He as [-> | ->]; rewrite Hnum, num_index_slot, HF in Es by auto; injection Es as <-; cbn [lockm] in Hsame;
              rewrite lookup_insert, HF in Hsame; discriminate. }
          eapply IH2; eauto. apply slot_range. lia.
        * cbn [app] in HE. injection HE as HE1 HE2. eapply IH3; eauto. }
  destruct (HG es (NewNumLock n) eq_refl) as (H1 & _ & H3).
  - intros j Hj. cbn [NewNumLock lockm]. rewrite put_all_lookup. destruct (decide _); [eauto|lia].
  - split; [exact H1|exact H3].
Qed.
Print Assumptions c40_acquisitions_alternate.

(** Key -1 and key 15 share a mutex of sixteen; goroutine 1 waits, then gets it. *)
Definition c40_es := [NLock 0 (-1); NTryLock 1 15; NLock 1 15; NLock 1 3; NUnlock 0 (-1); NLock 1 15].
Example c40_ex : ndisciplined 16 c40_es /\
  (num_run (NewNumLock 16) c40_es).1.*2 = [RAcquired; RFailed; RBlocked; RAcquired; RReleased; RAcquired] /\
  nholders 16 (num_run (NewNumLock 16) c40_es).1 = [(1%nat, 15); (1%nat, 3)].
Proof.
  split; [|vm_compute; auto]. unfold c40_es. intros pre t k post HE.
  repeat (destruct pre as [|? pre]; cbn [app] in HE;
    [first [discriminate HE|injection HE; intros; subst; first [discriminate|apply elem_of_list_In; vm_compute; tauto]]
    |first [discriminate HE|injection HE as <- HE]]).
Qed.
(** muxNum = 0: the first Lock divides by zero. *)
Example c40_ex_zero : (num_run (NewNumLock 0) [NLock 0 5]).1 = [(NLock 0 5, RPanic)].
Proof. reflexivity. Qed.

(** C41. While a goroutine holds the write lock of a key, there is no other holder of that lock, reader or writer. *)
Theorem c41_writer_alone : forall (key : Type) (h : key -> Z) n es t s l1 l2, 1 <= n < 2^63 -> sdisciplined h n es ->
  sholders h n (str_run h (NewStrlock n) es).1 = l1 ++ (t, s, true) :: l2 ->
  0 <= s < n -> forall t' b, (t', s, b) ∉ l1 ++ l2.
Proof.
  intros key h n es t s l1 l2 Hn Hd HS Hs t' b Hin. destruct (str_run_inv h n Hn es Hd) as [[_ Hl] _].
  destruct (Hl s Hs) as (w & _ & Hw & Hr). rewrite HS in Hw, Hr.
  assert (HA : forall p : nat * Z * bool -> bool, cnt p (l1 ++ (t, s, true) :: l2) = cnt p (l1 ++ l2) + (if p (t, s, true) then 1 else 0)).
  { intros p. rewrite !cnt_app, cnt_cons. lia. }
  rewrite HA in Hw, Hr. unfold at_w at 2 in Hw. unfold at_r at 2 in Hr. cbn [fst snd] in Hw, Hr. rewrite Z.eqb_refl in Hw, Hr. cbn [andb negb] in Hw, Hr.
  pose proof (cnt_nonneg (at_w s) (l1 ++ l2)).
  destruct w; [|lia]. specialize (Hr eq_refl). destruct b.
  - pose proof (cnt_in (at_w s) _ _ Hin ltac:(unfold at_w; cbn [fst snd]; rewrite Z.eqb_refl; reflexivity)). lia.
  - pose proof (cnt_in (at_r s) _ _ Hin ltac:(unfold at_r; cbn [fst snd]; rewrite Z.eqb_refl; reflexivity)). lia.
Qed.
Print Assumptions c41_writer_alone.

(** C41. No call panics. *)
Theorem c41_no_panic : forall (key : Type) (h : key -> Z) n es, 1 <= n < 2^63 -> sdisciplined h n es ->
  Forall (fun x => x.2 <> RPanic) (str_run h (NewStrlock n) es).1.
Proof. intros key h n es Hn Hd. apply (str_run_inv h n Hn es Hd). Qed.
Print Assumptions c41_no_panic.

(** C41. Exactly when a call gets the lock: a reader needs no writer (holding or waiting), a writer needs no holder at all. *)
Theorem c41_outcome : forall (key : Type) (h : key -> Z) n es t k w, 1 <= n < 2^63 -> sdisciplined h n es ->
  let sl := (str_run h (NewStrlock n) es).2 in
  let hs := sholders h n (str_run h (NewStrlock n) es).1 in
  ((str_step h sl (SLock t k)).1 = RAcquired <-> forall t' b, (t', sslot h n k, b) ∉ hs) /\
  ((str_step h sl (STryLock t k)).1 = RAcquired <-> forall t' b, (t', sslot h n k, b) ∉ hs) /\
  ((str_step h sl (SRLock w t k)).1 = RAcquired <-> w = false /\ forall t', (t', sslot h n k, true) ∉ hs) /\
  ((str_step h sl (STryRLock w t k)).1 = RAcquired <-> w = false /\ forall t', (t', sslot h n k, true) ∉ hs).
Proof.
  intros key h n es t k w Hn Hd sl hs. destruct (str_run_inv h n Hn es Hd) as [[Hnum Hl] _]. fold sl hs in Hnum, Hl.
  set (s := sslot h n k) in *. destruct (Hl s (sslot_range h n Hn k)) as (wr & Ek & Hw & Hr).
  assert (HW : forall t', (t', s, true) ∈ hs -> wr = true).
  { intros t' Ht'. pose proof (cnt_in (at_w s) _ _ Ht' ltac:(unfold at_w; cbn [fst snd]; rewrite Z.eqb_refl; reflexivity)). destruct wr; [auto|lia]. }
  assert (HR : forall t', (t', s, false) ∈ hs -> 0 < cnt (at_r s) hs).
  { intros t' Ht'. pose proof (cnt_in (at_r s) _ _ Ht' ltac:(unfold at_r; cbn [fst snd]; rewrite Z.eqb_refl; reflexivity)). lia. }
  assert (HX : forall p, 1 <= cnt p hs -> exists x, x ∈ hs /\ p x = true).
  { clearbody hs. clear. intros p. induction hs as [|x l IH]; [unfold cnt; cbn; lia|]. rewrite cnt_cons. destruct (p x) eqn:Ep.
    - intros _. exists x. split; [left|auto].
    - intros Hl. destruct IH as (y & Hy & Hp); [lia|]. exists y. split; [right; auto|auto]. }
  assert (HW' : wr = true -> exists t', (t', s, true) ∈ hs).
  { intros ->. destruct (HX (at_w s)) as ([[t' s'] b] & Hin & Hp); [lia|]. unfold at_w in Hp. cbn [fst snd] in Hp.
    apply andb_prop in Hp. destruct Hp as [Hp ->]. apply Z.eqb_eq in Hp as ->. eauto. }
  assert (HR' : 0 < cnt (at_r s) hs -> exists t', (t', s, false) ∈ hs).
  { intros H0. destruct (HX (at_r s)) as ([[t' s'] b] & Hin & Hp); [lia|]. unfold at_r in Hp. cbn [fst snd] in Hp.
    apply andb_prop in Hp. destruct Hp as [Hp Hb]. apply Z.eqb_eq in Hp as ->. destruct b; [discriminate|]. eauto. }
  unfold str_step. cbn [sev_key]. rewrite Hnum, str_index_slot by auto. fold s. rewrite Ek. cbn [rw_step].
  assert (HLK : (if wr || (0 <? cnt (at_r s) hs) then False else True) <-> forall t' b, (t', s, b) ∉ hs).
  { destruct wr; cbn [orb].
    - split; [intros []|]. intros HN. destruct (HW' eq_refl) as [t' Ht']. exact (HN _ _ Ht').
    - destruct (Z.ltb_spec 0 (cnt (at_r s) hs)) as [H0|H0].
      + split; [intros []|]. intros HN. destruct (HR' H0) as [t' Ht']. exact (HN _ _ Ht').
      + split; [|auto]. intros _ t' [] Hin; [specialize (HW _ Hin); discriminate|specialize (HR _ Hin); lia]. }
  assert (HRK : (if wr || w then False else True) <-> w = false /\ forall t', (t', s, true) ∉ hs).
  { destruct wr; cbn [orb].
    - split; [intros []|]. intros [_ HN]. destruct (HW' eq_refl) as [t' Ht']. exact (HN _ Ht').
    - destruct w; [split; [intros []|intros [? _]; discriminate]|]. split; [|auto]. intros _. split; [auto|].
      intros t' Hin. specialize (HW _ Hin). discriminate. }
  rewrite <- HLK, <- HRK. destruct wr, (0 <? cnt (at_r s) hs), w; cbn [orb fst]; repeat split; try discriminate; try tauto; auto.
Qed.
Print Assumptions c41_outcome.

Definition c41_h (k : Z) : Z := k * 5.
Definition c41_es := [SRLock false 0 1; SRLock false 1 1; SLock 2 9; SRUnlock 0 1; STryLock 2 1; SRUnlock 1 1; SLock 2 9; STryRLock false 0 1].
(** Two readers together, then a writer alone. Keys 1 and 9 share a lock of eight. *)
Example c41_ex : sdisciplined c41_h 8 c41_es /\
  (str_run c41_h (NewStrlock 8) c41_es).1.*2 =
    [RAcquired; RAcquired; RBlocked; RReleased; RFailed; RReleased; RAcquired; RFailed] /\
  sholders c41_h 8 (str_run c41_h (NewStrlock 8) c41_es).1 = [(2%nat, 5, true)].
Proof.
  split; [|vm_compute; auto]. unfold c41_es. split; intros pre t k post HE;
  repeat (destruct pre as [|? pre]; cbn [app] in HE;
    [first [discriminate HE|injection HE; intros; subst; first [discriminate|apply elem_of_list_In; vm_compute; tauto]]
    |first [discriminate HE|injection HE as <- HE]]).
Qed.

(** C42. In every interleaving, at every moment, at most [limit] callers hold the lock: acquisitions that returned,
    minus Unlocks that took effect. *)
Theorem c42_at_most_limit : forall limit progs sched, 0 <= limit ->
  let c := ll_run (ll_init limit progs) sched in logged is_ok c - released c <= limit.
Proof.
  intros limit progs sched H0 c. destruct (ll_run_inv limit progs sched H0) as [_ Hlen Hrng _ _]. fold c in Hlen, Hrng.
  unfold released. fold (nrecv c).
  assert (0 <= nsent c). { apply sumZ_nonneg. intros th _. destruct (lpc th); lia. } lia.
Qed.
Print Assumptions c42_at_most_limit.

(** C42. Lock waits only when the limit is reached: with fewer than [limit] tokens out, the next step of Lock takes one. *)
Theorem c42_lock_admits : forall limit progs sched t r lg, 0 <= limit ->
  let c := ll_run (ll_init limit progs) sched in
  logged is_ok c + sumZ (fun th => match lpc th with LSent => 1 | _ => 0 end) (lths c) - released c < limit ->
  lths c !! t = Some (LLTh (CLock :: r) LIdle lg) ->
  lths (ll_run c [LStep t false; LStep t false]) !! t = Some (LLTh r LIdle (LLOk :: lg)).
Proof.
  intros limit progs sched t r lg H0 c Hlt Et. destruct (ll_run_inv limit progs sched H0) as [Hcap Hlen _ _ _]. fold c in Hcap, Hlen.
  unfold released in Hlt. fold (nrecv c) (nsent c) in Hlt. unfold ll_run. cbn [foldl ll_step]. rewrite Et. cbn [lpc ltodo].
  destruct (Z.ltb_spec (chlen c) (chcap c)); [|lia].
  assert (Ht : (t < length (lths c))%nat) by (eapply lookup_lt_Some; eauto).
  cbn [ll_step lths]. rewrite list_lookup_insert by auto. cbn [lpc ltodo llog lths].
  rewrite list_lookup_insert by (rewrite insert_length; auto). reflexivity.
Qed.
Print Assumptions c42_lock_admits.

(** C42. LockCount returns the number of acquisitions that have returned. *)
Theorem c42_lock_count : forall limit progs sched t r lg, 0 <= limit ->
  let c := ll_run (ll_init limit progs) sched in logged is_ok c < 2^63 ->
  lths c !! t = Some (LLTh (CLockCount :: r) LIdle lg) ->
  lths (ll_run c [LStep t false]) !! t = Some (LLTh r LIdle (LLCount (logged is_ok c) :: lg)).
Proof.
  intros limit progs sched t r lg H0 c Hb Et. destruct (ll_run_inv limit progs sched H0) as [_ _ _ Hcnt _]. fold c in Hcnt.
  unfold ll_run. cbn [foldl ll_step]. rewrite Et. cbn [lpc ltodo llog lths].
  rewrite list_lookup_insert by (eapply lookup_lt_Some; eauto). do 4 f_equal. rewrite Hcnt. unfold i64. apply wrapS_id; [lia|].
  change (2 ^ (64 - 1)) with (2^63). assert (0 <= logged is_ok c) by (apply sumZ_nonneg; intros; lia). lia.
Qed.
Print Assumptions c42_lock_count.

(** C42. With nothing in flight, Cc returns the number of holders. *)
Theorem c42_cc_quiet : forall limit progs sched t r lg, 0 <= limit ->
  let c := ll_run (ll_init limit progs) sched in logged is_ok c < 2^63 -> ll_quiet c ->
  lths c !! t = Some (LLTh (CCc :: r) LIdle lg) ->
  lths (ll_run c [LStep t false; LStep t false]) !! t = Some (LLTh r LIdle (LLCc (logged is_ok c - logged is_unlocked c) :: lg)).
Proof.
  intros limit progs sched t r lg H0 c Hb Hq Et. destruct (ll_run_inv limit progs sched H0) as [_ Hlen Hrng Hcnt Hrel].
  fold c in Hcnt, Hrel, Hlen, Hrng.
  assert (Hz : nsent c = 0 /\ nrecv c = 0).
  { split; apply sumZ_zero; intros th Hth; apply elem_of_list_lookup in Hth; destruct Hth as [i Hi]; rewrite (Hq _ _ Hi); auto. }
  assert (0 <= logged is_ok c) by (apply sumZ_nonneg; intros; lia). assert (0 <= logged is_unlocked c) by (apply sumZ_nonneg; intros; lia).
  assert (Ht : (t < length (lths c))%nat) by (eapply lookup_lt_Some; eauto).
  unfold ll_run. cbn [foldl ll_step]. rewrite Et. cbn [lpc ltodo llog]. cbn [ll_step lths]. rewrite list_lookup_insert by auto.
  cbn [lpc ltodo llog lths lrel]. rewrite list_lookup_insert by (rewrite insert_length; auto).
  do 4 f_equal. rewrite Hcnt, Hrel. unfold i64.
  assert (HW : forall x, 0 <= x < 2^63 -> wrapS 64 x = x) by (intros; apply wrapS_id; [lia|]; change (2 ^ (64 - 1)) with (2^63); lia).
  rewrite (HW (logged is_ok c)), (HW (logged is_unlocked c)), HW by lia. reflexivity.
Qed.
Print Assumptions c42_cc_quiet.

(** C42. A Lock that times out changes neither the lock nor what other goroutines see; it only returns. *)
Theorem c42_timeout_changes_nothing : forall limit progs sched t r lg,
  let c := ll_run (ll_init limit progs) sched in
  lths c !! t = Some (LLTh (CLock :: r) LIdle lg) ->
  let c' := ll_run c [LStep t true] in
  chlen c' = chlen c /\ lcount c' = lcount c /\ lrel c' = lrel c /\ logged is_ok c' = logged is_ok c /\ released c' = released c /\
  lths c' = <[t := LLTh r LIdle (LLTimeout :: lg)]> (lths c).
Proof.
  intros limit progs sched t r lg c Et c'. unfold c', ll_run. cbn [foldl ll_step]. rewrite Et. cbn [lpc ltodo llog chlen lcount lrel lths].
  repeat split; unfold released, logged; cbn [lths]; rewrite ?(sumZ_insert _ _ _ _ _ Et); cbn [llog lpc List.filter is_ok is_unlocked length]; lia.
Qed.
Print Assumptions c42_timeout_changes_nothing.

(** Three goroutines, limit 2: one times out. *)
Example c42_ex : let c := ll_run (ll_init 2 [[CLock; CUnlock]; [CLock; CLockCount; CCc]; [CLock]])
    [LStep 0 false; LStep 1 false; LStep 2 false; LStep 2 true; LStep 0 false; LStep 1 false; LStep 0 false; LStep 0 false;
     LStep 1 false; LStep 1 false; LStep 1 false] in
  map llog (lths c) = [[LLUnlocked; LLOk]; [LLCc 1; LLCount 2; LLOk]; [LLTimeout]] /\ ll_quiet c.
Proof. split; [reflexivity|]. intros [|[|[|t]]] th Hth; vm_compute in Hth; simplify_eq; reflexivity. Qed.

(** C42. During concurrent calls Cc can be wrong: here it returns -1. *)
Theorem c42_cc_can_be_negative : exists limit progs sched,
  LLCc (-1) ∈ concat (map llog (lths (ll_run (ll_init limit progs) sched))) /\ 1 <= limit.
Proof.
  exists 2, [[CLock; CUnlock]; [CCc]], [LStep 1 false; LStep 0 false; LStep 0 false; LStep 0 false; LStep 0 false; LStep 1 false].
  split; [|lia]. vm_compute. repeat first [left|right].
Qed.
Print Assumptions c42_cc_can_be_negative.
