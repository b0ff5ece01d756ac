(** Lemmas for the life of a mapping. *)
From stdpp Require Import list.
From Coq Require Import ZArith Lia Bool.
From Verif Require Import GoInt Mmap_Model MmapLife_Model MmapLife_Spec.
Local Open Scope Z_scope.

Lemma put_length bs : forall m n, length (put_bytes_at m n bs) = length m.
Proof. induction bs as [|b r IH]; intros m n; cbn; [done|]. rewrite IH. apply insert_length. Qed.
Lemma put_lookup_before bs : forall m n i, (i < n)%nat -> put_bytes_at m n bs !! i = m !! i.
Proof. induction bs as [|b r IH]; intros m n i H; cbn; [done|]. rewrite IH by lia. apply list_lookup_insert_ne. lia. Qed.

Lemma lput_spec bs : forall m n, (n + length bs <= length m)%nat -> lput m n bs = put_bytes_at m n bs.
Proof.
  induction bs as [|b r IH]; intros m n H; unfold lput in *; cbn in *.
  - rewrite Nat.add_0_r. apply take_drop.
  - rewrite <- IH by (rewrite insert_length; lia).
    assert (L : (n < length m)%nat) by lia.
    rewrite (take_S_r _ _ b) by (apply list_lookup_insert; lia).
    rewrite take_insert by lia. rewrite drop_insert_gt by lia.
    rewrite <- app_assoc. cbn. do 3 f_equal. f_equal. lia.
Qed.

Lemma slice_ok_range s c n : mlen c < 2^63 -> mslice_ok s c n = true ->
  0 <= n /\ n + mlen c <= Z.of_nat (length (mmem s)).
Proof.
  intros L. unfold mslice_ok. rewrite !andb_true_iff, !Z.leb_le. intros [[A B] C].
  assert (0 <= mlen c) by (unfold mlen; lia).
  pose proof (wrapS_range 64 (n + mlen c) ltac:(lia)) as R. fold (i64 (n + mlen c)) in R.
  change (2^(64-1)) with (2^63) in R.
  split; [done|].
  destruct (Z_lt_le_dec (n + mlen c) (2^63)) as [H1|H1].
  - unfold i64 in C. rewrite wrapS_id in C; [done|lia|]. change (2^(64-1)) with (2^63). lia.
  - exfalso. assert (E : i64 (n + mlen c) = n + mlen c - 2^64); [|lia].
    unfold i64. rewrite <- (wrapS_id 64 (n + mlen c - 2^64)) by (change (2^(64-1)) with (2^63); lia).
    apply wrapS_eq_mod; [lia|].
    replace (n + mlen c) with ((n + mlen c - 2^64) + 1 * 2^64) at 1 by lia. apply Z.mod_add. lia.
Qed.

(** What holds of an Mmap throughout its life. *)
Definition lgood (file : list Z) (maps : nat) (x : life * list (lcall * lres)) : Prop :=
  lfile x.1 = file_after file x.2 /\ length (lfile x.1) = length file /\ lmax x.1 = Z.of_nat (length file) /\
  (lhdr x.1 = true -> lmaps x.1 = S maps) /\ (maps <= lmaps x.1 <= S maps)%nat.
(** Arguments that fit into memory. *)
Definition lfits (c : lcall) : Prop := match c with LWrite c => mlen c < 2^63 | _ => True end.
Definition efits (e : levent) : Prop := match e with LCall c _ _ _ => lfits c | LWB _ => True end.

Lemma lwrite_spec page s c a s' r : 0 < page -> mlen c < 2^63 -> lwrite page s c a = (s', r) ->
  lfile s' = match wrote (LWrite c) (LR r) with Some (n, bs) => put_bytes_at (lfile s) n bs | None => lfile s end /\
  lhdr s' = lhdr s /\ lmax s' = lmax s /\ lmaps s' = lmaps s /\ lopen s' = lopen s /\
  (lhdr s = false -> ldisk s' = ldisk s \/ mbytes c = []) /\
  (lhdr s = false -> mbytes c <> [] -> r = MRFull \/ r = MRPanic).
Proof.
  intros Hp L. unfold lwrite. cbv zeta.
  destruct (mfull (lview s) c) eqn:EF.
  { intros [= <- <-]. assert (wrote (LWrite c) (LR MRFull) = None) as -> by (destruct c; done). naive_solver. }
  destruct (mslice_ok (lview s) c (mwhere (lview s) c)) eqn:ES.
  2:{ intros [= <- <-]. assert (wrote (LWrite c) (LR MRPanic) = None) as -> by (destruct c; done). cbn. naive_solver. }
  apply slice_ok_range in ES as [N0 N1]; [|done].
  remember (mwhere (lview s) c) as n eqn:En.
  assert (W : forall r, r = mok c n \/ r = mfail c n -> msyncs c = true \/ r = mok c n ->
              wrote (LWrite c) (LR r) = Some (Z.to_nat n, mbytes c)).
  { intros r' [-> | ->] H; destruct c; cbn in *; try done; subst n; try done; destruct H; done. }
  assert (F : (if lhdr s then lput (lfile s) (Z.to_nat n) (mbytes c) else lfile s) = put_bytes_at (lfile s) (Z.to_nat n) (mbytes c)).
  { cbn in N1. unfold lslice in N1. unfold mlen in N1. destruct (lhdr s).
    - apply lput_spec. lia.
    - cbn in N1. destruct (mbytes c); [done|]. cbn in N1. lia. }
  assert (NE : lhdr s = false -> mbytes c = []).
  { intros E. cbn in N1. unfold lslice in N1. rewrite E in N1. unfold mlen in N1. destruct (mbytes c); [done|]. cbn in N1. lia. }
  cbn [lhdr lfile ldisk loff lmax lmaps lopen].
  destruct (msyncs c) eqn:EM.
  - destruct (msync_args _ _ _ _ _) as [[st l]|] eqn:EA.
    + destruct a; intros [= <- <-]; rewrite W by auto; cbn; rewrite F; (repeat split; [tauto..|]); naive_solver.
    + intros [= <- <-]. assert (wrote (LWrite c) (LR MRPanic) = None) as -> by (destruct c; done). cbn.
      assert (E0 : mbytes c = []).
      { destruct (mbytes c) eqn:EB; [done|]. exfalso.
        unfold msync_args, lslice in EA. cbn [lhdr lfile] in EA. destruct (lhdr s) eqn:EH; [|specialize (NE eq_refl); congruence].
        rewrite F, put_length in EA.
        assert (0 < mlen c) by (unfold mlen; rewrite EB; cbn; lia).
        cbn in N1. unfold lslice in N1. rewrite EH in N1.
        pose proof (Z.quot_pos n page ltac:(lia) ltac:(lia)).
        pose proof (Z.mul_quot_le n page ltac:(lia) ltac:(lia)).
        assert (0 <= Z.quot n page * page < Z.of_nat (length (lfile s))) by nia.
        destruct (0 <=? Z.quot n page * page) eqn:E1; [|lia].
        destruct (Z.quot n page * page <? Z.of_nat (length (lfile s))) eqn:E2; [done|lia]. }
      rewrite F, E0. cbn. naive_solver.
  - intros [= <- <-]. rewrite W by auto. cbn. rewrite F. naive_solver.
Qed.

Lemma lcall_good page file maps s log c a b d s' r : 0 < page -> lfits c -> lgood file maps (s, log) ->
  lcall_step page s c a b d = (s', r) -> lgood file maps (s', (c, r) :: log).
Proof.
  intros Hp Hf (A & B & C & D & E). cbn [fst snd] in *. unfold lgood. cbn [fst snd file_after].
  destruct c as [c| | | | | |]; cbn [lcall_step].
  - destruct (lwrite page s c a) as [s1 r1] eqn:EW. intros [= <- <-].
    destruct (lwrite_spec _ _ _ _ _ _ Hp Hf EW) as (F & H & M & N & O & _).
    rewrite F, H, M, N. destruct (wrote (LWrite c) (LR r1)) as [[n bs]|]; [|auto].
    rewrite put_length, A. rewrite <- A. auto.
  - unfold lflush. destruct a; intros [= <- <-]; cbn; auto.
  - unfold lunmap. destruct (lhdr s) eqn:EH; [destruct b|]; intros [= <- <-]; cbn; repeat split; try done; try lia; rewrite ?D by done; try lia; congruence.
  - unfold lunmap, lfclose. destruct (lhdr s) eqn:EH; [|intros [= <- <-]; cbn; rewrite EH; auto].
    destruct b; cbn [lopen]; [destruct (lopen s)|]; intros [= <- <-]; cbn; repeat split; try done; try lia; rewrite ?D by done; try lia.
  - unfold lflush, lunmap. destruct a; [|intros [= <- <-]; cbn; auto]. cbn [lhdr lmaps].
    destruct (lhdr s) eqn:EH; [destruct b|]; intros [= <- <-]; cbn; repeat split; try done; try lia; rewrite ?D by done; try lia; try congruence.
  - intros [= <- <-]. cbn. auto.
  - intros [= <- <-]. cbn. auto.
Qed.

Lemma lrun_good page file maps es : 0 < page -> forall x, lgood file maps x -> Forall efits es -> lgood file maps (foldl (levent_step page) x es).
Proof.
  intros Hp. induction es as [|e es IH]; intros [s log] G F; [done|]. inversion F as [|? ? Fe Fr]; subst. cbn [foldl].
  apply IH; [|done]. destruct e as [c a b d|a]; cbn [levent_step].
  - destruct (lcall_step page s c a b d) as [s1 r1] eqn:E. exact (lcall_good _ _ _ _ _ _ _ _ _ _ _ Hp Fe G E).
  - destruct (lfile s !! a); [|done]. exact G.
Qed.

Lemma lnew_good file disk maps start st mp s k : lnew file disk maps start st mp = (Some s, k) -> lgood file maps (s, []).
Proof.
  unfold lnew. destruct (negb st); [done|]. destruct (Z.of_nat (length file) =? 0); [done|]. destruct (negb mp); [done|].
  destruct (Z.of_nat (length file) <=? start); [done|]. intros [= <- <-]. unfold lgood. cbn. repeat split; try done; lia.
Qed.

(** The mapping is gone. *)
Lemma gone_call page s c a b d s' r : 0 < page -> lfits c -> lhdr s = false -> lcall_step page s c a b d = (s', r) ->
  lhdr s' = false /\ lfile s' = lfile s /\ lmaps s' = lmaps s /\ lopen s' = lopen s /\
  (writes c -> r = LR MRFull \/ r = LR MRPanic) /\ (releases c -> r = LSysErr) /\ (c = LBytes -> r = LSlice []).
Proof.
  intros Hp Hf Hh. unfold releases. destruct c as [c| | | | | |]; cbn [lcall_step writes].
  - destruct (lwrite page s c a) as [s1 r1] eqn:EW. intros [= <- <-].
    destruct (lwrite_spec _ _ _ _ _ _ Hp Hf EW) as (F & H & M & N & O & _ & P).
    specialize (P Hh). repeat split; try congruence; try (intros [|[|]]; done); [|naive_solver].
    rewrite F. destruct (wrote (LWrite c) (LR r1)) as [[n bs]|] eqn:EWr; [|done].
    destruct (mbytes c) eqn:EB.
    + assert (bs = []) as -> by (destruct c, r1; cbn in EWr, EB; congruence). done.
    + exfalso. destruct (P ltac:(done)) as [-> | ->]; destruct c; done.
  - unfold lflush. rewrite Hh. destruct a; intros [= <- <-]; cbn; naive_solver.
  - unfold lunmap. rewrite Hh. intros [= <- <-]. cbn. naive_solver.
  - unfold lunmap. rewrite Hh. intros [= <- <-]. cbn. naive_solver.
  - unfold lflush, lunmap. rewrite Hh. destruct a; cbn; rewrite ?Hh; intros [= <- <-]; cbn; naive_solver.
  - unfold lslice. rewrite Hh. intros [= <- <-]. cbn. naive_solver.
  - intros [= <- <-]. cbn. naive_solver.
Qed.

Lemma gone_run page es : 0 < page -> Forall efits es -> forall s log, lhdr s = false ->
  let x := foldl (levent_step page) (s, log) es in
  lhdr x.1 = false /\ lfile x.1 = lfile s /\ lmaps x.1 = lmaps s /\ lopen x.1 = lopen s /\
  exists new, x.2 = new ++ log /\ Forall (fun e => (writes e.1 -> e.2 = LR MRFull \/ e.2 = LR MRPanic) /\ (releases e.1 -> e.2 = LSysErr)) new.
Proof.
  intros Hp. induction es as [|e es IH]; intros F s log Hh; cbn [foldl].
  { cbn. repeat split; try done. by exists []. }
  inversion F as [|? ? Fe Fr]; subst. destruct e as [c a b d|a]; cbn [levent_step].
  - destruct (lcall_step page s c a b d) as [s1 r1] eqn:E.
    destruct (gone_call _ _ _ _ _ _ _ _ Hp Fe Hh E) as (A & B & C & D & W & R & _).
    destruct (IH Fr s1 ((c, r1) :: log) A) as (A1 & B1 & C1 & D1 & new & E1 & F1). cbv zeta.
    repeat split; try congruence. exists (new ++ [(c, r1)]). rewrite <- app_assoc. split; [done|].
    apply Forall_app. split; [done|]. constructor; [|constructor]. cbn. auto.
  - destruct (lfile s !! a) as [v|]; [|apply IH; done]. refine (IH Fr _ log _). exact Hh.
Qed.

(** Goroutines: nobody touches the mapping once it has been given back, if giving it back is the last call of all. *)
Definition usafe (c : uconf) : Prop :=
  udead c = false /\ (umap c = true \/ forall t th, uths c !! t = Some th -> utodo th = [] /\ forall k, upos th <> UCopy (S k)).

Lemma usafe_step c e : usafe c -> (about_to_release c e.1 -> alone c e.1 /\ last_call c e.1) -> usafe (uconf_step c e).
Proof.
  intros [D S] R. unfold uconf_step. rewrite D. destruct e as [t ok]. cbn [fst snd] in *.
  destruct (uths c !! t) as [th|] eqn:ET; [|done].
  destruct (uthread_step (umap c) (uhdr c) th ok) as [[[[m h] d] th']|] eqn:EU; [|done].
  destruct th as [todo pos keeps log]. unfold uthread_step in EU. cbn [utodo upos ukeeps ulog] in EU.
  destruct S as [M | S].
  - (* the mapping is there *)
    destruct pos as [|[|k]|okn].
    + destruct todo as [|[k| | |] r]; [done| | | |].
      * destruct (uhdr c); injection EU as <- <- <- <-; split; cbn; auto.
      * assert (AR : about_to_release c t) by (exists (UTh (URelease :: r) UIdle keeps log), r; done).
        destruct (R AR) as [AL (th1 & E1 & E2 & _)]. rewrite ET in E1. injection E1 as <-. cbn in E2. injection E2 as ->.
        rewrite M in EU. destruct (uhdr c) eqn:EH; cbn in EU; injection EU as <- <- <- <-; split; cbn; auto.
        right. intros t' th2. destruct (decide (t = t')) as [<-|N].
        -- rewrite list_lookup_insert by (apply lookup_lt_is_Some; eauto). intros [= <-]. cbn. split; [done|]. intros ? [=].
        -- rewrite list_lookup_insert_ne by done. intros E3. destruct (AL t' th2 ltac:(done) E3) as [? P2]. rewrite P2. split; [done|]. intros ? [=].
      * injection EU as <- <- <- <-; split; cbn; auto.
      * rewrite M in EU. destruct keeps; injection EU as <- <- <- <-; split; cbn; auto.
    + injection EU as <- <- <- <-; split; cbn; auto.
    + rewrite M in EU. injection EU as <- <- <- <-; split; cbn; auto.
    + injection EU as <- <- <- <-; split; cbn; auto.
  - destruct (S t _ ET) as [T P]. cbn in T, P. subst todo.
    assert (X : d = false /\ utodo th' = [] /\ forall k, upos th' <> UCopy (Datatypes.S k)).
    { destruct pos as [|[|k]|okn]; try done; try (injection EU as <- <- <- <-; cbn; repeat split; intros ? [=]).
      by destruct (P k). }
    destruct X as (-> & X1 & X2). split; [done|]. right. cbn. intros t' th2. destruct (decide (t = t')) as [<-|N].
    + rewrite list_lookup_insert by (apply lookup_lt_is_Some; eauto). intros [= <-]. done.
    + rewrite list_lookup_insert_ne by done. apply S.
Qed.

Lemma usafe_run es : forall c, usafe c -> release_last c es -> usafe (urun c es).
Proof. induction es as [|e es IH]; intros c S R; [done|]. destruct R as [R1 R2]. cbn. apply IH; [by apply usafe_step|done]. Qed.

(** The writing calls here and in Mmap_Model.v agree: a goroutine alone with the Mmap, given turns until it has returned, leaves the
    state and gets the result of [lwrite]. *)
Definition lalone (s : life) (todo : list mcall) (pos : mpc) (lg : list (mcall * mres)) : mconf := MConf (lview s) [MTh todo pos lg].
Lemma mrun_app pl page c e1 e2 : mrun pl page c (e1 ++ e2) = mrun pl page (mrun pl page c e1) e2.
Proof. apply foldl_app. Qed.
Lemma mrun_turn pl page s th ok s' th' : mthread_step pl page s 0 th ok = Some (s', th') ->
  mrun pl page (MConf s [th]) [MTurn 0 ok] = MConf s' [th'].
Proof. intros H. cbn. rewrite H. done. Qed.
Lemma copy_run page c n d off mx mu : forall k j m lg, (j + k = length (mbytes c))%nat -> 0 <= n ->
  exists evs, mrun Unix page (MConf (MSh m off mx mu d) [MTh [] (MCopy c n j) lg]) evs =
              MConf (MSh (put_bytes_at m (Z.to_nat n + j) (drop j (mbytes c))) off mx mu d) [MTh [] (MCopy c n (length (mbytes c))) lg].
Proof.
  induction k as [|k IH]; intros j m lg H N.
  - exists []. cbn. rewrite drop_ge by lia. assert (j = length (mbytes c)) as -> by lia. done.
  - destruct (lookup_lt_is_Some_2 (mbytes c) j ltac:(lia)) as [b Hb].
    destruct (IH (S j) (<[Z.to_nat (n + Z.of_nat j) := b]> m) lg ltac:(lia) N) as [evs E].
    exists (MTurn 0 true :: evs). change (MTurn 0 true :: evs) with ([MTurn 0 true] ++ evs). rewrite mrun_app.
    rewrite (mrun_turn _ _ _ _ _ (MSh (<[Z.to_nat (n + Z.of_nat j) := b]> m) off mx mu d) (MTh [] (MCopy c n (S j)) lg)).
    2:{ cbn. rewrite Hb. done. }
    rewrite E. rewrite (drop_S _ _ _ Hb). cbn [put_bytes_at].
    replace (Z.to_nat (n + Z.of_nat j)) with (Z.to_nat n + j)%nat by lia. replace (Z.to_nat n + S j)%nat with (S (Z.to_nat n + j)) by lia. done.
Qed.
Lemma sync_run page c n m off mx mu lg : forall l a d, (a + l <= length m)%nat -> length d = length m ->
  exists evs, mrun Unix page (MConf (MSh m off mx mu d) [MTh [] (MSyncing c n a l) lg]) evs =
              MConf (MSh m off mx mu (lsync d m a l)) [MTh [] (MSyncing c n (a + l) 0) lg].
Proof.
  induction l as [|l IH]; intros a d H L.
  - exists []. unfold lsync. rewrite take_0, !Nat.add_0_r. change ([] ++ drop a d) with (drop a d). rewrite take_drop. done.
  - destruct (lookup_lt_is_Some_2 m a ltac:(lia)) as [b Hb].
    destruct (IH (S a) (<[a := b]> d) ltac:(lia) ltac:(by rewrite insert_length)) as [evs E].
    exists (MTurn 0 true :: evs). change (MTurn 0 true :: evs) with ([MTurn 0 true] ++ evs). rewrite mrun_app.
    rewrite (mrun_turn _ _ _ _ _ (MSh m off mx mu (<[a := b]> d)) (MTh [] (MSyncing c n (S a) l) lg)).
    2:{ cbn. rewrite Hb. done. }
    rewrite E. replace (S a + l)%nat with (a + S l)%nat by lia. f_equal. f_equal. unfold lsync.
    rewrite (take_S_r _ a b) by (apply list_lookup_insert; lia).
    rewrite take_insert by lia. rewrite (drop_S _ _ _ Hb). cbn [take]. rewrite drop_insert_gt by lia.
    rewrite <- app_assoc. cbn. do 3 f_equal. f_equal. lia.
Qed.

Lemma lwrite_run page s c ok s' r : 0 < page -> lhdr s = true -> length (ldisk s) = length (lfile s) -> mlen c < 2^63 ->
  lwrite page s c ok = (s', r) ->
  exists evs, mrun Unix page (lalone s [c] MIdle []) evs = lalone s' [] MIdle [(c, r)].
Proof.
  intros Hp Hh Hd L. unfold lwrite, lalone. cbv zeta.
  assert (S1 : mrun Unix page (MConf (lview s) [MTh [c] MIdle []]) [MTurn 0 ok] =
    MConf (MSh (lfile s) (loff s) (lmax s) (Some 0%nat) (ldisk s)) [MTh [] (MIn c) []]).
  { cbn. unfold lview, lslice. rewrite Hh. done. }
  assert (V : lview s = MSh (lfile s) (loff s) (lmax s) None (ldisk s)) by (unfold lview, lslice; rewrite Hh; done).
  assert (FF : mfull (MSh (lfile s) (loff s) (lmax s) (Some 0%nat) (ldisk s)) c = mfull (lview s) c) by (rewrite V; destruct c; done).
  assert (WW : mwhere (MSh (lfile s) (loff s) (lmax s) (Some 0%nat) (ldisk s)) c = mwhere (lview s) c) by (rewrite V; destruct c; done).
  assert (OO : mnewoff (MSh (lfile s) (loff s) (lmax s) (Some 0%nat) (ldisk s)) c = mnewoff (lview s) c) by (rewrite V; destruct c; done).
  destruct (mfull (lview s) c) eqn:EF.
  { intros [= <- <-]. exists ([MTurn 0 ok] ++ [MTurn 0 ok]). rewrite mrun_app, S1.
    apply mrun_turn. cbn [mthread_step mpos]. rewrite FF. cbn. rewrite V. done. }
  remember (mwhere (lview s) c) as n eqn:En. remember (mnewoff (lview s) c) as o eqn:Eo.
  assert (S2 : mrun Unix page (MConf (lview s) [MTh [c] MIdle []]) ([MTurn 0 ok] ++ [MTurn 0 ok] ++ [MTurn 0 ok]) =
    MConf (MSh (lfile s) o (lmax s) None (ldisk s)) [MTh [] (MSlice c n) []]).
  { rewrite !mrun_app, S1.
    rewrite (mrun_turn _ _ _ _ _ (MSh (lfile s) (loff s) (lmax s) (Some 0%nat) (ldisk s)) (MTh [] (MStore c n) [])).
    2:{ cbn [mthread_step mpos]. rewrite FF, WW. done. }
    apply mrun_turn. cbn [mthread_step mpos mmem mmax mdisk]. rewrite OO. done. }
  remember ([MTurn 0 ok] ++ [MTurn 0 ok] ++ [MTurn 0 ok]) as ev0 eqn:Ev0. clear Ev0.
  assert (SO : mslice_ok (MSh (lfile s) o (lmax s) None (ldisk s)) c n = mslice_ok (lview s) c n) by (rewrite V; done).
  cbn [lhdr lfile ldisk loff lmax lmaps lopen]. rewrite Hh.
  destruct (mslice_ok (lview s) c n) eqn:ES.
  2:{ intros [= <- <-]. exists (ev0 ++ [MTurn 0 ok]). rewrite mrun_app, S2.
      apply mrun_turn. cbn [mthread_step mpos]. rewrite SO. done. }
  apply slice_ok_range in ES as [N0 N1]; [|done]. rewrite V in N1. cbn in N1. unfold mlen in N1.
  rewrite lput_spec by lia.
  remember (put_bytes_at (lfile s) (Z.to_nat n) (mbytes c)) as f eqn:Ef.
  assert (Lf : length f = length (lfile s)) by (subst f; apply put_length).
  destruct (copy_run page c n (ldisk s) o (lmax s) None (length (mbytes c)) 0 (lfile s) [] ltac:(lia) N0) as [ev1 E1].
  rewrite drop_0, Nat.add_0_r, <- Ef in E1.
  assert (S3 : mrun Unix page (MConf (lview s) [MTh [c] MIdle []]) (ev0 ++ [MTurn 0 ok] ++ ev1) =
    MConf (MSh f o (lmax s) None (ldisk s)) [MTh [] (MCopy c n (length (mbytes c))) []]).
  { rewrite !mrun_app, S2.
    rewrite (mrun_turn _ _ _ _ _ (MSh (lfile s) o (lmax s) None (ldisk s)) (MTh [] (MCopy c n 0) [])).
    2:{ cbn [mthread_step mpos]. rewrite SO. done. }
    exact E1. }
  remember (ev0 ++ [MTurn 0 ok] ++ ev1) as ev2 eqn:Ev2. clear Ev2.
  assert (NB : mbytes c !! length (mbytes c) = None) by (apply lookup_ge_None; lia).
  destruct (msyncs c) eqn:EM.
  2:{ intros [= <- <-]. exists (ev2 ++ [MTurn 0 ok]). rewrite mrun_app, S3.
      apply mrun_turn. cbn [mthread_step mpos]. rewrite NB, EM. done. }
  assert (S4 : mrun Unix page (MConf (lview s) [MTh [c] MIdle []]) (ev2 ++ [MTurn 0 ok]) =
    MConf (MSh f o (lmax s) None (ldisk s)) [MTh [] (MSyncIn c n) []]).
  { rewrite mrun_app, S3. apply mrun_turn. cbn [mthread_step mpos]. rewrite NB, EM. done. }
  remember (ev2 ++ [MTurn 0 ok]) as ev3 eqn:Ev3. clear Ev3.
  unfold lslice. cbn [lhdr lfile].
  destruct (msync_args Unix page (Z.of_nat (length f)) n (mlen c)) as [[st l]|] eqn:EA.
  2:{ intros [= <- <-]. exists (ev3 ++ [MTurn 0 ok]). rewrite mrun_app, S4.
      apply mrun_turn. cbn [mthread_step mpos mmem]. rewrite EA. done. }
  destruct ok.
  2:{ intros [= <- <-]. exists (ev3 ++ [MTurn 0 false]). rewrite mrun_app, S4.
      apply mrun_turn. cbn [mthread_step mpos mmem]. rewrite EA. done. }
  intros [= <- <-].
  assert (R : 0 <= st /\ 0 <= l /\ st + l = n + mlen c).
  { unfold msync_args in EA. cbv zeta in EA.
    destruct ((0 <=? Z.quot n page * page) && (Z.quot n page * page <? Z.of_nat (length f))) eqn:EB; [|done].
    injection EA as <- <-. pose proof (Z.mul_quot_le n page ltac:(lia) ltac:(lia)).
    assert (0 <= mlen c) by (unfold mlen; lia). apply andb_true_iff in EB as [EB _]. apply Z.leb_le in EB. lia. }
  unfold mlen in R.
  destruct (sync_run page c n f o (lmax s) None [] (Z.to_nat l) (Z.to_nat st) (ldisk s) ltac:(lia) ltac:(lia)) as [ev4 E4].
  exists (ev3 ++ [MTurn 0 true] ++ ev4 ++ [MTurn 0 true]). rewrite !mrun_app, S4.
  rewrite (mrun_turn _ _ _ _ _ (MSh f o (lmax s) None (ldisk s)) (MTh [] (MSyncing c n (Z.to_nat st) (Z.to_nat l)) [])).
  2:{ cbn [mthread_step mpos mmem]. rewrite EA. done. }
  rewrite E4. apply mrun_turn. done.
Qed.
