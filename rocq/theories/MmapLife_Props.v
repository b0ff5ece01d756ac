(** The properties of the end of a mapping, C123 to C127. *)
From stdpp Require Import list.
From Coq Require Import ZArith Lia Bool.
From Verif Require Import GoInt Mmap_Model MmapLife_Model MmapLife_Spec MmapLife_Proofs.
Local Open Scope Z_scope.

(** C123.  Close that returns nil: the file and the disk hold what the calls have written, in the order of the calls, and the
    mapping is given back; for every history before it and whatever the system answered. *)
Theorem c123_close_persists : forall page file disk maps start s0 k es s log a b d s',
  0 < page -> lnew file disk maps start true true = (Some s0, k) -> Forall efits es -> lrun page s0 es = (s, log) ->
  lcall_step page s LClose a b d = (s', LNil) ->
  ldisk s' = file_after file log /\ lfile s' = file_after file log /\ lmaps s' = maps /\ lslice s' = [].
Proof.
  intros page file disk maps start s0 k es s log a b d s' Hp HN HF HR HC.
  pose proof (lrun_good page file maps es Hp _ (lnew_good _ _ _ _ _ _ _ _ HN) HF) as G.
  unfold lrun in HR. rewrite HR in G. destruct G as (A & B & C & D & E). cbn [fst snd] in *.
  cbn [lcall_step] in HC. unfold lflush, lunmap in HC. destruct a; [|done]. cbn [lhdr lmaps] in HC.
  destruct (lhdr s) eqn:EH; [|done]. destruct b; [|done]. injection HC as <-. cbn. rewrite D by done. auto.
Qed.
Print Assumptions c123_close_persists.

(** Nothing that happens after a successful Close changes the file. *)
Theorem c123_closed_stays : forall page file disk maps start s0 k es s log a b d s' es',
  0 < page -> lnew file disk maps start true true = (Some s0, k) -> Forall efits es -> lrun page s0 es = (s, log) ->
  lcall_step page s LClose a b d = (s', LNil) -> Forall efits es' ->
  lfile (lrun page s' es').1 = file_after file log /\ lmaps (lrun page s' es').1 = maps.
Proof.
  intros page file disk maps start s0 k es s log a b d s' es' Hp HN HF HR HC HF'.
  destruct (c123_close_persists _ _ _ _ _ _ _ _ _ _ _ _ _ _ Hp HN HF HR HC) as (_ & B & C & _).
  assert (H : lhdr s' = false).
  { cbn [lcall_step] in HC. unfold lflush, lunmap in HC. destruct a; [|done]. cbn [lhdr] in HC.
    destruct (lhdr s); [|done]. destruct b; [|done]. by injection HC as <-. }
  destruct (gone_run page es' Hp HF' s' [] H) as (_ & D & E & _). unfold lrun. rewrite D, E. done.
Qed.
Print Assumptions c123_closed_stays.

(** Unmap and UnmapAndCloseFile keep the bytes in the file too, though nothing is said about the disk. *)
Theorem c123_unmap_keeps : forall page file disk maps start s0 k es s log c a b d s' r,
  0 < page -> lnew file disk maps start true true = (Some s0, k) -> Forall efits es -> lrun page s0 es = (s, log) ->
  releases c -> lcall_step page s c a b d = (s', r) -> lfile s' = file_after file log.
Proof.
  intros page file disk maps start s0 k es s log c a b d s' r Hp HN HF HR HC HS.
  pose proof (lrun_good page file maps es Hp _ (lnew_good _ _ _ _ _ _ _ _ HN) HF) as G.
  unfold lrun in HR. rewrite HR in G.
  assert (L : lfits c) by (destruct HC as [-> | [-> | ->]]; done).
  destruct (lcall_good _ _ _ _ _ _ _ _ _ _ _ Hp L G HS) as (A & _). cbn in A. rewrite A.
  destruct HC as [-> | [-> | ->]]; done.
Qed.
Print Assumptions c123_unmap_keeps.

(** Bytes and FileSize at any time: what has been written, or nothing once the slice is nil; the size the file had. *)
Theorem c123_bytes_and_size : forall page file disk maps start s0 k es s log a b d,
  0 < page -> lnew file disk maps start true true = (Some s0, k) -> Forall efits es -> lrun page s0 es = (s, log) ->
  lcall_step page s LBytes a b d = (s, LSlice (if lhdr s then file_after file log else [])) /\
  lcall_step page s LFileSize a b d = (s, LSize (Z.of_nat (length file))) /\
  ((forall c r, (c, r) ∈ log -> ~ releases c) -> lhdr s = true).
Proof.
  intros page file disk maps start s0 k es s log a b d Hp HN HF HR.
  pose proof (lrun_good page file maps es Hp _ (lnew_good _ _ _ _ _ _ _ _ HN) HF) as G.
  pose proof HR as HR'. unfold lrun in HR'. rewrite HR' in G. destruct G as (A & B & C & D & E). cbn [fst snd] in *.
  split; [|split].
  - cbn [lcall_step]. unfold lslice. rewrite A. done.
  - cbn [lcall_step]. rewrite C. done.
  - assert (H0 : lhdr s0 = true).
    { unfold lnew in HN. cbn in HN. destruct (Z.of_nat (length file) =? 0); [done|].
      destruct (Z.of_nat (length file) <=? start); [done|]. by injection HN as <- _. }
    clear A B C D E HN HR. revert H0 HR' HF. generalize (@nil (lcall * lres)) as l0. revert s0.
    induction es as [|e es IH]; intros s0 l0 H0 HR HF HL; [injection HR as <- <-; done|].
    inversion HF as [|? ? Fe Fr]; subst. cbn [foldl] in HR. destruct e as [c x y z|x]; cbn [levent_step] in HR.
    + destruct (lcall_step page s0 c x y z) as [s1 r1] eqn:EC.
      assert (IN : (c, r1) ∈ log).
      { assert (M : forall es x, x.2 `suffix_of` (foldl (levent_step page) x es).2).
        { clear. induction es as [|e es IH]; intros [s l]; [done|]. cbn [foldl]. etrans; [|apply IH].
          destruct e; cbn [levent_step].
          - destruct (lcall_step page s c msync munmap fclose). cbn. by apply suffix_cons_r.
          - destruct (lfile s !! a); done. }
        specialize (M es (s1, (c, r1) :: l0)). rewrite HR in M. destruct M as [pre M]. cbn in M. rewrite M. apply elem_of_app. right. left. }
      apply (IH s1 _) in HR; [done| |done|done].
      pose proof (HL c r1 IN) as NR. unfold releases in NR.
      destruct c as [c| | | | | |]; cbn [lcall_step] in EC; try tauto.
      * destruct (lwrite page s0 c x) as [s2 r2] eqn:EW. injection EC as <- <-.
        destruct (lwrite_spec _ _ _ _ _ _ Hp Fe EW) as (_ & H & _). congruence.
      * unfold lflush in EC. destruct x; injection EC as <- <-; done.
      * injection EC as <- <-. done.
      * injection EC as <- <-. done.
    + destruct (lfile s0 !! x) as [v|]; [|eapply IH; eauto].
      apply (IH _ _) in HR; done.
Qed.
Print Assumptions c123_bytes_and_size.

(** The writing calls are those of C48 to C50: a goroutine alone with the Mmap there does exactly this. *)
Theorem c123_same_writes : forall page s c ok s' r, 0 < page -> lhdr s = true -> length (ldisk s) = length (lfile s) -> mlen c < 2^63 ->
  lcall_step page s (LWrite c) ok ok ok = (s', LR r) ->
  exists evs, mrun Unix page (MConf (lview s) [MTh [c] MIdle []]) evs = MConf (lview s') [MTh [] MIdle [(c, r)]].
Proof.
  intros page s c ok s' r Hp Hh Hd L H. cbn [lcall_step] in H.
  destruct (lwrite page s c ok) as [s1 r1] eqn:E. injection H as <- <-. exact (lwrite_run _ _ _ _ _ _ Hp Hh Hd L E).
Qed.
Print Assumptions c123_same_writes.

(** Two appends, one of them with a failing sync, a WriteAt over the first, an append that does not fit, then Close. *)
Example c123_ex : exists s0 s log s',
  lnew [0;0;0;0;0;0] [0;0;0;0;0;0] 3 1 true true = (Some s0, 4%nat) /\
  lrun 4 s0 [LCall (LWrite (MAppend [7;8])) true true true; LCall (LWrite (MAppendSync [9])) false true true;
             LCall (LWrite (MWriteAt [5] 1)) true true true; LCall (LWrite (MAppend [1;1;1])) true true true] = (s, log) /\
  log = [(LWrite (MAppend [1;1;1]), LR MRFull); (LWrite (MWriteAt [5] 1), LR MRNil); (LWrite (MAppendSync [9]), LR (MRSync 3));
         (LWrite (MAppend [7;8]), LR (MRAt 1))] /\
  lcall_step 4 s LClose true true true = (s', LNil) /\ ldisk s' = [0;5;8;9;0;0] /\ ldisk s = [0;0;0;0;0;0] /\ lmaps s' = 3%nat.
Proof. do 4 eexists. split; [reflexivity|]. split; [vm_compute; reflexivity|]. split; [reflexivity|]. split; [reflexivity|]. done. Qed.

(** C124, as stated: after a call that gave the mapping back, every later call is answered with an error or does nothing.  False: a
    write panics. *)
Theorem c124_error_after_close_refuted : exists page file s0 s bs s' r, 0 < page /\
  lnew file file 0 0 true true = (Some s0, 1%nat) /\ lcall_step page s0 LClose true true true = (s, LNil) /\
  writes (LWrite (MAppend bs)) /\ lcall_step page s (LWrite (MAppend bs)) true true true = (s', r) /\ ~ is_error r /\ r = LR MRPanic /\
  loff s' <> loff s.
Proof.
  exists 4096, [1;2;3]. eexists _, _, [7], _, _. split; [lia|]. split; [reflexivity|]. split; [reflexivity|].
  split; [done|]. split; [reflexivity|]. split; [intros [|]; discriminate|]. split; [reflexivity|]. vm_compute. discriminate.
Qed.
Print Assumptions c124_error_after_close_refuted.

(** What does hold: no later call reports that it wrote or released anything, none changes the file, and the number of mappings
    and the state of the os.File stay; [s] is any state in which the slice is nil, which is so after Unmap and UnmapAndCloseFile
    whatever they return, and after a Close that returned nil (the next theorem). *)
Theorem c124_nothing_happens_partial : forall page s es, 0 < page -> lhdr s = false -> Forall efits es ->
  let x := lrun page s es in
  lfile x.1 = lfile s /\ lmaps x.1 = lmaps s /\ lopen x.1 = lopen s /\
  forall c r, (c, r) ∈ x.2 -> (writes c \/ releases c -> ~ success r) /\ (writes c -> r = LR MRFull \/ r = LR MRPanic).
Proof.
  intros page s es Hp Hh HF x. destruct (gone_run page es Hp HF s [] Hh) as (_ & B & C & D & new & E & F).
  unfold x, lrun. repeat split; try done; rewrite E, app_nil_r in *; rename H into HI;
    rewrite Forall_forall in F; destruct (F _ HI) as [F1 F2]; cbn in F1, F2.
  - intros [W | R]; [destruct (F1 W) as [-> | ->]; by intros []|rewrite (F2 R); by intros []].
  - exact F1.
Qed.
Print Assumptions c124_nothing_happens_partial.

Theorem c124_slice_is_nil_partial : forall page s c a b d s' r, lcall_step page s c a b d = (s', r) ->
  c = LUnmap \/ c = LUnmapClose \/ (c = LClose /\ r = LNil) -> lhdr s' = false.
Proof.
  intros page s c a b d s' r H [-> | [-> | [-> ->]]]; cbn [lcall_step] in H; unfold lflush, lunmap, lfclose in H.
  - destruct (lhdr s) eqn:E; injection H as <- <-; done.
  - destruct (lhdr s) eqn:E; [|injection H as <- <-; done]. destruct b; cbn in H; [destruct (lopen s)|]; injection H as <- <-; done.
  - destruct a; [|done]. cbn in H. destruct (lhdr s); [|done]. destruct b; [|done]. injection H as <-. done.
Qed.
Print Assumptions c124_slice_is_nil_partial.

Example c124_ex : exists s0 s, lnew [1;2;3] [1;2;3] 0 0 true true = (Some s0, 1%nat) /\
  lcall_step 4096 s0 LUnmap true true true = (s, LNil) /\ lhdr s = false /\
  (lrun 4096 s [LCall (LWrite (MAppend [7])) true true true; LCall LClose true true true; LCall LBytes true true true;
                LCall (LWrite (MAppend [7;8;9])) true true true]).2 =
  [(LWrite (MAppend [7;8;9]), LR MRFull); (LBytes, LSlice []); (LClose, LSysErr); (LWrite (MAppend [7]), LR MRPanic)].
Proof. do 2 eexists. split; [reflexivity|]. split; [reflexivity|]. done. Qed.

(** C125, as stated: after UnmapAndCloseFile the file is closed.  False after Close (or Unmap): it stops at the refused munmap. *)
Theorem c125_closes_file_refuted : exists file s0 s s' r,
  lnew file file 0 0 true true = (Some s0, 1%nat) /\ lcall_step 4096 s0 LClose true true true = (s, LNil) /\
  lcall_step 4096 s LUnmapClose true true true = (s', r) /\ r = LSysErr /\ lopen s' = true.
Proof. exists [1;2;3]. do 4 eexists. split; [reflexivity|]. split; [reflexivity|]. split; [reflexivity|]. done. Qed.
Print Assumptions c125_closes_file_refuted.

(** What does hold: it asks for the file to be closed exactly when it was the call that gave the mapping back; and it returns nil
    exactly when both were done. *)
Theorem c125_closes_file_partial : forall page s a b d s' r, lcall_step page s LUnmapClose a b d = (s', r) ->
  (lopen s = true -> (lopen s' = false <-> lhdr s = true /\ b = true)) /\
  (r = LNil <-> lhdr s = true /\ b = true /\ lopen s = true /\ d = true) /\
  (lhdr s = true -> b = true -> lmaps s' = pred (lmaps s)).
Proof.
  intros page s a b d s' r H. cbn [lcall_step] in H. unfold lunmap, lfclose in H.
  destruct (lhdr s) eqn:E.
  - destruct b; cbn in H.
    + destruct (lopen s) eqn:EO; injection H as <- <-; cbn; [destruct d|]; cbn; repeat split; intuition congruence.
    + injection H as <- <-. cbn. repeat split; intuition congruence.
  - injection H as <- <-. repeat split; intuition congruence.
Qed.
Print Assumptions c125_closes_file_partial.
Example c125_ex : exists s0 s', lnew [1;2;3] [1;2;3] 0 0 true true = (Some s0, 1%nat) /\
  lcall_step 4096 s0 LUnmapClose true true true = (s', LNil) /\ lopen s' = false /\ lmaps s' = 0%nat.
Proof. do 2 eexists. split; [reflexivity|]. split; [reflexivity|]. done. Qed.

(** C126, as stated: a NewMMAP that returns an error keeps nothing.  False: the start offset is looked at after the file has been
    mapped, and the mapping stays; every such call adds one. *)
Theorem c126_no_leak_refuted : forall file disk maps start, file <> [] -> Z.of_nat (length file) <= start ->
  lnew file disk maps start true true = (None, S maps).
Proof.
  intros file disk maps start N H. unfold lnew. cbn. destruct file as [|x file]; [done|].
  destruct (Z.of_nat (length (x :: file)) =? 0) eqn:E; [cbn in E; lia|].
  destruct (Z.of_nat (length (x :: file)) <=? start) eqn:E2; [done|lia].
Qed.
Print Assumptions c126_no_leak_refuted.
(** What does hold: it is the only way to leak; and a NewMMAP that succeeds holds one mapping. *)
Theorem c126_no_leak_partial : forall file disk maps start st mp o k, lnew file disk maps start st mp = (o, k) ->
  (o = None -> k = maps \/ (k = S maps /\ st = true /\ mp = true /\ file <> [] /\ Z.of_nat (length file) <= start)) /\
  (forall s, o = Some s -> k = S maps /\ lmaps s = k /\ start < Z.of_nat (length file) /\ lslice s = file).
Proof.
  intros file disk maps start st mp o k. unfold lnew. destruct st; cbn; [|naive_solver].
  destruct (Z.of_nat (length file) =? 0) eqn:E; [naive_solver|]. destruct mp; cbn; [|naive_solver].
  destruct (Z.of_nat (length file) <=? start) eqn:E2; intros [= <- <-]; (split; [|intros s [= <-]]).
  - right. repeat split; try done; [|lia]. intros ->. cbn in E. lia.
  - done.
  - cbn. repeat split; try done. lia.
Qed.
Print Assumptions c126_no_leak_partial.
Example c126_ex : lnew [1;2;3] [1;2;3] 5 3 true true = (None, 6%nat) /\ lnew [1;2;3] [1;2;3] 5 3 true false = (None, 5%nat) /\
  lnew [] [] 5 0 true true = (None, 5%nat).
Proof. repeat split. Qed.

(** C127, as stated: giving the mapping back while other goroutines use the Mmap is answered by errors, not by the death of the
    process.  False: an Append that has taken its slice writes into memory that is gone; and so does the holder of what Bytes
    returned, even without any concurrency. *)
Theorem c127_append_during_close_refuted : exists es, udead (urun (uinit [[UWrite 2]; [URelease]]) es) = true.
Proof. exists [(0%nat, true); (0%nat, true); (1%nat, true); (0%nat, true)]. reflexivity. Qed.
Print Assumptions c127_append_during_close_refuted.
Theorem c127_bytes_after_close_refuted : exists es, udead (urun (uinit [[UBytes; UTouch; URelease; UTouch]]) es) = true.
Proof. exists (repeat (0%nat, true) 6). reflexivity. Qed.
Print Assumptions c127_bytes_after_close_refuted.

(** What does hold: if giving the mapping back is the last thing anybody does, no schedule ends in a fault. *)
Theorem c127_release_last_partial : forall progs es, release_last (uinit progs) es -> udead (urun (uinit progs) es) = false.
Proof.
  intros progs es H. apply (usafe_run es (uinit progs)); [|done]. split; [done|]. left. done.
Qed.
Print Assumptions c127_release_last_partial.
(** And a mapping is given back at most once, whoever asks and however often. *)
Theorem c127_released_once : forall c es, umap c = false -> umap (urun c es) = false.
Proof.
  intros c es. revert c. induction es as [|[t ok] es IH]; intros c H; [done|]. cbn. apply IH.
  unfold uconf_step. destruct (udead c); [done|]. cbn. destruct (uths c !! t) as [[todo pos keeps log]|]; [|done].
  unfold uthread_step. cbn [utodo upos ukeeps ulog]. rewrite H.
  destruct pos as [|[|k]|okn]; [destruct todo as [|[k| | |] r]| | |]; cbn; try done.
  - destruct (uhdr c); done.
  - destruct (uhdr c); done.
  - destruct keeps; done.
Qed.
Print Assumptions c127_released_once.

(** Two writers and a third goroutine that releases after them. *)
Example c127_ex :
  let es := [(0%nat, true); (1%nat, true); (0%nat, true); (1%nat, true); (0%nat, true); (1%nat, true); (2%nat, true); (2%nat, true)] in
  release_last (uinit [[UWrite 1]; [UWrite 1]; [URelease]]) es /\
  umap (urun (uinit [[UWrite 1]; [UWrite 1]; [URelease]]) es) = false.
Proof.
  cbv zeta. split; [|reflexivity]. cbn [release_last].
  do 6 (split; [intros (th & r & E1 & E2 & E3); injection E1 as <-; discriminate|]).
  split; [|split; [intros (th & r & E1 & E2 & E3); injection E1 as <-; discriminate|done]].
  intros _. split.
  - intros t' th' N E. destruct t' as [|[|[|t']]]; [injection E as <-; done..|by destruct N|done].
  - eexists. done.
Qed.
