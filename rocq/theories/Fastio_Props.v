(** C51, C52, C53, C80: fastio. *)
From stdpp Require Import list.
From Coq Require Import ZArith Lia.
From Verif Require Import Fastio_Model Fastio_Spec Fastio_Proofs.
Local Open Scope Z_scope.

(** Goroutine [t] goes [n] steps, without I/O errors. *)
Definition go (t n : nat) : list wev := replicate n (WEv t None false).
(** Three goroutines; goroutine 0 writes directly and runs the queue for 1, which waits for it; 2 comes in the middle. *)
Definition ex_progs : list (list wcall) := [[WCall false [1]]; [WCall true [2; 2]]; [WCall false [3; 3; 3]]].
Definition ex_evs : list wev := go 0 3 ++ go 1 4 ++ go 0 5 ++ go 2 8 ++ go 0 20 ++ go 1 2 ++ go 1 4.
Ltac evalto t E := let v := eval vm_compute in t in assert (E : t = v) by (vm_compute; reflexivity).

Ltac noerr := intros e; revert e; match goal with |- forall e, e ∈ ?l -> _ => refine (proj1 (Forall_forall (fun e => evio e = None) l) _) end; vm_compute; repeat constructor.

(** ** C51 *)
(** The file is its old bytes and then records, each the data of one call, none twice; a WriteSync that has returned has its
    record at the offset it returned, and it is in the file. *)
Theorem c51_writesync_offset f0 progs evs : no_io_error evs ->
  let cf := wrun (winit f0 progs) evs in
  exists R, NoDup (fst <$> R) /\ (forall e, e ∈ R -> rec_of progs e) /\
    sfile (wsh cf) `prefix_of` f0 ++ bytes_of R /\ (quiet cf -> sfile (wsh cf) = f0 ++ bytes_of R) /\
    forall t i c r, returned cf t i c r -> wsync c = true ->
      r.2 = false /\ placed (length f0) R (t, i, wbs c) r.1 /\ contains_at (sfile (wsh cf)) r.1 (wbs c).
Proof.
  intros Hn cf. destruct (run_inv f0 progs evs [] _ Hn (init_inv f0 progs)) as (R & _ & _ & I). fold cf in I. exists R.
  assert (Hpre : sfile (wsh cf) `prefix_of` f0 ++ bytes_of R) by (rewrite <- (i_file _ _ _ _ I); apply prefix_app_r; reflexivity).
  split; [|split; [|split; [|split]]].
  - pose proof (i_E _ _ _ _ I) as HE. rewrite fmap_app in HE. apply NoDup_app in HE. apply HE.
  - intros e He. apply (i_fresh _ _ _ _ I e). apply elem_of_app. left. exact He.
  - exact Hpre.
  - intros Hq. rewrite <- (i_file _ _ _ _ I). rewrite concat_all_nil; [rewrite app_nil_r; reflexivity|].
    intros th Hin. apply elem_of_list_lookup in Hin as [t Ht]. rewrite (Hq t th Ht). reflexivity.
  - intros t i c r (th & Hth & Hi) Hs. destruct (t_log _ _ _ _ _ _ (i_t _ _ _ _ I t th Hth) i c r Hi) as [He Hr]. rewrite Hs in Hr.
    destruct Hr as [Hp Hl]. split; [exact He|]. split; [exact Hp|]. cbn [snd] in Hl. destruct Hp as (R1 & R2 & HR & Ho).
    split; [lia|]. split; [exact Hl|]. destruct Hpre as [k Hk].
    assert (E : drop (Z.to_nat r.1) (sfile (wsh cf) ++ k) = wbs c ++ bytes_of R2).
    { rewrite <- Hk, HR, bytes_app. change (_ :: R2) with ([(t, i, wbs c)] ++ R2). rewrite bytes_app, bytes_one, app_assoc. cbn [snd].
      rewrite Ho. unfold n0. rewrite Nat2Z.id, <- app_length. apply drop_app. }
    rewrite drop_app_le in E by lia. apply (f_equal (take (length (wbs c)))) in E. rewrite take_app in E.
    rewrite take_app_le in E by (rewrite drop_length; lia). exact E.
Qed.
(** The file is only appended to, and a WriteSync is behind everything that was in the file before it began. *)
Theorem c51_appends f0 progs evs evs' : no_io_error (evs ++ evs') ->
  sfile (wsh (wrun (winit f0 progs) evs)) `prefix_of` sfile (wsh (wrun (winit f0 progs) (evs ++ evs'))).
Proof.
  intros Hn. assert (Hn1 : no_io_error evs) by (intros e He; apply Hn; apply elem_of_app; auto).
  assert (Hn2 : no_io_error evs') by (intros e He; apply Hn; apply elem_of_app; auto).
  destruct (run_inv f0 progs evs [] _ Hn1 (init_inv f0 progs)) as (R & _ & _ & I).
  destruct (run_inv f0 progs evs' R _ Hn2 I) as (R' & _ & Hf & _). unfold wrun. rewrite foldl_app. exact Hf.
Qed.
Theorem c51_later_behind f0 progs evs evs' t i c r : no_io_error (evs ++ evs') ->
  ~ begun (wrun (winit f0 progs) evs) t i ->
  returned (wrun (winit f0 progs) (evs ++ evs')) t i c r -> wsync c = true ->
  Z.of_nat (length (sfile (wsh (wrun (winit f0 progs) evs)))) <= r.1.
Proof.
  intros Hn Hb Hr Hs. assert (Hn1 : no_io_error evs) by (intros e He; apply Hn; apply elem_of_app; auto).
  assert (Hn2 : no_io_error evs') by (intros e He; apply Hn; apply elem_of_app; auto).
  destruct (run_inv f0 progs evs [] _ Hn1 (init_inv f0 progs)) as (R & _ & _ & I).
  destruct (run_inv f0 progs evs' R _ Hn2 I) as (R' & [X HX] & _ & I'). unfold wrun in Hr. rewrite foldl_app in Hr.
  destruct Hr as (th & Hth & Hi). destruct (t_log _ _ _ _ _ _ (i_t _ _ _ _ I' t th Hth) i c r Hi) as [_ Hres]. rewrite Hs in Hres.
  destruct Hres as [(R1 & R2 & HR & Ho) _]. rewrite HX in HR.
  assert (Hno : (t, i, wbs c) ∉ R).
  { intros Hin. destruct (i_fresh _ _ _ _ I (t, i, wbs c)) as [_ (th0 & Ht0 & Hl)]; [apply elem_of_app; left; exact Hin|].
    apply Hb. exists th0. split; [exact Ht0|]. cbn [fst snd] in Hl. destruct Hl as [Hl|[Hl Hp]]; [left; exact Hl|right; split; [exact Hl|]].
    intros Hid. rewrite Hid in Hp. exact Hp. }
  assert (Hle : R `prefix_of` R1).
  { destruct (app_eq_inv _ _ _ _ HR) as [(k & HRk & HR2)|(k & HRk & _)]; [|exists k; exact HRk].
    destruct k as [|x k]; [rewrite app_nil_r in HRk; rewrite HRk; reflexivity|]. exfalso. cbn [app] in HR2. injection HR2 as <- _.
    apply Hno. rewrite HRk. apply elem_of_app. right. left. }
  destruct Hle as [Y ->]. rewrite Ho. pose proof (f_equal length (i_file _ _ _ _ I)) as Hl. rewrite !app_length in Hl.
  rewrite bytes_app, app_length. unfold n0. unfold wrun in *. lia.
Qed.
Example c51_example : no_io_error ex_evs /\ returned (wrun (winit [9] ex_progs) ex_evs) 1 0 (WCall true [2; 2]) (1, false) /\
  sfile (wsh (wrun (winit [9] ex_progs) ex_evs)) = [9; 2; 2; 3; 3; 3; 1] /\
  ~ begun (wrun (winit [9] ex_progs) (go 0 3)) 1 0.
Proof.
  split; [|split; [|split]].
  - noerr.
  - eexists. split; vm_compute; reflexivity.
  - vm_compute. reflexivity.
  - intros (th & Hth & Hl). vm_compute in Hth. injection Hth as <-. cbn in Hl. destruct Hl as [Hl|[_ Hl]]; [lia|congruence].
Qed.

(** ** C52 *)
(** A Write returns (len, nil), no call is in progress, and the data are not in the file. *)
Theorem c52_write_reaches_file_refuted : exists f0 progs evs t i c,
  no_io_error evs /\ let cf := wrun (winit f0 progs) evs in
  quiet cf /\ returned cf t i c (Z.of_nat (length (wbs c)), false) /\ wsync c = false /\
  forall o, ~ contains_at (sfile (wsh cf)) o (wbs c).
Proof.
  exists [9], ex_progs, (go 0 3 ++ go 1 4 ++ go 0 6 ++ go 1 1 ++ go 2 8 ++ go 0 20 ++ go 1 20), 2%nat, 0%nat, (WCall false [3; 3; 3]).
  evalto (wrun (winit [9] ex_progs) (go 0 3 ++ go 1 4 ++ go 0 6 ++ go 1 1 ++ go 2 8 ++ go 0 20 ++ go 1 20)) E. rewrite E. clear E. cbv zeta.
  split; [|split; [|split; [|split]]].
  - noerr.
  - intros t th Ht. do 3 (destruct t as [|t]; [injection Ht as <-; reflexivity|]). discriminate.
  - eexists. split; reflexivity.
  - reflexivity.
  - intros o (H0 & Hl & Ht). cbn in Hl. assert (o = 0 \/ o = 1) as [-> | ->] by lia; vm_compute in Ht; discriminate.
Qed.
(** What holds instead: when no call is in progress the file is its old bytes and the data of some calls; every call that has
    returned is there exactly once or waits in the queue exactly once. *)
Theorem c52_write_reaches_file_partial f0 progs evs : no_io_error evs ->
  let cf := wrun (winit f0 progs) evs in quiet cf ->
  exists R, sfile (wsh cf) = f0 ++ bytes_of R /\ NoDup (fst <$> R ++ queued cf) /\ (forall e, e ∈ R ++ queued cf -> rec_of progs e) /\
    forall t i c r, returned cf t i c r -> r.2 = false /\
      (wsync c = false -> r.1 = Z.of_nat (length (wbs c)) /\ (t, i, wbs c) ∈ R ++ queued cf) /\
      (wsync c = true -> (t, i, wbs c) ∈ R).
Proof.
  intros Hn cf Hq. destruct (run_inv f0 progs evs [] _ Hn (init_inv f0 progs)) as (R & _ & _ & I). fold cf in I. exists R.
  split; [|split; [|split]].
  - rewrite <- (i_file _ _ _ _ I). rewrite concat_all_nil; [rewrite app_nil_r; reflexivity|].
    intros th Hin. apply elem_of_list_lookup in Hin as [t Ht]. rewrite (Hq t th Ht). reflexivity.
  - exact (i_E _ _ _ _ I).
  - intros e He. apply (i_fresh _ _ _ _ I e He).
  - intros t i c r (th & Hth & Hi). destruct (t_log _ _ _ _ _ _ (i_t _ _ _ _ I t th Hth) i c r Hi) as [He Hr]. split; [exact He|].
    destruct (wsync c); split; intros Hw; try discriminate.
    + destruct Hr as [(R1 & R2 & -> & _) _]. apply elem_of_app. right. left.
    + exact Hr.
Qed.
(** And the queue is emptied by the next call, if it runs alone: then every call that has returned is in the file. *)
Theorem c52_next_call_partial f0 progs evs evs' t th th' :
  no_io_error (evs ++ evs') -> (forall e, e ∈ evs' -> evt e = t) ->
  let cf := wrun (winit f0 progs) evs in let cf' := wrun (winit f0 progs) (evs ++ evs') in
  quiet cf -> quiet cf' -> wths cf !! t = Some th -> wths cf' !! t = Some th' -> (length (wlog th) < length (wlog th'))%nat ->
  queued cf' = [] /\
  exists R, sfile (wsh cf') = f0 ++ bytes_of R /\ NoDup (fst <$> R) /\ forall t i c r, returned cf' t i c r -> (t, i, wbs c) ∈ R.
Proof.
  intros Hn Ht cf cf' Hq Hq' Hth Hth' Hlt. assert (Hn1 : no_io_error evs) by (intros e He; apply Hn; apply elem_of_app; auto).
  assert (Hn2 : no_io_error evs') by (intros e He; apply Hn; apply elem_of_app; auto).
  destruct (run_inv f0 progs evs [] _ Hn1 (init_inv f0 progs)) as (R & _ & _ & I). fold cf in I.
  assert (Ecf' : cf' = wrun cf evs') by (unfold cf', cf, wrun; apply foldl_app).
  assert (D : drain (length (wlog th)) t cf').
  { rewrite Ecf'. apply (drain_run f0 progs evs' R cf _ _ Hn2 Ht I). exists th. split; [exact Hth|]. split.
    - intros j y _ Hy. exact (Hq j y Hy).
    - rewrite (Hq t th Hth). cbn. split; [tauto|]. split; [lia|]. intros [[]|H]. lia. }
  destruct D as (th0 & Hth0 & _ & _ & _ & Hz). rewrite Hth' in Hth0. injection Hth0 as <-.
  assert (Hch : queued cf' = []) by (unfold queued; rewrite Hz by (right; exact Hlt); reflexivity). split; [exact Hch|].
  destruct (c52_write_reaches_file_partial f0 progs (evs ++ evs') Hn Hq') as (R' & Hf & Hnd & _ & Hr). fold cf' in Hf, Hnd, Hr.
  exists R'. rewrite Hch, app_nil_r in Hnd. split; [exact Hf|]. split; [exact Hnd|]. intros t0 i c r Hret.
  destruct (Hr t0 i c r Hret) as (_ & H1 & H2). rewrite Hch, app_nil_r in H1. destruct (wsync c); [apply H2|apply H1]; reflexivity.
Qed.
(** After the schedule of the refutation one more Write brings the lost record into the file. *)
Definition ex_progs4 : list (list wcall) := ex_progs ++ [[WCall false [4]]].
Example c52_example :
  let evs := go 0 3 ++ go 1 4 ++ go 0 6 ++ go 1 1 ++ go 2 8 ++ go 0 20 ++ go 1 20 in
  let cf := wrun (winit [9] ex_progs4) evs in
  queued cf = [(2%nat, 0%nat, [3; 3; 3])] /\ sfile (wsh cf) = [9; 2; 2; 1] /\
  sfile (wsh (wrun cf (go 3 40))) = [9; 2; 2; 1; 3; 3; 3; 4] /\
  wpos <$> wths cf = replicate 4 WIdle /\ wpos <$> wths (wrun cf (go 3 40)) = replicate 4 WIdle.
Proof. cbv zeta. vm_compute. repeat split. Qed.

(** ** C53 *)
(** One write to the file fails, the Write that ran the queue reports it; a later Write, by a goroutine that begins when all
    others have returned, never returns, whatever happens. *)
Ltac inlist := first [apply elem_of_list_here|apply elem_of_list_further, elem_of_list_here|apply elem_of_list_further, elem_of_list_further, elem_of_list_here].
Definition err_evs : list wev := go 0 4 ++ go 1 4 ++ go 0 4 ++ go 1 8 ++ [WEv 1 (Some 0%nat) false] ++ go 1 20.
Theorem c53_survives_error_refuted : exists f0 progs evs,
  let cf := wrun (winit f0 progs) evs in quiet cf /\
  exists t th, wths cf !! t = Some th /\ wtodo th <> [] /\
    forall evs' th', wths (wrun cf evs') !! t = Some th' -> wlog th' = wlog th.
Proof.
  exists [9], [[WCall false [1]]; [WCall false [2; 2]]; [WCall false [3]]], err_evs.
  evalto (wrun (winit [9] [[WCall false [1]]; [WCall false [2; 2]]; [WCall false [3]]]) err_evs) E. rewrite E. clear E. cbv zeta.
  match goal with |- quiet ?c /\ _ => set (cf := c) end.
  split; [intros t th Ht; do 3 (destruct t as [|t]; [injection Ht as <-; reflexivity|]); discriminate|].
  exists 2%nat. eexists. split; [reflexivity|]. split; [discriminate|]. cbn [wlog].
  set (c1 := wconf_step cf (WEv 2 None false)). set (c2 := wconf_step c1 (WEv 2 None false)).
  assert (H : forall evs' x, x ∈ [cf; c1; c2] -> wrun x evs' ∈ [cf; c1; c2]).
  { induction evs' as [|e evs' IH]; intros x Hx; [exact Hx|]. change (wrun x (e :: evs')) with (wrun (wconf_step x e) evs'). apply IH.
    destruct e as [t io tm]. rewrite !elem_of_cons in Hx. destruct Hx as [-> |[-> |[-> |Hx]]]; [| | |exfalso; revert Hx; apply not_elem_of_nil].
    - do 3 (destruct t as [|t]; [vm_compute; inlist|]). vm_compute. inlist.
    - do 3 (destruct t as [|t]; [vm_compute; inlist|]). vm_compute. inlist.
    - do 3 (destruct t as [|t]; [vm_compute; inlist|]). vm_compute. inlist. }
  intros evs' th' Hth'. specialize (H evs' cf ltac:(left)). rewrite !elem_of_cons in H.
  destruct H as [H|[H|[H|H]]]; [| | |exfalso; revert H; apply not_elem_of_nil]; rewrite H in Hth'; vm_compute in Hth'; injection Hth' as <-; reflexivity.
Qed.
(** A WriteSync returns (offset, nil) though its data never reached the file. *)
Theorem c53_error_reported_refuted : exists f0 progs evs t i c o,
  let cf := wrun (winit f0 progs) evs in quiet cf /\ returned cf t i c (o, false) /\ wsync c = true /\
  ~ contains_at (sfile (wsh cf)) o (wbs c) /\ (t, i, wbs c) ∉ queued cf.
Proof.
  exists [9], ex_progs, (go 0 3 ++ go 1 4 ++ go 0 7 ++ [WEv 0 (Some 0%nat) false] ++ go 0 20 ++ go 1 20 ++ go 2 20), 1%nat, 0%nat, (WCall true [2; 2]), 1.
  evalto (wrun (winit [9] ex_progs) (go 0 3 ++ go 1 4 ++ go 0 7 ++ [WEv 0 (Some 0%nat) false] ++ go 0 20 ++ go 1 20 ++ go 2 20)) E. rewrite E. clear E. cbv zeta.
  split; [|split; [|split; [|split]]].
  - intros t th Ht. do 3 (destruct t as [|t]; [injection Ht as <-; reflexivity|]). discriminate.
  - eexists. split; reflexivity.
  - reflexivity.
  - intros (H0 & Hl & Ht). vm_compute in Ht. discriminate.
  - vm_compute. apply not_elem_of_nil.
Qed.
(** What holds: a goroutine that uses the file alone may meet any errors: each call reports its own, the file has exactly what
    was written, and every call returns. *)
Theorem c53_alone_partial f0 p evs :
  let cf := wrun (winit f0 [p]) evs in quiet cf ->
  exists th outs, wths cf = [th] /\ length outs = length (wlog th) /\
    p = rev (fst <$> wlog th) ++ wtodo th /\
    seq_run f0 (zip (rev (fst <$> wlog th)) outs) = (sfile (wsh cf), rev (snd <$> wlog th)).
Proof.
  intros cf Hq. destruct (alone_run f0 p evs) as (s & th & E & outs & fl & Ho & Hr & Hp & _ & _ & Hpc). fold cf in E. rewrite E in *. cbn [wths wsh] in *.
  exists th, outs. rewrite (Hq 0%nat th eq_refl) in *. cbn [cur alone_pc app] in *. destruct Hpc as (-> & _). auto.
Qed.
Theorem c53_alone_returns_partial f0 p evs : (forall e, e ∈ evs -> evt e = 0%nat) -> (8 * length p <= length evs)%nat ->
  let cf := wrun (winit f0 [p]) evs in quiet cf /\ exists th, wths cf = [th] /\ rev (fst <$> wlog th) = p.
Proof.
  intros He Hl cf. destruct (alone_finish f0 p evs He Hl) as (s & th & E & Ha & Hi & Htd). fold cf in E. rewrite E. split.
  - intros t th0 Ht. destruct t; [injection Ht as <-; exact Hi|discriminate].
  - exists th. split; [reflexivity|]. destruct Ha as (outs & fl & _ & _ & Hp & _). rewrite Hi, Htd in Hp. cbn [cur app] in Hp. rewrite app_nil_r in Hp. congruence.
Qed.
Example c53_example : (wlog <$> wths (wrun (winit [9] [[WCall false [1; 2]; WCall true [3; 4]]]) (go 0 4 ++ [WEv 0 (Some 1%nat) false] ++ go 0 11)))
   = [[(WCall true [3; 4], (2, false)); (WCall false [1; 2], (1, true))]] /\
  seq_run [9] [(WCall false [1; 2], Some 1%nat); (WCall true [3; 4], None)] = ([9; 1; 3; 4], [(1, true); (2, false)]).
Proof. split; vm_compute; reflexivity. Qed.

(** ** C80 *)
(** A Write has returned; its caller reuses the slice; the file gets the new bytes. *)
Theorem c80_slice_not_kept_refuted : exists f0 progs evs t i c bs evs',
  no_io_error evs /\ no_io_error evs' /\
  let cf := wrun (winit f0 progs) evs in let cf' := wrun (wreuse cf t i bs) evs' in
  returned cf t i c (Z.of_nat (length (wbs c)), false) /\ length bs = length (wbs c) /\ quiet cf' /\
  (forall o, ~ contains_at (sfile (wsh cf')) o (wbs c)) /\ queued cf' = [].
Proof.
  exists [9], ex_progs4, (go 0 3 ++ go 1 4 ++ go 0 6 ++ go 1 1 ++ go 2 8 ++ go 0 20 ++ go 1 20), 2%nat, 0%nat, (WCall false [3; 3; 3]), [7; 7; 7], (go 3 40).
  evalto (wrun (winit [9] ex_progs4) (go 0 3 ++ go 1 4 ++ go 0 6 ++ go 1 1 ++ go 2 8 ++ go 0 20 ++ go 1 20)) E. rewrite E. clear E. cbv zeta.
  match goal with |- context [wreuse ?c _ _ _] => set (cf := c) end.
  evalto (wrun (wreuse cf 2 0 [7; 7; 7]) (go 3 40)) E. rewrite E. clear E.
  split; [noerr|]. split; [noerr|].
  split; [|split; [|split; [|split]]].
  - eexists. split; reflexivity.
  - reflexivity.
  - intros t th Ht. do 4 (destruct t as [|t]; [injection Ht as <-; reflexivity|]). discriminate.
  - intros o (H0 & Hl & Ht). cbn [wsh sfile wbs length] in *.
    cbn in Hl. assert (o = 0 \/ o = 1 \/ o = 2 \/ o = 3 \/ o = 4 \/ o = 5) as [-> |[-> |[-> |[-> |[-> | -> ]]]]] by lia; vm_compute in Ht; discriminate.
  - vm_compute. reflexivity.
Qed.
(** The slice of a WriteSync that has returned is no longer referred to by the queue, so reusing it does not change what waits
    to be written. *)
Theorem c80_writesync_partial f0 progs evs t i c r bs : no_io_error evs ->
  let cf := wrun (winit f0 progs) evs in returned cf t i c r -> wsync c = true ->
  (forall b, (t, i, b) ∉ queued cf) /\ queued (wreuse cf t i bs) = queued cf.
Proof.
  intros Hn cf (th & Hth & Hi) Hs. destruct (run_inv f0 progs evs [] _ Hn (init_inv f0 progs)) as (R & _ & _ & I). fold cf in I.
  destruct (t_log _ _ _ _ _ _ (i_t _ _ _ _ I t th Hth) i c r Hi) as [_ Hr]. rewrite Hs in Hr. destruct Hr as [(R1 & R2 & HR & _) _].
  assert (Hno : forall b, (t, i, b) ∉ queued cf).
  { intros b Hin. pose proof (i_E _ _ _ _ I) as HE. rewrite fmap_app in HE. apply NoDup_app in HE as (_ & H2 & _).
    apply (H2 (t, i)).
    - rewrite HR, fmap_app. apply elem_of_app. right. left.
    - change (t, i) with ((t, i, b).1). apply elem_of_list_fmap_1. exact Hin. }
  split; [exact Hno|]. unfold wreuse. rewrite Hth. destruct (i <? length (wlog th))%nat; [|reflexivity].
  unfold queued in *. cbn [wsh sch set_wds swds] in *. revert Hno. generalize (sch (wsh cf)) as q. induction q as [|id q IH]; intros Hno; [reflexivity|].
  cbn [omap list_omap] in *. rewrite list_lookup_fmap. destruct (swds (wsh cf) !! id) as [d|]; cbn [fmap option_fmap option_map] in *.
  - rewrite IH by (intros b Hb; apply (Hno b); right; exact Hb). destruct (decide (down d = (t, i))) as [Hd|]; [|reflexivity].
    exfalso. apply (Hno (dbytes d)). rewrite <- Hd. left.
  - rewrite IH by exact Hno. reflexivity.
Qed.

Print Assumptions c51_writesync_offset.
Print Assumptions c51_appends.
Print Assumptions c51_later_behind.
Print Assumptions c52_write_reaches_file_refuted.
Print Assumptions c52_write_reaches_file_partial.
Print Assumptions c52_next_call_partial.
Print Assumptions c53_survives_error_refuted.
Print Assumptions c53_error_reported_refuted.
Print Assumptions c53_alone_partial.
Print Assumptions c53_alone_returns_partial.
Print Assumptions c80_slice_not_kept_refuted.
Print Assumptions c80_writesync_partial.
