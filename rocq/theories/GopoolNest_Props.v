(** C140, C141: gopool, functions that call Go, Close and TurnOff of the pool that runs them.

    [prog f] are the calls that function [f] makes; it may depend on [f] in any way, so that functions can submit themselves again for
    ever. *)
From stdpp Require Import list.
From Coq Require Import ZArith Lia.
From Verif Require Import Conc Gopool_Model Gopool_Spec Gopool_Proofs Gopool_Limit Gopool_End Gopool_Props GopoolNest_Model GopoolNest_Spec GopoolNest_Proofs.
Local Open Scope Z_scope.

Lemma nest_once min max lim prog progs evs : let c := nbase (nrun min max lim prog (length progs) (ninit progs) evs) in
  (forall f, tot f c <= 1) /\ (forall f, 0 < held f c -> submits (all_calls prog progs (gstart (gsh c))) f).
Proof.
  intros c. destruct (nest_flat min max lim prog progs evs) as (evs' & E & P). fold c in E, P.
  pose proof (once_run min max lim _ evs' _ (once_init (all_calls prog progs (gstart (gsh c))))) as O. set (b := grun _ _ _ _ _) in *.
  split; intros f; destruct (perm_tot f b c E P) as [E1 E2]; [rewrite <- E1; apply (o_tot _ _ O)|rewrite <- E2; apply (o_held _ _ O)].
Qed.
Lemma calls_split prog progs (st : list fid) f : submits (all_calls prog progs st) f -> submits progs f \/
  exists m g, st !! m = Some g /\ f.1 = (length progs + m)%nat /\ prog g !! f.2 = Some AGo.
Proof.
  intros (p & Hp & Hf). unfold all_calls in Hp. apply lookup_app_Some in Hp as [Hp|[Hl Hp]]; [left; exists p; auto|]. right. rewrite list_lookup_fmap in Hp. apply fmap_Some in Hp as (g & Hg & ->).
  exists (f.1 - length progs)%nat, g. split; [exact Hg|]. split; [lia|exact Hf].
Qed.

(** ** C140 *)
(** No function is started twice, and each one started was submitted by a client or by a function started before it. *)
Theorem c140_at_most_once min mx lim prog progs evs :
  let started := gstart (gsh (nbase (nrun min (maxlimit min mx) lim prog (length progs) (ninit progs) evs))) in
  NoDup started /\ forall k f, started !! k = Some f -> submitted prog progs started k f.
Proof.
  cbv zeta. set (max := maxlimit min mx). clearbody max. split.
  - destruct (nest_once min max lim prog progs evs) as [T _]. set (c := nbase _) in *. apply cnt_NoDup. intros f. specialize (T f). pose proof (held_tot f c) as H. unfold held, rest in H.
    assert (0 <= sumZ (hold f) (gths c)) by (apply sumZ_nonneg; intros; apply hold_nonneg). pose proof (cnt_nonneg f (fq (gsh c))). pose proof (tasks_nonneg f (gws (gsh c))). lia.
  - induction evs as [|e evs IH] using rev_ind; [intros k f H; discriminate|].
    unfold nrun. rewrite foldl_app. fold (nrun min max lim prog (length progs) (ninit progs) evs). destruct (nest_once min max lim prog progs evs) as [_ Hh]. set (c := nrun min max lim prog (length progs) (ninit progs) evs) in *.
    cbn [foldl]. unfold nstep. destruct (gcrash _); [exact IH|]. destruct (gths (nbase c) !! e.1) as [th|] eqn:Ht; [|exact IH]. destruct (_ && _); [exact IH|].
    destruct (gstep _ _ _ _ _ _) as [[[s' th'] new]|] eqn:Hs; [|exact IH]. pose proof (step_start _ _ _ _ _ _ _ _ _ Hs) as Hst.
    assert (K : forall k g, (gstart (gsh (nbase c)) ++ match starts th with Some f => [f] | None => [] end) !! k = Some g ->
      submitted prog progs (gstart (gsh (nbase c)) ++ match starts th with Some f => [f] | None => [] end) k g).
    { intros k g Hk. apply lookup_app_Some in Hk as [Hk|[Hl Hk]].
      - destruct (IH k g Hk) as [H|(m & h & Hm & Hh' & H)]; [left; exact H|]. right. exists m, h. split; [exact Hm|]. split; [apply lookup_app_l_Some; exact Hh'|exact H].
      - destruct (starts th) as [f|] eqn:Ef; [|discriminate]. apply list_lookup_singleton_Some in Hk as [Hk <-]. 
        assert (H1 : 0 < held f (nbase c)).
        { unfold held. pose proof (sumZ_lookup (hold f) _ _ _ ltac:(intros; apply hold_nonneg) Ht) as H. pose proof (rest_nonneg f (gsh (nbase c))).
          assert (hold f th = 1); [|lia]. destruct th as [| |w []|g| | |]; try discriminate; injection Ef as ->; apply isf_same. }
        apply Hh, calls_split in H1. destruct H1 as [H1|(m & g & Hm & H1)]; [left; exact H1|]. right. exists m, g. pose proof (lookup_lt_Some _ _ _ Hm). split; [lia|]. split; [apply lookup_app_l_Some; exact Hm|exact H1]. }
    destruct (starts th) as [f|]; cbn [nbase gsh]; rewrite Hst; exact K.
Qed.
Print Assumptions c140_at_most_once.
Lemma all_only_go prog progs st : only_go_too prog progs -> only_go (all_calls prog progs st).
Proof.
  intros [H1 H2] p a Hp Ha. unfold all_calls in Hp. apply elem_of_app in Hp as [Hp|Hp]; [exact (H1 _ _ Hp Ha)|]. apply elem_of_list_fmap in Hp as (f & -> & _). exact (H2 f a Ha).
Qed.
(** The bound on the functions that run at once, and that no panic ends the program, hold also then. *)
Theorem c140_limit_and_panics min mx lim prog progs evs : 0 <= min -> only_go_too prog progs ->
  let c := nbase (nrun min (maxlimit min mx) lim prog (length progs) (ninit progs) evs) in
  running c <= min + maxlimit min mx /\ gcrash (gsh c) = false.
Proof.
  intros Hm Hgo c. destruct (nest_flat min (maxlimit min mx) lim prog progs evs) as (evs' & E & P). fold c in E, P.
  pose proof (all_only_go _ _ (gstart (gsh c)) Hgo) as Hgo'. split.
  - pose proof (c60_sum_partial min mx lim _ evs' Hm Hgo') as H. unfold running in *. rewrite (sumZ_perm _ _ _ P) in H. exact H.
  - pose proof (c81_panic_partial min mx lim _ evs' Hm Hgo') as H. rewrite E in H. exact H.
Qed.
Print Assumptions c140_limit_and_panics.
(** The first function submits another one, which submits itself again: all three of them are run. *)
Definition ex140 (f : fid) : list gact := [AGo].
Definition ex140_evs : list (nat * bool) := go 0 5 ++ go 1 12 ++ go 2 2 ++ go 3 5 ++ go 4 7 ++ go 2 5 ++ go 4 20 ++ go 2 2 ++ go 5 5 ++ go 6 7 ++ go 2 5 ++ go 6 20 ++ go 2 2.
Example c140_ex : gstart (gsh (nbase (nrun 1 1 131072 ex140 1 (ninit [[AGo]]) ex140_evs))) = [(0, 0); (1, 0); (2, 0)]%nat.
Proof. vm_compute. reflexivity. Qed.

(** ** C141 *)
(** NewPoolWithFuncLimit(1, 1, lim): a function that submits lim + 2 others never returns, nothing goes on, lim functions are in the
    queue and one waits with the dispatcher for the worker that runs it.  NewPool has lim = 1<<17. *)
Definition flood (l : nat) (f : fid) : list gact := match f with (0, 0)%nat => replicate (S (S l)) AGo | _ => [] end.
Definition flood_ids (j : nat) : list fid := (fun k => (1%nat, S k)) <$> seq 0 j.
Definition flooded (todo : list gact) (j : nat) (p : cpc) : nconf :=
  NC (GC (GS (flood_ids j) false [] false 2 2 (Z.of_nat (S j)) true false false false [GW 1 None true] [(0, 0)%nat] false)
         [GClient 0 [] 1 CIdle; GEnd; GRun 0 RBody; GClient 1 todo (match p with CIdle => S j | _ => S (S j) end) p; GDisp (DPool (1, 0)%nat)]) [(2, 3)%nat].
Lemma flood_start l : (1 <= l)%nat -> nrun 1 1 (Z.of_nat l) (flood l) 1 (ninit [[AGo]]) (go 0 5 ++ go 1 12 ++ go 2 2 ++ go 3 5 ++ go 4 5) = flooded (replicate (S l) AGo) 0 CIdle.
Proof. intros H. destruct l as [|l]; [lia|]. vm_compute. reflexivity. Qed.
Lemma nrun_app min max lim prog n c a b : nrun min max lim prog n c (a ++ b) = nrun min max lim prog n (nrun min max lim prog n c a) b.
Proof. apply foldl_app. Qed.
Lemma nstep3 min max lim prog n s a b d th e nc s' th' : gcrash s = false -> in_body th = false -> starts th = None -> gstep min max lim s th false = Some (s', th', []) ->
  nstep min max lim prog n (NC (GC s [a; b; d; th; e]) nc) (3%nat, false) = NC (GC s' [a; b; d; th'; e]) nc.
Proof. intros H1 H2 H3 H4. unfold nstep. cbn [nbase gsh gths fst snd lookup list_lookup]. rewrite H1, H2, H4, H3. reflexivity. Qed.
Lemma flood_one l j todo : (j < l)%nat -> nrun 1 1 (Z.of_nat l) (flood l) 1 (flooded (AGo :: todo) j CIdle) (go 3 5) = flooded todo (S j) CIdle.
Proof.
  intros H. unfold nrun, go. cbn [replicate foldl]. unfold flooded.
  assert (L : (Z.of_nat (length (flood_ids j)) <? Z.of_nat l) = true) by (unfold flood_ids; rewrite fmap_length, seq_length; lia).
  erewrite nstep3; [|reflexivity|reflexivity|reflexivity|reflexivity].
  erewrite nstep3; [|reflexivity|reflexivity|reflexivity|reflexivity].
  erewrite nstep3; [|reflexivity|reflexivity|reflexivity|cbn [gstep fqc fq]; rewrite L; reflexivity].
  erewrite nstep3; [|reflexivity|reflexivity|reflexivity|reflexivity].
  erewrite nstep3; [|reflexivity|reflexivity|reflexivity|reflexivity].
  unfold s_tnum, s_fq. cbn [fq fqc pq pqc gid gcount gtnum gmux gclose gflag gctx gws gstart gcrash].
  replace (flood_ids (S j)) with (flood_ids j ++ [(1%nat, S j)]) by (unfold flood_ids; rewrite seq_S, fmap_app; reflexivity).
  replace (Z.of_nat (S (S j))) with (Z.of_nat (S j) + 1) by lia. reflexivity.
Qed.
Lemma flood_many l j todo : (j <= l)%nat -> exists evs, nrun 1 1 (Z.of_nat l) (flood l) 1 (flooded (replicate j AGo ++ todo) (l - j) CIdle) evs = flooded todo l CIdle.
Proof.
  induction j as [|j IH]; intros H; [exists []; rewrite Nat.sub_0_r; reflexivity|]. destruct IH as [evs E]; [lia|]. exists (go 3 5 ++ evs). rewrite nrun_app. cbn [replicate app]. rewrite flood_one by lia. replace (S (l - S j)) with (l - j)%nat by lia. exact E.
Qed.
Theorem c141_nested_go_returns_refuted lim : 1 <= lim -> exists prog progs evs f,
  let c := nrun 1 (maxlimit 1 1) lim prog (length progs) (ninit progs) evs in
  only_go_too prog progs /\ nstuck 1 (maxlimit 1 1) lim c /\ gstart (gsh (nbase c)) = [(0, 0)%nat] /\
  Z.of_nat (length (fq (gsh (nbase c)))) = lim /\ (exists i, gths (nbase c) !! i = Some (GClient 1 [] (f.2 + 1) (CSend f))) /\
  prog (0, 0)%nat !! f.2 = Some AGo.
Proof.
  intros Hl. destruct (Z_of_nat_complete lim ltac:(lia)) as [l ->]. change (maxlimit 1 1) with 1.
  destruct (flood_many l l [AGo] ltac:(lia)) as [evs E]. rewrite Nat.sub_diag in E.
  exists (flood l), [[AGo]], ((go 0 5 ++ go 1 12 ++ go 2 2 ++ go 3 5 ++ go 4 5) ++ evs ++ go 3 2), (1%nat, S l). cbv zeta.
  assert (R : nrun 1 1 (Z.of_nat l) (flood l) 1 (ninit [[AGo]]) ((go 0 5 ++ go 1 12 ++ go 2 2 ++ go 3 5 ++ go 4 5) ++ evs ++ go 3 2) = flooded [] l (CSend (1%nat, S l))).
  { rewrite nrun_app, flood_start, nrun_app by lia. replace (replicate (S l) AGo) with (replicate l AGo ++ [AGo]) by (symmetry; apply replicate_S_end).
    rewrite E. unfold nrun, go. cbn [replicate foldl]. unfold flooded. erewrite nstep3; [|reflexivity|reflexivity|reflexivity|reflexivity]. erewrite nstep3; [|reflexivity|reflexivity|reflexivity|reflexivity]. reflexivity. }
  change (length [[AGo]]) with 1%nat. rewrite R. split; [|split; [|split; [|split; [|split]]]].
  - split.
    + intros p a Hp Ha. apply elem_of_list_singleton in Hp as ->. apply elem_of_list_singleton in Ha. exact Ha.
    + intros f a Ha. unfold flood in Ha. destruct f as [[|] [|]]; try (exfalso; revert Ha; apply not_elem_of_nil). apply elem_of_replicate in Ha as [-> _]. reflexivity.
  - assert (L : length (flood_ids l) = l) by (unfold flood_ids; rewrite fmap_length, seq_length; reflexivity).
    intros t th ch Ht. unfold flooded in *. cbn [nbase gths gsh] in *.
    destruct t as [|[|[|[|[|t]]]]]; [injection Ht as <- .. | discriminate]; [left; reflexivity|left; reflexivity|right; split; reflexivity| |left; reflexivity].
    left. cbn [gstep fqc fq]. rewrite L. replace (Z.of_nat l <? Z.of_nat l) with false by lia. reflexivity.
  - reflexivity.
  - cbn [flooded nbase gsh fq]. unfold flood_ids. rewrite fmap_length, seq_length. reflexivity.
  - exists 3%nat. cbn [flooded nbase gths snd]. replace (S l + 1)%nat with (S (S l)) by lia. reflexivity.
  - cbn [flood snd]. apply lookup_replicate_2. lia.
Qed.
Print Assumptions c141_nested_go_returns_refuted.

(** If all calls of Go together, those of the clients and those of the functions that are started, are not more than FuncLimit, they
    return; and at the end every function submitted has been started, or is in the queue and no dispatcher runs (C59).  Missing for the
    full claim: more calls. *)
Theorem c141_few_calls_partial min mx lim prog progs evs :
  let c := nrun min (maxlimit min mx) lim prog (length progs) (ninit progs) evs in
  let started := gstart (gsh (nbase c)) in
  1 <= min -> only_go_too prog progs -> nstuck min (maxlimit min mx) lim c -> Z.of_nat (length (concat (all_calls prog progs started))) <= lim ->
  (forall i t todo k p, gths (nbase c) !! i = Some (GClient t todo k p) -> todo = [] /\ p = CIdle) /\
  forall f, submits (all_calls prog progs started) f -> f ∈ started \/ (f ∈ fq (gsh (nbase c)) /\ gmux (gsh (nbase c)) = false).
Proof.
  intros c started Hm Hgo Hst Hfew. pose proof (all_only_go _ _ started Hgo) as Hgo'.
  destruct (nest_flat min (maxlimit min mx) lim prog progs evs) as (evs' & E & P). fold c started in E, P. cbv zeta in E, P. set (b := grun min (maxlimit min mx) lim (ginit (all_calls prog progs started)) evs') in *.
  pose proof (once_run min (maxlimit min mx) lim _ evs' _ (once_init (all_calls prog progs started))) as O. fold b in O.
  pose proof (ginv_run _ _ lim _ evs' _ Hgo' (ginv_init min (maxlimit min mx) _ (max_nonneg min mx ltac:(lia)))) as I. fold b in I.
  pose proof (g_off _ _ _ _ I) as (Hfc & _ & Hcl & _). rewrite E in Hfc, Hcl.
  assert (Cl : forall i t todo k p, gths (nbase c) !! i = Some (GClient t todo k p) -> todo = [] /\ p = CIdle).
  { intros i t todo k p Hi. assert (Hj : GClient t todo k p ∈ gths b) by (rewrite P; exact (elem_of_list_lookup_2 _ _ _ Hi)). apply elem_of_list_lookup in Hj as [j Hj].
    pose proof (g_thr _ _ _ _ I _ _ Hj) as [_ Hthr]. destruct (Hst _ _ false Hi) as [Hs|[Hb _]]; [|discriminate].
    destruct p; try contradiction; cbn [gstep] in Hs; try discriminate.
    - destruct todo; [auto|discriminate].
    - rewrite Hcl in Hs. discriminate.
    - rewrite Hfc in Hs. pose proof (queue_room _ _ _ _ _ _ _ O Hj) as Q. rewrite E in Q. replace (Z.of_nat (length (fq (gsh (nbase c)))) <? lim) with true in Hs by lia. discriminate.
    - destruct (gmux _); discriminate. }
  split; [exact Cl|].
  assert (Hcr : gcrash (gsh (nbase c)) = false) by (apply (c140_limit_and_panics min mx lim prog progs evs ltac:(lia) Hgo)).
  assert (Fs : stuck min (maxlimit min mx) lim b).
  { intros t th ch Ht. assert (Hj : th ∈ gths (nbase c)) by (rewrite <- P; exact (elem_of_list_lookup_2 _ _ _ Ht)). apply elem_of_list_lookup in Hj as [j Hj]. rewrite E.
    destruct (Hst _ _ ch Hj) as [Hs|[_ Hd]]; [exact Hs|]. exfalso. destruct (calls_run min (maxlimit min mx) lim prog (length progs) evs (ninit progs)) as [C|C]; [right; constructor|fold c in C; congruence|]. fold c in C.
    assert (D : calls_done c j = true); [|congruence]. unfold calls_done. apply forallb_forall. intros [i' j'] Hin. rewrite Forall_forall in C. destruct (C (i', j')) as (t' & todo & k & p & Hc); [apply elem_of_list_In; exact Hin|].
    cbn [fst snd] in *. rewrite Hc. destruct (Cl _ _ _ _ _ Hc) as [-> ->]. apply orb_true_r. }
  intros f Hf. pose proof (c59_all_run_partial min mx lim (all_calls prog progs started) evs' f) as A. cbv zeta in A. fold b in A. rewrite E in A. apply A; [exact Hm|exact Hgo'|exact Fs|].
  split; [exact Hf|]. pose proof Hf as (full & Hfull & Hff). destruct (clients_stay min (maxlimit min mx) lim evs' _ _ (init_client _ _ _ Hfull)) as [C|C]; fold b in C; [rewrite E in C; congruence|].
  destruct C as (todo & k & p & Hc). destruct (o_cl _ _ O _ _ _ _ _ Hc) as (_ & full' & Hfull' & Hd & Hk). assert (full' = full) by congruence. subst full'.
  assert (Hj : GClient f.1 todo k p ∈ gths (nbase c)) by (rewrite <- P; exact (elem_of_list_lookup_2 _ _ _ Hc)). apply elem_of_list_lookup in Hj as [j Hj]. destruct (Cl _ _ _ _ _ Hj) as [-> ->].
  exists [], k, CIdle. split; [exact Hc|]. apply lookup_lt_Some in Hff. apply (f_equal length) in Hd. rewrite drop_length in Hd. cbn [length] in Hd.
  destruct (decide (S f.2 = k)); [right; auto|left; lia].
Qed.
Print Assumptions c141_few_calls_partial.
(** A function that submits three others, FuncLimit 4: all are run. *)
Definition ex141 (f : fid) : list gact := match f with (0, 0)%nat => [AGo; AGo; AGo] | _ => [] end.
Definition ex141_evs : list (nat * bool) := go 0 5 ++ go 1 12 ++ go 2 2 ++ go 3 15 ++ go 4 7 ++ go 2 5 ++ go 4 20 ++ go 2 8 ++ go 4 20 ++ go 2 8 ++ go 4 20 ++ go 2 8 ++ go 4 20 ++ go 2 8.
Example c141_ex : let c := nrun 1 1 4 ex141 1 (ninit [[AGo]]) ex141_evs in
  gstart (gsh (nbase c)) = [(0, 0); (1, 0); (1, 1); (1, 2)]%nat /\ gtnum (gsh (nbase c)) = 0 /\
  forallb (fun th => match gstep 1 1 4 (gsh (nbase c)) th false, gstep 1 1 4 (gsh (nbase c)) th true with None, None => true | _, _ => false end) (gths (nbase c)) = true /\
  length (concat (all_calls ex141 [[AGo]] (gstart (gsh (nbase c))))) = 4%nat.
Proof. vm_compute. repeat split. Qed.
