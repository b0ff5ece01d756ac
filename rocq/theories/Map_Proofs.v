From stdpp Require Import gmap.
From Coq Require Import ZArith Lia.
From Verif Require Import GoInt Map_Model Map_Spec.
Local Open Scope Z_scope.

Section proofs.
Context {K V : Type} `{Countable K} (is_nil : V -> bool) (zero : V).

Lemma map_step_lookup (m : gmap K V) o k :
  (map_step is_nil zero m o).2 !! k =
  match o with
  | MPut k' v => if decide (k' = k) then Some v else m !! k
  | MDel k' => if decide (k' = k) then None else m !! k
  | _ => m !! k
  end.
Proof.
  destruct o as [k' v|k'|k'|k']; cbn; auto; destruct (decide (k' = k)) as [->|Hne].
  - apply lookup_insert.
  - rewrite lookup_insert_ne by auto. auto.
  - apply lookup_delete.
  - rewrite lookup_delete_ne by auto. auto.
Qed.

Lemma map_run_lookup os : forall (m : gmap K V) k,
  (map_run is_nil zero m os).2 !! k = last_put k os (m !! k).
Proof.
  induction os as [|o os IH]; intros m k; cbn [map_run last_put]; [auto|].
  pose proof (map_step_lookup m o k) as HS. destruct (map_step is_nil zero m o) as [x m1]. cbn [snd] in HS.
  specialize (IH m1 k). destruct (map_run is_nil zero m1 os) as [xs m2]. cbn [snd] in *. rewrite IH, HS.
  destruct o; auto.
Qed.

Lemma map_run_app os1 os2 : forall m : gmap K V,
  (map_run is_nil zero m (os1 ++ os2)).1 =
  (map_run is_nil zero m os1).1 ++ (map_run is_nil zero (map_run is_nil zero m os1).2 os2).1.
Proof.
  induction os1 as [|o os1 IH]; intros m; cbn [app map_run]; [auto|].
  destruct (map_step is_nil zero m o) as [x m1]. specialize (IH m1).
  destruct (map_run is_nil zero m1 (os1 ++ os2)), (map_run is_nil zero m1 os1). cbn in *. congruence.
Qed.

(** Counter invariant. *)
Definition pending (c : mconf K V) : Z := fold_right (fun th a => pend th + a) 0 (ths c).

Lemma sum_insert (l : list (mthread K V)) i th th' : l !! i = Some th ->
  fold_right (fun t a => pend t + a) 0 (<[i := th']> l) = fold_right (fun t a => pend t + a) 0 l - pend th + pend th'.
Proof.
  revert i. induction l as [|t l IH]; intros [|i] E; try discriminate.
  - injection E as ->. cbn. lia.
  - change (<[S i := th']> (t :: l)) with (t :: <[i := th']> l). cbn [foldr]. rewrite (IH i) by auto. lia.
Qed.

Definition ok (c : mconf K V) : Prop :=
  len c = i64 (Z.of_nat (size (mm c)) - pending c) /\ Forall (fun th => -1 <= pend th <= 1) (ths c).

Lemma i64_add a b : i64 (i64 a + b) = i64 (a + b).
Proof.
  unfold i64. apply wrapS_eq_mod; [lia|].
  rewrite <- Zplus_mod_idemp_l, wrapS_mod, Zplus_mod_idemp_l by lia. auto.
Qed.

Lemma size_step (m : gmap K V) o :
  Z.of_nat (size (map_step is_nil zero m o).2) = Z.of_nat (size m) + mapl_first m o.
Proof.
  destruct o as [k v|k|k|k]; cbn; try lia; destruct (m !! k) eqn:E.
  - rewrite map_size_insert_Some by eauto. lia.
  - rewrite map_size_insert_None by auto. lia.
  - rewrite map_size_delete_Some by eauto.
    assert (size m <> 0%nat); [|lia]. intros Hs. apply map_size_empty_inv in Hs. subst m. rewrite lookup_empty in E. discriminate.
  - rewrite map_size_delete_None by auto. lia.
Qed.

Lemma mapl_step_ok i c : ok c -> ok (mapl_step is_nil zero i c).
Proof.
  intros [Hl Hp]. unfold mapl_step. destruct (ths c !! i) as [th|] eqn:E; [|split; auto].
  pose proof (Forall_lookup_1 _ _ _ _ Hp E) as Hth. cbn beta in Hth.
  destruct (Z.eqb_spec (pend th) 0) as [H0|H0].
  - destruct (todo th) as [|o r]; [split; auto|]. split; cbn [mm len ths].
    + rewrite Hl, size_step. unfold pending. cbn [ths]. rewrite (sum_insert _ _ _ _ E). cbn [pend]. f_equal. lia.
    + apply Forall_insert; [auto|]. cbn. unfold mapl_first. destruct o; try lia; destruct (mm c !! k); lia.
  - split; cbn [mm len ths].
    + rewrite Hl, i64_add. unfold pending. cbn [ths]. rewrite (sum_insert _ _ _ _ E). cbn [pend]. f_equal. lia.
    + apply Forall_insert; [auto|]. cbn. lia.
Qed.

Lemma mapl_exec_ok sched : forall c, ok c -> ok (mapl_exec is_nil zero sched c).
Proof. induction sched as [|i sched IH]; intros c Hc; [auto|]. cbn. apply IH, mapl_step_ok. auto. Qed.

Lemma mapl_init_ok progs : ok (mapl_init progs).
Proof.
  split; cbn.
  - unfold pending. cbn [ths mapl_init]. rewrite map_size_empty. replace (fold_right _ 0 _) with 0; [reflexivity|].
    induction progs; cbn; auto.
  - apply Forall_fmap, Forall_forall. intros p _. cbn. lia.
Qed.

Lemma pending_bound (l : list (mthread K V)) : Forall (fun th => -1 <= pend th <= 1) l ->
  Z.abs (fold_right (fun t a => pend t + a) 0 l) <= Z.of_nat (length (filter (fun th => pend th <> 0) l)).
Proof.
  induction 1 as [|th l Hth Hl IH]; cbn [fold_right]; [cbn; lia|]. rewrite filter_cons.
  destruct (decide (pend th <> 0)); cbn [length]; lia.
Qed.
End proofs.
