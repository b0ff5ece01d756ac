(** LimitMap refines its list specification. *)
From stdpp Require Import gmap.
From Coq Require Import ZArith Lia.
From Verif Require Import GoList_Model GoList_Proofs Assoc_Spec Keyed_Proofs LimitMap_Model LimitMap_Spec.
Local Open Scope Z_scope.

Section size.
Context {K V : Type} `{Countable K}.
(** The index has one key per entry. *)
Lemma keyed_size (idx : gmap K nat) (l : dlist (K * V)) s : keyed idx l s -> size idx = length s.
Proof.
  intros Hk. rewrite <- size_dom. pose proof Hk as (xs & Hd & Hf & Hn & Hi).
  assert (dom idx = (list_to_set (s.*1) : gset K)) as ->.
  { apply set_eq. intros k. rewrite elem_of_dom, elem_of_list_to_set. unfold is_Some. split.
    - intros [x E]. destruct (keyed_Some _ _ _ _ _ Hk E) as (v & _ & Hfk).
      destruct (decide (k ∈ s.*1)) as [Hin|Hin]; [auto|]. apply find_key_None in Hin. congruence.
    - intros Hin. destruct (idx !! k) eqn:E; [eauto|]. apply (keyed_None _ _ _ k Hk), find_key_None in E. tauto. }
  rewrite size_list_to_set by auto. apply fmap_length.
Qed.

Lemma without_length k (s : list (K * V)) : (length (without k s) <= length s)%nat.
Proof. apply filter_length. Qed.
Lemma without_set_key k v (s : list (K * V)) : without k (set_key k v s) = without k s.
Proof.
  induction s as [|[k' v'] s IH]; [auto|]. unfold without, set_key in *. cbn [map fst].
  rewrite !filter_cons. cbn [fst]. destruct (decide (k' = k)) as [->|E1].
  - rewrite !decide_False by (cbn [fst]; tauto). auto.
  - rewrite decide_True by (cbn; auto). rewrite decide_True by auto. f_equal. auto.
Qed.
Lemma find_set_key k v (s : list (K * V)) : find_key k s <> None -> find_key k (set_key k v s) = Some v.
Proof.
  induction s as [|[k' v'] s IH]; [cbn; congruence|]. cbn. destruct (decide (k = k')) as [<-|E1].
  - intros _. rewrite decide_True by auto. cbn. rewrite decide_True by auto. auto.
  - rewrite (decide_False (P := k' = k)) by auto. intros Hf. cbn. rewrite decide_False by auto. auto.
Qed.
End size.

Section proofs.
Context {K V : Type} `{Countable K}.
Implicit Types (s : list (K * V)) (mc : lmap K V).

Definition lholds (cap : Z) mc s : Prop :=
  keyed (cache mc) (order mc) s /\ capacity mc = cap /\ Z.of_nat (length s) <= Z.max 1 (cap + 1).

Lemma del_holds cap mc s k : lholds cap mc s -> lholds cap (Del k mc) (without k s).
Proof.
  intros (Hk & Hc & Hb). unfold Del. pose proof (without_length k s). destruct (cache mc !! k) as [x|] eqn:E.
  - split; [apply keyed_remove; auto|]. split; [auto|lia].
  - rewrite without_notin by (apply find_key_None, (keyed_None _ _ _ k Hk), E). split; auto.
Qed.

Lemma put_holds cap mc s k v : lholds cap mc s ->
  let '(r, mc') := Put k v mc in r = find_key k s /\ lholds cap mc' (lspec_put cap k v s).
Proof.
  intros (Hk & Hc & Hb). unfold Put, lspec_put.
  destruct (cache mc !! k) as [x|] eqn:E.
  - destruct (keyed_Some _ _ _ _ _ Hk E) as (v0 & Hv0 & Hf). rewrite Hf, Hv0. split; [auto|].
    pose proof (keyed_set _ _ _ _ _ v Hk E) as Hs.
    destruct (keyed_move _ _ _ _ _ Hs E) as (v' & Hf' & Hm).
    rewrite without_set_key in Hm.
    assert (Hne : find_key k s <> None) by (rewrite Hf; discriminate).
    rewrite (find_set_key _ _ _ Hne) in Hf'. injection Hf' as <-.
    split; [auto|]. split; [auto|]. destruct Hk as (xs & _ & _ & Hn & _).
    pose proof (length_without k s Hn Hne). cbn [length]. lia.
  - pose proof (proj1 (keyed_None _ _ _ k Hk) E) as Hf. rewrite Hf.
    unfold Len. rewrite (keyed_size _ _ _ Hk). subst cap.
    assert (HP : forall mc1 s1, keyed (cache mc1) (order mc1) s1 -> capacity mc1 = capacity mc -> cache mc1 !! k = None ->
      Z.of_nat (length s1) <= Z.max 0 (capacity mc) ->
      let '(elem, l) := list_PushFront (k, v) (order mc1) in
      lholds (capacity mc) (LMap (<[k := elem]> (cache mc1)) l (capacity mc1)) ((k, v) :: s1)).
    { intros mc1 s1 Hk1 Hc1 E1 Hb1. pose proof (keyed_push _ _ _ k v Hk1 E1) as HP.
      destruct (list_PushFront (k, v) (order mc1)) as [e l]. split; [auto|]. split; [auto|]. cbn [length]. lia. }
    destruct (Z.leb_spec (Z.of_nat (length s)) (capacity mc)) as [Hle|Hgt].
    + rewrite (proj2 (Z.ltb_ge _ _)) by lia. specialize (HP mc s Hk eq_refl E).
      destruct (list_PushFront (k, v) (order mc)) as [e l]. split; [auto|]. apply HP. lia.
    + rewrite (proj2 (Z.ltb_lt _ _)) by lia. pose proof (keyed_back _ _ _ Hk) as HB.
      destruct (list_Back (order mc)) as [o|].
      * destruct HB as (s' & ko & vo & Hs & Hvo & Hko & Hk' & Hvo'). rewrite Hvo', Hs, removelast_last.
        assert (HL : length s = S (length s')) by (rewrite Hs, app_length; cbn; lia).
        specialize (HP (LMap (delete ko (cache mc)) (list_Remove o (order mc)) (capacity mc)) s').
        cbn [cache order capacity] in *.
        destruct (list_PushFront (k, v) (list_Remove o (order mc))) as [e l]. split; [auto|].
        apply HP; auto; [|lia]. apply lookup_delete_None. auto.
      * subst s. cbn [removelast]. specialize (HP mc [] Hk eq_refl E).
        destruct (list_PushFront (k, v) (order mc)) as [e l]. split; [auto|]. apply HP. cbn [length]. lia.
Qed.

Lemma remove_multi_holds cap ks : forall mc s, lholds cap mc s ->
  lholds cap (RemoveMulti ks mc) (filter (fun p => p.1 ∉ ks) s).
Proof.
  induction ks as [|k ks IH]; intros mc s Hh; cbn [RemoveMulti fold_left].
  - replace (filter (fun p => p.1 ∉ []) s) with s; [auto|].
    clear. induction s as [|p s IH]; [auto|]. rewrite filter_cons, decide_True by (apply not_elem_of_nil). f_equal. auto.
  - replace (filter (fun p => p.1 ∉ k :: ks) s) with (filter (fun p => p.1 ∉ ks) (without k s)).
    + apply (IH (Del k mc)). apply del_holds. auto.
    + unfold without. rewrite list_filter_filter. apply list_filter_iff. intros p. rewrite not_elem_of_cons. tauto.
Qed.

Lemma lstep_holds cap mc s o : lholds cap mc s ->
  let '(r, mc') := lstep mc o in let '(r', s') := lspec_step cap s o in r = r' /\ lholds cap mc' s'.
Proof.
  intros Hh. destruct o as [k v|k|k|ks|]; cbn [lstep lspec_step].
  - pose proof (put_holds cap mc s k v Hh) as HP. destruct (Put k v mc) as [r mc']. destruct HP as [-> HP]. auto.
  - split; [|auto]. f_equal. destruct Hh as (Hk & _). apply (keyed_get _ _ _ k Hk).
  - split; [auto|]. apply del_holds. auto.
  - split; [auto|]. apply remove_multi_holds. auto.
  - split; [|auto]. f_equal. destruct Hh as (Hk & _). unfold Len. rewrite (keyed_size _ _ _ Hk). auto.
Qed.

Lemma lrun_holds cap os : forall mc s, lholds cap mc s ->
  let '(rs, mc') := lrun mc os in let '(rs', s') := lspec_run cap s os in rs = rs' /\ lholds cap mc' s'.
Proof.
  induction os as [|o os IH]; intros mc s Hh; cbn [lrun lspec_run]; [auto|].
  pose proof (lstep_holds cap mc s o Hh) as HS.
  destruct (lstep mc o) as [r mc1], (lspec_step cap s o) as [r' s1]. destruct HS as [-> HS].
  specialize (IH mc1 s1 HS). destruct (lrun mc1 os) as [rs mc2], (lspec_run cap s1 os) as [rs' s2].
  destruct IH as [-> IH]. auto.
Qed.

Lemma lholds_new cap : lholds cap (NewLimitMap cap) [].
Proof. split; [apply keyed_new|]. split; [auto|]. cbn. lia. Qed.
End proofs.
