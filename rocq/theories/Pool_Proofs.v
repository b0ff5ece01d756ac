(** Proofs about the pools of pool/buffer. *)
From stdpp Require Import list.
From stdpp Require Import list_numbers.
From Coq Require Import ZArith Lia.
From Verif Require Import GoInt Pool_Model Pool_Spec.
Local Open Scope Z_scope.

(** ** Routing *)
Lemma route_small i : (i < 60)%nat -> route i = 8 * 2 ^ Z.of_nat i.
Proof.
  intros Hi. unfold route. assert (H : 2 ^ Z.of_nat i <= 2 ^ 59) by (apply Z.pow_le_mono_r; lia). assert (H0 : 0 < 2 ^ Z.of_nat i) by (apply Z.pow_pos_nonneg; lia).
  assert (E : forall z, 0 <= z < 2 ^ 63 -> i64 z = z).
  { intros z Hz. apply wrapS_id; [lia|]. change (64 - 1) with 63. lia. }
  change (2 ^ 59) with 576460752303423488 in H. change (2 ^ 63) with 9223372036854775808 in E. rewrite (E (2 ^ Z.of_nat i)) by lia. apply E. lia.
Qed.
Lemma router_at n i : (i < n)%nat -> router n !! i = Some (route i).
Proof. intros Hi. unfold router. rewrite list_lookup_fmap, lookup_seq_lt by exact Hi. reflexivity. Qed.
Lemma router_length n : length (router n) = n.
Proof. unfold router. rewrite fmap_length, seq_length. reflexivity. Qed.
Lemma from_none rs len : forall k, (forall v, v ∈ rs -> len < v) -> getRouter_from k rs len = 0%nat.
Proof.
  induction rs as [|v rs IH]; intros k H; cbn [getRouter_from]; [reflexivity|]. rewrite decide_False by (specialize (H v (elem_of_list_here _ _)); lia).
  apply IH. intros w Hw. apply H. right. exact Hw.
Qed.
Lemma router_elem n v : v ∈ router n -> exists i, (i < n)%nat /\ v = route i.
Proof. intros H. apply elem_of_list_lookup in H as [i Hi]. apply lookup_lt_Some in Hi as Hlt. rewrite router_length in Hlt. rewrite router_at in Hi by exact Hlt. exists i. split; [exact Hlt|congruence]. Qed.
Lemma route_pos i : (i < 60)%nat -> 8 <= route i.
Proof. intros Hi. rewrite route_small by exact Hi. assert (0 < 2 ^ Z.of_nat i) by (apply Z.pow_pos_nonneg; lia). lia. Qed.
Lemma getRouter_zero n len : (n <= 60)%nat \/ 8 <= len -> getRouter n len = 0%nat.
Proof.
  intros H. destruct (decide (8 <= len)) as [Hl|Hl].
  - unfold getRouter. destruct n as [|n]; [reflexivity|]. unfold router. cbn [seq fmap list_fmap getRouter_from]. change (route 0) with 8. rewrite decide_True by exact Hl. reflexivity.
  - apply from_none. intros v Hv. apply router_elem in Hv as (i & Hi & ->). pose proof (route_pos i ltac:(lia)). lia.
Qed.
Lemma from_app rs rs' len : forall k, (forall v, v ∈ rs -> len < v) -> getRouter_from k (rs ++ rs') len = getRouter_from (k + length rs) rs' len.
Proof.
  induction rs as [|v rs IH]; intros k H; cbn [getRouter_from app length]; [rewrite Nat.add_0_r; reflexivity|].
  rewrite decide_False by (specialize (H v (elem_of_list_here _ _)); lia). rewrite IH by (intros w Hw; apply H; right; exact Hw). f_equal. lia.
Qed.
Lemma getRouter_sixty n len : (60 < n)%nat -> -9223372036854775808 <= len < 8 -> getRouter n len = 60%nat.
Proof.
  intros Hn Hl. unfold getRouter. rewrite <- (take_drop 60 (router n)). rewrite from_app.
  - rewrite take_length, router_length. replace (0 + 60 `min` n)%nat with 60%nat by lia.
    assert (E : router n !! 60%nat = Some (route 60)) by (apply router_at; lia). rewrite (drop_S _ _ _ E). cbn [getRouter_from].
    change (route 60) with (-9223372036854775808). rewrite decide_True by lia. reflexivity.
  - intros v Hv. apply elem_of_take in Hv as (i & Hi & Hlt). apply lookup_lt_Some in Hi as Hi'. rewrite router_length in Hi'. rewrite router_at in Hi by exact Hi'. injection Hi as <-.
    pose proof (route_pos i Hlt). lia.
Qed.
Lemma getRouter_lt n len : (0 < n)%nat -> (-9223372036854775808 <= len) -> (getRouter n len < n)%nat.
Proof.
  intros Hn Hl. destruct (decide ((n <= 60)%nat \/ 8 <= len)) as [H|H]; [rewrite getRouter_zero by exact H; exact Hn|]. rewrite getRouter_sixty by lia. lia.
Qed.

(** ** Nobody gets what somebody holds *)
Definition inv (s : pst) (held : list nat) : Prop := NoDup (concat (pbags s) ++ held) /\ forall o, o ∈ concat (pbags s) ++ held -> (o < length (pobjs s))%nat.
Lemma concat_split (bags : list (list nat)) i bag : bags !! i = Some bag -> concat bags = concat (take i bags) ++ bag ++ concat (drop (S i) bags).
Proof. intros H. rewrite <- (take_drop_middle _ _ _ H) at 1. rewrite concat_app. reflexivity. Qed.
Lemma concat_set (bags : list (list nat)) i bag' : (i < length bags)%nat -> concat (<[i := bag']> bags) = concat (take i bags) ++ bag' ++ concat (drop (S i) bags).
Proof. intros H. rewrite insert_take_drop by exact H. rewrite concat_app. reflexivity. Qed.
Lemma delete_perm (l : list nat) i x : l !! i = Some x -> l ≡ₚ x :: delete i l.
Proof. apply delete_Permutation. Qed.
Lemma filter_perm (l : list nat) o : NoDup l -> o ∈ l -> l ≡ₚ o :: filter (fun x => x <> o) l.
Proof.
  induction l as [|x l IH]; intros Hn Ho; [exfalso; revert Ho; apply not_elem_of_nil|]. apply NoDup_cons in Hn as [Hx Hn]. destruct (decide (x = o)) as [->|Hne].
  - rewrite filter_cons_False by congruence. constructor. assert (E : filter (fun x => x <> o) l = l); [|rewrite E; reflexivity].
    clear IH Ho Hn. induction l as [|y l IH]; [reflexivity|]. apply not_elem_of_cons in Hx as [Hy Hx]. rewrite filter_cons_True by congruence. rewrite IH by exact Hx. reflexivity.
  - rewrite filter_cons_True by exact Hne. apply elem_of_cons in Ho as [->|Ho]; [congruence|]. rewrite (IH Hn Ho) at 1. constructor.
Qed.
Lemma inv_perm s held l : concat (pbags s) ++ held ≡ₚ l -> NoDup l -> (forall o, o ∈ l -> (o < length (pobjs s))%nat) -> inv s held.
Proof. intros Hp Hn Hl. split; [rewrite Hp; exact Hn|]. intros o Ho. apply Hl. rewrite <- Hp. exact Ho. Qed.
Lemma get_inv n s held len pick s' o : inv s held -> pstep n s (POGet len pick) = (s', RGot o) ->
  inv s' (o :: held) /\ o ∉ held /\ exists c, pobjs s' !! o = Some (BB [] c).
Proof.
  intros [Hn Hl] H. cbn [pstep] in H. destruct (pbags s !! getRouter n len) as [bag|] eqn:Hb; [|discriminate]. destruct (bag !! pick) as [o'|] eqn:Hp.
  - destruct (pobjs s !! o') as [x|] eqn:Hx; [|discriminate]. simplify_eq. pose proof (concat_split _ _ _ Hb) as Hc. apply lookup_lt_Some in Hb as Hlt.
    assert (HP : concat (pbags s) ++ held ≡ₚ concat (<[getRouter n len := delete pick bag]> (pbags s)) ++ o :: held).
    { rewrite Hc, concat_set by exact Hlt. rewrite <- !app_assoc. apply Permutation_app_head. rewrite (delete_perm _ _ _ Hp) at 1. cbn [app].
      rewrite !app_assoc. apply Permutation_middle. }
    split; [|split].
    + eapply inv_perm; cbn [pbags pobjs]; [symmetry; exact HP|exact Hn|]. rewrite insert_length. exact Hl.
    + rewrite HP in Hn. apply NoDup_app in Hn as (_ & _ & Hn). apply NoDup_cons in Hn as [Hn _]. exact Hn.
    + eexists. cbn [pobjs]. apply list_lookup_insert. apply lookup_lt_Some in Hx. exact Hx.
  - simplify_eq. assert (Hf : forall o, o ∈ concat (pbags s) ++ held -> o <> length (pobjs s)) by (intros o Ho; apply Hl in Ho; lia). split; [|split].
    + eapply inv_perm; cbn [pbags pobjs]; [rewrite <- Permutation_middle; reflexivity| |].
      * apply NoDup_cons. split; [intros Ho; exact (Hf _ Ho eq_refl)|exact Hn].
      * intros o [->|Ho]%elem_of_cons; rewrite app_length; cbn; [lia|apply Hl in Ho; lia].
    + intros Ho. apply (Hf (length (pobjs s))); [|reflexivity]. apply elem_of_app. auto.
    + eexists. cbn [pobjs]. apply list_lookup_middle. reflexivity.
Qed.
Lemma put_inv n s held o : inv s held -> o ∈ held -> inv (pstep n s (POPut o)).1 (filter (fun x => x <> o) held).
Proof.
  intros [Hn Hl] Ho. assert (Hnh : NoDup held) by (apply NoDup_app in Hn as (_ & _ & Hn); exact Hn). pose proof (filter_perm _ _ Hnh Ho) as HP.
  assert (Hweak : forall s', pbags s' = pbags s -> pobjs s' = pobjs s -> inv s' (filter (fun x => x <> o) held)).
  { intros s' E1 E2. rewrite HP in Hn. apply NoDup_app in Hn as (H1 & H2 & H3). apply NoDup_cons in H3 as [_ H3]. split; rewrite E1.
    - apply NoDup_app. split; [exact H1|]. split; [|exact H3]. intros x Hx Hx'. apply (H2 x Hx). right. exact Hx'.
    - intros x [Hx|Hx]%elem_of_app; rewrite E2; apply Hl, elem_of_app; [auto|]. right. rewrite HP. right. exact Hx. }
  cbn [pstep]. destruct (pobjs s !! o) as [x|] eqn:Hx; [|apply Hweak; reflexivity]. destruct (pbags s !! getRouter n (bcap x)) as [bag|] eqn:Hb; [|apply Hweak; reflexivity].
  cbn [fst]. pose proof (concat_split _ _ _ Hb) as Hc. apply lookup_lt_Some in Hb as Hlt.
  eapply inv_perm; cbn [pbags pobjs]; [|exact Hn|exact Hl]. rewrite concat_set by exact Hlt. rewrite Hc. rewrite HP at 2.
  rewrite <- !app_assoc. do 2 apply Permutation_app_head. cbn [app]. rewrite <- Permutation_middle. reflexivity.
Qed.
Lemma write_inv n s held o bs c : inv s held -> inv (pstep n s (POWrite o bs c)).1 held.
Proof. intros [Hn Hl]. cbn [pstep]. destruct (pobjs s !! o); [|split; assumption]. split; cbn [fst pbags pobjs]; [exact Hn|rewrite insert_length; exact Hl]. Qed.
Lemma get_res n s len pick : exists s' r, pstep n s (POGet len pick) = (s', r) /\ ((exists o, r = RGot o) \/ (s' = s /\ (r = RPanic \/ r = RNone))).
Proof.
  cbn [pstep]. destruct (pbags s !! _); [|do 2 eexists; split; [reflexivity|right; auto]]. destruct (_ !! pick); [|do 2 eexists; split; [reflexivity|left; eauto]].
  destruct (pobjs s !! _); (do 2 eexists; split; [reflexivity|]); [left; eauto|right; auto].
Qed.
Lemma run_inv n ops : forall s held held', inv s held -> holding held ops (prun n s ops).2 = Some held' -> inv (prun n s ops).1 held'.
Proof.
  induction ops as [|op ops IH]; intros s held held' Hi H; cbn [prun] in *; cbn [fst snd] in *; [cbn in H; injection H as <-; exact Hi|].
  destruct op as [len pick|o| |o bs c].
  - destruct (get_res n s len pick) as (s' & r & E & Hr). rewrite E in *. cbn [fst snd] in *. destruct Hr as [[o ->]|[-> [ -> | -> ] ]]; cbn [holding] in H.
    + destruct (get_inv _ _ _ _ _ _ _ Hi E) as (Hi' & _). exact (IH _ _ _ Hi' H).
    + exact (IH _ _ _ Hi H).
    + exact (IH _ _ _ Hi H).
  - cbn [holding] in H. case_decide as Ho; [|discriminate]. exact (IH _ _ _ (put_inv n s held o Hi Ho) H).
  - cbn [holding pstep fst] in *. exact (IH _ _ _ Hi H).
  - cbn [holding] in H. case_decide as Ho; [|discriminate]. exact (IH _ _ _ (write_inv n s held o bs c Hi) H).
Qed.
Lemma inv_new n : inv (pnew n) [].
Proof.
  assert (E : concat (pbags (pnew n)) = []) by (cbn; induction n; [reflexivity|cbn; assumption]). split; rewrite E; [constructor|]. intros o Ho. exfalso. revert Ho. apply not_elem_of_nil.
Qed.

(** ** The generic pool and its variables *)
Definition kept (l : list (option nat)) : list nat := omap id l.
Definition ginv (s : gst) : Prop := NoDup (gbag s ++ kept (gvars s)) /\ forall o, o ∈ gbag s ++ kept (gvars s) -> (o < gnext s)%nat.
Lemma kept_set (l : list (option nat)) i q p : l !! i = Some q -> kept l ≡ₚ kept [q] ++ kept (<[i := None]> l) /\ kept (<[i := p]> l) ≡ₚ kept [p] ++ kept (<[i := None]> l).
Proof.
  intros H. apply lookup_lt_Some in H as Hlt. unfold kept. rewrite !insert_take_drop by exact Hlt. rewrite <- (take_drop_middle _ _ _ H) at 1. split.
  - rewrite !omap_app. cbn. destruct q; cbn; [rewrite <- Permutation_middle; reflexivity|reflexivity].
  - rewrite !omap_app. cbn. destruct p; cbn; [rewrite <- Permutation_middle; reflexivity|reflexivity].
Qed.
Lemma kept_out (l : list (option nat)) i p : l !! i = None -> <[i := p]> l = l.
Proof. intros H. apply list_insert_ge. apply lookup_ge_None. exact H. Qed.
Lemma nodup_sub (a b c : list nat) : NoDup (a ++ b ++ c) -> NoDup (a ++ c).
Proof.
  intros H. apply NoDup_app in H as (H1 & H2 & H3). apply NoDup_app in H3 as (_ & _ & H3). apply NoDup_app. split; [exact H1|]. split; [|exact H3].
  intros x Hx Hx'. apply (H2 x Hx), elem_of_app. auto.
Qed.
Lemma ginv_step s op : ginv s -> (forall x y, op <> GCopy x y) -> (forall x k, op = GGet x k -> (x < length (gvars s))%nat) -> ginv (gstep s op).1.
Proof.
  intros [Hn Hl] Hc Hlt. destruct op as [x pick|x|x y]; [| |exfalso; exact (Hc _ _ eq_refl)]; cbn [gstep].
  - specialize (Hlt _ _ eq_refl). destruct (lookup_lt_is_Some_2 _ _ Hlt) as [q Hq]. destruct (gbag s !! pick) as [o|] eqn:Hp; cbn [fst].
    + destruct (kept_set _ _ q (Some o) Hq) as [K1 K2].
      assert (HP : gbag s ++ kept (gvars s) ≡ₚ kept [q] ++ delete pick (gbag s) ++ kept (<[x := Some o]> (gvars s))).
      { rewrite K1, K2. rewrite (delete_perm _ _ _ Hp) at 1. change (kept [Some o]) with [o]. cbn [app]. rewrite <- !Permutation_middle. constructor. apply Permutation_app_swap_app. }
      split; cbn [gbag gvars gnext]; [rewrite HP in Hn; apply NoDup_app in Hn as (_ & _ & Hn); exact Hn|]. intros z Hz. apply Hl. rewrite HP. apply elem_of_app. auto.
    + destruct (kept_set _ _ q (Some (gnext s)) Hq) as [K1 K2]. change (kept [Some (gnext s)]) with [gnext s] in K2. cbn [app] in K2.
      assert (HP : gbag s ++ kept (gvars s) ≡ₚ kept [q] ++ gbag s ++ kept (<[x := None]> (gvars s))).
      { rewrite K1. apply Permutation_app_swap_app. }
      split; cbn [gbag gvars gnext].
      * rewrite K2, <- Permutation_middle. apply NoDup_cons. rewrite HP in Hn. split; [|apply NoDup_app in Hn as (_ & _ & Hn); exact Hn].
        intros Hz. assert (Hlt' : (gnext s < gnext s)%nat); [|lia]. apply Hl. rewrite HP. apply elem_of_app. auto.
      * intros z. rewrite K2, <- Permutation_middle. intros [->|Hz]%elem_of_cons; [lia|]. assert (z < gnext s)%nat; [|lia]. apply Hl. rewrite HP. apply elem_of_app. auto.
  - destruct (gvars s !! x) as [[o|]|] eqn:Hx; cbn [fst]; [|split; assumption|split; assumption].
    destruct (kept_set _ _ _ None Hx) as [K1 _]. change (kept [Some o]) with [o] in K1. cbn [app] in K1.
    assert (HP : (gbag s ++ [o]) ++ kept (<[x := None]> (gvars s)) ≡ₚ gbag s ++ kept (gvars s)) by (rewrite K1, <- app_assoc; reflexivity).
    split; cbn [gbag gvars gnext]; [rewrite HP; exact Hn|]. intros z Hz. apply Hl. rewrite <- HP. exact Hz.
Qed.
Lemma gstep_vars s op : length (gvars (gstep s op).1) = length (gvars s).
Proof. destruct op as [x k|x|x y]; cbn [gstep]; [destruct (_ !! k)|destruct (_ !! x) as [[?|]|]|destruct (_ !! x)]; cbn [fst gvars]; rewrite ?insert_length; reflexivity. Qed.
Lemma ginv_run ops : forall s, ginv s -> (forall x y, GCopy x y ∉ ops) -> (forall x k, GGet x k ∈ ops -> (x < length (gvars s))%nat) -> ginv (grun s ops).1.
Proof.
  induction ops as [|op ops IH]; intros s Hi Hc Hg; cbn [grun fst]; [exact Hi|]. apply IH.
  - apply ginv_step; [exact Hi| |]; [intros x y ->; exact (Hc x y (elem_of_list_here _ _))|intros x k ->; exact (Hg x k (elem_of_list_here _ _))].
  - intros x y H. apply (Hc x y). right. exact H.
  - intros x k H. rewrite gstep_vars. apply (Hg x k). right. exact H.
Qed.
