(** A container/list of (key, value) entries together with an index from keys to elements
    represents a list of pairs with distinct keys. Used by all list-backed maps. *)
From stdpp Require Import gmap.
From Coq Require Import ZArith Lia.
From Verif Require Import GoList_Model GoList_Proofs Assoc_Spec.
Local Open Scope Z_scope.

Section keyed.
Context {K V : Type} `{Countable K}.
Implicit Types (idx : gmap K nat) (s : list (K * V)) (l : dlist (K * V)).

Definition keyedx idx l (xs : list nat) s : Prop :=
  dll l xs /\ Forall2 (fun x p => vals l !! x = Some p) xs s /\
    NoDup (s.*1) /\ (forall k x, idx !! k = Some x <-> exists v, x ∈ xs /\ vals l !! x = Some (k, v)).

Definition keyed idx l s : Prop := exists xs : list nat, keyedx idx l xs s.

Lemma keyed_new : keyed ∅ list_New [].
Proof.
  exists []. split; [apply dll_New|]. split; [constructor|]. split; [constructor|].
  intros k x. rewrite lookup_empty. split; [discriminate|]. intros (v & Hx & _). set_solver.
Qed.

Lemma keyed_init idx l s : keyed idx l s -> keyed ∅ (list_Init l) [].
Proof.
  intros (xs & Hd & _). exists []. split; [eapply dll_Init; eauto|]. split; [constructor|].
  split; [constructor|].
  intros k x. rewrite lookup_empty. split; [discriminate|]. intros (v & Hx & _). set_solver.
Qed.

Lemma keyed_len idx l s : keyed idx l s -> list_Len l = Z.of_nat (length s).
Proof. intros (xs & Hd & Hf & _). unfold list_Len. rewrite (dll_len _ _ Hd), (Forall2_length _ _ _ Hf). auto. Qed.

Lemma find_key_None k s : find_key k s = None <-> k ∉ s.*1.
Proof.
  induction s as [|[k' v'] s IH]; cbn; [set_solver|].
  destruct (decide (k = k')) as [->|Hne]; [split; [discriminate|set_solver]|].
  rewrite IH. set_solver.
Qed.

Lemma find_key_app k v s1 s2 : k ∉ s1.*1 -> find_key k (s1 ++ (k, v) :: s2) = Some v.
Proof.
  induction s1 as [|[k' v'] s1 IH]; cbn; [rewrite decide_True by auto; auto|].
  intros Hk. rewrite decide_False by set_solver. apply IH. set_solver.
Qed.

Lemma without_notin k s : k ∉ s.*1 -> without k s = s.
Proof.
  induction s as [|[k' v'] s IH]; [auto|]. rewrite fmap_cons. cbn [fst]. intros Hk. unfold without in *.
  rewrite filter_cons, decide_True by (cbn; set_solver). f_equal. apply IH. set_solver.
Qed.

Lemma without_app k v s1 s2 : k ∉ s1.*1 -> k ∉ s2.*1 -> without k (s1 ++ (k, v) :: s2) = s1 ++ s2.
Proof.
  intros H1 H2. unfold without. rewrite filter_app, filter_cons, decide_False by (cbn; auto).
  fold (without k s1) (without k s2). rewrite !without_notin by auto. reflexivity.
Qed.

(** Decomposition around an indexed key. *)
Lemma keyed_at idx l s xs k x :
  dll l xs -> Forall2 (fun x p => vals l !! x = Some p) xs s -> NoDup (s.*1) ->
  (forall k x, idx !! k = Some x <-> exists v, x ∈ xs /\ vals l !! x = Some (k, v)) ->
  idx !! k = Some x ->
  exists (l1 l2 : list nat) (s1 s2 : list (K * V)) (v : V), xs = l1 ++ x :: l2 /\ s = s1 ++ (k, v) :: s2 /\
    Forall2 (fun x p => vals l !! x = Some p) l1 s1 /\ Forall2 (fun x p => vals l !! x = Some p) l2 s2 /\
    vals l !! x = Some (k, v) /\ k ∉ s1.*1 /\ k ∉ s2.*1 /\ x ∉ l1 /\ x ∉ l2.
Proof.
  intros Hd Hf Hn Hi Hk. apply Hi in Hk as (v & Hx & Hv).
  apply elem_of_list_split in Hx as (l1 & l2 & ->).
  apply Forall2_app_inv_l in Hf as (s1 & s2' & Hf1 & Hf2 & ->).
  apply Forall2_cons_inv_l in Hf2 as ([k' v'] & s2 & Hv' & Hf2 & ->).
  rewrite Hv in Hv'. injection Hv' as <- <-.
  rewrite fmap_app, fmap_cons in Hn. cbn [fst] in Hn.
  apply NoDup_app in Hn as (N1 & N2 & N3). apply NoDup_cons in N3 as [N3 N4].
  pose proof (dll_nodup _ _ Hd) as Hnd. apply NoDup_app in Hnd as (M1 & M2 & M3). apply NoDup_cons in M3 as [M3 M4].
  exists l1, l2, s1, s2, v. repeat split; auto; set_solver.
Qed.

Lemma Forall2_in_l {A B} (P : A -> B -> Prop) xs ys x : Forall2 P xs ys -> x ∈ xs -> exists y, y ∈ ys /\ P x y.
Proof.
  induction 1 as [|a b xs ys Hab Hf IH]; intros Hx; [set_solver|].
  apply elem_of_cons in Hx as [->|Hx]; [exists b; set_solver|].
  destruct (IH Hx) as (y & Hy & HP). exists y. set_solver.
Qed.
Lemma Forall2_in_r {A B} (P : A -> B -> Prop) xs ys y : Forall2 P xs ys -> y ∈ ys -> exists x, x ∈ xs /\ P x y.
Proof.
  induction 1 as [|a b xs ys Hab Hf IH]; intros Hx; [set_solver|].
  apply elem_of_cons in Hx as [->|Hx]; [exists a; set_solver|].
  destruct (IH Hx) as (z & Hz & HP). exists z. set_solver.
Qed.

Lemma keyed_None idx l s k : keyed idx l s -> idx !! k = None <-> find_key k s = None.
Proof.
  intros (xs & Hd & Hf & Hn & Hi). rewrite find_key_None. split.
  - intros Hk Hin. apply elem_of_list_fmap in Hin as ([k' v] & -> & Hin). cbn [fst] in *.
    destruct (Forall2_in_r _ _ _ _ Hf Hin) as (x & Hx & Hv). cbn beta in Hv.
    assert (idx !! k' = Some x) by (apply Hi; eauto). congruence.
  - intros Hin. destruct (idx !! k) as [x|] eqn:E; auto. exfalso.
    destruct (keyed_at _ _ _ _ _ _ Hd Hf Hn Hi E) as (l1 & l2 & s1 & s2 & v & -> & -> & _).
    apply Hin. rewrite fmap_app, fmap_cons. set_solver.
Qed.

Lemma keyed_Some idx l s k x : keyed idx l s -> idx !! k = Some x ->
  exists v, vals l !! x = Some (k, v) /\ find_key k s = Some v.
Proof.
  intros (xs & Hd & Hf & Hn & Hi) E.
  destruct (keyed_at _ _ _ _ _ _ Hd Hf Hn Hi E) as (l1 & l2 & s1 & s2 & v & -> & -> & _ & _ & Hv & K1 & _).
  exists v. split; auto. apply find_key_app. auto.
Qed.

Lemma keyed_get idx l s k : keyed idx l s ->
  match idx !! k with Some e => option_map snd (vals l !! e) | None => None end = find_key k s.
Proof.
  intros Hk. destruct (idx !! k) as [x|] eqn:E.
  - destruct (keyed_Some _ _ _ _ _ Hk E) as (v & -> & ->). reflexivity.
  - symmetry. eapply keyed_None; eauto.
Qed.

Lemma Forall2_vals_insert l (e : nat) v xs s : e ∉ xs ->
  Forall2 (fun x p => vals l !! x = Some p) xs s ->
  Forall2 (fun x p => (<[e := v]> (vals l)) !! x = Some p) xs s.
Proof.
  intros He Hf. induction Hf as [|x p xs s Hx Hf IH]; constructor.
  - rewrite lookup_insert_ne by set_solver. auto.
  - apply IH. set_solver.
Qed.

Lemma NoDup_drop k v s1 s2 : NoDup ((s1 ++ (k, v) :: s2).*1) ->
  NoDup ((s1 ++ s2).*1) /\ k ∉ (s1 ++ s2).*1.
Proof.
  rewrite !fmap_app, fmap_cons. cbn [fst]. intros Hn.
  rewrite <- Permutation_middle in Hn. apply NoDup_cons in Hn as [N1 N2]. auto.
Qed.

Lemma elem_drop {A} (x y : A) (l1 l2 : list A) : y ∈ l1 ++ x :: l2 <-> y = x \/ y ∈ l1 ++ l2.
Proof. set_solver. Qed.

Lemma notin_app {A} (x : A) (l1 l2 : list A) : x ∉ l1 -> x ∉ l2 -> x ∉ l1 ++ l2.
Proof. set_solver. Qed.

(** Push a new key. *)
Lemma keyed_push idx l s k v : keyed idx l s -> idx !! k = None ->
  let '(e, l') := list_PushFront (k, v) l in keyed (<[k := e]> idx) l' ((k, v) :: s).
Proof.
  intros Hk Hnone. pose proof (proj1 (keyed_None _ _ _ _ Hk) Hnone) as Hfk.
  destruct Hk as (xs & Hd & Hf & Hn & Hi).
  pose proof (dll_PushFront l xs (k, v) Hd) as HP. destruct (list_PushFront (k, v) l) as [e l'].
  destruct HP as (-> & Hd' & He & Hvals & _).
  exists (fresh l :: xs). split; [auto|]. rewrite Hvals. split; [|split].
  - constructor; [apply lookup_insert|]. apply Forall2_vals_insert; auto.
  - cbn. apply NoDup_cons. split; [apply find_key_None; auto|auto].
  - intros k' x. destruct (decide (k' = k)) as [->|Hne].
    + rewrite lookup_insert. split.
      * intros [= <-]. exists v. split; [set_solver|apply lookup_insert].
      * intros (v' & Hx & Hv). apply elem_of_cons in Hx as [->|Hx]; auto. exfalso.
        rewrite lookup_insert_ne in Hv by (intros <-; auto).
        assert (idx !! k = Some x) by (apply Hi; eauto). congruence.
    + rewrite lookup_insert_ne by auto. rewrite Hi. split.
      * intros (v' & Hx & Hv). exists v'. split; [set_solver|].
        rewrite lookup_insert_ne by (intros <-; auto). auto.
      * intros (v' & Hx & Hv). apply elem_of_cons in Hx as [->|Hx].
        { rewrite lookup_insert in Hv. congruence. }
        exists v'. split; auto. rewrite lookup_insert_ne in Hv by (intros <-; auto). auto.
Qed.

(** Remove an indexed key. *)
Lemma keyedx_remove idx l (l1 l2 : list nat) x s1 k v s2 :
  keyedx idx l (l1 ++ x :: l2) (s1 ++ (k, v) :: s2) -> length l1 = length s1 ->
  idx !! k = Some x /\ keyedx (delete k idx) (list_Remove x l) (l1 ++ l2) (s1 ++ s2).
Proof.
  intros (Hd & Hf & Hn & Hi) HL.
  apply Forall2_app_inv in Hf as [F1 F2]; [|auto].
  apply Forall2_cons_1 in F2 as [Hv F2].
  assert (E : idx !! k = Some x) by (apply Hi; exists v; rewrite elem_drop; auto).
  split; [auto|]. destruct (dll_Remove _ _ _ _ Hd) as (Hd' & Hvals & _).
  assert (X : x ∉ l1 ++ l2).
  { pose proof (dll_nodup _ _ Hd) as Hnd. rewrite <- Permutation_middle in Hnd.
    apply NoDup_cons in Hnd as [X _]. auto. }
  split; [auto|]. rewrite Hvals. split; [|split].
  - apply Forall2_app; auto.
  - apply (NoDup_drop _ _ _ _ Hn).
  - intros k' x'. destruct (decide (k' = k)) as [->|Hne].
    + rewrite lookup_delete. split; [discriminate|]. intros (v' & Hx & Hv').
      assert (idx !! k = Some x') by (apply Hi; exists v'; rewrite elem_drop; auto).
      assert (x = x') by congruence. subst x'. destruct (X Hx).
    + rewrite lookup_delete_ne by auto. rewrite Hi. split; intros (v' & Hx & Hv'); exists v'.
      * split; auto. assert (x' <> x) by congruence. apply elem_drop in Hx as [->|Hx]; [congruence|auto].
      * rewrite elem_drop. auto.
Qed.

Lemma keyed_remove idx l s k x : keyed idx l s -> idx !! k = Some x ->
  keyed (delete k idx) (list_Remove x l) (without k s).
Proof.
  intros (xs & Hd & Hf & Hn & Hi) E.
  destruct (keyed_at _ _ _ _ _ _ Hd Hf Hn Hi E) as (l1 & l2 & s1 & s2 & v & -> & -> & F1 & F2 & Hv & K1 & K2 & X1 & X2).
  rewrite without_app by auto. exists (l1 ++ l2). apply (keyedx_remove idx l l1 l2 x s1 k v s2).
  - split; auto.
  - apply (Forall2_length _ _ _ F1).
Qed.

(** Replace: push an entry for a present key, then unlink the old element. *)
Lemma keyed_replace idx l s k x v : keyed idx l s -> idx !! k = Some x ->
  let '(e, l') := list_PushFront (k, v) l in
  keyed (<[k := e]> idx) (list_Remove x l') ((k, v) :: without k s) /\
  vals (list_Remove x l') !! x = vals l !! x.
Proof.
  intros (xs & Hd & Hf & Hn & Hi) E.
  destruct (keyed_at _ _ _ _ _ _ Hd Hf Hn Hi E) as (l1 & l2 & s1 & s2 & v0 & -> & -> & F1 & F2 & Hv & K1 & K2 & X1 & X2).
  pose proof (dll_PushFront l _ (k, v) Hd) as HP. destruct (list_PushFront (k, v) l) as [e l'].
  destruct HP as (-> & Hd' & He & Hvals & _).
  destruct (dll_Remove l' (fresh l :: l1) x l2 Hd') as (Hd'' & Hvals' & _).
  rewrite Hvals', Hvals. split; [|apply lookup_insert_ne; intros <-; apply He; rewrite elem_drop; auto].
  rewrite without_app by auto. exists ((fresh l :: l1) ++ l2). split; [auto|]. rewrite Hvals', Hvals. split; [|split].
  - cbn [app]. constructor; [apply lookup_insert|]. apply Forall2_vals_insert; [rewrite elem_drop in He; tauto|]. apply Forall2_app; auto.
  - rewrite fmap_cons. cbn [fst]. apply NoDup_cons. apply NoDup_drop in Hn as [N1 N2]. auto.
  - intros k' x'. destruct (decide (k' = k)) as [->|Hne].
    + rewrite lookup_insert. split.
      * intros [= <-]. exists v. split; [left|apply lookup_insert].
      * intros (v' & Hx & Hv'). cbn [app] in Hx. destruct (decide (x' = fresh l)) as [->|Hnf]; auto. exfalso.
        rewrite lookup_insert_ne in Hv' by auto. apply elem_of_cons in Hx as [Hx|Hx]; [congruence|].
        assert (idx !! k = Some x') by (apply Hi; exists v'; rewrite elem_drop; auto).
        assert (x = x') by congruence. subst x'. destruct (notin_app _ _ _ X1 X2 Hx).
    + rewrite lookup_insert_ne by auto. rewrite Hi. split; intros (v' & Hx & Hv'); exists v'.
      * split; [|rewrite lookup_insert_ne by (intros <-; auto); auto]. assert (x' <> x) by congruence.
        apply elem_drop in Hx as [->|Hx]; [congruence|]. cbn [app]. apply elem_of_cons. auto.
      * assert (x' <> fresh l) by (intros ->; rewrite lookup_insert in Hv'; congruence).
        rewrite lookup_insert_ne in Hv' by auto. rewrite elem_drop. split; [|auto].
        cbn [app] in Hx. apply elem_of_cons in Hx as [Hx|Hx]; [congruence|auto].
Qed.

(** The back element and its removal. *)
Lemma keyed_back idx l s : keyed idx l s ->
  match list_Back l with
  | None => s = []
  | Some x => exists s' k v, s = s' ++ [(k, v)] /\ vals l !! x = Some (k, v) /\ idx !! k = Some x /\
              keyed (delete k idx) (list_Remove x l) s' /\ vals (list_Remove x l) !! x = Some (k, v)
  end.
Proof.
  intros Hk. pose proof Hk as (xs & Hd & Hf & Hn & Hi). rewrite (dll_Back _ _ Hd).
  destruct (decide (xs = [])) as [->|Hx]; [inversion Hf; reflexivity|].
  destruct (exists_last Hx) as (l' & x & ->). rewrite last_snoc.
  pose proof Hf as Hf'. apply Forall2_app_inv_l in Hf' as (s' & s2 & Hf1 & Hf2 & ->).
  apply Forall2_cons_inv_l in Hf2 as ([k v] & s3 & Hv & Hf2 & ->). inversion Hf2; subst.
  exists s', k, v. assert (E : idx !! k = Some x) by (apply Hi; exists v; rewrite elem_drop; auto).
  split; [auto|]. split; [auto|]. split; [auto|]. split.
  - pose proof (keyed_remove _ _ _ _ _ Hk E) as Hr.
    apply NoDup_drop in Hn as [N1 N2]. rewrite app_nil_r in N2.
    rewrite without_app, app_nil_r in Hr; auto. apply not_elem_of_nil.
  - rewrite (proj1 (proj2 (dll_Remove _ _ _ _ Hd))). auto.
Qed.

Lemma keyed_front idx l s : keyed idx l s ->
  match list_Front l with Some e => vals l !! e | None => None end = head s.
Proof.
  intros (xs & Hd & Hf & Hn & Hi). rewrite (dll_Front _ _ Hd).
  inversion Hf as [|x p xs' s' Hv Hf']; subst; [reflexivity|]. cbn. auto.
Qed.

Lemma keyed_move idx l s k x : keyed idx l s -> idx !! k = Some x ->
  exists v, find_key k s = Some v /\ keyed idx (list_MoveToFront x l) ((k, v) :: without k s).
Proof.
  intros (xs & Hd & Hf & Hn & Hi) E.
  destruct (keyed_at _ _ _ _ _ _ Hd Hf Hn Hi E) as (l1 & l2 & s1 & s2 & v & -> & -> & F1 & F2 & Hv & K1 & K2 & X1 & X2).
  exists v. split; [apply find_key_app; auto|].
  destruct (dll_MoveToFront _ _ _ _ Hd) as (Hd' & Hvals & _).
  rewrite without_app by auto. exists (x :: l1 ++ l2). split; [auto|]. rewrite Hvals. split; [|split].
  - constructor; auto. apply Forall2_app; auto.
  - rewrite fmap_cons. cbn [fst]. apply NoDup_cons. apply NoDup_drop in Hn as [N1 N2]. auto.
  - intros k' x'. rewrite Hi. setoid_rewrite elem_drop. setoid_rewrite elem_of_cons. reflexivity.
Qed.

(** Overwrite the value of an indexed key in place. *)
Lemma set_key_notin k v s : k ∉ s.*1 -> set_key k v s = s.
Proof.
  induction s as [|[k' v'] s IH]; cbn; [auto|]. intros Hk.
  rewrite decide_False by (cbn; set_solver). f_equal. apply IH. set_solver.
Qed.

Lemma set_key_app k v v0 s1 s2 : k ∉ s1.*1 -> k ∉ s2.*1 ->
  set_key k v (s1 ++ (k, v0) :: s2) = s1 ++ (k, v) :: s2.
Proof.
  intros H1 H2. unfold set_key. rewrite map_app. cbn [map fst]. rewrite decide_True by auto.
  fold (set_key k v s1) (set_key k v s2). rewrite !set_key_notin by auto. reflexivity.
Qed.

Lemma keyed_set idx l s k x v : keyed idx l s -> idx !! k = Some x ->
  keyed idx (set_value x (k, v) l) (set_key k v s).
Proof.
  intros (xs & Hd & Hf & Hn & Hi) E.
  destruct (keyed_at _ _ _ _ _ _ Hd Hf Hn Hi E) as (l1 & l2 & s1 & s2 & v0 & -> & -> & F1 & F2 & Hv & K1 & K2 & X1 & X2).
  rewrite set_key_app by auto. exists (l1 ++ x :: l2).
  split; [apply dll_set_value; auto|]. cbn [set_value vals]. split; [|split].
  - apply Forall2_app; [apply Forall2_vals_insert; auto|].
    constructor; [apply lookup_insert|apply Forall2_vals_insert; auto].
  - rewrite fmap_app, fmap_cons in *. exact Hn.
  - intros k' x'. rewrite Hi. split; intros (v' & Hx & Hv').
    + destruct (decide (x' = x)) as [->|Hne].
      * rewrite Hv in Hv'. injection Hv' as <- <-. exists v. split; [auto|apply lookup_insert].
      * exists v'. split; auto. rewrite lookup_insert_ne by auto. auto.
    + destruct (decide (x' = x)) as [->|Hne].
      * rewrite lookup_insert in Hv'. injection Hv' as <- <-. exists v0. auto.
      * rewrite lookup_insert_ne in Hv' by auto. eauto.
Qed.

Lemma length_without k s : NoDup (s.*1) -> find_key k s <> None -> length s = S (length (without k s)).
Proof.
  intros Hn Hf. destruct (decide (k ∈ s.*1)) as [Hin|Hin]; [|apply find_key_None in Hin; congruence].
  apply elem_of_list_fmap in Hin as ([k' v] & -> & Hin). cbn [fst] in *.
  apply elem_of_list_split in Hin as (s1 & s2 & ->).
  apply NoDup_drop in Hn as [N1 N2]. rewrite fmap_app, elem_of_app in N2.
  rewrite without_app by tauto. rewrite !app_length. cbn. lia.
Qed.
End keyed.
