(** LruCache refines its recency list. *)
From stdpp Require Import gmap.
From Coq Require Import ZArith Lia.
From Verif Require Import GoList_Model GoList_Proofs Assoc_Spec Keyed_Proofs LimitMap_Proofs Lru_Model Lru_Spec.
Local Open Scope Z_scope.

Section proofs.
Context {K V : Type} `{Countable K}.
Implicit Types (s : list (K * V)) (c : lru K V).

Definition rholds (max : Z) c s : Prop :=
  keyed (cache c) (ll c) s /\ MaxEntries c = max /\ (max <> 0 -> Z.of_nat (length s) <= Z.max 0 max).

Lemma vals_Remove (l : dlist (K * V)) e : vals (list_Remove e l) = vals l.
Proof. unfold list_Remove, list_remove. destruct (bool_decide (e ∈ own l)); [|reflexivity].
  destruct (pv l !! e); [|reflexivity]. destruct (nx l !! e); reflexivity. Qed.

Lemma vals_Move (l : dlist (K * V)) e : vals (list_MoveToFront e l) = vals l.
Proof.
  unfold list_MoveToFront, list_move. repeat (case_match; try reflexivity).
Qed.

Lemma set_key_front k v v0 s : set_key k v ((k, v0) :: without k s) = (k, v) :: without k s.
Proof.
  cbn. rewrite decide_True by auto. f_equal. apply set_key_notin.
  rewrite elem_of_list_fmap. intros (p & Ep & Hp). apply elem_of_list_filter in Hp as [Hp _]. auto.
Qed.

Lemma remove_holds max c s k : rholds max c s -> rholds max (Remove (Some k) c) (without k s).
Proof.
  intros (Hk & Hc & Hb). unfold Remove. pose proof (without_length k s). destruct (cache c !! k) as [x|] eqn:E.
  - rewrite vals_Remove. destruct (keyed_Some _ _ _ _ _ Hk E) as (v0 & Hv0 & Hf). rewrite Hv0.
    split; [apply keyed_remove; auto|]. split; [auto|]. lia.
  - rewrite without_notin by (apply find_key_None, (keyed_None _ _ _ k Hk), E). split; auto.
Qed.

Lemma add_holds max c s k v : rholds max c s -> rholds max (Add (Some k) v c) (rspec_add max k v s).
Proof.
  intros (Hk & Hc & Hb). unfold Add, rspec_add. destruct (cache c !! k) as [x|] eqn:E.
  - destruct (keyed_move _ _ _ _ _ Hk E) as (v0 & Hf & Hm). rewrite Hf.
    pose proof (keyed_set _ _ _ _ _ v Hm E) as HS. rewrite set_key_front in HS.
    assert (Hne : find_key k s <> None) by (rewrite Hf; discriminate).
    destruct Hk as (xs & _ & _ & Hn & _). pose proof (length_without k s Hn Hne).
    split; [auto|]. split; [auto|]. cbn [length]. lia.
  - pose proof (proj1 (keyed_None _ _ _ k Hk) E) as Hf. rewrite Hf.
    pose proof (keyed_push _ _ _ k v Hk E) as HP. destruct (list_PushFront (k, v) (ll c)) as [e l].
    rewrite (keyed_len _ _ _ HP), Hc. cbn [length].
    destruct (decide (max <> 0 /\ max < Z.of_nat (S (length s)))) as [[Hm Hl]|Hm].
    + rewrite (proj2 (Z.eqb_neq _ _)), (proj2 (Z.ltb_lt _ _)) by auto. cbn [negb andb].
      unfold RemoveOldest. cbn [ll cache MaxEntries]. pose proof (keyed_back _ _ _ HP) as HB.
      destruct (list_Back l) as [o|]; [|discriminate].
      destruct HB as (s' & ko & vo & Hs & Hvo & Hko & Hk' & Hvo'). rewrite Hvo', Hs, removelast_last.
      split; [auto|]. split; [auto|].
      apply (f_equal length) in Hs. rewrite app_length in Hs. cbn in Hs. lia.
    + assert (EB : negb (max =? 0) && (max <? Z.of_nat (S (length s))) = false).
      { destruct (Z.eqb_spec max 0), (Z.ltb_spec max (Z.of_nat (S (length s)))); cbn; auto; tauto. }
      rewrite EB. split; [auto|]. split; [auto|]. cbn [length]. lia.
Qed.

Lemma remove_multi_holds max ks : forall c s, rholds max c s ->
  rholds max (RemoveMulti ks c) (filter (fun p => p.1 ∉ ks) s).
Proof.
  induction ks as [|k ks IH]; intros c s Hh; cbn [RemoveMulti fold_left].
  - replace (filter (fun p => p.1 ∉ []) s) with s; [auto|].
    clear. induction s as [|p s IH]; [auto|]. rewrite filter_cons, decide_True by (apply not_elem_of_nil). f_equal. auto.
  - replace (filter (fun p => p.1 ∉ k :: ks) s) with (filter (fun p => p.1 ∉ ks) (without k s)).
    + apply (IH (Remove (Some k) c)). apply remove_holds. auto.
    + unfold without. rewrite list_filter_filter. apply list_filter_iff. intros p. rewrite not_elem_of_cons. tauto.
Qed.

Lemma rstep_holds max c s o : rholds max c s ->
  let '(r, c') := rstep c o in let '(r', s') := rspec_step max s o in r = r' /\ rholds max c' s'.
Proof.
  intros Hh. destruct o as [[k|] v|[k|]|[k|]|ks]; cbn [rstep rspec_step]; try (split; auto; fail).
  - split; [auto|]. apply add_holds; auto.
  - unfold Get. pose proof Hh as (Hk & Hc & Hb). destruct (cache c !! k) as [x|] eqn:E.
    + destruct (keyed_Some _ _ _ _ _ Hk E) as (v1 & Hv1 & Hf1).
      destruct (keyed_move _ _ _ _ _ Hk E) as (v0 & Hf & Hm). rewrite Hf.
      rewrite vals_Move, Hv1. split; [cbn; congruence|].
      assert (Hne : find_key k s <> None) by (rewrite Hf; discriminate).
      destruct Hk as (xs & _ & _ & Hn & _). pose proof (length_without k s Hn Hne).
      split; [auto|]. split; [auto|]. cbn [length]. lia.
    + rewrite (proj1 (keyed_None _ _ _ k Hk) E). auto.
  - split; [auto|]. apply remove_holds; auto.
  - split; [auto|]. apply remove_multi_holds; auto.
Qed.

Lemma rrun_holds max os : forall c s, rholds max c s ->
  let '(rs, c') := rrun c os in let '(rs', s') := rspec_run max s os in rs = rs' /\ rholds max c' s'.
Proof.
  induction os as [|o os IH]; intros c s Hh; cbn [rrun rspec_run]; [auto|].
  pose proof (rstep_holds max c s o Hh) as HS.
  destruct (rstep c o) as [r c1], (rspec_step max s o) as [r' s1]. destruct HS as [-> HS].
  specialize (IH c1 s1 HS). destruct (rrun c1 os) as [rs c2], (rspec_run max s1 os) as [rs' s2].
  destruct IH as [-> IH]. auto.
Qed.

Lemma rholds_new max : rholds max (NewLruCache max) [].
Proof. split; [apply keyed_new|]. split; [auto|]. cbn. lia. Qed.
End proofs.

(** Recency: the keys kept are the first [max] distinct keys touched. *)
Section recency.
Context {K V : Type} `{EqDecision K}.
Implicit Types (s : list (K * V)) (l : list K).

Notation drop_k k l := (filter (fun k' => k' <> k) l).

Lemma filter_notin_id (k : K) l : k ∉ l -> drop_k k l = l.
Proof.
  induction l as [|a l IH]; intros Hk; [auto|]. apply not_elem_of_cons in Hk as [Ha Hk].
  rewrite filter_cons, decide_True by auto. f_equal. auto.
Qed.

Lemma distinct_NoDup l : NoDup (distinct l).
Proof.
  induction l as [|k l IH]; cbn [distinct]; [constructor|]. apply NoDup_cons. split.
  - rewrite elem_of_list_filter. tauto.
  - apply NoDup_filter. auto.
Qed.

Lemma take_filter_in (k : K) n l : NoDup l -> k ∈ take (S n) l -> drop_k k (take (S n) l) = take n (drop_k k l).
Proof.
  revert n. induction l as [|a l IH]; intros n Hn Hk; [apply elem_of_nil in Hk; tauto|].
  apply NoDup_cons in Hn as [Ha Hn]. cbn [take] in *. rewrite !filter_cons.
  destruct (decide (a = k)) as [->|Hne].
  - rewrite !decide_False by tauto. rewrite (filter_notin_id k l) by auto.
    apply filter_notin_id. intros Hin. apply Ha. eapply elem_of_take in Hin as (i & Hi & _).
    eapply elem_of_list_lookup_2; eauto.
  - rewrite !decide_True by auto. apply elem_of_cons in Hk as [->|Hk]; [congruence|].
    destruct n as [|n]; [apply elem_of_nil in Hk; tauto|]. change (take (S n) (a :: drop_k k l)) with (a :: take n (drop_k k l)). f_equal. apply IH; auto.
Qed.


Lemma take_filter_out (k : K) n l : NoDup l -> k ∉ take (S n) l -> take n (drop_k k l) = take n l.
Proof.
  revert n. induction l as [|a l IH]; intros n Hn Hk; [auto|].
  apply NoDup_cons in Hn as [Ha Hn]. cbn [take] in Hk. apply not_elem_of_cons in Hk as [Hka Hk].
  rewrite filter_cons, decide_True by auto. destruct n as [|n]; [auto|]. cbn [take]. f_equal. apply IH; auto.
Qed.

Lemma without_fst k s : (without k s).*1 = drop_k k (s.*1).
Proof.
  induction s as [|[k' v] s IH]; [auto|]. unfold without in *. rewrite fmap_cons, !filter_cons. cbn [fst].
  destruct (decide (k' = k)) as [->|Hne]; [rewrite !decide_False by (cbn; tauto); auto|].
  rewrite !decide_True by auto. cbn. f_equal. auto.
Qed.

Lemma removelast_fst s : (removelast s).*1 = removelast (s.*1).
Proof. induction s as [|p s IH]; [auto|]. destruct s; [auto|]. cbn in *. f_equal. auto. Qed.

Lemma removelast_firstn_len {A} (l : list A) : removelast l = take (length l - 1) l.
Proof.
  induction l as [|a l IH]; [auto|]. destruct l as [|b l]; [auto|]. cbn [removelast] in *. rewrite IH. cbn.
  replace (length l - 0)%nat with (length l) by lia. auto.
Qed.

(** Touching [k] at the front. *)
Lemma recency_touch n k s T : (0 < n)%nat -> s.*1 = take n (distinct T) ->
  (k ∈ s.*1 -> k :: drop_k k (s.*1) = take n (distinct (k :: T))) /\
  (k ∉ s.*1 -> (if decide (n < S (length s))%nat then removelast (k :: s.*1) else k :: s.*1) = take n (distinct (k :: T))).
Proof.
  intros Hn Hs. destruct n as [|n]; [lia|]. cbn [distinct]. rewrite firstn_cons.
  pose proof (distinct_NoDup T) as Hd. split; intros Hin.
  - f_equal. rewrite Hs in *. apply take_filter_in; auto.
  - rewrite Hs in Hin. rewrite take_filter_out by auto.
    assert (HL : length s = length (take (S n) (distinct T))) by (rewrite <- Hs, fmap_length; auto).
    rewrite take_length in HL. rewrite Hs. destruct (decide (S n < S (length s))%nat) as [Hlt|Hge].
    + assert (length (distinct T) > n)%nat by lia.
      rewrite removelast_firstn_len. cbn [length]. rewrite take_length.
      replace (S (S n `min` length (distinct T)) - 1)%nat with (S n) by lia.
      rewrite firstn_cons. f_equal. rewrite take_take. f_equal. lia.
    + f_equal. rewrite !take_ge by lia. auto.
Qed.

Lemma recency_step (max : Z) s o T : 0 < max -> no_remove o -> s.*1 = take (Z.to_nat max) (distinct T) ->
  forall os rs,
  exists T', touched (o :: os) ((rspec_step max s o).1 :: rs) T = touched os rs T' /\
    ((rspec_step max s o).2).*1 = take (Z.to_nat max) (distinct T').
Proof.
  intros Hm Hr Hs os rs. destruct o as [[k|] v|[k|]|[k|]|ks]; cbn [rspec_step no_remove touched fst snd] in *; try tauto; eauto.
  - exists (k :: T). split; [auto|]. destruct (recency_touch (Z.to_nat max) k s T ltac:(lia) Hs) as [A B].
    unfold rspec_add. destruct (find_key k s) eqn:E.
    + rewrite fmap_cons. cbn [fst]. rewrite without_fst. apply A.
      destruct (decide (k ∈ s.*1)) as [Hin|Hin]; [auto|].
      assert (find_key k s = None); [|congruence]. clear -Hin. induction s as [|[k' v'] s IH]; cbn in *; [auto|].
      apply not_elem_of_cons in Hin as [Hk Hin]. rewrite decide_False by auto. auto.
    + assert (Hin : k ∉ s.*1).
      { clear -E. induction s as [|[k' v'] s IH]; cbn in *; [apply not_elem_of_nil|].
        destruct (decide (k = k')); [discriminate|]. apply not_elem_of_cons. auto. }
      rewrite <- (B Hin). destruct (decide (max <> 0 /\ max < Z.of_nat (S (length s)))) as [Ha|Ha].
      * rewrite decide_True by lia. rewrite removelast_fst. reflexivity.
      * rewrite decide_False by lia. reflexivity.
  - destruct (find_key k s) as [v|] eqn:E; cbn [fst snd]; [|eauto].
    exists (k :: T). split; [auto|]. destruct (recency_touch (Z.to_nat max) k s T ltac:(lia) Hs) as [A B].
    rewrite fmap_cons. cbn [fst]. rewrite without_fst. apply A.
    destruct (decide (k ∈ s.*1)) as [Hin|Hin]; [auto|].
    assert (find_key k s = None); [|congruence]. clear -Hin. induction s as [|[k' v'] s IH]; cbn in *; [auto|].
    apply not_elem_of_cons in Hin as [Hk Hin]. rewrite decide_False by auto. auto.
Qed.

Lemma recency_run (max : Z) os : forall s T, 0 < max -> Forall no_remove os -> s.*1 = take (Z.to_nat max) (distinct T) ->
  ((rspec_run max s os).2).*1 = take (Z.to_nat max) (distinct (touched os (rspec_run max s os).1 T)).
Proof.
  induction os as [|o os IH]; intros s T Hm Hr Hs; [auto|]. inversion Hr as [|? ? Ho Hos]; subst.
  pose proof (recency_step max s o T Hm Ho Hs os (rspec_run max (rspec_step max s o).2 os).1) as (T' & HT & HS).
  specialize (IH _ _ Hm Hos HS). cbn [rspec_run].
  destruct (rspec_step max s o) as [r s1]. cbn [fst snd] in *.
  destruct (rspec_run max s1 os) as [rs s2]. cbn [fst snd] in *. rewrite HT. auto.
Qed.
End recency.
