(** Proofs for C167 and C168. *)
From Coq Require Import ZArith List Bool Lia Arith.
From Verif Require Import NanMap_Model NanMap_Spec.
Import ListNotations.
Local Open Scope Z_scope.

Section mapl.
Context {K V : Type} (same : K -> K -> bool) (zero : V).
Notation run := (run same zero). Notation after := (after same zero).

Lemma run_snoc os o : run (os ++ [o]) = after (run os) o.
Proof. unfold NanMap_Model.run. rewrite fold_left_app. reflexivity. Qed.

Lemma run_app os os' : run (os ++ os') = fold_left after os' (run os).
Proof. unfold NanMap_Model.run. now rewrite fold_left_app. Qed.

Lemma load_nan nan (l : list (K * V)) : equals_nothing same nan -> load same nan l = None.
Proof. intros H. induction l as [| [k v] l IH]; cbn; [reflexivity |]. now rewrite (proj2 (H k)). Qed.

Lemma store_length k v (l : list (K * V)) : length (store same k v l) = (length l + match load same k l with Some _ => 0 | None => 1 end)%nat.
Proof. induction l as [| [k' v'] l IH]; cbn; [reflexivity |]. destruct (same k' k); cbn; [lia |]. rewrite IH. lia. Qed.

Lemma remove_length k (l : list (K * V)) : (length (remove same k l) + match load same k l with Some _ => 1 | None => 0 end)%nat = length l.
Proof. induction l as [| [k' v'] l IH]; cbn; [reflexivity |]. destruct (same k' k); cbn; lia. Qed.

Lemma count_entries os : count (run os) = Z.of_nat (length (entries (run os))).
Proof.
  induction os as [| o os IH] using rev_ind; [reflexivity |].
  rewrite run_snoc. set (m := run os) in *. destruct o as [k v | k | k | k]; cbn; try assumption.
  - unfold put. pose proof (store_length k v (entries m)). destruct (load same k (entries m)); cbn [fst entries count]; lia.
  - unfold del. pose proof (remove_length k (entries m)). destruct (load same k (entries m)); cbn [fst entries count]; lia.
Qed.

Lemma load_store_same k k' v (l : list (K * V)) : go_equality same -> same k' k = true -> load same k (store same k' v l) = Some v.
Proof.
  intros [S T] E. induction l as [| [a w] l IH]; cbn; [now rewrite E |].
  destruct (same a k') eqn:A; cbn; [now rewrite (T _ _ _ A E) |].
  destruct (same a k) eqn:B; [| exact IH].
  rewrite S in E. rewrite (T _ _ _ B E) in A. discriminate.
Qed.

Lemma load_store_other k k' v (l : list (K * V)) : go_equality same -> same k' k = false -> load same k (store same k' v l) = load same k l.
Proof.
  intros [S T] E. induction l as [| [a w] l IH]; cbn; [now rewrite E |].
  destruct (same a k') eqn:A; cbn; [| now rewrite IH].
  destruct (same a k) eqn:B; [| reflexivity].
  rewrite S in A. rewrite (T _ _ _ A B) in E. discriminate.
Qed.

Lemma load_remove_other k k' (l : list (K * V)) : go_equality same -> same k' k = false -> load same k (remove same k' l) = load same k l.
Proof.
  intros [S T] E. induction l as [| [a w] l IH]; cbn; [reflexivity |].
  destruct (same a k') eqn:A; cbn; [| now rewrite IH].
  destruct (same a k) eqn:B; [| reflexivity].
  rewrite S in A. rewrite (T _ _ _ A B) in E. discriminate.
Qed.

Lemma load_untouched k os m : go_equality same -> existsb (touches same k) os = false -> load same k (entries (fold_left after os m)) = load same k (entries m).
Proof.
  intros G. revert m. induction os as [| o os IH]; intros m H; [reflexivity |].
  cbn in H. apply orb_false_iff in H as [H1 H2]. cbn [fold_left]. rewrite (IH _ H2).
  destruct o as [k' v | k' | k' | k']; cbn in *; try reflexivity.
  - unfold put. destruct (load same k' (entries m)); cbn; now apply load_store_other.
  - unfold del. destruct (load same k' (entries m)); cbn; [now apply load_remove_other | reflexivity].
Qed.

Lemma load_put k k' v m : go_equality same -> same k' k = true -> load same k (entries (after m (Put k' v))) = Some v.
Proof. intros G E. cbn. unfold put. destruct (load same k' (entries m)); cbn; now apply load_store_same. Qed.

Lemma nan_stays nan v o m : equals_nothing same nan -> In (nan, v) (entries m) -> In (nan, v) (entries (after m o)).
Proof.
  intros N H. destruct o as [k w | k | k | k]; cbn; try assumption.
  - assert (In (nan, v) (store same k w (entries m))) as X.
    { clear -N H. induction (entries m) as [| [a b] l IH]; [destruct H |]. cbn. destruct H as [H | H].
      - inversion H; subst. rewrite (proj1 (N k)). now left.
      - destruct (same a k); [now right |]. right. now apply IH. }
    unfold put. destruct (load same k (entries m)); exact X.
  - assert (In (nan, v) (remove same k (entries m))) as X.
    { clear -N H. induction (entries m) as [| [a b] l IH]; [destruct H |]. cbn. destruct H as [H | H].
      - inversion H; subst. rewrite (proj1 (N k)). now left.
      - destruct (same a k); [exact H |]. right. now apply IH. }
    unfold del. destruct (load same k (entries m)); [exact X | exact H].
Qed.

Lemma nan_stays_run nan v os m : equals_nothing same nan -> In (nan, v) (entries m) -> In (nan, v) (entries (fold_left after os m)).
Proof. intros N. revert m. induction os as [| o os IH]; intros m H; [exact H |]. cbn. apply IH. now apply nan_stays. Qed.

Lemma nan_put nan v m : equals_nothing same nan -> count (after m (Put nan v)) = count m + 1 /\ In (nan, v) (entries (after m (Put nan v))).
Proof.
  intros N. cbn. unfold put. rewrite (load_nan nan _ N). cbn. split; [reflexivity |].
  induction (entries m) as [| [a b] l IH]; cbn; [now left |]. rewrite (proj2 (N a)). now right.
Qed.
(** How many entries [k] finds (hashmap/map.go:28-57). *)
Fixpoint hits (k : K) (l : list (K * V)) : nat := match l with [] => O | (k', _) :: r => ((if same k' k then 1 else 0) + hits k r)%nat end.

Lemma hits_load k l : load same k l = None <-> hits k l = O.
Proof. induction l as [| [a w] l IH]; cbn; [tauto |]. destruct (same a k); cbn; [split; [discriminate | lia] | exact IH]. Qed.

Lemma hits_same k k' l : go_equality same -> same k' k = true -> hits k l = hits k' l.
Proof.
  intros [S T] E. induction l as [| [a w] l IH]; cbn; [reflexivity |]. rewrite IH.
  destruct (same a k) eqn:A, (same a k') eqn:B; try reflexivity.
  - rewrite S in E. rewrite (T _ _ _ A E) in B. discriminate.
  - rewrite (T _ _ _ B E) in A. discriminate.
Qed.

Lemma hits_store k k' v l : go_equality same -> (hits k l <= 1)%nat -> (hits k (store same k' v l) <= 1)%nat.
Proof.
  intros G H. destruct (same k' k) eqn:E.
  - rewrite (hits_same k k') in * by assumption. clear E. induction l as [| [a w] l IH]; cbn in *; [destruct (same k' k'); lia |].
    destruct (same a k') eqn:A; cbn; rewrite A; [exact H |]. apply IH. exact H.
  - induction l as [| [a w] l IH]; cbn in *; [rewrite E; lia |].
    destruct (same a k') eqn:A; cbn; [exact H |]. destruct (same a k) eqn:B; [| now apply IH].
    assert (hits k l = O) as Z by lia. apply hits_load in Z. pose proof (load_store_other k k' v l G E) as L. rewrite Z in L. apply hits_load in L. lia.
Qed.

Lemma hits_remove k k' l : (hits k (remove same k' l) <= hits k l)%nat.
Proof. induction l as [| [a w] l IH]; cbn; [lia |]. destruct (same a k'); cbn; lia. Qed.

Lemma hits_run k os : go_equality same -> (hits k (entries (run os)) <= 1)%nat.
Proof.
  intros G. induction os as [| o os IH] using rev_ind; [cbn; lia |]. rewrite run_snoc.
  destruct o as [k' v | k' | k' | k']; cbn; try exact IH.
  - unfold put. destruct (load same k' (entries (run os))); cbn; now apply hits_store.
  - unfold del. destruct (load same k' (entries (run os))); cbn; [| exact IH]. pose proof (hits_remove k k' (entries (run os))). lia.
Qed.

Lemma load_removed k l : (hits k l <= 1)%nat -> load same k (remove same k l) = None.
Proof.
  induction l as [| [a w] l IH]; cbn; intros H; [reflexivity |].
  destruct (same a k) eqn:A; cbn; [apply hits_load; lia |]. rewrite A. now apply IH.
Qed.
End mapl.

Section tree.
Context {K V : Type} (less : K -> K -> bool).

Lemma search_false n f i j : (j - i <= n)%nat -> (i <= j)%nat -> (forall h, (i <= h < j)%nat -> f h = false) -> search n f i j = j.
Proof.
  revert i. induction n as [| n IH]; intros i L O F; cbn [search]; [lia |].
  destruct (Nat.ltb_spec i j); [| lia].
  assert (i <= Nat.div2 (i + j) < j)%nat as B by (rewrite Nat.div2_div; split; [apply Nat.div_le_lower_bound; lia | apply Nat.div_lt_upper_bound; lia]).
  cbv zeta. rewrite (F _ B). apply IH; [lia | lia | intros; apply F; lia].
Qed.

Lemma search_first n f i j t : (j - i <= n)%nat -> (i <= t <= j)%nat -> (forall h, (i <= h < t)%nat -> f h = false) -> (forall h, (t <= h < j)%nat -> f h = true) -> search n f i j = t.
Proof.
  revert i j. induction n as [| n IH]; intros i j L O F T; cbn [search]; [lia |].
  destruct (Nat.ltb_spec i j); [| lia].
  assert (i <= Nat.div2 (i + j) < j)%nat as B by (rewrite Nat.div2_div; split; [apply Nat.div_le_lower_bound; lia | apply Nat.div_lt_upper_bound; lia]).
  cbv zeta. destruct (le_lt_dec t (Nat.div2 (i + j))) as [A | A].
  - rewrite (T _ (conj A (proj2 B))). apply IH; [lia | lia | intros; apply F; lia | intros; apply T; lia].
  - rewrite (F _ (conj (proj1 B) A)). apply IH; [lia | lia | intros; apply F; lia | intros; apply T; lia].
Qed.

Lemma find_nan nan (l : list (K * V)) e : unordered less nan -> find less nan (l ++ [e]) = (length l, true).
Proof.
  intros U. unfold find. rewrite search_false; [| lia | lia |].
  - rewrite app_length. cbn [length]. rewrite Nat.add_1_r. rewrite nth_error_app2, Nat.sub_diag by lia. cbn. destruct e as [k w]. now rewrite (proj2 (U k)).
  - intros h B. destruct (nth_error (l ++ [e]) h) as [[k w] |] eqn:N; [apply U |].
    apply nth_error_None in N. lia.
Qed.

Lemma find_only nan v k : unordered less nan -> find less k [(nan, v : V)] = (0%nat, true).
Proof. intros U. unfold find. cbn. rewrite (proj2 (U k)). cbn. now rewrite (proj1 (U k)). Qed.

Lemma find_present (l : list (K * V)) k v p : strict_total less -> ascending less l -> nth_error l p = Some (k, v) -> find less k l = (p, true).
Proof.
  intros (I & T & _) A N. assert (p < length l)%nat by (apply nth_error_Some; congruence).
  unfold find. rewrite (search_first _ _ _ _ (S p)).
  - rewrite N. now rewrite I.
  - lia.
  - lia.
  - intros h B. destruct (nth_error l h) as [[k' w] |] eqn:E; [| apply nth_error_None in E; lia].
    destruct (Nat.eq_dec h p) as [-> | D]; [rewrite N in E; inversion E; subst; apply I |].
    assert (less k' k = true) as X by (apply (A h p (k', w) (k, v)); [lia | assumption | assumption]).
    destruct (less k k') eqn:Y; [| reflexivity]. rewrite <- (I k). symmetry. now apply (T _ k').
  - intros h B. destruct (nth_error l h) as [[k' w] |] eqn:E; [| reflexivity].
    apply (A p h (k, v) (k', w)); [lia | assumption | assumption].
Qed.
Lemma ascending_tail (a : K * V) l : ascending less (a :: l) -> ascending less l /\ Forall (fun e => less (fst a) (fst e) = true) l.
Proof.
  intros A. split.
  - intros i j x y L X Y. apply (A (S i) (S j)); [lia | assumption | assumption].
  - apply Forall_forall. intros e I. apply In_nth_error in I as [n N]. apply (A 0%nat (S n)); [lia | reflexivity | assumption].
Qed.

Lemma ascending_cons (a : K * V) l : ascending less l -> Forall (fun e => less (fst a) (fst e) = true) l -> ascending less (a :: l).
Proof.
  intros A F i j x y L X Y. destruct j as [| j]; [lia |]. cbn in Y. destruct i as [| i]; cbn in X.
  - inversion X; subst. rewrite Forall_forall in F. apply F. eapply nth_error_In; eassumption.
  - apply (A i j); [lia | assumption | assumption].
Qed.

Lemma place k v (l : list (K * V)) : strict_total less -> ascending less l -> ~ In k (map fst l) ->
  exists l1 l2, l = l1 ++ l2 /\ Forall (fun e => less (fst e) k = true) l1 /\ Forall (fun e => less k (fst e) = true) l2 /\ ascending less (l1 ++ (k, v) :: l2).
Proof.
  intros (I & T & E). induction l as [| a l IH]; intros A N.
  - exists [], []. repeat split; try constructor. cbn. intros i j x y L X Y. destruct j as [| [| j]]; [lia | discriminate | discriminate].
  - destruct (ascending_tail _ _ A) as [A' F]. destruct (less k (fst a)) eqn:X.
    + exists [], (a :: l). assert (Forall (fun e => less k (fst e) = true) (a :: l)) as G.
      { constructor; [exact X |]. eapply Forall_impl; [| exact F]. intros e H. now apply (T _ (fst a)). }
      repeat split; [constructor | exact G | now apply ascending_cons].
    + destruct (less (fst a) k) eqn:Y; [| exfalso; apply N; left; symmetry; now apply E].
      destruct IH as (l1 & l2 & -> & F1 & F2 & B); [assumption | intros H; apply N; now right |].
      exists (a :: l1), l2. repeat split; [now constructor | assumption |].
      cbn. apply ascending_cons; [assumption |]. apply Forall_app in F as [G1 G2]. apply Forall_app. split; [assumption |]. now constructor.
Qed.

Lemma find_absent k (l1 l2 : list (K * V)) : strict_total less -> Forall (fun e => less (fst e) k = true) l1 -> Forall (fun e => less k (fst e) = true) l2 -> find less k (l1 ++ l2) = (length l1, false).
Proof.
  intros (I & T & _) F1 F2. unfold find. rewrite (search_first _ _ _ _ (length l1)).
  - destruct (length l1) as [| p] eqn:L; [reflexivity |].
    rewrite nth_error_app1 by lia. destruct (nth_error l1 p) as [[k' w] |] eqn:N; [| reflexivity].
    rewrite Forall_forall in F1. pose proof (F1 _ (nth_error_In _ _ N)) as X. cbn in X. now rewrite X.
  - lia.
  - rewrite app_length. lia.
  - intros h B. rewrite nth_error_app1 by lia. destruct (nth_error l1 h) as [[k' w] |] eqn:N; [| apply nth_error_None in N; lia].
    rewrite Forall_forall in F1. pose proof (F1 _ (nth_error_In _ _ N)) as X. cbn in X.
    destruct (less k k') eqn:Y; [| reflexivity]. rewrite <- (I k). symmetry. now apply (T _ k').
  - intros h B. rewrite nth_error_app2 by lia. destruct (nth_error l2 (h - length l1)) as [[k' w] |] eqn:N; [| reflexivity].
    rewrite Forall_forall in F2. exact (F2 _ (nth_error_In _ _ N)).
Qed.
End tree.
