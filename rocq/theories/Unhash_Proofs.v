(** Proofs for C170. *)
From Coq Require Import ZArith List Bool Arith Lia.
From Verif Require Import NanMap_Model NanLimit_Model NanLimit_Proofs Unhash_Model.
Import ListNotations.

Section linked.
Context {K V : Type} (same : K -> K -> bool) (hashable : K -> bool) (zero : V) (limit : Z).
Notation linked := (@linked K V). Notation LPut := (LPut same hashable limit). Notation lcalls := (lcalls same hashable limit). Notation lstep := (lstep same hashable limit).

Lemma lcalls_app cs cs' (m : linked) : lcalls m (cs ++ cs') = let '(m1, b1) := lcalls m cs in let '(m2, b2) := lcalls m1 cs' in (m2, b1 ++ b2).
Proof.
  revert m. induction cs as [| c cs IH]; intros m; cbn.
  - now destruct (lcalls m cs').
  - destruct (lstep m c) as [m1 b]. rewrite IH. destruct (lcalls m1 cs) as [m2 b2]. now destruct (lcalls m2 cs') as [m3 b3].
Qed.

Lemma lcalls_length cs (m : linked) : length (snd (lcalls m cs)) = length cs.
Proof.
  revert m. induction cs as [| c cs IH]; intros m; cbn; [reflexivity |].
  destruct (lstep m c) as [m1 b]. specialize (IH m1). destruct (lcalls m1 cs). cbn in *. now rewrite IH.
Qed.

(** Every key leads to an element that was made (hashmap/linkedhashmap.go:41-42). *)
Definition lsound (m : linked) : Prop := Forall (fun x => (snd x < length (made m))%nat) (table m).

Lemma store_sound k e n (l : list (K * nat)) : Forall (fun x => (snd x < n)%nat) l -> (e < n)%nat -> Forall (fun x => (snd x < n)%nat) (store same k e l).
Proof.
  intros H L. induction H as [| [a x] l X H IH]; cbn; [repeat constructor; exact L |].
  destruct (same a k); [constructor; assumption | constructor; assumption].
Qed.

Lemma sound_lstep c (m : linked) : lsound m -> lsound (fst (lstep m c)).
Proof.
  intros H. destruct c as [k v | k]; cbn.
  - assert (Forall (fun x => (snd x < length (made m ++ [(k, v)]))%nat) (table m)) as H'.
    { eapply Forall_impl; [| exact H]. cbn. intros x X. rewrite app_length. lia. }
    assert (Forall (fun x => (snd x < length (made m ++ [(k, v)]))%nat) (store same k (length (made m)) (table m))) as S.
    { apply store_sound; [assumption | rewrite app_length; cbn; lia]. }
    unfold Unhash_Model.LPut. destruct (hashable k); [| exact H']. destruct (load same k (table m)); [exact S |].
    destruct (limit <? number m + 1)%Z; [| exact S]. cbv zeta. destruct (rev _) as [| o r]; [exact S |].
    destruct (nth_error _ o) as [[ko w] |]; [| exact S]. destruct (hashable ko); [| exact S]. unfold lsound. cbn. now apply remove_Forall.
  - unfold LDelete. destruct (hashable k); [| exact H]. destruct (load same k (table m)); [| exact H]. unfold lsound. cbn. now apply remove_Forall.
Qed.

Lemma sound_lcalls cs (m : linked) : lsound m -> lsound (fst (lcalls m cs)).
Proof.
  revert m. induction cs as [| c cs IH]; intros m H; cbn; [assumption |].
  pose proof (sound_lstep c m H) as X. destruct (lstep m c) as [m1 b]. cbn in X. specialize (IH m1 X). now destruct (lcalls m1 cs).
Qed.

Lemma load_lsound k e (m : linked) : lsound m -> load same k (table m) = Some e -> (e < length (made m))%nat.
Proof.
  unfold lsound. intros H. induction H as [| [a x] l X H IH]; cbn; [discriminate |].
  destruct (same a k); [intros E; inversion E; subst; exact X | exact IH].
Qed.

(** The key of a call (hashmap/linkedhashmap.go:37-100). *)
Definition lkey (c : @lcall K V) : K := match c with DoPut k _ => k | DoDelete k => k end.
(** All elements were made with keys that can be hashed (hashmap/linkedhashmap.go:38-41). *)
Definition tame (m : linked) : Prop := Forall (fun x => hashable (fst x) = true) (made m).

Lemma tame_lstep c (m : linked) : tame m -> hashable (lkey c) = true -> tame (fst (lstep m c)) /\ snd (lstep m c) = false.
Proof.
  intros T H. destruct c as [k v | k]; cbn in *.
  - assert (tame (MkLinked (table m) (made m ++ [(k, v)]) (line m) (number m))) as T' by (apply Forall_app; split; [exact T | repeat constructor; exact H]).
    unfold Unhash_Model.LPut. rewrite H. destruct (load same k (table m)); [now split |].
    destruct (limit <? number m + 1)%Z; [| now split]. cbv zeta. destruct (rev _) as [| o r]; [now split |].
    destruct (nth_error _ o) as [[ko w] |] eqn:N; [| now split]. apply nth_error_In in N. unfold tame in T'. cbn in T'. pose proof T' as T''. rewrite Forall_forall in T''. apply T'' in N. cbn in N. rewrite N. now split.
  - unfold LDelete. rewrite H. destruct (load same k (table m)); now split.
Qed.

Lemma tame_lcalls cs (m : linked) : tame m -> Forall (fun c => hashable (lkey c) = true) cs -> Forall (fun b => b = false) (snd (lcalls m cs)).
Proof.
  revert m. induction cs as [| c cs IH]; intros m T H; cbn; [constructor |]. inversion H; subst.
  destruct (tame_lstep c m T) as [T' B]; [assumption |]. destruct (lstep m c) as [m1 b]. cbn in *. subst b.
  specialize (IH m1 T'). destruct (lcalls m1 cs). constructor; [reflexivity | now apply IH].
Qed.

Lemma load_store_absent k k' e (l : list (K * nat)) : load same k l = None -> load same k' l = None -> load same k' (store same k e l) = if same k k' then Some e else None.
Proof. intros A B. rewrite store_absent by assumption. now apply load_last. Qed.

(** The entry of the first call is the oldest of the list while the limit is not reached. *)
Lemma fill_behind bad vb ks : forall (m : linked), (forall a b, same a b = true <-> a = b) -> NoDup (map fst ks) -> Forall (fun x => hashable (fst x) = true) ks ->
  (number m + Z.of_nat (length ks) <= limit)%Z -> (exists o, line m = o ++ [0%nat]) -> nth_error (made m) 0 = Some (bad, vb) ->
  (forall x, In x ks -> load same (fst x) (table m) = None) ->
  let m' := fst (lcalls m (map (fun x => DoPut (fst x) (snd x)) ks)) in
  number m' = (number m + Z.of_nat (length ks))%Z /\ (exists o, line m' = o ++ [0%nat]) /\ nth_error (made m') 0 = Some (bad, vb)
  /\ (forall k, ~ In k (map fst ks) -> load same k (table m) = None -> load same k (table m') = None)
  /\ Forall (fun b => b = false) (snd (lcalls m (map (fun x => DoPut (fst x) (snd x)) ks))).
Proof.
  induction ks as [| [k v] ks IH]; intros m E N H L O B A.
  - cbn. repeat split; try assumption; [lia | tauto | constructor].
  - cbn [map Unhash_Model.lcalls Unhash_Model.lstep fst snd]. inversion H as [| ? ? Hk Hks]; subst. inversion N as [| ? ? Nk Nks]; subst. cbn in Hk, Nk.
    pose proof (A (k, v) (or_introl eq_refl)) as Ak. cbn in Ak. cbn [length] in L.
    unfold Unhash_Model.LPut at 1 2 3 4 5. rewrite Hk, Ak. destruct (Z.ltb_spec limit (number m + 1)); [lia |]. cbv zeta.
    set (m1 := MkLinked (store same k (length (made m)) (table m)) (made m ++ [(k, v)]) (length (made m) :: line m) (number m + 1)).
    assert (forall k', ~ k = k' -> load same k' (table m) = None -> load same k' (table m1) = None) as Q.
    { intros k' D X. cbn. rewrite load_store_absent by assumption. destruct (same k k') eqn:Y; [apply E in Y; contradiction | reflexivity]. }
    destruct (IH m1) as (I1 & I2 & I3 & I4 & I5); try assumption.
    + cbn. lia.
    + destruct O as [o O]. exists (length (made m) :: o). cbn. now rewrite O.
    + cbn. destruct (made m); [discriminate | exact B].
    + intros x X. apply Q; [intros ->; apply Nk; now apply in_map | apply A; now right].
    + destruct (lcalls m1 (map (fun x => DoPut (fst x) (snd x)) ks)) as [m2 bs] eqn:R. cbn in I1, I2, I3, I4, I5 |- *.
      repeat split; try assumption.
      * rewrite I1. lia.
      * intros k' D X. apply I4; [tauto |]. apply Q; [tauto | assumption].
      * constructor; [reflexivity | assumption].
Qed.
(** An element made with a key that cannot be hashed (hashmap/linkedhashmap.go:38-41). *)
Definition isbad (es : list (K * V)) (e : nat) : bool := match nth_error es e with Some (k, _) => negb (hashable k) | None => false end.
(** How many of them are in the list (hashmap/linkedhashmap.go:41). *)
Definition bads (es : list (K * V)) (l : list nat) : nat := length (filter (isbad es) l).

Lemma bads_unlink es e l : (bads es (unlink e l) <= bads es l)%nat.
Proof.
  unfold bads, unlink. induction l as [| x l IH]; cbn; [lia |].
  destruct (negb (x =? e)%nat); cbn; destruct (isbad es x); cbn; lia.
Qed.

Lemma bads_unlink_bad es e l : In e l -> isbad es e = true -> (bads es (unlink e l) < bads es l)%nat.
Proof.
  intros I B. induction l as [| x l IH]; [destruct I |]. destruct (Nat.eq_dec x e) as [-> | D].
  - pose proof (bads_unlink es e l) as X. unfold bads, unlink in *. cbn. rewrite Nat.eqb_refl. cbn. rewrite B. cbn. lia.
  - destruct I as [I | I]; [contradiction |]. specialize (IH I). unfold bads, unlink in *. cbn.
    destruct (Nat.eqb_spec x e); [contradiction |]. cbn. destruct (isbad es x); cbn; lia.
Qed.

Lemma bads_grow es x l : Forall (fun e => (e < length es)%nat) l -> bads (es ++ [x]) l = bads es l.
Proof.
  intros H. unfold bads. f_equal. apply filter_ext_in. intros e I. rewrite Forall_forall in H. unfold isbad. now rewrite nth_error_app1 by now apply H.
Qed.

(** The counter and the entries left behind by panics are bounded by the limit and the number of such panics, [n] (hashmap/linkedhashmap.go:37-54). *)
Record bounded (m : linked) (n : Z) : Prop := {
  b_ids : Forall (fun e => (e < length (made m))%nat) (line m);
  b_bads : (Z.of_nat (bads (made m) (line m)) <= n)%Z;
  b_number : (number m + Z.of_nat (bads (made m) (line m)) <= Z.max 0 limit + n)%Z }.

Lemma bounded_lstep c (m : linked) n : bounded m n ->
  bounded (fst (lstep m c)) (n + match c with DoPut k _ => if hashable k then 0 else 1 | DoDelete _ => 0 end)%Z.
Proof.
  intros [I B N]. destruct c as [k v | k]; cbn.
  - pose proof (bads_grow (made m) (k, v) (line m) I) as G.
    assert (bads (made m ++ [(k, v)]) (length (made m) :: line m) = ((if hashable k then 0 else 1) + bads (made m) (line m))%nat) as G'.
    { rewrite <- G. unfold bads. cbn [filter]. unfold isbad at 1. rewrite nth_error_app2, Nat.sub_diag by lia. cbn [nth_error]. destruct (hashable k); reflexivity. }
    assert (Forall (fun e => (e < length (made m ++ [(k, v)]))%nat) (length (made m) :: line m)) as I'.
    { rewrite app_length. cbn. constructor; [lia |]. eapply Forall_impl; [| exact I]. cbn. intros; lia. }
    unfold Unhash_Model.LPut. destruct (hashable k) eqn:H; [| split; cbn [fst made line number]; [exact I' | rewrite G'; lia | rewrite G'; lia]].
    cbv zeta. destruct (load same k (table m)) as [e' |].
    + pose proof (bads_unlink (made m ++ [(k, v)]) e' (length (made m) :: line m)) as U. split; cbn [fst made line number]; [now apply unlink_bound | lia | lia].
    + destruct (Z.ltb_spec limit (number m + 1)); [| split; cbn [fst made line number]; [exact I' | rewrite G'; lia | rewrite G'; lia]].
      destruct (rev (length (made m) :: line m)) as [| o r] eqn:R; [split; cbn [fst made line number]; [exact I' | rewrite G'; lia | rewrite G'; lia] |].
      assert (In o (length (made m) :: line m)) as J by (apply in_rev; rewrite R; now left).
      pose proof (bads_unlink (made m ++ [(k, v)]) o (length (made m) :: line m)) as U.
      destruct (nth_error (made m ++ [(k, v)]) o) as [[ko w] |] eqn:X; [| split; cbn [fst made line number]; [now apply unlink_bound | lia | lia]].
      destruct (hashable ko) eqn:Y; [split; cbn [fst made line number]; [now apply unlink_bound | lia | lia] |].
      assert (isbad (made m ++ [(k, v)]) o = true) as Z by (unfold isbad; now rewrite X, Y).
      pose proof (bads_unlink_bad _ _ _ J Z). split; cbn [fst made line number]; [now apply unlink_bound | lia | lia].
  - rewrite Z.add_0_r. unfold LDelete. destruct (hashable k); [| now split]. destruct (load same k (table m)) as [e |]; [| now split].
    pose proof (bads_unlink (made m) e (line m)). split; cbn [fst made line number]; [now apply unlink_bound | lia | lia].
Qed.
End linked.
