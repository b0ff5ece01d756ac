(** C170: LinkedHashMap with keys that cannot be hashed. *)
From Coq Require Import ZArith List Bool Arith Lia.
From Verif Require Import NanMap_Model NanLimit_Model NanLimit_Proofs Unhash_Model Unhash_Proofs.
Import ListNotations.
Local Open Scope Z_scope.

(** Keys for the examples: numbers, those below zero cannot be hashed (hashmap/linkedhashmap.go:37). *)
Definition proper (k : Z) : bool := 0 <=? k.

(** C170: a Put that panics leaves its entry in the list: Front gives it, and Len does not count it. *)
Theorem c170_panic_leaves_entry_refuted : forall (K V : Type) (same : K -> K -> bool) hashable limit cs k (v : V),
  hashable k = false ->
  let m := fst (lcalls same hashable limit NewLinked cs) in
  let '(m', panics) := LPut same hashable limit m k v in
  panics = true /\ LFront m' = Some (k, v) /\ length (line m') = S (length (line m)) /\ LLen m' = LLen m.
Proof.
  intros K V same hashable limit cs k v H m. unfold LPut. rewrite H. repeat split.
  cbn. rewrite nth_error_app2, Nat.sub_diag by lia. reflexivity.
Qed.
Print Assumptions c170_panic_leaves_entry_refuted.

Example c170_panic_leaves_entry_ex :
  let m := fst (lcalls Z.eqb proper 3 NewLinked [DoPut 1 10; DoPut (-1) 20]) in LFront m = Some (-1, 20) /\ LLen m = 1.
Proof. vm_compute. split; reflexivity. Qed.

(** C170: after one Put that panicked, [limit] Puts of new keys go well and the next one panics although its key can be hashed; Len is then above the limit. *)
Theorem c170_later_put_panics_refuted : forall (K V : Type) (same : K -> K -> bool) hashable limit bad (vb : V) ks k (v : V),
  (forall a b, same a b = true <-> a = b) -> hashable bad = false -> Forall (fun x => hashable (fst x) = true) (ks ++ [(k, v)]) ->
  NoDup (map fst (ks ++ [(k, v)])) -> Z.of_nat (length ks) = limit ->
  let '(m, panics) := lcalls same hashable limit NewLinked (DoPut bad vb :: map (fun x => DoPut (fst x) (snd x)) (ks ++ [(k, v)])) in
  panics = true :: repeat false (length ks) ++ [true] /\ LLen m = limit + 1.
Proof.
  intros K V same hashable limit bad vb ks k v E B H N L.
  cbn [lcalls lstep]. unfold LPut at 1. rewrite B. cbv zeta. set (m0 := MkLinked _ _ _ _).
  rewrite map_app, lcalls_app. cbn [map fst snd]. apply Forall_app in H as [H1 H2]. inversion H2 as [| ? ? Hk _]; subst. cbn in Hk.
  rewrite map_app in N. cbn in N. apply NoDup_remove in N as [N1 N2]. rewrite app_nil_r in N1, N2.
  destruct (fill_behind same hashable (Z.of_nat (length ks)) bad vb ks m0 E N1 H1) as (I1 & [o I2] & I3 & I4 & I5).
  - cbn. lia.
  - now exists [].
  - reflexivity.
  - reflexivity.
  - set (r := lcalls same hashable (Z.of_nat (length ks)) m0 (map (fun x => DoPut (fst x) (snd x)) ks)) in *.
    assert (snd r = repeat false (length ks)) as R.
    { assert (length (snd r) = length ks) as X.
      { unfold r. rewrite lcalls_length. apply map_length. }
      rewrite <- X. revert I5. generalize (snd r). clear. intros l F. induction F as [| b bs Y F IH]; [reflexivity |]. cbn. rewrite Y. f_equal. exact IH. }
    destruct r as [m1 bs]. cbn [fst snd] in *. subst bs. cbn [lcalls lstep].
    assert (load same k (table m1) = None) as A by (apply I4; [assumption | reflexivity]).
    unfold LPut. rewrite Hk, A. rewrite I1. assert ((Z.of_nat (length ks) <? number m0 + Z.of_nat (length ks) + 1) = true) as -> by (apply Z.ltb_lt; cbn; lia).
    cbv zeta. rewrite I2. change (length (made m1) :: o ++ [0%nat]) with ((length (made m1) :: o) ++ [0%nat]). rewrite rev_unit.
    rewrite nth_error_app1 by (destruct (made m1); [discriminate | cbn; lia]). rewrite I3, B. cbv beta iota zeta. split; [reflexivity |]. unfold LLen. cbn. lia.
Qed.
Print Assumptions c170_later_put_panics_refuted.

Example c170_later_put_panics_ex :
  let '(m, panics) := lcalls Z.eqb proper 2 NewLinked [DoPut (-1) 20; DoPut 1 10; DoPut 2 11; DoPut 3 12; DoPut 4 13] in
  panics = [true; false; false; true; false] /\ LLen m = 3 /\ LGet Z.eqb proper 0 m 3 = Some (12, true).
Proof. vm_compute. repeat split. Qed.

(** C170, the part that holds: as long as all keys can be hashed nothing panics. *)
Theorem c170_no_panic_partial : forall (K V : Type) (same : K -> K -> bool) hashable limit (cs : list (@lcall K V)),
  Forall (fun c => hashable (match c with DoPut k _ => k | DoDelete k => k end) = true) cs ->
  Forall (fun b => b = false) (snd (lcalls same hashable limit NewLinked cs)).
Proof. intros. apply tame_lcalls; [constructor | assumption]. Qed.
Print Assumptions c170_no_panic_partial.

Example c170_no_panic_ex : snd (lcalls Z.eqb proper 1 NewLinked [DoPut 1 10; DoPut 2 20; DoPut 2 21; DoDelete 1; DoPut 3 30]) = repeat false 5.
Proof. vm_compute. reflexivity. Qed.

(** C170, the part that holds: the Put of a key that cannot be hashed changes no Get, and Delete of it nothing at all. *)
Theorem c170_gets_stay_partial : forall (K V : Type) (same : K -> K -> bool) hashable (zero : V) limit cs bad v k,
  hashable bad = false ->
  let m := fst (lcalls same hashable limit NewLinked cs) in
  LGet same hashable zero (fst (LPut same hashable limit m bad v)) k = LGet same hashable zero m k
  /\ LDelete same hashable m bad = (m, true).
Proof.
  intros K V same hashable zero limit cs bad v k B m.
  assert (lsound m) as S by (apply sound_lcalls; constructor).
  unfold LPut, LDelete, LGet. rewrite B. cbn [fst table made]. split; [| reflexivity].
  destruct (hashable k); [| reflexivity]. destruct (load same k (table m)) as [e |] eqn:L; [| reflexivity].
  rewrite nth_error_app1; [reflexivity |]. now apply (load_lsound same k e m).
Qed.
Print Assumptions c170_gets_stay_partial.

Example c170_gets_stay_ex : LGet Z.eqb proper 0 (fst (lcalls Z.eqb proper 2 NewLinked [DoPut 1 10; DoPut 2 20; DoPut (-5) 7; DoDelete (-5)])) 1 = Some (10, true).
Proof. vm_compute. reflexivity. Qed.

(** How many of the calls are Puts of keys that cannot be hashed (hashmap/linkedhashmap.go:37). *)
Fixpoint bad_puts {K V} (hashable : K -> bool) (cs : list (@lcall K V)) : Z :=
  match cs with [] => 0 | DoPut k _ :: r => (if hashable k then 0 else 1) + bad_puts hashable r | DoDelete _ :: r => bad_puts hashable r end.

(** C170, the part that holds: Len is never above the limit by more than the number of Puts of keys that cannot be hashed. *)
Theorem c170_len_partial : forall (K V : Type) (same : K -> K -> bool) hashable limit (cs : list (@lcall K V)),
  LLen (fst (lcalls same hashable limit NewLinked cs)) <= Z.max 0 limit + bad_puts hashable cs.
Proof.
  intros K V same hashable limit cs.
  assert (forall m n, bounded hashable limit m n -> bounded hashable limit (fst (lcalls same hashable limit m cs)) (n + bad_puts hashable cs)) as X.
  { induction cs as [| c cs IH]; intros m n H; cbn [lcalls bad_puts fst]; [now rewrite Z.add_0_r |].
    pose proof (bounded_lstep same hashable limit c m n H) as Y. destruct (lstep same hashable limit m c) as [m1 b]. cbn [fst] in Y.
    specialize (IH _ _ Y). destruct (lcalls same hashable limit m1 cs) as [m2 bs]. cbn [fst] in *.
    destruct c as [k v | k]; [| now rewrite Z.add_0_r in IH]. now rewrite Z.add_assoc. }
  destruct (X NewLinked 0) as [_ _ Y]; [split; cbn; [constructor | lia | lia] |]. unfold LLen. lia.
Qed.
Print Assumptions c170_len_partial.

Example c170_len_ex : LLen (fst (lcalls Z.eqb proper 1 NewLinked [DoPut (-1) 1; DoPut (-2) 2; DoPut 1 3; DoPut 2 4; DoPut 3 5; DoPut 4 6])) = 3.
Proof. vm_compute. reflexivity. Qed.
