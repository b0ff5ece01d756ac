(** C169: LimitMap with NaN among the keys. *)
From Coq Require Import ZArith List Bool Lia Arith.
From Flocq Require Import BinarySingleNaN.
From Verif Require Import GoFloat NanMap_Model NanMap_Spec NanMap_Props NanLimit_Model NanLimit_Proofs NanLimit_Room.
Import ListNotations.
Local Open Scope Z_scope.

(** How many of the calls put a key that is [nan] (hashmap/limitmap.go:47). *)
Fixpoint puts {K V} (p : K -> bool) (cs : list (@call K V)) : Z :=
  match cs with [] => 0 | CPut k _ :: r => (if p k then 1 else 0) + puts p r | CDel _ :: r => puts p r end.

Lemma puts_marks : forall (K V : Type) (same : K -> K -> bool) (p : K -> bool) capacity (cs : list (@call K V)),
  (forall a, p a = true -> equals_nothing same a) -> Z.of_nat (marks p (cache (lrun same capacity cs))) = puts p cs.
Proof.
  intros K V same p capacity cs H.
  assert (forall m, Z.of_nat (marks p (cache m)) + puts p cs = Z.of_nat (marks p (cache (fold_left (step same capacity) cs m)))) as X.
  { induction cs as [| c cs IH]; intros m; cbn [puts fold_left]; [lia |]. rewrite <- IH, marks_step by assumption.
    destruct c as [k v | k]; [destruct (p k) |]; lia. }
  specialize (X NewLimitMap). cbn [cache NewLimitMap marks] in X. unfold lrun. lia.
Qed.

(** C169: Len is at least the number of times NaN was put, whatever the capacity and whatever else was called. *)
Theorem c169_no_limit_refuted : forall (K V : Type) (same : K -> K -> bool) (p : K -> bool) capacity (cs : list (@call K V)),
  (forall a, p a = true -> equals_nothing same a) -> puts p cs <= Len (lrun same capacity cs).
Proof.
  intros K V same p capacity cs H. unfold Len. rewrite <- (puts_marks K V same p capacity cs H).
  pose proof (marks_length p (cache (lrun same capacity cs))). lia.
Qed.
Print Assumptions c169_no_limit_refuted.

Example c169_no_limit_ex : Len (lrun feqb 1 (repeat (CPut knan 5) 7 ++ [CDel knan; CPut kone 6])) = 8.
Proof. vm_compute. reflexivity. Qed.

(** C169: after capacity + 1 Puts of NaN, and as many Puts and Dels of another key, a map of any capacity has room for one key: the next Put drops what was put just before. *)
Theorem c169_one_key_left_refuted : forall (K V : Type) (same : K -> K -> bool) (zero : V) capacity nan v k1 v1 k2 v2,
  go_equality same -> equals_nothing same nan -> same k1 k1 = true -> same k2 k2 = true -> same k1 k2 = false -> 0 <= capacity ->
  let n := Z.to_nat (capacity + 1) in
  let m := lrun same capacity (repeat (CPut nan v) n ++ concat (repeat [CPut k1 v1; CDel k1] n) ++ [CPut k1 v1; CPut k2 v2]) in
  Get same zero m k1 = (zero, false) /\ Get same zero m k2 = (v2, true) /\ Len m = capacity + 2.
Proof.
  intros K V same zero capacity nan v k1 v1 k2 v2 [S T] N R1 R2 D C n m.
  subst m. unfold lrun. rewrite !fold_left_app.
  pose proof (filled same capacity nan v N C) as F. fold n in F.
  destruct (fill same capacity nan v n N) as (_ & FL & _); [lia |].
  set (m0 := fold_left _ (repeat _ n) _) in *.
  pose proof (rounds same capacity nan k1 v1 n m0 n N R1 F) as G. rewrite Nat.sub_diag in G.
  assert (length (cache (fold_left (step same capacity) (concat (repeat [CPut k1 v1; CDel k1] n)) m0)) = n) as L.
  { rewrite <- FL at 2. now apply (rounds_cache same capacity nan k1 v1 n m0 n). }
  set (m1 := fold_left _ (concat _) m0) in *. cbn [fold_left step].
  destruct (put_clogged same capacity nan k1 v1 m1 0 N G) as (o & E & G').
  rewrite E. destruct G' as (A & B & _ & _ & O & _). cbn in O. apply length_zero_iff_nil in O. subst o. cbn in A, B.
  pose proof (load_clogged same nan k1 (cache m1) N A) as L1. pose proof (load_clogged same nan k2 (cache m1) N A) as L2.
  unfold Put. cbn [cache]. rewrite load_last, D by assumption.
  unfold make_room. cbn [cache elems order rev app].
  destruct (Z.ltb_spec capacity (Z.of_nat (length (cache m1 ++ [(k1, length (elems m1))])))) as [_ | Q]; [| rewrite app_length in Q; cbn in Q; lia].
  rewrite nth_error_app2, Nat.sub_diag by lia. cbn [nth_error]. rewrite remove_last by assumption.
  cbv zeta. cbn [cache elems order]. rewrite store_absent by assumption.
  unfold Get, Len. cbn [cache elems]. rewrite !load_last by assumption. rewrite S, D, R2.
  rewrite nth_error_app2, Nat.sub_diag by lia. cbn [nth_error]. repeat split.
  rewrite app_length. cbn [length]. lia.
Qed.
Print Assumptions c169_one_key_left_refuted.

Example c169_one_key_left_ex :
  let m := lrun feqb 2 (repeat (CPut knan 5) 3 ++ concat (repeat [CPut kone 1; CDel kone] 3) ++ [CPut kone 1; CPut ktwo 2]) in
  Get feqb 0 m kone = (0, false) /\ Get feqb 0 m ktwo = (2, true).
Proof. vm_compute. split; reflexivity. Qed.

(** C169, the part that holds: a key equal to itself is found with its value right after its Put, after any calls. *)
Theorem c169_put_get_partial : forall (K V : Type) (same : K -> K -> bool) (zero : V) capacity cs k v,
  same k k = true -> Get same zero (lrun same capacity (cs ++ [CPut k v])) k = (v, true).
Proof.
  intros K V same zero capacity cs k v R. unfold lrun. rewrite fold_left_app. cbn [fold_left step].
  apply put_get; [apply run_sound | assumption].
Qed.
Print Assumptions c169_put_get_partial.

Example c169_put_get_ex : Get feqb 0 (lrun feqb 1 ([CPut knan 5; CPut kone 1; CPut knan 6; CPut ktwo 3; CPut knan 7] ++ [CPut kone 8])) kone = (8, true).
Proof. vm_compute. reflexivity. Qed.

(** C169, the part that holds: of keys that differ, never more than capacity + 1 are found (one, for a capacity below zero), and Len is at most that and the number of times a key like NaN was put. *)
Theorem c169_room_partial : forall (K V : Type) (same : K -> K -> bool) (zero : V) capacity cs ks,
  go_equality same -> ForallOrdPairs (fun a b => same a b = false) ks ->
  let m := lrun same capacity cs in
  Forall (fun k => snd (Get same zero m k) = true) ks ->
  Z.of_nat (length ks) <= Z.max 0 capacity + 1 /\ Len m <= Z.max 0 capacity + 1 + puts (fun k => negb (same k k)) cs.
Proof.
  intros K V same zero capacity cs ks G P m H. destruct (fit_run same capacity G cs) as [F O]. fold m in F, O. split.
  - assert (length ks <= length (order m))%nat as L.
    { apply (found_bound same G m ks F P). eapply Forall_impl; [| exact H]. intros k X. unfold Get in X. destruct (load same k (cache m)); [discriminate | discriminate X]. }
    lia.
  - unfold Len. rewrite (split_selfs same (cache m)). rewrite Nat2Z.inj_add. unfold m at 2. rewrite puts_marks by now apply not_self.
    pose proof (selfs_bound same m F). lia.
Qed.
Print Assumptions c169_room_partial.

Example c169_room_ex : let m := lrun feqb 1 [CPut knan 5; CPut kone 1; CPut ktwo 2; CPut (of_int 3) 3; CPut (of_int 4) 4] in
  map (fun k => snd (Get feqb 0 m k)) [kone; ktwo; of_int 3; of_int 4] = [false; false; true; true] /\ Len m = 3.
Proof. vm_compute. split; reflexivity. Qed.
