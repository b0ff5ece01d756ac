(** C167 and C168: MapL and TreeMap with NaN among the keys. *)
From Coq Require Import ZArith List Bool Lia.
From Flocq Require Import BinarySingleNaN.
From Verif Require Import GoFloat NanMap_Model NanMap_Spec NanMap_Proofs.
Import ListNotations.
Local Open Scope Z_scope.

(** NaN and two other keys (hashmap/map.go:28-57, hashmap/treemap.go:37-63). *)
Definition knan : f64 := B754_nan.
(** See [knan] (hashmap/map.go:28-57). *)
Definition kone : f64 := of_int 1.
(** See [knan] (hashmap/map.go:28-57). *)
Definition ktwo : f64 := of_int 2.
(** == of float64 (Go specification; hashmap/map.go:28-57). *)
Definition feqb (x y : f64) : bool := Beqb x y.
(** < of float64 (Go specification; hashmap/treemap.go:21-23). *)
Definition fltb (x y : f64) : bool := Bltb x y.

(** The hypotheses on NaN hold of float64's. *)
Example c167_float_nan : equals_nothing feqb knan.
Proof. intros k. destruct k; split; reflexivity. Qed.
Example c168_float_nan : unordered fltb knan.
Proof. intros k. destruct k; split; reflexivity. Qed.

(** C167: a value put under NaN is never found again, yet it stays and is counted, whatever is called later: Put says there was none before, Get and Has find none, Del deletes none. *)
Theorem c167_nan_leaks_refuted : forall (K V : Type) (same : K -> K -> bool) (zero : V) nan v before later,
  equals_nothing same nan ->
  let m := run same zero (before ++ [Put nan v]) in
  let m' := run same zero (before ++ [Put nan v] ++ later) in
  len m = len (run same zero before) + 1
  /\ snd (put same zero (run same zero before) nan v) = (zero, false)
  /\ get same zero m' nan = (zero, false) /\ has same m' nan = false /\ del same m' nan = (m', false)
  /\ In (nan, v) (entries m') /\ 1 <= len m'.
Proof.
  intros K V same zero nan v before later N m m'.
  destruct (nan_put same zero nan v (run same zero before) N) as [C I].
  assert (m = after same zero (run same zero before) (Put nan v)) as E by apply run_snoc.
  assert (m' = fold_left (after same zero) later m) as E' by (subst m m'; rewrite app_assoc; apply run_app).
  assert (In (nan, v) (entries m')) as J by (rewrite E'; apply nan_stays_run; [assumption | now rewrite E]).
  assert (1 <= len m') as L.
  { unfold len, m'. rewrite count_entries. fold m'. destruct (entries m'); [destruct J | cbn [length]; lia]. }
  unfold get, has, del. rewrite (load_nan same nan (entries m') N).
  repeat split; try assumption.
  - rewrite E. exact C.
  - unfold put. now rewrite (load_nan same nan _ N).
Qed.
Print Assumptions c167_nan_leaks_refuted.

Example c167_nan_leaks_ex :
  let m := run feqb 0 [Put kone 5; Put knan 6; Put knan 7; Del knan; Del kone] in
  len m = 2 /\ get feqb 0 m knan = (0, false) /\ map snd (entries m) = [6; 7].
Proof. vm_compute. repeat split. Qed.

(** C167: Len is the number of entries Range visits, NaN or not. *)
Theorem c167_len_is_range : forall (K V : Type) (same : K -> K -> bool) (zero : V) os,
  len (run same zero os) = Z.of_nat (length (entries (run same zero os))).
Proof. intros. apply count_entries. Qed.
Print Assumptions c167_len_is_range.

Example c167_len_is_range_ex : len (run feqb 0 [Put kone 5; Put knan 6; Put kone 8; Del ktwo]) = 2.
Proof. vm_compute. reflexivity. Qed.

(** C167, the part that holds: a key equal to itself is found with its value until it is put or deleted, whatever else happens to NaN and other keys. *)
Theorem c167_other_keys_partial : forall (K V : Type) (same : K -> K -> bool) (zero : V) k v before later,
  go_equality same -> same k k = true -> existsb (touches same k) later = false ->
  get same zero (run same zero (before ++ [Put k v] ++ later)) k = (v, true).
Proof.
  intros K V same zero k v before later G R U. unfold get.
  rewrite app_assoc, run_app, load_untouched by assumption. rewrite run_snoc, load_put by assumption. reflexivity.
Qed.
Print Assumptions c167_other_keys_partial.

Example c167_other_keys_ex : get feqb 0 (run feqb 0 ([Put knan 1; Put kone 4] ++ [Put kone 5] ++ [Put knan 6; Del knan; Put ktwo 7; Del ktwo])) kone = (5, true).
Proof. vm_compute. reflexivity. Qed.

(** C167, the part that holds: Del tells whether the key was found, and afterwards it is not found until it is put again. *)
Theorem c167_deleted_partial : forall (K V : Type) (same : K -> K -> bool) (zero : V) k before later,
  go_equality same -> existsb (touches same k) later = false ->
  snd (del same (run same zero before) k) = has same (run same zero before) k
  /\ get same zero (run same zero (before ++ [Del k] ++ later)) k = (zero, false).
Proof.
  intros K V same zero k before later G U. split.
  - unfold del, has. now destruct (load same k (entries (run same zero before))).
  - unfold get. rewrite app_assoc, run_app, load_untouched by assumption. rewrite run_snoc. cbn. unfold del.
    destruct (load same k (entries (run same zero before))) eqn:L; cbn; [| now rewrite L].
    rewrite load_removed; [reflexivity |]. now apply hits_run.
Qed.
Print Assumptions c167_deleted_partial.

Example c167_deleted_ex : get feqb 0 (run feqb 0 ([Put knan 1; Put kone 4; Put knan 2; Put kone 5] ++ [Del kone] ++ [Put knan 6; Put ktwo 7])) kone = (0, false).
Proof. vm_compute. reflexivity. Qed.

(** C168: on a tree of one node that is not empty, Put of NaN takes the place of the greatest key, whose entry is lost; Get of NaN gives the greatest key's value; Del of NaN deletes the greatest key. *)
Theorem c168_nan_takes_the_greatest_refuted : forall (K V : Type) (less : K -> K -> bool) degree nan (l : list (K * V)) k v w,
  unordered less nan -> (length l + 1 < 2 * degree - 1)%nat ->
  tput less degree (l ++ [(k, v)]) nan w = Some (l ++ [(nan, w)], Some v)
  /\ tget less (l ++ [(k, v)]) nan = Some v
  /\ tdel less (l ++ [(k, v)]) nan = l.
Proof.
  intros K V less degree nan l k v w U B.
  assert (nth_error (l ++ [(k, v)]) (length l) = Some (k, v)) as N by (rewrite nth_error_app2, PeanoNat.Nat.sub_diag by lia; reflexivity).
  assert (firstn (length l) (l ++ [(k, v)]) = l) as F by (rewrite firstn_app, PeanoNat.Nat.sub_diag, firstn_all; cbn; apply app_nil_r).
  assert (skipn (S (length l)) (l ++ [(k, v)]) = []) as S by (apply skipn_all2; rewrite app_length; cbn; lia).
  unfold tput, tget, tdel. rewrite find_nan by assumption. rewrite N, F, S.
  destruct (PeanoNat.Nat.leb_spec (2 * degree - 1) (length (l ++ [(k, v)]))) as [L | L]; [rewrite app_length in L; cbn in L; lia |].
  repeat split. apply app_nil_r.
Qed.
Print Assumptions c168_nan_takes_the_greatest_refuted.

Example c168_nan_takes_the_greatest_ex :
  match tput fltb 2 [] kone 5 with
  | Some (t, None) => match tput fltb 2 t ktwo 6 with
    | Some (t, None) => match tput fltb 2 t knan 7 with Some (t, Some 6) => map snd t = [5; 7] | _ => False end
    | _ => False end
  | _ => False end.
Proof. vm_compute. reflexivity. Qed.

(** C168: with NaN alone in the tree, every key is found and has NaN's value. *)
Theorem c168_nan_answers_for_all_refuted : forall (K V : Type) (less : K -> K -> bool) degree nan (v : V) k,
  unordered less nan -> (1 <= degree)%nat ->
  exists t, tput less degree [] nan v = Some (t, None) /\ tget less t k = Some v /\ tdel less t k = [].
Proof.
  intros K V less degree nan v k U D. exists [(nan, v)].
  unfold tget, tdel. rewrite find_only by assumption. split; [| split; reflexivity].
  unfold tput. cbn [length]. destruct (PeanoNat.Nat.leb_spec (2 * degree - 1) 0); [lia | reflexivity].
Qed.
Print Assumptions c168_nan_answers_for_all_refuted.

Example c168_nan_answers_for_all_ex : match tput fltb 2 [] knan 7 with Some (t, None) => tget fltb t kone = Some 7 /\ tget fltb t ktwo = Some 7 | _ => False end.
Proof. vm_compute. split; reflexivity. Qed.

(** C168, the part that holds: among keys in a strict total order, a key of the tree is found with its own value, and Put and Del of it change its entry only. *)
Theorem c168_ordered_keys_partial : forall (K V : Type) (less : K -> K -> bool) degree (l l' : list (K * V)) k v w,
  strict_total less -> ascending less (l ++ (k, v) :: l') -> (length (l ++ (k, v) :: l') < 2 * degree - 1)%nat ->
  tget less (l ++ (k, v) :: l') k = Some v
  /\ tput less degree (l ++ (k, v) :: l') k w = Some (l ++ (k, w) :: l', Some v)
  /\ tdel less (l ++ (k, v) :: l') k = l ++ l'.
Proof.
  intros K V less degree l l' k v w T A B.
  assert (nth_error (l ++ (k, v) :: l') (length l) = Some (k, v)) as N by (rewrite nth_error_app2, PeanoNat.Nat.sub_diag by lia; reflexivity).
  assert (firstn (length l) (l ++ (k, v) :: l') = l) as F by (rewrite firstn_app, PeanoNat.Nat.sub_diag, firstn_all; cbn; apply app_nil_r).
  assert (skipn (S (length l)) (l ++ (k, v) :: l') = l') as S.
  { rewrite skipn_app, skipn_all2 by lia. replace (S (length l) - length l)%nat with 1%nat by lia. reflexivity. }
  unfold tput, tget, tdel. rewrite (find_present less _ k v (length l)) by assumption. rewrite N, F, S.
  destruct (PeanoNat.Nat.leb_spec (2 * degree - 1) (length (l ++ (k, v) :: l'))) as [L | L]; [lia |].
  repeat split.
Qed.
Print Assumptions c168_ordered_keys_partial.

Example c168_ordered_keys_ex : tput Z.ltb 3 [(1, 5); (2, 6); (4, 7)] 2 9 = Some ([(1, 5); (2, 9); (4, 7)], Some 6) /\ tdel Z.ltb [(1, 5); (2, 6); (4, 7)] 4 = [(1, 5); (2, 6)].
Proof. split; reflexivity. Qed.

(** C168, the part that holds: among keys in a strict total order, a key that is not in the tree is not found, Del of it changes nothing and Put of it adds one entry at its place. *)
Theorem c168_absent_keys_partial : forall (K V : Type) (less : K -> K -> bool) degree (l : list (K * V)) k v,
  strict_total less -> ascending less l -> ~ In k (map fst l) -> (length l < 2 * degree - 1)%nat ->
  tget less l k = None /\ tdel less l k = l
  /\ exists l1 l2, l = l1 ++ l2 /\ tput less degree l k v = Some (l1 ++ (k, v) :: l2, None) /\ ascending less (l1 ++ (k, v) :: l2).
Proof.
  intros K V less degree l k v T A N B.
  destruct (place less k v l T A N) as (l1 & l2 & -> & F1 & F2 & C).
  unfold tput, tget, tdel. rewrite (find_absent less k l1 l2 T F1 F2).
  destruct (PeanoNat.Nat.leb_spec (2 * degree - 1) (length (l1 ++ l2))) as [L | L]; [lia |].
  repeat split. exists l1, l2. repeat split; [| assumption].
  rewrite firstn_app, PeanoNat.Nat.sub_diag, firstn_all, skipn_app, skipn_all, PeanoNat.Nat.sub_diag. cbn. now rewrite app_nil_r.
Qed.
Print Assumptions c168_absent_keys_partial.

Example c168_absent_keys_ex : tget Z.ltb [(1, 5); (2, 6); (4, 7)] 3 = None /\ tput Z.ltb 3 [(1, 5); (2, 6); (4, 7)] 3 9 = Some ([(1, 5); (2, 6); (3, 9); (4, 7)], None).
Proof. split; reflexivity. Qed.
