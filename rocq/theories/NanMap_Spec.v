(** What C167 and C168 say, without the map or the tree. *)
From Coq Require Import ZArith List Bool.
From Verif Require Import NanMap_Model.
Import ListNotations.
Local Open Scope Z_scope.

(** == of Go: symmetric and transitive, but not reflexive (hashmap/map.go:28-57). *)
Definition go_equality {K} (same : K -> K -> bool) : Prop :=
  (forall a b, same a b = same b a) /\ (forall a b c, same a b = true -> same b c = true -> same a c = true).
(** NaN for == (hashmap/map.go:28-57). *)
Definition equals_nothing {K} (same : K -> K -> bool) (nan : K) : Prop := forall k, same nan k = false /\ same k nan = false.
(** NaN for < (hashmap/treemap.go:21-23). *)
Definition unordered {K} (less : K -> K -> bool) (nan : K) : Prop := forall k, less nan k = false /\ less k nan = false.
(** The call puts or deletes a key equal to [k] (hashmap/map.go:28-57). *)
Definition touches {K V} (same : K -> K -> bool) (k : K) (o : op (K:=K) (V:=V)) : bool :=
  match o with Put k' _ => same k' k | Del k' => same k' k | _ => false end.
(** < of Go on numbers other than NaN (hashmap/treemap.go:21-23). *)
Definition strict_total {K} (less : K -> K -> bool) : Prop :=
  (forall a, less a a = false) /\ (forall a b c, less a b = true -> less b c = true -> less a c = true) /\ (forall a b, less a b = false -> less b a = false -> a = b).
(** The entries are in ascending order of their keys (hashmap/treemap.go:65-73). *)
Definition ascending {K V} (less : K -> K -> bool) (l : list (K * V)) : Prop :=
  forall i j a b, (i < j)%nat -> nth_error l i = Some a -> nth_error l j = Some b -> less (fst a) (fst b) = true.
