(** What consistent hashing means, for any hash and history. *)
From stdpp Require Import prelude.
From Coq Require Import ZArith.
From Verif Require Import CHash_Model.
Local Open Scope Z_scope.

(** The set of nodes after a history: added, and not deleted since. *)
Fixpoint member_from (os : list cop) (k : Z) (now : Prop) : Prop :=
  match os with
  | [] => now
  | CAdd ks :: r => member_from r k (k ∈ ks \/ now)
  | CDel k' :: r => member_from r k (k' <> k /\ now)
  end.
Definition member (os : list cop) (k : Z) : Prop := member_from os k False.

(** Nodes that a history ever adds. *)
Definition added (os : list cop) (k : Z) : Prop := exists ks, CAdd ks ∈ os /\ k ∈ ks.

(** The ring is the circle of 2^64 points; the way from [a] to [b] is clockwise. *)
Definition distance (a b : Z) : Z := (b - a) mod 2^64.

(** [n] owns position [hv]: one of its [rep] points is met first, going clockwise from [hv] over the points of all nodes. *)
Definition owns (pt : Z -> Z -> Z) (rep : Z) (is_node : Z -> Prop) (hv n : Z) : Prop :=
  is_node n /\ exists i, 0 <= i < rep /\
    forall n' i', is_node n' -> 0 <= i' < rep -> distance hv (pt i n) <= distance hv (pt i' n').

(** Different nodes of the set [U] have different points. *)
Definition no_collision (pt : Z -> Z -> Z) (rep : Z) (U : Z -> Prop) : Prop :=
  forall n n' i i', U n -> U n' -> 0 <= i < rep -> 0 <= i' < rep -> pt i n = pt i' n' -> n = n'.

(** [xs] without the repetitions after a first occurrence and without [n1]. *)
Fixpoint firsts (n1 : Z) (xs : list Z) (seen : list Z) : list Z :=
  match xs with
  | [] => []
  | x :: r => if decide (x = n1 \/ x ∈ seen) then firsts n1 r seen else x :: firsts n1 r (x :: seen)
  end.
