(** The window of a rotating Bloom filter, independently of its arrays. *)
From Coq Require Import ZArith List.
From Verif Require Import Bloom_Model.
Import ListNotations.
Local Open Scope Z_scope.

(** The generation of the [c]-th Add: out of every 3E+1 Adds the first E, the next E and the last E+1 form one each. *)
Definition generation (E c : Z) : Z :=
  let f := c mod (3 * E + 1) in
  3 * (c / (3 * E + 1)) + (if f <? E then 0 else if f <? 2 * E then 1 else 2).

Section spec.
Context {item : Type}.
(** Items added by a history, oldest first: the [c]-th one (from 1) is the [c]-th Add. *)
Fixpoint adds (os : list (bop item)) : list item :=
  match os with [] => [] | BAdd x :: r => x :: adds r | BContains _ :: r => adds r end.
(** [x] was added by the [c]-th Add. *)
Definition added_at (os : list (bop item)) (c : Z) (x : item) : Prop :=
  1 <= c /\ nth_error (adds os) (Z.to_nat (c - 1)) = Some x.
(** Number of Adds. *)
Definition count (os : list (bop item)) : Z := Z.of_nat (length (adds os)).
End spec.
