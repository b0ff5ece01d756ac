(** Model of hashmap/treemap.go.  google/btree is external: its tree is taken as the sequence of its items in order,
    with the comparisons [Less] that ReplaceOrInsert, Get and Delete make.  [lt] is [<] of the key type. *)
From stdpp Require Import prelude.
From Coq Require Import ZArith.

Section tree.
Context {K V : Type} (lt : K -> K -> bool).

(** hashmap/treemap.go:21-23 [Less]. *)
Definition less (a b : K * V) : bool := lt a.1 b.1.

(** btree.ReplaceOrInsert as used at hashmap/treemap.go:40: the replaced item, if any. *)
Fixpoint replace_or_insert (it : K * V) (l : list (K * V)) : option (K * V) * list (K * V) :=
  match l with
  | [] => (None, [it])
  | x :: r =>
      if less it x then (None, it :: x :: r)
      else if less x it then let '(o, r') := replace_or_insert it r in (o, x :: r')
      else (Some x, it :: r)
  end.

(** btree.Get as used at hashmap/treemap.go:50; the item searched for carries only the key. *)
Fixpoint tree_get (k : K) (l : list (K * V)) : option (K * V) :=
  match l with
  | [] => None
  | x :: r => if lt k x.1 then None else if lt x.1 k then tree_get k r else Some x
  end.

(** btree.Delete as used at hashmap/treemap.go:62. *)
Fixpoint tree_delete (k : K) (l : list (K * V)) : list (K * V) :=
  match l with
  | [] => []
  | x :: r => if lt k x.1 then x :: r else if lt x.1 k then x :: tree_delete k r else r
  end.

(** Calls of hashmap/treemap.go:37-63. *)
Inductive top := TPut (k : K) (v : V) | TGet (k : K) | TDel (k : K).
(** Results: value and flag for Put and Get ([None] is the zero value with false); Del has none. *)
Inductive tres := TVal (o : option V) | TUnit.

(** hashmap/treemap.go:37-44 [Put], 47-56 [Get], 59-63 [Del]. *)
Definition tree_step (l : list (K * V)) (o : top) : tres * list (K * V) :=
  match o with
  | TPut k v => let '(p, l') := replace_or_insert (k, v) l in (TVal (snd <$> p), l')
  | TGet k => (TVal (snd <$> tree_get k l), l)
  | TDel k => (TUnit, tree_delete k l)
  end.

(** A history (hashmap/treemap.go:37-63). *)
Fixpoint tree_run (l : list (K * V)) (os : list top) : list tres * list (K * V) :=
  match os with
  | [] => ([], l)
  | o :: r => let '(x, l1) := tree_step l o in let '(xs, l2) := tree_run l1 r in (x :: xs, l2)
  end.

(** The calls of the callback in order, up to and including the first that returns false
    (btree's iterators, as used at hashmap/treemap.go:69-72 and 79-82). *)
Fixpoint visit (f : K -> V -> bool) (l : list (K * V)) : list (K * V) :=
  match l with
  | [] => []
  | (k, v) :: r => (k, v) :: (if f k v then visit f r else [])
  end.

(** hashmap/treemap.go:66-73 [Ascend]. *)
Definition ascend (f : K -> V -> bool) (l : list (K * V)) : list (K * V) := visit f l.
(** hashmap/treemap.go:76-83 [Descend]. *)
Definition descend (f : K -> V -> bool) (l : list (K * V)) : list (K * V) := visit f (rev l).

(** hashmap/treemap.go:32-34 [NewTreeMap]; btree.New panics ([None]) when the degree is at most 1. *)
Definition new_tree (degree : Z) : option (list (K * V)) := if (degree <=? 1)%Z then None else Some [].
End tree.
Arguments top : clear implicits. Arguments tres : clear implicits.
