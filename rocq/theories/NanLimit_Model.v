(** hashmap.LimitMap with NaN among the keys.

    The elements of the list are numbered in the order they were made; the list is that of their numbers.  An element taken out of the list keeps its Value, as in container/list.  Each method is one step: it holds the lock (C17 has the list pointer by pointer). *)
From Coq Require Import ZArith List Bool Arith.
From Verif Require Import NanMap_Model.
Import ListNotations.

Section limit.
Context {K V : Type} (same : K -> K -> bool) (zero : V) (capacity : Z).
(** hashmap/limitmap.go:20-25 [LimitMap]: the map from keys to elements, the elements made so far, the list with the newest first. *)
Record lmap := MkLMap { cache : list (K * nat); elems : list (K * V); order : list nat }.
(** hashmap/limitmap.go:28-34 [NewLimitMap]. *)
Definition NewLimitMap : lmap := MkLMap [] [] [].
(** list.Remove: nothing happens to an element that is not in the list (container/list; hashmap/limitmap.go:59,75). *)
Definition unlink (e : nat) (l : list nat) : list nat := filter (fun x => negb (x =? e)%nat) l.
(** list.MoveToFront: nothing happens to an element that is not in the list (container/list; hashmap/limitmap.go:53). *)
Definition to_front (e : nat) (l : list nat) : list nat := if existsb (Nat.eqb e) l then e :: unlink e l else l.
(** The value of an element is exchanged (hashmap/limitmap.go:52). *)
Fixpoint set_value (l : list (K * V)) (e : nat) (v : V) : list (K * V) :=
  match l, e with
  | [], _ => []
  | (k, _) :: r, O => (k, v) :: r
  | x :: r, S e => x :: set_value r e v
  end.
(** hashmap/limitmap.go:37-44 [Get]. *)
Definition Get (m : lmap) (k : K) : V * bool :=
  match load same k (cache m) with
  | Some e => match nth_error (elems m) e with Some (_, v) => (v, true) | None => (zero, false) end
  | None => (zero, false)
  end.
(** hashmap/limitmap.go:56-62: the oldest element leaves when there are more than [capacity] keys. *)
Definition make_room (m : lmap) : lmap :=
  if (capacity <? Z.of_nat (length (cache m)))%Z then
    match rev (order m) with
    | [] => m
    | e :: _ => MkLMap (match nth_error (elems m) e with Some (k, _) => remove same k (cache m) | None => cache m end) (elems m) (unlink e (order m))
    end
  else m.
(** hashmap/limitmap.go:47-67 [Put], what it leaves. *)
Definition Put (m : lmap) (k : K) (v : V) : lmap :=
  match load same k (cache m) with
  | Some e => MkLMap (cache m) (set_value (elems m) e v) (to_front e (order m))
  | None => let m := make_room m in let e := length (elems m) in MkLMap (store same k e (cache m)) (elems m ++ [(k, v)]) (e :: order m)
  end.
(** hashmap/limitmap.go:70-78 [Del]. *)
Definition Del (m : lmap) (k : K) : lmap :=
  match load same k (cache m) with
  | Some e => MkLMap (remove same k (cache m)) (elems m) (unlink e (order m))
  | None => m
  end.
(** hashmap/limitmap.go:94-98 [Len]. *)
Definition Len (m : lmap) : Z := Z.of_nat (length (cache m)).
(** A call that changes the map (hashmap/limitmap.go:47-78). *)
Inductive call := CPut (k : K) (v : V) | CDel (k : K).
(** What a call leaves (hashmap/limitmap.go:47-78). *)
Definition step (m : lmap) (c : call) : lmap := match c with CPut k v => Put m k v | CDel k => Del m k end.
(** Calls on a new map (hashmap/limitmap.go:28-78). *)
Definition lrun (cs : list call) : lmap := fold_left step cs NewLimitMap.
End limit.
