(** hashmap.MapL and hashmap.TreeMap with keys of float64, NaN among them.

    sync.Map compares keys with ==, the B-tree with <; NaN is neither equal to anything nor less or greater.  Keys here are of any type with Go's == ([same]) or < ([less]).
    Values are of types that are no interfaces, so any(v) is never nil.  One goroutine. *)
From Coq Require Import ZArith List Bool.
Import ListNotations.
Local Open Scope Z_scope.

Section mapl.
Context {K V : Type} (same : K -> K -> bool) (zero : V).
(** The entries of the sync.Map in the order they came, and the counter (hashmap/map.go:17-20). *)
Record mapl := MkMapL { entries : list (K * V); count : Z }.
(** sync.Map.Load (sync/map.go; hashmap/map.go:38,48). *)
Fixpoint load (k : K) (l : list (K * V)) : option V := match l with [] => None | (k', v) :: r => if same k' k then Some v else load k r end.
(** sync.Map.Swap: the value of the entry is exchanged, or there is a new entry (sync/map.go; hashmap/map.go:29). *)
Fixpoint store (k : K) (v : V) (l : list (K * V)) : list (K * V) := match l with [] => [(k, v)] | (k', v') :: r => if same k' k then (k', v) :: r else (k', v') :: store k v r end.
(** sync.Map.LoadAndDelete (sync/map.go; hashmap/map.go:53). *)
Fixpoint remove (k : K) (l : list (K * V)) : list (K * V) := match l with [] => [] | (k', v') :: r => if same k' k then r else (k', v') :: remove k r end.
(** A call (hashmap/map.go:28-57). *)
Inductive op := Put (k : K) (v : V) | Get (k : K) | Has (k : K) | Del (k : K).
(** hashmap/map.go:28-35 [Put]. *)
Definition put (m : mapl) (k : K) (v : V) : mapl * (V * bool) :=
  match load k (entries m) with
  | None => (MkMapL (store k v (entries m)) (count m + 1), (zero, false))
  | Some p => (MkMapL (store k v (entries m)) (count m), (p, true))
  end.
(** hashmap/map.go:37-45 [Get]. *)
Definition get (m : mapl) (k : K) : V * bool := match load k (entries m) with Some v => (v, true) | None => (zero, false) end.
(** hashmap/map.go:47-50 [Has]. *)
Definition has (m : mapl) (k : K) : bool := match load k (entries m) with Some _ => true | None => false end.
(** hashmap/map.go:52-57 [Del]. *)
Definition del (m : mapl) (k : K) : mapl * bool :=
  match load k (entries m) with
  | Some _ => (MkMapL (remove k (entries m)) (count m - 1), true)
  | None => (m, false)
  end.
(** hashmap/map.go:73-75 [Len]. *)
Definition len (m : mapl) : Z := count m.
(** What a call leaves (hashmap/map.go:28-57). *)
Definition after (m : mapl) (o : op) : mapl := match o with Put k v => fst (put m k v) | Del k => fst (del m k) | _ => m end.
(** hashmap/map.go:24-26 [NewMapL], and calls on it. *)
Definition run (os : list op) : mapl := fold_left after os (MkMapL [] 0).
End mapl.

Section tree.
Context {K V : Type} (less : K -> K -> bool).
(** sort.Search between [i] and [j]; [n] is as large as j - i or larger (sort/search.go; google/btree btree.go, items.find; hashmap/treemap.go:40,50,62). *)
Fixpoint search (n : nat) (f : nat -> bool) (i j : nat) : nat :=
  match n with
  | O => i
  | S n => if (i <? j)%nat then let h := Nat.div2 (i + j) in if f h then search n f i h else search n f (S h) j else i
  end.
(** items.find (google/btree btree.go; hashmap/treemap.go:40,50,62). *)
Definition find (k : K) (l : list (K * V)) : nat * bool :=
  let i := search (length l) (fun j => match nth_error l j with Some (k', _) => less k k' | None => true end) 0 (length l) in
  match i with
  | O => (O, false)
  | S p => match nth_error l p with Some (k', _) => if less k' k then (i, false) else (p, true) | None => (i, false) end
  end.
(** The tree while it is one node, of at most 2 * degree - 1 items; [None] when it would split (google/btree btree.go, ReplaceOrInsert, insert; hashmap/treemap.go:37-44 [Put]). *)
Definition tput (degree : nat) (l : list (K * V)) (k : K) (v : V) : option (list (K * V) * option V) :=
  if (2 * degree - 1 <=? length l)%nat then None
  else let '(i, found) := find k l in
    if found then Some (firstn i l ++ (k, v) :: skipn (S i) l, option_map snd (nth_error l i)) else Some (firstn i l ++ (k, v) :: skipn i l, None).
(** google/btree btree.go, get; hashmap/treemap.go:47-56 [Get], [None] for not found. *)
Definition tget (l : list (K * V)) (k : K) : option V := let '(i, found) := find k l in if found then option_map snd (nth_error l i) else None.
(** google/btree btree.go, remove on a node without children; hashmap/treemap.go:59-63 [Del]. *)
Definition tdel (l : list (K * V)) (k : K) : list (K * V) := let '(i, found) := find k l in if found then firstn i l ++ skipn (S i) l else l.
End tree.
