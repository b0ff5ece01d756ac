(** Pointer-level model of Go's container/list, the doubly linked ring used by
    hashmap/linkedhashmap.go, hashmap/limitmap.go, hashmap/limithashmap.go and (through
    groupcache/lru) cache/lrucache.go.

    A pointer to an element is a number, [0] is the list's sentinel [&l.root]. The fields of
    the elements are stored field-wise: [nx !! e] is [e.next] (absent = nil), [pv !! e] is
    [e.prev], [e ∈ own] means [e.list == l] (otherwise [e.list] is nil), [vals !! e] is [e.Value]. *)
From stdpp Require Import gmap.
From Coq Require Import ZArith.
Local Open Scope Z_scope.

(** container/list [List] with the elements ever created by it (fields [next], [prev], [list],
    [Value] of Element; [root], [len] of List). Used at hashmap/linkedhashmap.go:17. *)
Record dlist (E : Type) := DL {
  nx : gmap nat nat;
  pv : gmap nat nat;
  own : gset nat;
  vals : gmap nat E;
  llen : Z;
  fresh : nat      (** next unused address: allocation always yields a new pointer *)
}.
Arguments DL {E}. Arguments nx {E}. Arguments pv {E}. Arguments own {E}.
Arguments vals {E}. Arguments llen {E}. Arguments fresh {E}.

Section list.
Context {E : Type}.
Implicit Types l : dlist E.

(** list.New (hashmap/linkedhashmap.go:26, hashmap/limitmap.go:31). *)
Definition list_New : dlist E := DL {[0%nat := 0%nat]} {[0%nat := 0%nat]} ∅ ∅ 0 1.

(** (l *List).Init (hashmap/linkedhashmap.go:132, hashmap/limithashmap.go:211): resets the
    sentinel and the length; the old elements keep their links and their [list] field. *)
Definition list_Init l : dlist E :=
  DL (<[0%nat := 0%nat]> (nx l)) (<[0%nat := 0%nat]> (pv l)) (own l) (vals l) 0 (fresh l).

(** (l *List).Len (hashmap/limithashmap.go:172,220). *)
Definition list_Len l : Z := llen l.

(** (l *List).Front (hashmap/linkedhashmap.go:118,179): nil when len = 0. *)
Definition list_Front l : option nat := if llen l =? 0 then None else nx l !! 0%nat.

(** (l *List).Back (hashmap/linkedhashmap.go:45,105; hashmap/limitmap.go:57). *)
Definition list_Back l : option nat := if llen l =? 0 then None else pv l !! 0%nat.

(** (e *Element).Next / Prev (hashmap/linkedhashmap.go:163,165). *)
Definition elem_Next l (e : nat) : option nat :=
  match nx l !! e with
  | Some p => if bool_decide (e ∈ own l) && negb (bool_decide (p = 0%nat)) then Some p else None
  | None => None
  end.
Definition elem_Prev l (e : nat) : option nat :=
  match pv l !! e with
  | Some p => if bool_decide (e ∈ own l) && negb (bool_decide (p = 0%nat)) then Some p else None
  | None => None
  end.

(** Field assignments [a.next = b] and [a.prev = b]. *)
Definition set_next (a b : nat) l : dlist E := DL (<[a := b]> (nx l)) (pv l) (own l) (vals l) (llen l) (fresh l).
Definition set_prev (a b : nat) l : dlist E := DL (nx l) (<[a := b]> (pv l)) (own l) (vals l) (llen l) (fresh l).

(** (l *List).insert(e, at), container/list: [e.prev = at; e.next = at.next; e.prev.next = e;
    e.next.prev = e; e.list = l; l.len++]. A nil [at.next] would be a nil dereference; it is
    unreachable ([GoList_Proofs.dll_next_some]) and leaves the list unchanged here. *)
Definition list_insert (e at_ : nat) l : dlist E :=
  match nx l !! at_ with
  | None => l
  | Some n =>
      let l := set_prev e at_ l in
      let l := set_next e n l in
      let l := set_next at_ e l in
      let l := set_prev n e l in
      DL (nx l) (pv l) ({[e]} ∪ own l) (vals l) (llen l + 1) (fresh l)
  end.

(** (l *List).PushFront(v) (hashmap/linkedhashmap.go:41,60; hashmap/limitmap.go:64;
    hashmap/limithashmap.go:180): allocates an element and inserts it after the sentinel. *)
Definition list_PushFront (v : E) l : nat * dlist E :=
  let e := fresh l in
  let l := DL (nx l) (pv l) (own l) (<[e := v]> (vals l)) (llen l) (S e) in
  (e, list_insert e 0%nat l).

(** (l *List).remove(e): unlink, then [e.next = nil; e.prev = nil; e.list = nil; l.len--]. *)
Definition list_remove (e : nat) l : dlist E :=
  match pv l !! e, nx l !! e with
  | Some p, Some n =>
      let l := set_next p n l in
      let l := set_prev n p l in
      DL (delete e (nx l)) (delete e (pv l)) (own l ∖ {[e]}) (vals l) (llen l - 1) (fresh l)
  | _, _ => l
  end.

(** (l *List).Remove(e) (hashmap/linkedhashmap.go:46,52,96; hashmap/limitmap.go:59,75,87):
    does nothing unless [e.list == l]. *)
Definition list_Remove (e : nat) l : dlist E :=
  if bool_decide (e ∈ own l) then list_remove e l else l.

(** (l *List).move(e, at). *)
Definition list_move (e at_ : nat) l : dlist E :=
  if bool_decide (e = at_) then l else
  match pv l !! e, nx l !! e with
  | Some p, Some n =>
      let l := set_next p n l in
      let l := set_prev n p l in
      let l := set_prev e at_ l in
      match nx l !! at_ with
      | Some n2 =>
          let l := set_next e n2 l in
          let l := set_next at_ e l in
          set_prev n2 e l
      | None => l
      end
  | _, _ => l
  end.

(** (l *List).MoveToFront(e) (hashmap/linkedhashmap.go:146, hashmap/limitmap.go:53). *)
Definition list_MoveToFront (e : nat) l : dlist E :=
  if negb (bool_decide (e ∈ own l)) || bool_decide (nx l !! 0%nat = Some e) then l
  else list_move e 0%nat l.

(** Assignment through [e.Value] (hashmap/limitmap.go:52, hashmap/limithashmap.go:168). *)
Definition set_value (e : nat) (v : E) l : dlist E :=
  DL (nx l) (pv l) (own l) (<[e := v]> (vals l)) (llen l) (fresh l).

End list.
