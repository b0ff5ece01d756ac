(** hashmap.LinkedHashMap with keys that cannot be hashed: a slice, a map or a func in a LinkedHashMap[any, V].

    A sync.Map panics on such a key whatever it holds.  The caller recovers; the deferred Unlock of the mutex has run.  The elements of the list are numbered in the order they were made (C23 has the list pointer by pointer).  One goroutine. *)
From Coq Require Import ZArith List Bool Arith.
From Verif Require Import NanMap_Model NanLimit_Model.
Import ListNotations.

Section linked.
Context {K V : Type} (same : K -> K -> bool) (hashable : K -> bool) (zero : V) (limit : Z).
(** hashmap/linkedhashmap.go:15-21 [LinkedHashMap]: the sync.Map, the elements made so far, the list with the newest first, the counter. *)
Record linked := MkLinked { table : list (K * nat); made : list (K * V); line : list nat; number : Z }.
(** hashmap/linkedhashmap.go:23-30 [NewLinkedHashMap]. *)
Definition NewLinked : linked := MkLinked [] [] [] 0.
(** hashmap/linkedhashmap.go:37-54 [Put]: what it leaves, and whether it panics.  PushFront is before Swap, Remove before LoadAndDelete. *)
Definition LPut (m : linked) (k : K) (v : V) : linked * bool :=
  let e := length (made m) in let es := made m ++ [(k, v)] in let l := e :: line m in
  if hashable k then
    match load same k (table m) with
    | Some e' => (MkLinked (store same k e (table m)) es (unlink e' l) (number m), false)
    | None =>
        let t := store same k e (table m) in
        if (limit <? number m + 1)%Z then
          match rev l with
          | [] => (MkLinked t es l (number m), false)
          | o :: _ =>
              match nth_error es o with
              | Some (ko, _) => if hashable ko then (MkLinked (remove same ko t) es (unlink o l) (number m), false) else (MkLinked t es (unlink o l) (number m + 1), true)
              | None => (MkLinked t es (unlink o l) (number m), false)
              end
          end
        else (MkLinked t es l (number m + 1), false)
    end
  else (MkLinked (table m) es l (number m), true).
(** hashmap/linkedhashmap.go:80-90 [Get]; [None] for a panic. *)
Definition LGet (m : linked) (k : K) : option (V * bool) :=
  if hashable k then
    match load same k (table m) with
    | Some e => match nth_error (made m) e with Some (_, v) => Some (v, true) | None => Some (zero, true) end
    | None => Some (zero, false)
    end
  else None.
(** hashmap/linkedhashmap.go:92-100 [Delete]. *)
Definition LDelete (m : linked) (k : K) : linked * bool :=
  if hashable k then
    match load same k (table m) with
    | Some e => (MkLinked (remove same k (table m)) (made m) (unlink e (line m)) (number m - 1), false)
    | None => (m, false)
    end
  else (m, true).
(** hashmap/linkedhashmap.go:114-125 [Front]; [None] when there is none. *)
Definition LFront (m : linked) : option (K * V) := match line m with [] => None | e :: _ => nth_error (made m) e end.
(** hashmap/linkedhashmap.go:136-140 [Len]. *)
Definition LLen (m : linked) : Z := number m.
(** A call (hashmap/linkedhashmap.go:37-100). *)
Inductive lcall := DoPut (k : K) (v : V) | DoDelete (k : K).
(** What a call leaves and whether it panics (hashmap/linkedhashmap.go:37-100). *)
Definition lstep (m : linked) (c : lcall) : linked * bool := match c with DoPut k v => LPut m k v | DoDelete k => LDelete m k end.
(** Calls on a new map, panics recovered from; whether each panicked (hashmap/linkedhashmap.go:23-100). *)
Fixpoint lcalls (m : linked) (cs : list lcall) : linked * list bool :=
  match cs with
  | [] => (m, [])
  | c :: cs => let '(m1, b) := lstep m c in let '(m2, bs) := lcalls m1 cs in (m2, b :: bs)
  end.
End linked.
