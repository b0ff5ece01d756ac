(** Model of hashmap/linkedhashmap.go (the body of each method, executed under t.mu).
    The sync.Map [t.m] is a finite map from keys to element pointers; its values are never nil.
    [count] is unbounded here; it is an int64 in Go and would need 2^63 live entries to overflow. *)
From stdpp Require Import gmap.
From Coq Require Import ZArith.
From Verif Require Import GoList_Model.
Local Open Scope Z_scope.

Section linked.
Context {K V : Type} `{Countable K}.

(** hashmap/linkedhashmap.go:15-21 (without the mutex) and 32-35 ([entrykv] is the pair). *)
Record lhm := LHM {
  m : gmap K nat;
  lst : dlist (K * V);
  limit : Z;
  count : Z
}.

(** hashmap/linkedhashmap.go:23-30 [NewLinkedHashMap]. *)
Definition NewLinkedHashMap (lim : Z) : lhm := LHM ∅ list_New lim 0.

(** hashmap/linkedhashmap.go:41-53 and 60-76, the part shared by Put and LoadOrStore: push, swap,
    then either evict the oldest or unlink the previous element, which is also returned. *)
Definition put_body (k : K) (v : V) (t : lhm) : option nat * lhm :=
  let '(elem, l) := list_PushFront (k, v) (lst t) in
  let pre := m t !! k in
  let m1 := <[k := elem]> (m t) in
  match pre with
  | None =>
      let c := count t + 1 in
      if limit t <? c then
        match list_Back l with
        | Some oldest =>
            let l := list_Remove oldest l in
            let m2 := match vals l !! oldest with
                      | Some (ko, _) => delete ko m1
                      | None => m1
                      end in
            (None, LHM m2 l (limit t) (c - 1))
        | None => (None, LHM m1 l (limit t) (c - 1))
        end
      else (None, LHM m1 l (limit t) c)
  | Some preelem => (Some preelem, LHM m1 (list_Remove preelem l) (limit t) (count t))
  end.

(** hashmap/linkedhashmap.go:37-54 [Put]. *)
Definition Put (k : K) (v : V) (t : lhm) : lhm := snd (put_body k v t).

(** hashmap/linkedhashmap.go:56-78 [LoadOrStore]; [None] is [loaded = false]. *)
Definition LoadOrStore (k : K) (v : V) (t : lhm) : option V * lhm :=
  let '(pre, t') := put_body k v t in
  (match pre with Some e => option_map snd (vals (lst t') !! e) | None => None end, t').

(** hashmap/linkedhashmap.go:80-90 [Get]; [None] is [b = false]. *)
Definition Get (k : K) (t : lhm) : option V :=
  match m t !! k with
  | Some e => option_map snd (vals (lst t) !! e)
  | None => None
  end.

(** hashmap/linkedhashmap.go:92-100 [Delete]. *)
Definition Delete (k : K) (t : lhm) : lhm :=
  match m t !! k with
  | Some e => LHM (delete k (m t)) (list_Remove e (lst t)) (limit t) (count t - 1)
  | None => t
  end.

(** hashmap/linkedhashmap.go:102-112 [Back]. *)
Definition Back (t : lhm) : option (K * V) :=
  match list_Back (lst t) with Some e => vals (lst t) !! e | None => None end.

(** hashmap/linkedhashmap.go:114-125 [Front]. *)
Definition Front (t : lhm) : option (K * V) :=
  match list_Front (lst t) with Some e => vals (lst t) !! e | None => None end.

(** hashmap/linkedhashmap.go:127-134 [Clear]. *)
Definition Clear (t : lhm) : lhm := LHM ∅ (list_Init (lst t)) (limit t) 0.

(** hashmap/linkedhashmap.go:136-140 [Len]. *)
Definition Len (t : lhm) : Z := count t.

(** hashmap/linkedhashmap.go:142-148 [MoveToFront]. *)
Definition MoveToFront (k : K) (t : lhm) : lhm :=
  match m t !! k with
  | Some e => LHM (m t) (list_MoveToFront e (lst t)) (limit t) (count t)
  | None => t
  end.

(** hashmap/linkedhashmap.go:150-154 [LinkedHashMapIterator] (mapRef is the map passed to [Next]). *)
Record iter := Iter { current : option nat; front : bool }.

(** hashmap/linkedhashmap.go:174-184 [Iterator]. *)
Definition Iterator (fr : bool) (t : lhm) : iter :=
  Iter (if fr then list_Front (lst t) else list_Back (lst t)) fr.

(** hashmap/linkedhashmap.go:156-172 [Next]; [None] is [ok = false]. *)
Definition Next (t : lhm) (it : iter) : option (K * V) * iter :=
  match current it with
  | Some e =>
      (vals (lst t) !! e,
       Iter (if front it then elem_Next (lst t) e else elem_Prev (lst t) e) (front it))
  | None => (None, it)
  end.

(** A call of the public API (the methods of hashmap/linkedhashmap.go:37-148) and its observable result. *)
Inductive op := OPut (k : K) (v : V) | OLoadOrStore (k : K) (v : V) | OGet (k : K) | ODelete (k : K)
  | OBack | OFront | OClear | OLen | OMoveToFront (k : K).
Inductive res := RUnit | RVal (r : option V) | RPair (r : option (K * V)) | RLen (n : Z).

(** One call of a method of hashmap/linkedhashmap.go:37-148 (dispatch to the methods above). *)
Definition step (t : lhm) (o : op) : res * lhm :=
  match o with
  | OPut k v => (RUnit, Put k v t)
  | OLoadOrStore k v => let '(r, t') := LoadOrStore k v t in (RVal r, t')
  | OGet k => (RVal (Get k t), t)
  | ODelete k => (RUnit, Delete k t)
  | OBack => (RPair (Back t), t)
  | OFront => (RPair (Front t), t)
  | OClear => (RUnit, Clear t)
  | OLen => (RLen (Len t), t)
  | OMoveToFront k => (RUnit, MoveToFront k t)
  end.

(** A history of calls of hashmap/linkedhashmap.go:37-148: the results in order and the final state. *)
Fixpoint run (t : lhm) (os : list op) : list res * lhm :=
  match os with
  | [] => ([], t)
  | o :: r => let '(x, t1) := step t o in let '(xs, t2) := run t1 r in (x :: xs, t2)
  end.

End linked.
Arguments lhm : clear implicits. Arguments lhm _ _ {_ _}.
Arguments op : clear implicits. Arguments res : clear implicits.

(** Atomic effects of one Put, as seen by the lock-free Get. *)
Section micro.
Context {K V : Type} `{Countable K}.

(** Control points inside [Put], hashmap/linkedhashmap.go:37-54. *)
Inductive ppc :=
| P41                       (* before PushFront, line 41 *)
| P42 (elem : nat)          (* before Swap, line 42 *)
| P43 (pre : option nat)    (* after Swap, before lines 43-52 *)
| P47 (oldest : nat)        (* after list.Remove(oldest), before LoadAndDelete, line 47 *)
| PRet.

(** hashmap/linkedhashmap.go:37-54, one shared-memory effect per step: line 41; the Swap of line 42;
    lines 43-46 or 51-52 (only the list and the counter, which Get does not read, change here);
    lines 47-49. *)
Definition put_step (k : K) (v : V) (c : ppc * lhm K V) : ppc * lhm K V :=
  let '(pc, t) := c in
  match pc with
  | P41 => let '(elem, l) := list_PushFront (k, v) (lst t) in (P42 elem, LHM (m t) l (limit t) (count t))
  | P42 elem => (P43 (m t !! k), LHM (<[k := elem]> (m t)) (lst t) (limit t) (count t))
  | P43 None =>
      let c := count t + 1 in
      if limit t <? c then
        match list_Back (lst t) with
        | Some oldest => (P47 oldest, LHM (m t) (list_Remove oldest (lst t)) (limit t) c)
        | None => (PRet, LHM (m t) (lst t) (limit t) (c - 1))
        end
      else (PRet, LHM (m t) (lst t) (limit t) c)
  | P43 (Some preelem) => (PRet, LHM (m t) (list_Remove preelem (lst t)) (limit t) (count t))
  | P47 oldest =>
      (PRet, LHM (match vals (lst t) !! oldest with Some (ko, _) => delete ko (m t) | None => m t end)
                 (lst t) (limit t) (count t - 1))
  | PRet => c
  end.

(** The state after the first [n] effects of Put(k, v) (hashmap/linkedhashmap.go:37-54) on [t]. *)
Definition put_after (n : nat) (k : K) (v : V) (t : lhm K V) : ppc * lhm K V :=
  Nat.iter n (put_step k v) (P41, t).
End micro.

(** Driving an iterator: [n] calls of Next, the map being left alone. *)
Section drive.
Context {K V : Type} `{Countable K}.

(** [n] calls of hashmap/linkedhashmap.go:156-172 in a row. *)
Fixpoint nexts (n : nat) (t : lhm K V) (it : iter) : list (option (K * V)) * iter :=
  match n with
  | O => ([], it)
  | S n => let '(r, it1) := Next t it in let '(rs, it2) := nexts n t it1 in (r :: rs, it2)
  end.

(** A caller's loop: Next, then Delete of the returned key when [del] says so
    (hashmap/linkedhashmap.go:156-172 and 92-100). *)
Fixpoint visit (del : K * V -> bool) (n : nat) (t : lhm K V) (it : iter)
  : list (option (K * V)) * lhm K V :=
  match n with
  | O => ([], t)
  | S n =>
      let '(r, it1) := Next t it in
      let t1 := match r with
                | Some p => if del p then Delete p.1 t else t
                | None => t
                end in
      let '(rs, t2) := visit del n t1 it1 in (r :: rs, t2)
  end.
End drive.
