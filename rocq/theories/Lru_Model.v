(** Model of cache/lrucache.go (bodies executed under lc.lock) with the parts of
    github.com/golang/groupcache/lru it calls, over the pointer-level container/list.
    The library source is not in /repo; its methods are modelled from its published source.
    Keys are non-nil interface values with decidable equality; [None] is the nil key. *)
From stdpp Require Import gmap.
From Coq Require Import ZArith.
From Verif Require Import GoList_Model.
Local Open Scope Z_scope.

Section lru.
Context {K V : Type} `{Countable K}.

(** lru.Cache, created at cache/lrucache.go:21-23. *)
Record lru := Lru { MaxEntries : Z; ll : dlist (K * V); cache : gmap K nat }.

(** cache/lrucache.go:21-23 [NewLruCache]. *)
Definition NewLruCache (max : Z) : lru := Lru max list_New ∅.

(** lru.Cache.removeElement / RemoveOldest, reached from cache/lrucache.go:62. *)
Definition RemoveOldest (c : lru) : lru :=
  match list_Back (ll c) with
  | Some e =>
      let l := list_Remove e (ll c) in
      Lru (MaxEntries c) l (match vals l !! e with Some (k, _) => delete k (cache c) | None => cache c end)
  | None => c
  end.

(** cache/lrucache.go:55-63 [Add] (a nil key is ignored) and lru.Cache.Add. *)
Definition Add (key : option K) (v : V) (c : lru) : lru :=
  match key with
  | None => c
  | Some k =>
      match cache c !! k with
      | Some ee => Lru (MaxEntries c) (set_value ee (k, v) (list_MoveToFront ee (ll c))) (cache c)
      | None =>
          let '(ele, l) := list_PushFront (k, v) (ll c) in
          let c1 := Lru (MaxEntries c) l (<[k := ele]> (cache c)) in
          if negb (MaxEntries c =? 0) && (MaxEntries c <? list_Len l) then RemoveOldest c1 else c1
      end
  end.

(** cache/lrucache.go:25-36 [Get] and lru.Cache.Get; a stored nil value is returned as (zero, true). *)
Definition Get (key : option K) (c : lru) : option V * lru :=
  match key with
  | None => (None, c)
  | Some k =>
      match cache c !! k with
      | Some ele => let l := list_MoveToFront ele (ll c) in
                    (option_map snd (vals l !! ele), Lru (MaxEntries c) l (cache c))
      | None => (None, c)
      end
  end.

(** cache/lrucache.go:38-43 [Remove] and lru.Cache.Remove. *)
Definition Remove (key : option K) (c : lru) : lru :=
  match key with
  | None => c
  | Some k =>
      match cache c !! k with
      | Some ele =>
          let l := list_Remove ele (ll c) in
          Lru (MaxEntries c) l (match vals l !! ele with Some (k', _) => delete k' (cache c) | None => cache c end)
      | None => c
      end
  end.

(** cache/lrucache.go:45-53 [RemoveMulti]. *)
Definition RemoveMulti (keys : list K) (c : lru) : lru := fold_left (fun c k => Remove (Some k) c) keys c.

(** A call of a method of cache/lrucache.go:25-63. *)
Inductive rop := RAdd (k : option K) (v : V) | RGet (k : option K) | RRemove (k : option K) | RRemoveMulti (ks : list K).

(** cache/lrucache.go:25-63, one call; only Get returns something ([None] inside is b = false). *)
Definition rstep (c : lru) (o : rop) : option (option V) * lru :=
  match o with
  | RAdd k v => (None, Add k v c)
  | RGet k => let '(r, c') := Get k c in (Some r, c')
  | RRemove k => (None, Remove k c)
  | RRemoveMulti ks => (None, RemoveMulti ks c)
  end.

(** A history of calls of cache/lrucache.go:25-63. *)
Fixpoint rrun (c : lru) (os : list rop) : list (option (option V)) * lru :=
  match os with
  | [] => ([], c)
  | o :: r => let '(x, c1) := rstep c o in let '(xs, c2) := rrun c1 r in (x :: xs, c2)
  end.
End lru.
Arguments lru : clear implicits. Arguments lru _ _ {_ _}. Arguments rop : clear implicits.
