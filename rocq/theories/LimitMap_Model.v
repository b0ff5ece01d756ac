(** Model of hashmap/limitmap.go (the body of each method, executed under mc.lock).
    Simplified: key equality is decidable and reflexive (no NaN keys, no unhashable dynamic key types);
    Len is an unbounded integer (Go int). *)
From stdpp Require Import gmap.
From Coq Require Import ZArith.
From Verif Require Import GoList_Model.
Local Open Scope Z_scope.

Section limitmap.
Context {K V : Type} `{Countable K}.

(** hashmap/limitmap.go:14-25 (without the lock); an entry is the pair (key, value). *)
Record lmap := LMap { cache : gmap K nat; order : dlist (K * V); capacity : Z }.

(** hashmap/limitmap.go:27-34 [NewLimitMap]. *)
Definition NewLimitMap (cap : Z) : lmap := LMap ∅ list_New cap.

(** hashmap/limitmap.go:36-44 [Get]; [None] is ok = false. *)
Definition Get (key : K) (mc : lmap) : option V :=
  match cache mc !! key with
  | Some elem => option_map snd (vals (order mc) !! elem)
  | None => None
  end.

(** hashmap/limitmap.go:94-98 [Len]; also the [len(mc.cache)] of line 56. *)
Definition Len (mc : lmap) : Z := Z.of_nat (size (cache mc)).

(** hashmap/limitmap.go:46-67 [Put]; the returned [None] is b = false.
    The in-place update of line 52 writes through the entry pointer held by the element. *)
Definition Put (key : K) (value : V) (mc : lmap) : option V * lmap :=
  match cache mc !! key with
  | Some elem =>
      let prev := option_map snd (vals (order mc) !! elem) in
      let l := set_value elem (key, value) (order mc) in
      (prev, LMap (cache mc) (list_MoveToFront elem l) (capacity mc))
  | None =>
      let mc1 :=
        if capacity mc <? Len mc then
          match list_Back (order mc) with
          | Some oldest =>
              let l := list_Remove oldest (order mc) in
              match vals l !! oldest with
              | Some (ko, _) => LMap (delete ko (cache mc)) l (capacity mc)
              | None => LMap (cache mc) l (capacity mc)
              end
          | None => mc
          end
        else mc in
      let '(elem, l) := list_PushFront (key, value) (order mc1) in
      (None, LMap (<[key := elem]> (cache mc1)) l (capacity mc1))
  end.

(** hashmap/limitmap.go:69-78 [Del]. *)
Definition Del (key : K) (mc : lmap) : lmap :=
  match cache mc !! key with
  | Some elem => LMap (delete key (cache mc)) (list_Remove elem (order mc)) (capacity mc)
  | None => mc
  end.

(** hashmap/limitmap.go:80-91 [RemoveMulti]; the loop body is that of Del. *)
Definition RemoveMulti (keys : list K) (mc : lmap) : lmap := fold_left (fun mc key => Del key mc) keys mc.

(** A call of a method of hashmap/limitmap.go:36-98 and its observable result. *)
Inductive lop := LPut (k : K) (v : V) | LGet (k : K) | LDel (k : K) | LRemoveMulti (ks : list K) | LLen.
Inductive lres := LVal (r : option V) | LUnit | LNum (n : Z).

(** One call of a method of hashmap/limitmap.go:36-98. *)
Definition lstep (mc : lmap) (o : lop) : lres * lmap :=
  match o with
  | LPut k v => let '(r, mc') := Put k v mc in (LVal r, mc')
  | LGet k => (LVal (Get k mc), mc)
  | LDel k => (LUnit, Del k mc)
  | LRemoveMulti ks => (LUnit, RemoveMulti ks mc)
  | LLen => (LNum (Len mc), mc)
  end.

(** A history of calls of hashmap/limitmap.go:36-98: the results in order and the final state. *)
Fixpoint lrun (mc : lmap) (os : list lop) : list lres * lmap :=
  match os with
  | [] => ([], mc)
  | o :: r => let '(x, mc1) := lstep mc o in let '(xs, mc2) := lrun mc1 r in (x :: xs, mc2)
  end.
End limitmap.
Arguments lmap : clear implicits. Arguments lmap _ _ {_ _}.
Arguments lop : clear implicits. Arguments lres : clear implicits.
