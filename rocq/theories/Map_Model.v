(** Model of hashmap/map.go: Map and MapL over sync.Map, taken as an atomic finite map.
    [is_nil v] says that [any(v)] is the nil interface; [zero] is the zero value of V. *)
From stdpp Require Import gmap.
From Coq Require Import ZArith.
From Verif Require Import GoInt.
Local Open Scope Z_scope.

Section map.
Context {K V : Type} `{Countable K} (is_nil : V -> bool) (zero : V).

(** A call of a method of hashmap/map.go:28-57 and 87-112, and its result. *)
Inductive mop := MPut (k : K) (v : V) | MGet (k : K) | MHas (k : K) | MDel (k : K).
Inductive mres := MPair (v : V) (b : bool) | MBool (b : bool).

(** hashmap/map.go:87-112 [Map.Put, Get, Has, Del]; also lines 28-57 without the counter. *)
Definition map_step (m : gmap K V) (o : mop) : mres * gmap K V :=
  match o with
  | MPut k v =>
      (match m !! k with
       | Some p => if is_nil p then MPair zero false else MPair p true
       | None => MPair zero false
       end, <[k := v]> m)
  | MGet k =>
      (match m !! k with
       | Some e => MPair (if is_nil e then zero else e) true
       | None => MPair zero false
       end, m)
  | MHas k => (MBool (match m !! k with Some _ => true | None => false end), m)
  | MDel k => (MBool (match m !! k with Some _ => true | None => false end), delete k m)
  end.

(** hashmap/map.go:78-112, a history on a new Map. *)
Fixpoint map_run (m : gmap K V) (os : list mop) : list mres * gmap K V :=
  match os with
  | [] => ([], m)
  | o :: r => let '(x, m1) := map_step m o in let '(xs, m2) := map_run m1 r in (x :: xs, m2)
  end.

(** hashmap/map.go:59-71 and 114-126 [Range]: [l] is the enumeration sync.Map.Range chooses;
    the result is what the callback is called with, up to and including the first [false]. *)
Fixpoint range_visit (f : K -> V -> bool) (l : list (K * V)) : list (K * V) :=
  match l with
  | [] => []
  | (k, v) :: r =>
      let v := if is_nil v then zero else v in
      (k, v) :: (if f k v then range_visit f r else [])
  end.

(** MapL under concurrency: every goroutine runs its own list of Put and Del calls.
    [pend] is the addend of the atomic.AddInt64 that the current call has still to do (hashmap/map.go:30,54);
    0 means that the goroutine is between two calls. *)
Record mthread := MTh { todo : list mop; pend : Z }.
(** hashmap/map.go:17-20 with the goroutines that use it. *)
Record mconf := MConf { mm : gmap K V; len : Z; ths : list mthread }.

(** hashmap/map.go:29 and 53: the sync.Map step of a call; the addend it leaves to be done. *)
Definition mapl_first (m : gmap K V) (o : mop) : Z :=
  match o with
  | MPut k _ => match m !! k with Some _ => 0 | None => 1 end
  | MDel k => match m !! k with Some _ => -1 | None => 0 end
  | _ => 0
  end.

(** hashmap/map.go:28-57: goroutine [i] does its next atomic step. *)
Definition mapl_step (i : nat) (c : mconf) : mconf :=
  match ths c !! i with
  | None => c
  | Some th =>
      if pend th =? 0 then
        match todo th with
        | [] => c
        | o :: r => MConf (map_step (mm c) o).2 (len c) (<[i := MTh r (mapl_first (mm c) o)]> (ths c))
        end
      else MConf (mm c) (i64 (len c + pend th)) (<[i := MTh (todo th) 0]> (ths c))
  end.

(** hashmap/map.go:22-26 [NewMapL] and goroutines about to run the given calls. *)
Definition mapl_init (progs : list (list mop)) : mconf := MConf ∅ 0 (map (fun p => MTh p 0) progs).

(** Any interleaving (hashmap/map.go:28-57). *)
Definition mapl_exec (sched : list nat) (c : mconf) : mconf := fold_left (fun c i => mapl_step i c) sched c.

(** hashmap/map.go:73-75 [MapL.Len]. *)
Definition mapl_Len (c : mconf) : Z := len c.
End map.
Arguments mop : clear implicits. Arguments mres : clear implicits.
Arguments mconf : clear implicits. Arguments mconf _ _ {_ _}. Arguments mthread : clear implicits.
