(** Goroutines calling the methods of an object whose parts are each protected by a sync.RWMutex or a sync.Mutex: hashmap/limitmap.go, hashmap/treemap.go,
    hashmap/linkedhashmap.go, hashmap/limithashmap.go and cache/lrucache.go.

    A method is a sequence of critical sections; what happens in one is a sequence of atomic steps, between which any other goroutine may run.  The lock is
    modelled from the documentation of sync: Lock waits until nobody holds it, RLock until nobody holds it for writing (that a waiting writer holds
    off new readers only rules out schedules).  Memory is sequentially consistent. *)
From stdpp Require Import list.
From Coq Require Import ZArith.

Section lin.
Context {St Op Res : Type}.

(** What is left to do of a method (all methods of the files named above): return, look at part [i] without the lock, or enter a critical section of lock [i],
    for writing if [x]; in a section: an atomic step, the rest being chosen by the state before it, or the unlock that defer does. *)
Inductive code :=
| Fin (r : Res)
| Peek (i : nat) (k : St -> code)
| Enter (i : nat) (x : bool) (p : inner)
with inner :=
| Leave (c : code)
| Act (f : St -> St) (k : St -> inner).

(** The critical section run on its own (the files named above). *)
Fixpoint exec (p : inner) (s : St) : code * St :=
  match p with
  | Leave c => (c, s)
  | Act f k => exec (k s) (f s)
  end.

(** Observable: a call by a goroutine (its number, and how many calls it made before) and its return (the files named above). *)
Definition id : Type := nat * nat.
Inductive event := Call (i : id) (o : Op) | Return (i : id) (r : Res).

(** A goroutine: calls still to be made, how many returned, where it is. *)
Inductive pc := Idle | At (o : Op) (c : code) | In (o : Op) (i : nat) (x : bool) (p : inner).
Record thread := Thr { todo : list Op; calls : nat; at_ : pc }.
(** A sync.RWMutex or sync.Mutex (hashmap/limitmap.go:24, hashmap/treemap.go:28, hashmap/linkedhashmap.go:20, hashmap/limithashmap.go:22, cache/lrucache.go:18). *)
Record rwmutex := Rw { writer : bool; readers : nat }.
Record cfg := Cfg { threads : list thread; mem : nat -> St; lk : nat -> rwmutex; hist : list event }.

(** Assignment to one of the parts (the segments of hashmap/limithashmap.go:28). *)
Definition upd {A} (f : nat -> A) (i : nat) (a : A) : nat -> A := fun j => if Nat.eqb j i then a else f j.

Context (body : Op -> code).
(** The next step of goroutine [t] (the files named above); none if it waits for a lock or has nothing to do. *)
Definition lstep1 (g : cfg) (t : nat) : cfg :=
  match threads g !! t with
  | None => g
  | Some (Thr td n c) =>
      let to td' n' c' := <[t := Thr td' n' c']> (threads g) in
      match c with
      | Idle => match td with
                | [] => g
                | o :: r => Cfg (to r n (At o (body o))) (mem g) (lk g) (hist g ++ [Call (t, n) o])
                end
      | At o (Fin r) => Cfg (to td (S n) Idle) (mem g) (lk g) (hist g ++ [Return (t, n) r])
      | At o (Peek i k) => Cfg (to td n (At o (k (mem g i)))) (mem g) (lk g) (hist g)
      | At o (Enter i true p) =>
          if negb (writer (lk g i)) && Nat.eqb (readers (lk g i)) 0 then Cfg (to td n (In o i true p)) (mem g) (upd (lk g) i (Rw true 0)) (hist g) else g
      | At o (Enter i false p) =>
          if negb (writer (lk g i)) then Cfg (to td n (In o i false p)) (mem g) (upd (lk g) i (Rw false (S (readers (lk g i))))) (hist g) else g
      | In o i x p =>
          match p with
          | Act f k => Cfg (to td n (In o i x (k (mem g i)))) (upd (mem g) i (f (mem g i))) (lk g) (hist g)
          | Leave c => let w := lk g i in
              Cfg (to td n (At o c)) (mem g) (upd (lk g) i (if x then Rw false (readers w) else Rw (writer w) (pred (readers w)))) (hist g)
          end
      end
  end.
(** Goroutines with these calls to make, on a new object. *)
Definition linit (s0 : nat -> St) (ops : list (list Op)) : cfg := Cfg ((fun os => Thr os 0 Idle) <$> ops) s0 (fun _ => Rw false 0) [].
(** Any schedule. *)
Definition lexec (s0 : nat -> St) (ops : list (list Op)) (sched : list nat) : cfg := foldl lstep1 (linit s0 ops) sched.
End lin.
Arguments code : clear implicits. Arguments inner : clear implicits. Arguments event : clear implicits. Arguments pc : clear implicits.
Arguments thread : clear implicits. Arguments cfg : clear implicits.
