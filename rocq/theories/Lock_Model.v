(** Model of lock/lock.go: Numlock, Strlock and LimitLock.
    sync.Mutex is a bit, sync.RWMutex a writer bit and a reader count, a buffered channel of ints its length. *)
From stdpp Require Import gmap.
From Coq Require Import ZArith.
From Verif Require Import GoInt.
Local Open Scope Z_scope.

(** What a call on Numlock or Strlock does: acquires, has to wait (the goroutine stays where it is and may try again),
    returns (nil, false), releases, or panics / is a fatal error. *)
Inductive lres := RAcquired | RBlocked | RFailed | RReleased | RPanic.

(** lock/lock.go:22-25 [Numlock]; the mutexes themselves are in the map, [true] is locked. *)
Record numlock := Numlock { lockm : gmap Z bool; muxNum : Z }.
(** lock/lock.go:30-32: the loop of the constructor. *)
Fixpoint put_all {A} (x : A) (n : nat) : gmap Z A :=
  match n with O => ∅ | S n => <[Z.of_nat n := x]> (put_all x n) end.
(** lock/lock.go:28-34 [NewNumLock]. *)
Definition NewNumLock (n : Z) : numlock := Numlock (put_all false (Z.to_nat n)) n.
(** lock/lock.go:38, 45, 55: the index of the mutex; [None] is the division by zero. *)
Definition num_index (n key : Z) : option Z :=
  if u64 n =? 0 then None else Some (i64 (u64 key mod u64 n)).
(** A call by goroutine [t] (lock/lock.go:37,44,54). *)
Inductive nev := NLock (t : nat) (key : Z) | NTryLock (t : nat) (key : Z) | NUnlock (t : nat) (key : Z).
(** lock/lock.go:37-57 [Lock], [TryLock], [Unlock]; a nil mutex and the unlock of a free mutex are fatal. *)
Definition num_step (nl : numlock) (e : nev) : lres * numlock :=
  let key := match e with NLock _ k | NTryLock _ k | NUnlock _ k => k end in
  match num_index (muxNum nl) key with
  | None => (RPanic, nl)
  | Some i =>
      match lockm nl !! i with
      | None => (RPanic, nl)
      | Some b =>
          match e, b with
          | NLock _ _, false | NTryLock _ _, false => (RAcquired, Numlock (<[i := true]> (lockm nl)) (muxNum nl))
          | NLock _ _, true => (RBlocked, nl)
          | NTryLock _ _, true => (RFailed, nl)
          | NUnlock _ _, true => (RReleased, Numlock (<[i := false]> (lockm nl)) (muxNum nl))
          | NUnlock _ _, false => (RPanic, nl)
          end
      end
  end.
(** Any interleaving of calls (lock/lock.go:37-57), with the outcome of each. *)
Fixpoint num_run (nl : numlock) (es : list nev) : list (nev * lres) * numlock :=
  match es with
  | [] => ([], nl)
  | e :: r => let '(x, nl) := num_step nl e in let '(tr, nl) := num_run nl r in ((e, x) :: tr, nl)
  end.

(** lock/lock.go:60-63 [Strlock]: every RWMutex is (write-locked, number of readers). *)
Record strlock := Strlock { slockm : gmap Z (bool * Z); smuxNum : Z }.
(** lock/lock.go:66-72 [NewStrlock]. *)
Definition NewStrlock (n : Z) : strlock := Strlock (put_all (false, 0) (Z.to_nat n)) n.
Section str.
Context {key : Type} (h : key -> Z).
(** lock/lock.go:76-77 and likewise; [h] is util.Hash64. *)
Definition str_index (n : Z) (k : key) : option Z :=
  if u64 n =? 0 then None else Some (i64 (h k mod u64 n)).
(** A call by goroutine [t] (lock/lock.go:75-124); [w] says that a writer is waiting, which makes TryRLock fail and
    RLock wait (sync.RWMutex). *)
Inductive sev := SLock (t : nat) (k : key) | STryLock (t : nat) (k : key) | SUnlock (t : nat) (k : key)
  | SRLock (w : bool) (t : nat) (k : key) | STryRLock (w : bool) (t : nat) (k : key) | SRUnlock (t : nat) (k : key).
(** The key of a call (lock/lock.go:75-124). *)
Definition sev_key (e : sev) : key :=
  match e with SLock _ k | STryLock _ k | SUnlock _ k | SRLock _ _ k | STryRLock _ _ k | SRUnlock _ k => k end.
(** What sync.RWMutex does for lock/lock.go:78,86,97,104,112,123. *)
Definition rw_step (e : sev) (s : bool * Z) : lres * (bool * Z) :=
  let '(wr, rd) := s in
  match e with
  | SLock _ _ => if wr || (0 <? rd) then (RBlocked, s) else (RAcquired, (true, rd))
  | STryLock _ _ => if wr || (0 <? rd) then (RFailed, s) else (RAcquired, (true, rd))
  | SUnlock _ _ => if wr then (RReleased, (false, rd)) else (RPanic, s)
  | SRLock w _ _ => if wr || w then (RBlocked, s) else (RAcquired, (wr, rd + 1))
  | STryRLock w _ _ => if wr || w then (RFailed, s) else (RAcquired, (wr, rd + 1))
  | SRUnlock _ _ => if 0 <? rd then (RReleased, (wr, rd - 1)) else (RPanic, s)
  end.
(** lock/lock.go:75-124 [Lock], [TryLock], [Unlock], [RLock], [TryRLock], [RUnlock]. *)
Definition str_step (sl : strlock) (e : sev) : lres * strlock :=
  match str_index (smuxNum sl) (sev_key e) with
  | None => (RPanic, sl)
  | Some i =>
      match slockm sl !! i with
      | None => (RPanic, sl)
      | Some s => let '(x, s) := rw_step e s in (x, Strlock (<[i := s]> (slockm sl)) (smuxNum sl))
      end
  end.
(** Any interleaving of calls (lock/lock.go:75-124). *)
Fixpoint str_run (sl : strlock) (es : list sev) : list (sev * lres) * strlock :=
  match es with
  | [] => ([], sl)
  | e :: r => let '(x, sl) := str_step sl e in let '(tr, sl) := str_run sl r in ((e, x) :: tr, sl)
  end.
End str.
Arguments sev : clear implicits.

(** *** LimitLock, goroutine by goroutine. *)
(** A call (lock/lock.go:142-167). *)
Inductive llcall := CLock | CUnlock | CCc | CLockCount.
(** What a call returned: Lock's nil or timeout, Unlock, and the numbers of Cc and LockCount. *)
Inductive llret := LLOk | LLTimeout | LLUnlocked | LLCc (n : Z) | LLCount (n : Z).
(** Where a goroutine is: between calls, after the send of line 146, after the receive of line 154,
    or after the first load of line 160. *)
Inductive llpc := LIdle | LSent | LRecv | LCc (c : Z).
(** A goroutine: the calls it is still to make, its position and what its calls returned (latest first). *)
Record llthread := LLTh { ltodo : list llcall; lpc : llpc; llog : list llret }.
(** lock/lock.go:127-132 [LimitLock]: the channel's length and capacity, the two counters; and the goroutines. *)
Record llconf := LLConf { chlen : Z; chcap : Z; lcount : Z; lrel : Z; lths : list llthread }.
(** lock/lock.go:135-138 [NewLimitLock] (limit >= 0, make panics otherwise). *)
Definition ll_init (limit : Z) (progs : list (list llcall)) : llconf :=
  LLConf 0 limit 0 0 ((fun p => LLTh p LIdle []) <$> progs).
(** What the scheduler picks: goroutine [t] steps; at the select of line 143, [tmo] lets the timer win;
    [LRdv t t'] is the rendezvous of a Lock and an Unlock on a channel without buffer. *)
Inductive llact := LStep (t : nat) (tmo : bool) | LRdv (t t' : nat).
(** lock/lock.go:141-167: one step. *)
Definition ll_step (c : llconf) (a : llact) : llconf :=
  match a with
  | LStep t tmo =>
      match lths c !! t with
      | None => c
      | Some th =>
          let set len n r th := LLConf len (chcap c) n r (<[t := th]> (lths c)) in
          match lpc th with
          | LIdle =>
              match ltodo th with
              | [] => c
              | CLock :: r =>
                  if tmo then set (chlen c) (lcount c) (lrel c) (LLTh r LIdle (LLTimeout :: llog th))
                  else if chlen c <? chcap c then set (chlen c + 1) (lcount c) (lrel c) (LLTh r LSent (llog th))
                  else c
              | CUnlock :: r =>
                  if 0 <? chlen c then set (chlen c - 1) (lcount c) (lrel c) (LLTh r LRecv (llog th)) else c
              | CCc :: r => set (chlen c) (lcount c) (lrel c) (LLTh r (LCc (lcount c)) (llog th))
              | CLockCount :: r => set (chlen c) (lcount c) (lrel c) (LLTh r LIdle (LLCount (lcount c) :: llog th))
              end
          | LSent => set (chlen c) (i64 (lcount c + 1)) (lrel c) (LLTh (ltodo th) LIdle (LLOk :: llog th))
          | LRecv => set (chlen c) (lcount c) (i64 (lrel c + 1)) (LLTh (ltodo th) LIdle (LLUnlocked :: llog th))
          | LCc n => set (chlen c) (lcount c) (lrel c) (LLTh (ltodo th) LIdle (LLCc (i64 (n - lrel c)) :: llog th))
          end
      end
  | LRdv t t' =>
      match lths c !! t, lths c !! t' with
      | Some (LLTh (CLock :: r) LIdle lg), Some (LLTh (CUnlock :: r') LIdle lg') =>
          if (chcap c =? 0) && negb (Nat.eqb t t')
          then LLConf (chlen c) (chcap c) (lcount c) (lrel c) (<[t' := LLTh r' LRecv lg']> (<[t := LLTh r LSent lg]> (lths c)))
          else c
      | _, _ => c
      end
  end.
(** Any interleaving (lock/lock.go:141-167). *)
Definition ll_run (c : llconf) (sched : list llact) : llconf := foldl ll_step c sched.
