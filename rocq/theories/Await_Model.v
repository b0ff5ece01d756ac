(** Model of lock/await.go: Await.  Channels have capacity 1.  hashmap.Map is an atomic map, the mutexes are those of
    Lock_Model.  A sleep of the retry loop is an ordinary step.  Get is modelled as part of the waits (line 30). *)
From stdpp Require Import gmap.
From Coq Require Import ZArith.
From Verif Require Import GoInt Lock_Model.
Local Open Scope Z_scope.

Section await.
Context {V : Type}.

(** A [chan T] made at lock/await.go:35: the buffered value, whether it is closed, and (for the statements only) the
    index it was made for. *)
Record chan := Chan { cbuf : option V; cclosed : bool; cidx : Z }.

(** Calls: a wait on [idx] (lock/await.go:88, 118, 142), [tmo] says that timeout > 0 and [can] that it is the
    WaitWithCancel variant; CloseAndPut with [Some v] (line 67) or Close with [None] (line 47); Has (line 42). *)
Inductive acall := AWait (idx : Z) (tmo can : bool) | AClose (idx : Z) (v : option V) | AHas (idx : Z).
(** Results.  [WGot v]: (v, nil) with a value taken from the channel; [WZero]: (zero value, nil) because the channel is
    closed; [WTimeout], [WCancel], [WPanic]: an error.  [CSent]: CloseAndPut sent its value, [CClosed]: Close closed a
    channel, [CNone]: no channel was found; the three all return nil; [CPanic]: a recovered panic was returned. *)
Inductive ares := WGot (v : V) | WZero | WTimeout | WCancel | WPanic | CSent | CClosed | CNone | CPanic | HBool (b : bool).

(** Where a goroutine is; the numbers are lines of lock/await.go (of Wait and CloseAndPut; the variants are alike). *)
Inductive apc :=
| AIdle
| AW31 (idx : Z) (tmo can : bool)                      (* at.mux.Lock in Get *)
| AW34 (idx : Z) (tmo can : bool)                      (* at.m.Get *)
| AW36 (idx : Z) (tmo can : bool)                      (* make and at.m.Put *)
| AW32 (idx : Z) (tmo can : bool) (ch : nat)           (* deferred at.mux.Unlock *)
| AW125 (idx : Z) (tmo can : bool) (ch : nat)          (* select, or the receive of line 136 *)
| AW129 (idx : Z) (tmo can : bool) (ch : nat) (r : ares)  (* deferred close(ch) *)
| AW120 (idx : Z) (tmo can : bool) (r : ares)          (* deferred at.m.Del *)
| AC71 (idx : Z) (v : option V) (loop : nat)           (* at.m.Has *)
| AC72 (idx : Z) (v : option V)                        (* at.mux.Lock *)
| AC74 (idx : Z) (v : option V)                        (* at.m.Get *)
| AC75 (idx : Z) (v : option V) (ch : nat)             (* at.m.Del *)
| AC76 (idx : Z) (v : option V) (ch : nat)             (* ch <- v; Close goes to the next *)
| AC77 (idx : Z) (v : option V) (ch : nat)             (* close(ch) *)
| AC73 (idx : Z) (v : option V) (r : ares).            (* deferred at.mux.Unlock *)

(** A goroutine: calls to make, position, and the calls that have returned with their results (latest first). *)
Record athread := ATh { atodo : list acall; apos : apc; alog : list (acall * ares) }.
(** lock/await.go:19-22 [Await], and the channels made so far. *)
Record ashared := ASh { am : gmap Z nat; chans : list chan; amux : numlock }.
(** Await and the goroutines that use it (lock/await.go:19). *)
Record aconf := AConf { ash : ashared; aths : list athread }.

(** What the scheduler decides at a select (lock/await.go:95,125,152): the channel, the timer, or the context. *)
Inductive achoice := ChChan | ChTimer | ChCancel.

(** lock/await.go:76,77,56,129: operations on a channel. *)
Definition put_buf (b : option V) (c : chan) : chan := Chan b (cclosed c) (cidx c).
Definition close_ch (c : chan) : chan := Chan (cbuf c) true (cidx c).
Definition set_ch (s : ashared) (ch : nat) (c : chan) : ashared := ASh (am s) (<[ch := c]> (chans s)) (amux s).

(** One step of goroutine [t] (lock/await.go:30-172); [None] when it has to wait or has nothing to do. *)
Definition athread_step (t : nat) (s : ashared) (th : athread) (x : achoice) : option (ashared * athread) :=
  let go s p := Some (s, ATh (atodo th) p (alog th)) in
  let ret s c r := Some (s, ATh (atodo th) AIdle ((c, r) :: alog th)) in
  match apos th with
  | AIdle =>
      match atodo th with
      | [] => None
      | AWait i tm cn :: r => Some (s, ATh r (AW31 i tm cn) (alog th))
      | AClose i v :: r => Some (s, ATh r (AC71 i v 1000) (alog th))
      | AHas i :: r => Some (s, ATh r AIdle ((AHas i, HBool (match am s !! i with Some _ => true | None => false end)) :: alog th))
      end
  | AW31 i tm cn =>
      match num_step (amux s) (NLock t i) with
      | (RAcquired, mx) => go (ASh (am s) (chans s) mx) (AW34 i tm cn)
      | (RPanic, _) => go s (AW120 i tm cn WPanic)
      | _ => None
      end
  | AW34 i tm cn => go s (match am s !! i with Some ch => AW32 i tm cn ch | None => AW36 i tm cn end)
  | AW36 i tm cn =>
      go (ASh (<[i := length (chans s)]> (am s)) (chans s ++ [Chan None false i]) (amux s)) (AW32 i tm cn (length (chans s)))
  | AW32 i tm cn ch => go (ASh (am s) (chans s) (num_step (amux s) (NUnlock t i)).2) (AW125 i tm cn ch)
  | AW125 i tm cn ch =>
      match x with
      | ChTimer => if tm then go s (AW129 i tm cn ch WTimeout) else None
      | ChCancel => if tm && cn then go s (AW129 i tm cn ch WCancel) else None
      | ChChan =>
          match chans s !! ch with
          | Some c => match cbuf c with
                      | Some v => go (set_ch s ch (put_buf None c)) (AW120 i tm cn (WGot v))
                      | None => if cclosed c then go s (AW120 i tm cn WZero) else None
                      end
          | None => None
          end
      end
  | AW129 i tm cn ch r =>
      match chans s !! ch with
      | Some c => go (set_ch s ch (close_ch c)) (AW120 i tm cn r)   (* a second close panics and is recovered *)
      | None => None
      end
  | AW120 i tm cn r => ret (ASh (delete i (am s)) (chans s) (amux s)) (AWait i tm cn) r
  | AC71 i v loop =>
      match am s !! i with
      | Some _ => go s (AC72 i v)
      | None => match loop with O => ret s (AClose i v) CNone | S l => go s (AC71 i v l) end
      end
  | AC72 i v =>
      match num_step (amux s) (NLock t i) with
      | (RAcquired, mx) => go (ASh (am s) (chans s) mx) (AC74 i v)
      | (RPanic, _) => ret s (AClose i v) CPanic
      | _ => None
      end
  | AC74 i v => go s (match am s !! i with Some ch => AC75 i v ch | None => AC73 i v CNone end)
  | AC75 i v ch => go (ASh (delete i (am s)) (chans s) (amux s)) (match v with Some _ => AC76 i v ch | None => AC77 i v ch end)
  | AC76 i v ch =>
      match chans s !! ch with
      | Some c => if cclosed c then go s (AC73 i v CPanic)
                  else match cbuf c with
                       | None => go (set_ch s ch (put_buf v c)) (AC77 i v ch)
                       | Some _ => None
                       end
      | None => None
      end
  | AC77 i v ch =>
      match chans s !! ch with
      | Some c => if cclosed c then go s (AC73 i v CPanic)
                  else go (set_ch s ch (close_ch c)) (AC73 i v (match v with Some _ => CSent | None => CClosed end))
      | None => None
      end
  | AC73 i v r => ret (ASh (am s) (chans s) (num_step (amux s) (NUnlock t i)).2) (AClose i v) r
  end.

(** Goroutine [t] steps if it can (lock/await.go:30-172). *)
Definition aconf_step (c : aconf) (a : nat * achoice) : aconf :=
  match aths c !! a.1 with
  | None => c
  | Some th => match athread_step a.1 (ash c) th a.2 with
               | Some (s, th) => AConf s (<[a.1 := th]> (aths c))
               | None => c
               end
  end.
(** lock/await.go:25-27 [NewAwait] with [muxlimit], and goroutines about to make their calls. *)
Definition await_init (muxlimit : Z) (progs : list (list acall)) : aconf :=
  AConf (ASh ∅ [] (NewNumLock muxlimit)) ((fun p => ATh p AIdle []) <$> progs).
(** Any interleaving (lock/await.go:30-172). *)
Definition await_run (c : aconf) (sched : list (nat * achoice)) : aconf := foldl aconf_step c sched.
End await.
Arguments chan : clear implicits. Arguments acall : clear implicits. Arguments ares : clear implicits.
Arguments apc : clear implicits. Arguments athread : clear implicits. Arguments aconf : clear implicits. Arguments ashared : clear implicits.
