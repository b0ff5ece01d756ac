(** Model of lock/fastawait.go: FastAwait.  Channels (capacity 1) are those of Await_Model.  hashmap.Map is an atomic map.
    The bloom filter is represented by the history of its operations, each taken as atomic; its answer is the function [isdel] of
    that history (Bloom_Model gives it, see [bloom_isdel] below).  A sleep of the retry loop is part of the next step.
    Panics inside the calls are recovered and become error results. *)
From stdpp Require Import gmap.
From Coq Require Import ZArith.
From Verif Require Import GoInt Num_Model Bloom_Model Await_Model.
Local Open Scope Z_scope.

Section fast.
Context {V : Type} (isdel : list (bop (list Z)) -> list Z -> bool).

(** Calls: Wait (lock/fastawait.go:41) and WaitWithCancel (line 65, [can]) with [tmo] for timeout > 0; CloseAndPut with
    [Some v] (line 95) and Close with [None] (line 111). *)
Inductive fcall := FWait (id : Z) (tmo can : bool) | FClose (id : Z) (v : option V).
(** Results.  [FGot v]: (v, nil) with a value received; [FZero]: (zero value, nil), the channel is closed; [FTimeout],
    [FCancel]: errors.  [FSent], [FClosed], [FNone] (no channel found) return nil, [FPanic]: the recovered panic is returned. *)
Inductive fres := FGot (v : V) | FZero | FTimeout | FCancel | FSent | FClosed | FNone | FPanic.

(** Where a goroutine is; the numbers are lines of lock/fastawait.go (of Wait and CloseAndPut; the variants are alike). *)
Inductive fpc :=
| FIdle
| FW44 (id : Z) (tmo can : bool)                          (* make, fa.db.Put *)
| FW49 (id : Z) (tmo can : bool) (ch : nat)               (* select, or the receive of line 60 *)
| FW53 (id : Z) (tmo can : bool) (ch : nat) (r : fres)    (* deferred close(ch) *)
| FW33 (id : Z) (tmo can : bool) (r : fres)               (* deferred del: fa.bf.Add *)
| FW34 (id : Z) (tmo can : bool) (r : fres)               (* deferred del: fa.db.Del *)
| FC99 (id : Z) (v : option V) (loop : nat)               (* fa.db.Get *)
| FC101 (id : Z) (v : option V) (ch : nat)                (* fa.db.Del *)
| FC102 (id : Z) (v : option V) (ch : nat)                (* ch <- v; Close goes to the next *)
| FC100 (id : Z) (v : option V) (ch : nat)                (* deferred close(ch) *)
| FC103 (id : Z) (v : option V) (loop : nat).             (* fa.isDel, loop > 0 *)

(** A goroutine: calls to make, position, and the calls that have returned with their results (latest first). *)
Record fthread := FTh { ftodo : list fcall; fpos : fpc; flog : list (fcall * fres) }.
(** lock/fastawait.go:19-22 [FastAwait]: db, the channels made so far, and what was done to bf. *)
Record fshared := FSh { fdb : gmap Z nat; fchans : list (chan V); fhist : list (bop (list Z)) }.
(** FastAwait and the goroutines that use it (lock/fastawait.go:19). *)
Record fconf := FConf { fsh : fshared; fths : list fthread }.

(** A send, receive or close on channel [ch] (lock/fastawait.go:53,56,60,100,102). *)
Definition fset_ch (s : fshared) (ch : nat) (c : chan V) : fshared := FSh (fdb s) (<[ch := c]> (fchans s)) (fhist s).

(** One step of a goroutine (lock/fastawait.go:32-124); [None] when it has to wait or has nothing to do.  [x] is what
    happens at a select. *)
Definition fthread_step (s : fshared) (th : fthread) (x : achoice) : option (fshared * fthread) :=
  let go s p := Some (s, FTh (ftodo th) p (flog th)) in
  let ret s c r := Some (s, FTh (ftodo th) FIdle ((c, r) :: flog th)) in
  match fpos th with
  | FIdle =>
      match ftodo th with
      | [] => None
      | FWait i tm cn :: r => Some (s, FTh r (FW44 i tm cn) (flog th))
      | FClose i v :: r => Some (s, FTh r (FC99 i v 30) (flog th))
      end
  | FW44 i tm cn =>
      go (FSh (<[i := length (fchans s)]> (fdb s)) (fchans s ++ [Chan None false i]) (fhist s)) (FW49 i tm cn (length (fchans s)))
  | FW49 i tm cn ch =>
      match x with
      | ChTimer => if tm then go s (FW53 i tm cn ch FTimeout) else None
      | ChCancel => if tm && cn then go s (FW53 i tm cn ch FCancel) else None
      | ChChan =>
          match fchans s !! ch with
          | Some c => match cbuf c with
                      | Some v => go (fset_ch s ch (put_buf None c)) (FW33 i tm cn (FGot v))
                      | None => if cclosed c then go s (FW33 i tm cn FZero) else None
                      end
          | None => None
          end
      end
  | FW53 i tm cn ch r =>
      match fchans s !! ch with
      | Some c => go (fset_ch s ch (close_ch c)) (FW33 i tm cn r)   (* a second close panics and is recovered *)
      | None => None
      end
  | FW33 i tm cn r => go (FSh (fdb s) (fchans s) (fhist s ++ [BAdd (Int64ToBytes i)])) (FW34 i tm cn r)
  | FW34 i tm cn r => ret (FSh (delete i (fdb s)) (fchans s) (fhist s)) (FWait i tm cn) r
  | FC99 i v loop => go s (match fdb s !! i with Some ch => FC101 i v ch | None => FC103 i v loop end)
  | FC101 i v ch => go (FSh (delete i (fdb s)) (fchans s) (fhist s)) (match v with Some _ => FC102 i v ch | None => FC100 i v ch end)
  | FC102 i v ch =>
      match fchans s !! ch with
      | Some c => if cclosed c then ret s (FClose i v) FPanic  (* the send panics, then the deferred close; both recovered *)
                  else match cbuf c with
                       | None => go (fset_ch s ch (put_buf v c)) (FC100 i v ch)
                       | Some _ => None
                       end
      | None => None
      end
  | FC100 i v ch =>
      match fchans s !! ch with
      | Some c => if cclosed c then ret s (FClose i v) FPanic
                  else ret (fset_ch s ch (close_ch c)) (FClose i v) (match v with Some _ => FSent | None => FClosed end)
      | None => None
      end
  | FC103 i v loop =>
      let b := isdel (fhist s) (Int64ToBytes i) in
      let s := FSh (fdb s) (fchans s) (fhist s ++ [BContains (Int64ToBytes i)]) in
      match loop with
      | S l => if b then ret s (FClose i v) FNone else go s (FC99 i v l)
      | O => ret s (FClose i v) FNone
      end
  end.

(** Goroutine [a.1] steps if it can (lock/fastawait.go:32-124). *)
Definition fconf_step (c : fconf) (a : nat * achoice) : fconf :=
  match fths c !! a.1 with
  | None => c
  | Some th => match fthread_step (fsh c) th a.2 with
               | Some (s, th) => FConf s (<[a.1 := th]> (fths c))
               | None => c
               end
  end.
(** lock/fastawait.go:24-30: a new FastAwait, and goroutines about to make their calls. *)
Definition fast_init (progs : list (list fcall)) : fconf := FConf (FSh ∅ [] []) ((fun p => FTh p FIdle []) <$> progs).
(** Any interleaving (lock/fastawait.go:32-124). *)
Definition fast_run (c : fconf) (sched : list (nat * achoice)) : fconf := foldl fconf_step c sched.
End fast.
Arguments fcall : clear implicits. Arguments fres : clear implicits. Arguments fpc : clear implicits.
Arguments fthread : clear implicits. Arguments fshared : clear implicits. Arguments fconf : clear implicits.

(** lock/fastawait.go:37-39 [isDel], with the filter of cache/bloom.go made for [E] items ([m] bits, [k] functions). *)
Definition bloom_isdel (h : Z -> list Z -> Z) (E m k : Z) (hist : list (bop (list Z))) (x : list Z) : bool :=
  fst (Contains h (brun h E m k hist) x).
