(** What the locks of lock/lock.go promise, in terms of the outcomes of calls only. *)
From stdpp Require Import list.
From Coq Require Import ZArith.
From Verif Require Import GoInt Lock_Model Conc.
Local Open Scope Z_scope.

(** Two keys share a lock when they are equal modulo n as unsigned numbers; [slot] is the residue. *)
Definition slot (n key : Z) : Z := key mod 2^64 mod n.

(** Remove the first occurrence. *)
Fixpoint remove1 {A} `{EqDecision A} (x : A) (l : list A) : list A :=
  match l with [] => [] | y :: r => if decide (x = y) then r else y :: remove1 x r end.

(** Who holds what after a trace of calls and outcomes: (goroutine, slot). *)
Definition nhold1 (n : Z) (hs : list (nat * Z)) (x : nev * lres) : list (nat * Z) :=
  match x with
  | (NLock t k, RAcquired) | (NTryLock t k, RAcquired) => (t, slot n k) :: hs
  | (NUnlock t k, RReleased) => remove1 (t, slot n k) hs
  | _ => hs
  end.
Definition nholders (n : Z) (tr : list (nev * lres)) : list (nat * Z) := foldl (nhold1 n) [] tr.
(** Goroutines unlock only what they hold. *)
Definition ndisciplined (n : Z) (es : list nev) : Prop := forall pre t k post, es = pre ++ NUnlock t k :: post ->
  (t, slot n k) ∈ nholders n (num_run (NewNumLock n) pre).1.

(** The same for Strlock; the flag says whether it is the write lock. *)
Section str.
Context {key : Type} (h : key -> Z) (n : Z).
Definition sslot (k : key) : Z := h k mod n.
Definition shold1 (hs : list (nat * Z * bool)) (x : sev key * lres) : list (nat * Z * bool) :=
  match x with
  | (SLock t k, RAcquired) | (STryLock t k, RAcquired) => (t, sslot k, true) :: hs
  | (SRLock _ t k, RAcquired) | (STryRLock _ t k, RAcquired) => (t, sslot k, false) :: hs
  | (SUnlock t k, RReleased) => remove1 (t, sslot k, true) hs
  | (SRUnlock t k, RReleased) => remove1 (t, sslot k, false) hs
  | _ => hs
  end.
Definition sholders (tr : list (sev key * lres)) : list (nat * Z * bool) := foldl shold1 [] tr.
Definition sdisciplined (es : list (sev key)) : Prop :=
  (forall pre t k post, es = pre ++ SUnlock t k :: post -> (t, sslot k, true) ∈ sholders (str_run h (NewStrlock n) pre).1) /\
  (forall pre t k post, es = pre ++ SRUnlock t k :: post -> (t, sslot k, false) ∈ sholders (str_run h (NewStrlock n) pre).1).
End str.

(** LimitLock: acquisitions and releases that have returned, over all goroutines. *)
Definition is_ok (r : llret) : bool := match r with LLOk => true | _ => false end.
Definition is_unlocked (r : llret) : bool := match r with LLUnlocked => true | _ => false end.
Definition logged (p : llret -> bool) (c : llconf) : Z :=
  sumZ (fun th => Z.of_nat (length (List.filter p (llog th)))) (lths c).
(** Unlock calls that have taken a token, whether or not they have returned. *)
Definition released (c : llconf) : Z :=
  logged is_unlocked c + sumZ (fun th => match lpc th with LRecv => 1 | _ => 0 end) (lths c).
(** Nothing in flight. *)
Definition ll_quiet (c : llconf) : Prop := forall t th, lths c !! t = Some th -> lpc th = LIdle.
