(** What the mmap package promises, said without its implementation: a file of fixed size in which calls reserve regions one after
    another. *)
From stdpp Require Import list.
From Coq Require Import ZArith.
From Verif Require Import Mmap_Model.
Local Open Scope Z_scope.

(** The region a call gets when the append offset is [off]: its start, or [None] when it does not fit the file of [max] bytes. *)
Definition reserve (max off : Z) (c : mcall) : option Z :=
  match c with
  | MAppend bs | MAppendSync bs => if off + Z.of_nat (length bs) <=? max then Some off else None
  | MWriteAt bs o | MWriteAtSync bs o => if o + Z.of_nat (length bs) <=? max then Some o else None
  end.
(** The append offset afterwards: behind every region handed out. *)
Definition advance (max off : Z) (c : mcall) : Z :=
  match reserve max off c with
  | Some n => Z.max off (n + Z.of_nat (length (mbytes c)))
  | None => off
  end.
(** The regions of calls made one after another, and the offset at the end. *)
Fixpoint reserves (max off : Z) (cs : list mcall) : list (option Z) :=
  match cs with [] => [] | c :: r => reserve max off c :: reserves max (advance max off c) r end.
Definition offset_after (max off : Z) (cs : list mcall) : Z := fold_left (advance max) cs off.

(** The result a call may return when its region is [r]. *)
Definition result_of (c : mcall) (r : option Z) (res : mres) : Prop :=
  match c, res with
  | (MAppend _ | MAppendSync _), MRAt n | MAppendSync _, MRSync n => r = Some n
  | (MWriteAt _ _ | MWriteAtSync _ _), MRNil | MWriteAtSync _ _, MRSyncErr => r <> None
  | (MAppendSync _ | MWriteAtSync _ _), MRPanic => r <> None
  | _, MRFull => r = None
  | _, _ => False
  end.
(** [bs] written at [n] covers address [a]. *)
Definition covers (n : Z) (bs : list Z) (a : nat) : Prop := n <= Z.of_nat a < n + Z.of_nat (length bs).
(** Memory [m] holds [bs] at [n]. *)
Definition holds (m : list Z) (n : Z) (bs : list Z) : Prop :=
  0 <= n /\ forall j b, bs !! j = Some b -> m !! (Z.to_nat n + j)%nat = Some b.

(** Calls whose arguments are no larger than the address space of a 64 bit machine, and not at a negative offset. *)
Definition sane_call (max : Z) (c : mcall) : Prop :=
  Z.of_nat (length (mbytes c)) + max < 2^63 /\
  match c with MWriteAt bs o | MWriteAtSync bs o => 0 <= o /\ o + Z.of_nat (length bs) < 2^63 | _ => True end.
Definition is_append (c : mcall) : Prop := match c with MAppend _ | MAppendSync _ => True | _ => False end.
(** The call wants to write address [a], being a WriteAt. *)
Definition write_at_covers (c : mcall) (a : nat) : Prop :=
  match c with MWriteAt bs o | MWriteAtSync bs o => covers o bs a | _ => False end.
(** No goroutine is in a call. *)
Definition quiet (c : mconf) : Prop := forall t th, mths c !! t = Some th -> mpos th = MIdle.
(** The [i]-th call of goroutine [t] has returned [res]. *)
Definition returned (c : mconf) (t : nat) (i : nat) (call : mcall) (res : mres) : Prop :=
  exists th, mths c !! t = Some th /\ rev (mlog th) !! i = Some (call, res).
