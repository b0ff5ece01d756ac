(** What a user of an Mmap expects of its end, said over the calls and their results only. *)
From stdpp Require Import list.
From Coq Require Import ZArith.
From Verif Require Import Mmap_Model MmapLife_Model.
Local Open Scope Z_scope.

(** The file after bytes [bs] have been written at [n], byte by byte. *)
Fixpoint put_bytes_at (m : list Z) (n : nat) (bs : list Z) : list Z :=
  match bs with [] => m | b :: r => put_bytes_at (<[n := b]> m) (S n) r end.
(** Where a call has written, by its result: the position Append answered (also when only the sync failed), the position WriteAt
    was given. *)
Definition wrote (c : lcall) (r : lres) : option (nat * list Z) :=
  match c, r with
  | LWrite (MAppend bs | MAppendSync bs), LR (MRAt n | MRSync n) => Some (Z.to_nat n, bs)
  | LWrite (MWriteAt bs off | MWriteAtSync bs off), LR (MRNil | MRSyncErr) => Some (Z.to_nat off, bs)
  | _, _ => None
  end.
(** The file after a log of calls and results, latest first. *)
Fixpoint file_after (file : list Z) (log : list (lcall * lres)) : list Z :=
  match log with
  | [] => file
  | (c, r) :: l => match wrote c r with Some (n, bs) => put_bytes_at (file_after file l) n bs | None => file_after file l end
  end.
(** The calls that give the mapping back. *)
Definition releases (c : lcall) : Prop := c = LUnmap \/ c = LUnmapClose \/ c = LClose.
(** The result is an error value (not a panic). *)
Definition is_error (r : lres) : Prop := r = LSysErr \/ r = LR MRFull.
(** The result says that the call did its work. *)
Definition success (r : lres) : Prop := match r with LNil | LR (MRAt _) | LR MRNil => True | _ => False end.
(** A call that writes at least one byte. *)
Definition writes (c : lcall) : Prop := match c with LWrite c => mbytes c <> [] | _ => False end.
(** Goroutine [t] is about to ask for munmap while every other goroutine has made its last call. *)
Definition alone (c : uconf) (t : nat) : Prop :=
  forall t' th, t' <> t -> uths c !! t' = Some th -> utodo th = [] /\ upos th = UIdle.
Definition last_call (c : uconf) (t : nat) : Prop := exists th, uths c !! t = Some th /\ utodo th = [URelease] /\ upos th = UIdle.
(** Goroutine [t] is about to ask for munmap. *)
Definition about_to_release (c : uconf) (t : nat) : Prop :=
  exists th r, uths c !! t = Some th /\ utodo th = URelease :: r /\ upos th = UIdle.
(** Along the schedule, the mapping is given back only as the last thing that anybody does. *)
Fixpoint release_last (c : uconf) (es : list (nat * bool)) : Prop :=
  match es with
  | [] => True
  | e :: r => (about_to_release c e.1 -> alone c e.1 /\ last_call c e.1) /\ release_last (uconf_step c e) r
  end.
