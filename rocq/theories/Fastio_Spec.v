(** What a fastio.File promises, said without its implementation: the file is its old content followed by records, each the data
    of one call. *)
From stdpp Require Import list.
From Coq Require Import ZArith.
From Verif Require Import Fastio_Model.
Local Open Scope Z_scope.

(** A record: which call (goroutine, number) and its data. *)
Definition rec : Type := nat * nat * list Z.
(** The bytes of records one after another. *)
Definition bytes_of (R : list rec) : list Z := concat (snd <$> R).
(** The record is of the call it names, in the program of the goroutines. *)
Definition rec_of (progs : list (list wcall)) (e : rec) : Prop :=
  exists p c, progs !! e.1.1 = Some p /\ p !! e.1.2 = Some c /\ wbs c = e.2.
(** Record [e] starts at [o] in a file which had [n] bytes before the records [R]. *)
Definition placed (n : nat) (R : list rec) (e : rec) (o : Z) : Prop :=
  exists R1 R2, R = R1 ++ e :: R2 /\ o = Z.of_nat (n + length (bytes_of R1)).
(** The file holds [bs] at [o]. *)
Definition contains_at (f : list Z) (o : Z) (bs : list Z) : Prop :=
  0 <= o /\ o + Z.of_nat (length bs) <= Z.of_nat (length f) /\ take (length bs) (drop (Z.to_nat o) f) = bs.

(** No goroutine is in a call. *)
Definition quiet (c : wconf) : Prop := forall t th, wths c !! t = Some th -> wpos th = WIdle.
(** The [i]-th call of goroutine [t] has returned [res]; has begun. *)
Definition returned (c : wconf) (t i : nat) (call : wcall) (res : wres) : Prop :=
  exists th, wths c !! t = Some th /\ rev (wlog th) !! i = Some (call, res).
Definition begun (c : wconf) (t i : nat) : Prop :=
  exists th, wths c !! t = Some th /\ ((i < length (wlog th))%nat \/ i = length (wlog th) /\ wpos th <> WIdle).
(** No write to the file fails. *)
Definition no_io_error (evs : list wev) : Prop := forall e, e ∈ evs -> evio e = None.
(** Records left in the queue. *)
Definition queued (c : wconf) : list rec :=
  omap (fun id => (fun d => (down d, dbytes d)) <$> swds (wsh c) !! id) (sch (wsh c)).

(** One goroutine alone, each of its writes done whole ([None]) or up to [k] bytes: what the file is in the end and what the calls
    return. *)
Definition written (o : option nat) (bs : list Z) : list Z := match o with None => bs | Some k => take k bs end.
Fixpoint seq_run (f : list Z) (l : list (wcall * option nat)) : list Z * list wres :=
  match l with
  | [] => (f, [])
  | (c, o) :: l =>
      let w := written o (wbs c) in
      let r := (if wsync c then Z.of_nat (length f) else Z.of_nat (length w), bool_decide (o <> None)) in
      let '(f', rs) := seq_run (f ++ w) l in (f', r :: rs)
  end.
