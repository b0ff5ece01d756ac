(** Vocabulary for the statements about lock/await.go: everything is read off the goroutines' calls and results. *)
From stdpp Require Import gmap.
From Coq Require Import ZArith.
From Verif Require Import GoInt Conc Lock_Model Await_Model.
Local Open Scope Z_scope.

Section spec.
Context {V : Type}.

(** The index a call is about, and the index of the call a goroutine is in. *)
Definition call_idx (c : acall V) : Z := match c with AWait i _ _ | AClose i _ | AHas i => i end.
Definition pc_idx (p : apc V) : option Z :=
  match p with
  | AIdle => None
  | AW31 i _ _ | AW34 i _ _ | AW36 i _ _ | AW32 i _ _ _ | AW125 i _ _ _ | AW129 i _ _ _ _ | AW120 i _ _ _
  | AC71 i _ _ | AC72 i _ | AC74 i _ | AC75 i _ _ | AC76 i _ _ | AC77 i _ _ | AC73 i _ _ => Some i
  end.
(** The goroutine is not in a call on [i] and will not make one. *)
Definition no_calls_on (i : Z) (th : athread V) : Prop :=
  pc_idx (apos th) <> Some i /\ forall c, c ∈ atodo th -> call_idx c <> i.

(** CloseAndPut(i, v) has been called and has at least reached its send. *)
Definition putting (i : Z) (v : V) (th : athread V) : Prop :=
  (exists r, (AClose i (Some v), r) ∈ alog th) \/ (exists ch, apos th = AC77 i (Some v) ch) \/ (exists r, apos th = AC73 i (Some v) r).
(** A goroutine is inside a wait on [i]. *)
Definition waiting_on (i : Z) (p : apc V) : Prop :=
  match p with AW31 j _ _ | AW34 j _ _ | AW36 j _ _ | AW32 j _ _ _ | AW125 j _ _ _ | AW129 j _ _ _ _ | AW120 j _ _ _ => j = i | _ => False end.
(** Waits on [i] that returned a value, and CloseAndPuts on [i] that returned. *)
Definition got_entry (i : Z) (e : acall V * ares V) : bool :=
  match e with (AWait j _ _, WGot _) => j =? i | _ => false end.
Definition put_entry (i : Z) (e : acall V * ares V) : bool :=
  match e with (AClose j (Some _), _) => j =? i | _ => false end.
Definition count_log (p : acall V * ares V -> bool) (c : aconf V) : Z :=
  sumZ (fun th => Z.of_nat (length (List.filter p (alog th)))) (aths c).
(** CloseAndPuts on [i] in flight. *)
Definition puts_in_flight (i : Z) (c : aconf V) : Z :=
  sumZ (fun th => match apos th with AC71 j (Some _) _ | AC72 j (Some _) | AC74 j (Some _) | AC75 j (Some _) _ | AC76 j (Some _) _
                  | AC77 j (Some _) _ | AC73 j (Some _) _ => if j =? i then 1 else 0 | _ => 0 end) (aths c).
(** The goroutine is not waiting on [i] and will not; it may close [i]. *)
Definition no_waits_on (i : Z) (th : athread V) : Prop :=
  ~ waiting_on i (apos th) /\ forall tm cn, AWait i tm cn ∉ atodo th.
(** The closes (CloseAndPut or Close) of [i] that have returned. *)
Definition close_entry (i : Z) (e : acall V * ares V) : bool := match e with (AClose j _, _) => j =? i | _ => false end.
Definition closes_done (i : Z) (th : athread V) : nat := length (List.filter (close_entry i) (alog th)).
(** Can goroutine [t] step, with some choice at a select? *)
Definition can_step (c : aconf V) (t : nat) : Prop :=
  exists th x, aths c !! t = Some th /\ athread_step t (ash c) th x <> None.
End spec.
