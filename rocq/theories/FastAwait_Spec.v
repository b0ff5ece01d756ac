(** Vocabulary for the statements about lock/fastawait.go: read off the goroutines' calls and results. *)
From stdpp Require Import gmap.
From Coq Require Import ZArith.
From Verif Require Import GoInt Conc Num_Model Bloom_Model Await_Model FastAwait_Model.
Local Open Scope Z_scope.

Section spec.
Context {V : Type}.

(** The id a call is about, and the id of the call a goroutine is in. *)
Definition fcall_id (c : fcall V) : Z := match c with FWait i _ _ | FClose i _ => i end.
Definition fpc_id (p : fpc V) : option Z :=
  match p with
  | FIdle => None
  | FW44 i _ _ | FW49 i _ _ _ | FW53 i _ _ _ _ | FW33 i _ _ _ | FW34 i _ _ _
  | FC99 i _ _ | FC101 i _ _ | FC102 i _ _ | FC100 i _ _ | FC103 i _ _ => Some i
  end.
Definition no_fcalls_on (i : Z) (th : fthread V) : Prop :=
  fpc_id (fpos th) <> Some i /\ forall c, c ∈ ftodo th -> fcall_id c <> i.

(** The goroutine is in CloseAndPut(i, v) ([Some v]) or Close(i) ([None]). *)
Definition in_close (i : Z) (v : option V) (p : fpc V) : Prop :=
  match p with FC99 j u _ | FC101 j u _ | FC102 j u _ | FC100 j u _ | FC103 j u _ => j = i /\ u = v | _ => False end.
(** CloseAndPut(i, v) has been called and has reached its send. *)
Definition fputting (i : Z) (v : V) (th : fthread V) : Prop :=
  (exists r, (FClose i (Some v), r) ∈ flog th) \/ (exists ch, fpos th = FC100 i (Some v) ch).
Definition fgot_entry (i : Z) (e : fcall V * fres V) : bool :=
  match e with (FWait j _ _, FGot _) => j =? i | _ => false end.
Definition fput_entry (i : Z) (e : fcall V * fres V) : bool :=
  match e with (FClose j (Some _), _) => j =? i | _ => false end.
Definition fcount_log (p : fcall V * fres V -> bool) (c : fconf V) : Z :=
  sumZ (fun th => Z.of_nat (length (List.filter p (flog th)))) (fths c).
(** CloseAndPuts on [i] in flight. *)
Definition fputs_in_flight (i : Z) (c : fconf V) : Z :=
  sumZ (fun th => match fpos th with FC99 j (Some _) _ | FC101 j (Some _) _ | FC102 j (Some _) _ | FC100 j (Some _) _ | FC103 j (Some _) _ =>
                    if j =? i then 1 else 0 | _ => 0 end) (fths c).
(** Can goroutine [t] step, with some choice at a select? *)
Definition fcan_step (isdel : list (bop (list Z)) -> list Z -> bool) (c : fconf V) (t : nat) : Prop :=
  exists th x, fths c !! t = Some th /\ fthread_step isdel (fsh c) th x <> None.
(** The steps goroutine [t] makes under the schedule (turns at which it is blocked do not count). *)
Fixpoint moves (isdel : list (bop (list Z)) -> list Z -> bool) (t : nat) (c : fconf V) (sched : list (nat * achoice)) : nat :=
  match sched with
  | [] => 0
  | a :: r => (match fths c !! t with
               | Some th => if Nat.eqb a.1 t then match fthread_step isdel (fsh c) th a.2 with Some _ => 1 | None => 0 end else 0
               | None => 0
               end + moves isdel t (fconf_step isdel c a) r)%nat
  end.
End spec.
