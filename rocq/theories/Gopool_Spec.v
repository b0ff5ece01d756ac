(** What a GoPool promises, said without its implementation. *)
From stdpp Require Import list.
From Coq Require Import ZArith.
From Verif Require Import Conc Gopool_Model.
Local Open Scope Z_scope.

(** Function [f] is one of those the clients submit with Go. *)
Definition submits (progs : list (list gact)) (f : fid) : Prop := exists p, progs !! f.1 = Some p /\ p !! f.2 = Some AGo.
(** The call of Go that submits [f] has returned. *)
Definition accepted (progs : list (list gact)) (c : gconf) (f : fid) : Prop :=
  submits progs f /\ exists todo k p, gths c !! f.1 = Some (GClient f.1 todo k p) /\ ((S f.2 < k)%nat \/ S f.2 = k /\ p = CIdle).
(** How many functions are being run by the pool's workers. *)
Definition running (c : gconf) : Z := sumZ (fun th => match th with GRun _ RBody => 1 | _ => 0 end) (gths c).
(** Only Go is used, neither Close nor TurnOff. *)
Definition only_go (progs : list (list gact)) : Prop := forall p a, p ∈ progs -> a ∈ p -> a = AGo.
(** Nothing more can happen without new calls of the pool: no goroutine can take a step. *)
Definition stuck (min max lim : Z) (c : gconf) : Prop := forall t th ch, gths c !! t = Some th -> gstep min max lim (gsh c) th ch = None.
(** How many of the events made a goroutine take a step. *)
Definition steps (min max lim : Z) (c : gconf) (e : nat * bool) : bool :=
  match gths c !! e.1 with
  | Some th => negb (gcrash (gsh c)) && match gstep min max lim (gsh c) th e.2 with Some _ => true | None => false end
  | None => false
  end.
Fixpoint busy (min max lim : Z) (c : gconf) (evs : list (nat * bool)) : nat :=
  match evs with
  | [] => 0
  | e :: evs => (if steps min max lim c e then 1 else 0) + busy min max lim (gconf_step min max lim c e) evs
  end.
