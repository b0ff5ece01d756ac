(** What a GoPool promises when the functions use it, said without its implementation. *)
From stdpp Require Import list.
From Coq Require Import ZArith.
From Verif Require Import Conc Gopool_Model Gopool_Spec GopoolNest_Model.
Local Open Scope Z_scope.

(** Function [f], started as number [k], has been submitted by a client, or by a function that was started before. *)
Definition submitted (prog : fid -> list gact) (progs : list (list gact)) (started : list fid) (k : nat) (f : fid) : Prop :=
  submits progs f \/
  exists m g, (m < k)%nat /\ started !! m = Some g /\ f.1 = (length progs + m)%nat /\ prog g !! f.2 = Some AGo.
(** Only Go is used, by the clients and by the functions. *)
Definition only_go_too (prog : fid -> list gact) (progs : list (list gact)) : Prop :=
  only_go progs /\ forall f a, a ∈ prog f -> a = AGo.
(** No goroutine can take a step; a function does not return before the calls it makes. *)
Definition nstuck (min max lim : Z) (c : nconf) : Prop := forall t th ch, gths (nbase c) !! t = Some th ->
  gstep min max lim (gsh (nbase c)) th ch = None \/ in_body th = true /\ calls_done c t = false.
(** All calls of Go, those that the clients make and those that the functions started so far make. *)
Definition all_calls (prog : fid -> list gact) (progs : list (list gact)) (started : list fid) : list (list gact) := progs ++ (prog <$> started).
