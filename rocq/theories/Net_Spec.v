(** What a user of the network helpers relies on. *)
From stdpp Require Import list.
From Coq Require Import ZArith.
From Verif Require Import Net_Model.
Local Open Scope Z_scope.

(** [s] begins with [p]. *)
Definition begins_with (p s : list Z) : Prop := exists r, s = p ++ r.
(** The signals of [evs] that were asked for. *)
Definition arrived (sigs : list Z) (evs : list sigev) : list Z :=
  omap (fun e => match e with Arrives s => if bool_decide (sigs = []) || bool_decide (s ∈ sigs) then Some s else None | Goes => None end) evs.
(** The values given for a header name, capitals aside. *)
Definition given (K : list Z) (hs : list (list Z * list Z)) : list (list Z) := snd <$> filter (fun e => canonical e.1 = K) hs.
