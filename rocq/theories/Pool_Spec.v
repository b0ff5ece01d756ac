(** What the pools are for: size classes, and nobody getting what somebody else holds. *)
From stdpp Require Import list.
From Coq Require Import ZArith.
From Verif Require Import Pool_Model.
Local Open Scope Z_scope.

(** The class of a length among [n] classes, class [i] being for lengths from 8 * 2^i on: the highest class not above the length, or
    class 0. *)
Definition size_class (n : nat) (len : Z) (c : nat) : Prop :=
  (c < n)%nat /\ (8 * 2 ^ Z.of_nat c <= len \/ c = 0%nat) /\ (forall i, (i < n)%nat -> 8 * 2 ^ Z.of_nat i <= len -> (i <= c)%nat).

(** Who holds what: the buffers got and not put back.  [None]: something is put back, or written to, by somebody who does not hold it. *)
Fixpoint holding (held : list nat) (ops : list pop) (rs : list pres) : option (list nat) :=
  match ops, rs with
  | POGet _ _ :: ops, RGot o :: rs => holding (o :: held) ops rs
  | POPut o :: ops, _ :: rs => if decide (o ∈ held) then holding (filter (fun x => x <> o) held) ops rs else None
  | POWrite o _ _ :: ops, _ :: rs => if decide (o ∈ held) then holding held ops rs else None
  | _ :: ops, _ :: rs => holding held ops rs
  | _, _ => Some held
  end.
