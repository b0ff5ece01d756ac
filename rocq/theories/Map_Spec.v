(** What a finite map is, by its history. *)
From stdpp Require Import prelude.
From Coq Require Import ZArith.
From Verif Require Import Map_Model.
Local Open Scope Z_scope.

Section spec.
Context {K V : Type} `{EqDecision K}.

(** The value of [k] after a history (latest call last): that of its last Put unless deleted since. *)
Fixpoint last_put (k : K) (os : list (mop K V)) (now : option V) : option V :=
  match os with
  | [] => now
  | MPut k' v :: r => last_put k r (if decide (k' = k) then Some v else now)
  | MDel k' :: r => last_put k r (if decide (k' = k) then None else now)
  | _ :: r => last_put k r now
  end.

(** The answer expected from call [o] after the history [os]. *)
Definition answer (is_nil : V -> bool) (zero : V) (os : list (mop K V)) (o : mop K V) : mres V :=
  match o with
  | MPut k _ => match last_put k os None with
                | Some p => if is_nil p then MPair zero false else MPair p true
                | None => MPair zero false
                end
  | MGet k => match last_put k os None with Some v => MPair v true | None => MPair zero false end
  | MHas k | MDel k => MBool (match last_put k os None with Some _ => true | None => false end)
  end.
End spec.
