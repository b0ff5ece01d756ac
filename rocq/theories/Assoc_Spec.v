(** Association lists, the abstract value of every ordered map: (key, value) pairs with distinct keys. *)
From stdpp Require Import prelude.

Section assoc.
Context {K V : Type} `{EqDecision K}.
Implicit Types s : list (K * V).

(** The value stored under [k]. *)
Fixpoint find_key (k : K) s : option V :=
  match s with
  | [] => None
  | (k', v) :: r => if decide (k = k') then Some v else find_key k r
  end.

(** All entries but the one of key [k]. *)
Definition without (k : K) s : list (K * V) := filter (fun p => p.1 <> k) s.

(** The same entries in the same order, with [v] stored under [k]. *)
Definition set_key (k : K) (v : V) s : list (K * V) :=
  map (fun p => if decide (p.1 = k) then (k, v) else p) s.
End assoc.
