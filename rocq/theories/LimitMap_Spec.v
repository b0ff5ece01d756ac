(** What LimitMap is: (key, value) pairs with distinct keys, most recently put first. *)
From stdpp Require Import prelude.
From Coq Require Import ZArith.
From Verif Require Import Assoc_Spec LimitMap_Model.
Local Open Scope Z_scope.

Section spec.
Context {K V : Type} `{EqDecision K}.
Implicit Types s : list (K * V).

(** Put of a present key replaces its value and makes it the most recent; Put of an absent key makes room
    by dropping the oldest entry when there are already more than [cap] entries. *)
Definition lspec_put (cap : Z) (k : K) (v : V) s : list (K * V) :=
  match find_key k s with
  | Some _ => (k, v) :: without k s
  | None => (k, v) :: (if Z.of_nat (length s) <=? cap then s else removelast s)
  end.

Definition lspec_step (cap : Z) s (o : lop K V) : lres V * list (K * V) :=
  match o with
  | LPut k v => (LVal (find_key k s), lspec_put cap k v s)
  | LGet k => (LVal (find_key k s), s)
  | LDel k => (LUnit, without k s)
  | LRemoveMulti ks => (LUnit, filter (fun p => p.1 ∉ ks) s)
  | LLen => (LNum (Z.of_nat (length s)), s)
  end.

Fixpoint lspec_run (cap : Z) s (os : list (lop K V)) : list (lres V) * list (K * V) :=
  match os with
  | [] => ([], s)
  | o :: r => let '(x, s1) := lspec_step cap s o in
              let '(xs, s2) := lspec_run cap s1 r in (x :: xs, s2)
  end.
End spec.
