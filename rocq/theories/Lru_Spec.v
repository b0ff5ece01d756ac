(** What an LRU cache is: (key, value) pairs with distinct keys, most recently touched first. *)
From stdpp Require Import prelude.
From Coq Require Import ZArith.
From Verif Require Import Assoc_Spec Lru_Model.
Local Open Scope Z_scope.

Section spec.
Context {K V : Type} `{EqDecision K}.
Implicit Types s : list (K * V).

Definition rspec_add (max : Z) (k : K) (v : V) s : list (K * V) :=
  match find_key k s with
  | Some _ => (k, v) :: without k s
  | None => if decide (max <> 0 /\ max < Z.of_nat (S (length s))) then removelast ((k, v) :: s) else (k, v) :: s
  end.

Definition rspec_step (max : Z) s (o : rop K V) : option (option V) * list (K * V) :=
  match o with
  | RAdd (Some k) v => (None, rspec_add max k v s)
  | RGet (Some k) =>
      match find_key k s with
      | Some v => (Some (Some v), (k, v) :: without k s)
      | None => (Some None, s)
      end
  | RRemove (Some k) => (None, without k s)
  | RRemoveMulti ks => (None, filter (fun p => p.1 ∉ ks) s)
  | RAdd None _ | RRemove None => (None, s)
  | RGet None => (Some None, s)
  end.

Fixpoint rspec_run (max : Z) s (os : list (rop K V)) : list (option (option V)) * list (K * V) :=
  match os with
  | [] => ([], s)
  | o :: r => let '(x, s1) := rspec_step max s o in
              let '(xs, s2) := rspec_run max s1 r in (x :: xs, s2)
  end.

(** The keys touched in a history with its results, latest first: Adds and successful Gets. *)
Fixpoint touched (os : list (rop K V)) (rs : list (option (option V))) (acc : list K) : list K :=
  match os, rs with
  | RAdd (Some k) _ :: os, _ :: rs => touched os rs (k :: acc)
  | RGet (Some k) :: os, Some (Some _) :: rs => touched os rs (k :: acc)
  | _ :: os, _ :: rs => touched os rs acc
  | _, _ => acc
  end.

(** The distinct keys of a list in the order of their first occurrence. *)
Fixpoint distinct (l : list K) : list K :=
  match l with
  | [] => []
  | k :: r => k :: filter (fun k' => k' <> k) (distinct r)
  end.

(** A call that removes nothing explicitly. *)
Definition no_remove (o : rop K V) : Prop :=
  match o with RRemove _ | RRemoveMulti _ => False | _ => True end.
End spec.
