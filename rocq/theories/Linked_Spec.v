(** What a bounded linked map is: a list of (key, value) pairs with distinct keys, newest first. *)
From stdpp Require Import gmap.
From Coq Require Import ZArith.
From Verif Require Import Assoc_Spec Linked_Model.
Local Open Scope Z_scope.

Section spec.
Context {K V : Type} `{EqDecision K}.
Implicit Types s : list (K * V).

(** Insert at the front; only a new key can overflow the limit, and then the oldest entry goes. *)
Definition spec_put (limit : Z) (k : K) (v : V) s : list (K * V) :=
  match find_key k s with
  | Some _ => (k, v) :: without k s
  | None =>
      if Z.of_nat (S (length s)) <=? limit then (k, v) :: s
      else removelast ((k, v) :: s)
  end.

Definition spec_step (limit : Z) s (o : op K V) : res K V * list (K * V) :=
  match o with
  | OPut k v => (RUnit, spec_put limit k v s)
  | OLoadOrStore k v => (RVal (find_key k s), spec_put limit k v s)
  | OGet k => (RVal (find_key k s), s)
  | ODelete k => (RUnit, without k s)
  | OBack => (RPair (last s), s)
  | OFront => (RPair (head s), s)
  | OClear => (RUnit, [])
  | OLen => (RLen (Z.of_nat (length s)), s)
  | OMoveToFront k =>
      (RUnit, match find_key k s with Some v => (k, v) :: without k s | None => s end)
  end.

Fixpoint spec_run (limit : Z) s (os : list (op K V)) : list (res K V) * list (K * V) :=
  match os with
  | [] => ([], s)
  | o :: r => let '(x, s1) := spec_step limit s o in
              let '(xs, s2) := spec_run limit s1 r in (x :: xs, s2)
  end.

(** The entries in iteration order: newest first or oldest first. *)
Definition in_order (newest_first : bool) s : list (K * V) := if newest_first then s else rev s.

(** What [n] reads of a cursor over [l] give: the elements in order, then nothing. *)
Definition reads (n : nat) (l : list (K * V)) : list (option (K * V)) :=
  map (fun i => nth_error l i) (seq 0 n).

(** Reads of [n] entries followed by the removal of those among them that satisfy [del]. *)
Definition without_read (del : K * V -> bool) (n : nat) (l : list (K * V)) : list (K * V) :=
  List.filter (fun p => negb (del p)) (firstn n l) ++ skipn n l.

(** The call stores a (new) entry for [k0]. *)
Definition restores (k0 : K) (o : op K V) : Prop :=
  match o with OPut k _ | OLoadOrStore k _ => k = k0 | _ => False end.

(** Throughout the history the key [k0] stays in the map and is not stored again. *)
Fixpoint stays (k0 : K) (limit : Z) s (os : list (op K V)) : Prop :=
  match os with
  | [] => True
  | o :: r => ~ restores k0 o /\ find_key k0 (spec_step limit s o).2 <> None /\
              stays k0 limit (spec_step limit s o).2 r
  end.
End spec.
