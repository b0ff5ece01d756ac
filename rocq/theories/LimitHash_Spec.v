(** What LimitHashMap is: independent first-in-first-out bounded maps, one per segment. A key is known only
    by its identity [ident k] and its segment [seg_of k]. *)
From stdpp Require Import prelude.
From Coq Require Import ZArith.
From Verif Require Import GoInt Assoc_Spec LimitHash_Model.
Local Open Scope Z_scope.

Section spec.
Context {K V I : Type} `{EqDecision I} (ident : K -> I) (seg_of : K -> nat) (is_nil : V -> bool).

(** Put into one segment holding [s], newest insertion first. *)
Definition hspec_put (cap : Z) (i : I) (v : V) (s : list (I * V)) : hres V * list (I * V) :=
  match find_key i s with
  | Some old => if is_nil old then (HPanic, s) else (HVal (Some old), set_key i v s)
  | None => (HVal None, (i, v) :: (if Z.of_nat (length s) <? cap then s else removelast s))
  end.

(** Get hides a nil value. *)
Definition hspec_get (i : I) (s : list (I * V)) : hres V :=
  match find_key i s with
  | Some v => if is_nil v then HVal None else HVal (Some v)
  | None => HVal None
  end.

(** The state gives, for every segment number, that segment's entries; [n] segments. *)
Definition hspec_step (n : nat) (cap : Z) (st : nat -> list (I * V)) (o : hop K V)
  : hres V * (nat -> list (I * V)) :=
  let at_seg k s' := fun j => if decide (j = seg_of k) then s' else st j in
  match o with
  | HPut k v => let '(r, s') := hspec_put cap (ident k) v (st (seg_of k)) in (r, at_seg k s')
  | HGet k => (hspec_get (ident k) (st (seg_of k)), st)
  | HDel k => (HUnit, at_seg k (without (ident k) (st (seg_of k))))
  | HContains k => (HBool (bool_decide (find_key (ident k) (st (seg_of k)) <> None)), st)
  | HClear => (HUnit, fun _ => [])
  | HLen => (HNum (Z.of_nat (sum_list_with (fun j => length (st j)) (seq 0 n))), st)
  end.

Fixpoint hspec_run (n : nat) (cap : Z) (st : nat -> list (I * V)) (os : list (hop K V))
  : list (hres V) * (nat -> list (I * V)) :=
  match os with
  | [] => ([], st)
  | o :: r => let '(x, st1) := hspec_step n cap st o in
              let '(xs, st2) := hspec_run n cap st1 r in (x :: xs, st2)
  end.
End spec.

(** The values of each integer key type. *)
Definition in_type (ty : ktype) (n : Z) : Prop :=
  match ty with
  | TUint64 | TUint | TUintptr => 0 <= n < 2^64
  | TFloat64 => 0 <= n < 2^64   (* bit patterns *)
  | TUint32 => 0 <= n < 2^32
  | TUint16 => 0 <= n < 2^16
  | TUint8 => 0 <= n < 2^8
  | TInt64 | TInt => -2^63 <= n < 2^63
  | TInt32 => -2^31 <= n < 2^31
  | TInt16 => -2^15 <= n < 2^15
  | TInt8 => -2^7 <= n < 2^7
  | TString => False
  end.

(** The keys mentioned in a history. *)
Definition op_key {K V} (o : hop K V) : list K :=
  match o with HPut k _ | HGet k | HDel k | HContains k => [k] | _ => [] end.
