(** What it means that numbers repeat, and how likely that is. *)
From Coq Require Import ZArith List Bool Reals.
From Verif Require Import Uuid_Model BloomRate_Spec.
Import ListNotations.
Local Open Scope Z_scope.

(** Some number occurs twice. *)
Fixpoint repeats (l : list Z) : bool :=
  match l with
  | [] => false
  | x :: r => existsb (Z.eqb x) r || repeats r
  end.
(** The share of the lists of [n] numbers below 2^64, all equally likely, of which [bad] holds. *)
Definition chance (n : nat) (bad : list Z -> bool) : R := (IZR (Z.of_nat (length (filter bad (tables (2 ^ 64) n)))) / IZR ((2 ^ 64) ^ Z.of_nat n))%R.
(** The same run, in which the calls that return find the hash values [t], one after the other. *)
Fixpoint hashing (t : list Z) (es : list gen_event) : list gen_event :=
  match es with
  | [] => []
  | EAdd g :: r => EAdd g :: hashing t r
  | EFin g _ :: r => EFin g (hd 0 t) :: hashing (tl t) r
  end.
(** How many calls return. *)
Definition returns (es : list gen_event) : nat := length (filter (fun e => match e with EFin _ _ => true | EAdd _ => false end) es).
