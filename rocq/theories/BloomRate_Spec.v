(** What a Bloom filter's sizes and its rate of false positives are, independently of its arrays. *)
From Coq Require Import ZArith List Bool Reals.
From Flocq Require Import Core BinarySingleNaN.
From Verif Require Import GoFloat Bloom_Model.
Import ListNotations.
Local Open Scope Z_scope.

(** math.Log as documented: less than one unit in the last place wrong. *)
Definition log_ok (Log : f64 -> f64) : Prop := forall x, is_finite x = true -> (0 < B2R x)%R ->
  is_finite (Log x) = true /\ (Rabs (B2R (Log x) - ln (B2R x)) <= / 4503599627370496 * Rabs (ln (B2R x)))%R.

(** All lists of [c] numbers below [M]. *)
Fixpoint tables (M : Z) (c : nat) : list (list Z) :=
  match c with
  | O => [[]]
  | S c => flat_map (fun v => map (cons (Z.of_nat v)) (tables M c)) (seq 0 (Z.to_nat M))
  end.
(** The hash functions of a table with [K] entries for each item. *)
Definition hash_in (K : Z) (t : list Z) (i : Z) (x : nat) : Z := nth (x * Z.to_nat K + Z.to_nat i)%nat t 0.
(** The adds of items 0, 1, ..., N-1. *)
Definition add_all (N : nat) : list (bop nat) := map BAdd (seq 0 N).
(** In how many tables Contains is true for item [N], which was not added. *)
Definition false_positives (E m k : Z) (N : nat) : Z :=
  let K := clamp_k k in
  Z.of_nat (length (filter (fun t => fst (Contains (hash_in K t) (brun (hash_in K t) E m k (add_all N)) N))
                           (tables (64 * words m) (Z.to_nat K * (N + 1))))).
(** The rate: each table is as likely as any other. *)
Definition rate (E m k : Z) (N : nat) : R :=
  (IZR (false_positives E m k N) / IZR ((64 * words m) ^ Z.of_nat (Z.to_nat (clamp_k k) * (N + 1))))%R.
