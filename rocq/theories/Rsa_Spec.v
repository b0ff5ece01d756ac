(** RSA keys and the padding of PKCS #1 version 1.5 (RFC 8017, 3.2 and 7.2.1), without reference to the code. *)
From stdpp Require Import list.
From Coq Require Import ZArith Znumtheory.
Local Open Scope Z_scope.

Definition prod (l : list Z) : Z := fold_right Z.mul 1 l.
(** The modulus is a product of different odd primes, and [e] and [d] undo each other modulo each of the primes less one. *)
Definition rsa_pair (n e d : Z) (primes : list Z) : Prop :=
  n = prod primes /\ NoDup primes /\ (forall p, p ∈ primes -> prime p /\ p <> 2 /\ (p - 1 | e * d - 1)) /\ 0 < e /\ 0 < d.
(** The number [k] of bytes of the modulus. *)
Definition bytes_of_modulus (n : Z) (k : nat) : Prop := (0 < k)%nat /\ 256 ^ (Z.of_nat k - 1) <= n < 256 ^ Z.of_nat k.
(** The number a string of bytes stands for, most significant byte first. *)
Fixpoint number (bs : list Z) : Z := match bs with [] => 0 | b :: r => b * 256 ^ Z.of_nat (length r) + number r end.
Definition isbyte (b : Z) : Prop := 0 <= b < 256.
(** [em] is the message [m] padded to [k] bytes. *)
Definition padded (k : nat) (m em : list Z) : Prop :=
  exists ps, em = [0; 2] ++ ps ++ [0] ++ m /\ length em = k /\ (8 <= length ps)%nat /\ Forall (fun b => isbyte b /\ b <> 0) ps.
(** A source of random bytes that does not end too soon: [k] bytes, and behind them [k] bytes other than 66. *)
Definition enough_random (k : nat) (rnd : list Z) : Prop :=
  exists a b, rnd = a ++ b /\ length a = k /\ (k <= length (filter (fun c => c <> 66%Z) b))%nat.
