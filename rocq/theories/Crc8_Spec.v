(** What an 8-bit CRC is, with polynomials over GF(2) written as the numbers of their
    coefficient bits: addition is xor, multiplication by x^k is a left shift. *)
From Coq Require Import ZArith List.
From Verif Require Import Num_Spec.
Import ListNotations.
Local Open Scope Z_scope.

(** q(x) * (x^8 + x^2 + x + 1) over GF(2). *)
Definition timesP (q : Z) : Z :=
  Z.lxor (Z.shiftl q 8) (Z.lxor (Z.shiftl q 2) (Z.lxor (Z.shiftl q 1) q)).

(** [c] is the remainder of M(x)*x^8 divided by x^8+x^2+x+1, where M is the message read
    as one big-endian polynomial. *)
Definition is_crc (m : list Z) (c : Z) : Prop :=
  0 <= c < 256 /\ exists q, 0 <= q /\ Z.shiftl (be_value m) 8 = Z.lxor (timesP q) c.

(** The bit error pattern between two messages of equal length. *)
Definition error_pattern (m m' : list Z) : Z := Z.lxor (be_value m) (be_value m').

(** Parity of the number of one bits. *)
Fixpoint pos_parity (p : positive) : bool :=
  match p with
  | xH => true
  | xO p' => pos_parity p'
  | xI p' => negb (pos_parity p')
  end.
Definition odd_weight (z : Z) : bool :=
  match z with Zpos p => pos_parity p | _ => false end.
