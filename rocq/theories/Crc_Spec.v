(** What the CRC standards say.  A polynomial over GF(2) is the number of its coefficient bits: addition is xor,
    multiplication by x^e is a left shift by e. *)
From Coq Require Import ZArith List.
Import ListNotations.
Local Open Scope Z_scope.

(** q(x) times the sum of the x^e, e in [exps]. *)
Fixpoint pmul (q : Z) (exps : list Z) : Z :=
  match exps with
  | [] => 0
  | e :: es => Z.lxor (Z.shiftl q e) (pmul q es)
  end.

(** IEEE 802.3: x^32 + x^26 + x^23 + x^22 + x^16 + x^12 + x^11 + x^10 + x^8 + x^7 + x^5 + x^4 + x^2 + x + 1. *)
Definition ieee802_3 : list Z := [32; 26; 23; 22; 16; 12; 11; 10; 8; 7; 5; 4; 2; 1; 0].

(** ECMA-182: x^64 + x^62 + x^57 + ... + x^4 + x + 1. *)
Definition ecma182 : list Z :=
  [64; 62; 57; 55; 54; 53; 52; 47; 46; 45; 40; 39; 38; 37; 35; 33; 32; 31; 29; 27; 24; 23; 22; 21; 19; 17; 13; 12; 10;
   9; 7; 4; 1; 0].

(** Bit [p] of a message, in the order the standards send bits: bit [p mod 8] of byte [p / 8]. *)
Definition msg_bit (m : list Z) (p : nat) : bool := Z.testbit (nth (p / 8) m 0) (Z.of_nat (p mod 8)).

(** All bits of the message in that order. *)
Definition stream (m : list Z) : list bool := map (msg_bit m) (seq 0 (8 * length m)).

(** The first bit sent is the coefficient of the highest power. *)
Fixpoint poly_of (bits : list bool) : Z :=
  match bits with
  | [] => 0
  | b :: bs => Z.lxor (Z.shiftl (Z.b2z b) (Z.of_nat (length bs))) (poly_of bs)
  end.

(** [c] is the [w]-bit CRC of [m] for the generator with exponents [g], as ISO 3309 words it: divide by the generator
    the message times x^w plus the polynomial x^k (x^(w-1) + ... + 1), k the number of message bits; the CRC is the
    complement of the remainder, its first bit (bit 0 of [c]) being the coefficient of x^(w-1). *)
Definition is_crc_w (w : Z) (g : list Z) (m : list Z) (c : Z) : Prop :=
  0 <= c < 2^w /\
  exists q r, 0 <= q /\ 0 <= r < 2^w /\
    Z.lxor (Z.shiftl (poly_of (stream m)) w) (Z.shiftl (2^w - 1) (8 * Z.of_nat (length m))) = Z.lxor (pmul q g) r /\
    forall i, 0 <= i < w -> Z.testbit c i = negb (Z.testbit r (w - 1 - i)).

(** [m'] is [m] with exactly the bits at the (distinct) positions [ps] flipped. *)
Definition flipped (m m' : list Z) (ps : list nat) : Prop :=
  length m = length m' /\ NoDup ps /\ forall p, msg_bit m p <> msg_bit m' p <-> In p ps.

(** The little-endian bytes of a number. *)
Fixpoint le_bytes (n : nat) (z : Z) : list Z :=
  match n with
  | O => []
  | S n' => (z mod 256) :: le_bytes n' (z / 256)
  end.
