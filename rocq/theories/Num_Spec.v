(** Vocabulary for the integer codecs: unsigned big-endian value of a byte string and the
    signed reading of it, defined without shifts or masks. *)
From Coq Require Import ZArith List.
Import ListNotations.
Local Open Scope Z_scope.

(** Unsigned big-endian value. *)
Fixpoint be_value (bs : list Z) : Z :=
  match bs with
  | [] => 0
  | b :: rest => b * 256 ^ Z.of_nat (length rest) + be_value rest
  end.

(** [z] is the two's complement reading on [w] bytes of the number [u]. *)
Definition signed_reading (w : nat) (u z : Z) : Prop :=
  - (256 ^ Z.of_nat w) <= 2 * z < 256 ^ Z.of_nat w /\
  exists k, z = u + k * 256 ^ Z.of_nat w.
