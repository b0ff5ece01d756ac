(** Vocabulary for the base58 properties, independent of the model: which characters are
    base58 digits, what a digit is worth, what a digit string is worth. *)
From Coq Require Import ZArith List Bool.
Import ListNotations.
Local Open Scope Z_scope.

(** ASCII letters and digits without 0, I, O and l. *)
Definition is_b58_char (c : Z) : bool :=
  ((49 <=? c) && (c <=? 57)) ||
  ((65 <=? c) && (c <=? 90) && negb (c =? 73) && negb (c =? 79)) ||
  ((97 <=? c) && (c <=? 122) && negb (c =? 108)).

(** A character is worth the number of base58 characters with a smaller code. *)
Definition digit_value (c : Z) : Z :=
  Z.of_nat (length (filter is_b58_char (map Z.of_nat (seq 0 (Z.to_nat c))))).

(** Positional value, most significant digit first. *)
Fixpoint positional (cs : list Z) : Z :=
  match cs with
  | [] => 0
  | c :: rest => digit_value c * 58 ^ Z.of_nat (length rest) + positional rest
  end.

(** Byte-wise comparison of equally long strings. *)
Fixpoint bytes_lt (a b : list Z) : Prop :=
  match a, b with
  | x :: a', y :: b' => x < y \/ (x = y /\ bytes_lt a' b')
  | _, _ => False
  end.

(** Shorter first, then byte-wise. *)
Definition shortlex_lt (a b : list Z) : Prop :=
  (length a < length b)%nat \/ (length a = length b /\ bytes_lt a b).
