(** Vocabulary for the UUID properties. *)
From Coq Require Import ZArith List Bool.
Import ListNotations.
Local Open Scope Z_scope.

(** A UUID is 16 bytes. *)
Definition is_uuid (u : list Z) : Prop :=
  length u = 16%nat /\ Forall (fun b => 0 <= b < 256) u.

Definition is_hex_lower (c : Z) : Prop := 48 <= c <= 57 \/ 97 <= c <= 102.
Definition is_hex (c : Z) : Prop := is_hex_lower c \/ 65 <= c <= 70.

(** The four separator positions of the 8-4-4-4-12 form. *)
Definition is_sep_pos (i : nat) : Prop := i = 8%nat \/ i = 13%nat \/ i = 18%nat \/ i = 23%nat.

(** RFC 4122 section 4.1.1: the variant is given by the top bits of byte 8. *)
Definition variant_bits_10 (u : list Z) : Prop := 128 <= nth 8 u 0 < 192.
Definition variant_bits_110 (u : list Z) : Prop := 192 <= nth 8 u 0 < 224.
Definition variant_bits_0 (u : list Z) : Prop := 0 <= nth 8 u 0 < 128.
(** The lower-case form of a letter. *)
Definition lower (c : Z) : Z := if (65 <=? c) && (c <=? 90) then c + 32 else c.
