(** Go's fixed width integers and a few slice operations, shared by all models.

    A Go integer of any width is a [Z]; every operation that can overflow in Go is
    followed by one of the conversions below (Go spec, "Integer overflow" and
    "Conversions between numeric types": truncation modulo 2^n, two's complement). *)
From Coq Require Import ZArith List Bool Lia ZifyBool ZifyNat.
Import ListNotations.
Local Open Scope Z_scope.

(** Go conversion to byte/uint8 (language spec; used e.g. at util/num.go:18). *)
Definition u8 (z : Z) : Z := z mod 2^8.
(** Go conversion to uint32 (language spec). *)
Definition u32 (z : Z) : Z := z mod 2^32.
(** Go conversion to uint64 (language spec; used e.g. at base58/base58.go:37-38). *)
Definition u64 (z : Z) : Z := z mod 2^64.

(** Go conversion to a signed type of [n] bits (language spec). *)
Definition wrapS (n : Z) (z : Z) : Z :=
  let r := z mod 2^n in if r <? 2^(n-1) then r else r - 2^n.
(** Go conversion to int8, int16, int32, int64 (language spec; e.g. util/num.go:26,57,72). *)
Definition i8 (z : Z) : Z := wrapS 8 z.
Definition i16 (z : Z) : Z := wrapS 16 z.
Definition i32 (z : Z) : Z := wrapS 32 z.
Definition i64 (z : Z) : Z := wrapS 64 z.

(** The value ranges of the Go types. *)
Definition is_u8 (z : Z) : Prop := 0 <= z < 2^8.
Definition is_u64 (z : Z) : Prop := 0 <= z < 2^64.
Definition is_i8 (z : Z) : Prop := - 2^7 <= z < 2^7.
Definition is_i16 (z : Z) : Prop := - 2^15 <= z < 2^15.
Definition is_i32 (z : Z) : Prop := - 2^31 <= z < 2^31.
Definition is_i64 (z : Z) : Prop := - 2^63 <= z < 2^63.
(** A Go [[]byte] as the list of its bytes. *)
Definition is_bytes (bs : list Z) : Prop := Forall is_u8 bs.

(** Slice element assignment [s[i] = v] for an index in range (the callers stay in
    range; an index out of range would be a Go panic and leaves the list unchanged here). *)
Fixpoint upd {A} (i : nat) (v : A) (l : list A) : list A :=
  match l, i with
  | [], _ => []
  | _ :: r, O => v :: r
  | x :: r, S j => x :: upd j v r
  end.

Lemma upd_length {A} i (v : A) l : length (upd i v l) = length l.
Proof. revert i; induction l; intros [|i]; cbn; auto. Qed.

Lemma nth_upd {A} i j (v d : A) l :
  nth j (upd i v l) d = if Nat.eqb i j then (if Nat.ltb i (length l) then v else nth j l d) else nth j l d.
Proof.
  revert i j; induction l as [|x l IH]; intros i j.
  - cbn. destruct (Nat.eqb i j); destruct i; reflexivity.
  - destruct i, j; cbn; auto. rewrite IH.
    destruct (Nat.eqb i j); auto.
Qed.

Lemma u8_range z : is_u8 (u8 z).
Proof. unfold is_u8, u8. apply Z.mod_pos_bound. lia. Qed.
Lemma u8_id z : is_u8 z -> u8 z = z.
Proof. unfold is_u8, u8. intros; apply Z.mod_small; lia. Qed.
Lemma u64_range z : is_u64 (u64 z).
Proof. unfold is_u64, u64. apply Z.mod_pos_bound. lia. Qed.
Lemma u64_id z : is_u64 z -> u64 z = z.
Proof. unfold is_u64, u64. intros; apply Z.mod_small; lia. Qed.

Lemma pow2_split n : 0 < n -> 2^n = 2 * 2^(n-1).
Proof. intros. rewrite <- Z.pow_succ_r by lia. f_equal. lia. Qed.

Lemma wrapS_range n z : 0 < n -> - 2^(n-1) <= wrapS n z < 2^(n-1).
Proof.
  intros Hn. unfold wrapS.
  pose proof (pow2_split n Hn). pose proof (Z.pow_pos_nonneg 2 (n-1)).
  pose proof (Z.mod_pos_bound z (2^n)).
  cbv zeta. destruct (z mod 2^n <? 2^(n-1)) eqn:E; lia.
Qed.

Lemma wrapS_mod n z : 0 < n -> wrapS n z mod 2^n = z mod 2^n.
Proof.
  intros Hn. unfold wrapS. pose proof (Z.pow_pos_nonneg 2 n).
  cbv zeta. destruct (z mod 2^n <? 2^(n-1)).
  - apply Z.mod_mod; lia.
  - replace (z mod 2^n - 2^n) with (z mod 2^n + (-1) * 2^n) by lia.
    rewrite Z.mod_add by lia. apply Z.mod_mod; lia.
Qed.

Lemma wrapS_id n z : 0 < n -> - 2^(n-1) <= z < 2^(n-1) -> wrapS n z = z.
Proof.
  intros Hn Hz. unfold wrapS. pose proof (pow2_split n Hn).
  cbv zeta. destruct (Z_lt_ge_dec z 0).
  - replace (z mod 2^n) with (z + 2^n).
    + destruct (z + 2^n <? 2^(n-1)) eqn:E; lia.
    + symmetry. rewrite <- (Z.mod_small (z + 2^n) (2^n)) by lia.
      rewrite <- (Z.mod_add z 1) by lia. f_equal. lia.
  - rewrite Z.mod_small by lia. destruct (z <? 2^(n-1)) eqn:E; lia.
Qed.

Lemma wrapS_eq_mod n a b : 0 < n -> a mod 2^n = b mod 2^n -> wrapS n a = wrapS n b.
Proof. intros Hn H. unfold wrapS. rewrite H. reflexivity. Qed.
