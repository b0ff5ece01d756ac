(** Properties C01-C03 of base58/base58.go. *)
From Coq Require Import ZArith List Bool Lia.
From Verif Require Import GoInt Base58_Model Base58_Spec Base58_Proofs.
Import ListNotations.
Local Open Scope Z_scope.

(** C01. Every uint64 survives encode-then-decode. *)
Theorem c01_base58_round_trip :
  forall v, is_u64 v -> DecodeForInt64 (EncodeForInt64 v) = (v, true).
Proof. exact encode_decode. Qed.
Print Assumptions c01_base58_round_trip.
Example c01_ex : DecodeForInt64 [106; 112; 88; 67; 90; 101; 100; 71; 102; 86; 81] = (2^64 - 1, true)
  /\ EncodeForInt64 (2^64 - 1) = [106; 112; 88; 67; 90; 101; 100; 71; 102; 86; 81]
  /\ EncodeForInt64 0 = [].
Proof. vm_compute. repeat split. Qed.

(** C02. Only base58 characters, worth the encoded number, no leading '1', at most 11. *)
Theorem c02_base58_canonical :
  forall v, is_u64 v ->
    Forall (fun c => is_b58_char c = true) (EncodeForInt64 v) /\
    positional (EncodeForInt64 v) = v /\
    (forall c rest, EncodeForInt64 v = c :: rest -> c <> 49) /\
    (length (EncodeForInt64 v) <= 11)%nat.
Proof.
  intros v Hv. assert (0 <= v) by (destruct Hv; lia).
  destruct (encode_spec v H) as [H1 [H2 _]].
  split; [|split; [|split]].
  - apply Forall_forall. apply forallb_forall. exact H2.
  - exact H1.
  - exact (encode_no_leading_one v H).
  - exact (encode_length v Hv).
Qed.
Print Assumptions c02_base58_canonical.

(** C02. Numeric order is shortlex order of the encodings. *)
Theorem c02_base58_order :
  forall a b, is_u64 a -> is_u64 b ->
    (a < b <-> shortlex_lt (EncodeForInt64 a) (EncodeForInt64 b)).
Proof. intros a b [Ha _] [Hb _]. exact (encode_order a b Ha Hb). Qed.
Print Assumptions c02_base58_order.

(** C02. Distinct values have distinct encodings. *)
Theorem c02_base58_injective :
  forall a b, is_u64 a -> is_u64 b -> EncodeForInt64 a = EncodeForInt64 b -> a = b.
Proof.
  intros a b Ha Hb H. pose proof (encode_decode a Ha) as E1. pose proof (encode_decode b Hb) as E2.
  rewrite H, E2 in E1. congruence.
Qed.
Print Assumptions c02_base58_injective.
Example c02_ex : EncodeForInt64 57 = [122] /\ EncodeForInt64 58 = [50; 49]
  /\ shortlex_lt (EncodeForInt64 57) (EncodeForInt64 58).
Proof. vm_compute. intuition. Qed.

(** C03. Decoding fails exactly on a character outside the alphabet. *)
Theorem c03_base58_decode_rejects :
  forall bs, snd (DecodeForInt64 bs) = false <-> Exists (fun c => is_b58_char c = false) bs.
Proof.
  intros bs. destruct (forallb is_b58_char bs) eqn:E.
  - rewrite decode_spec_ok by exact E. cbn. split; [discriminate|].
    intros H. apply Exists_exists in H as [x [Hx Hf]].
    rewrite forallb_forall in E. rewrite (E x Hx) in Hf. discriminate.
  - rewrite decode_spec_bad by exact E. cbn. split; auto. intros _.
    destruct (Exists_dec (fun c => is_b58_char c = false) bs) as [H|H]; auto.
    { intros x. destruct (is_b58_char x); [right; discriminate|left; reflexivity]. }
    exfalso. enough (forallb is_b58_char bs = true) by congruence.
    apply forallb_forall. intros x Hx. destruct (is_b58_char x) eqn:Ex; auto.
    exfalso. apply H. apply Exists_exists. eauto.
Qed.
Print Assumptions c03_base58_decode_rejects.

Theorem c03_base58_decode_failure_is_zero :
  forall bs, snd (DecodeForInt64 bs) = false -> fst (DecodeForInt64 bs) = 0.
Proof.
  intros bs. destruct (forallb is_b58_char bs) eqn:E.
  - rewrite decode_spec_ok by exact E. discriminate.
  - rewrite decode_spec_bad by exact E. reflexivity.
Qed.
Print Assumptions c03_base58_decode_failure_is_zero.

(** C03. On alphabet strings of any length the result is the positional value mod 2^64. *)
Theorem c03_base58_decode_value :
  forall bs, Forall (fun c => is_b58_char c = true) bs ->
    DecodeForInt64 bs = (positional bs mod 2^64, true).
Proof.
  intros bs H. apply decode_spec_ok. apply forallb_forall. apply Forall_forall. exact H.
Qed.
Print Assumptions c03_base58_decode_value.
Example c03_ex : DecodeForInt64 [50; 49; 48] = (0, false) /\ DecodeForInt64 [50; 49; 50] = (58 * 58 + 1, true).
Proof. vm_compute. repeat split. Qed.

(** C03. Accepted strings are not canonical: leading '1's and over-long strings that wrap. *)
Theorem c03_base58_decode_not_injective_refuted :
  exists a b, a <> b /\ DecodeForInt64 a = DecodeForInt64 b /\ snd (DecodeForInt64 a) = true.
Proof. exists [49; 50], [50]. vm_compute. intuition discriminate. Qed.
Print Assumptions c03_base58_decode_not_injective_refuted.

Theorem c03_base58_decode_overflow_refuted :
  exists bs, snd (DecodeForInt64 bs) = true /\ fst (DecodeForInt64 bs) <> positional bs /\
             hd 0 bs <> 49.
Proof.
  exists (122 :: repeat 122 10). split; [vm_compute; reflexivity|]. split; vm_compute; discriminate.
Qed.
Print Assumptions c03_base58_decode_overflow_refuted.
