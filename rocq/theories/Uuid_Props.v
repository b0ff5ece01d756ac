(** Properties C09-C13 of uuid/uuid.go. *)
From Coq Require Import ZArith List Bool Lia.
From Verif Require Import GoInt Num_Model Num_Spec Num_Proofs Base58_Model Base58_Proofs Uuid_Model Uuid_Spec Uuid_Proofs.
Import ListNotations.
Local Open Scope Z_scope.

(** C09. Whatever the hash and the sequence, the result is a version 4, variant 10 UUID. *)
Theorem c09_uuid_version_variant :
  forall h seq, is_uuid (NewUUID h seq) /\ Version (NewUUID h seq) = 4 /\ variant_bits_10 (NewUUID h seq).
Proof. intros h s. destruct (NewUUID_shape h s) as (A & B & C & _). exact (conj A (conj B C)). Qed.
Print Assumptions c09_uuid_version_variant.

(** C09. The text form is 8-4-4-4-12 lower-case hex. *)
Theorem c09_uuid_string_shape :
  forall u, is_uuid u -> length (String_ u) = 36%nat /\
    forall i, (i < 36)%nat -> (is_sep_pos i -> nth i (String_ u) 0 = 45) /\
                              (~ is_sep_pos i -> is_hex_lower (nth i (String_ u) 0)).
Proof. exact string_shape. Qed.
Print Assumptions c09_uuid_string_shape.
Example c09_ex : NewUUID (2^64 - 1) (2^60 - 5) =
  [255;255;255;255;255;255;79;255;143;255;255;255;255;255;255;251].
Proof. vm_compute. reflexivity. Qed.

(** C10. Parse inverts String. *)
Theorem c10_uuid_parse_string : forall u, is_uuid u -> Parse (String_ u) = Some u.
Proof. exact parse_string. Qed.
Print Assumptions c10_uuid_parse_string.

(** C10. Exactly which strings Parse accepts; what it returns is a UUID. *)
Theorem c10_uuid_parse_language :
  forall s, (exists u, Parse s = Some u) <->
    (length s = 36%nat /\ forall i, (i < 36)%nat -> ~ is_sep_pos i -> is_hex (nth i s 0)).
Proof. exact parse_iff. Qed.
Print Assumptions c10_uuid_parse_language.
Theorem c10_uuid_parse_result : forall s u, Parse s = Some u -> is_uuid u.
Proof. exact parse_uuid. Qed.
Print Assumptions c10_uuid_parse_result.
(** C10. And what it returns is what is written: its String is the input with lower-case letters and dashes. *)
Theorem c10_uuid_parse_value : forall s u, Parse s = Some u ->
  forall i, (i < 36)%nat -> ~ is_sep_pos i -> nth i (String_ u) 0 = lower (nth i s 0).
Proof. exact parse_value. Qed.
Print Assumptions c10_uuid_parse_value.
Example c10_ex : let u := [1;35;69;103;137;171;77;239;143;255;0;0;0;0;0;251] in
  is_uuid u /\ Parse (String_ u) = Some u /\
  Parse (upd 8 120 (String_ u)) = Some u (* 'x' as a separator is accepted *) /\
  Parse (upd 0 120 (String_ u)) = None.
Proof.
  split; [split; [reflexivity|repeat (constructor; [lia|]); constructor]|]. vm_compute. auto.
Qed.

(** C11. Under every interleaving with at most 2^62 calls all returned UUIDs differ. *)
Theorem c11_uuid_unique :
  forall start events, is_u64 start -> adds events <= 2^62 -> NoDup (out (gen_run start events)).
Proof. exact gen_unique. Qed.
Print Assumptions c11_uuid_unique.
(** Three goroutines, interleaved, with the same hash value for all: still distinct. *)
Example c11_ex : let es := [EAdd 1; EAdd 2; EFin 2 7; EAdd 3; EFin 1 7; EFin 3 7] in
  adds es = 3 /\ length (out (gen_run (2^64 - 2) es)) = 3%nat /\ is_u64 (2^64 - 2).
Proof. vm_compute. repeat split; discriminate. Qed.

(** The bound is about the hash being arbitrary: 2^62 + 1 sequence numbers collide on 62 bits. *)
Theorem c11_uuid_wraps_refuted :
  exists h s s', s <> s' /\ 0 <= s < 2^63 /\ 0 <= s' < 2^63 /\ NewUUID h s = NewUUID h s'.
Proof. exists 0, 5, (5 + 2^62). vm_compute. repeat split; discriminate. Qed.
Print Assumptions c11_uuid_wraps_refuted.

(** C12, the part that holds: 0xx gives 0, 110 gives 2, and 100xxxxx gives 1. *)
Theorem c12_uuid_variant_partial :
  forall u, is_uuid u ->
    (variant_bits_0 u -> Variant u = 0) /\
    (variant_bits_110 u -> Variant u = 2) /\
    (variant_bits_10 u -> (Variant u = 1 <-> nth 8 u 0 < 160)).
Proof.
  intros u Hu. rewrite (Variant_spec u Hu).
  unfold variant_bits_0, variant_bits_110, variant_bits_10.
  repeat split; intros; repeat match goal with |- context [if ?b then _ else _] => destruct b eqn:? end; try lia;
  repeat match goal with H : context [if ?b then _ else _] |- _ => destruct b eqn:? end; lia.
Qed.
Print Assumptions c12_uuid_variant_partial.

(** C12 fails: a generated, correctly tagged UUID for which Variant answers 0. *)
Theorem c12_uuid_variant_refuted :
  exists h s, 0 <= s < 2^62 /\ variant_bits_10 (NewUUID h s) /\ Variant (NewUUID h s) = 0.
Proof. exists 0, (2^61). vm_compute. repeat split; discriminate. Qed.
Print Assumptions c12_uuid_variant_refuted.

(** C12. It is right for sequence values below 2^61 (the counter starts below 2^60). *)
Theorem c12_uuid_variant_early_partial :
  forall h s, 0 <= s < 2^61 -> Variant (NewUUID h s) = 1.
Proof.
  intros h s Hs. destruct (NewUUID_shape h s) as (U & _).
  rewrite (Variant_spec _ U), byte8_seq.
  assert (0 <= s / 2^56 < 32) by (split; [apply Z.div_pos; lia|apply Z.div_lt_upper_bound; lia]).
  rewrite (Z.mod_small (s / 2^56) 64) by lia.
  destruct ((128 <=? 128 + s / 2^56) && (128 + s / 2^56 <? 160)) eqn:E; [reflexivity|lia].
Qed.
Print Assumptions c12_uuid_variant_early_partial.
Example c12_ex : Variant (NewUUID 1 (2^60 + 3)) = 1 /\ Variant (upd 8 200 (NewUUID 1 1)) = 2.
Proof. vm_compute. auto. Qed.

(** C13, the part that holds: Equals implies equal contents (it is the same object). *)
Theorem c13_uuid_equals_partial :
  forall (heap : nat -> list Z) p q, Equals p (Some q) = true -> heap p = heap q.
Proof. intros heap p q H. apply Nat.eqb_eq in H. subst. reflexivity. Qed.
Print Assumptions c13_uuid_equals_partial.
(** C13 fails: two pointers to equal UUIDs. *)
Theorem c13_uuid_equals_refuted :
  exists (heap : nat -> list Z) p q, heap p = heap q /\ is_uuid (heap p) /\ Equals p (Some q) = false.
Proof.
  exists (fun _ => NewUUID 3 4), 0%nat, 1%nat. split; [reflexivity|]. split; [|reflexivity].
  apply NewUUID_shape.
Qed.
Print Assumptions c13_uuid_equals_refuted.

(** C79. Base58() of a UUID decodes back to its Int64(). *)
Theorem c79_uuid_base58 :
  forall u, is_uuid u -> DecodeForInt64 (Base58_ u) = (u64 (Int64_ u), true).
Proof. intros u _. unfold Base58_. apply encode_decode. apply u64_range. Qed.
Print Assumptions c79_uuid_base58.
(** C79. The number shown is that of the first eight bytes. *)
Theorem c79_uuid_first_half : forall u, is_uuid u ->
  signed_reading 8 (be_value (firstn 8 u)) (Int64_ u) /\ DecodeForInt64 (Base58_ u) = (be_value (firstn 8 u), true).
Proof.
  intros u Hu. pose proof (c79_uuid_base58 u Hu) as Hd. destruct Hu as [Hl Hb].
  assert (Hf : is_bytes (firstn 8 u)) by (apply is_bytes_firstn; exact Hb). assert (Hfl : length (firstn 8 u) = 8%nat) by (rewrite firstn_length; lia).
  assert (Hs : signed_reading 8 (be_value (firstn 8 u)) (get_int 8 (firstn 8 u))).
  { rewrite get_int_long by (auto; lia). rewrite firstn_firstn. apply (signed_reading_wrapS 8). lia. }
  split; [exact Hs|]. rewrite Hd. f_equal. change (Int64_ u) with (get_int 8 (firstn 8 u)). destruct Hs as [_ [k ->]].
  pose proof (be_value_bound _ Hf) as Hbb. rewrite Hfl in Hbb. unfold u64. change (256 ^ Z.of_nat 8) with (2 ^ 64) in *. rewrite Z.mod_add by lia. apply Z.mod_small. exact Hbb.
Qed.
Print Assumptions c79_uuid_first_half.
Example c79_ex : Base58_ (NewUUID 58 1) = Base58_ (repeat 0 6 ++ [64; 58] ++ repeat 0 8) /\ Int64_ (NewUUID 58 1) = 16384 + 58.
Proof. vm_compute. auto. Qed.
