(** C109 to C111: snappy. *)
From stdpp Require Import list.
From Coq Require Import ZArith Lia.
From Verif Require Import GoInt Snappy_Spec Snappy_Model Snappy_Proofs.
Local Open Scope Z_scope.

(** C109.  Every byte slice whose bound n + n/6 + 32 fits into 32 bits is encoded without a panic, to bytes of the snappy format for it, no longer than the bound, and
    SnappyDecode returns exactly it. *)
Theorem c109_round_trip : forall src, is_bytes src -> 32 + Z.of_nat (length src) + Z.of_nat (length src) / 6 < 2 ^ 32 ->
  exists w, SnappyEncode src = Some w /\ SnappyDecode w = src /\ is_bytes w /\ snappy w src /\
            Z.of_nat (length w) <= 32 + Z.of_nat (length src) + Z.of_nat (length src) / 6.
Proof.
  intros src Hb Hl. change (2 ^ 32) with 4294967296 in Hl. destruct (encode_ok src Hb ltac:(lia)) as (w & He & Hs & Hw & Hlen). exists w. split; [exact He|]. split; [|auto].
  unfold SnappyDecode. rewrite (proj2 (Decode_iff w src Hw) Hs). reflexivity.
Qed.
Print Assumptions c109_round_trip.
(** C109.  Longer slices make SnappyEncode panic. *)
Theorem c109_too_large : forall src, 2 ^ 32 <= 32 + Z.of_nat (length src) + Z.of_nat (length src) / 6 -> SnappyEncode src = None.
Proof.
  intros src Hl. change (2 ^ 32) with 4294967296 in Hl. unfold SnappyEncode, MaxEncodedLen. destruct (_ <? _); [reflexivity|].
  assert (4294967295 <? 32 + Z.of_nat (length src) + Z.of_nat (length src) / 6 = true) as -> by lia. reflexivity.
Qed.
Print Assumptions c109_too_large.
Example c109_ex : let src := concat (replicate 9 [1; 2; 3; 4; 5; 6; 7; 8; 9; 10]) ++ [0; 255; 0; 255; 1; 2; 3; 4; 5; 6; 7; 8; 9; 10; 11; 12; 13; 14; 15; 16] in
  is_bytes src /\ SnappyEncode src = Some [110; 36; 1; 2; 3; 4; 5; 6; 7; 8; 9; 10; 254; 10; 0; 62; 10; 0; 12; 0; 255; 0; 255; 25; 84; 20; 11; 12; 13; 14; 15; 16] /\
  (exists n, 2 ^ 32 <= 32 + Z.of_nat n + Z.of_nat n / 6).
Proof.
  split; [apply (bool_decide_unpack _); vm_compute; exact I|]. split; [vm_compute; reflexivity|]. exists (Z.to_nat (2 ^ 32)). rewrite Z2Nat.id by lia. change (2^32) with 4294967296.
  assert (0 <= 4294967296 / 6) by (apply Z.div_pos; lia). lia.
Qed.

(** C110.  Decoding succeeds exactly on the bytes of the format, with exactly the meaning of the format. *)
Theorem c110_decode_exactly : forall w out, is_bytes w -> (Decode w = Some out <-> snappy w out).
Proof. exact Decode_iff. Qed.
Print Assumptions c110_decode_exactly.
(** C110.  A stream has one meaning. *)
Theorem c110_one_meaning : forall w a b, is_bytes w -> snappy w a -> snappy w b -> a = b.
Proof. intros w a b Hw Ha Hb. apply Decode_iff in Ha; [|assumption]. apply Decode_iff in Hb; [|assumption]. congruence. Qed.
Print Assumptions c110_one_meaning.
Example c110_ex : snappy [5; 4; 97; 98; 2 + 4 * 2; 2; 0] [97; 98; 97; 98; 97] /\ ~ (exists out, snappy [5; 4; 97; 98; 2 + 4 * 2; 3; 0] out).
Proof.
  split; [apply c110_decode_exactly; [apply (bool_decide_unpack _); vm_compute; exact I|reflexivity]|].
  intros (out & H). apply c110_decode_exactly in H; [|apply (bool_decide_unpack _); vm_compute; exact I]. discriminate H.
Qed.

(** C111 is false: bytes that are no snappy give the same answer, nil, as the encoding of no bytes. *)
Theorem c111_errors_refuted : exists bad good, is_bytes bad /\ is_bytes good /\ ~ (exists out, snappy bad out) /\ SnappyEncode [] = Some good /\ snappy good [] /\
  SnappyDecode bad = SnappyDecode good.
Proof.
  exists [1; 0], [0]. assert (is_bytes [1; 0]) as H1 by (apply (bool_decide_unpack _); vm_compute; exact I). assert (is_bytes [0]) as H0 by (apply (bool_decide_unpack _); vm_compute; exact I).
  split; [exact H1|]. split; [exact H0|]. split; [intros (out & H); apply c110_decode_exactly in H; [discriminate H|exact H1]|]. split; [reflexivity|].
  split; [apply c110_decode_exactly; [exact H0|reflexivity]|reflexivity].
Qed.
Print Assumptions c111_errors_refuted.
(** C111, what does hold: an answer that is not nil is what the input stands for, and an input that is not of the format gives nil.  Missing: telling nil from no bytes. *)
Theorem c111_errors_partial : forall w, is_bytes w ->
  (SnappyDecode w <> [] -> snappy w (SnappyDecode w)) /\ (~ (exists out, snappy w out) -> SnappyDecode w = []).
Proof.
  intros w Hw. unfold SnappyDecode. destruct (Decode w) as [out|] eqn:E; cbn [default].
  - apply Decode_iff in E; [|assumption]. split; [auto|]. intros H. exfalso. apply H. exists out. exact E.
  - split; [intros H; contradiction|reflexivity].
Qed.
Print Assumptions c111_errors_partial.
Example c111_ex : SnappyDecode [3; 8; 7; 8; 9] = [7; 8; 9] /\ SnappyDecode [3; 8; 7; 8] = [].
Proof. split; reflexivity. Qed.
