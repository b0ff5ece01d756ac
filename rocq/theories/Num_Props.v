(** Properties C04-C06 of util/num.go. *)
From Coq Require Import ZArith List Bool Lia.
From Verif Require Import GoInt Num_Model Num_Spec Num_Proofs.
Import ListNotations.
Local Open Scope Z_scope.

(** C04. decode(encode n) = n for each width. *)
Theorem c04_int64_round_trip : forall n, is_i64 n -> BytesToInt64 (Int64ToBytes n) = n.
Proof. intros n H. exact (get_put 8 n ltac:(lia) H). Qed.
Print Assumptions c04_int64_round_trip.
Theorem c04_int32_round_trip : forall n, is_i32 n -> BytesToInt32 (Int32ToBytes n) = n.
Proof. intros n H. exact (get_put 4 n ltac:(lia) H). Qed.
Print Assumptions c04_int32_round_trip.
Theorem c04_int16_round_trip : forall n, is_i16 n -> BytesToInt16 (Int16ToBytes n) = n.
Proof. intros n H. exact (get_put 2 n ltac:(lia) H). Qed.
Print Assumptions c04_int16_round_trip.

(** C04. encode(decode bs) = bs for each full-width slice. *)
Theorem c04_bytes8_round_trip :
  forall bs, is_bytes bs -> length bs = 8%nat -> Int64ToBytes (BytesToInt64 bs) = bs.
Proof. intros bs H L. exact (put_get 8 bs ltac:(lia) H L). Qed.
Print Assumptions c04_bytes8_round_trip.
Theorem c04_bytes4_round_trip :
  forall bs, is_bytes bs -> length bs = 4%nat -> Int32ToBytes (BytesToInt32 bs) = bs.
Proof. intros bs H L. exact (put_get 4 bs ltac:(lia) H L). Qed.
Print Assumptions c04_bytes4_round_trip.
Theorem c04_bytes2_round_trip :
  forall bs, is_bytes bs -> length bs = 2%nat -> Int16ToBytes (BytesToInt16 bs) = bs.
Proof. intros bs H L. exact (put_get 2 bs ltac:(lia) H L). Qed.
Print Assumptions c04_bytes2_round_trip.

(** C04. The bytes are the big-endian two's complement representation. *)
Theorem c04_int64_big_endian : forall n, is_i64 n ->
  is_bytes (Int64ToBytes n) /\ length (Int64ToBytes n) = 8%nat /\
  be_value (Int64ToBytes n) = n mod 2^64.
Proof.
  intros n _. exact (conj (put_bytes_bytes 8 n) (conj (put_bytes_length 8 n) (put_bytes_value 8 n))).
Qed.
Print Assumptions c04_int64_big_endian.
Theorem c04_int32_big_endian : forall n, is_i32 n ->
  is_bytes (Int32ToBytes n) /\ length (Int32ToBytes n) = 4%nat /\
  be_value (Int32ToBytes n) = n mod 2^32.
Proof.
  intros n _. exact (conj (put_bytes_bytes 4 n) (conj (put_bytes_length 4 n) (put_bytes_value 4 n))).
Qed.
Print Assumptions c04_int32_big_endian.
Theorem c04_int16_big_endian : forall n, is_i16 n ->
  is_bytes (Int16ToBytes n) /\ length (Int16ToBytes n) = 2%nat /\
  be_value (Int16ToBytes n) = n mod 2^16.
Proof.
  intros n _. exact (conj (put_bytes_bytes 2 n) (conj (put_bytes_length 2 n) (put_bytes_value 2 n))).
Qed.
Print Assumptions c04_int16_big_endian.
Example c04_ex : Int64ToBytes (-2) = [255; 255; 255; 255; 255; 255; 255; 254]
  /\ BytesToInt64 [128; 0; 0; 0; 0; 0; 0; 1] = - 2^63 + 1 /\ is_i64 (- 2^63 + 1)
  /\ Int16ToBytes (-300) = [254; 212] /\ BytesToInt32 [255; 0; 0; 0] = - 2^24.
Proof. vm_compute. repeat split; discriminate. Qed.

(** C05. A short slice is read as its unsigned big-endian value, i.e. as the zero-padded slice. *)
Theorem c05_short_slices : forall bs, is_bytes bs ->
  ((length bs < 8)%nat -> BytesToInt64 bs = be_value bs /\
     BytesToInt64 bs = BytesToInt64 (repeat 0 (8 - length bs) ++ bs)) /\
  ((length bs < 4)%nat -> BytesToInt32 bs = be_value bs /\
     BytesToInt32 bs = BytesToInt32 (repeat 0 (4 - length bs) ++ bs)) /\
  ((length bs < 2)%nat -> BytesToInt16 bs = be_value bs /\
     BytesToInt16 bs = BytesToInt16 (repeat 0 (2 - length bs) ++ bs)).
Proof.
  intros bs Hb.
  assert (G : forall w, (0 < w)%nat -> (length bs < w)%nat ->
     get_int w bs = be_value bs /\ get_int w bs = get_int w (repeat 0 (w - length bs) ++ bs)).
  { intros w Hw Hl. destruct (get_int_short w bs Hb Hl) as [H1 H2]. split; auto. rewrite H2.
    apply wrapS_id; [lia|]. pose proof (be_value_bound bs Hb) as B. rewrite pow256 in B.
    assert (2 ^ (8 * Z.of_nat (length bs)) <= 2 ^ (8 * Z.of_nat w - 1)) by (apply Z.pow_le_mono_r; lia).
    lia. }
  repeat split; intros; apply G; lia.
Qed.
Print Assumptions c05_short_slices.

(** C05. A long slice is read as the signed value of its leading bytes. *)
Theorem c05_long_slices : forall bs, is_bytes bs ->
  ((8 <= length bs)%nat -> signed_reading 8 (be_value (firstn 8 bs)) (BytesToInt64 bs)) /\
  ((4 <= length bs)%nat -> signed_reading 4 (be_value (firstn 4 bs)) (BytesToInt32 bs)) /\
  ((2 <= length bs)%nat -> signed_reading 2 (be_value (firstn 2 bs)) (BytesToInt16 bs)).
Proof.
  intros bs Hb. unfold BytesToInt64, BytesToInt32, BytesToInt16.
  repeat split; try (rewrite get_int_long by (auto; lia); apply signed_reading_wrapS; lia);
  intros; rewrite get_int_long by (auto; lia); apply signed_reading_wrapS; lia.
Qed.
Print Assumptions c05_long_slices.
Example c05_ex : BytesToInt64 [255; 255] = 65535 /\ BytesToInt64 [] = 0
  /\ BytesToInt16 [255; 255; 7] = -1 /\ BytesToInt32 [128; 0; 0] = 2^23.
Proof. vm_compute. repeat split. Qed.

(** C06. Arrays round trip. *)
Theorem c06_int_array_round_trip : forall xs, Forall is_i64 xs ->
  BytesToIntArray (IntArrayToBytes xs) = xs /\ length (IntArrayToBytes xs) = (8 * length xs)%nat.
Proof. intros xs H. exact (conj (IntArray_roundtrip xs H) (IntArrayToBytes_length xs)). Qed.
Print Assumptions c06_int_array_round_trip.

(** C06. Any slice decodes to floor(len/8) signed big-endian words; trailing bytes are ignored. *)
Theorem c06_int_array_decode : forall bs, is_bytes bs ->
  length (BytesToIntArray bs) = (length bs / 8)%nat /\
  forall i, (i < length bs / 8)%nat ->
    signed_reading 8 (be_value (firstn 8 (skipn (8 * i) bs))) (nth i (BytesToIntArray bs) 0).
Proof.
  intros bs Hb. unfold BytesToIntArray. split; [apply read_words_length|]. intros i Hi.
  rewrite read_words_nth; auto.
  - apply (signed_reading_wrapS 8). lia.
  - apply Nat.mul_div_le. lia.
Qed.
Print Assumptions c06_int_array_decode.
Example c06_ex : IntArrayToBytes [1; -1] = [0;0;0;0;0;0;0;1;255;255;255;255;255;255;255;255]
  /\ BytesToIntArray [255;255;255;255;255;255;255;254;9;9] = [-2].
Proof. vm_compute. repeat split. Qed.
