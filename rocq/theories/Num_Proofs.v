(** Lemmas about the integer codecs. *)
From Coq Require Import ZArith List Bool Lia ZifyBool ZifyNat.
From Verif Require Import GoInt Num_Model Num_Spec.
Import ListNotations.
Local Open Scope Z_scope.

Lemma testbit_high_neg x m i : - 2^m <= x < 0 -> 0 <= m <= i -> Z.testbit x i = true.
Proof.
  intros Hx Hm. rewrite <- (Z.lnot_involutive x), Z.lnot_spec by lia.
  unfold Z.lnot at 1. replace (Z.pred (- x)) with (- x - 1) by lia.
  destruct (Z.eq_dec (-x-1) 0) as [E|E].
  - rewrite E, Z.bits_0. reflexivity.
  - rewrite Z.bits_above_log2; [reflexivity|lia|].
    apply Z.log2_lt_pow2; [lia|].
    assert (2^m <= 2^i) by (apply Z.pow_le_mono_r; lia). lia.
Qed.

Lemma testbit_high_pos x m i : 0 <= x < 2^m -> 0 <= m <= i -> Z.testbit x i = false.
Proof.
  intros Hx Hm. destruct (Z.eq_dec x 0) as [->|E]; [apply Z.bits_0|].
  apply Z.bits_above_log2; [lia|]. apply Z.log2_lt_pow2; [lia|].
  assert (2^m <= 2^i) by (apply Z.pow_le_mono_r; lia). lia.
Qed.

Lemma wrapS_testbit n z i : 0 < n -> 0 <= i ->
  Z.testbit (wrapS n z) i = Z.testbit z (Z.min i (n - 1)).
Proof.
  intros Hn Hi.
  assert (Hlow : forall j, 0 <= j < n -> Z.testbit (wrapS n z) j = Z.testbit z j).
  { intros j Hj. rewrite <- (Z.mod_pow2_bits_low (wrapS n z) n j), <- (Z.mod_pow2_bits_low z n j) by lia.
    rewrite wrapS_mod by lia. reflexivity. }
  destruct (Z_lt_ge_dec i n) as [H|H].
  - rewrite Z.min_l by lia. apply Hlow. lia.
  - rewrite Z.min_r by lia. rewrite <- Hlow by lia.
    pose proof (wrapS_range n z Hn).
    destruct (Z_lt_ge_dec (wrapS n z) 0).
    + rewrite !(testbit_high_neg _ (n-1)) by lia. reflexivity.
    + rewrite !(testbit_high_pos _ (n-1)) by lia. reflexivity.
Qed.

Lemma wrapS_lor n a b : 0 < n -> Z.lor (wrapS n a) (wrapS n b) = wrapS n (Z.lor a b).
Proof.
  intros Hn. apply Z.bits_inj'. intros i Hi.
  rewrite Z.lor_spec, !wrapS_testbit, Z.lor_spec by lia. reflexivity.
Qed.

Lemma lor_shift_add h b : 0 <= h -> 0 <= b < 256 -> Z.lor (Z.shiftl h 8) b = h * 256 + b.
Proof.
  intros Hh Hb. rewrite Z.shiftl_mul_pow2 by lia. change (2^8) with 256.
  symmetry. rewrite Z.add_nocarry_lxor.
  - apply Z.bits_inj'. intros i Hi. rewrite Z.lxor_spec, Z.lor_spec.
    change 256 with (2^8). rewrite Z.mul_pow2_bits by lia.
    destruct (Z_lt_ge_dec i 8).
    + rewrite Z.testbit_neg_r by lia. destruct (Z.testbit b i); reflexivity.
    + rewrite (testbit_high_pos b 8 i) by lia. rewrite xorb_false_r, orb_false_r. reflexivity.
  - apply Z.bits_inj'. intros i Hi. rewrite Z.land_spec, Z.bits_0.
    change 256 with (2^8). rewrite Z.mul_pow2_bits by lia.
    destruct (Z_lt_ge_dec i 8).
    + rewrite Z.testbit_neg_r by lia. reflexivity.
    + rewrite (testbit_high_pos b 8 i) by lia. apply andb_false_r.
Qed.

(** ** Encoding *)
Lemma be_value_app a b :
  be_value (a ++ b) = be_value a * 256 ^ Z.of_nat (length b) + be_value b.
Proof.
  induction a as [|x a IH]; cbn [be_value app]; [lia|].
  rewrite IH, app_length, Nat2Z.inj_add, Z.pow_add_r by lia. ring.
Qed.

Lemma be_value_bound bs : is_bytes bs -> 0 <= be_value bs < 256 ^ Z.of_nat (length bs).
Proof.
  induction 1 as [|b bs Hb _ IH]; cbn [be_value length]; [cbn; lia|].
  rewrite Nat2Z.inj_succ, Z.pow_succ_r by lia. unfold is_u8 in Hb. change (2^8) with 256 in Hb. nia.
Qed.

Lemma put_bytes_snoc w n : put_bytes (S w) n = put_bytes w (Z.shiftr n 8) ++ [u8 n].
Proof.
  unfold put_bytes. rewrite seq_S, map_app. cbn [map Nat.add]. f_equal.
  - apply map_ext_in. intros i Hi. apply in_seq in Hi.
    rewrite Z.shiftr_shiftr by lia. do 2 f_equal. lia.
  - replace (S w - 1 - w)%nat with O by lia. rewrite Z.mul_0_r, Z.shiftr_0_r. reflexivity.
Qed.

Lemma put_bytes_length w n : length (put_bytes w n) = w.
Proof. unfold put_bytes. rewrite map_length, seq_length. reflexivity. Qed.

Lemma put_bytes_bytes w n : is_bytes (put_bytes w n).
Proof.
  unfold is_bytes, put_bytes. apply Forall_forall. intros x Hx.
  apply in_map_iff in Hx as [i [<- _]]. apply u8_range.
Qed.

Lemma put_bytes_value w : forall n, be_value (put_bytes w n) = n mod 256 ^ Z.of_nat w.
Proof.
  induction w as [|w IH]; intros n.
  - cbn. rewrite Z.mod_1_r. reflexivity.
  - rewrite put_bytes_snoc, be_value_app, IH. cbn [length be_value].
    rewrite Z.shiftr_div_pow2 by lia. unfold u8. change (2^8) with 256.
    change (256 ^ Z.of_nat 0) with 1. change (256 ^ Z.of_nat 1) with 256.
    rewrite (Nat2Z.inj_succ w), Z.pow_succ_r by lia.
    rewrite (Z.rem_mul_r n 256) by lia. lia.
Qed.

Lemma be_value_inj a b : is_bytes a -> is_bytes b -> length a = length b ->
  be_value a = be_value b -> a = b.
Proof.
  intros Ha; revert b. induction Ha as [|x a Hx Ha IH]; intros b Hb Hl Hv.
  - destruct b; [reflexivity|discriminate].
  - destruct b as [|y b]; [discriminate|]. inversion Hb; subst.
    cbn [be_value length] in *. injection Hl as Hl. rewrite Hl in Hv.
    pose proof (be_value_bound a Ha) as Ba. pose proof (be_value_bound b H2) as Bb.
    rewrite Hl in Ba. unfold is_u8 in *. assert (x = y) by nia. subst. f_equal. apply IH; auto. lia.
Qed.

(** ** Decoding *)
Lemma pow256 w : 256 ^ Z.of_nat w = 2 ^ (8 * Z.of_nat w).
Proof. change 256 with (2^8). rewrite <- Z.pow_mul_r by lia. reflexivity. Qed.

Lemma firstn_S_nth {A} (l : list A) i d : (i < length l)%nat -> firstn (S i) l = firstn i l ++ [nth i l d].
Proof.
  revert i; induction l; intros [|i] H; cbn in *; try lia; auto.
  f_equal. apply IHl. lia.
Qed.

Lemma is_bytes_firstn n bs : is_bytes bs -> is_bytes (firstn n bs).
Proof. intros H. unfold is_bytes in *. rewrite Forall_forall in *. intros x Hx. apply H.
  rewrite <- (firstn_skipn n bs). apply in_or_app. now left. Qed.
Lemma is_bytes_skipn n bs : is_bytes bs -> is_bytes (skipn n bs).
Proof. intros H. unfold is_bytes in *. rewrite Forall_forall in *. intros x Hx. apply H.
  rewrite <- (firstn_skipn n bs). apply in_or_app. now right. Qed.

Lemma is_bytes_nth n bs : is_bytes bs -> is_u8 (nth n bs 0).
Proof.
  intros H. destruct (Nat.ltb n (length bs)) eqn:E.
  - unfold is_bytes in H. rewrite Forall_forall in H. apply H. apply nth_In. lia.
  - rewrite nth_overflow by lia. unfold is_u8. lia.
Qed.

Lemma or_loop_spec w bs : is_bytes bs -> (w <= length bs)%nat -> (0 < w)%nat ->
  forall k i, (i + k = w)%nat ->
  or_loop w bs k i (wrapS (8 * Z.of_nat w) (Z.shiftl (be_value (firstn i bs)) (8 * Z.of_nat (w - i))))
  = wrapS (8 * Z.of_nat w) (be_value (firstn w bs)).
Proof.
  intros Hb Hl Hw. induction k as [|k IH]; intros i Hi.
  - cbn [or_loop]. replace i with w by lia. replace (w - w)%nat with O by lia.
    rewrite Z.mul_0_r, Z.shiftl_0_r. reflexivity.
  - cbn [or_loop]. rewrite <- (IH (S i)) by lia. f_equal.
    assert (Hmod : wrapS (8 * Z.of_nat w) (Z.shiftl (wrapS (8 * Z.of_nat w) (nth i bs 0)) (8 * Z.of_nat (w - 1 - i)))
                 = wrapS (8 * Z.of_nat w) (Z.shiftl (nth i bs 0) (8 * Z.of_nat (w - 1 - i)))).
    { apply wrapS_eq_mod; [lia|]. rewrite !Z.shiftl_mul_pow2 by lia.
      rewrite <- Z.mul_mod_idemp_l, wrapS_mod, Z.mul_mod_idemp_l by lia. reflexivity. }
    rewrite Hmod, wrapS_lor by lia. f_equal.
    rewrite (firstn_S_nth bs i 0), be_value_app by lia. cbn [length be_value].
    change (256 ^ Z.of_nat 1) with 256. change (256 ^ Z.of_nat 0) with 1.
    pose proof (is_bytes_nth i bs Hb) as Hn. unfold is_u8 in Hn. change (2^8) with 256 in Hn.
    pose proof (be_value_bound _ (is_bytes_firstn i bs Hb)) as [Hnn _].
    rewrite Z.mul_1_r, Z.add_0_r. rewrite <- lor_shift_add by lia.
    rewrite Z.shiftl_lor. f_equal.
    + rewrite Z.shiftl_shiftl by lia. f_equal. lia.
    + f_equal. lia.
Qed.

Lemma get_int_long w bs : is_bytes bs -> (0 < w)%nat -> (w <= length bs)%nat ->
  get_int w bs = wrapS (8 * Z.of_nat w) (be_value (firstn w bs)).
Proof.
  intros Hb Hw Hl. unfold get_int. replace (Nat.leb w (length bs)) with true by lia.
  rewrite <- (or_loop_spec w bs Hb Hl Hw w 0) by lia. f_equal.
  cbn [firstn be_value]. rewrite Z.shiftl_0_l. symmetry. apply wrapS_id; [lia|].
  pose proof (Z.pow_pos_nonneg 2 (8 * Z.of_nat w - 1)). lia.
Qed.

Lemma upd_app_r {A} (a b : list A) i v : upd (length a + i) v (a ++ b) = a ++ upd i v b.
Proof. induction a; cbn; [reflexivity|]. now rewrite IHa. Qed.

Lemma pad_loop_spec w n bs pre k : (n = length pre + length bs)%nat -> (n <= w)%nat -> (k = w - n)%nat ->
  pad_loop w n (length pre) bs (repeat 0 k ++ pre ++ repeat 0 (length bs)) = repeat 0 k ++ pre ++ bs.
Proof.
  revert pre. induction bs as [|b bs IH]; intros pre Hn Hw Hk; cbn [pad_loop length repeat].
  - reflexivity.
  - rewrite app_assoc.
    replace (length pre + w - n)%nat with (Nat.add (length (repeat 0%Z k ++ pre)) 0)
      by (rewrite app_length, repeat_length; lia).
    rewrite upd_app_r. cbn [upd].
    specialize (IH (pre ++ [b])). rewrite app_length in IH. cbn [length] in *.
    replace (S (length pre)) with (length pre + 1)%nat by lia.
    rewrite <- !app_assoc in *. cbn [app] in *. rewrite IH by lia. reflexivity.
Qed.

Lemma be_value_zeros k bs : be_value (repeat 0 k ++ bs) = be_value bs.
Proof. induction k; cbn [repeat app be_value]; [reflexivity|]. rewrite IHk. lia. Qed.

Lemma get_int_short w bs : is_bytes bs -> (length bs < w)%nat ->
  get_int w bs = get_int w (repeat 0 (w - length bs) ++ bs) /\
  get_int w bs = wrapS (8 * Z.of_nat w) (be_value bs).
Proof.
  intros Hb Hl.
  assert (Hbytes : is_bytes (repeat 0 (w - length bs) ++ bs)).
  { apply Forall_app. split; auto. apply Forall_forall. intros x Hx.
    apply repeat_spec in Hx. subst. unfold is_u8. lia. }
  assert (Hlen : length (repeat 0 (w - length bs) ++ bs) = w)
    by (rewrite app_length, repeat_length; lia).
  assert (E : get_int w bs = get_int w (repeat 0 (w - length bs) ++ bs)).
  { unfold get_int. rewrite Hlen, Nat.leb_refl.
    replace (Nat.leb w (length bs)) with false by lia. f_equal.
    pose proof (pad_loop_spec w (length bs) bs [] (w - length bs)) as P. cbn [length app] in P.
    rewrite <- repeat_app in P. replace (w - length bs + length bs)%nat with w in P by lia.
    apply P; lia. }
  split; auto. rewrite E, get_int_long by (auto; lia).
  rewrite firstn_all2 by lia. rewrite be_value_zeros. reflexivity.
Qed.

Lemma signed_reading_wrapS w u : (0 < w)%nat -> signed_reading w u (wrapS (8 * Z.of_nat w) u).
Proof.
  intros Hw. unfold signed_reading. rewrite pow256.
  pose proof (wrapS_range (8 * Z.of_nat w) u ltac:(lia)).
  pose proof (pow2_split (8 * Z.of_nat w) ltac:(lia)). split; [lia|].
  pose proof (wrapS_mod (8 * Z.of_nat w) u ltac:(lia)) as Hm.
  exists (wrapS (8 * Z.of_nat w) u / 2 ^ (8 * Z.of_nat w) - u / 2 ^ (8 * Z.of_nat w)).
  pose proof (Z.div_mod (wrapS (8 * Z.of_nat w) u) (2 ^ (8 * Z.of_nat w)) ltac:(lia)).
  pose proof (Z.div_mod u (2 ^ (8 * Z.of_nat w)) ltac:(lia)). nia.
Qed.

Lemma signed_reading_unique w u z : (0 < w)%nat -> signed_reading w u z -> z = wrapS (8 * Z.of_nat w) u.
Proof.
  intros Hw [Hr [k Hk]]. rewrite pow256 in *.
  pose proof (pow2_split (8 * Z.of_nat w) ltac:(lia)).
  rewrite <- (wrapS_id (8 * Z.of_nat w) z) by lia.
  apply wrapS_eq_mod; [lia|]. subst z. apply Z.mod_add. lia.
Qed.

Lemma get_put w n : (0 < w)%nat -> - 2 ^ (8 * Z.of_nat w - 1) <= n < 2 ^ (8 * Z.of_nat w - 1) ->
  get_int w (put_bytes w n) = n.
Proof.
  intros Hw Hn. rewrite get_int_long; auto using put_bytes_bytes.
  2: rewrite put_bytes_length; lia.
  rewrite firstn_all2 by (rewrite put_bytes_length; lia).
  rewrite put_bytes_value, pow256.
  transitivity (wrapS (8 * Z.of_nat w) n).
  - apply wrapS_eq_mod; [lia|]. apply Z.mod_mod. lia.
  - apply wrapS_id; lia.
Qed.

Lemma put_get w bs : (0 < w)%nat -> is_bytes bs -> length bs = w -> put_bytes w (get_int w bs) = bs.
Proof.
  intros Hw Hb Hl. apply be_value_inj; auto using put_bytes_bytes.
  - rewrite put_bytes_length. auto.
  - rewrite put_bytes_value, get_int_long by (auto; lia).
    rewrite firstn_all2 by lia. rewrite pow256, wrapS_mod by lia.
    rewrite <- pow256. apply Z.mod_small. rewrite <- Hl. apply be_value_bound. auto.
Qed.

(** ** Arrays *)
Lemma be_uint64_spec bs : is_bytes bs -> length bs = 8%nat ->
  be_uint64_as_int64 bs = i64 (be_value bs).
Proof.
  intros Hb Hl. unfold be_uint64_as_int64. f_equal.
  assert (G : forall k i acc, (i + k = 8)%nat ->
     acc = Z.shiftl (be_value (firstn i bs)) (8 * Z.of_nat (8 - i)) ->
     fold_left (fun acc i => Z.lor acc (Z.shiftl (nth i bs 0) (8 * Z.of_nat (7 - i)))) (seq i k) acc
     = be_value (firstn 8 bs)).
  { induction k as [|k IH]; intros i acc Hi ->.
    - replace i with 8%nat by lia. cbn [seq fold_left Nat.sub]. rewrite Z.shiftl_0_r. reflexivity.
    - cbn [seq fold_left]. apply IH; [lia|].
      rewrite (firstn_S_nth bs i 0), be_value_app by lia. cbn [length be_value].
      change (256 ^ Z.of_nat 1) with 256. change (256 ^ Z.of_nat 0) with 1.
      pose proof (is_bytes_nth i bs Hb) as Hn. unfold is_u8 in Hn. change (2^8) with 256 in Hn.
      pose proof (be_value_bound _ (is_bytes_firstn i bs Hb)) as [Hnn _].
      rewrite Z.mul_1_r, Z.add_0_r. rewrite <- lor_shift_add by lia.
      rewrite Z.shiftl_lor. f_equal.
      + rewrite Z.shiftl_shiftl by lia. f_equal. lia. }
  rewrite (G 8%nat 0%nat 0) by (try lia; reflexivity).
  rewrite firstn_all2 by lia. reflexivity.
Qed.

Lemma IntArrayToBytes_length xs : length (IntArrayToBytes xs) = (8 * length xs)%nat.
Proof.
  unfold IntArrayToBytes. induction xs; [reflexivity|].
  cbn [flat_map length]. rewrite app_length, put_bytes_length, IHxs. lia.
Qed.

Lemma IntArrayToBytes_bytes xs : is_bytes (IntArrayToBytes xs).
Proof.
  unfold IntArrayToBytes. induction xs; [constructor|].
  cbn [flat_map]. apply Forall_app. split; auto. apply put_bytes_bytes.
Qed.

Lemma read_words_app x xs : is_i64 x ->
  read_words (S (length xs)) (IntArrayToBytes (x :: xs)) = x :: read_words (length xs) (IntArrayToBytes xs).
Proof.
  intros Hx. unfold IntArrayToBytes. cbn [flat_map read_words].
  rewrite firstn_app, skipn_app, put_bytes_length. cbn [Nat.sub].
  replace (8 - 8)%nat with O by lia.
  rewrite firstn_all2, (skipn_all2 (put_bytes 8 (u64 x))) by (rewrite put_bytes_length; lia).
  cbn [firstn skipn app]. rewrite app_nil_r. f_equal.
  rewrite be_uint64_spec by auto using put_bytes_bytes, put_bytes_length.
  rewrite put_bytes_value. change (256 ^ Z.of_nat 8) with (2^64).
  unfold i64, u64. rewrite Z.mod_mod by lia.
  transitivity (wrapS 64 x).
  - apply wrapS_eq_mod; [lia|]. apply Z.mod_mod. lia.
  - apply wrapS_id; [lia|]. exact Hx.
Qed.

Lemma read_words_IntArray xs : Forall is_i64 xs -> read_words (length xs) (IntArrayToBytes xs) = xs.
Proof.
  induction 1 as [|x xs Hx _ IH]; [reflexivity|].
  cbn [length]. rewrite read_words_app by auto. rewrite IH. reflexivity.
Qed.

Lemma IntArray_roundtrip xs : Forall is_i64 xs -> BytesToIntArray (IntArrayToBytes xs) = xs.
Proof.
  intros H. unfold BytesToIntArray. rewrite IntArrayToBytes_length.
  rewrite Nat.mul_comm, Nat.div_mul by lia. apply read_words_IntArray. auto.
Qed.

Lemma read_words_length n bs : length (read_words n bs) = n.
Proof. revert bs; induction n; intros; cbn; auto. Qed.

Lemma skipn_skipn' {A} i : forall j (l : list A), skipn i (skipn j l) = skipn (j + i) l.
Proof.
  intros j; revert i. induction j; intros i l; [reflexivity|].
  destruct l; cbn [skipn Nat.add]; [now rewrite skipn_nil|apply IHj].
Qed.

Lemma read_words_nth n : forall bs i, is_bytes bs -> (8 * n <= length bs)%nat -> (i < n)%nat ->
  nth i (read_words n bs) 0 = i64 (be_value (firstn 8 (skipn (8 * i) bs))).
Proof.
  induction n as [|n IH]; intros bs i Hb Hl Hi; [lia|].
  cbn [read_words]. destruct i as [|i].
  - rewrite Nat.mul_0_r. cbn [nth skipn]. apply be_uint64_spec; [now apply is_bytes_firstn|].
    rewrite firstn_length. lia.
  - cbn [nth]. rewrite IH; [|now apply is_bytes_skipn|rewrite skipn_length; lia|lia].
    rewrite skipn_skipn'. do 4 f_equal. lia.
Qed.
