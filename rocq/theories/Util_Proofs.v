(** Proofs about the helpers of util/encode.go. *)
From stdpp Require Import list.
From Coq Require Import ZArith Lia.
From Verif Require Import GoInt Hash_Model Aes_Proofs Util_Model Util_Spec.
Local Open Scope Z_scope.

Lemma concat_loop_spec ss : forall b, concat_loop b ss = b ++ concat ss.
Proof. induction ss as [|v ss IH]; intros b; cbn; [by rewrite app_nil_r|]. rewrite IH, <- app_assoc. reflexivity. Qed.

Lemma hex_digit_ok h : 0 <= h < 16 ->
  digit (let c := nth (Z.to_nat h) hextable 0 in if (97 <=? c) && (c <=? 122) then c - 32 else c) = Some h.
Proof.
  intros Hh.
  assert (h = 0 \/ h = 1 \/ h = 2 \/ h = 3 \/ h = 4 \/ h = 5 \/ h = 6 \/ h = 7 \/ h = 8 \/ h = 9 \/ h = 10 \/ h = 11 \/ h = 12 \/ h = 13 \/ h = 14 \/ h = 15) as Hc by lia.
  repeat destruct Hc as [-> | Hc]; try reflexivity. subst. reflexivity.
Qed.
Lemma nibbles b : is_u8 b -> 16 * Z.shiftr b 4 + Z.land b 15 = b /\ 0 <= Z.shiftr b 4 < 16 /\ 0 <= Z.land b 15 < 16.
Proof.
  unfold is_u8. change (2 ^ 8) with 256. intros Hb. change 15 with (Z.ones 4). rewrite Z.land_ones, Z.shiftr_div_pow2 by lia. change (2 ^ 4) with 16.
  pose proof (Z.div_mod b 16). pose proof (Z.mod_pos_bound b 16). lia.
Qed.
Lemma hex_ok d : is_bytes d -> hex_of d (ToUpper (EncodeToString d)).
Proof.
  induction d as [|b d IH]; intros Hd; [constructor|]. inversion Hd; subst.
  destruct (nibbles b) as (E & H3 & H4); [assumption|].
  cbn [EncodeToString]. unfold ToUpper. cbn [map].
  rewrite <- E at 1. apply hex_byte; [apply hex_digit_ok; lia|apply hex_digit_ok; lia|]. apply IH. assumption.
Qed.
Lemma hex_inj s d d' : hex_of d s -> hex_of d' s -> d = d'.
Proof.
  intros H. revert d'. induction H as [|hi lo h l d s Hh Hl H IH]; intros d' H'; inversion H'; subst; [reflexivity|].
  f_equal; [|auto]. congruence.
Qed.
Lemma hex_len s d : hex_of d s -> length s = (2 * length d)%nat.
Proof. induction 1; cbn; lia. Qed.

Lemma sha1_ok m : is_bytes (sha1 m) /\ length (sha1 m) = 20%nat.
Proof.
  unfold sha1. destruct (fold_left sha1_block _ _) as [[[[a b] c] d] e]. split; [repeat match goal with |- is_bytes (_ ++ _) => apply app_ok end; apply be_bytes_ok|].
  rewrite !app_length, (proj2 (be_bytes_ok 4 a)), (proj2 (be_bytes_ok 4 b)), (proj2 (be_bytes_ok 4 c)), (proj2 (be_bytes_ok 4 d)), (proj2 (be_bytes_ok 4 e)). reflexivity.
Qed.

(** ** FNV *)
Lemma mul_inj M p q x y : 1 < M -> p * q mod M = 1 -> 0 <= x < M -> 0 <= y < M -> (x * p) mod M = (y * p) mod M -> x = y.
Proof.
  intros HM Hq Hx Hy E.
  assert (G : forall z, 0 <= z < M -> z = ((z * p) mod M * q) mod M).
  { intros z Hz. rewrite Z.mul_mod_idemp_l by lia. rewrite <- Z.mul_assoc, <- Z.mul_mod_idemp_r, Hq by lia.
    rewrite Z.mul_1_r, Z.mod_small by lia. reflexivity. }
  rewrite (G x Hx), (G y Hy), E. reflexivity.
Qed.
Lemma lxor_lt k a b : 0 <= k -> 0 <= a < 2 ^ k -> 0 <= b < 2 ^ k -> 0 <= Z.lxor a b < 2 ^ k.
Proof.
  intros Hk Ha Hb. split; [apply Z.lxor_nonneg; lia|].
  assert (E : Z.lxor a b = Z.lxor a b mod 2 ^ k).
  { apply Z.bits_inj'. intros i Hi. destruct (Z_lt_ge_dec i k).
    - rewrite Z.mod_pow2_bits_low by lia. reflexivity.
    - rewrite Z.mod_pow2_bits_high by lia. rewrite Z.lxor_spec.
      rewrite <- (Z.mod_small a (2 ^ k)), <- (Z.mod_small b (2 ^ k)) by lia.
      rewrite !Z.mod_pow2_bits_high by lia. reflexivity. }
  rewrite E. apply Z.mod_pos_bound. lia.
Qed.
Lemma lxor_inj_l a b c : Z.lxor a c = Z.lxor b c -> a = b.
Proof. intros E. rewrite <- (Z.lxor_0_r a), <- (Z.lxor_0_r b), <- (Z.lxor_nilpotent c), <- !Z.lxor_assoc, E. reflexivity. Qed.

Section fnv.
Context (k p q h0 : Z) (Hk : 8 <= k) (Hq : p * q mod 2 ^ k = 1) (H0 : 0 <= h0 < 2 ^ k).
Let step h c := (Z.lxor h c * p) mod 2 ^ k.
Lemma pow_big : 2 ^ 8 <= 2 ^ k.
Proof. apply Z.pow_le_mono_r; lia. Qed.
Lemma fnv_range data : is_bytes data -> forall h, 0 <= h < 2 ^ k -> 0 <= fold_left step data h < 2 ^ k.
Proof.
  induction data as [|c data IH]; intros Hd h Hh; cbn [fold_left]; [lia|]. inversion Hd; subst. apply IH; [assumption|].
  apply Z.mod_pos_bound. pose proof pow_big. change (2 ^ 8) with 256 in *. lia.
Qed.
Lemma step_inj h c h' c' : 0 <= h < 2 ^ k -> is_u8 c -> 0 <= h' < 2 ^ k -> is_u8 c' -> step h c = step h' c' -> Z.lxor h c = Z.lxor h' c'.
Proof.
  unfold is_u8. intros H1 H2 H3 H4 E. pose proof pow_big. apply (mul_inj (2 ^ k) p q); auto.
  - change (2 ^ 8) with 256 in *. lia.
  - apply lxor_lt; lia.
  - apply lxor_lt; lia.
Qed.
Lemma fnv_state_inj post : is_bytes post -> forall h h', 0 <= h < 2 ^ k -> 0 <= h' < 2 ^ k ->
  fold_left step post h = fold_left step post h' -> h = h'.
Proof.
  induction post as [|c post IH]; intros Hp h h' Hh Hh' E; cbn [fold_left] in E; [exact E|].
  inversion Hp; subst. pose proof pow_big.
  assert (E1 : step h c = step h' c).
  { apply IH; auto; apply Z.mod_pos_bound; change (2 ^ 8) with 256 in *; lia. }
  apply step_inj in E1; auto. apply lxor_inj_l in E1. exact E1.
Qed.
Lemma fnv_single pre b b' post : is_bytes (pre ++ b :: post) -> is_u8 b' -> b <> b' ->
  fold_left step (pre ++ b :: post) h0 <> fold_left step (pre ++ b' :: post) h0.
Proof.
  intros Hd Hb' Hn E. apply Forall_app in Hd as [Hpre Hd]. inversion Hd as [|? ? Hb Hpost]; subst.
  rewrite !fold_left_app in E. cbn [fold_left] in E. pose proof (fnv_range pre Hpre h0 H0) as Hr.
  pose proof pow_big. apply fnv_state_inj in E; auto; try (apply Z.mod_pos_bound; change (2 ^ 8) with 256 in *; lia).
  apply step_inj in E; auto.
  rewrite (Z.lxor_comm _ b), (Z.lxor_comm _ b') in E. apply lxor_inj_l in E. contradiction.
Qed.
End fnv.

(** ** Random numbers *)
Lemma land_pred n : 0 < n -> Z.land n (n - 1) = 0 -> exists k, 0 <= k /\ n = 2 ^ k.
Proof.
  intros Hn Hl. exists (Z.log2 n). split; [apply Z.log2_nonneg|].
  pose proof (Z.log2_spec n Hn) as [H1 H2]. set (k := Z.log2 n) in *.
  assert (0 <= k) by apply Z.log2_nonneg.
  destruct (Z_le_gt_dec n (2 ^ k)) as [|Hgt]; [lia|]. exfalso.
  assert (B : Z.testbit (Z.land n (n - 1)) k = true).
  { rewrite Z.land_spec.
    assert (G : forall m, 2 ^ k <= m < 2 ^ Z.succ k -> Z.testbit m k = true).
    { intros m Hm. replace k with (Z.log2 m); [apply Z.bit_log2; lia|]. symmetry. symmetry. apply Z.log2_unique; lia. }
    rewrite !G by lia. reflexivity. }
  rewrite Hl, Z.bits_0 in B. discriminate.
Qed.
Lemma land_mod n v : 0 < n -> Z.land n (n - 1) = 0 -> Z.land v (n - 1) = v mod n.
Proof.
  intros Hn Hl. destruct (land_pred n Hn Hl) as (k & Hk & ->).
  replace (2 ^ k - 1) with (Z.ones k) by (rewrite Z.ones_equiv; lia). apply Z.land_ones. lia.
Qed.
Lemma land_dvd k n : 0 < n -> n <= 2 ^ k -> 0 <= k -> Z.land n (n - 1) = 0 -> 2 ^ k mod n = 0.
Proof.
  intros Hn Hle Hk Hl. destruct (land_pred n Hn Hl) as (j & Hj & ->).
  assert (j <= k) by (destruct (Z_le_gt_dec j k); [assumption|pose proof (Z.pow_lt_mono_r 2 k j); lia]).
  replace k with (k - j + j) by lia. rewrite Z.pow_add_r by lia. apply Z.mod_mul. lia.
Qed.

(** The accepted values of a rejection loop on [0, M): those below the last multiple of n. *)
Lemma uniform M n v r : 0 < n <= M -> 0 <= v < M -> 0 <= r < n ->
  (v <= M - 1 - M mod n /\ v mod n = r) <-> exists k, 0 <= k < M / n /\ v = k * n + r.
Proof.
  intros Hn Hv Hr. pose proof (Z.div_mod M n ltac:(lia)) as HM. pose proof (Z.mod_pos_bound M n ltac:(lia)).
  split.
  - intros [H1 H2]. exists (v / n). pose proof (Z.div_mod v n ltac:(lia)). pose proof (Z.div_pos v n). split; [|lia].
    split; [lia|]. apply Z.div_lt_upper_bound; [lia|]. lia.
  - intros (k & Hk & ->). split; [nia|]. rewrite Z.add_comm, Z.mod_add by lia. apply Z.mod_small. lia.
Qed.
Lemma i64_small i : 0 <= i < 2 ^ 63 -> i64 i = i.
Proof. intros. apply wrapS_id; [lia|]. change (64 - 1) with 63. lia. Qed.
Lemma i64_big i : 2 ^ 63 <= i < 2 ^ 64 -> i64 i < 0.
Proof. intros H. unfold i64, wrapS. cbv zeta. rewrite Z.mod_small by lia. change (64 - 1) with 63. destruct (Z.ltb_spec i (2 ^ 63)); lia. Qed.

Lemma int31n_one n s : 0 < n <= 2 ^ 31 -> 0 <= s < 2 ^ 63 -> forall r, 0 <= r < n ->
  int31n n [s] = Val r <-> exists k, 0 <= k < 2 ^ 31 / n /\ Z.shiftr s 32 = k * n + r.
Proof.
  intros Hn Hs r Hr. assert (Hv : 0 <= Z.shiftr s 32 < 2 ^ 31).
  { rewrite Z.shiftr_div_pow2 by lia. split; [apply Z.div_pos; lia|]. apply Z.div_lt_upper_bound; lia. }
  rewrite <- (uniform (2 ^ 31) n (Z.shiftr s 32) r) by lia. unfold int31n. destruct (Z.land n (n - 1) =? 0) eqn:E.
  - apply Z.eqb_eq in E. rewrite land_mod by lia. rewrite (land_dvd 31 n) by lia. split; [intros [= <-]; lia|intros [_ ->]; reflexivity].
  - cbn [int31n_loop]. destruct (_ <? _) eqn:E2; [split; [congruence|]|split; [intros [= <-]|intros [_ ->]; reflexivity]]; lia.
Qed.
Lemma int63n_one n s : 0 < n <= 2 ^ 63 -> 0 <= s < 2 ^ 63 -> forall r, 0 <= r < n ->
  int63n n [s] = Val r <-> exists k, 0 <= k < 2 ^ 63 / n /\ s = k * n + r.
Proof.
  intros Hn Hs r Hr. rewrite <- (uniform (2 ^ 63) n s r) by lia. unfold int63n. destruct (Z.land n (n - 1) =? 0) eqn:E.
  - apply Z.eqb_eq in E. rewrite land_mod by lia. rewrite (land_dvd 63 n) by lia. split; [intros [= <-]; lia|intros [_ ->]; reflexivity].
  - cbn [int63n_loop]. destruct (_ <? _) eqn:E2; [split; [congruence|]|split; [intros [= <-]|intros [_ ->]; reflexivity]]; lia.
Qed.
Lemma int31n_range n src r : 0 < n -> int31n n src = Val r -> 0 <= r < n.
Proof.
  intros Hn. unfold int31n. destruct (Z.land n (n - 1) =? 0) eqn:E.
  - apply Z.eqb_eq in E. destruct src as [|s src]; [discriminate|]. rewrite land_mod by lia. intros [= <-]. apply Z.mod_pos_bound. lia.
  - induction src as [|s src IH]; cbn [int31n_loop]; [discriminate|]. destruct (_ <? _); [exact IH|]. intros [= <-]. apply Z.mod_pos_bound. lia.
Qed.
Lemma int63n_range n src r : 0 < n -> int63n n src = Val r -> 0 <= r < n.
Proof.
  intros Hn. unfold int63n. destruct (Z.land n (n - 1) =? 0) eqn:E.
  - apply Z.eqb_eq in E. destruct src as [|s src]; [discriminate|]. rewrite land_mod by lia. intros [= <-]. apply Z.mod_pos_bound. lia.
  - induction src as [|s src IH]; cbn [int63n_loop]; [discriminate|]. destruct (_ <? _); [exact IH|]. intros [= <-]. apply Z.mod_pos_bound. lia.
Qed.
Lemma int31n_no_panic n src : int31n n src <> Panics.
Proof.
  unfold int31n. destruct (_ =? _); [destruct src; discriminate|].
  induction src as [|s src IH]; cbn [int31n_loop]; [discriminate|]. destruct (_ <? _); [exact IH|discriminate].
Qed.
Lemma int63n_no_panic n src : int63n n src <> Panics.
Proof.
  unfold int63n. destruct (_ =? _); [destruct src; discriminate|].
  induction src as [|s src IH]; cbn [int63n_loop]; [discriminate|]. destruct (_ <? _); [exact IH|discriminate].
Qed.

Lemma be_val_nonneg l : is_bytes l -> 0 <= be_val l.
Proof.
  intros Hl. unfold be_val. apply Forall_rev in Hl. induction (rev l) as [|b r IH]; cbn [le_val]; [lia|].
  inversion Hl; subst. unfold is_u8 in *. specialize (IH ltac:(assumption)). lia.
Qed.
Lemma masked_nonneg mask blk : 0 <= mask < 256 -> is_bytes blk -> 0 <= masked_val mask blk.
Proof.
  intros Hm Hb. destruct blk as [|b r]; cbn [masked_val]; [lia|]. inversion Hb; subst. apply be_val_nonneg. constructor; [|assumption].
  unfold is_u8 in *. split; [apply Z.land_nonneg; lia|].
  assert (0 <= Z.land b mask) by (apply Z.land_nonneg; lia).
  destruct (Z.eq_dec (Z.land b mask) 0) as [->|]; [lia|].
  apply Z.log2_lt_pow2; [lia|]. eapply Z.le_lt_trans; [apply Z.log2_land; lia|].
  destruct (Z.eq_dec mask 0) as [->|]; [rewrite Z.land_0_r in *; lia|].
  apply Z.min_lt_iff. right. apply Z.log2_lt_pow2; lia.
Qed.
Lemma rand_mask_range n : 0 <= rand_mask n < 256.
Proof.
  unfold rand_mask. cbv zeta. pose proof (Z.mod_pos_bound (Z.log2 n + 1) 8 ltac:(lia)) as H. set (b := (Z.log2 n + 1) mod 8) in *.
  assert (b = 0 \/ b = 1 \/ b = 2 \/ b = 3 \/ b = 4 \/ b = 5 \/ b = 6 \/ b = 7) as Hc by lia.
  repeat destruct Hc as [-> | Hc]; [cbn; lia..|]. rewrite Hc. cbn. lia.
Qed.
Lemma le_val_app a b : le_val (a ++ b) = le_val a + 256 ^ Z.of_nat (length a) * le_val b.
Proof.
  induction a as [|x a IH]; cbn [le_val app length]; [lia|]. rewrite IH, Nat2Z.inj_succ, Z.pow_succ_r by lia. lia.
Qed.
Lemma be_val_cons b r : be_val (b :: r) = b * 256 ^ Z.of_nat (length r) + be_val r.
Proof. unfold be_val. cbn [rev]. rewrite le_val_app, rev_length. cbn [le_val]. lia. Qed.
Lemma be_val_bound r : is_bytes r -> 0 <= be_val r < 256 ^ Z.of_nat (length r).
Proof.
  induction r as [|b r IH]; intros Hr; [cbn; lia|]. inversion Hr; subst. rewrite be_val_cons. specialize (IH ltac:(assumption)).
  cbn [length]. rewrite Nat2Z.inj_succ, Z.pow_succ_r by lia. unfold is_u8 in *. change (2 ^ 8) with 256 in *. nia.
Qed.
Lemma masked_mod n blk : 0 < n -> is_bytes blk -> length blk = rand_len n ->
  masked_val (rand_mask n) blk = be_val blk mod 2 ^ (Z.log2 n + 1).
Proof.
  intros Hn Hb Hl. pose proof (Z.log2_nonneg n) as Hlog. unfold rand_len in Hl. set (bits := Z.log2 n + 1) in *.
  unfold rand_mask. fold bits. cbv zeta. replace (Z.log2 n + 1 + 7) with (bits + 7) in Hl by lia.
  pose proof (Z.div_mod (bits + 7) 8 ltac:(lia)) as HD. pose proof (Z.mod_pos_bound (bits + 7) 8 ltac:(lia)).
  pose proof (Z.div_mod bits 8 ltac:(lia)) as HE. pose proof (Z.mod_pos_bound bits 8 ltac:(lia)).
  set (m := if bits mod 8 =? 0 then 8 else bits mod 8).
  assert (Hm : 0 < m <= 8 /\ bits = m + 8 * (Z.of_nat (length blk) - 1)).
  { rewrite Hl. rewrite Z2Nat.id by (apply Z.div_pos; lia). subst m. destruct (bits mod 8 =? 0) eqn:E; [apply Z.eqb_eq in E|apply Z.eqb_neq in E]; lia. }
  destruct Hm as [Hm Hbits]. destruct blk as [|b r]; [cbn [length] in *; lia|]. cbn [masked_val]. inversion Hb; subst.
  replace (2 ^ m - 1) with (Z.ones m) by (rewrite Z.ones_equiv; lia). rewrite Z.land_ones by lia.
  rewrite !be_val_cons. cbn [length] in Hbits. replace (m + 8 * (Z.of_nat (S (length r)) - 1)) with (m + 8 * Z.of_nat (length r)) in Hbits by lia.
  rewrite Hbits. set (L := Z.of_nat (length r)) in *. pose proof (be_val_bound r ltac:(assumption)) as Hw. fold L in Hw. set (w := be_val r) in *.
  rewrite (Z.add_comm m), Z.pow_add_r by lia. replace (2 ^ (8 * L)) with (256 ^ L) by (rewrite Z.pow_mul_r by lia; reflexivity).
  rewrite Z.rem_mul_r by (first [apply Z.pow_nonzero; lia|apply Z.pow_pos_nonneg; lia]).
  rewrite (Z.add_comm (b * 256 ^ L) w). rewrite Z.mod_add by (apply Z.pow_nonzero; lia). rewrite (Z.mod_small w) by lia.
  rewrite Z.div_add by (apply Z.pow_nonzero; lia). rewrite (Z.div_small w) by lia. rewrite Z.add_0_l. ring.
Qed.
Lemma be_bytes_val w n : 0 <= n < 256 ^ Z.of_nat w -> be_val (be_bytes w n) = n.
Proof.
  unfold be_val, be_bytes. rewrite rev_involutive. revert n. induction w as [|w IH]; intros n Hn; cbn [le_bytes le_val]; [cbn in Hn; lia|].
  rewrite Nat2Z.inj_succ, Z.pow_succ_r in Hn by lia. rewrite IH.
  - unfold u8. rewrite Z.shiftr_div_pow2 by lia. change (2 ^ 8) with 256. pose proof (Z.div_mod n 256). lia.
  - rewrite Z.shiftr_div_pow2 by lia. change (2 ^ 8) with 256. split; [apply Z.div_pos; lia|apply Z.div_lt_upper_bound; lia].
Qed.
Lemma rand_len_ok n : 0 < n -> n < 256 ^ Z.of_nat (rand_len n).
Proof.
  intros Hn. unfold rand_len. rewrite Z2Nat.id by (apply Z.div_pos; pose proof (Z.log2_nonneg n); lia).
  pose proof (Z.log2_spec n Hn) as [_ H]. eapply Z.lt_le_trans; [exact H|].
  change 256 with (2 ^ 8). rewrite <- Z.pow_mul_r by (try apply Z.div_pos; pose proof (Z.log2_nonneg n); lia).
  apply Z.pow_le_mono_r; [lia|]. pose proof (Z.div_mod (Z.log2 n + 1 + 7) 8). pose proof (Z.mod_pos_bound (Z.log2 n + 1 + 7) 8). lia.
Qed.
