(** Readers of the compact protocol against the wire format of Keystore_Spec. *)
From stdpp Require Import gmap list.
From Coq Require Import ZArith Lia.
From Verif Require Import GoInt Thrift_Model Keystore_Model Keystore_Spec.
Local Open Scope Z_scope.

(** [p] reads exactly [e] and returns [a]; of anything less than [e] it says that something is missing. *)
Definition codes {A} (p : reader A) (e : list Z) (a : A) : Prop :=
  (forall r, p (e ++ r) = ROk a r) /\ (forall e', e' `prefix_of` e -> e' <> e -> p e' = RErr).
(** [p] never runs out of fuel and returns a rest of its input; [takes]: a smaller one. *)
Definition tame {A} (p : reader A) : Prop :=
  forall bs, match p bs with ROk _ r => (length r <= length bs)%nat | RErr => True | RFuel => False end.
Definition takes {A} (p : reader A) : Prop :=
  forall bs, match p bs with ROk _ r => (length r < length bs)%nat | RErr => True | RFuel => False end.

Lemma prefix_app_split {A} (p a b : list A) : p `prefix_of` a ++ b ->
  (exists q, p = a ++ q /\ q `prefix_of` b) \/ (p `prefix_of` a /\ p <> a).
Proof.
  revert p. induction a as [|x a IH]; intros p Hp; cbn in Hp.
  - left. exists p. auto.
  - destruct p as [|y p]. { right. split; [apply prefix_nil|congruence]. }
    pose proof (prefix_cons_inv_1 _ _ _ _ Hp) as ->. apply prefix_cons_inv_2 in Hp.
    destruct (IH p Hp) as [(q & -> & Hq)|[H1 H2]].
    + left. exists q. auto.
    + right. split; [by apply prefix_cons|congruence].
Qed.
Lemma prefix_short {A} (p l : list A) : p `prefix_of` l -> p <> l -> (length p < length l)%nat.
Proof. intros [k ->] Hn. destruct k; [rewrite app_nil_r in Hn; congruence|]. rewrite app_length. cbn. lia. Qed.

(** ** Composition *)
Lemma codes_ret {A} (a : A) : codes (ret a) [] a.
Proof. split; [reflexivity|]. intros e' He Hn. apply prefix_nil_inv in He. congruence. Qed.
Lemma codes_bind {A B} (p : reader A) (f : A -> reader B) e1 e2 a b : codes p e1 a -> codes (f a) e2 b -> codes (bind p f) (e1 ++ e2) b.
Proof.
  intros [H1 H2] [H3 H4]. split.
  - intros r. unfold bind. rewrite <- app_assoc, H1. apply H3.
  - intros e' He Hn. destruct (prefix_app_split _ _ _ He) as [(q & -> & Hq)|[H5 H6]].
    + unfold bind. rewrite H1. apply H4; [exact Hq|congruence].
    + unfold bind. rewrite H2 by assumption. reflexivity.
Qed.
Lemma codes_bind_ret {A B} (p : reader A) (g : A -> B) e a b : codes p e a -> g a = b -> codes (do x <- p; ret (g x)) e b.
Proof. intros H <-. rewrite <- (app_nil_r e). eapply codes_bind; [exact H|]. apply codes_ret. Qed.
Lemma codes_ext {A} (p q : reader A) e a : (forall bs, p bs = q bs) -> codes p e a -> codes q e a.
Proof. intros E [H1 H2]. split; intros; rewrite <- E; auto. Qed.

Lemma tame_ret {A} (a : A) : tame (ret a).
Proof. intros bs. cbn. lia. Qed.
Lemma tame_fail {A} : tame (@fail A).
Proof. intros bs. exact I. Qed.
Lemma takes_tame {A} (p : reader A) : takes p -> tame p.
Proof. intros H bs. specialize (H bs). destruct (p bs); auto. lia. Qed.
Lemma tame_bind {A B} (p : reader A) (f : A -> reader B) : tame p -> (forall a, tame (f a)) -> tame (bind p f).
Proof.
  intros H1 H2 bs. unfold bind. specialize (H1 bs). destruct (p bs) as [a r| |]; auto. specialize (H2 a r). destruct (f a r); auto. lia.
Qed.
Lemma takes_bind {A B} (p : reader A) (f : A -> reader B) : takes p -> (forall a, tame (f a)) -> takes (bind p f).
Proof.
  intros H1 H2 bs. unfold bind. specialize (H1 bs). destruct (p bs) as [a r| |]; auto. specialize (H2 a r). destruct (f a r); auto. lia.
Qed.

Section loops.
Context {S R : Type} (body : S -> reader (S + R)) (Hb : forall s, takes (body s)).
Lemma iter_enough n : forall m s bs, (length bs < n)%nat -> (length bs < m)%nat -> iter n body s bs = iter m body s bs.
Proof.
  induction n as [|n IH]; intros m s bs Hn Hm; [lia|]. destruct m as [|m]; [lia|]. cbn [iter].
  pose proof (Hb s bs) as H. destruct (body s bs) as [[s'|x] r| |]; auto. apply IH; lia.
Qed.
Lemma loop_unfold s bs : loop body s bs = bind (body s) (fun r => match r with inl s' => loop body s' | inr x => ret x end) bs.
Proof.
  unfold loop at 1. cbn [iter]. unfold bind. pose proof (Hb s bs) as H. destruct (body s bs) as [[s'|x] r| |]; auto.
  unfold loop. apply iter_enough; lia.
Qed.
Lemma codes_loop_more s s' e1 e2 x : codes (body s) e1 (inl s') -> codes (loop body s') e2 x -> codes (loop body s) (e1 ++ e2) x.
Proof. intros H1 H2. eapply codes_ext; [intros bs; symmetry; apply loop_unfold|]. eapply codes_bind; [exact H1|exact H2]. Qed.
Lemma codes_loop_end s e x : codes (body s) e (inr x) -> codes (loop body s) e x.
Proof.
  intros H1. eapply codes_ext; [intros bs; symmetry; apply loop_unfold|]. rewrite <- (app_nil_r e). eapply codes_bind; [exact H1|apply codes_ret].
Qed.
Lemma takes_loop s : takes (loop body s).
Proof.
  intros bs. unfold loop. assert (G : forall n s bs, (length bs < n)%nat -> match iter n body s bs with ROk _ r => (length r < length bs)%nat | RErr => True | RFuel => False end).
  { clear s bs. induction n as [|n IH]; intros s bs Hn; [lia|]. cbn [iter]. pose proof (Hb s bs) as H.
    destruct (body s bs) as [[s'|x] r| |]; auto. specialize (IH s' r ltac:(lia)). destruct (iter n body s' r); auto. lia. }
  apply G. lia.
Qed.
End loops.
Lemma tame_times {A} (body : A -> reader A) : (forall a, tame (body a)) -> forall n a, tame (times n body a).
Proof. intros Hb n. induction n as [|n IH]; intros a; cbn [times]; [apply tame_ret|]. apply tame_bind; auto. Qed.
Lemma codes_times {A X} (body : A -> reader A) (step : A -> X -> A) (es : list X) parts :
  Forall2 (fun x e => forall a, codes (body a) e (step a x)) es parts -> forall a, codes (times (length es) body a) (concat parts) (fold_left step es a).
Proof.
  induction 1 as [|x e es parts H1 H2 IH]; intros a; cbn [times length concat fold_left]; [apply codes_ret|]. eapply codes_bind; [apply H1|apply IH].
Qed.

(** ** Primitives *)
Lemma codes_byte b : codes readByteDirect [b] b.
Proof.
  split; [reflexivity|]. intros e' He Hn. pose proof (prefix_short _ _ He Hn) as Hl. destruct e'; [reflexivity|cbn in Hl; lia].
Qed.
Lemma takes_byte : takes readByteDirect.
Proof. intros [|b bs]; cbn; auto. Qed.
Lemma takes_varint_from : forall bs sh acc, match readVarint sh acc bs with ROk _ r => (length r < length bs)%nat | RErr => True | RFuel => False end.
Proof.
  induction bs as [|b bs IH]; intros sh acc; cbn [readVarint]; [exact I|]. destruct (_ =? 128).
  - specialize (IH (sh + 7) (Z.lor acc (u64 (Z.shiftl (Z.land b 127) sh)))). destruct (readVarint _ _ bs); auto. cbn [length]. lia.
  - cbn. lia.
Qed.
Lemma takes_varint : takes (readVarint 0 0).
Proof. intros bs. apply takes_varint_from. Qed.
Lemma takes_varint32 : takes readVarint32.
Proof. apply takes_bind; [apply takes_varint|]. intros a. apply tame_ret. Qed.

Lemma land127 b : Z.land b 127 = b mod 128.
Proof. change 127 with (Z.ones 7). rewrite Z.land_ones by lia. reflexivity. Qed.
Lemma land128_small n : 0 <= n < 128 -> (Z.land n 128 =? 128) = false.
Proof.
  intros Hn. apply Z.eqb_neq. intros E. assert (B : Z.testbit (Z.land n 128) 7 = true) by (rewrite E; reflexivity).
  rewrite Z.land_spec in B. apply andb_true_iff in B as [B _]. rewrite <- (Z.mod_small n (2 ^ 7)) in B by lia. rewrite Z.mod_pow2_bits_high in B by lia. discriminate.
Qed.
Lemma land128_big n : 0 <= n < 128 -> (Z.land (128 + n) 128 =? 128) = true.
Proof.
  intros Hn. apply Z.eqb_eq. apply Z.bits_inj'. intros i Hi. rewrite Z.land_spec. change (Z.testbit 128 i) with (Z.testbit (2 ^ 7) i).
  destruct (Z.eq_dec i 7) as [->|Hne].
  - rewrite !Z.pow2_bits_true by lia. rewrite andb_true_r. rewrite Z.testbit_true by lia. change (2 ^ 7) with 128.
    replace (128 + n) with (n + 1 * 128) by lia. rewrite Z.div_add by lia. rewrite Z.div_small by lia. reflexivity.
  - rewrite !Z.pow2_bits_false by lia. apply andb_false_r.
Qed.
(** A varint is read to its end whatever its value. *)
Lemma varint_end n bs : varint n bs -> forall sh acc, exists v, codes (readVarint sh acc) bs v.
Proof.
  induction 1 as [n Hn|n b bs Hn Hb H IH]; intros sh acc.
  - eexists. split.
    + intros r. cbn [readVarint app]. rewrite land128_small by lia. reflexivity.
    + intros e' He Hn'. pose proof (prefix_short _ _ He Hn') as Hl. destruct e'; [reflexivity|cbn in Hl; lia].
  - destruct (IH (sh + 7) (Z.lor acc (u64 (Z.shiftl (Z.land b 127) sh)))) as [v [H1 H2]]. exists v.
    assert (Hbig : (Z.land b 128 =? 128) = true) by (subst b; apply land128_big; apply Z.mod_pos_bound; lia).
    split.
    + intros r. cbn [readVarint app]. rewrite Hbig. apply H1.
    + intros e' He Hn'. destruct e' as [|y e']; [reflexivity|]. pose proof (prefix_cons_inv_1 _ _ _ _ He) as ->. apply prefix_cons_inv_2 in He.
      cbn [readVarint]. rewrite Hbig. apply H2; [exact He|congruence].
Qed.
Lemma lor_disjoint a b sh : 0 <= sh -> 0 <= a < 2 ^ sh -> Z.lor a (b * 2 ^ sh) = a + b * 2 ^ sh.
Proof.
  intros Hs Ha. assert (H0 : Z.land a (b * 2 ^ sh) = 0).
  { apply Z.bits_inj'. intros i Hi. rewrite Z.land_spec, Z.bits_0. destruct (Z_lt_ge_dec i sh).
    - rewrite Z.mul_pow2_bits_low by lia. apply andb_false_r.
    - rewrite <- (Z.mod_small a (2 ^ sh)) by lia. rewrite Z.mod_pow2_bits_high by lia. reflexivity. }
  rewrite Z.add_nocarry_lxor by exact H0. symmetry. apply Z.lxor_lor. exact H0.
Qed.
Lemma varint_value n bs : varint n bs -> forall sh acc, 0 <= sh -> n * 2 ^ sh < 2 ^ 64 -> 0 <= acc < 2 ^ sh ->
  codes (readVarint sh acc) bs (acc + n * 2 ^ sh).
Proof.
  induction 1 as [n Hn|n b bs Hn Hb H IH]; intros sh acc Hs Hlt Hacc.
  - split.
    + intros r. cbn [readVarint app]. rewrite land128_small by lia. rewrite land127, Z.mod_small by lia.
      rewrite Z.shiftl_mul_pow2 by lia. unfold u64. rewrite Z.mod_small by (split; [apply Z.mul_nonneg_nonneg; lia|lia]). rewrite lor_disjoint by lia. reflexivity.
    + intros e' He Hn'. pose proof (prefix_short _ _ He Hn') as Hl. destruct e'; [reflexivity|cbn in Hl; lia].
  - pose proof (Z.mod_pos_bound n 128 ltac:(lia)) as Hm. pose proof (Z.div_mod n 128 ltac:(lia)) as Hd. pose proof (Z.pow_pos_nonneg 2 sh ltac:(lia) Hs) as Hp.
    assert (Hbig : (Z.land b 128 =? 128) = true) by (subst b; apply land128_big; lia).
    assert (Hlow : Z.land b 127 = n mod 128).
    { subst b. rewrite land127. rewrite <- Zplus_mod_idemp_l. change (128 mod 128) with 0. rewrite Z.add_0_l. apply Z.mod_mod. lia. }
    assert (H7 : 2 ^ (sh + 7) = 128 * 2 ^ sh) by (rewrite Z.pow_add_r by lia; lia).
    assert (Hacc' : Z.lor acc (u64 (Z.shiftl (n mod 128) sh)) = acc + n mod 128 * 2 ^ sh).
    { rewrite Z.shiftl_mul_pow2 by lia. unfold u64. rewrite Z.mod_small; [apply lor_disjoint; lia|]. split; [apply Z.mul_nonneg_nonneg; lia|].
      apply Z.le_lt_trans with (n * 2 ^ sh); [apply Z.mul_le_mono_nonneg_r; lia|exact Hlt]. }
    pose proof (Z.div_pos n 128 Hn ltac:(lia)) as Hq.
    destruct (IH (sh + 7) (acc + n mod 128 * 2 ^ sh)) as [H1 H2]; [lia| |nia|].
    { rewrite H7. apply Z.le_lt_trans with (n * 2 ^ sh); [|exact Hlt]. rewrite Z.mul_assoc. apply Z.mul_le_mono_nonneg_r; lia. }
    assert (Hv : acc + n mod 128 * 2 ^ sh + n / 128 * 2 ^ (sh + 7) = acc + n * 2 ^ sh) by nia.
    rewrite Hv in H1. split.
    + intros r. cbn [readVarint app]. rewrite Hbig, Hlow, Hacc'. apply H1.
    + intros e' He Hn'. destruct e' as [|y e']; [reflexivity|]. pose proof (prefix_cons_inv_1 _ _ _ _ He) as ->. apply prefix_cons_inv_2 in He.
      cbn [readVarint]. rewrite Hbig, Hlow, Hacc'. apply H2; [exact He|congruence].
Qed.
Lemma codes_varint32 n bs : varint n bs -> n < 2 ^ 64 -> codes readVarint32 bs (i32 n).
Proof.
  intros H Hn. unfold readVarint32. eapply codes_bind_ret; [apply (varint_value n bs H 0 0); lia|]. f_equal. lia.
Qed.
Lemma varint_nonneg n bs : varint n bs -> 0 <= n.
Proof. induction 1; lia. Qed.
Lemma codes_varint32_size n bs : varint n bs -> n <= max_len -> codes readVarint32 bs n.
Proof.
  intros H Hn. pose proof (varint_nonneg _ _ H). unfold max_len in Hn. assert (E : i32 n = n) by (apply wrapS_id; [lia|change (2 ^ (32 - 1)) with 2147483648; lia]).
  pose proof (codes_varint32 n bs H ltac:(change (2 ^ 64) with 18446744073709551616; lia)) as C. rewrite E in C. exact C.
Qed.
Lemma size_ok_iff n : size_ok n = true <-> 0 <= n <= max_len.
Proof. unfold size_ok, MaxMessageSize, max_len. rewrite andb_true_iff. lia. Qed.
Lemma codes_full s : codes (readFull (Z.of_nat (length s))) s s.
Proof.
  split.
  - intros r. unfold readFull. rewrite Nat2Z.id. rewrite app_length.
    replace (length s + length r <? length s)%nat with false by (symmetry; apply Nat.ltb_ge; lia).
    rewrite take_app_alt, drop_app_alt by reflexivity. reflexivity.
  - intros e' He Hn. pose proof (prefix_short _ _ He Hn). unfold readFull. rewrite Nat2Z.id.
    replace (length e' <? length s)%nat with true by (symmetry; apply Nat.ltb_lt; lia). reflexivity.
Qed.
Lemma tame_full n : tame (readFull n).
Proof. intros bs. unfold readFull. destruct (_ <? _)%nat; [exact I|]. rewrite skipn_length. lia. Qed.
Lemma codes_string s bs : wstring s bs -> codes ReadString bs s.
Proof.
  intros (l & Hl & Hv & ->). unfold ReadString. eapply codes_bind; [apply codes_varint32_size; [exact Hv|exact Hl]|].
  replace (size_ok _) with true by (symmetry; apply size_ok_iff; lia). apply codes_full.
Qed.
Lemma takes_string : takes ReadString.
Proof. apply takes_bind; [apply takes_varint32|]. intros n. destruct (size_ok n); [apply tame_full|apply tame_fail]. Qed.
Lemma codes_i8 t : is_i8 t -> codes ReadByte [t mod 256] t.
Proof.
  intros Ht. unfold ReadByte. eapply codes_bind_ret; [apply codes_byte|]. unfold is_i8 in Ht. unfold i8.
  transitivity (wrapS 8 t); [|apply wrapS_id; [lia|change (2 ^ (8 - 1)) with 128; lia]]. apply wrapS_eq_mod; [lia|].
  change 256 with (2 ^ 8). apply Z.mod_mod. lia.
Qed.
Lemma takes_ReadByte : takes ReadByte.
Proof. apply takes_bind; [apply takes_byte|]. intros a. apply tame_ret. Qed.

(** ** Field heads *)
Lemma zigzag id : is_i16 id -> zigzagToInt32 (i32 (if id <? 0 then -2 * id - 1 else 2 * id)) = id.
Proof.
  unfold is_i16. change (2 ^ 15) with 32768. intros Hi. set (z := if id <? 0 then -2 * id - 1 else 2 * id).
  assert (Hz : 0 <= z < 65536) by (subst z; destruct (id <? 0) eqn:E; lia).
  assert (i32 z = z) as -> by (apply wrapS_id; [lia|change (2 ^ (32 - 1)) with 2147483648; lia]).
  unfold zigzagToInt32. unfold u32. rewrite Z.mod_small by lia. rewrite Z.shiftr_div_pow2 by lia. change (2 ^ 1) with 2.
  assert (Hl : Z.land z 1 = z mod 2) by (change 1 with (Z.ones 1) at 1; rewrite Z.land_ones by lia; reflexivity).
  rewrite Hl. unfold z. destruct (id <? 0) eqn:E.
  - replace ((-2 * id - 1) mod 2) with 1 by (replace (-2 * id - 1) with (1 + (- id - 1) * 2) by lia; rewrite Z.mod_add by lia; reflexivity).
    replace ((-2 * id - 1) / 2) with (- id - 1) by (replace (-2 * id - 1) with (1 + (- id - 1) * 2) by lia; rewrite Z.div_add by lia; change (1 / 2) with 0; lia).
    change (- (1)) with (-1). rewrite Z.lxor_m1_r. unfold Z.lnot. replace (Z.pred (- (- id - 1))) with id by lia.
    apply wrapS_id; [lia|]. change (2 ^ (32 - 1)) with 2147483648. lia.
  - replace (2 * id) with (id * 2) by lia. rewrite Z.mod_mul, Z.div_mul by lia. cbn [Z.opp]. rewrite Z.lxor_0_r.
    apply wrapS_id; [lia|]. change (2 ^ (32 - 1)) with 2147483648. lia.
Qed.
Lemma wtype_get t c : wtype t c -> 1 <= c <= 12 /\ getTType c = Some t /\ t <> STOP.
Proof. destruct 1; cbn; (split; [lia|split; [reflexivity|discriminate]]). Qed.
Lemma nib d c : 0 <= d <= 15 -> 0 <= c <= 15 -> Z.land (16 * d + c) 15 = c /\ Z.shiftr (Z.land (16 * d + c) 240) 4 = d /\ Z.shiftr (16 * d + c) 4 = d.
Proof.
  intros Hd Hc. assert (H1 : Z.land (16 * d + c) 15 = c).
  { change 15 with (Z.ones 4). rewrite Z.land_ones by lia. change (2 ^ 4) with 16. rewrite Z.add_comm, Z.mul_comm, Z.mod_add, Z.mod_small by lia. reflexivity. }
  assert (H2 : Z.shiftr (16 * d + c) 4 = d).
  { rewrite Z.shiftr_div_pow2 by lia. change (2 ^ 4) with 16. rewrite Z.add_comm, Z.mul_comm, Z.div_add, Z.div_small by lia. lia. }
  split; [exact H1|]. split; [|exact H2]. rewrite Z.shiftr_land, H2. change (Z.shiftr 240 4) with (Z.ones 4). rewrite Z.land_ones by lia. apply Z.mod_small. change (2 ^ 4) with 16. lia.
Qed.
Lemma codes_head last id t bs : is_i16 id -> whead last id t bs -> codes (ReadFieldBegin last) bs (t, id).
Proof.
  intros Hid H. unfold is_i16 in Hid. change (2 ^ 15) with 32768 in Hid. destruct H as [c Hc Hd|c bs Hc Hv].
  - destruct (wtype_get _ _ Hc) as (Hr & Hg & _). destruct (nib (id - last) c ltac:(lia) ltac:(lia)) as (N1 & N2 & _).
    unfold ReadFieldBegin. rewrite <- (app_nil_r [_]). eapply codes_bind; [apply codes_byte|]. rewrite N1, N2.
    replace (c =? 0) with false by (symmetry; apply Z.eqb_neq; lia). replace (id - last =? 0) with false by (symmetry; apply Z.eqb_neq; lia).
    rewrite Hg. replace (i16 (last + (id - last))) with id; [apply (codes_bind (ret id) _ [] [] id); apply codes_ret|].
    symmetry. replace (last + (id - last)) with id by lia. apply wrapS_id; [lia|]. change (2 ^ (16 - 1)) with 32768. lia.
  - destruct (wtype_get _ _ Hc) as (Hr & Hg & _). destruct (nib 0 c ltac:(lia) ltac:(lia)) as (N1 & N2 & _). rewrite Z.mul_0_r, Z.add_0_l in N1, N2.
    unfold ReadFieldBegin. change (c :: bs) with ([c] ++ bs). eapply codes_bind; [apply codes_byte|]. rewrite N1, N2. change (0 =? 0) with true.
    replace (c =? 0) with false by (symmetry; apply Z.eqb_neq; lia). cbn match. rewrite Hg. rewrite <- (app_nil_r bs).
    eapply codes_bind; [|apply codes_ret]. unfold ReadI16. eapply codes_bind_ret; [apply codes_varint32; [exact Hv|]|].
    + change (2 ^ 64) with 18446744073709551616. destruct (id <? 0); lia.
    + rewrite zigzag by (unfold is_i16; lia). apply wrapS_id; [lia|]. change (2 ^ (16 - 1)) with 32768. lia.
Qed.
Lemma codes_stop last : codes (ReadFieldBegin last) [0] (STOP, 0).
Proof. unfold ReadFieldBegin. change [0] with ([0] ++ []). eapply codes_bind; [apply codes_byte|]. apply codes_ret. Qed.
Lemma takes_head last : takes (ReadFieldBegin last).
Proof.
  apply takes_bind; [apply takes_byte|]. intros t. destruct (_ =? 0); [apply tame_ret|]. apply tame_bind.
  - destruct (_ =? 0); [|apply tame_ret]. apply tame_bind; [apply takes_tame, takes_varint32|intros; apply tame_ret].
  - intros id. destruct (getTType _); [apply tame_ret|apply tame_fail].
Qed.
Lemma takes_mapbegin : takes ReadMapBegin.
Proof.
  apply takes_bind; [apply takes_varint32|]. intros n. destruct (size_ok n); [|apply tame_fail]. apply tame_bind; [|intros; apply tame_ret].
  destruct (n =? 0); [apply tame_ret|apply takes_tame, takes_byte].
Qed.
Lemma takes_listbegin : takes ReadListBegin.
Proof.
  apply takes_bind; [apply takes_byte|]. intros b. apply tame_bind.
  - destruct (_ =? 15); [|apply tame_ret]. apply tame_bind; [apply takes_tame, takes_varint32|]. intros n. destruct (size_ok n); [apply tame_ret|apply tame_fail].
  - intros n. destruct (getTType _); [apply tame_ret|apply tame_fail].
Qed.
(** The head of a map. *)
Lemma codes_mapbegin_empty : codes ReadMapBegin [0] (STOP, STOP, 0).
Proof.
  unfold ReadMapBegin. change [0] with ([0] ++ []). eapply codes_bind; [apply (codes_varint32_size 0); [constructor; lia|unfold max_len; lia]|].
  cbn match. change (size_ok 0) with true. cbn match. change (0 =? 0) with true. cbn match.
  apply (codes_bind (ret 0) _ [] [] 0); [apply codes_ret|]. apply codes_ret.
Qed.
Lemma codes_mapbegin n kt vt kc vc l : (0 < n)%nat -> Z.of_nat n <= max_len -> wtype kt kc -> wtype vt vc -> varint (Z.of_nat n) l ->
  codes ReadMapBegin (l ++ [16 * kc + vc]) (kt, vt, Z.of_nat n).
Proof.
  intros Hn Hm Hk Hv Hl. destruct (wtype_get _ _ Hk) as (K1 & K2 & _), (wtype_get _ _ Hv) as (V1 & V2 & _). destruct (nib kc vc ltac:(lia) ltac:(lia)) as (N1 & _ & N2).
  unfold ReadMapBegin. eapply codes_bind; [apply codes_varint32_size; eassumption|]. replace (size_ok _) with true by (symmetry; apply size_ok_iff; lia).
  replace (Z.of_nat n =? 0) with false by (symmetry; apply Z.eqb_neq; lia). eapply codes_bind_ret; [apply codes_byte|]. rewrite N1, N2, K2, V2. reflexivity.
Qed.

(** ** Skipping *)
Lemma tame_skip d : forall f t, tame (Skip d f t).
Proof.
  induction d as [|d IH]; intros f t; cbn [Skip]; [apply tame_fail|].
  destruct t; try (apply tame_fail).
  - destruct f; [apply tame_ret|]. apply takes_tame, takes_bind; [apply takes_byte|intros; apply tame_ret].
  - apply takes_tame, takes_bind; [apply takes_byte|intros; apply tame_ret].
  - apply takes_tame, takes_bind; [apply takes_varint|intros; apply tame_ret].
  - apply takes_tame, takes_bind; [apply takes_varint|intros; apply tame_ret].
  - apply takes_tame, takes_bind; [apply takes_varint|intros; apply tame_ret].
  - apply tame_bind; [apply tame_full|intros; apply tame_ret].
  - apply takes_tame, takes_bind; [apply takes_string|intros; apply tame_ret].
  - apply takes_tame, takes_bind; [apply takes_listbegin|]. intros [et n]. apply tame_times. auto.
  - apply takes_tame, takes_bind; [apply takes_listbegin|]. intros [et n]. apply tame_times. auto.
  - apply takes_tame, takes_bind; [apply takes_mapbegin|]. intros [[kt vt] n]. apply tame_times. intros _. apply tame_bind; auto.
  - apply takes_tame, takes_loop. intros last. apply takes_bind; [apply takes_head|]. intros [ty id]. destruct ty; try apply tame_ret;
      (apply tame_bind; [apply IH|intros; apply tame_ret]).
Qed.
Lemma takes_skip_body d last : takes (bind (ReadFieldBegin last) (fun '(ty, id) =>
  match ty with STOP => ret (inr tt) | _ => do _ <- Skip d true ty; ret (inl id) end)).
Proof.
  apply takes_bind; [apply takes_head|]. intros [ty id]. destruct ty; try apply tame_ret; (apply tame_bind; [apply tame_skip|intros; apply tame_ret]).
Qed.
Lemma codes_many P n bs (body : unit -> reader unit) : wmany P n bs -> (forall e, P e -> codes (body tt) e tt) -> codes (times n body tt) bs tt.
Proof.
  intros H Hp. induction H as [|n a b Ha Hb IH]; cbn [times]; [apply codes_ret|]. eapply codes_bind; [apply Hp; exact Ha|exact IH].
Qed.
Lemma prefix_fixed {A} (p : reader A) n : (forall bs, (length bs < n)%nat -> p bs = RErr) -> forall e e' : list Z, length e = n -> e' `prefix_of` e -> e' <> e -> p e' = RErr.
Proof. intros H e e' Hl He Hn. apply H. pose proof (prefix_short _ _ He Hn). lia. Qed.
Lemma codes_skip d : forall f t bs, wvalue d f t bs -> codes (Skip d f t) bs tt.
Proof.
  induction d as [|d IH]; intros f t bs Hv; cbn [wvalue Skip] in *; [contradiction|].
  assert (Hbyte : forall bs, length bs = 1%nat -> codes (do _ <- readByteDirect; ret tt) bs tt).
  { intros b1 Hl. destruct b1 as [|b [|b1]]; cbn in Hl; try lia. eapply codes_bind_ret; [apply codes_byte|reflexivity]. }
  assert (Hint : forall bs, (exists n, varint n bs) -> codes (do _ <- readVarint 0 0; ret tt) bs tt).
  { intros b1 [n Hn]. destruct (varint_end n b1 Hn 0 0) as [v Hc]. eapply codes_bind_ret; [exact Hc|reflexivity]. }
  assert (Hlist : forall bs, (exists n et ec r, wtype et ec /\ wmany (wvalue d false et) n r /\
            (((n < 15)%nat /\ bs = [16 * Z.of_nat n + ec] ++ r) \/
             exists l, Z.of_nat n <= max_len /\ varint (Z.of_nat n) l /\ bs = [240 + ec] ++ l ++ r)) ->
          codes (bind ReadListBegin (fun '(et, n) => times (Z.to_nat n) (fun _ => Skip d false et) tt)) bs tt).
  { intros b1 (n & et & ec & r & Ht & Hm & Hc). destruct (wtype_get _ _ Ht) as (T1 & T2 & _).
    assert (Hr : codes (times (Z.to_nat (Z.of_nat n)) (fun _ => Skip d false et) tt) r tt).
    { rewrite Nat2Z.id. eapply codes_many; [exact Hm|]. intros e He. apply IH, He. }
    destruct Hc as [[Hn ->]|(l & Hn & Hl & ->)].
    - apply (codes_bind _ _ _ _ (et, Z.of_nat n)); [|exact Hr]. unfold ReadListBegin. destruct (nib (Z.of_nat n) ec ltac:(lia) ltac:(lia)) as (N1 & _ & N2).
      rewrite <- (app_nil_r [_]). eapply codes_bind; [apply codes_byte|]. rewrite N1, N2.
      replace (Z.land (Z.of_nat n) 15) with (Z.of_nat n) by (change 15 with (Z.ones 4); rewrite Z.land_ones by lia; symmetry; apply Z.mod_small; change (2 ^ 4) with 16; lia).
      replace (Z.of_nat n =? 15) with false by (symmetry; apply Z.eqb_neq; lia). rewrite T2. apply (codes_bind (ret (Z.of_nat n)) _ [] []  (Z.of_nat n)); apply codes_ret.
    - rewrite app_assoc. apply (codes_bind _ _ _ _ (et, Z.of_nat n)); [|exact Hr]. unfold ReadListBegin. destruct (nib 15 ec ltac:(lia) ltac:(lia)) as (N1 & _ & N2).
      change (240 + ec) with (16 * 15 + ec). eapply codes_bind; [apply codes_byte|]. rewrite N1, N2. change (Z.land 15 15 =? 15) with true. cbn match. rewrite T2.
      rewrite <- (app_nil_r l). eapply codes_bind; [|apply codes_ret]. rewrite <- (app_nil_r l). eapply codes_bind; [apply codes_varint32_size; eassumption|].
      replace (size_ok _) with true by (symmetry; apply size_ok_iff; lia). apply codes_ret. }
  destruct t; try contradiction; auto.
  - destruct f; [subst; apply codes_ret|auto].
  - eapply codes_bind_ret; [|reflexivity]. replace 8 with (Z.of_nat (length bs)) by (rewrite Hv; reflexivity). apply codes_full.
  - destruct Hv as [s Hs]. eapply codes_bind_ret; [apply codes_string; exact Hs|reflexivity].
  - destruct Hv as [->|(n & kt & vt & kc & vc & l & r & Hn & Hm & Hk & Hvt & Hl & Hr & ->)].
    + change [0] with ([0] ++ []). eapply codes_bind; [apply codes_mapbegin_empty|]. apply codes_ret.
    + rewrite app_assoc. eapply codes_bind; [apply codes_mapbegin; eassumption|]. cbn match. rewrite Nat2Z.id. eapply codes_many; [exact Hr|].
      intros e (a & b & -> & Ha & Hb). eapply codes_bind; [apply IH, Ha|apply IH, Hb].
  - cbn beta. revert Hv. generalize 0 at 1 2. intros last Hv. induction Hv as [last|last id t h v r Hid Hh Hval Hf IHf].
    + apply codes_loop_end; [apply takes_skip_body|]. change [0] with ([0] ++ []). eapply codes_bind; [apply codes_stop|]. apply codes_ret.
    + rewrite app_assoc. eapply codes_loop_more; [apply takes_skip_body| |exact IHf]. eapply codes_bind; [apply codes_head; eassumption|]. cbn match.
      pose proof (IH true t v Hval) as Hs. inversion Hh as [c Hc|c ? Hc]; subst; destruct (wtype_get _ _ Hc) as (_ & _ & Hns);
        (destruct t; [congruence|eapply codes_bind_ret; [exact Hs|reflexivity]..]).
Qed.
