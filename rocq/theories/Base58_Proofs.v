(** Lemmas about the base58 model. *)
From Coq Require Import ZArith List Bool Lia ZifyBool ZifyNat.
From Verif Require Import GoInt Base58_Model Base58_Spec.
Import ListNotations.
Local Open Scope Z_scope.
Ltac Zify.zify_post_hook ::= Z.div_mod_to_equations.

Lemma range_forallb (P : Z -> bool) (n : nat) :
  forallb P (map Z.of_nat (seq 0 n)) = true ->
  forall c, 0 <= c < Z.of_nat n -> P c = true.
Proof.
  intros H c Hc. rewrite forallb_forall in H. apply H.
  apply in_map_iff. exists (Z.to_nat c). split; [lia|]. apply in_seq. lia.
Qed.

(** ** reverseBytes is list reversal *)
Lemma reverse_loop_length n i bs : length (reverse_loop n i bs) = length bs.
Proof.
  revert i bs; induction n; intros; cbn; auto. rewrite IHn, !upd_length. auto.
Qed.

Lemma reverse_loop_nth n : forall i bs k,
  (2 * (i + n) <= length bs)%nat -> (k < length bs)%nat ->
  nth k (reverse_loop n i bs) 0 =
  if ((Nat.leb i k && Nat.ltb k (i + n)) ||
      (Nat.leb (length bs - i - n) k && Nat.ltb k (length bs - i)))%bool
  then nth (length bs - 1 - k) bs 0 else nth k bs 0.
Proof.
  induction n as [|n IH]; intros i bs k Hl Hk.
  - cbn [reverse_loop]. destruct (_ || _)%bool eqn:E; auto. lia.
  - cbn [reverse_loop].
    rewrite IH by (rewrite ?upd_length; lia).
    rewrite !upd_length.
    rewrite !nth_upd, !upd_length.
    repeat match goal with
    | |- context [if ?b then _ else _] => destruct b eqn:?
    end; try lia; try (f_equal; lia).
Qed.

Lemma reverseBytes_rev bs : reverseBytes bs = rev bs.
Proof.
  unfold reverseBytes.
  apply nth_ext with (d := 0) (d' := 0).
  - rewrite reverse_loop_length, rev_length. reflexivity.
  - rewrite reverse_loop_length. intros k Hk.
    assert (Hd : (2 * (length bs / 2) <= length bs)%nat) by lia.
    rewrite reverse_loop_nth by lia.
    rewrite rev_nth by lia.
    destruct (_ || _) eqn:E; [f_equal; lia|].
    f_equal. lia.
Qed.

(** ** The alphabet *)
Definition chr (d : Z) : Z := nth (Z.to_nat d) b58Alphabet 0.

Lemma chr_facts d : 0 <= d < 58 ->
  is_b58_char (chr d) = true /\ digit_value (chr d) = d /\ index_byte b58Alphabet (chr d) 0 = d.
Proof.
  intros Hd.
  assert (H : forallb (fun d => is_b58_char (chr d) && (digit_value (chr d) =? d) &&
                (index_byte b58Alphabet (chr d) 0 =? d)) (map Z.of_nat (seq 0 58)) = true)
    by (vm_compute; reflexivity).
  pose proof (range_forallb _ 58 H d ltac:(lia)) as H0. cbv beta in H0.
  rewrite !andb_true_iff, !Z.eqb_eq in H0. tauto.
Qed.

Lemma char_facts c : is_b58_char c = true ->
  index_byte b58Alphabet c 0 = digit_value c /\ 0 <= digit_value c < 58 /\ chr (digit_value c) = c.
Proof.
  intros Hc.
  assert (H : forallb (fun c => negb (is_b58_char c) ||
                ((index_byte b58Alphabet c 0 =? digit_value c) &&
                 (0 <=? digit_value c) && (digit_value c <? 58) && (chr (digit_value c) =? c)))
                (map Z.of_nat (seq 0 128)) = true) by (vm_compute; reflexivity).
  assert (Hr : 0 <= c < 128) by (unfold is_b58_char in Hc; lia).
  pose proof (range_forallb _ 128 H c ltac:(lia)) as H0. cbv beta in H0. rewrite Hc in H0.
  cbn [negb orb] in H0. rewrite !andb_true_iff, !Z.eqb_eq, Z.leb_le, Z.ltb_lt in H0. tauto.
Qed.

Lemma index_byte_notin l b i : ~ In b l -> index_byte l b i = -1.
Proof.
  revert i; induction l; intros i Hn; cbn; auto.
  destruct (a =? b) eqn:E.
  - exfalso. apply Hn. left. lia.
  - apply IHl. intro. apply Hn. now right.
Qed.

Lemma alphabet_chars : Forall (fun c => is_b58_char c = true) b58Alphabet.
Proof. apply Forall_forall. apply forallb_forall. vm_compute. reflexivity. Qed.

Lemma index_byte_bad c : is_b58_char c = false -> index_byte b58Alphabet c 0 = -1.
Proof.
  intros H. apply index_byte_notin. intro Hin.
  pose proof alphabet_chars as HA. rewrite Forall_forall in HA.
  apply HA in Hin. congruence.
Qed.

(** ** Decoding *)
Lemma decode_loop_spec cs r :
  (forallb is_b58_char cs = true ->
   exists v, decode_loop cs r = Some v /\
             (is_u64 r -> v = (r * 58 ^ Z.of_nat (length cs) + positional cs) mod 2^64)) /\
  (forallb is_b58_char cs = false -> decode_loop cs r = None).
Proof.
  revert r; induction cs as [|c cs IH]; intros r; cbn [forallb decode_loop].
  - split; [|discriminate]. intros _. exists r. split; auto. intros Hr.
    cbn. rewrite Z.mul_1_r, Z.add_0_r. symmetry. apply Z.mod_small. exact Hr.
  - destruct (is_b58_char c) eqn:Hc.
    + destruct (char_facts c Hc) as [Hi [Hd _]]. rewrite Hi.
      replace (0 <=? digit_value c) with true by lia.
      cbn [andb]. destruct (IH (u64 (u64 (r * 58) + u64 (digit_value c)))) as [IH1 IH2].
      split; auto. intros Hall. destruct (IH1 Hall) as [v [Hv Hval]].
      exists v. split; auto. intros Hr. rewrite Hval by apply u64_range.
      cbn [positional length]. rewrite Nat2Z.inj_succ, Z.pow_succ_r by lia.
      unfold u64.
      rewrite <- Z.add_mod by lia.
      rewrite <- Zplus_mod_idemp_l, Zmult_mod_idemp_l, Zplus_mod_idemp_l.
      f_equal. ring.
    + cbn [andb]. rewrite (index_byte_bad c Hc). split; [discriminate|]. reflexivity.
Qed.

Lemma decode_spec_ok cs :
  forallb is_b58_char cs = true -> DecodeForInt64 cs = (positional cs mod 2^64, true).
Proof.
  intros H. unfold DecodeForInt64.
  destruct (decode_loop_spec cs 0) as [H1 _]. destruct (H1 H) as [v [Hv Hval]].
  rewrite Hv. rewrite Hval by (unfold is_u64; lia). f_equal.
Qed.

Lemma decode_spec_bad cs :
  forallb is_b58_char cs = false -> DecodeForInt64 cs = (0, false).
Proof.
  intros H. unfold DecodeForInt64.
  destruct (decode_loop_spec cs 0) as [_ H2]. rewrite (H2 H). reflexivity.
Qed.

(** ** Encoding *)
Lemma positional_app a c :
  positional (a ++ [c]) = positional a * 58 + digit_value c.
Proof.
  induction a as [|x a IH]; cbn [positional app length].
  - cbn. lia.
  - rewrite IH, app_length. cbn [length].
    replace (Z.of_nat (length a + 1)) with (Z.succ (Z.of_nat (length a))) by lia.
    rewrite Z.pow_succ_r by lia. ring.
Qed.

(** What the loop appends, read most significant first, is worth [v]. *)
Lemma encode_loop_spec fuel : forall v r, 0 <= v < 2 ^ Z.of_nat fuel ->
  exists ds, encode_loop fuel v r = r ++ ds /\
    positional (rev ds) = v /\ forallb is_b58_char ds = true /\
    (v = 0 -> ds = []) /\ (0 < v -> exists c ds', rev ds = c :: ds' /\ digit_value c <> 0).
Proof.
  induction fuel as [|fuel IH]; intros v r Hv.
  - cbn in Hv. exists []. cbn. rewrite app_nil_r. repeat split; auto; try lia.
  - cbn [encode_loop]. destruct (0 <? v) eqn:E.
    + assert (Hq : 0 <= v / 58 < 2 ^ Z.of_nat fuel).
      { rewrite Nat2Z.inj_succ, Z.pow_succ_r in Hv by lia. lia. }
      destruct (IH (v / 58) (r ++ [nth (Z.to_nat (v mod 58)) b58Alphabet 0]) Hq)
        as [ds [H1 [H2 [H3 [H4 H5]]]]].
      exists (chr (v mod 58) :: ds).
      destruct (chr_facts (v mod 58) ltac:(lia)) as [F1 [F2 F3]].
      split; [rewrite H1; cbn; rewrite <- app_assoc; reflexivity|].
      split; [cbn [rev]; rewrite positional_app, H2, F2; lia|].
      split; [cbn [forallb]; rewrite F1; exact H3|].
      split; [lia|]. intros _.
      destruct (Z.eq_dec (v / 58) 0) as [Hz|Hz].
      * rewrite (H4 Hz). exists (chr (v mod 58)), []. split; [reflexivity|]. rewrite F2. lia.
      * destruct (H5 ltac:(lia)) as [c [ds' [G1 G2]]].
        exists c, (ds' ++ [chr (v mod 58)]). cbn [rev]. rewrite G1. split; auto.
    + exists []. rewrite app_nil_r. cbn. repeat split; auto; try lia.
Qed.

Lemma fuel_ok v : 0 <= v -> v < 2 ^ Z.of_nat (S (Z.to_nat (Z.log2 v))).
Proof.
  intros Hv. destruct (Z.eq_dec v 0) as [->|Hz]; [cbn; lia|].
  pose proof (Z.log2_nonneg v). pose proof (Z.log2_spec v ltac:(lia)).
  replace (Z.of_nat (S (Z.to_nat (Z.log2 v)))) with (Z.succ (Z.log2 v)) by lia. lia.
Qed.

Lemma encode_spec v : 0 <= v ->
  positional (EncodeForInt64 v) = v /\ forallb is_b58_char (EncodeForInt64 v) = true /\
  (v = 0 -> EncodeForInt64 v = []) /\
  (0 < v -> exists c ds', EncodeForInt64 v = c :: ds' /\ digit_value c <> 0).
Proof.
  intros Hv. unfold EncodeForInt64. rewrite reverseBytes_rev.
  destruct (encode_loop_spec _ v [] (conj Hv (fuel_ok v Hv))) as [ds [H1 [H2 [H3 [H4 H5]]]]].
  rewrite H1. cbn [app]. repeat split; auto.
  - rewrite <- H3. apply eq_true_iff_eq. rewrite !forallb_forall.
    split; intros H x Hx; apply H; [apply in_rev; rewrite rev_involutive|apply in_rev]; exact Hx.
  - intros Hz. rewrite (H4 Hz). reflexivity.
Qed.

(** The fuel is irrelevant: any sufficient amount gives the same string. *)
Lemma encode_loop_fuel f1 : forall f2 v r, 0 <= v -> v < 2 ^ Z.of_nat f1 -> v < 2 ^ Z.of_nat f2 ->
  encode_loop f1 v r = encode_loop f2 v r.
Proof.
  induction f1 as [|f1 IH]; intros f2 v r H0 H1 H2.
  - cbn in H1. replace v with 0 by lia. destruct f2; reflexivity.
  - destruct f2 as [|f2].
    + cbn in H2. replace v with 0 by lia. reflexivity.
    + cbn [encode_loop]. destruct (0 <? v) eqn:E; auto.
      rewrite Nat2Z.inj_succ, Z.pow_succ_r in H1, H2 by lia.
      apply IH; lia.
Qed.

Lemma encode_decode v : is_u64 v -> DecodeForInt64 (EncodeForInt64 v) = (v, true).
Proof.
  intros Hv. destruct (encode_spec v ltac:(destruct Hv; lia)) as [H1 [H2 _]].
  rewrite decode_spec_ok by exact H2. rewrite H1. f_equal. apply Z.mod_small. exact Hv.
Qed.

Lemma digit_value_range c : is_b58_char c = true -> 0 <= digit_value c < 58.
Proof. intros H. apply (char_facts c H). Qed.

Lemma positional_bound cs : forallb is_b58_char cs = true ->
  0 <= positional cs < 58 ^ Z.of_nat (length cs).
Proof.
  induction cs as [|c cs IH]; intros H; cbn [positional length forallb] in *; [cbn; lia|].
  apply andb_prop in H as [Hc Hcs]. specialize (IH Hcs).
  pose proof (digit_value_range c Hc).
  rewrite Nat2Z.inj_succ, Z.pow_succ_r by lia. nia.
Qed.

Lemma positional_lower c cs : is_b58_char c = true -> forallb is_b58_char cs = true ->
  digit_value c <> 0 -> 58 ^ Z.of_nat (length cs) <= positional (c :: cs).
Proof.
  intros Hc Hcs Hd. cbn [positional].
  pose proof (digit_value_range c Hc). pose proof (positional_bound cs Hcs). nia.
Qed.

Lemma encode_length v : is_u64 v -> (length (EncodeForInt64 v) <= 11)%nat.
Proof.
  intros Hv. destruct (encode_spec v ltac:(destruct Hv; lia)) as [H1 [H2 [H3 H4]]].
  destruct (Z.eq_dec v 0) as [Hz|Hz]; [rewrite (H3 Hz); cbn; lia|].
  destruct (H4 ltac:(destruct Hv; lia)) as [c [ds [E Hd]]].
  rewrite E in *. cbn [forallb] in H2. apply andb_prop in H2 as [Hc Hds].
  pose proof (positional_lower c ds Hc Hds Hd) as Hl. rewrite H1 in Hl.
  cbn [length]. destruct (Nat.leb (S (length ds)) 11) eqn:El; [lia|].
  exfalso. assert (58 ^ 11 <= 58 ^ Z.of_nat (length ds)) by (apply Z.pow_le_mono_r; lia).
  assert (2^64 < 58 ^ 11) by (vm_compute; reflexivity).
  destruct Hv. lia.
Qed.

Lemma encode_no_leading_one v : 0 <= v -> forall c ds, EncodeForInt64 v = c :: ds -> c <> 49.
Proof.
  intros Hv c ds E -> . destruct (encode_spec v Hv) as [H1 [H2 [H3 H4]]].
  destruct (Z.eq_dec v 0) as [Hz|Hz]; [rewrite (H3 Hz) in E; discriminate|].
  destruct (H4 ltac:(lia)) as [c' [ds' [E' Hd]]]. rewrite E in E'. inversion E'; subst.
  apply Hd. vm_compute. reflexivity.
Qed.

(** ** Order *)
Lemma digit_value_lt a b : is_b58_char a = true -> is_b58_char b = true ->
  (digit_value a < digit_value b <-> a < b).
Proof.
  intros Ha Hb.
  assert (H : forallb (fun a => forallb (fun b => negb (is_b58_char a && is_b58_char b) ||
      Bool.eqb (digit_value a <? digit_value b) (a <? b)) (map Z.of_nat (seq 0 128)))
      (map Z.of_nat (seq 0 128)) = true) by (vm_compute; reflexivity).
  assert (0 <= a < 128) by (unfold is_b58_char in Ha; lia).
  assert (0 <= b < 128) by (unfold is_b58_char in Hb; lia).
  pose proof (range_forallb _ 128 H a ltac:(lia)) as H2. cbv beta in H2.
  pose proof (range_forallb _ 128 H2 b ltac:(lia)) as H3. cbv beta in H3.
  rewrite Ha, Hb in H3. cbn [andb negb orb] in H3. apply Bool.eqb_prop in H3. lia.
Qed.

Lemma digit_value_inj a b : is_b58_char a = true -> is_b58_char b = true ->
  digit_value a = digit_value b -> a = b.
Proof.
  intros Ha Hb H. destruct (char_facts a Ha) as [_ [_ E1]]. destruct (char_facts b Hb) as [_ [_ E2]].
  congruence.
Qed.

Lemma bytes_lt_positional a : forall b, length a = length b ->
  forallb is_b58_char a = true -> forallb is_b58_char b = true ->
  bytes_lt a b -> positional a < positional b.
Proof.
  induction a as [|x a IH]; intros [|y b] Hl Ha Hb H; cbn in *; try contradiction.
  injection Hl as Hl. apply andb_prop in Ha as [Hx Ha]. apply andb_prop in Hb as [Hy Hb].
  pose proof (positional_bound a Ha). pose proof (positional_bound b Hb).
  specialize (IH b Hl Ha Hb). rewrite Hl in *. destruct H as [H|[-> H]].
  - apply (digit_value_lt x y Hx Hy) in H. nia.
  - specialize (IH H). lia.
Qed.

Lemma bytes_trichotomy a : forall b, length a = length b -> a = b \/ bytes_lt a b \/ bytes_lt b a.
Proof.
  induction a as [|x a IH]; intros [|y b] Hl; cbn in *; try discriminate; auto.
  injection Hl as Hl. destruct (Z.lt_trichotomy x y) as [H|[->|H]]; auto.
  destruct (IH b Hl) as [->|[H|H]]; auto.
Qed.

Lemma encode_shortlex a b : 0 <= a -> 0 <= b ->
  shortlex_lt (EncodeForInt64 a) (EncodeForInt64 b) -> a < b.
Proof.
  intros Ha Hb H.
  destruct (encode_spec a Ha) as [A1 [A2 [A3 A4]]]. destruct (encode_spec b Hb) as [B1 [B2 [B3 B4]]].
  destruct H as [H|[Hl H]].
  - destruct (Z.eq_dec b 0) as [Hz|Hz]; [rewrite (B3 Hz) in H; cbn in H; lia|].
    destruct (B4 ltac:(lia)) as [c [ds [E Hd]]].
    pose proof (positional_bound _ A2) as HA. rewrite A1 in HA.
    rewrite E in *. cbn [forallb] in B2. apply andb_prop in B2 as [Hc Hds].
    pose proof (positional_lower c ds Hc Hds Hd) as HL. rewrite B1 in HL. cbn [length] in H.
    assert (58 ^ Z.of_nat (length (EncodeForInt64 a)) <= 58 ^ Z.of_nat (length ds))
      by (apply Z.pow_le_mono_r; lia). lia.
  - pose proof (bytes_lt_positional _ _ Hl A2 B2 H). lia.
Qed.

Lemma encode_order a b : 0 <= a -> 0 <= b ->
  (a < b <-> shortlex_lt (EncodeForInt64 a) (EncodeForInt64 b)).
Proof.
  intros Ha Hb. split; [|apply encode_shortlex; auto]. intros Hab.
  destruct (Nat.lt_trichotomy (length (EncodeForInt64 a)) (length (EncodeForInt64 b))) as [H|[H|H]].
  - now left.
  - right. split; auto. destruct (bytes_trichotomy _ _ H) as [E|[E|E]]; auto.
    + exfalso. assert (a = b); [|lia].
      rewrite <- (proj1 (encode_spec a Ha)), <- (proj1 (encode_spec b Hb)). congruence.
    + exfalso. assert (b < a); [|lia]. apply encode_shortlex; auto. right. auto.
  - exfalso. assert (b < a); [|lia]. apply encode_shortlex; auto. now left.
Qed.
