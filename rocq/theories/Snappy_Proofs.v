From stdpp Require Import gmap list.
From Coq Require Import ZArith Lia.
From Verif Require Import GoInt Thrift_Proofs Snappy_Spec Snappy_Model.
Local Open Scope Z_scope.

(** * Numbers *)
Lemma le_le_bytes k : forall n, 0 <= n < 256 ^ Z.of_nat k -> le (le_bytes k n) = n.
Proof.
  induction k as [|k IH]; intros n Hn; [cbn in *; lia|]. cbn [le_bytes le foldr]. change (foldr (fun b a => b + 256 * a) 0 (le_bytes k (n / 256))) with (le (le_bytes k (n / 256))).
  rewrite IH; [pose proof (Z.div_mod n 256); lia|]. rewrite Nat2Z.inj_succ, Z.pow_succ_r in Hn by lia. split; [apply Z.div_pos; lia|apply Z.div_lt_upper_bound; lia].
Qed.
Lemma le_bytes_length k : forall n, length (le_bytes k n) = k.
Proof. induction k as [|k IH]; intros n; cbn; [|rewrite IH]; reflexivity. Qed.
Lemma le_bytes_bytes k : forall n, is_bytes (le_bytes k n).
Proof. induction k as [|k IH]; intros n; cbn [le_bytes]; constructor; [unfold is_u8; change (2^8) with 256; apply Z.mod_pos_bound; lia|apply IH]. Qed.
Lemma le_range bs : is_bytes bs -> 0 <= le bs < 256 ^ Z.of_nat (length bs).
Proof.
  induction bs as [|b bs IH]; intros H; [cbn; lia|]. apply Forall_cons in H as [Hb H]. specialize (IH H). cbn [le foldr length]. change (foldr (fun b a => b + 256 * a) 0 bs) with (le bs).
  rewrite Nat2Z.inj_succ, Z.pow_succ_r by lia. unfold is_u8 in Hb. change (2^8) with 256 in Hb. lia.
Qed.
Lemma le_bytes_le bs : is_bytes bs -> le_bytes (length bs) (le bs) = bs.
Proof.
  induction bs as [|b bs IH]; intros H; [reflexivity|]. apply Forall_cons in H as [Hb H]. specialize (IH H). unfold is_u8 in Hb. change (2^8) with 256 in Hb. cbn [length le_bytes le foldr].
  change (foldr (fun b a => b + 256 * a) 0 bs) with (le bs).
  replace (b + 256 * le bs) with (b + le bs * 256) by lia. rewrite Z.mod_add, Z.div_add by lia. rewrite Z.mod_small, Z.div_small by lia. rewrite Z.add_0_l, IH. reflexivity.
Qed.
Lemma le_inj a b : is_bytes a -> is_bytes b -> length a = length b -> le a = le b -> a = b.
Proof. intros Ha Hb Hl He. rewrite <- (le_bytes_le a Ha), <- (le_bytes_le b Hb), Hl, He. reflexivity. Qed.

(** * Uvarint *)
Lemma uvarint_range n w : uvarint n w -> 0 <= n.
Proof. induction 1; lia. Qed.
Lemma uvarint_bytes n w : uvarint n w -> is_bytes w.
Proof. induction 1; constructor; unfold is_u8; try (change (2^8) with 256; lia); auto. Qed.
Lemma lor_u64 x b s : 0 <= s -> 0 <= x < 2 ^ s -> 0 <= b * 2 ^ s < 2 ^ 64 -> Z.lor x (u64 (Z.shiftl b s)) = x + b * 2 ^ s.
Proof. intros Hs Hx Hb. rewrite Z.shiftl_mul_pow2 by lia. unfold u64. rewrite Z.mod_small by lia. apply lor_disjoint; lia. Qed.
Lemma Uvarint_complete n w : uvarint n w -> forall rest i x, 0 <= i -> i + Z.of_nat (length w) <= 10 -> 0 <= x < 2 ^ (7 * i) -> x + n * 2 ^ (7 * i) < 2 ^ 64 ->
  Uvarint (w ++ rest) i x (7 * i) = Some (x + n * 2 ^ (7 * i), i + Z.of_nat (length w)).
Proof.
  induction 1 as [b Hb|b n w Hb Hw IH]; intros rest i x Hi Hl Hx Hn.
  - cbn [app Uvarint length] in *. assert (i =? 10 = false) as -> by lia. assert (b <? 128 = true) as -> by lia.
    assert ((i =? 9) && (1 <? b) = false) as ->.
    { destruct (i =? 9) eqn:E9; [|reflexivity]. apply Z.eqb_eq in E9. subst i. change (2 ^ (7 * 9)) with 9223372036854775808 in Hn. change (2^64) with 18446744073709551616 in Hn. cbn. lia. }
    rewrite lor_u64 by lia. repeat f_equal.
  - cbn [app Uvarint length] in *. assert (i =? 10 = false) as -> by lia. assert (128 + b <? 128 = false) as -> by lia. pose proof (uvarint_range _ _ Hw) as Hn0.
    assert (0 < 2 ^ (7 * i)) as Hp by (apply Z.pow_pos_nonneg; lia).
    rewrite land127. replace ((128 + b) mod 128) with b by (rewrite <- Z.add_mod_idemp_l by lia; cbn; rewrite Z.mod_small; lia).
    rewrite lor_u64 by nia. replace (7 * i + 7) with (7 * (i + 1)) by lia.
    assert (2 ^ (7 * (i + 1)) = 128 * 2 ^ (7 * i)) as E7 by (replace (7 * (i + 1)) with (7 + 7 * i) by lia; rewrite Z.pow_add_r by lia; reflexivity).
    rewrite IH; [|lia|lia|rewrite E7; nia|rewrite E7; nia]. f_equal. f_equal; [rewrite E7; lia|lia].
Qed.
Lemma Uvarint_sound buf : is_bytes buf -> forall i x v n, 0 <= i <= 10 -> 0 <= x < 2 ^ (7 * i) -> Uvarint buf i x (7 * i) = Some (v, n) ->
  exists m w rest, buf = w ++ rest /\ uvarint m w /\ v = x + m * 2 ^ (7 * i) /\ n = i + Z.of_nat (length w) /\ n <= 10.
Proof.
  induction buf as [|b buf IH]; intros Hbs i x v n Hi Hx H; [discriminate|]. apply Forall_cons in Hbs as [Hb Hbs]. unfold is_u8 in Hb. change (2^8) with 256 in Hb.
  cbn [Uvarint] in H. destruct (i =? 10) eqn:E10; [discriminate|]. apply Z.eqb_neq in E10.
  assert (0 < 2 ^ (7 * i)) as Hp by (apply Z.pow_pos_nonneg; lia).
  assert (2 ^ (7 * i) <= 2 ^ 63) as Hp2 by (apply Z.pow_le_mono_r; lia).
  assert (i <= 8 -> 2 ^ (7 * i) <= 2 ^ 56) as Hp3 by (intros; apply Z.pow_le_mono_r; lia).
  change (2 ^ 63) with 9223372036854775808 in *. change (2 ^ 56) with 72057594037927936 in *.
  destruct (b <? 128) eqn:E128.
  - destruct ((i =? 9) && (1 <? b)) eqn:E9; [discriminate|]. apply Z.ltb_lt in E128. injection H as <- <-. exists b, [b], buf. split; [reflexivity|]. split; [constructor; lia|].
    split; [|cbn [length]; lia]. apply lor_u64; [lia|lia|]. change (2 ^ 64) with 18446744073709551616. split; [nia|]. apply andb_false_iff in E9 as [E9|E9].
    + apply Z.eqb_neq in E9. specialize (Hp3 ltac:(lia)). nia.
    + apply Z.ltb_ge in E9. nia.
  - apply Z.ltb_ge in E128. rewrite land127 in H.
    assert (2 ^ (7 * (i + 1)) = 128 * 2 ^ (7 * i)) as E7 by (replace (7 * (i + 1)) with (7 + 7 * i) by lia; rewrite Z.pow_add_r by lia; reflexivity).
    assert (b mod 128 = b - 128) as Em by (symmetry; apply (Z.mod_unique _ _ 1); lia). rewrite Em in H.
    destruct (decide (i = 9)) as [->|Hn9].
    + exfalso. destruct buf; cbn in H; discriminate.
    + specialize (Hp3 ltac:(lia)). rewrite lor_u64 in H; [|lia|lia|change (2 ^ 64) with 18446744073709551616; nia]. replace (7 * i + 7) with (7 * (i + 1)) in H by lia.
      assert (0 <= x + (b - 128) * 2 ^ (7 * i) < 2 ^ (7 * (i + 1))) as Hx' by (rewrite E7; clear - Hx Hb E128 Hp; set (P := 2 ^ (7 * i)) in *; nia).
      destruct (IH Hbs (i + 1) _ v n ltac:(lia) Hx' H) as (m & w & rest & -> & Hu & Hv & Hn & Hn10).
      exists (b - 128 + 128 * m), (b :: w), rest. split; [reflexivity|]. split; [|cbn [length]; rewrite E7 in Hv; split; [rewrite Hv; ring|lia]].
      replace b with (128 + (b - 128)) at 2 by lia. constructor; [lia|assumption].
Qed.
Lemma decodedLen_spec src v n : is_bytes src -> decodedLen src = Some (v, n) <->
  exists h rest, src = h ++ rest /\ uvarint v h /\ n = Z.of_nat (length h) /\ (length h <= 10)%nat /\ v < 2 ^ 32.
Proof.
  intros Hb. unfold decodedLen. split.
  - destruct (Uvarint src 0 0 0) as [[v' n']|] eqn:E; [|discriminate]. destruct (4294967295 <? v') eqn:Ev; [discriminate|]. intros [= -> ->].
    destruct (Uvarint_sound src Hb 0 0 v n ltac:(lia) ltac:(cbn; lia) E) as (m & h & rest & -> & Hu & Hv & Hn & Hn10). cbn in Hv. exists h, rest. replace v with m by lia. repeat split; auto; lia.
  - intros (h & rest & -> & Hu & -> & Hl & Hv). change (2 ^ 32) with 4294967296 in Hv.
    assert (Uvarint (h ++ rest) 0 0 0 = Some (v, Z.of_nat (length h))) as ->.
    { transitivity (Some (0 + v * 2 ^ (7 * 0), 0 + Z.of_nat (length h))).
      - apply (Uvarint_complete _ _ Hu rest 0 0); [lia|lia|cbn; lia|]. change (2 ^ (7 * 0)) with 1. lia.
      - change (2 ^ (7 * 0)) with 1. f_equal. f_equal. lia. }
    assert (4294967295 <? v = false) as -> by lia. reflexivity.
Qed.

(** * Decoding *)
Lemma copyBack_iter n off : forall dst, copyBack n off dst = Nat.iter n (copy_byte off) dst.
Proof. induction n as [|n IH]; intros dst; [reflexivity|]. rewrite Nat.iter_succ_r. apply IH. Qed.
Lemma iter_length n off : forall out, length (Nat.iter n (copy_byte off) out) = (length out + n)%nat.
Proof. induction n as [|n IH]; intros out; [cbn; lia|]. rewrite Nat.iter_succ. unfold copy_byte at 1. rewrite app_length, IH. cbn [length]. lia. Qed.
Definition esize (e : elem) : nat := match e with Lit bs => length bs | Copy _ len => len end.
Lemma exec_length out e : length (exec out e) = (length out + esize e)%nat.
Proof. destruct e; cbn [exec esize]; [apply app_length|apply iter_length]. Qed.
Lemma stream_length out w res : stream out w res -> (length out <= length res)%nat.
Proof. induction 1; [lia|]. rewrite exec_length in *. lia. Qed.
Lemma tag_table : forallb (fun t => (Z.land t 3 =? t mod 4) && (Z.shiftr t 2 =? t / 4) && (Z.land (Z.shiftr t 2) 7 =? (t / 4) mod 8) &&
  (Z.shiftl (Z.land t 224) 3 =? 256 * (t / 32))) (map Z.of_nat (seq 0 256)) = true.
Proof. vm_compute. reflexivity. Qed.
Lemma tag_facts t : is_u8 t -> Z.land t 3 = t mod 4 /\ Z.shiftr t 2 = t / 4 /\ Z.land (Z.shiftr t 2) 7 = (t / 4) mod 8 /\ Z.shiftl (Z.land t 224) 3 = 256 * (t / 32).
Proof.
  intros H. unfold is_u8 in H. change (2^8) with 256 in H. pose proof tag_table as T. rewrite forallb_forall in T. specialize (T t). assert (In t (map Z.of_nat (seq 0 256))) as Hin.
  { apply in_map_iff. exists (Z.to_nat t). rewrite Z2Nat.id by lia. split; [reflexivity|]. apply in_seq. lia. }
  specialize (T Hin). lia.
Qed.
Lemma lor_off h b : 0 <= h -> is_u8 b -> Z.lor (256 * h) b = 256 * h + b.
Proof. intros Hh Hb. unfold is_u8 in Hb. rewrite Z.lor_comm. replace (256 * h) with (h * 2 ^ 8) by (change (2^8) with 256; lia). rewrite lor_disjoint by lia. lia. Qed.
Lemma wire_nonempty e w : wire e w -> (1 <= length w)%nat.
Proof. destruct 1; cbn [length]; lia. Qed.
Lemma decode_sound fuel dLen : forall src dst res, is_bytes src -> decode fuel dLen src dst = Some res -> stream dst src res /\ Z.of_nat (length res) = dLen.
Proof.
  induction fuel as [|fuel IH]; intros src dst res Hb H; [discriminate|]. cbn [decode] in H.
  assert (Hlit : forall x src', is_bytes src' -> 0 <= x -> (if (dLen - Z.of_nat (length dst) <? x + 1) || (Z.of_nat (length src') <? x + 1) then None
     else decode fuel dLen (drop (Z.to_nat (x + 1)) src') (dst ++ take (Z.to_nat (x + 1)) src')) = Some res ->
     exists bs rest, src' = bs ++ rest /\ Z.of_nat (length bs) = x + 1 /\ stream (exec dst (Lit bs)) rest res /\ Z.of_nat (length res) = dLen).
  { intros x src' Hb' Hx Hd. destruct (_ || _) eqn:Ec; [discriminate|]. apply orb_false_iff in Ec as [Ec1 Ec2]. apply IH in Hd; [|apply Forall_drop; assumption]. destruct Hd as [Hs Hl].
    exists (take (Z.to_nat (x + 1)) src'), (drop (Z.to_nat (x + 1)) src'). rewrite take_drop, take_length. repeat split; auto; lia. }
  assert (Hcp : forall l o src', is_bytes src' -> 0 <= l -> (if (o <=? 0) || (Z.of_nat (length dst) <? o) || (dLen - Z.of_nat (length dst) <? l) then None
     else decode fuel dLen src' (copyBack (Z.to_nat l) (Z.to_nat o) dst)) = Some res ->
     0 < o /\ valid dst (Copy (Z.to_nat o) (Z.to_nat l)) /\ stream (exec dst (Copy (Z.to_nat o) (Z.to_nat l))) src' res /\ Z.of_nat (length res) = dLen).
  { intros l o src' Hb' Hl0 Hd. destruct (_ || _) eqn:Ec; [discriminate|]. apply orb_false_iff in Ec as [Ec Ec3]. apply orb_false_iff in Ec as [Ec1 Ec2]. apply IH in Hd; [|assumption]. destruct Hd as [Hs Hl].
    rewrite copyBack_iter in Hs. cbn [valid exec]. repeat split; auto; lia. }
  destruct src as [|t src].
  { destruct (_ =? _) eqn:E; [|discriminate]. injection H as <-. apply Z.eqb_eq in E. split; [constructor|exact E]. }
  apply Forall_cons in Hb as [Ht Hb]. destruct (tag_facts t Ht) as (T1 & T2 & T3 & T4). rewrite T3, T2, T1, T4 in H. clear T1 T2 T3 T4.
  unfold is_u8 in Ht. change (2^8) with 256 in Ht. pose proof (Z.div_mod t 4 ltac:(lia)) as Dm. pose proof (Z.mod_pos_bound t 4 ltac:(lia)) as Bm. assert (0 <= t / 4 < 64) as Bd by (split; [apply Z.div_pos; lia|apply Z.div_lt_upper_bound; lia]).
  destruct (t mod 4 =? 0) eqn:E0; [|destruct (t mod 4 =? 1) eqn:E1].
  - apply Z.eqb_eq in E0. destruct (t / 4 <? 60) eqn:E60.
    + apply Hlit in H as (bs & rest & -> & Hl & Hs & Hr); [|assumption|lia]. split; [|exact Hr]. change (t :: bs ++ rest) with ((t :: bs) ++ rest). apply (s_elem _ (Lit bs)); [destruct bs; [cbn in Hl; lia|discriminate]| |exact Hs].
      replace t with (4 * (t / 4)) by lia. constructor; lia.
    + destruct (_ <? _)%nat eqn:El; [discriminate|]. apply Nat.ltb_ge in El. set (k := Z.to_nat (t / 4 - 59)) in *.
      assert (length (take k src) = k) as Lk by (rewrite take_length; lia). assert (is_bytes (take k src)) as Bk by (apply Forall_take; assumption). pose proof (le_range _ Bk) as Rk. rewrite Lk in Rk.
      apply Hlit in H as (bs & rest & Hsrc & Hl & Hs & Hr); [|apply Forall_drop; assumption|lia]. split; [|exact Hr].
      assert (t :: src = (4 * (59 + Z.of_nat k) :: le_bytes k (le (take k src)) ++ bs) ++ rest) as ->.
      { cbn [app]. f_equal; [unfold k; lia|]. rewrite <- Lk at 1. rewrite le_bytes_le by assumption. rewrite <- app_assoc, <- Hsrc. symmetry. apply take_drop. }
      apply (s_elem _ (Lit bs)); [destruct bs; [cbn in Hl; lia|discriminate]| |exact Hs]. constructor; [lia|unfold k; lia|lia].
  - apply Z.eqb_eq in E1. destruct src as [|b src]; [discriminate|]. apply Forall_cons in Hb as [Hbb Hb].
    assert (0 <= t / 32 < 8) as B32 by (split; [apply Z.div_pos; lia|apply Z.div_lt_upper_bound; lia]). rewrite (lor_off (t / 32) b ltac:(lia) Hbb) in H. unfold is_u8 in Hbb. change (2^8) with 256 in Hbb.
    pose proof (Z.mod_pos_bound (t / 4) 8 ltac:(lia)) as B8. apply Hcp in H as (Ho & Hv & Hs & Hr); [|assumption|lia]. split; [|exact Hr].
    assert (t / 32 = t / 4 / 8) as E32 by (rewrite Z.div_div by lia; reflexivity). pose proof (Z.div_mod (t / 4) 8 ltac:(lia)) as Dm8.
    set (o := 256 * (t / 32) + b) in *. assert (o / 256 = t / 32) as Eo by (unfold o; replace (256 * (t / 32) + b) with (b + (t / 32) * 256) by lia; rewrite Z.div_add, Z.div_small by lia; lia).
    assert (o mod 256 = b) as Em by (unfold o; replace (256 * (t / 32) + b) with (b + (t / 32) * 256) by lia; rewrite Z.mod_add, Z.mod_small by lia; lia).
    assert (t :: b :: src = [1 + 4 * ((t / 4) mod 8) + 32 * (o / 256); o mod 256] ++ src) as ->.
    { cbn [app]. rewrite Eo, Em. f_equal. lia. }
    apply (s_elem _ (Copy (Z.to_nat o) (Z.to_nat (4 + (t / 4) mod 8)))); [exact Hv| |exact Hs]. assert (0 <= o < 2048) as Bo by (unfold o; lia). clearbody o. constructor; lia.
  - destruct (length src <? _)%nat eqn:El; [discriminate|]. apply Nat.ltb_ge in El. apply Z.eqb_neq in E0, E1. destruct (t mod 4 =? 2) eqn:E2.
    + apply Z.eqb_eq in E2. assert (length (take 2 src) = 2%nat) as Lk by (rewrite take_length; lia). assert (is_bytes (take 2 src)) as Bk by (apply Forall_take; assumption). pose proof (le_range _ Bk) as Rk. rewrite Lk in Rk.
      apply Hcp in H as (Ho & Hv & Hs & Hr); [|apply Forall_drop; assumption|lia]. split; [|exact Hr].
      assert (t :: src = (2 + 4 * (t / 4) :: le_bytes 2 (le (take 2 src))) ++ drop 2 src) as ->.
      { cbn [app]. f_equal; [lia|]. rewrite <- Lk at 1. rewrite le_bytes_le by assumption. symmetry. apply take_drop. }
      apply (s_elem _ (Copy (Z.to_nat (le (take 2 src))) (Z.to_nat (1 + t / 4)))); [exact Hv| |exact Hs]. constructor; lia.
    + apply Z.eqb_neq in E2. assert (length (take 4 src) = 4%nat) as Lk by (rewrite take_length; lia). assert (is_bytes (take 4 src)) as Bk by (apply Forall_take; assumption). pose proof (le_range _ Bk) as Rk. rewrite Lk in Rk.
      apply Hcp in H as (Ho & Hv & Hs & Hr); [|apply Forall_drop; assumption|lia]. split; [|exact Hr].
      assert (t :: src = (3 + 4 * (t / 4) :: le_bytes 4 (le (take 4 src))) ++ drop 4 src) as ->.
      { cbn [app]. f_equal; [lia|]. rewrite <- Lk at 1. rewrite le_bytes_le by assumption. symmetry. apply take_drop. }
      apply (s_elem _ (Copy (Z.to_nat (le (take 4 src))) (Z.to_nat (1 + t / 4)))); [exact Hv| |exact Hs]. constructor; lia.
Qed.
Lemma lor4 : forall o l, 0 <= l < 8 -> 0 <= o < 2048 -> is_u8 (1 + 4 * l + 32 * (o / 256)).
Proof. intros o l Hl Ho. unfold is_u8. change (2^8) with 256. assert (0 <= o / 256 < 8) by (split; [apply Z.div_pos; lia|apply Z.div_lt_upper_bound; lia]). lia. Qed.
Lemma decode_complete out w res : stream out w res -> forall fuel dLen, (length w < fuel)%nat -> Z.of_nat (length res) = dLen -> decode fuel dLen w out = Some res.
Proof.
  induction 1 as [out|out e w ws res Hv Hw Hs IH]; intros fuel dLen Hf Hl.
  - destruct fuel as [|fuel]; [cbn in Hf; lia|]. cbn [decode]. rewrite Hl, Z.eqb_refl. reflexivity.
  - pose proof (stream_length _ _ _ Hs) as Hle. rewrite exec_length in Hle. pose proof (wire_nonempty _ _ Hw) as Hne. rewrite app_length in Hf.
    destruct fuel as [|fuel]; [lia|]. assert (length ws < fuel)%nat as Hf' by lia. specialize (IH fuel dLen Hf' Hl). cbn [decode].
    assert (Hlit : forall bs x, Z.of_nat (length bs) = x + 1 -> e = Lit bs -> (if (dLen - Z.of_nat (length out) <? x + 1) || (Z.of_nat (length (bs ++ ws)) <? x + 1) then None
     else decode fuel dLen (drop (Z.to_nat (x + 1)) (bs ++ ws)) (out ++ take (Z.to_nat (x + 1)) (bs ++ ws))) = Some res).
    { intros bs x Hx ->. cbn [esize] in Hle. rewrite app_length. assert ((dLen - Z.of_nat (length out) <? x + 1) || (Z.of_nat (length bs + length ws) <? x + 1) = false) as -> by lia.
      replace (Z.to_nat (x + 1)) with (length bs) by lia. rewrite drop_app, take_app. exact IH. }
    assert (Hcp : forall off len o l, Z.of_nat off = o -> Z.of_nat len = l -> e = Copy off len -> (if (o <=? 0) || (Z.of_nat (length out) <? o) || (dLen - Z.of_nat (length out) <? l) then None
     else decode fuel dLen ws (copyBack (Z.to_nat l) (Z.to_nat o) out)) = Some res).
    { intros off len o l Ho Hl' ->. cbn [esize valid] in Hle, Hv. assert ((o <=? 0) || (Z.of_nat (length out) <? o) || (dLen - Z.of_nat (length out) <? l) = false) as -> by lia.
      rewrite copyBack_iter. replace (Z.to_nat l) with len by lia. replace (Z.to_nat o) with off by lia. exact IH. }
    assert (Hcw : forall k n, length (le_bytes k n ++ ws) = (k + length ws)%nat) by (intros k n; rewrite app_length, le_bytes_length; reflexivity).
    assert (Hmod : forall r l m, 0 <= r < m -> 0 <= l -> 0 < m -> (r + m * l) mod m = r /\ (r + m * l) / m = l).
    { intros r l m Hr Hl0 Hm. replace (r + m * l) with (r + l * m) by lia. rewrite Z.mod_add, Z.div_add by lia. rewrite Z.mod_small, Z.div_small by lia. lia. }
    destruct Hw as [bs n Hb Hn|k bs n Hb Hk Hn|off len o l Ho Hl' Hl8 Ho8|off len o l Ho Hl' Hl8 Ho8|off len o l Ho Hl' Hl8 Ho8]; cbn [app].
    + assert (is_u8 (4 * n)) as Ht by (unfold is_u8; change (2^8) with 256; lia). destruct (tag_facts _ Ht) as (T1 & T2 & T3 & T4). rewrite T1, T2. destruct (Hmod 0 n 4) as [E1 E2]; [lia..|]. rewrite Z.add_0_l in E1, E2. rewrite E1, E2. change (0 =? 0) with true. cbv iota.
      assert (n <? 60 = true) as -> by lia. apply Hlit; auto.
    + assert (is_u8 (4 * (59 + Z.of_nat k))) as Ht by (unfold is_u8; change (2^8) with 256; lia). destruct (tag_facts _ Ht) as (T1 & T2 & T3 & T4). rewrite T1, T2. destruct (Hmod 0 (59 + Z.of_nat k) 4) as [E1 E2]; [lia..|]. rewrite Z.add_0_l in E1, E2. rewrite E1, E2. change (0 =? 0) with true. cbv iota.
      assert (59 + Z.of_nat k <? 60 = false) as -> by lia. replace (Z.to_nat (59 + Z.of_nat k - 59)) with k by lia. rewrite <- app_assoc.
      assert ((length (le_bytes k n ++ bs ++ ws) <? k)%nat = false) as -> by (apply Nat.ltb_ge; rewrite app_length, le_bytes_length; lia).
      rewrite take_app_alt, drop_app_alt by (rewrite le_bytes_length; reflexivity). rewrite le_le_bytes by assumption. apply Hlit; auto.
    + pose proof (lor4 o l Hl8 Ho8) as Ht. destruct (tag_facts _ Ht) as (T1 & T2 & T3 & T4). assert (0 <= o / 256 < 8) as Bo by (split; [apply Z.div_pos; lia|apply Z.div_lt_upper_bound; lia]).
      replace (1 + 4 * l + 32 * (o / 256)) with (1 + 4 * (l + 8 * (o / 256))) in * by lia. destruct (Hmod 1 (l + 8 * (o / 256)) 4) as [E1 E2]; [lia..|]. destruct (Hmod l (o / 256) 8) as [E3 E4]; [lia..|].
      assert ((1 + 4 * (l + 8 * (o / 256))) / 32 = o / 256) as E5 by (change 32 with (4 * 8); rewrite <- Z.div_div by lia; rewrite E2; exact E4).
      rewrite T3, T1, T4, E1, E2, E3, E5. change (1 =? 0) with false. change (1 =? 1) with true. cbv iota.
      rewrite lor_off; [|lia|unfold is_u8; change (2^8) with 256; apply Z.mod_pos_bound; lia]. rewrite <- Z.div_mod by lia. apply (Hcp off len); auto. lia.
    + assert (is_u8 (2 + 4 * l)) as Ht by (unfold is_u8; change (2^8) with 256; lia). destruct (tag_facts _ Ht) as (T1 & T2 & T3 & T4). destruct (Hmod 2 l 4) as [E1 E2]; [lia..|]. rewrite T1, T2, E1, E2.
      change (2 =? 0) with false. change (2 =? 1) with false. change (2 =? 2) with true. cbv iota. rewrite Hcw. assert ((2 + length ws <? 2)%nat = false) as -> by (apply Nat.ltb_ge; lia).
      rewrite take_app_alt, drop_app_alt by (rewrite le_bytes_length; reflexivity). rewrite le_le_bytes by assumption. apply (Hcp off len); auto. lia.
    + assert (is_u8 (3 + 4 * l)) as Ht by (unfold is_u8; change (2^8) with 256; lia). destruct (tag_facts _ Ht) as (T1 & T2 & T3 & T4). destruct (Hmod 3 l 4) as [E1 E2]; [lia..|]. rewrite T1, T2, E1, E2.
      change (3 =? 0) with false. change (3 =? 1) with false. change (3 =? 2) with false. cbv iota. rewrite Hcw. assert ((4 + length ws <? 4)%nat = false) as -> by (apply Nat.ltb_ge; lia).
      rewrite take_app_alt, drop_app_alt by (rewrite le_bytes_length; reflexivity). rewrite le_le_bytes by assumption. apply (Hcp off len); auto. lia.
Qed.
Lemma Decode_iff w out : is_bytes w -> Decode w = Some out <-> snappy w out.
Proof.
  intros Hb. unfold Decode, snappy. split.
  - destruct (decodedLen w) as [[v n]|] eqn:E; [|discriminate]. apply decodedLen_spec in E as (h & rest & -> & Hu & -> & Hl & Hv); [|assumption]. rewrite Nat2Z.id, drop_app. intros H.
    apply decode_sound in H as [Hs Hr]; [|apply Forall_app in Hb; tauto]. exists h, rest. rewrite Hr. auto.
  - intros (h & body & -> & Hu & Hl & Hv & Hs). assert (decodedLen (h ++ body) = Some (Z.of_nat (length out), Z.of_nat (length h))) as ->.
    { apply decodedLen_spec; [assumption|]. exists h, body. auto. }
    rewrite Nat2Z.id, drop_app. apply decode_complete; [exact Hs|rewrite app_length; lia|reflexivity].
Qed.

(** * Encoding *)
Definition steps (out w out' : list Z) : Prop := forall rest res, stream out' rest res -> stream out (w ++ rest) res.
Lemma steps_nil out : steps out [] out.
Proof. intros rest res H. exact H. Qed.
Lemma steps_app a w1 b w2 c : steps a w1 b -> steps b w2 c -> steps a (w1 ++ w2) c.
Proof. intros H1 H2 rest res H. rewrite <- app_assoc. apply H1, H2, H. Qed.
Lemma steps_elem out e w : valid out e -> wire e w -> steps out w (exec out e).
Proof. intros Hv Hw rest res H. apply (s_elem _ e); assumption. Qed.
Lemma emitLiteral_wire lit : lit <> [] -> Z.of_nat (length lit) <= 65536 -> wire (Lit lit) (emitLiteral lit).
Proof.
  intros Hne Hl. assert (1 <= Z.of_nat (length lit)) as Hp by (destruct lit; [contradiction|cbn [length]; lia]). unfold emitLiteral. set (n := Z.of_nat (length lit) - 1).
  assert (u8 n = n mod 256) as E8 by reflexivity. destruct (n <? 60) eqn:E60; [|destruct (n <? 256) eqn:E256].
  - assert (u8 (Z.shiftl (u8 n) 2) = 4 * n) as ->.
    { rewrite E8. rewrite (Z.mod_small n 256) by lia. rewrite Z.shiftl_mul_pow2 by lia. unfold u8. change (2^8) with 256. change (2^2) with 4. rewrite Z.mod_small by lia. lia. }
    constructor; lia.
  - change (240 :: u8 n :: lit) with (4 * (59 + Z.of_nat 1) :: le_bytes 1 n ++ lit). constructor; [lia|lia|]. change (256 ^ Z.of_nat 1) with 256. lia.
  - rewrite Z.shiftr_div_pow2 by lia. change (2^8) with 256. change (244 :: u8 n :: u8 (n / 256) :: lit) with (4 * (59 + Z.of_nat 2) :: le_bytes 2 n ++ lit).
    constructor; [lia|lia|]. change (256 ^ Z.of_nat 2) with 65536. lia.
Qed.
Lemma emitLiteral_length lit : lit <> [] -> let l := Z.of_nat (length lit) in
  Z.of_nat (length (emitLiteral lit)) <= l + 3 /\ (l <= 256 -> Z.of_nat (length (emitLiteral lit)) <= l + 2) /\ (l <= 60 -> Z.of_nat (length (emitLiteral lit)) <= l + 1).
Proof.
  intros Hne l. unfold emitLiteral. fold l. destruct (l - 1 <? 60) eqn:E60; [|destruct (l - 1 <? 256) eqn:E256]; cbn [length]; lia.
Qed.
Lemma copy1_table : forallb (fun h => forallb (fun l => Z.lor (Z.lor (u8 (Z.shiftl h 5)) (u8 (Z.shiftl (u8 (l - 4)) 2))) 1 =? 1 + 4 * (l - 4) + 32 * h) (map Z.of_nat (seq 4 8))) (map Z.of_nat (seq 0 8)) = true.
Proof. vm_compute. reflexivity. Qed.
Lemma copy2_table : forallb (fun l => Z.lor (u8 (Z.shiftl (u8 (l - 1)) 2)) 2 =? 2 + 4 * (l - 1)) (map Z.of_nat (seq 1 64)) = true.
Proof. vm_compute. reflexivity. Qed.
Lemma in_range a n x : Z.of_nat a <= x < Z.of_nat (a + n) -> In x (map Z.of_nat (seq a n)).
Proof. intros H. apply in_map_iff. exists (Z.to_nat x). rewrite Z2Nat.id by lia. split; [reflexivity|]. apply in_seq. lia. Qed.
Lemma copy1_byte h l : 0 <= h < 8 -> 4 <= l < 12 -> Z.lor (Z.lor (u8 (Z.shiftl h 5)) (u8 (Z.shiftl (u8 (l - 4)) 2))) 1 = 1 + 4 * (l - 4) + 32 * h.
Proof.
  intros Hh Hl. pose proof copy1_table as T. rewrite forallb_forall in T. specialize (T h (in_range 0 8 h ltac:(lia))). cbv beta in T. rewrite forallb_forall in T. specialize (T l (in_range 4 8 l ltac:(lia))).
  apply Z.eqb_eq in T. exact T.
Qed.
Lemma copy2_byte l : 1 <= l <= 64 -> Z.lor (u8 (Z.shiftl (u8 (l - 1)) 2)) 2 = 2 + 4 * (l - 1).
Proof. intros Hl. pose proof copy2_table as T. rewrite forallb_forall in T. specialize (T l (in_range 1 64 l ltac:(lia))). apply Z.eqb_eq in T. exact T. Qed.
Lemma iter_add a b off out : Nat.iter (a + b) (copy_byte off) out = Nat.iter a (copy_byte off) (Nat.iter b (copy_byte off) out).
Proof. apply Nat.iter_add. Qed.
Lemma emitCopy_steps fuel : forall off len out, (Z.to_nat len <= fuel)%nat -> 4 <= len -> 1 <= off -> off < 65536 -> off <= Z.of_nat (length out) ->
  steps out (emitCopy fuel off len) (Nat.iter (Z.to_nat len) (copy_byte (Z.to_nat off)) out) /\ Z.of_nat (length (emitCopy fuel off len)) <= len - 1.
Proof.
  assert (H2 : forall off l out, 1 <= l <= 64 -> 1 <= off -> off < 65536 -> off <= Z.of_nat (length out) ->
    steps out [2 + 4 * (l - 1); u8 off; u8 (Z.shiftr off 8)] (Nat.iter (Z.to_nat l) (copy_byte (Z.to_nat off)) out)).
  { intros off l out Hl Ho1 Ho2 Hout. rewrite Z.shiftr_div_pow2 by lia. change (2^8) with 256. change ([2 + 4 * (l - 1); u8 off; u8 (off / 256)]) with (2 + 4 * (l - 1) :: le_bytes 2 off).
    apply (steps_elem out (Copy (Z.to_nat off) (Z.to_nat l))); [cbn; lia|]. constructor; [lia..|]. change (256 ^ 2) with 65536. lia. }
  assert (HL : forall off l out, 4 <= l <= 64 -> 1 <= off -> off < 65536 -> off <= Z.of_nat (length out) ->
    let w := if (12 <=? l) || (2048 <=? off) then [Z.lor (u8 (Z.shiftl (u8 (l - 1)) 2)) 2; u8 off; u8 (Z.shiftr off 8)]
             else [Z.lor (Z.lor (u8 (Z.shiftl (u8 (Z.shiftr off 8)) 5)) (u8 (Z.shiftl (u8 (l - 4)) 2))) 1; u8 off] in
    steps out w (Nat.iter (Z.to_nat l) (copy_byte (Z.to_nat off)) out) /\ (length w <= 3)%nat).
  { intros off l out Hl Ho1 Ho2 Hout. cbv zeta. destruct (_ || _) eqn:E.
    - split; [|cbn; lia]. rewrite copy2_byte by lia. apply H2; lia.
    - apply orb_false_iff in E as [E1 E2]. split; [|cbn; lia]. rewrite Z.shiftr_div_pow2 by lia. change (2^8) with 256. assert (0 <= off / 256 < 8) as Bo by (split; [apply Z.div_pos; lia|apply Z.div_lt_upper_bound; lia]).
      assert (u8 (off / 256) = off / 256) as -> by (unfold u8; change (2^8) with 256; apply Z.mod_small; lia). rewrite copy1_byte by lia. change (u8 off) with (off mod 256).
      apply (steps_elem out (Copy (Z.to_nat off) (Z.to_nat l))); [cbn; lia|]. constructor; lia. }
  induction fuel as [|fuel IH]; intros off len out Hf Hl Ho1 Ho2 Hout; [lia|]. cbn [emitCopy]. destruct (68 <=? len) eqn:E68; [|destruct (64 <? len) eqn:E64].
  - destruct (IH off (len - 64) (Nat.iter 64 (copy_byte (Z.to_nat off)) out)) as [Hs Hlen]; [lia|lia|lia|lia|rewrite iter_length; lia|]. split; [|cbn [length]; lia].
    change (254 :: u8 off :: u8 (Z.shiftr off 8) :: emitCopy fuel off (len - 64)) with ([2 + 4 * (64 - 1); u8 off; u8 (Z.shiftr off 8)] ++ emitCopy fuel off (len - 64)).
    eapply steps_app; [apply (H2 off 64); lia|]. replace (Z.to_nat len) with (Z.to_nat (len - 64) + Z.to_nat 64)%nat by lia. rewrite iter_add. exact Hs.
  - destruct (HL off (len - 60) (Nat.iter 60 (copy_byte (Z.to_nat off)) out)) as [Hs Hlen]; [lia|lia|lia|rewrite iter_length; lia|]. split; [|cbn [length]; lia].
    match goal with |- steps _ (238 :: ?a :: ?b :: ?r) _ => change (238 :: a :: b :: r) with ([2 + 4 * (60 - 1); u8 off; u8 (Z.shiftr off 8)] ++ r) end.
    eapply steps_app; [apply (H2 off 60); lia|]. replace (Z.to_nat len) with (Z.to_nat (len - 60) + Z.to_nat 60)%nat by lia. rewrite iter_add. exact Hs.
  - destruct (HL off len out) as [Hs Hlen]; [lia..|]. split; [exact Hs|lia].
Qed.

(** ** One block *)
Lemma nth_lookup_some (l : list Z) i x : l !! i = Some x -> nth i l 0 = x.
Proof. revert i. induction l as [|y l IH]; intros [|i] H; cbn in *; try discriminate; [injection H as ->; reflexivity|auto]. Qed.
Lemma match_iter (out0 p : list Z) cand s L : (cand < s)%nat -> (s + L <= length p)%nat -> (forall j, (j < L)%nat -> p !! (cand + j)%nat = p !! (s + j)%nat) ->
  Nat.iter L (copy_byte (s - cand)) (out0 ++ take s p) = out0 ++ take (s + L) p.
Proof.
  intros Hc. induction L as [|L IH]; intros Hl Hm; [rewrite Nat.add_0_r; reflexivity|]. rewrite Nat.iter_succ, IH; [|lia|intros j Hj; apply Hm; lia].
  unfold copy_byte. rewrite app_length, take_length. replace (length out0 + (s + L) `min` length p - (s - cand))%nat with (length out0 + (cand + L))%nat by lia.
  destruct (lookup_lt_is_Some_2 p (s + L)) as [x Hx]; [lia|]. specialize (Hm L ltac:(lia)). rewrite Hx in Hm.
  rewrite (nth_lookup_some _ _ x); [|rewrite lookup_app_r by lia; replace (length out0 + (cand + L) - length out0)%nat with (cand + L)%nat by lia; rewrite lookup_take by lia; exact Hm].
  rewrite <- app_assoc. f_equal. replace (s + S L)%nat with (S (s + L)) by lia. symmetry. apply take_S_r. exact Hx.
Qed.
Lemma extend_spec : forall a b, let L := extend a b in (L <= length b)%nat /\ forall j, (j < L)%nat -> a !! j = b !! j.
Proof.
  induction a as [|x a IH]; intros [|y b]; cbn [extend]; try (split; [cbn; lia|intros j Hj; lia]). destruct (x =? y) eqn:E; [|split; [lia|intros j Hj; lia]]. apply Z.eqb_eq in E. subst y.
  destruct (IH b) as [H1 H2]. split; [cbn [length]; lia|]. intros [|j] Hj; [reflexivity|]. cbn. apply H2. lia.
Qed.
Lemma load_spec n b i x : load n b i = Some x <-> 0 <= i /\ length (take n (drop (Z.to_nat i) b)) = n /\ x = le (take n (drop (Z.to_nat i) b)).
Proof.
  unfold load. destruct (i <? 0) eqn:E; [split; [discriminate|lia]|]. destruct (_ =? _)%nat eqn:E2; [apply Nat.eqb_eq in E2|apply Nat.eqb_neq in E2].
  - split; [intros [= <-]; repeat split; auto; lia|intros (_ & _ & ->); reflexivity].
  - split; [discriminate|tauto].
Qed.
Lemma load_some n b i : 0 <= i -> i + Z.of_nat n <= Z.of_nat (length b) -> exists x, load n b i = Some x.
Proof. intros Hi Hl. eexists. apply load_spec. split; [assumption|]. split; [rewrite take_length, drop_length; lia|reflexivity]. Qed.
Lemma load_match n b i j x : is_bytes b -> load n b i = Some x -> load n b j = Some x -> forall k, (k < n)%nat -> b !! (Z.to_nat i + k)%nat = b !! (Z.to_nat j + k)%nat.
Proof.
  intros Hb Hi Hj k Hk. apply load_spec in Hi as (_ & Li & Ei). apply load_spec in Hj as (_ & Lj & Ej).
  assert (take n (drop (Z.to_nat i) b) = take n (drop (Z.to_nat j) b)) as E.
  { apply le_inj; [apply Forall_take, Forall_drop; assumption|apply Forall_take, Forall_drop; assumption|congruence|congruence]. }
  rewrite <- !lookup_drop. rewrite <- (lookup_take (drop (Z.to_nat i) b) n k) by lia. rewrite <- (lookup_take (drop (Z.to_nat j) b) n k) by lia. rewrite E. reflexivity.
Qed.
Lemma load_shift b i x : is_bytes b -> 1 <= i -> load 8 b (i - 1) = Some x -> load 4 b i = Some (u32 (Z.shiftr x 8)).
Proof.
  intros Hb Hi H. apply load_spec in H as (_ & L8 & ->). apply load_spec. rewrite take_length, drop_length in L8. split; [lia|]. split; [rewrite take_length, drop_length; lia|].
  replace (Z.to_nat (i - 1)) with (pred (Z.to_nat i)) by lia. set (k := Z.to_nat i). assert (1 <= k)%nat as Hk by lia. replace (Z.to_nat (i - 1)) with (pred k) in L8 by lia. clearbody k. destruct k as [|k]; [lia|]. cbn [pred] in *.
  assert (is_bytes (drop k b)) as Hd by (apply Forall_drop; assumption). rewrite <- (drop_drop b k 1) || idtac. replace (drop (S k) b) with (drop 1 (drop k b)) by (rewrite drop_drop; f_equal; lia).
  assert (8 <= length (drop k b))%nat as Hl by (rewrite drop_length; lia). set (l := drop k b) in *. clearbody l.
  do 8 (destruct l as [|?b l]; [cbn in Hl; lia|]). repeat (apply Forall_cons in Hd as [? Hd]). unfold is_u8 in *. change (2^8) with 256 in *.
  change (take 8 _) with [b0; b1; b2; b3; b4; b5; b6; b7]. change (take 4 _) with [b1; b2; b3; b4]. unfold le, u32. cbn [foldr]. rewrite Z.shiftr_div_pow2 by lia. change (2^8) with 256.
  rewrite Z.mul_comm. rewrite Z.div_add by lia. rewrite (Z.div_small b0) by lia. change (2^32) with 4294967296. symmetry. apply (Z.mod_unique _ _ (b5 + 256 * (b6 + 256 * (b7 + 256 * 0)))); lia.
Qed.
Definition table_ok (s : Z) (t : tbl) : Prop := forall k v, t !! k = Some v -> 0 <= v < s.
Lemma tget_ok s t h : 0 < s -> table_ok s t -> 0 <= tget t h < s.
Proof. intros Hs Ht. unfold tget. destruct (t !! _) eqn:E; cbn; [apply (Ht _ _ E)|lia]. Qed.
Lemma tset_ok s t h v : table_ok s t -> 0 <= v < 65536 -> v < s -> table_ok s (tset t h v).
Proof. intros Ht Hv Hs k x. unfold tset. rewrite Z.mod_small by lia. intros H. apply lookup_insert_Some in H as [[_ <-]|[_ H]]; [lia|apply (Ht _ _ H)]. Qed.
Lemma table_mono s s' t : table_ok s t -> s <= s' -> table_ok s' t.
Proof. intros Ht Hs k v H. specialize (Ht k v H). lia. Qed.
Lemma table_empty s : table_ok s (∅ : gmap Z Z).
Proof. intros k v H. unfold tbl in H. rewrite (lookup_empty (M:=gmap Z)) in H. discriminate. Qed.

Section block.
  Context (p : list Z) (Hp : is_bytes p) (Hlen : 17 <= Z.of_nat (length p) <= 65536).
  Local Notation n := (Z.of_nat (length p)).
  Definition has_match (s cand : Z) : Prop := 0 <= cand < s /\ s + 4 <= n /\ forall k, (k < 4)%nat -> p !! (Z.to_nat cand + k)%nat = p !! (Z.to_nat s + k)%nat.
  Lemma search_ok shift fuel : forall skip s nh t, (Z.to_nat (n - s) < fuel)%nat -> 32 <= skip -> 1 <= s -> table_ok s t ->
    search fuel p shift (n - 15) skip s nh t = Some None \/
    exists s' cand nh' t', search fuel p shift (n - 15) skip s nh t = Some (Some (s', cand, nh', t')) /\ s <= s' < n - 15 /\ has_match s' cand /\ table_ok (s' + 1) t'.
  Proof.
    induction fuel as [|fuel IH]; intros skip s nh t Hf Hk Hs Ht; [lia|]. cbn [search]. assert (1 <= Z.shiftr skip 5) as Hb by (rewrite Z.shiftr_div_pow2 by lia; change (2^5) with 32; apply Z.div_le_lower_bound; lia).
    set (bt := Z.shiftr skip 5) in *. clearbody bt. destruct (n - 15 <? s + bt) eqn:E; [left; reflexivity|]. apply Z.ltb_ge in E. pose proof (tget_ok s t nh ltac:(lia) Ht) as Hc.
    destruct (load_some 4 p (s + bt)) as [x Ex]; [lia|lia|]. destruct (load_some 4 p s) as [a Ea]; [lia|lia|]. destruct (load_some 4 p (tget t nh)) as [b Eb]; [lia|lia|]. rewrite Ex, Ea, Eb.
    assert (table_ok (s + 1) (tset t nh s)) as Ht' by (apply tset_ok; [apply (table_mono s); [assumption|lia]|lia|lia]).
    destruct (a =? b) eqn:Eab.
    - apply Z.eqb_eq in Eab. subst b. right. eexists _, _, _, _. split; [reflexivity|]. split; [lia|]. split; [|exact Ht']. split; [lia|]. split; [lia|]. intros k Hk'. apply (load_match 4 p _ _ a); assumption.
    - destruct (IH (skip + bt) (s + bt) (hash x shift) (tset t nh s)) as [H|(s' & cand & nh' & t' & H & Hs' & Hm & Ht2)]; [lia|lia|lia|apply (table_mono (s + 1)); [assumption|lia]| |].
      + left. exact H.
      + right. eexists _, _, _, _. split; [exact H|]. split; [lia|]. auto.
  Qed.
  Lemma copies_ok out0 shift fuel : forall s cand t d, (Z.to_nat (n - s) < fuel)%nat -> has_match s cand -> table_ok (s + 1) t ->
    exists w ne r, copies fuel p shift (n - 15) s cand t d = Some (d ++ w, ne, r) /\ s + 4 <= ne <= n /\
      steps (out0 ++ take (Z.to_nat s) p) w (out0 ++ take (Z.to_nat ne) p) /\ Z.of_nat (length w) <= ne - s - 1 /\
      match r with None => True | Some (s', nh', t') => s' = ne + 1 /\ ne < n - 15 /\ table_ok s' t' end.
  Proof.
    induction fuel as [|fuel IH]; intros s cand t d Hf (Hc & Hs4 & Hm) Ht; [lia|]. cbn [copies].
    set (L := extend (drop (Z.to_nat (cand + 4)) p) (drop (Z.to_nat (s + 4)) p)). destruct (extend_spec (drop (Z.to_nat (cand + 4)) p) (drop (Z.to_nat (s + 4)) p)) as [HL1 HL2]. fold L in HL1, HL2. rewrite drop_length in HL1. clearbody L.
    set (ne := s + 4 + Z.of_nat L). assert (s + 4 <= ne <= n) as Hne by (unfold ne; lia).
    destruct (emitCopy_steps (Z.to_nat (ne - s)) (s - cand) (ne - s) (out0 ++ take (Z.to_nat s) p)) as [Hst Hwl]; [lia|lia|lia|lia|rewrite app_length, take_length; lia|].
    replace (Z.to_nat (s - cand)) with (Z.to_nat s - Z.to_nat cand)%nat in Hst by lia. rewrite match_iter in Hst; [|lia|lia|].
    2: { intros j Hj. destruct (decide (j < 4)%nat) as [H4|H4]; [apply Hm; assumption|]. specialize (HL2 (j - 4)%nat ltac:(lia)). rewrite !lookup_drop in HL2.
         replace (Z.to_nat (cand + 4) + (j - 4))%nat with (Z.to_nat cand + j)%nat in HL2 by lia. replace (Z.to_nat (s + 4) + (j - 4))%nat with (Z.to_nat s + j)%nat in HL2 by lia. exact HL2. }
    replace (Z.to_nat s + Z.to_nat (ne - s))%nat with (Z.to_nat ne) in Hst by lia. set (w1 := emitCopy (Z.to_nat (ne - s)) (s - cand) (ne - s)) in *. clearbody w1.
    destruct (n - 15 <=? ne) eqn:El.
    { exists w1, ne, None. repeat split; auto; lia. }
    apply Z.leb_gt in El. destruct (load_some 8 p (ne - 1)) as [x Ex]; [lia|lia|]. rewrite Ex. pose proof (load_shift p ne x Hp ltac:(lia) Ex) as Ex4.
    set (t1 := tset t (hash (u32 x) shift) (ne - 1)). assert (table_ok ne t1) as Ht1 by (apply tset_ok; [apply (table_mono (s + 1)); [assumption|lia]|lia|lia]). clearbody t1.
    set (ch := hash (u32 (Z.shiftr x 8)) shift). pose proof (tget_ok ne t1 ch ltac:(lia) Ht1) as Hc'. destruct (load_some 4 p (tget t1 ch)) as [y Ey]; [lia|lia|]. rewrite Ey.
    assert (table_ok (ne + 1) (tset t1 ch ne)) as Ht2 by (apply tset_ok; [apply (table_mono ne); [assumption|lia]|lia|lia]).
    destruct (u32 (Z.shiftr x 8) =? y) eqn:Exy.
    - apply Z.eqb_eq in Exy. rewrite Exy in Ex4. destruct (IH ne (tget t1 ch) (tset t1 ch ne) (d ++ w1)) as (w & ne' & r & HE & Hne' & Hst' & Hwl' & Hr); [lia| |exact Ht2|].
      { split; [lia|]. split; [lia|]. intros k Hk. apply (load_match 4 p _ _ y); assumption. }
      exists (w1 ++ w), ne', r. rewrite app_assoc. split; [exact HE|]. split; [lia|]. split; [eapply steps_app; eassumption|]. split; [rewrite app_length; lia|exact Hr].
    - exists w1, ne, (Some (ne + 1, hash (u32 (Z.shiftr x 16)) shift, tset t1 ch ne)). split; [reflexivity|]. split; [lia|]. split; [exact Hst|]. split; [lia|]. split; [reflexivity|]. split; [lia|exact Ht2].
  Qed.
  Lemma literal_step out0 a b : 0 <= a -> a < b -> b <= n -> steps (out0 ++ take (Z.to_nat a) p) (emitLiteral (sub p a b)) (out0 ++ take (Z.to_nat b) p) /\ Z.of_nat (length (sub p a b)) = b - a /\ sub p a b <> [].
  Proof.
    intros Ha Hab Hb. assert (Z.of_nat (length (sub p a b)) = b - a) as Hl by (unfold sub; rewrite take_length, drop_length; lia). assert (sub p a b <> []) as Hne by (intros E; rewrite E in Hl; cbn in Hl; lia).
    split; [|auto]. replace (out0 ++ take (Z.to_nat b) p) with (exec (out0 ++ take (Z.to_nat a) p) (Lit (sub p a b))).
    - apply steps_elem; [exact Hne|]. apply emitLiteral_wire; [exact Hne|lia].
    - cbn [exec]. rewrite <- app_assoc. f_equal. unfold sub. replace (Z.to_nat b) with (Z.to_nat a + Z.to_nat (b - a))%nat by lia. apply take_take_drop.
  Qed.
  Lemma remainder_ok out0 ne d : 0 <= ne <= n -> exists w, emitRemainder p ne d = d ++ w /\ steps (out0 ++ take (Z.to_nat ne) p) w (out0 ++ p) /\ Z.of_nat (length w) <= n - ne + 3.
  Proof.
    intros Hne. unfold emitRemainder. destruct (ne <? n) eqn:E.
    - destruct (literal_step out0 ne n) as (Hs & Hl & Hn); [lia|lia|lia|]. assert (sub p ne n = drop (Z.to_nat ne) p) as Es by (unfold sub; apply take_ge; rewrite drop_length; lia). rewrite Es in *.
      rewrite (take_ge p (Z.to_nat n)) in Hs by lia. eexists. split; [reflexivity|]. split; [exact Hs|]. destruct (emitLiteral_length _ Hn) as [H3 _]. lia.
    - exists []. rewrite app_nil_r. split; [reflexivity|]. rewrite take_ge by lia. split; [apply steps_nil|cbn; lia].
  Qed.
  Lemma mainLoop_ok out0 shift fuel : forall ne s nh t d, (Z.to_nat (n - ne) < fuel)%nat -> 0 <= ne < s -> s <= n -> table_ok s t ->
    exists w, mainLoop fuel p shift (n - 15) ne s nh t d = Some (d ++ w) /\ steps (out0 ++ take (Z.to_nat ne) p) w (out0 ++ p) /\ 60 * Z.of_nat (length w) <= 61 * (n - ne) + 180.
  Proof.
    induction fuel as [|fuel IH]; intros ne s nh t d Hf Hne Hs Ht; [lia|]. cbn [mainLoop].
    destruct (search_ok shift (S (length p)) 32 s nh t) as [->|(s' & cand & nh' & t' & -> & Hs' & Hm & Ht')]; [lia|lia|lia|assumption| |].
    { destruct (remainder_ok out0 ne d) as (w & -> & Hst & Hl); [lia|]. exists w. repeat split; auto. lia. }
    destruct (literal_step out0 ne s') as (Hl1 & Hl2 & Hl3); [lia|lia|lia|]. destruct (emitLiteral_length _ Hl3) as (HA & HB & HC). rewrite Hl2 in HA, HB, HC.
    destruct (copies_ok out0 shift (S (length p)) s' cand t' (d ++ emitLiteral (sub p ne s'))) as (w & ne' & r & -> & Hne' & Hst & Hwl & Hr); [lia|assumption|assumption|].
    assert (60 * (Z.of_nat (length (emitLiteral (sub p ne s'))) + Z.of_nat (length w)) <= 61 * (ne' - ne)) as Hsize by lia.
    destruct r as [[[s2 nh2] t2]|].
    - destruct Hr as (-> & Hr1 & Hr2). destruct (IH ne' (ne' + 1) nh2 t2 ((d ++ emitLiteral (sub p ne s')) ++ w)) as (w2 & -> & Hst2 & Hwl2); [lia|lia|lia|assumption|].
      exists (emitLiteral (sub p ne s') ++ w ++ w2). split; [rewrite <- !app_assoc; reflexivity|]. split; [eapply steps_app; [exact Hl1|]; eapply steps_app; eassumption|]. rewrite !app_length. lia.
    - destruct (remainder_ok out0 ne' ((d ++ emitLiteral (sub p ne s')) ++ w)) as (w2 & -> & Hst2 & Hwl2); [lia|].
      exists (emitLiteral (sub p ne s') ++ w ++ w2). split; [rewrite <- !app_assoc; reflexivity|]. split; [eapply steps_app; [exact Hl1|]; eapply steps_app; eassumption|]. rewrite !app_length. lia.
  Qed.
  Lemma encodeBlock_ok out0 : exists w, encodeBlock p = Some w /\ steps out0 w (out0 ++ p) /\ 60 * Z.of_nat (length w) <= 61 * n + 180.
  Proof.
    unfold encodeBlock. destruct (load_some 4 p 1) as [x ->]; [lia|lia|]. destruct (mainLoop_ok out0 (shiftLoop 16 256 n 24) (S (length p)) 0 1 (hash x (shiftLoop 16 256 n 24)) ∅ []) as (w & -> & Hst & Hl); [lia|lia|lia|apply table_empty|].
    exists w. cbn [Z.to_nat take app] in *. rewrite take_0, app_nil_r in Hst. repeat split; auto. lia.
  Qed.
End block.

(** ** All blocks *)
Lemma blocks_ok fuel : forall src out0, (length src < fuel)%nat -> is_bytes src ->
  exists w, blocks fuel src = Some w /\ steps out0 w (out0 ++ src) /\ 60 * Z.of_nat (length w) <= 70 * Z.of_nat (length src) + (if decide (length src = 0)%nat then 0 else 180).
Proof.
  induction fuel as [|fuel IH]; intros src out0 Hf Hb; [lia|]. destruct src as [|b src'] eqn:Esrc.
  { exists []. cbn [blocks]. rewrite app_nil_r. split; [reflexivity|]. split; [apply steps_nil|cbn [length]; rewrite decide_True by reflexivity; lia]. }
  rewrite <- Esrc in *. assert (1 <= length src)%nat as H1 by (rewrite Esrc; cbn; lia).
  assert (blocks (S fuel) src = match (if Z.of_nat (length (take (Z.to_nat 65536) src)) <? 17 then Some (emitLiteral (take (Z.to_nat 65536) src)) else encodeBlock (take (Z.to_nat 65536) src)), blocks fuel (drop (Z.to_nat 65536) src) with
    | Some d, Some r => Some (d ++ r) | _, _ => None end) as -> by (rewrite Esrc; reflexivity). clear Esrc.
  set (p := take (Z.to_nat 65536) src). assert (length p = Nat.min (Z.to_nat 65536) (length src)) as Lp by apply take_length. assert (is_bytes p) as Hbp by (apply Forall_take; assumption).
  destruct (IH (drop (Z.to_nat 65536) src) (out0 ++ p)) as (w2 & -> & Hst2 & Hl2); [rewrite drop_length; lia|apply Forall_drop; assumption|]. rewrite <- app_assoc in Hst2. unfold p in Hst2 at 2. rewrite take_drop in Hst2. rewrite drop_length in Hl2. rewrite decide_False by lia.
  destruct (Z.of_nat (length p) <? 17) eqn:E17.
  - assert (p <> []) as Hn by (intros E; rewrite E in Lp; cbn in Lp; lia). exists (emitLiteral p ++ w2). split; [reflexivity|]. destruct (emitLiteral_length p Hn) as (_ & _ & H60). specialize (H60 ltac:(lia)).
    split; [eapply steps_app; [|exact Hst2]; apply (steps_elem out0 (Lit p)); [exact Hn|apply emitLiteral_wire; [exact Hn|lia]]|]. rewrite app_length. clearbody p. destruct (decide _); lia.
  - destruct (encodeBlock_ok p Hbp ltac:(lia) out0) as (w & -> & Hst & Hl). exists (w ++ w2). split; [reflexivity|]. split; [eapply steps_app; eassumption|]. rewrite app_length. clearbody p. destruct (decide _); lia.
Qed.
Lemma PutUvarint_ok fuel : forall x, 0 <= x < 128 ^ Z.of_nat fuel -> (1 <= fuel)%nat -> uvarint x (PutUvarint fuel x) /\ (length (PutUvarint fuel x) <= fuel)%nat.
Proof.
  induction fuel as [|fuel IH]; intros x Hx Hf; [lia|]. cbn [PutUvarint]. destruct (x <? 128) eqn:E.
  - assert (u8 x = x) as -> by (unfold u8; change (2^8) with 256; apply Z.mod_small; lia). split; [constructor; lia|cbn; lia].
  - apply Z.ltb_ge in E. destruct fuel as [|fuel]; [change (128 ^ Z.of_nat 1) with 128 in Hx; lia|]. rewrite Nat2Z.inj_succ, Z.pow_succ_r in Hx by lia. rewrite Z.shiftr_div_pow2 by lia. change (2^7) with 128.
    destruct (IH (x / 128)) as [Hu Hl]; [split; [apply Z.div_pos; lia|apply Z.div_lt_upper_bound; lia]|lia|]. split; [|cbn [length]; lia].
    assert (Z.lor (u8 x) 128 = 128 + x mod 128) as ->.
    { assert (u8 x = x mod 128 + 128 * ((x / 128) mod 2)) as Eu.
      { unfold u8. change (2^8) with (128 * 2). rewrite Z.rem_mul_r by lia. reflexivity. }
      pose proof (Z.mod_pos_bound x 128 ltac:(lia)) as B. pose proof (Z.mod_pos_bound (x / 128) 2 ltac:(lia)) as B2. rewrite Eu. set (r := x mod 128) in *. assert ((x / 128) mod 2 = 0 \/ (x / 128) mod 2 = 1) as [-> | ->] by lia.
      - replace (r + 128 * 0) with r by lia. replace 128 with (1 * 2 ^ 7) at 1 by reflexivity. rewrite lor_disjoint; [change (2^7) with 128; lia|lia|change (2^7) with 128; lia].
      - replace (r + 128 * 1) with (Z.lor r 128).
        + rewrite <- Z.lor_assoc, Z.lor_diag. replace 128 with (1 * 2 ^ 7) at 1 by reflexivity. rewrite lor_disjoint; [change (2^7) with 128; lia|lia|change (2^7) with 128; lia].
        + replace 128 with (1 * 2 ^ 7) at 1 by reflexivity. rewrite lor_disjoint; [change (2^7) with 128; lia|lia|change (2^7) with 128; lia]. }
    rewrite (Z.div_mod x 128) at 1 by lia. replace (128 * (x / 128) + x mod 128) with (x mod 128 + 128 * (x / 128)) by lia. constructor; [apply Z.mod_pos_bound; lia|exact Hu].
Qed.
Lemma wire_bytes e w : wire e w -> (forall bs, e = Lit bs -> is_bytes bs) -> is_bytes w.
Proof.
  intros Hw Hb. assert (forall x, 0 <= x < 256 -> is_u8 x) as H8 by (intros x Hx; unfold is_u8; change (2^8) with 256; lia).
  destruct Hw as [bs n Hl Hn|k bs n Hl Hk Hn|off len o l Ho Hl' Hl8 Ho8|off len o l Ho Hl' Hl8 Ho8|off len o l Ho Hl' Hl8 Ho8].
  - constructor; [apply H8; lia|apply Hb; reflexivity].
  - constructor; [apply H8; lia|apply Forall_app; split; [apply le_bytes_bytes|apply Hb; reflexivity]].
  - constructor; [apply lor4; assumption|constructor; [apply H8, Z.mod_pos_bound; lia|constructor]].
  - constructor; [apply H8; lia|apply le_bytes_bytes].
  - constructor; [apply H8; lia|apply le_bytes_bytes].
Qed.
Lemma iter_prefix n off : forall out, exists r, Nat.iter n (copy_byte off) out = out ++ r.
Proof.
  induction n as [|n IH]; intros out; [exists []; rewrite app_nil_r; reflexivity|]. rewrite Nat.iter_succ. destruct (IH out) as [r ->]. unfold copy_byte. rewrite <- app_assoc. eexists. reflexivity.
Qed.
Lemma stream_prefix out w res : stream out w res -> exists r, res = out ++ r.
Proof.
  induction 1 as [out|out e w ws res Hv Hw Hs [r IH]]; [exists []; rewrite app_nil_r; reflexivity|]. subst res. destruct e as [bs|off len]; cbn [exec].
  - rewrite <- app_assoc. eexists. reflexivity.
  - destruct (iter_prefix len off out) as [r' ->]. rewrite <- app_assoc. eexists. reflexivity.
Qed.
Lemma stream_bytes out w res : stream out w res -> is_bytes res -> is_bytes w.
Proof.
  induction 1 as [out|out e w ws res Hv Hw Hs IH]; intros Hr; [constructor|]. apply Forall_app. split; [|apply IH; assumption]. apply (wire_bytes e); [assumption|]. intros bs ->.
  destruct (stream_prefix _ _ _ Hs) as [r ->]. cbn [exec] in Hr. apply Forall_app in Hr as [Hr _]. apply Forall_app in Hr as [_ Hr]. exact Hr.
Qed.
Lemma encode_ok src : is_bytes src -> 32 + Z.of_nat (length src) + Z.of_nat (length src) / 6 <= 4294967295 ->
  exists w, SnappyEncode src = Some w /\ snappy w src /\ is_bytes w /\ Z.of_nat (length w) <= 32 + Z.of_nat (length src) + Z.of_nat (length src) / 6.
Proof.
  intros Hb Hl. unfold SnappyEncode, MaxEncodedLen. set (n := Z.of_nat (length src)) in *. assert (0 <= n) as Hn0 by (unfold n; lia). assert (0 <= n / 6) by (apply Z.div_pos; lia).
  assert (4294967295 <? n = false) as -> by lia. assert (4294967295 <? 32 + n + n / 6 = false) as -> by lia.
  destruct (blocks_ok (S (length src)) src []) as (w & -> & Hst & Hw); [lia|assumption|]. assert (60 * Z.of_nat (length w) <= 70 * n + 180) as Hw' by (fold n in Hw; destruct (decide _); lia). clear Hw. rename Hw' into Hw. cbn [app] in Hst.
  assert (stream [] w src) as Hs by (rewrite <- (app_nil_r w); apply Hst; constructor).
  assert (uvarint n (PutUvarint 10 n) /\ (length (PutUvarint 10 n) <= 10)%nat) as [Hu Hu2] by (apply PutUvarint_ok; [change (128 ^ Z.of_nat 10) with 1180591620717411303424; lia|lia]).
  assert (uvarint n (PutUvarint 5 n) /\ (length (PutUvarint 5 n) <= 5)%nat) as [_ Hu5] by (apply PutUvarint_ok; [change (128 ^ Z.of_nat 5) with 34359738368; lia|lia]).
  assert (forall f x, 0 <= x < 128 ^ Z.of_nat f -> (1 <= f)%nat -> forall g, (f <= g)%nat -> PutUvarint g x = PutUvarint f x) as Hg.
  { clear. induction f as [|f IH]; intros x Hx Hf g Hfg; [lia|]. destruct g as [|g]; [lia|]. cbn [PutUvarint]. destruct (x <? 128) eqn:E; [reflexivity|]. apply Z.ltb_ge in E. f_equal.
    destruct f as [|f]; [change (128 ^ Z.of_nat 1) with 128 in Hx; lia|]. rewrite Nat2Z.inj_succ, Z.pow_succ_r in Hx by lia. rewrite Z.shiftr_div_pow2 by lia. change (2^7) with 128.
    apply IH; [split; [apply Z.div_pos; lia|apply Z.div_lt_upper_bound; lia]|lia|lia]. }
  rewrite (Hg 5%nat n ltac:(change (128 ^ Z.of_nat 5) with 34359738368; lia) ltac:(lia) 10%nat ltac:(lia)) in *.
  exists (PutUvarint 5 n ++ w). split; [reflexivity|]. split; [|split].
  - exists (PutUvarint 5 n), w. fold n. split; [reflexivity|]. split; [exact Hu|]. split; [lia|]. split; [change (2^32) with 4294967296; lia|exact Hs].
  - apply Forall_app. split; [apply (uvarint_bytes n); exact Hu|apply (stream_bytes [] w src); assumption].
  - rewrite app_length. pose proof (Z.div_mod n 6 ltac:(lia)). pose proof (Z.mod_pos_bound n 6 ltac:(lia)). lia.
Qed.
