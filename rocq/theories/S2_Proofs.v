(** Proofs about UnSnappy. *)
From stdpp Require Import list.
From Coq Require Import ZArith Lia.
From Verif Require Import GoInt Snappy_Spec Snappy_Model Snappy_Proofs S2_Spec S2_Model.
Local Open Scope Z_scope.

Lemma stream2_length last out w res : stream2 last out w res -> (length out <= length res)%nat.
Proof. induction 1; [lia| |]; rewrite exec_length in *; lia. Qed.
Lemma s2_sound fuel dLen : forall offset src dst res, is_bytes src -> s2Decode fuel dLen (Z.of_nat offset) src dst = Some res -> stream2 offset dst src res /\ Z.of_nat (length res) = dLen.
Proof.
  induction fuel as [|fuel IH]; intros offset src dst res Hb H; [discriminate|]. cbn [s2Decode] in H.
  assert (Hlit : forall x src', is_bytes src' -> 0 <= x -> (if (dLen - Z.of_nat (length dst) <? x + 1) || (Z.of_nat (length src') <? x + 1) then None
     else s2Decode fuel dLen (Z.of_nat offset) (drop (Z.to_nat (x + 1)) src') (dst ++ take (Z.to_nat (x + 1)) src')) = Some res ->
     exists bs rest, src' = bs ++ rest /\ Z.of_nat (length bs) = x + 1 /\ stream2 offset (exec dst (Lit bs)) rest res /\ Z.of_nat (length res) = dLen).
  { clear H. intros x src' Hb' Hx Hd. destruct (_ || _) eqn:Ec; [discriminate|]. apply orb_false_iff in Ec as [Ec1 Ec2]. apply IH in Hd; [|apply Forall_drop; assumption]. destruct Hd as [Hs Hl].
    exists (take (Z.to_nat (x + 1)) src'), (drop (Z.to_nat (x + 1)) src'). rewrite take_drop, take_length. repeat split; auto; lia. }
  assert (Hcp : forall l o src', is_bytes src' -> 0 <= l -> (if (o <=? 0) || (Z.of_nat (length dst) <? o) || (dLen - Z.of_nat (length dst) <? l) then None
     else s2Decode fuel dLen o src' (copyBack (Z.to_nat l) (Z.to_nat o) dst)) = Some res ->
     0 < o /\ valid dst (Copy (Z.to_nat o) (Z.to_nat l)) /\ stream2 (Z.to_nat o) (exec dst (Copy (Z.to_nat o) (Z.to_nat l))) src' res /\ Z.of_nat (length res) = dLen).
  { clear H. intros l o src' Hb' Hl0 Hd. destruct (_ || _) eqn:Ec; [discriminate|]. apply orb_false_iff in Ec as [Ec Ec3]. apply orb_false_iff in Ec as [Ec1 Ec2]. replace o with (Z.of_nat (Z.to_nat o)) in Hd at 1 by lia. apply IH in Hd; [|assumption]. destruct Hd as [Hs Hl].
    rewrite copyBack_iter in Hs. cbn [valid exec]. repeat split; auto; lia. }
  destruct src as [|t src].
  { destruct (_ =? _) eqn:E; [|discriminate]. injection H as <-. apply Z.eqb_eq in E. split; [constructor|exact E]. }
  apply Forall_cons in Hb as [Ht Hb]. destruct (tag_facts t Ht) as (T1 & T2 & T3 & T4). rewrite T3, T2, T1, T4 in H. clear T1 T2 T3 T4.
  unfold is_u8 in Ht. change (2^8) with 256 in Ht. pose proof (Z.div_mod t 4 ltac:(lia)) as Dm. pose proof (Z.mod_pos_bound t 4 ltac:(lia)) as Bm. assert (0 <= t / 4 < 64) as Bd by (split; [apply Z.div_pos; lia|apply Z.div_lt_upper_bound; lia]).
  destruct (t mod 4 =? 0) eqn:E0; [|destruct (t mod 4 =? 1) eqn:E1].
  - apply Z.eqb_eq in E0. destruct (t / 4 <? 60) eqn:E60.
    + apply Hlit in H as (bs & rest & -> & Hl & Hs & Hr); [|assumption|lia]. split; [|exact Hr]. change (t :: bs ++ rest) with ((t :: bs) ++ rest). apply (s2_elem _ _ (Lit bs)); [destruct bs; [cbn in Hl; lia|discriminate]| |exact Hs].
      replace t with (4 * (t / 4)) by lia. constructor; lia.
    + destruct (_ <? _)%nat eqn:El; [discriminate|]. apply Nat.ltb_ge in El. set (k := Z.to_nat (t / 4 - 59)) in *.
      assert (length (take k src) = k) as Lk by (rewrite take_length; lia). assert (is_bytes (take k src)) as Bk by (apply Forall_take; assumption). pose proof (le_range _ Bk) as Rk. rewrite Lk in Rk.
      apply Hlit in H as (bs & rest & Hsrc & Hl & Hs & Hr); [|apply Forall_drop; assumption|lia]. split; [|exact Hr].
      assert (t :: src = (4 * (59 + Z.of_nat k) :: le_bytes k (le (take k src)) ++ bs) ++ rest) as ->.
      { cbn [app]. f_equal; [unfold k; lia|]. rewrite <- Lk at 1. rewrite le_bytes_le by assumption. rewrite <- app_assoc, <- Hsrc. symmetry. apply take_drop. }
      apply (s2_elem _ _ (Lit bs)); [destruct bs; [cbn in Hl; lia|discriminate]| |exact Hs]. constructor; [lia|unfold k; lia|lia].
  - apply Z.eqb_eq in E1. destruct src as [|b src]; [discriminate|]. apply Forall_cons in Hb as [Hbb Hb].
    assert (0 <= t / 32 < 8) as B32 by (split; [apply Z.div_pos; lia|apply Z.div_lt_upper_bound; lia]). rewrite (lor_off (t / 32) b ltac:(lia) Hbb) in H. unfold is_u8 in Hbb. change (2^8) with 256 in Hbb.
    pose proof (Z.mod_pos_bound (t / 4) 8 ltac:(lia)) as B8. assert (t / 32 = t / 4 / 8) as E32 by (rewrite Z.div_div by lia; reflexivity). pose proof (Z.div_mod (t / 4) 8 ltac:(lia)) as Dm8.
    destruct (256 * (t / 32) + b =? 0) eqn:Eoff.
    { apply Z.eqb_eq in Eoff. assert (b = 0) as -> by lia. assert (t / 32 = 0) as Et by lia. assert (t = 1 + 4 * ((t / 4) mod 8)) as Ht' by lia. set (x := (t / 4) mod 8) in *. clearbody x.
      assert (Hrep : forall n base l, (if (length src <? n)%nat then None else
        if (Z.of_nat offset <=? 0) || (Z.of_nat (length dst) <? Z.of_nat offset) || (dLen - Z.of_nat (length dst) <? le (take n src) + base + 4) then None
        else s2Decode fuel dLen (Z.of_nat offset) (drop n src) (copyBack (Z.to_nat (le (take n src) + base + 4)) (Z.to_nat (Z.of_nat offset)) dst)) = Some res -> 0 <= base ->
        (forall len v, Z.of_nat len = v + base + 4 -> 0 <= v < 256 ^ Z.of_nat n -> wire_repeat len ([1 + 4 * l; 0] ++ le_bytes n v)) -> stream2 offset dst ([1 + 4 * l; 0] ++ src) res /\ Z.of_nat (length res) = dLen).
      { clear H. intros n base l H' Hbase Hw. destruct (_ <? _)%nat eqn:El; [discriminate|]. apply Nat.ltb_ge in El. assert (length (take n src) = n) as Lk by (rewrite take_length; lia). assert (is_bytes (take n src)) as Bk by (apply Forall_take; assumption). pose proof (le_range _ Bk) as Rk. rewrite Lk in Rk.
        apply Hcp in H' as (Ho & Hv & Hs & Hr); [|apply Forall_drop; assumption|lia]. split; [|exact Hr]. rewrite Nat2Z.id in Hv, Hs.
        assert ([1 + 4 * l; 0] ++ src = ([1 + 4 * l; 0] ++ le_bytes n (le (take n src))) ++ drop n src) as -> by (rewrite <- Lk at 1; rewrite le_bytes_le by assumption; rewrite <- app_assoc, take_drop; reflexivity).
        apply (s2_rep _ _ (Z.to_nat (le (take n src) + base + 4))); [exact Hv|apply Hw; lia|exact Hs]. }
      rewrite Ht'. change (1 + 4 * x :: 0 :: src) with ([1 + 4 * x; 0] ++ src). destruct (x =? 5) eqn:X5; [|destruct (x =? 6) eqn:X6; [|destruct (x =? 7) eqn:X7]].
      - apply Z.eqb_eq in X5. subst x. apply (Hrep 1%nat 4 5) in H; [exact H|lia|]. intros len v Hlen Hv. apply wr_1; lia.
      - apply Z.eqb_eq in X6. subst x. apply (Hrep 2%nat 256 6) in H; [exact H|lia|]. intros len v Hlen Hv. apply wr_2; lia.
      - apply Z.eqb_eq in X7. subst x. apply (Hrep 3%nat 65536 7) in H; [exact H|lia|]. intros len v Hlen Hv. apply wr_3; lia.
      - apply Z.eqb_neq in X5, X6, X7. apply Hcp in H as (Ho & Hv & Hs & Hr); [|assumption|lia]. split; [|exact Hr]. rewrite Nat2Z.id in Hv, Hs. apply (s2_rep _ _ (Z.to_nat (x + 4))); [exact Hv|apply wr_short; lia|exact Hs]. }
    apply Z.eqb_neq in Eoff. apply Hcp in H as (Ho & Hv & Hs & Hr); [|assumption|lia]. split; [|exact Hr].
    set (o := 256 * (t / 32) + b) in *. assert (o / 256 = t / 32) as Eo by (unfold o; replace (256 * (t / 32) + b) with (b + (t / 32) * 256) by lia; rewrite Z.div_add, Z.div_small by lia; lia).
    assert (o mod 256 = b) as Em by (unfold o; replace (256 * (t / 32) + b) with (b + (t / 32) * 256) by lia; rewrite Z.mod_add, Z.mod_small by lia; lia).
    assert (t :: b :: src = [1 + 4 * ((t / 4) mod 8) + 32 * (o / 256); o mod 256] ++ src) as ->.
    { cbn [app]. rewrite Eo, Em. f_equal. lia. }
    apply (s2_elem _ _ (Copy (Z.to_nat o) (Z.to_nat ((t / 4) mod 8 + 4)))); [exact Hv| |exact Hs]. assert (0 <= o < 2048) as Bo by (unfold o; lia). clearbody o. constructor; lia.
  - destruct (length src <? _)%nat eqn:El; [discriminate|]. apply Nat.ltb_ge in El. apply Z.eqb_neq in E0, E1. destruct (t mod 4 =? 2) eqn:E2.
    + apply Z.eqb_eq in E2. assert (length (take 2 src) = 2%nat) as Lk by (rewrite take_length; lia). assert (is_bytes (take 2 src)) as Bk by (apply Forall_take; assumption). pose proof (le_range _ Bk) as Rk. rewrite Lk in Rk.
      apply Hcp in H as (Ho & Hv & Hs & Hr); [|apply Forall_drop; assumption|lia]. split; [|exact Hr].
      assert (t :: src = (2 + 4 * (t / 4) :: le_bytes 2 (le (take 2 src))) ++ drop 2 src) as ->.
      { cbn [app]. f_equal; [lia|]. rewrite <- Lk at 1. rewrite le_bytes_le by assumption. symmetry. apply take_drop. }
      apply (s2_elem _ _ (Copy (Z.to_nat (le (take 2 src))) (Z.to_nat (1 + t / 4)))); [exact Hv| |exact Hs]. constructor; lia.
    + apply Z.eqb_neq in E2. assert (length (take 4 src) = 4%nat) as Lk by (rewrite take_length; lia). assert (is_bytes (take 4 src)) as Bk by (apply Forall_take; assumption). pose proof (le_range _ Bk) as Rk. rewrite Lk in Rk.
      apply Hcp in H as (Ho & Hv & Hs & Hr); [|apply Forall_drop; assumption|lia]. split; [|exact Hr].
      assert (t :: src = (3 + 4 * (t / 4) :: le_bytes 4 (le (take 4 src))) ++ drop 4 src) as ->.
      { cbn [app]. f_equal; [lia|]. rewrite <- Lk at 1. rewrite le_bytes_le by assumption. symmetry. apply take_drop. }
      apply (s2_elem _ _ (Copy (Z.to_nat (le (take 4 src))) (Z.to_nat (1 + t / 4)))); [exact Hv| |exact Hs]. constructor; lia.
Qed.
Lemma s2_complete last out w res : stream2 last out w res -> forall fuel dLen, (length w < fuel)%nat -> Z.of_nat (length res) = dLen -> s2Decode fuel dLen (Z.of_nat last) w out = Some res.
Proof.
  induction 1 as [last out|last out e w ws res Hv Hw Hs IH|last out len w ws res Hv Hw Hs IH]; intros fuel dLen Hf Hl.
  - destruct fuel as [|fuel]; [cbn in Hf; lia|]. cbn [s2Decode]. rewrite Hl, Z.eqb_refl. reflexivity.
  - pose proof (stream2_length _ _ _ _ Hs) as Hle. rewrite exec_length in Hle. pose proof (wire_nonempty _ _ Hw) as Hne. rewrite app_length in Hf.
    destruct fuel as [|fuel]; [lia|]. assert (length ws < fuel)%nat as Hf' by lia. specialize (IH fuel dLen Hf' Hl). cbn [s2Decode].
    assert (Hlit : forall bs x, Z.of_nat (length bs) = x + 1 -> e = Lit bs -> (if (dLen - Z.of_nat (length out) <? x + 1) || (Z.of_nat (length (bs ++ ws)) <? x + 1) then None
     else s2Decode fuel dLen (Z.of_nat last) (drop (Z.to_nat (x + 1)) (bs ++ ws)) (out ++ take (Z.to_nat (x + 1)) (bs ++ ws))) = Some res).
    { intros bs x Hx ->. cbn [esize] in Hle. rewrite app_length. assert ((dLen - Z.of_nat (length out) <? x + 1) || (Z.of_nat (length bs + length ws) <? x + 1) = false) as -> by lia.
      replace (Z.to_nat (x + 1)) with (length bs) by lia. rewrite drop_app, take_app. exact IH. }
    assert (Hcp : forall off len o l, Z.of_nat off = o -> Z.of_nat len = l -> e = Copy off len -> (if (o <=? 0) || (Z.of_nat (length out) <? o) || (dLen - Z.of_nat (length out) <? l) then None
     else s2Decode fuel dLen o ws (copyBack (Z.to_nat l) (Z.to_nat o) out)) = Some res).
    { intros off len o l Ho Hl' ->. cbn [esize valid] in Hle, Hv. assert ((o <=? 0) || (Z.of_nat (length out) <? o) || (dLen - Z.of_nat (length out) <? l) = false) as -> by lia.
      rewrite copyBack_iter. replace (Z.to_nat l) with len by lia. replace (Z.to_nat o) with off by lia. rewrite <- Ho. exact IH. }
    assert (Hcw : forall k n, length (le_bytes k n ++ ws) = (k + length ws)%nat) by (intros k n; rewrite app_length, le_bytes_length; reflexivity).
    assert (Hmod : forall r l m, 0 <= r < m -> 0 <= l -> 0 < m -> (r + m * l) mod m = r /\ (r + m * l) / m = l).
    { intros r l m Hr Hl0 Hm. replace (r + m * l) with (r + l * m) by lia. rewrite Z.mod_add, Z.div_add by lia. rewrite Z.mod_small, Z.div_small by lia. lia. }
    destruct Hw as [bs n Hb Hn|k bs n Hb Hk Hn|off len o l Ho Hl' Hl8 Ho8|off len o l Ho Hl' Hl8 Ho8|off len o l Ho Hl' Hl8 Ho8]; cbn [app].
    + assert (is_u8 (4 * n)) as Ht by (unfold is_u8; change (2^8) with 256; lia). destruct (tag_facts _ Ht) as (T1 & T2 & T3 & T4). rewrite T1, T2. destruct (Hmod 0 n 4) as [E1 E2]; [lia..|]. rewrite Z.add_0_l in E1, E2. rewrite E1, E2. change (0 =? 0) with true. cbv iota.
      assert (n <? 60 = true) as -> by lia. apply Hlit; auto.
    + assert (is_u8 (4 * (59 + Z.of_nat k))) as Ht by (unfold is_u8; change (2^8) with 256; lia). destruct (tag_facts _ Ht) as (T1 & T2 & T3 & T4). rewrite T1, T2. destruct (Hmod 0 (59 + Z.of_nat k) 4) as [E1 E2]; [lia..|]. rewrite Z.add_0_l in E1, E2. rewrite E1, E2. change (0 =? 0) with true. cbv iota.
      assert (59 + Z.of_nat k <? 60 = false) as -> by lia. replace (Z.to_nat (59 + Z.of_nat k - 59)) with k by lia. rewrite <- app_assoc.
      assert ((length (le_bytes k n ++ bs ++ ws) <? k)%nat = false) as -> by (apply Nat.ltb_ge; rewrite app_length, le_bytes_length; lia).
      rewrite take_app_alt, drop_app_alt by (rewrite le_bytes_length; reflexivity). rewrite le_le_bytes by assumption. apply Hlit; auto.
    + pose proof (lor4 o l Hl8 Ho8) as Ht. destruct (tag_facts _ Ht) as (T1 & T2 & T3 & T4). assert (0 <= o / 256 < 8) as Bo by (split; [apply Z.div_pos; lia|apply Z.div_lt_upper_bound; lia]).
      replace (1 + 4 * l + 32 * (o / 256)) with (1 + 4 * (l + 8 * (o / 256))) in * by lia. destruct (Hmod 1 (l + 8 * (o / 256)) 4) as [E1 E2]; [lia..|]. destruct (Hmod l (o / 256) 8) as [E3 E4]; [lia..|].
      assert ((1 + 4 * (l + 8 * (o / 256))) / 32 = o / 256) as E5 by (change 32 with (4 * 8); rewrite <- Z.div_div by lia; rewrite E2; exact E4).
      rewrite T3, T1, T4, E1, E2, E3, E5. change (1 =? 0) with false. change (1 =? 1) with true. cbv iota.
      rewrite lor_off; [|lia|unfold is_u8; change (2^8) with 256; apply Z.mod_pos_bound; lia]. rewrite <- Z.div_mod by lia. assert (o =? 0 = false) as -> by (destruct Hv; lia). apply (Hcp off len); auto.
    + assert (is_u8 (2 + 4 * l)) as Ht by (unfold is_u8; change (2^8) with 256; lia). destruct (tag_facts _ Ht) as (T1 & T2 & T3 & T4). destruct (Hmod 2 l 4) as [E1 E2]; [lia..|]. rewrite T1, T2, E1, E2.
      change (2 =? 0) with false. change (2 =? 1) with false. change (2 =? 2) with true. cbv iota. rewrite Hcw. assert ((2 + length ws <? 2)%nat = false) as -> by (apply Nat.ltb_ge; lia).
      rewrite take_app_alt, drop_app_alt by (rewrite le_bytes_length; reflexivity). rewrite le_le_bytes by assumption. apply (Hcp off len); auto. lia.
    + assert (is_u8 (3 + 4 * l)) as Ht by (unfold is_u8; change (2^8) with 256; lia). destruct (tag_facts _ Ht) as (T1 & T2 & T3 & T4). destruct (Hmod 3 l 4) as [E1 E2]; [lia..|]. rewrite T1, T2, E1, E2.
      change (3 =? 0) with false. change (3 =? 1) with false. change (3 =? 2) with false. cbv iota. rewrite Hcw. assert ((4 + length ws <? 4)%nat = false) as -> by (apply Nat.ltb_ge; lia).
      rewrite take_app_alt, drop_app_alt by (rewrite le_bytes_length; reflexivity). rewrite le_le_bytes by assumption. apply (Hcp off len); auto. lia.
  - pose proof (stream2_length _ _ _ _ Hs) as Hle. rewrite exec_length in Hle. assert (2 <= length w)%nat as Hne by (destruct Hw; cbn [length app]; lia). rewrite app_length in Hf.
    destruct fuel as [|fuel]; [lia|]. assert (length ws < fuel)%nat as Hf' by lia. specialize (IH fuel dLen Hf' Hl). cbn [s2Decode].
    assert (Hcp : forall l, Z.of_nat len = l -> (if (Z.of_nat last <=? 0) || (Z.of_nat (length out) <? Z.of_nat last) || (dLen - Z.of_nat (length out) <? l) then None
     else s2Decode fuel dLen (Z.of_nat last) ws (copyBack (Z.to_nat l) (Z.to_nat (Z.of_nat last)) out)) = Some res).
    { intros l Hl'. cbn [esize valid] in Hle, Hv. assert ((Z.of_nat last <=? 0) || (Z.of_nat (length out) <? Z.of_nat last) || (dLen - Z.of_nat (length out) <? l) = false) as -> by lia.
      rewrite copyBack_iter. replace (Z.to_nat l) with len by lia. rewrite Nat2Z.id. exact IH. }
    assert (Hext : forall n v base, 0 <= v < 256 ^ Z.of_nat n -> Z.of_nat len = v + base + 4 ->
      (if (length (le_bytes n v ++ ws) <? n)%nat then None else
        if (Z.of_nat last <=? 0) || (Z.of_nat (length out) <? Z.of_nat last) || (dLen - Z.of_nat (length out) <? le (take n (le_bytes n v ++ ws)) + base + 4) then None
        else s2Decode fuel dLen (Z.of_nat last) (drop n (le_bytes n v ++ ws)) (copyBack (Z.to_nat (le (take n (le_bytes n v ++ ws)) + base + 4)) (Z.to_nat (Z.of_nat last)) out)) = Some res).
    { intros n v base Hv' Hlen. assert ((length (le_bytes n v ++ ws) <? n)%nat = false) as -> by (apply Nat.ltb_ge; rewrite app_length, le_bytes_length; lia).
      rewrite take_app_alt, drop_app_alt by (rewrite le_bytes_length; reflexivity). rewrite le_le_bytes by assumption. apply Hcp. lia. }
    assert (HT : forall l, 0 <= l < 8 -> Z.land (1 + 4 * l) 3 = 1 /\ Z.land (Z.shiftr (1 + 4 * l) 2) 7 = l /\ Z.lor (Z.shiftl (Z.land (1 + 4 * l) 224) 3) 0 = 0).
    { intros l Hl8. assert (l = 0 \/ l = 1 \/ l = 2 \/ l = 3 \/ l = 4 \/ l = 5 \/ l = 6 \/ l = 7) as Hc by lia. destruct Hc as [ -> | [ -> | [ -> | [ -> | [ -> | [ -> | [ -> | -> ]]]]]]]; repeat split; reflexivity. }
    destruct Hw as [len l Hlen Hl8|len n Hlen Hn|len n Hlen Hn|len n Hlen Hn].
    + destruct (HT l ltac:(lia)) as (T1 & T2 & T3). cbn [app]. rewrite T1, T2, T3. cbn [Z.eqb Pos.eqb]. assert (l =? 5 = false) as -> by lia. assert (l =? 6 = false) as -> by lia. assert (l =? 7 = false) as -> by lia. apply Hcp. lia.
    + destruct (HT 5 ltac:(lia)) as (T1 & T2 & T3). rewrite <- app_assoc. cbn [app]. rewrite T1, T2, T3. cbn [Z.eqb Pos.eqb]. apply Hext; [exact Hn|lia].
    + destruct (HT 6 ltac:(lia)) as (T1 & T2 & T3). rewrite <- app_assoc. cbn [app]. rewrite T1, T2, T3. cbn [Z.eqb Pos.eqb]. apply Hext; [exact Hn|lia].
    + destruct (HT 7 ltac:(lia)) as (T1 & T2 & T3). rewrite <- app_assoc. cbn [app]. rewrite T1, T2, T3. cbn [Z.eqb Pos.eqb]. apply Hext; [exact Hn|lia].
Qed.
Lemma UnSnappy_iff w out : is_bytes w -> UnSnappy w = Some out <-> s2 w out.
Proof.
  intros Hb. unfold UnSnappy, s2. split.
  - destruct (decodedLen w) as [[v n]|] eqn:E; [|discriminate]. apply decodedLen_spec in E as (h & rest & -> & Hu & -> & Hl & Hv); [|assumption]. rewrite Nat2Z.id, drop_app. intros H.
    apply (s2_sound _ _ 0) in H as [Hs Hr]; [|apply Forall_app in Hb; tauto]. exists h, rest. rewrite Hr. auto.
  - intros (h & body & -> & Hu & Hl & Hv & Hs). assert (decodedLen (h ++ body) = Some (Z.of_nat (length out), Z.of_nat (length h))) as ->.
    { apply decodedLen_spec; [assumption|]. exists h, body. auto. }
    rewrite Nat2Z.id, drop_app. apply (s2_complete 0); [exact Hs|rewrite app_length; lia|reflexivity].
Qed.


Lemma stream_s2 out w res : stream out w res -> forall last, stream2 last out w res.
Proof. induction 1 as [out|out e w ws res Hv Hw Hs IH]; intros last; [constructor|]. apply (s2_elem _ _ e); [exact Hv|exact Hw|apply IH]. Qed.
Lemma snappy_s2 w out : snappy w out -> s2 w out.
Proof. intros (h & body & -> & Hu & Hl & Hv & Hs). exists h, body. repeat split; auto. apply stream_s2, Hs. Qed.
