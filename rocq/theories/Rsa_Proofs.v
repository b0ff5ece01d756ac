From stdpp Require Import list.
From Coq Require Import ZArith Znumtheory Zpow_facts Lia.
From Verif Require Import GoInt Util_Model Rsa_Fermat Rsa_Model Rsa_Spec.
Local Open Scope Z_scope.

Lemma powmod_pos_spec e : forall x n, 0 < n -> powmod_pos x e n = x ^ Z.pos e mod n.
Proof.
  induction e as [e IH|e IH|]; intros x n Hn; cbn [powmod_pos].
  - rewrite IH by assumption. rewrite Pos2Z.inj_xI. replace (2 * Z.pos e + 1) with (1 + (Z.pos e + Z.pos e)) by lia. rewrite Z.pow_add_r, Z.pow_1_r by lia.
    rewrite Z.pow_add_r, <- Z.pow_mul_l by lia. rewrite <- (Zpower_mod (x * x)) by lia. rewrite Zmult_mod_idemp_r. reflexivity.
  - rewrite IH by assumption. rewrite Pos2Z.inj_xO. replace (2 * Z.pos e) with (Z.pos e + Z.pos e) by lia. rewrite Z.pow_add_r, <- Z.pow_mul_l by lia.
    rewrite <- (Zpower_mod (x * x)) by lia. reflexivity.
  - rewrite Z.pow_1_r. reflexivity.
Qed.
Lemma powmod_spec x e n : 0 < n -> 0 <= e -> powmod x e n = x ^ e mod n.
Proof. intros Hn He. destruct e as [|e|e]; [reflexivity|apply powmod_pos_spec; assumption|lia]. Qed.

(** ** The number theory *)
Lemma prime_power p x t : prime p -> 0 <= x -> 0 <= t -> x ^ (1 + t * (p - 1)) mod p = x mod p.
Proof.
  intros Hp Hx Ht. assert (1 < p) by (destruct Hp; lia). destruct (Znumtheory.Zdivide_dec p x) as [[k ->]|Hd].
  - rewrite Z.pow_add_r by nia. rewrite Z.pow_1_r. rewrite <- Z.mul_assoc, (Z.mul_comm p), Z.mul_assoc, !Z_mod_mult. reflexivity.
  - rewrite Z.pow_add_r by nia. rewrite Z.pow_1_r, (Z.mul_comm t), Z.pow_mul_r by nia. rewrite Z.mul_mod by lia. rewrite (Zpower_mod (x ^ (p - 1))) by lia.
    rewrite (fermat p x Hp Hx Hd). rewrite Z.pow_1_l by lia. rewrite <- Z.mul_mod by lia. f_equal. lia.
Qed.
Lemma divide_prod n e d primes : rsa_pair n e d primes -> forall x, 0 <= x -> (n | x ^ (e * d) - x).
Proof.
  intros (-> & Hnd & Hp & He & Hd) x Hx.
  assert (forall p, p ∈ primes -> prime p /\ (p | x ^ (e * d) - x)) as Hdiv.
  { intros p Hin. destruct (Hp p Hin) as (Hpr & _ & [t Ht]). split; [exact Hpr|]. assert (1 < p) by (destruct Hpr; lia).
    apply Z.mod_divide; [lia|]. rewrite Zminus_mod. replace (e * d) with (1 + t * (p - 1)) by lia. rewrite prime_power; [|assumption..|nia]. rewrite Z.sub_diag. apply Zmod_0_l. }
  clear Hp. generalize dependent (x ^ (e * d) - x). intros y Hdiv. induction primes as [|p ps IH]; [exists y; cbn; lia|].
  apply NoDup_cons in Hnd as [Hni Hnd]. cbn [prod fold_right]. fold (prod ps).
  assert (prod ps | y) as Hps. { apply IH; [assumption|]. intros q Hq. apply Hdiv. right. assumption. }
  destruct (Hdiv p) as [Hpr [k Hk]]; [left|]. subst y.
  assert (rel_prime (prod ps) p) as Hrel.
  { assert (forall q, q ∈ ps -> prime q) as Hq by (intros q Hq; apply Hdiv; right; assumption). clear IH Hdiv Hps Hnd. induction ps as [|q ps IH].
    - apply rel_prime_1.
    - cbn [prod fold_right]. apply rel_prime_sym, rel_prime_mult; apply rel_prime_sym.
      + apply prime_rel_prime; [apply Hq; left|]. intros Hdv. apply Hni. replace p with q; [left|]. apply prime_div_prime; [apply Hq; left|assumption..].
      + apply IH; [intros Hin; apply Hni; right; assumption|]. intros q' Hq'. apply Hq. right. assumption. }
  rewrite (Z.mul_comm k) in Hps. apply Gauss in Hps; [|exact Hrel]. destruct Hps as [j ->]. exists j. lia.
Qed.
Lemma rsa_pair_pos n e d primes : rsa_pair n e d primes -> 0 < n.
Proof.
  intros (-> & _ & Hp & _). induction primes as [|p ps IH]; [cbn; lia|]. cbn [prod fold_right]. fold (prod ps).
  assert (0 < prod ps) by (apply IH; intros q Hq; apply Hp; right; assumption). destruct (Hp p) as [Hpr _]; [left|]. destruct Hpr. nia.
Qed.
Lemma rsa_pair_odd n e d primes : rsa_pair n e d primes -> Z.even n = false.
Proof.
  intros (-> & _ & Hp & _). induction primes as [|p ps IH]; [reflexivity|]. cbn [prod fold_right]. fold (prod ps).
  rewrite Z.even_mul. apply orb_false_intro; [|apply IH; intros q Hq; apply Hp; right; assumption].
  destruct (Hp p) as (Hpr & H2 & _); [left|]. destruct (Z.even p) eqn:E; [|reflexivity]. exfalso. apply Z.even_spec in E as [k ->].
  assert (2 | 2 * k) as Hd by (exists k; lia). assert (1 < 2 * k) by (destruct Hpr; lia). destruct (prime_divisors _ Hpr 2 Hd) as [?|[?|[?|?]]]; lia.
Qed.
Lemma rsa_undo n e d primes x : rsa_pair n e d primes -> 0 <= x < n -> powmod (powmod x e n) d n = x.
Proof.
  intros H Hx. pose proof (rsa_pair_pos _ _ _ _ H) as Hn. pose proof H as (_ & _ & _ & He & Hd). rewrite !powmod_spec by lia.
  rewrite <- Zpower_mod by lia. rewrite <- Z.pow_mul_r by lia. destruct (divide_prod _ _ _ _ H x) as [k Hk]; [lia|].
  replace (x ^ (e * d)) with (x + k * n) by lia. rewrite Z_mod_plus_full. apply Z.mod_small. lia.
Qed.

(** ** Bytes *)
Lemma SetBytes_acc bs : forall a, fold_left (fun a b => a * 256 + b) bs a = a * 256 ^ Z.of_nat (length bs) + number bs.
Proof.
  induction bs as [|b r IH]; intros a; cbn [fold_left number length]; [rewrite Z.pow_0_r; lia|].
  rewrite IH, Nat2Z.inj_succ, Z.pow_succ_r by lia. ring.
Qed.
Lemma SetBytes_number bs : SetBytes bs = number bs.
Proof. unfold SetBytes. rewrite SetBytes_acc. lia. Qed.
Lemma number_bound bs : Forall isbyte bs -> 0 <= number bs < 256 ^ Z.of_nat (length bs).
Proof.
  induction 1 as [|b r Hb _ IH]; cbn [number length]; [rewrite Z.pow_0_r; lia|]. rewrite Nat2Z.inj_succ, Z.pow_succ_r by lia. unfold isbyte in Hb. nia.
Qed.
Lemma number_app a b : number (a ++ b) = number a * 256 ^ Z.of_nat (length b) + number b.
Proof. induction a as [|x a IH]; cbn [number app]; [lia|]. rewrite IH, app_length, Nat2Z.inj_add, Z.pow_add_r by lia. ring. Qed.
Lemma Bytes_length k : forall x, length (Bytes k x) = k.
Proof. induction k as [|k IH]; intros x; cbn [Bytes]; [reflexivity|]. rewrite app_length, IH. cbn [length]. lia. Qed.
Lemma Bytes_isbyte k : forall x, Forall isbyte (Bytes k x).
Proof. induction k as [|k IH]; intros x; cbn [Bytes]; [constructor|]. apply Forall_app. split; [apply IH|]. constructor; [|constructor]. apply Z.mod_pos_bound. lia. Qed.
Lemma Bytes_number k : forall x, 0 <= x < 256 ^ Z.of_nat k -> number (Bytes k x) = x.
Proof.
  induction k as [|k IH]; intros x Hx; cbn [Bytes]; [cbn [number]; cbn in Hx; lia|]. rewrite number_app. cbn [number length]. rewrite Nat2Z.inj_succ, Z.pow_succ_r in Hx by lia.
  rewrite IH; [|split; [apply Z.div_pos; lia|apply Z.div_lt_upper_bound; lia]]. pose proof (Z.div_mod x 256). rewrite Z.pow_0_r. change (256 ^ Z.of_nat 1) with 256. lia.
Qed.
Lemma number_inj a : forall b, length a = length b -> Forall isbyte a -> Forall isbyte b -> number a = number b -> a = b.
Proof.
  induction a as [|x a IH]; intros [|y b] Hl Ha Hb E; cbn [length] in Hl; try lia; [reflexivity|]. apply Forall_cons in Ha as [Hx Ha]. apply Forall_cons in Hb as [Hy Hb].
  cbn [number] in E. injection Hl as Hl. rewrite Hl in E. pose proof (number_bound a Ha) as Ba. pose proof (number_bound b Hb) as Bb. rewrite Hl in Ba.
  assert (x = y) as -> by nia. f_equal. apply IH; try assumption. lia.
Qed.
Lemma Size_spec n k : bytes_of_modulus n k -> Size n = Z.of_nat k.
Proof.
  intros [Hk Hn]. unfold Size, BitLen. assert (0 < 256 ^ (Z.of_nat k - 1)) by (apply Z.pow_pos_nonneg; lia). destruct (n <=? 0) eqn:E; [lia|].
  change 256 with (2 ^ 8) in Hn. rewrite <- !Z.pow_mul_r in Hn by lia. assert (8 * (Z.of_nat k - 1) <= Z.log2 n < 8 * Z.of_nat k).
  { split; [apply Z.log2_le_pow2; lia|apply Z.log2_lt_pow2; lia]. }
  replace (Z.log2 n + 1 + 7) with (8 * Z.of_nat k + (Z.log2 n + 8 - 8 * Z.of_nat k)) by lia. symmetry. apply (Z.div_unique_pos _ _ _ (Z.log2 n + 8 - 8 * Z.of_nat k)); lia.
Qed.
Lemma bytes_exist n : 0 < n -> exists k, bytes_of_modulus n k.
Proof.
  intros Hn. exists (Z.to_nat (Z.log2 n / 8 + 1)). assert (0 <= Z.log2 n / 8) by (apply Z.div_pos; [apply Z.log2_nonneg|lia]). split; [lia|]. rewrite Z2Nat.id by lia.
  replace (Z.log2 n / 8 + 1 - 1) with (Z.log2 n / 8) by lia. change 256 with (2 ^ 8). rewrite <- !Z.pow_mul_r by lia. pose proof (Z.log2_spec n Hn) as [L1 L2].
  pose proof (Z.div_mod (Z.log2 n) 8). pose proof (Z.mod_pos_bound (Z.log2 n) 8). split.
  - etransitivity; [|exact L1]. apply Z.pow_le_mono_r; lia.
  - eapply Z.lt_le_trans; [exact L2|]. apply Z.pow_le_mono_r; lia.
Qed.
Lemma toNat_ok n k bs : bytes_of_modulus n k -> Z.even n = false -> length bs = k -> number bs < n -> toNat n bs = Some (number bs).
Proof.
  intros Hk He Hl Hv. pose proof Hk as [Hk0 Hn]. assert (0 < 256 ^ (Z.of_nat k - 1)) by (apply Z.pow_pos_nonneg; lia). unfold toNat. rewrite He, orb_false_r.
  assert (n <=? 0 = false) as -> by lia. rewrite SetBytes_number.
  assert (8 * ((BitLen n + 63) / 64) <? Z.of_nat (length bs) = false) as ->.
  { pose proof (Size_spec n k Hk) as Hs. unfold Size in Hs. rewrite Hl, <- Hs. pose proof (Z.div_mod (BitLen n + 63) 64). pose proof (Z.mod_pos_bound (BitLen n + 63) 64).
    pose proof (Z.div_mod (BitLen n + 7) 8). pose proof (Z.mod_pos_bound (BitLen n + 7) 8). lia. }
  assert (number bs <? n = true) as -> by lia. reflexivity.
Qed.

(** ** Padding *)
Lemma nonZeroByte_spec rnd : forall b b' r, isbyte b -> Forall isbyte rnd -> nonZeroByte b rnd = Some (b', r) -> isbyte b' /\ b' <> 0 /\ Forall isbyte r.
Proof.
  induction rnd as [|c rnd IH]; intros b b' r Hb Hr E; cbn [nonZeroByte] in E; destruct (b =? 0) eqn:E0; try discriminate.
  - injection E as <- <-. repeat split; [apply Hb|apply Hb|lia|constructor].
  - apply Forall_cons in Hr as [Hc Hr]. eapply IH; [|exact Hr|exact E]. unfold isbyte in *. split; [apply Z.lxor_nonneg; lia|].
    destruct (Z.eq_dec (Z.lxor c 66) 0) as [->|Hne]; [lia|]. apply Z.log2_lt_pow2 with (b := 8); [assert (0 <= Z.lxor c 66) by (apply Z.lxor_nonneg; lia); lia|].
    eapply Z.le_lt_trans; [apply Z.log2_lxor; lia|]. apply Z.max_lub_lt; [|reflexivity]. destruct (Z.eq_dec c 0) as [->|]; [reflexivity|]. apply Z.log2_lt_pow2; lia.
  - injection E as <- <-. repeat split; [apply Hb|apply Hb|lia|assumption].
Qed.
Lemma nonZeroLoop_spec s : forall rnd ps, Forall isbyte s -> Forall isbyte rnd -> nonZeroLoop s rnd = Some ps -> length ps = length s /\ Forall (fun b => isbyte b /\ b <> 0) ps.
Proof.
  induction s as [|b s IH]; intros rnd ps Hs Hr E; cbn [nonZeroLoop] in E; [injection E as <-; split; constructor|]. apply Forall_cons in Hs as [Hb Hs].
  destruct (nonZeroByte b rnd) as [[b' r]|] eqn:E1; [|discriminate]. destruct (nonZeroByte_spec _ _ _ _ Hb Hr E1) as (? & ? & ?).
  destruct (nonZeroLoop s r) as [s'|] eqn:E2; [|discriminate]. injection E as <-. destruct (IH _ _ Hs ltac:(eassumption) E2) as [Hl Hf]. cbn [length]. split; [lia|]. constructor; auto.
Qed.
Lemma nonZeroRandomBytes_spec n rnd ps : Forall isbyte rnd -> nonZeroRandomBytes n rnd = Some ps -> length ps = n /\ Forall (fun b => isbyte b /\ b <> 0) ps.
Proof.
  intros Hr E. unfold nonZeroRandomBytes in E. destruct (length rnd <? n)%nat eqn:En; [discriminate|]. apply Nat.ltb_ge in En.
  apply nonZeroLoop_spec in E; [|apply Forall_take; assumption|apply Forall_drop; assumption]. rewrite take_length in E. replace (n `min` length rnd)%nat with n in E by lia. exact E.
Qed.
Lemma findZero_done em : forall i idx, findZero i idx false em = (idx, false).
Proof. induction em as [|b em IH]; intros i idx; cbn [findZero]; [reflexivity|]. cbn [andb]. destruct (b =? 0); apply IH. Qed.
Lemma findZero_pad ps m : forall i idx, Forall (fun b => b <> 0) ps -> findZero i idx true (ps ++ 0 :: m) = (i + Z.of_nat (length ps), false).
Proof.
  induction ps as [|b ps IH]; intros i idx Hf; cbn [findZero app length].
  - cbn [andb]. change (0 =? 0) with true. cbn match. rewrite findZero_done. f_equal. lia.
  - apply Forall_cons in Hf as [Hb Hf]. assert (b =? 0 = false) as -> by lia. cbn [andb]. rewrite IH by assumption. f_equal. lia.
Qed.
Lemma findZero_inv em : forall i idx j, findZero i idx true em = (j, false) -> exists ps m, em = ps ++ 0 :: m /\ j = i + Z.of_nat (length ps) /\ Forall (fun b => b <> 0) ps.
Proof.
  induction em as [|b em IH]; intros i idx j E; cbn [findZero] in E; [discriminate|]. cbn [andb] in E. destruct (b =? 0) eqn:Eb.
  - rewrite findZero_done in E. injection E as <-. exists [], em. cbn. split; [f_equal; lia|]. split; [lia|constructor].
  - destruct (IH _ _ _ E) as (ps & m & -> & -> & Hf). exists (b :: ps), m. cbn [length app]. split; [reflexivity|]. split; [lia|]. constructor; [lia|assumption].
Qed.
Lemma padded_bound k n m em : bytes_of_modulus n k -> Forall isbyte m -> padded k m em -> Forall isbyte em /\ 0 <= number em < n.
Proof.
  intros [Hk Hn] Hm (ps & -> & Hl & H8 & Hps). assert (Forall isbyte ([2] ++ ps ++ [0] ++ m)) as Hb.
  { apply Forall_app. split; [constructor; [unfold isbyte; lia|constructor]|]. apply Forall_app. split; [eapply Forall_impl; [exact Hps|]; intros x [? _]; assumption|].
    apply Forall_app. split; [constructor; [unfold isbyte; lia|constructor]|assumption]. }
  split; [change ([0; 2] ++ ps ++ [0] ++ m) with (0 :: [2] ++ ps ++ [0] ++ m); constructor; [unfold isbyte; lia|exact Hb]|].
  pose proof (number_bound _ Hb) as B. change ([0; 2] ++ ps ++ [0] ++ m) with (0 :: ([2] ++ ps ++ [0] ++ m)) in *. cbn [length] in Hl. cbn [number].
  replace (Z.of_nat k - 1) with (Z.of_nat (length ([2] ++ ps ++ [0] ++ m))) in Hn by lia. lia.
Qed.
(** What EncryptPKCS1v15 does. *)
Lemma encrypt_padded n e k rnd msg ct : bytes_of_modulus n k -> Z.even n = false -> 0 <= e -> Forall isbyte msg -> Forall isbyte rnd ->
  EncryptPKCS1v15 rnd (Pub n e) msg = Some ct -> exists em, padded k msg em /\ ct = Bytes k (powmod (number em) e n).
Proof.
  intros Hk He He0 Hm Hr E. unfold EncryptPKCS1v15 in E. cbn [pub_e pub_n] in E. destruct (checkPub e); [|discriminate]. cbn [negb] in E. rewrite (Size_spec n k Hk) in E.
  destruct (_ <? _) eqn:El; [discriminate|]. destruct (nonZeroRandomBytes _ rnd) as [ps|] eqn:Ep; [|discriminate]. apply nonZeroRandomBytes_spec in Ep as [Hl Hps]; [|assumption].
  exists ([0; 2] ++ ps ++ [0] ++ msg). assert (padded k msg ([0; 2] ++ ps ++ [0] ++ msg)) as Hpad.
  { exists ps. split; [reflexivity|]. rewrite !app_length. cbn [length]. split; [lia|]. split; [lia|assumption]. }
  split; [exact Hpad|]. destruct (padded_bound k n msg _ Hk Hm Hpad) as [_ Hb]. unfold encrypt in E. cbn [pub_e pub_n] in E.
  rewrite (toNat_ok n k) in E; [|assumption|assumption|destruct Hpad as (? & ? & Hlen & _); exact Hlen|lia]. injection E as <-. rewrite (Size_spec n k Hk), Nat2Z.id. reflexivity.
Qed.
(** What DecryptPKCS1v15 does with a string of k bytes below n. *)
Lemma decrypt_padded n e d primes k ct em msg : bytes_of_modulus n k -> Z.even n = false -> checkPub e = true -> length ct = k -> Forall isbyte ct -> number ct < n ->
  padded k msg em -> powmod (number ct) d n = number em -> Forall isbyte em -> DecryptPKCS1v15 (Priv n e d primes) ct = Some msg.
Proof.
  intros Hk He Hc Hl Hct Hlt Hpad Hpow Hem. unfold DecryptPKCS1v15. cbn [priv_e priv_n priv_d]. rewrite Hc. cbn [negb]. rewrite (Size_spec n k Hk).
  destruct Hpad as (ps & Eem & Hlen & H8 & Hps).
  assert (Z.of_nat k <? 11 = false) as ->. { rewrite <- Hlen, Eem, !app_length. cbn [length]. lia. }
  unfold decrypt. cbn [priv_n priv_d]. rewrite (toNat_ok n k) by assumption. rewrite Hpow, (Size_spec n k Hk), Nat2Z.id.
  assert (Bytes k (number em) = em) as ->.
  { apply number_inj; [rewrite Bytes_length; lia|apply Bytes_isbyte|assumption|]. apply Bytes_number. rewrite <- Hlen. apply number_bound. assumption. }
  subst em. change ([0; 2] ++ ps ++ [0] ++ msg) with (0 :: 2 :: ps ++ 0 :: msg). change (drop 2 (0 :: 2 :: ps ++ 0 :: msg)) with (ps ++ 0 :: msg). cbn [nth]. rewrite (findZero_pad ps msg 2 0); [|eapply Forall_impl; [exact Hps|]; intros x [_ ?]; assumption].
  change (0 =? 0) with true. change (2 =? 2) with true. cbn [andb negb]. assert (10 <=? 2 + Z.of_nat (length ps) = true) as -> by lia.
  f_equal. replace (Z.to_nat (2 + Z.of_nat (length ps) + 1)) with (S (S (length ps + 1)))%nat by lia. change (drop (S (S (length ps + 1))) (0 :: 2 :: ps ++ 0 :: msg)) with (drop (length ps + 1) (ps ++ 0 :: msg)).
  rewrite drop_app_ge by lia. replace (length ps + 1 - length ps)%nat with 1%nat by lia. reflexivity.
Qed.
(** And when it says yes. *)
Lemma decrypt_inv n e d primes k ct msg : bytes_of_modulus n k -> DecryptPKCS1v15 (Priv n e d primes) ct = Some msg ->
  number ct < n /\ padded k msg (Bytes k (powmod (number ct) d n)).
Proof.
  intros Hk E. unfold DecryptPKCS1v15 in E. cbn [priv_e priv_n priv_d] in E. destruct (checkPub e); [|discriminate]. cbn [negb] in E. rewrite (Size_spec n k Hk) in E.
  destruct (Z.of_nat k <? 11) eqn:E11; [discriminate|]. unfold decrypt in E. cbn [priv_n priv_d] in E. destruct (toNat n ct) as [c|] eqn:Ec; [|discriminate].
  unfold toNat in Ec. destruct (_ || _); [discriminate|]. destruct (_ <? Z.of_nat (length ct)); [discriminate|]. rewrite SetBytes_number in Ec. destruct (number ct <? n) eqn:Elt; [|discriminate].
  injection Ec as <-. split; [lia|]. rewrite (Size_spec n k Hk), Nat2Z.id in E. set (em := Bytes k (powmod (number ct) d n)) in *.
  assert (length em = k) as Hlen by apply Bytes_length. assert (Forall isbyte em) as Hem by apply Bytes_isbyte. clearbody em.
  destruct (findZero 2 0 true (drop 2 em)) as [index looking] eqn:Ef. destruct (_ && _) eqn:Eall; [|discriminate]. injection E as <-.
  apply andb_prop in Eall as [Eall H10]. apply andb_prop in Eall as [Eall Hlk]. apply andb_prop in Eall as [H0 H2].
  destruct looking; [discriminate|]. apply findZero_inv in Ef as (ps & m & Ed & Hi & Hnz). destruct em as [|a [|b em]]; [cbn in Hlen; lia|cbn in Hlen; lia|]. cbn [nth] in H0, H2. change (drop 2 (a :: b :: em)) with em in Ed. subst em.
  assert (a = 0) as -> by lia. assert (b = 2) as -> by lia. exists ps.
  assert (drop (Z.to_nat (index + 1)) (0 :: 2 :: ps ++ 0 :: m) = m) as ->.
  { subst index. replace (Z.to_nat (2 + Z.of_nat (length ps) + 1)) with (S (S (length ps + 1)))%nat by lia. change (drop (S (S (length ps + 1))) (0 :: 2 :: ps ++ 0 :: m)) with (drop (length ps + 1) (ps ++ 0 :: m)). rewrite drop_app_ge by lia. replace (length ps + 1 - length ps)%nat with 1%nat by lia. reflexivity. }
  split; [reflexivity|]. split; [exact Hlen|]. split; [lia|]. apply Forall_cons in Hem as [_ Hem]. apply Forall_cons in Hem as [_ Hem]. apply Forall_app in Hem as [Hem _].
  apply Forall_forall. intros x Hx. split; [eapply Forall_forall in Hem; eassumption|eapply Forall_forall in Hnz; eassumption].
Qed.

(** ** Enough random bytes *)
Definition good66 (b : list Z) : nat := length (filter (fun c => c <> 66%Z) b).
Lemma nonZeroByte_enough rnd : forall b, b <> 0 \/ (1 <= good66 rnd)%nat -> exists b' r, nonZeroByte b rnd = Some (b', r) /\ (good66 rnd <= S (good66 r))%nat.
Proof.
  induction rnd as [|c rnd IH]; intros b Hb; cbn [nonZeroByte]; destruct (b =? 0) eqn:E.
  - destruct Hb as [?|Hb]; [lia|]. unfold good66 in Hb. cbn in Hb. lia.
  - exists b, []. split; [reflexivity|lia].
  - destruct (decide (c <> 66)) as [Hc|Hc].
    + assert (Z.lxor c 66 <> 0) as Hx by (intros Hx; apply Z.lxor_eq in Hx; contradiction). destruct rnd as [|c' rnd']; cbn [nonZeroByte].
      * assert (Z.lxor c 66 =? 0 = false) as -> by lia. eexists _, _. split; [reflexivity|]. unfold good66. rewrite filter_cons_True by assumption. cbn. lia.
      * assert (Z.lxor c 66 =? 0 = false) as -> by lia. eexists _, _. split; [reflexivity|]. unfold good66. rewrite filter_cons_True by assumption. cbn [length]. lia.
    + assert (good66 (c :: rnd) = good66 rnd) as Hg by (unfold good66; rewrite filter_cons_False by assumption; reflexivity). rewrite Hg in *.
      apply IH. right. destruct Hb as [?|?]; [lia|assumption].
  - exists b, (c :: rnd). split; [reflexivity|lia].
Qed.
Lemma nonZeroLoop_enough s : forall rnd, (length s <= good66 rnd)%nat -> exists ps, nonZeroLoop s rnd = Some ps.
Proof.
  induction s as [|b s IH]; intros rnd H; cbn [nonZeroLoop]; [eauto|]. cbn [length] in H. destruct (nonZeroByte_enough rnd b) as (b' & r & -> & Hr); [right; lia|].
  destruct (IH r) as [ps ->]; [lia|]. eauto.
Qed.
Lemma nonZeroRandomBytes_enough m k rnd : (m <= k)%nat -> enough_random k rnd -> exists ps, nonZeroRandomBytes m rnd = Some ps.
Proof.
  intros Hm (a & b & -> & Ha & Hb). unfold nonZeroRandomBytes. assert ((length (a ++ b) <? m)%nat = false) as -> by (apply Nat.ltb_ge; rewrite app_length; lia).
  apply nonZeroLoop_enough. rewrite take_length, app_length, drop_app_le by lia. unfold good66. rewrite filter_app, app_length. lia.
Qed.
Lemma encrypt_succeeds n e k rnd msg : bytes_of_modulus n k -> Z.even n = false -> checkPub e = true -> Forall isbyte msg -> Forall isbyte rnd -> enough_random k rnd ->
  (length msg + 11 <= k)%nat -> exists ct, EncryptPKCS1v15 rnd (Pub n e) msg = Some ct.
Proof.
  intros Hk He Hc Hm Hr Hen Hl. unfold EncryptPKCS1v15. cbn [pub_e pub_n]. rewrite Hc. cbn [negb]. rewrite (Size_spec n k Hk).
  assert (Z.of_nat k - 11 <? Z.of_nat (length msg) = false) as -> by lia.
  destruct (nonZeroRandomBytes_enough (Z.to_nat (Z.of_nat k - 3 - Z.of_nat (length msg))) k rnd) as [ps Ep]; [lia|assumption|]. rewrite Ep.
  apply nonZeroRandomBytes_spec in Ep as [Hpl Hps]; [|assumption]. unfold encrypt. cbn [pub_e pub_n].
  assert (padded k msg ([0; 2] ++ ps ++ [0] ++ msg)) as Hpad. { exists ps. split; [reflexivity|]. rewrite !app_length. cbn [length]. split; [lia|]. split; [lia|assumption]. }
  destruct (padded_bound k n msg _ Hk Hm Hpad) as [_ Hb]. rewrite (toNat_ok n k); [eauto|assumption|assumption|destruct Hpad as (? & ? & Hlen & _); exact Hlen|lia].
Qed.
Lemma encrypt_long n e k rnd msg : bytes_of_modulus n k -> (k < length msg + 11)%nat -> EncryptPKCS1v15 rnd (Pub n e) msg = None.
Proof.
  intros Hk Hl. unfold EncryptPKCS1v15. cbn [pub_e pub_n]. destruct (checkPub e); [|reflexivity]. cbn [negb]. rewrite (Size_spec n k Hk).
  assert (Z.of_nat k - 11 <? Z.of_nat (length msg) = true) as -> by lia. reflexivity.
Qed.
Lemma powmod_bound x e n : 0 < n -> 0 <= e -> 0 <= powmod x e n < n.
Proof. intros Hn He. rewrite powmod_spec by assumption. apply Z.mod_pos_bound. assumption. Qed.
Lemma round_trip n e d primes k rnd msg ct : rsa_pair n e d primes -> checkPub e = true -> bytes_of_modulus n k -> Forall isbyte msg -> Forall isbyte rnd ->
  EncryptPKCS1v15 rnd (Pub n e) msg = Some ct -> length ct = k /\ DecryptPKCS1v15 (Priv n e d primes) ct = Some msg.
Proof.
  intros H Hc Hk Hm Hr E. pose proof (rsa_pair_pos _ _ _ _ H) as Hn. pose proof (rsa_pair_odd _ _ _ _ H) as Ho. pose proof H as (_ & _ & _ & He & Hd).
  destruct (encrypt_padded n e k rnd msg ct Hk Ho ltac:(lia) Hm Hr E) as (em & Hpad & ->). destruct (padded_bound k n msg em Hk Hm Hpad) as [Hem Hb].
  pose proof (powmod_bound (number em) e n Hn ltac:(lia)) as Hp. split; [apply Bytes_length|].
  assert (number (Bytes k (powmod (number em) e n)) = powmod (number em) e n) as Hnum by (apply Bytes_number; destruct Hk; lia).
  apply (decrypt_padded n e d primes k _ em msg); try assumption; [apply Bytes_length|apply Bytes_isbyte|rewrite Hnum; lia|].
  rewrite Hnum. eapply rsa_undo; eassumption.
Qed.

(** ** Small primes, for the examples *)
Definition trial (p : Z) : bool := (1 <? p) && (p <? 65536) && forallb (fun d => negb (p mod d =? 0) || (p <=? d)) (map Z.of_nat (seq 2 254)).
Lemma trial_prime p : trial p = true -> prime p.
Proof.
  intros H. unfold trial in H. apply andb_prop in H as [H Hf]. apply andb_prop in H as [H1 H2]. assert (forall d, 2 <= d < 256 -> d < p -> p mod d <> 0) as Hd.
  { intros d Hd Hdp Hm. rewrite forallb_forall in Hf. specialize (Hf d). rewrite Hm in Hf. change (0 =? 0) with true in Hf. cbn [negb orb] in Hf.
    assert (p <=? d = true); [|lia]. apply Hf. apply in_map_iff. exists (Z.to_nat d). split; [lia|]. apply in_seq. lia. }
  apply prime_alt. split; [lia|]. intros n Hn [k Hk]. destruct (Z.lt_ge_cases n 256) as [Hlt|Hge].
  - apply (Hd n); [lia|lia|]. rewrite Hk. apply Z_mod_mult.
  - apply (Hd k); [nia|nia|]. rewrite Hk, Z.mul_comm. apply Z_mod_mult.
Qed.
