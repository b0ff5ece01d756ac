From stdpp Require Import list.
From Coq Require Import ZArith Lia.
From Verif Require Import GoInt Hash_Model Aes_Proofs Util_Proofs Compress_Proofs Digest_Model Digest_Spec.
Local Open Scope Z_scope.

Lemma pieces_app k n1 : forall n2 a b, length a = (n1 * k)%nat -> pieces (n1 + n2) k (a ++ b) = pieces n1 k a ++ pieces n2 k b.
Proof.
  induction n1 as [|n1 IH]; intros n2 a b H.
  - destruct a; [reflexivity|cbn in H; lia].
  - cbn [pieces plus app]. cbn [mult] in H.
    rewrite firstn_app, skipn_app. replace (k - length a)%nat with 0%nat by lia. cbn [firstn skipn]. rewrite app_nil_r.
    f_equal. apply IH. rewrite skipn_length. lia.
Qed.
Lemma pieces_concat k n : forall a, length a = (n * k)%nat -> concat (pieces n k a) = a.
Proof.
  induction n as [|n IH]; intros a H; cbn [pieces concat].
  - destruct a; [reflexivity|cbn in H; lia].
  - rewrite IH; [apply firstn_skipn|]. rewrite skipn_length. cbn in H. lia.
Qed.
Lemma pieces_length k n : forall a, length (pieces n k a) = n.
Proof. induction n as [|n IH]; intros a; cbn; [|rewrite IH]; reflexivity. Qed.
Lemma pieces_each k n : forall a, length a = (n * k)%nat -> is_bytes a -> Forall (fun b => length b = k /\ is_bytes b) (pieces n k a).
Proof.
  induction n as [|n IH]; intros a H Hb; cbn [pieces]; [constructor|]. cbn in H. constructor.
  - split; [rewrite firstn_length; lia|apply Forall_take; exact Hb].
  - apply IH; [rewrite skipn_length; lia|apply Forall_drop; exact Hb].
Qed.
Lemma blocks_eq n a : length a = (n * 64)%nat -> blocks a = pieces n 64 a.
Proof. intros H. unfold blocks. rewrite H, Nat.div_mul by lia. reflexivity. Qed.
Lemma blocks_app n a m b : length a = (n * 64)%nat -> length b = (m * 64)%nat -> blocks (a ++ b) = blocks a ++ blocks b.
Proof.
  intros Ha Hb. rewrite (blocks_eq (n + m)), (blocks_eq n a), (blocks_eq m b) by (rewrite ?app_length; lia).
  apply pieces_app. exact Ha.
Qed.
Lemma blocks_inj n a b : length a = (n * 64)%nat -> length b = (n * 64)%nat -> blocks a = blocks b -> a = b.
Proof.
  intros Ha Hb E. rewrite (blocks_eq n a), (blocks_eq n b) in E by auto.
  rewrite <- (pieces_concat 64 n a), <- (pieces_concat 64 n b), E by auto. reflexivity.
Qed.

(** Where two different lists of steps come to one state, two different steps do. *)
Lemma fold_collision {S B} `{EqDecision S, EqDecision B} (f : S -> B -> S) (s0 : S) : forall l l',
  length l = length l' -> l <> l' -> fold_left f l s0 = fold_left f l' s0 ->
  exists p b p' b', p ++ [b] `prefix_of` l /\ p' ++ [b'] `prefix_of` l' /\
    (fold_left f p s0, b) <> (fold_left f p' s0, b') /\ f (fold_left f p s0) b = f (fold_left f p' s0) b'.
Proof.
  induction l as [|b l IH] using rev_ind; intros l' Hl Hn E.
  - destruct l'; [congruence|discriminate].
  - destruct l' as [|b' l' _] using rev_ind; [rewrite app_length in Hl; cbn in Hl; lia|].
    rewrite !app_length in Hl. cbn in Hl. rewrite !fold_left_app in E. cbn [fold_left] in E.
    destruct (decide ((fold_left f l s0, b) = (fold_left f l' s0, b'))) as [[= E1 E2]|Hd].
    + destruct (IH l' ltac:(lia) ltac:(congruence) E1) as (p & c & p' & c' & Hp & Hp' & H1 & H2).
      exists p, c, p', c'. split; [apply prefix_app_r; exact Hp|]. split; [apply prefix_app_r; exact Hp'|]. auto.
    + exists l, b, l', b'. repeat split; auto; reflexivity.
Qed.

(** ** MD5 and SHA-1 at once *)
Section md.
Context {St : Type} `{EqDecision St} (blk : St -> list Z -> St) (init : St) (inr : St -> Prop) (lb : Z -> list Z).
Hypothesis init_ok : inr init.
Hypothesis blk_ok : forall s b, inr (blk s b).
Hypothesis lb_len : forall n, length (lb n) = 8%nat.
Hypothesis lb_bytes : forall n, is_bytes (lb n).
Hypothesis lb_inj : forall a b, 0 <= a < 2 ^ 64 -> 0 <= b < 2 ^ 64 -> lb a = lb b -> a = b.

Definition tl (n : nat) : list Z := 128 :: repeat 0 (Z.to_nat ((55 - Z.of_nat n) mod 64)) ++ lb (8 * Z.of_nat n).
Definition mdpad (m : list Z) : list Z := padded (lb (8 * Z.of_nat (length m))) m.
Definition mdh (m : list Z) : St := fold_left blk (blocks (mdpad m)) init.

Lemma mdpad_tl m : mdpad m = m ++ tl (length m).
Proof. unfold mdpad, padded, tl. cbn [app]. rewrite <- ?app_assoc. reflexivity. Qed.
Lemma tl_length n : exists k, (n + length (tl n) = (k * 64))%nat.
Proof.
  unfold tl. cbn [length]. rewrite app_length, repeat_length, lb_len.
  pose proof (Z.mod_pos_bound (55 - Z.of_nat n) 64 ltac:(lia)).
  pose proof (Z.div_mod (55 - Z.of_nat n) 64 ltac:(lia)) as E.
  remember ((55 - Z.of_nat n) mod 64) as r eqn:Er. remember ((55 - Z.of_nat n) / 64) as q eqn:Eq.
  exists (Z.to_nat (1 - q)). lia.
Qed.
Lemma tl_mod n n' : (exists k, n' = (n + k * 64)%nat) -> length (tl n) = length (tl n').
Proof.
  intros [k ->]. unfold tl. cbn [length]. rewrite !app_length, !repeat_length, !lb_len. do 3 f_equal.
  replace (55 - Z.of_nat n) with (55 - Z.of_nat (n + k * 64) + Z.of_nat k * 64) by lia. rewrite Z_mod_plus_full. reflexivity.
Qed.

Lemma mdh_extend m x : mdh (m ++ tl (length m) ++ x) = fold_left blk (blocks (x ++ tl (length (m ++ tl (length m) ++ x)))) (mdh m).
Proof.
  unfold mdh. rewrite (mdpad_tl (m ++ _)), (mdpad_tl m).
  destruct (tl_length (length m)) as [k Hk].
  destruct (tl_length (length (m ++ tl (length m) ++ x))) as [k2 Hk2].
  remember (tl (length (m ++ tl (length m) ++ x))) as T eqn:ET. clear ET. remember (tl (length m)) as t1 eqn:E1. clear E1.
  replace ((m ++ t1 ++ x) ++ T) with ((m ++ t1) ++ x ++ T) by (rewrite <- !app_assoc; reflexivity).
  rewrite !app_length in Hk2.
  rewrite (blocks_app k (m ++ t1) (k2 - k)) by (rewrite app_length; lia).
  apply fold_left_app.
Qed.

(** A common continuation keeps two whole-block strings with one chaining value together. *)
Lemma mdh_common k w w' x : length w = (k * 64)%nat -> length w' = (k * 64)%nat ->
  fold_left blk (blocks w) init = fold_left blk (blocks w') init -> mdh (w ++ x) = mdh (w' ++ x).
Proof.
  intros Hw Hw' E. unfold mdh. rewrite !mdpad_tl, <- !app_assoc.
  replace (length (w' ++ x)) with (length (w ++ x)) by (rewrite !app_length; lia).
  destruct (tl_length (length (w ++ x))) as [k2 Hk2].
  remember (tl (length (w ++ x))) as T eqn:ET. clear ET. rewrite app_length in Hk2.
  assert (Hr : length (x ++ T) = ((k2 - k) * 64)%nat) by (rewrite app_length; lia).
  rewrite (blocks_app k w (k2 - k)), (blocks_app k w' (k2 - k)) by auto.
  rewrite !fold_left_app, E. reflexivity.
Qed.

Lemma mdpad_bytes m : is_bytes m -> is_bytes (mdpad m).
Proof.
  intros H. rewrite mdpad_tl. apply app_ok; [exact H|]. unfold tl. constructor; [unfold is_u8; lia|].
  apply app_ok; [|apply lb_bytes]. apply Forall_forall. intros y Hy. apply elem_of_list_In, repeat_spec in Hy. subst. unfold is_u8. lia.
Qed.
Lemma mdpad_inj m m' : Z.of_nat (length m) < 2 ^ 61 -> Z.of_nat (length m') < 2 ^ 61 -> mdpad m = mdpad m' -> m = m'.
Proof.
  intros H H' E. rewrite !mdpad_tl in E.
  assert (El : length m = length m').
  { assert (E2 : lb (8 * Z.of_nat (length m)) = lb (8 * Z.of_nat (length m'))).
    { unfold tl in E. rewrite !app_comm_cons, !app_assoc in E. apply app_inj_2 in E; [exact (proj2 E)|]. rewrite !lb_len. reflexivity. }
    apply lb_inj in E2; lia. }
  apply app_inj_1 in E; [tauto|exact El].
Qed.
(** The last block ends with the length. *)
Lemma mdpad_last m : exists k, length (mdpad m) = (S k * 64)%nat /\
  blocks (mdpad m) = blocks (firstn (k * 64) (mdpad m)) ++ [skipn (k * 64) (mdpad m)] /\
  skipn 56 (skipn (k * 64) (mdpad m)) = lb (8 * Z.of_nat (length m)).
Proof.
  destruct (tl_length (length m)) as [k0 Hk]. assert (Hl : length (mdpad m) = (k0 * 64)%nat) by (rewrite mdpad_tl, app_length; exact Hk).
  destruct k0 as [|k]. { unfold tl in Hk. cbn in Hk. lia. }
  exists k. split; [exact Hl|]. split.
  - rewrite <- (firstn_skipn (k * 64) (mdpad m)) at 1.
    assert (H1 : length (firstn (k * 64) (mdpad m)) = (k * 64)%nat) by (rewrite firstn_length; lia).
    assert (H2 : length (skipn (k * 64) (mdpad m)) = (1 * 64)%nat) by (rewrite skipn_length; lia).
    rewrite (blocks_app k _ 1) by auto. f_equal. rewrite (blocks_eq 1 _ H2). cbn [pieces]. rewrite firstn_all2 by lia. reflexivity.
  - rewrite drop_drop.
    replace (k * 64 + 56)%nat with (length (mdpad m) - 8)%nat by lia.
    replace (mdpad m) with ((m ++ 128 :: repeat 0 (Z.to_nat ((55 - Z.of_nat (length m)) mod 64))) ++ lb (8 * Z.of_nat (length m)))
      by (rewrite mdpad_tl; unfold tl; rewrite <- app_assoc; reflexivity).
    rewrite app_length, lb_len, skipn_app, Nat.add_sub, Nat.sub_diag, skipn_all. reflexivity.
Qed.

Lemma fold_inr l : forall s, inr s -> inr (fold_left blk l s).
Proof. induction l; cbn; auto. Qed.

Lemma blocks_each a k : length a = (k * 64)%nat -> is_bytes a -> Forall (fun b => length b = 64%nat /\ is_bytes b) (blocks a).
Proof. intros H Hb. rewrite (blocks_eq k a H). apply pieces_each; auto. Qed.

Lemma mdh_collision m m' : is_bytes m -> is_bytes m' -> Z.of_nat (length m) < 2 ^ 61 -> Z.of_nat (length m') < 2 ^ 61 ->
  m <> m' -> mdh m = mdh m' ->
  exists s b s' b', inr s /\ inr s' /\ is_bytes b /\ is_bytes b' /\ length b = 64%nat /\ length b' = 64%nat /\
    (s, b) <> (s', b') /\ blk s b = blk s' b'.
Proof.
  intros Hb Hb' Hl Hl' Hn E.
  destruct (mdpad_last m) as (k & Hk & Eb & Et), (mdpad_last m') as (k' & Hk' & Eb' & Et').
  pose proof (blocks_each _ _ Hk (mdpad_bytes m Hb)) as F. pose proof (blocks_each _ _ Hk' (mdpad_bytes m' Hb')) as F'.
  destruct (decide (length m = length m')) as [El|El].
  - assert (k = k') as <-.
    { assert (length (mdpad m) = length (mdpad m')); [|lia]. rewrite !mdpad_tl, !app_length, El. reflexivity. }
    destruct (fold_collision blk init (blocks (mdpad m)) (blocks (mdpad m'))) as (p & b & p' & b' & [r Hp] & [r' Hp'] & H1 & H2).
    + rewrite (blocks_eq (S k) _ Hk), (blocks_eq (S k) _ Hk'), !pieces_length. reflexivity.
    + intros E2. apply Hn, mdpad_inj; auto. exact (blocks_inj (S k) _ _ Hk Hk' E2).
    + exact E.
    + rewrite Hp, !Forall_app in F. rewrite Hp', !Forall_app in F'. destruct F as [[_ F] _], F' as [[_ F'] _].
      apply Forall_inv in F, F'. exists (fold_left blk p init), b, (fold_left blk p' init), b'.
      repeat split; try tauto; apply fold_inr; exact init_ok.
  - unfold mdh in E. rewrite Eb, Eb', !fold_left_app in E. cbn [fold_left] in E.
    rewrite Eb, Forall_app in F. rewrite Eb', Forall_app in F'. destruct F as [_ F], F' as [_ F']. apply Forall_inv in F, F'.
    exists (fold_left blk (blocks (firstn (k * 64) (mdpad m))) init), (skipn (k * 64) (mdpad m)),
      (fold_left blk (blocks (firstn (k' * 64) (mdpad m'))) init), (skipn (k' * 64) (mdpad m')).
    split; [apply fold_inr; exact init_ok|]. split; [apply fold_inr; exact init_ok|].
    split; [apply F|]. split; [apply F'|]. split; [apply F|]. split; [apply F'|]. split; [|exact E].
    intros [= _ E2]. rewrite E2 in Et. rewrite Et in Et'. apply lb_inj in Et'; lia.
Qed.
End md.

Definition ok4 (s : Z * Z * Z * Z) : Prop := let '(a, b, c, d) := s in Forall is_u32 [a; b; c; d].
Definition ok5 (s : Z * Z * Z * Z * Z) : Prop := let '(a, b, c, d, e) := s in Forall is_u32 [a; b; c; d; e].
Lemma u32_ok x : is_u32 (u32 x).
Proof. unfold is_u32, u32. apply Z.mod_pos_bound. lia. Qed.
Lemma md5_block_ok s b : ok4 (md5_block s b).
Proof.
  unfold md5_block. destruct s as [[[a0 b0] c0] d0], (fold_left _ _ _) as [[[a1 b1] c1] d1]. repeat constructor; apply u32_ok.
Qed.
Lemma sha1_block_ok s b : ok5 (sha1_block s b).
Proof.
  unfold sha1_block. destruct s as [[[[a0 b0] c0] d0] e0], (fold_left _ _ _) as [[[[a1 b1] c1] d1] e1]. repeat constructor; apply u32_ok.
Qed.
Lemma le_bytes_inj a b : 0 <= a < 2 ^ 64 -> 0 <= b < 2 ^ 64 -> le_bytes 8 a = le_bytes 8 b -> a = b.
Proof.
  intros Ha Hb E. apply (f_equal le_val) in E. rewrite !le_val_bytes in E.
  change (2 ^ (8 * Z.of_nat 8)) with (2 ^ 64) in E. rewrite !Z.mod_small in E by lia. exact E.
Qed.
Lemma be_bytes_inj a b : 0 <= a < 2 ^ 64 -> 0 <= b < 2 ^ 64 -> be_bytes 8 a = be_bytes 8 b -> a = b.
Proof. intros Ha Hb E. apply le_bytes_inj; auto. apply (f_equal (@rev Z)) in E. unfold be_bytes in E. rewrite !rev_involutive in E. exact E. Qed.
Lemma le_word a : is_u32 a -> le_val (le_bytes 4 a) = a.
Proof. intros H. rewrite le_val_bytes. apply Z.mod_small. exact H. Qed.
Lemma be_word a : is_u32 a -> be_val (be_bytes 4 a) = a.
Proof. intros H. rewrite be_val_bytes. apply Z.mod_small. exact H. Qed.

Definition md5_init : Z * Z * Z * Z := (1732584193, 4023233417, 2562383102, 271733878).
Definition sha1_init : Z * Z * Z * Z * Z := (1732584193, 4023233417, 2562383102, 271733878, 3285377520).
Definition out4 (s : Z * Z * Z * Z) : list Z := let '(a, b, c, d) := s in le_bytes 4 a ++ le_bytes 4 b ++ le_bytes 4 c ++ le_bytes 4 d.
Definition out5 (s : Z * Z * Z * Z * Z) : list Z :=
  let '(a, b, c, d, e) := s in be_bytes 4 a ++ be_bytes 4 b ++ be_bytes 4 c ++ be_bytes 4 d ++ be_bytes 4 e.
Lemma md5_out m : md5 m = out4 (mdh md5_block md5_init (le_bytes 8) m).
Proof. reflexivity. Qed.
Lemma sha1_out m : sha1 m = out5 (mdh sha1_block sha1_init (be_bytes 8) m).
Proof. reflexivity. Qed.

Definition word4 (w : list Z -> Z) (d : list Z) (i : nat) : Z := w (firstn 4 (skipn (4 * i) d)).
Lemma word4_0 w x y : length x = 4%nat -> word4 w (x ++ y) 0 = w x.
Proof. intros H. unfold word4. change (skipn (4 * 0) (x ++ y)) with (x ++ y). rewrite firstn_app, H, Nat.sub_diag. cbn [firstn]. rewrite app_nil_r, firstn_all2 by lia. reflexivity. Qed.
Lemma word4_S w x y i : length x = 4%nat -> word4 w (x ++ y) (S i) = word4 w y i.
Proof.
  intros H. unfold word4. f_equal. f_equal. rewrite skipn_app, H.
  replace (4 * S i - 4)%nat with (4 * i)%nat by lia. rewrite skipn_all2 by lia. reflexivity.
Qed.
Lemma word4_last w x : length x = 4%nat -> word4 w x 0 = w x.
Proof. intros H. unfold word4. change (skipn (4 * 0) x) with x. rewrite firstn_all2 by lia. reflexivity. Qed.
Lemma out4_words s : ok4 s -> let w := word4 le_val (out4 s) in (w 0, w 1, w 2, w 3)%nat = s.
Proof.
  destruct s as [[[a b] c] d]. cbn [ok4]. intros H. rewrite !Forall_cons in H. destruct H as (Ha & Hb & Hc & Hd & _).
  unfold out4. cbv zeta.
  rewrite !word4_S, !word4_0, word4_last, !le_word by (assumption || apply le_bytes_length). reflexivity.
Qed.
Lemma out5_words s : ok5 s -> let w := word4 be_val (out5 s) in (w 0, w 1, w 2, w 3, w 4)%nat = s.
Proof.
  destruct s as [[[[a b] c] d] e]. cbn [ok5]. intros H. rewrite !Forall_cons in H. destruct H as (Ha & Hb & Hc & Hd & He & _).
  unfold out5. cbv zeta.
  rewrite !word4_S, !word4_0, word4_last, !be_word by (assumption || apply be_bytes_length). reflexivity.
Qed.
Lemma out4_inj s s' : ok4 s -> ok4 s' -> out4 s = out4 s' -> s = s'.
Proof. intros H H' E. rewrite <- (out4_words s H), <- (out4_words s' H'), E. reflexivity. Qed.
Lemma out5_inj s s' : ok5 s -> ok5 s' -> out5 s = out5 s' -> s = s'.
Proof. intros H H' E. rewrite <- (out5_words s H), <- (out5_words s' H'), E. reflexivity. Qed.
Lemma md5_init_ok : ok4 md5_init.
Proof. repeat constructor; unfold is_u32; lia. Qed.
Lemma sha1_init_ok : ok5 sha1_init.
Proof. repeat constructor; unfold is_u32; lia. Qed.
Lemma mdh4_ok m : ok4 (mdh md5_block md5_init (le_bytes 8) m).
Proof. apply (fold_inr md5_block ok4 md5_block_ok), md5_init_ok. Qed.
Lemma mdh5_ok m : ok5 (mdh sha1_block sha1_init (be_bytes 8) m).
Proof. apply (fold_inr sha1_block ok5 sha1_block_ok), sha1_init_ok. Qed.

Lemma md5_from_out s rest : ok4 s -> md5_from (out4 s) rest = out4 (fold_left md5_block (blocks rest) s).
Proof. intros H. unfold md5_from. pose proof (out4_words s H) as E. unfold word4 in E. cbv zeta in E |- *. rewrite E. reflexivity. Qed.
Lemma sha1_from_out s rest : ok5 s -> sha1_from (out5 s) rest = out5 (fold_left sha1_block (blocks rest) s).
Proof. intros H. unfold sha1_from. pose proof (out5_words s H) as E. unfold word4 in E. cbv zeta in E |- *. rewrite E. reflexivity. Qed.

(** ** BLAKE2b *)
Lemma b2_F_length h b t f : length (b2_F h b t f) = 8%nat.
Proof. unfold b2_F. rewrite map_length, seq_length. reflexivity. Qed.

Lemma u64_ok x : is_u64 (u64 x).
Proof. unfold is_u64, u64. apply Z.mod_pos_bound. lia. Qed.
Lemma lxor_ok a b : is_u64 a -> is_u64 b -> is_u64 (Z.lxor a b).
Proof. intros Ha Hb. apply lxor_lt; auto. lia. Qed.
Lemma ins_ok i x v : is_u64 x -> Forall is_u64 v -> Forall is_u64 (<[i := x]> v).
Proof. intros Hx Hv. apply Forall_insert; auto. Qed.
Lemma nth_ok i v : Forall is_u64 v -> is_u64 (nth i v 0).
Proof. intros H. revert i. induction H as [|x v Hx Hv IH]; intros [|i]; cbn [nth]; auto; unfold is_u64; lia. Qed.
Lemma b2_G_ok v abcd x y : Forall is_u64 v -> Forall is_u64 (b2_G v abcd x y).
Proof.
  intros H. destruct abcd as [[[a b] c] d]. unfold b2_G. cbv zeta. unfold rotr64.
  do 8 (apply ins_ok; [apply u64_ok|]). exact H.
Qed.
Lemma fold_keeps {A B} (P : A -> Prop) (f : A -> B -> A) l : (forall a b, P a -> P (f a b)) -> forall a, P a -> P (fold_left f l a).
Proof. intros H. induction l as [|b l IH]; intros a Ha; cbn [fold_left]; [exact Ha|]. apply IH, H, Ha. Qed.
Lemma b2_round_ok m v i : Forall is_u64 v -> Forall is_u64 (b2_round m v i).
Proof.
  intros H. unfold b2_round. cbv zeta.
  apply (fold_keeps (Forall is_u64)); [|exact H]. intros a b Ha. apply b2_G_ok, Ha.
Qed.
Lemma b2_rounds_ok m l v : Forall is_u64 v -> Forall is_u64 (fold_left (b2_round m) l v).
Proof. apply (fold_keeps (Forall is_u64)). intros a b. apply b2_round_ok. Qed.
Lemma b2_iv_ok : Forall is_u64 b2_iv.
Proof. repeat constructor; unfold is_u64; lia. Qed.
Lemma b2_F_ok h b t f : Forall is_u64 h -> Forall is_u64 (b2_F h b t f).
Proof.
  intros Hh. unfold b2_F. cbv zeta. apply Forall_map, Forall_true. intros i.
  apply lxor_ok; [apply nth_ok, Hh|]. apply lxor_ok; apply nth_ok, b2_rounds_ok.
  all: assert (H0 : Forall is_u64 (h ++ b2_iv)) by (apply Forall_app; split; [exact Hh|apply b2_iv_ok]).
  all: assert (H1 : Forall is_u64 (<[12%nat:=Z.lxor (nth 12 (h ++ b2_iv) 0) (u64 t)]> (h ++ b2_iv)))
         by (apply ins_ok; [apply lxor_ok; [apply nth_ok, H0|apply u64_ok]|exact H0]).
  all: set (v1 := <[12%nat := _]> _) in *; clearbody v1.
  all: assert (H2 : Forall is_u64 (<[13%nat:=Z.lxor (nth 13 v1 0) (u64 (Z.shiftr t 64))]> v1))
         by (apply ins_ok; [apply lxor_ok; [apply nth_ok, H1|apply u64_ok]|exact H1]).
  all: set (v2 := <[13%nat := _]> _) in *; clearbody v2.
  all: destruct f; [|exact H2].
  all: apply ins_ok; [apply lxor_ok; [apply nth_ok, H2|unfold is_u64; lia]|exact H2].
Qed.
Lemma b2_init_ok : length b2_init = 8%nat /\ Forall is_u64 b2_init.
Proof. split; [reflexivity|]. unfold b2_init. apply ins_ok; [|apply b2_iv_ok]. apply lxor_ok; unfold is_u64; cbn; lia. Qed.

Lemma b2_zeros_inj m m' : length m = length m' -> m ++ repeat 0 (128 - length m) = m' ++ repeat 0 (128 - length m') -> m = m'.
Proof. intros El E. apply app_inj_1 in E; tauto. Qed.

Lemma zeros_bytes n : is_bytes (repeat 0 n).
Proof. apply Forall_forall. intros y Hy. apply elem_of_list_In, repeat_spec in Hy. subst. unfold is_u8. lia. Qed.

Local Opaque b2_F.
(** Same length: the difference is in the same step. *)
Lemma b2_same fuel : forall h h' t m m', length h = 8%nat -> length h' = 8%nat -> Forall is_u64 h -> Forall is_u64 h' -> (length m < fuel)%nat -> length m = length m' -> is_bytes m -> is_bytes m' ->
  0 <= t -> t + Z.of_nat (length m) < 2 ^ 63 ->
  (h, m) <> (h', m') -> firstn 4 (b2_loop fuel h t m) = firstn 4 (b2_loop fuel h' t m') -> blake2b_compression_collision.
Proof.
  induction fuel as [|fuel IH]; intros h h' t m m' Hh Hh' Gh Gh' Hf El Hm Hm' Ht Hb Hn E; [lia|].
  cbn [b2_loop] in E. rewrite <- El in E. destruct (Nat.leb_spec (length m) 128) as [Hs|Hs].
  - exists h, (m ++ repeat 0 (128 - length m)), (t + Z.of_nat (length m)), true, h', (m' ++ repeat 0 (128 - length m)), (t + Z.of_nat (length m)), true. split; [exact Hh|]. split; [exact Hh'|]. split; [exact Gh|]. split; [exact Gh'|].
    split; [apply app_ok; [exact Hm|apply zeros_bytes]|]. split; [apply app_ok; [exact Hm'|apply zeros_bytes]|].
    split; [rewrite app_length, repeat_length; lia|]. split; [rewrite app_length, repeat_length; lia|].
    split; [split; [|exact Hb]; lia|]. split; [split; [|exact Hb]; lia|]. split; [|exact E].
    intros [= Eh Eb]. apply Hn. f_equal; [exact Eh|]. apply app_inj_1 in Eb; [tauto|exact El].
  - destruct (decide ((b2_F h (firstn 128 m) (t + 128) false, skipn 128 m) = (b2_F h' (firstn 128 m') (t + 128) false, skipn 128 m'))) as [E0|Hd].
    + apply pair_equal_spec in E0. destruct E0 as [E1 E2]. exists h, (firstn 128 m), (t + 128), false, h', (firstn 128 m'), (t + 128), false. split; [exact Hh|]. split; [exact Hh'|]. split; [exact Gh|]. split; [exact Gh'|].
      split; [apply take_ok; exact Hm|]. split; [apply take_ok; exact Hm'|].
      split; [rewrite firstn_length; lia|]. split; [rewrite firstn_length; lia|].
      split; [|split; [|split; [|f_equal; exact E1]]]; [split; lia|split; lia|].
      intros [= Eh Eb]. apply Hn. rewrite Eh, <- (firstn_skipn 128 m), <- (firstn_skipn 128 m'), Eb, E2. reflexivity.
    + eapply (IH _ _ (t + 128) _ _); [apply b2_F_length|apply b2_F_length|apply b2_F_ok, Gh|apply b2_F_ok, Gh'| | | | | | |exact Hd|exact E];
        rewrite ?skipn_length; try lia; apply drop_ok; assumption.
Qed.
(** The last call of the compression function. *)
Lemma b2_last fuel : forall h t m, length h = 8%nat -> Forall is_u64 h -> (length m < fuel)%nat -> is_bytes m -> 0 <= t ->
  exists h1 b1, length h1 = 8%nat /\ Forall is_u64 h1 /\ length b1 = 128%nat /\ is_bytes b1 /\
    b2_loop fuel h t m = b2_F h1 b1 (t + Z.of_nat (length m)) true.
Proof.
  induction fuel as [|fuel IH]; intros h t m Hh Gh Hf Hm Ht; [lia|]. cbn [b2_loop].
  destruct (Nat.leb_spec (length m) 128) as [Hs|Hs].
  - eexists h, _. split; [exact Hh|]. split; [exact Gh|]. split; [|split; [|reflexivity]]; [rewrite app_length, repeat_length; lia|].
    apply app_ok; [exact Hm|apply zeros_bytes].
  - destruct (IH (b2_F h (firstn 128 m) (t + 128) false) (t + 128) (skipn 128 m)) as (h1 & b1 & H1 & G1 & H2 & H3 & E);
      [apply b2_F_length|apply b2_F_ok, Gh|rewrite skipn_length; lia|apply drop_ok; exact Hm|lia|].
    exists h1, b1. split; [exact H1|]. split; [exact G1|]. split; [exact H2|]. split; [exact H3|].
    replace (t + 128 + Z.of_nat (length (skipn 128 m))) with (t + Z.of_nat (length m)) in E by (rewrite skipn_length; lia). exact E.
Qed.
Lemma b2_loop_length fuel : forall h t m, length h = 8%nat -> length (b2_loop fuel h t m) = 8%nat.
Proof.
  induction fuel as [|fuel IH]; intros h t m Hh; cbn [b2_loop]; [exact Hh|].
  destruct (_ <=? _)%nat; [apply b2_F_length|]. apply IH, b2_F_length.
Qed.
Lemma b2_loop_ok fuel : forall h t m, Forall is_u64 h -> Forall is_u64 (b2_loop fuel h t m).
Proof.
  induction fuel as [|fuel IH]; intros h t m Hh; cbn [b2_loop]; [exact Hh|].
  destruct (_ <=? _)%nat; [apply b2_F_ok, Hh|]. apply IH, b2_F_ok, Hh.
Qed.
Lemma flat_le_inj : forall l l', Forall is_u64 l -> Forall is_u64 l' -> length l = length l' ->
  flat_map (le_bytes 8) l = flat_map (le_bytes 8) l' -> l = l'.
Proof.
  induction l as [|x l IH]; intros [|x' l'] H H' El E; try discriminate; [reflexivity|].
  cbn [flat_map] in E. apply app_inj_1 in E; [|rewrite !le_bytes_length; reflexivity]. destruct E as [E1 E2].
  apply Forall_cons in H, H'. destruct H as [H1 H2], H' as [H1' H2'].
  f_equal; [apply le_bytes_inj; assumption|]. apply IH; auto.
Qed.
