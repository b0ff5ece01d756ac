(** Proofs about AES-256, CBC and keystore/aes.go. *)
From stdpp Require Import list.
From Coq Require Import ZArith Lia Btauto.
From Verif Require Import GoInt GoSlice Hash_Model Aes_Model Aes_Spec.
Local Open Scope Z_scope.

(** ** Facts about all bytes *)
Definition all_bytes : list Z := Z.of_nat <$> seq 0 256.
Lemma all_bytes_in b : is_u8 b -> b ∈ all_bytes.
Proof.
  intros [H1 H2]. change (2 ^ 8) with 256 in H2. unfold all_bytes. apply elem_of_list_fmap. exists (Z.to_nat b). split; [lia|]. apply elem_of_list_In, in_seq. lia.
Qed.
Lemma by_cases (f : Z -> bool) : forallb f all_bytes = true -> forall b, is_u8 b -> f b = true.
Proof. intros H b Hb. rewrite forallb_forall in H. apply H, elem_of_list_In, all_bytes_in, Hb. Qed.
Lemma by_cases2 (f : Z -> Z -> bool) : forallb (fun a => forallb (f a) all_bytes) all_bytes = true -> forall a b, is_u8 a -> is_u8 b -> f a b = true.
Proof. intros H a b Ha Hb. exact (by_cases _ (by_cases (fun a => forallb (f a) all_bytes) H a Ha) b Hb). Qed.
Definition u8b (b : Z) : bool := (0 <=? b) && (b <? 256).
Lemma u8b_spec b : u8b b = true -> is_u8 b.
Proof. unfold u8b, is_u8. rewrite andb_true_iff, Z.leb_le, Z.ltb_lt. change (2 ^ 8) with 256. auto. Qed.
Lemma xtime_u8 b : is_u8 b -> is_u8 (xtime b).
Proof. intros H. apply u8b_spec. revert b H. apply (by_cases (fun b => u8b (xtime b))). vm_compute. reflexivity. Qed.
Lemma xtime_lin a b : is_u8 a -> is_u8 b -> xtime (Z.lxor a b) = Z.lxor (xtime a) (xtime b).
Proof.
  intros Ha Hb. apply Z.eqb_eq. revert a b Ha Hb. apply (by_cases2 (fun a b => xtime (Z.lxor a b) =? Z.lxor (xtime a) (xtime b))). vm_compute. reflexivity.
Qed.
Lemma lxor_u8 a b : is_u8 a -> is_u8 b -> is_u8 (Z.lxor a b).
Proof. intros Ha Hb. apply u8b_spec. revert a b Ha Hb. apply (by_cases2 (fun a b => u8b (Z.lxor a b))). vm_compute. reflexivity. Qed.
Lemma u8_0 : is_u8 0.
Proof. unfold is_u8. lia. Qed.
Ltac xorb_solve := apply Z.bits_inj'; intros ?n ?Hn; rewrite ?Z.lxor_spec, ?Z.bits_0; btauto.
Lemma gmul_lin c a b : is_u8 a -> is_u8 b -> gmul c (Z.lxor a b) = Z.lxor (gmul c a) (gmul c b).
Proof.
  intros Ha Hb. unfold gmul. rewrite !xtime_lin by (repeat apply xtime_u8; assumption).
  destruct (Z.testbit c 0), (Z.testbit c 1), (Z.testbit c 2), (Z.testbit c 3); rewrite ?Z.lxor_0_l, ?Z.lxor_0_r; xorb_solve.
Qed.
Lemma gmul_u8 c b : is_u8 b -> is_u8 (gmul c b).
Proof.
  intros Hb. unfold gmul. repeat (apply lxor_u8); match goal with |- is_u8 (if ?x then _ else _) => destruct x end; repeat apply xtime_u8; auto using u8_0.
Qed.
Lemma sbox_u8 b : is_u8 b -> is_u8 (nth (Z.to_nat b) sbox 0).
Proof. intros H. apply u8b_spec. revert b H. apply (by_cases (fun b => u8b (nth (Z.to_nat b) sbox 0))). vm_compute. reflexivity. Qed.
Lemma inv_sbox_u8 b : is_u8 b -> is_u8 (nth (Z.to_nat b) inv_sbox 0).
Proof. intros H. apply u8b_spec. revert b H. apply (by_cases (fun b => u8b (nth (Z.to_nat b) inv_sbox 0))). vm_compute. reflexivity. Qed.
Lemma sbox_inv b : is_u8 b -> nth (Z.to_nat (nth (Z.to_nat b) sbox 0)) inv_sbox 0 = b.
Proof. intros H. apply Z.eqb_eq. revert b H. apply (by_cases (fun b => nth (Z.to_nat (nth (Z.to_nat b) sbox 0)) inv_sbox 0 =? b)). vm_compute. reflexivity. Qed.

(** ** The steps and their inverses *)
Lemma sub_inv s : is_bytes s -> sub_bytes inv_sbox (sub_bytes sbox s) = s.
Proof. induction 1 as [|b s Hb _ IH]; [reflexivity|]. cbn [sub_bytes fmap list_fmap]. rewrite sbox_inv by exact Hb. f_equal. exact IH. Qed.
Lemma sub_bytes_ok tab s : (forall b, is_u8 b -> is_u8 (nth (Z.to_nat b) tab 0)) -> is_bytes s -> is_bytes (sub_bytes tab s).
Proof. intros Ht. induction 1; cbn; constructor; auto. Qed.
Lemma sub_length tab s : length (sub_bytes tab s) = length s.
Proof. apply fmap_length. Qed.
Lemma nth_u8 s i : is_bytes s -> is_u8 (nth i s 0).
Proof. intros H. destruct (nth_in_or_default i s 0) as [Hin| ->]; [|apply u8_0]. unfold is_bytes in H. rewrite List.Forall_forall in H. exact (H _ Hin). Qed.
Lemma permute_ok p s : is_bytes s -> is_bytes (permute p s).
Proof. intros H. induction p as [|i p IH]; cbn; constructor; [apply nth_u8, H|exact IH]. Qed.
Lemma permute_length p s : length (permute p s) = length p.
Proof. apply fmap_length. Qed.
Ltac sixteen s H := do 16 (destruct s as [|? s]; [discriminate H|]); destruct s; [|discriminate H].
Lemma shift_inv s : length s = 16%nat -> permute inv_shift_rows (permute shift_rows s) = s.
Proof. intros H. sixteen s H. reflexivity. Qed.
Lemma xorl_length a b : length a = length b -> length (xorl a b) = length a.
Proof. intros H. unfold xorl. rewrite zip_with_length, <- H. lia. Qed.
Lemma xorl_ok a b : is_bytes a -> is_bytes b -> is_bytes (xorl a b).
Proof. intros Ha. revert b. induction Ha as [|x a Hx _ IH]; intros b Hb; [constructor|]. destruct Hb as [|y b Hy Hb]; [constructor|]. cbn. constructor; [apply lxor_u8; assumption|apply IH, Hb]. Qed.
Lemma xorl_inv a k : length a = length k -> xorl (xorl a k) k = a.
Proof.
  revert k. induction a as [|x a IH]; intros [|y k] H; try discriminate; [reflexivity|]. cbn. rewrite Z.lxor_assoc, Z.lxor_nilpotent, Z.lxor_0_r. f_equal. apply IH. injection H as H. exact H.
Qed.
Lemma diag b : is_u8 b ->
  Z.lxor (gmul 14 (gmul 2 b)) (Z.lxor (gmul 11 (gmul 1 b)) (Z.lxor (gmul 13 (gmul 1 b)) (gmul 9 (gmul 3 b)))) = b /\
  Z.lxor (gmul 14 (gmul 3 b)) (Z.lxor (gmul 11 (gmul 2 b)) (Z.lxor (gmul 13 (gmul 1 b)) (gmul 9 (gmul 1 b)))) = 0 /\
  Z.lxor (gmul 14 (gmul 1 b)) (Z.lxor (gmul 11 (gmul 3 b)) (Z.lxor (gmul 13 (gmul 2 b)) (gmul 9 (gmul 1 b)))) = 0 /\
  Z.lxor (gmul 14 (gmul 1 b)) (Z.lxor (gmul 11 (gmul 1 b)) (Z.lxor (gmul 13 (gmul 3 b)) (gmul 9 (gmul 2 b)))) = 0.
Proof.
  intros H. set (l4 := fun a b c d => Z.lxor a (Z.lxor b (Z.lxor c d))).
  assert (E : (l4 (gmul 14 (gmul 2 b)) (gmul 11 (gmul 1 b)) (gmul 13 (gmul 1 b)) (gmul 9 (gmul 3 b)) =? b) &&
              ((l4 (gmul 14 (gmul 3 b)) (gmul 11 (gmul 2 b)) (gmul 13 (gmul 1 b)) (gmul 9 (gmul 1 b)) =? 0) &&
              ((l4 (gmul 14 (gmul 1 b)) (gmul 11 (gmul 3 b)) (gmul 13 (gmul 2 b)) (gmul 9 (gmul 1 b)) =? 0) &&
               (l4 (gmul 14 (gmul 1 b)) (gmul 11 (gmul 1 b)) (gmul 13 (gmul 3 b)) (gmul 9 (gmul 2 b)) =? 0))) = true).
  { subst l4. revert b H. apply by_cases. vm_compute. reflexivity. }
  rewrite !andb_true_iff, !Z.eqb_eq in E. exact E.
Qed.
(** The same with the terms rotated. *)
Lemma rot4 a b c d : Z.lxor a (Z.lxor b (Z.lxor c d)) = Z.lxor d (Z.lxor a (Z.lxor b c)).
Proof. xorb_solve. Qed.
Lemma sum16 a1 b1 c1 d1 a2 b2 c2 d2 a3 b3 c3 d3 a4 b4 c4 d4 x :
  Z.lxor a1 (Z.lxor a2 (Z.lxor a3 a4)) = x -> Z.lxor b1 (Z.lxor b2 (Z.lxor b3 b4)) = 0 -> Z.lxor c1 (Z.lxor c2 (Z.lxor c3 c4)) = 0 -> Z.lxor d1 (Z.lxor d2 (Z.lxor d3 d4)) = 0 ->
  Z.lxor (Z.lxor a1 (Z.lxor b1 (Z.lxor c1 d1))) (Z.lxor (Z.lxor a2 (Z.lxor b2 (Z.lxor c2 d2))) (Z.lxor (Z.lxor a3 (Z.lxor b3 (Z.lxor c3 d3))) (Z.lxor a4 (Z.lxor b4 (Z.lxor c4 d4))))) = x.
Proof.
  intros Ha Hb Hc Hd. transitivity (Z.lxor (Z.lxor a1 (Z.lxor a2 (Z.lxor a3 a4))) (Z.lxor (Z.lxor b1 (Z.lxor b2 (Z.lxor b3 b4))) (Z.lxor (Z.lxor c1 (Z.lxor c2 (Z.lxor c3 c4))) (Z.lxor d1 (Z.lxor d2 (Z.lxor d3 d4)))))); [xorb_solve|].
  rewrite Ha, Hb, Hc, Hd, !Z.lxor_0_r. reflexivity.
Qed.
Lemma sum16' a1 b1 c1 d1 a2 b2 c2 d2 a3 b3 c3 d3 a4 b4 c4 d4 xa xb xc xd x :
  Z.lxor a1 (Z.lxor a2 (Z.lxor a3 a4)) = xa -> Z.lxor b1 (Z.lxor b2 (Z.lxor b3 b4)) = xb -> Z.lxor c1 (Z.lxor c2 (Z.lxor c3 c4)) = xc -> Z.lxor d1 (Z.lxor d2 (Z.lxor d3 d4)) = xd ->
  Z.lxor xa (Z.lxor xb (Z.lxor xc xd)) = x ->
  Z.lxor (Z.lxor a1 (Z.lxor b1 (Z.lxor c1 d1))) (Z.lxor (Z.lxor a2 (Z.lxor b2 (Z.lxor c2 d2))) (Z.lxor (Z.lxor a3 (Z.lxor b3 (Z.lxor c3 d3))) (Z.lxor a4 (Z.lxor b4 (Z.lxor c4 d4))))) = x.
Proof.
  intros Ha Hb Hc Hd Hx. transitivity (Z.lxor (Z.lxor a1 (Z.lxor a2 (Z.lxor a3 a4))) (Z.lxor (Z.lxor b1 (Z.lxor b2 (Z.lxor b3 b4))) (Z.lxor (Z.lxor c1 (Z.lxor c2 (Z.lxor c3 c4))) (Z.lxor d1 (Z.lxor d2 (Z.lxor d3 d4)))))); [xorb_solve|].
  rewrite Ha, Hb, Hc, Hd. exact Hx.
Qed.
Lemma mix_inv c : is_bytes c -> length c = 4%nat -> mix_column 14 11 13 9 (mix_column 2 3 1 1 c) = c.
Proof.
  intros Hc Hl. destruct c as [|a [|b [|c [|d [|? ?]]]]]; try discriminate Hl. clear Hl. unfold is_bytes in Hc. rewrite !Forall_cons in Hc. destruct Hc as (Ha & Hb & Hc & Hd & _).
  pose proof (diag a Ha) as (A1 & A2 & A3 & A4). pose proof (diag b Hb) as (B1 & B2 & B3 & B4). pose proof (diag c Hc) as (C1 & C2 & C3 & C4). pose proof (diag d Hd) as (D1 & D2 & D3 & D4).
  unfold mix_column. cbn [nth].
  rewrite !gmul_lin by (repeat match goal with |- is_u8 (Z.lxor _ _) => apply lxor_u8 end; apply gmul_u8; assumption).
  assert (R : forall p q r s x : Z, Z.lxor p (Z.lxor q (Z.lxor r s)) = x -> Z.lxor s (Z.lxor p (Z.lxor q r)) = x) by (intros; rewrite <- rot4; assumption).
  f_equal; [|f_equal; [|f_equal; [|f_equal]]].
  all: eapply sum16'; [first [eassumption|apply R; first [eassumption|apply R; first [eassumption|apply R; eassumption]]]..|].
  all: rewrite ?Z.lxor_0_l, ?Z.lxor_0_r; reflexivity.
Qed.

Lemma mix_column_length m0 m1 m2 m3 c : length (mix_column m0 m1 m2 m3 c) = 4%nat.
Proof. reflexivity. Qed.
Lemma mix_column_ok m0 m1 m2 m3 c : is_bytes c -> is_bytes (mix_column m0 m1 m2 m3 c).
Proof.
  intros H. unfold mix_column. unfold is_bytes. rewrite !Forall_cons. repeat match goal with |- _ /\ _ => split end; try apply Forall_nil_2;
    repeat match goal with |- is_u8 (Z.lxor _ _) => apply lxor_u8 end; apply gmul_u8, nth_u8, H.
Qed.
Lemma take_ok n s : is_bytes s -> is_bytes (take n s).
Proof. intros H. apply Forall_take. exact H. Qed.
Lemma drop_ok n s : is_bytes s -> is_bytes (drop n s).
Proof. intros H. apply Forall_drop. exact H. Qed.
Lemma app_ok a b : is_bytes a -> is_bytes b -> is_bytes (a ++ b).
Proof. intros Ha Hb. apply Forall_app. auto. Qed.
Lemma mix_columns_inv s : is_bytes s -> length s = 16%nat -> mix_columns 14 11 13 9 (mix_columns 2 3 1 1 s) = s.
Proof.
  intros Hs Hl. unfold mix_columns at 1.
  assert (E : mix_columns 2 3 1 1 s = mix_column 2 3 1 1 (take 4 s) ++ mix_column 2 3 1 1 (take 4 (drop 4 s)) ++ mix_column 2 3 1 1 (take 4 (drop 8 s)) ++ mix_column 2 3 1 1 (take 4 (drop 12 s))) by reflexivity.
  remember (mix_column 2 3 1 1 (take 4 s)) as a eqn:Ea. remember (mix_column 2 3 1 1 (take 4 (drop 4 s))) as b eqn:Eb. remember (mix_column 2 3 1 1 (take 4 (drop 8 s))) as c eqn:Ec.
  remember (mix_column 2 3 1 1 (take 4 (drop 12 s))) as d eqn:Ed. rewrite E.
  assert (La : length a = 4%nat) by (subst; reflexivity). assert (Lb : length b = 4%nat) by (subst; reflexivity). assert (Lc : length c = 4%nat) by (subst; reflexivity). assert (Ld : length d = 4%nat) by (subst; reflexivity).
  rewrite (take_app_alt a) by (symmetry; exact La). rewrite (drop_app_alt a) by (symmetry; exact La). rewrite (take_app_alt b) by (symmetry; exact Lb).
  replace (drop 8 (a ++ b ++ c ++ d)) with (c ++ d) by (change 8%nat with (4 + 4)%nat; rewrite <- drop_drop, (drop_app_alt a) by (symmetry; exact La); rewrite (drop_app_alt b) by (symmetry; exact Lb); reflexivity).
  replace (drop 12 (a ++ b ++ c ++ d)) with d by (change 12%nat with (4 + (4 + 4))%nat; rewrite <- !drop_drop, (drop_app_alt a) by (symmetry; exact La); rewrite (drop_app_alt b) by (symmetry; exact Lb); rewrite (drop_app_alt c) by (symmetry; exact Lc); reflexivity).
  rewrite (take_app_alt c) by (symmetry; exact Lc). rewrite (take_ge d) by lia. subst a b c d.
  rewrite !mix_inv by (try (apply take_ok; try apply drop_ok; exact Hs); rewrite take_length, ?drop_length; lia).
  clear - Hl. sixteen s Hl. reflexivity.
Qed.
Lemma mix_columns_length m0 m1 m2 m3 s : length (mix_columns m0 m1 m2 m3 s) = 16%nat.
Proof. reflexivity. Qed.
Lemma mix_columns_ok m0 m1 m2 m3 s : is_bytes s -> is_bytes (mix_columns m0 m1 m2 m3 s).
Proof. intros H. unfold mix_columns. repeat apply app_ok; apply mix_column_ok, take_ok; try apply drop_ok; exact H. Qed.

(** ** The rounds *)
Definition block_ok (s : list Z) : Prop := is_bytes s /\ length s = 16%nat.
Lemma xorl_block a b : block_ok a -> block_ok b -> block_ok (xorl a b).
Proof. intros [H1 H2] [H3 H4]. split; [apply xorl_ok; assumption|]. rewrite xorl_length; congruence. Qed.
Lemma sub_shift_block s : block_ok s -> block_ok (permute shift_rows (sub_bytes sbox s)).
Proof. intros [H1 H2]. split; [apply permute_ok, sub_bytes_ok; [exact sbox_u8|exact H1]|reflexivity]. Qed.
Lemma enc_block ks : forall s, Forall block_ok ks -> block_ok s -> block_ok (enc_rounds ks s).
Proof.
  induction ks as [|k ks IH]; intros s Hk Hs; [exact Hs|]. apply Forall_cons in Hk as [Hk Hks]. destruct ks as [|k2 ks]; cbn [enc_rounds].
  - apply xorl_block; [apply sub_shift_block, Hs|exact Hk].
  - apply IH; [exact Hks|]. apply xorl_block; [|exact Hk]. split; [apply mix_columns_ok, sub_shift_block, Hs|reflexivity].
Qed.
Lemma enc_last k s : enc_rounds [k] s = xorl (permute shift_rows (sub_bytes sbox s)) k.
Proof. reflexivity. Qed.
Lemma enc_more k k2 ks s : enc_rounds (k :: k2 :: ks) s = enc_rounds (k2 :: ks) (xorl (mix_columns 2 3 1 1 (permute shift_rows (sub_bytes sbox s))) k).
Proof. reflexivity. Qed.
Lemma dec_more k k2 ks s : dec_rounds (k :: k2 :: ks) s = sub_bytes inv_sbox (permute inv_shift_rows (mix_columns 14 11 13 9 (xorl (dec_rounds (k2 :: ks) s) k))).
Proof. reflexivity. Qed.
Lemma dec_enc ks : forall s, Forall block_ok ks -> block_ok s -> dec_rounds ks (enc_rounds ks s) = s.
Proof.
  induction ks as [|k ks IH]; intros s Hk Hs; [reflexivity|]. apply Forall_cons in Hk as [Hk Hks]. destruct ks as [|k2 ks].
  - rewrite enc_last. cbn [dec_rounds]. pose proof (sub_shift_block s Hs) as Hb. rewrite xorl_inv by (destruct Hb, Hk; congruence). rewrite shift_inv by (rewrite sub_length; apply Hs). apply sub_inv, Hs.
  - rewrite enc_more, dec_more. pose proof (sub_shift_block s Hs) as Hb.
    assert (Hm : block_ok (mix_columns 2 3 1 1 (permute shift_rows (sub_bytes sbox s)))) by (split; [apply mix_columns_ok, Hb|reflexivity]).
    rewrite IH by (try exact Hks; apply xorl_block; assumption).
    rewrite xorl_inv by (destruct Hm, Hk; congruence). rewrite mix_columns_inv by apply Hb. rewrite shift_inv by (rewrite sub_length; apply Hs). apply sub_inv, Hs.
Qed.

(** ** The key schedule *)
Definition word_ok (w : list Z) : Prop := is_bytes w /\ length w = 4%nat.
Lemma nth_word w i : Forall word_ok w -> (i < length w)%nat -> word_ok (nth i w []).
Proof. intros H Hi. rewrite List.Forall_forall in H. apply H. apply nth_In. exact Hi. Qed.
Lemma xor_word a b : word_ok a -> word_ok b -> word_ok (xorl a b).
Proof. intros [H1 H2] [H3 H4]. split; [apply xorl_ok; assumption|]. rewrite xorl_length; congruence. Qed.
Lemma expand_ok n : forall i rcon w, is_u8 rcon -> Forall word_ok w -> (8 <= length w)%nat -> Forall word_ok (expand n i rcon w) /\ length (expand n i rcon w) = (n + length w)%nat.
Proof.
  induction n as [|n IH]; intros i rcon w Hr Hw Hl; [auto|]. cbn [expand].
  assert (Ht : word_ok (nth 0 w [])) by (apply nth_word; [exact Hw|lia]). assert (Ho : word_ok (nth 7 w [])) by (apply nth_word; [exact Hw|lia]).
  assert (Hsub : forall x, word_ok x -> word_ok (sub_bytes sbox x)) by (intros x [H1 H2]; split; [apply sub_bytes_ok; [exact sbox_u8|exact H1]|rewrite sub_length; exact H2]).
  destruct (i mod 8 =? 0)%nat; [|destruct (i mod 8 =? 4)%nat].
  - edestruct (IH (S i) (xtime rcon) (xorl (nth 7 w []) (xorl (sub_bytes sbox (permute [1; 2; 3; 0]%nat (nth 0 w []))) [rcon; 0; 0; 0]) :: w)) as [H1 H2];
      [apply xtime_u8, Hr| |cbn; lia|split; [exact H1|rewrite H2; cbn; lia]].
    constructor; [|exact Hw]. apply xor_word; [exact Ho|]. apply xor_word; [apply Hsub; split; [apply permute_ok, Ht|reflexivity]|]. split; [|reflexivity].
    unfold is_bytes. rewrite !Forall_cons. pose proof u8_0. pose proof (Forall_nil_2 is_u8). auto.
  - edestruct (IH (S i) rcon (xorl (nth 7 w []) (sub_bytes sbox (nth 0 w [])) :: w)) as [H1 H2]; [exact Hr| |cbn; lia|split; [exact H1|rewrite H2; cbn; lia]].
    constructor; [|exact Hw]. apply xor_word; [exact Ho|]. apply Hsub, Ht.
  - edestruct (IH (S i) rcon (xorl (nth 7 w []) (nth 0 w []) :: w)) as [H1 H2]; [exact Hr| |cbn; lia|split; [exact H1|rewrite H2; cbn; lia]].
    constructor; [|exact Hw]. apply xor_word; assumption.
Qed.
Lemma pieces_ok n k : forall l, is_bytes l -> length l = (n * k)%nat -> Forall (fun p => is_bytes p /\ length p = k) (pieces n k l).
Proof.
  induction n as [|n IH]; intros l Hb Hl; cbn [pieces]; [constructor|]. constructor.
  - split; [apply (take_ok k), Hb|]. rewrite firstn_length. lia.
  - apply IH; [apply (drop_ok k), Hb|]. rewrite skipn_length. lia.
Qed.
Lemma pieces_length n k l : length (pieces n k l) = n.
Proof. revert l. induction n; intros l; cbn; [reflexivity|]. rewrite IHn. reflexivity. Qed.
Lemma concat_words w : Forall word_ok w -> is_bytes (concat w) /\ length (concat w) = (4 * length w)%nat.
Proof.
  induction 1 as [|x w [H1 H2] _ [IH1 IH2]]; cbn [concat]; [split; [constructor|reflexivity]|]. split; [apply app_ok; assumption|]. rewrite app_length, H2, IH2. cbn. lia.
Qed.
Lemma round_keys_ok key : is_bytes key -> length key = 32%nat -> exists k ks, round_keys key = k :: ks /\ block_ok k /\ Forall block_ok ks.
Proof.
  intros Hb Hl. pose proof (pieces_ok 8 4 key Hb Hl) as Hp. assert (Hw : Forall word_ok (rev (pieces 8 4 key))) by (apply Forall_rev; exact Hp).
  destruct (expand_ok 52 8 1 (rev (pieces 8 4 key))) as [He1 He2]; [unfold is_u8; lia|exact Hw|rewrite rev_length, pieces_length; lia|].
  rewrite rev_length, pieces_length in He2. destruct (concat_words (rev (expand 52 8 1 (rev (pieces 8 4 key))))) as [H1 H2]; [apply Forall_rev; exact He1|]. rewrite rev_length, He2 in H2.
  pose proof (pieces_ok 15 16 _ H1 H2) as Hr. unfold round_keys. destruct (pieces 15 16 (concat (rev (expand 52 8 1 (rev (pieces 8 4 key)))))) as [|k ks] eqn:E.
  - apply (f_equal length) in E. rewrite pieces_length in E. discriminate.
  - exists k, ks. apply Forall_cons in Hr as [Hk Hks]. auto.
Qed.
Lemma aes_inv key blk : is_bytes key -> length key = 32%nat -> block_ok blk -> aes_decrypt key (aes_encrypt key blk) = blk /\ block_ok (aes_encrypt key blk).
Proof.
  intros Hk Hl Hb. destruct (round_keys_ok key Hk Hl) as (k & ks & E & H1 & H2). unfold aes_decrypt, aes_encrypt. rewrite E. pose proof (xorl_block _ _ Hb H1) as Hx.
  split; [|apply enc_block; assumption]. rewrite dec_enc by assumption. apply xorl_inv. destruct Hb, H1. congruence.
Qed.

(** ** CBC *)
Lemma cbc_inv key n : forall iv src, is_bytes key -> length key = 32%nat -> block_ok iv -> is_bytes src -> length src = (n * 16)%nat ->
  cbc_decrypt n key iv (cbc_encrypt n key iv src) = src /\ is_bytes (cbc_encrypt n key iv src) /\ length (cbc_encrypt n key iv src) = (n * 16)%nat.
Proof.
  induction n as [|n IH]; intros iv src Hk Hkl Hiv Hs Hl; cbn [cbc_encrypt cbc_decrypt]; [destruct src; [auto|discriminate]|].
  assert (Ht : block_ok (take 16 src)) by (split; [apply take_ok, Hs|rewrite take_length; lia]). pose proof (xorl_block _ _ Ht Hiv) as Hx.
  destruct (aes_inv key _ Hk Hkl Hx) as [Hinv Hc]. set (c := aes_encrypt key (xorl (take 16 src) iv)) in *. destruct Hc as [Hcb Hcl].
  destruct (IH c (drop 16 src) Hk Hkl (conj Hcb Hcl) (drop_ok _ _ Hs) ltac:(rewrite drop_length; lia)) as (H1 & H2 & H3). set (rest := cbc_encrypt n key c (drop 16 src)) in *.
  rewrite (take_app_alt c) by (symmetry; exact Hcl). rewrite (drop_app_alt c) by (symmetry; exact Hcl). rewrite Hinv, H1. split; [|split].
  - rewrite xorl_inv by (destruct Ht, Hiv; congruence). apply take_drop.
  - apply app_ok; assumption.
  - rewrite app_length. lia.
Qed.
Lemma cbc_encrypt_length key n iv src : is_bytes key -> length key = 32%nat -> block_ok iv -> is_bytes src -> length src = (n * 16)%nat -> length (cbc_encrypt n key iv src) = (n * 16)%nat.
Proof. intros. apply cbc_inv; assumption. Qed.

(** ** The digests *)
Lemma u8_is x : is_u8 (u8 x).
Proof. unfold u8, is_u8. apply Z.mod_pos_bound. lia. Qed.
Lemma le_bytes_ok w : forall n, is_bytes (le_bytes w n) /\ length (le_bytes w n) = w.
Proof. induction w as [|w IH]; intros n; cbn [le_bytes]; [split; [constructor|reflexivity]|]. destruct (IH (Z.shiftr n 8)) as [H1 H2]. split; [constructor; [apply u8_is|exact H1]|cbn; lia]. Qed.
Lemma be_bytes_ok w n : is_bytes (be_bytes w n) /\ length (be_bytes w n) = w.
Proof. unfold be_bytes. destruct (le_bytes_ok w n) as [H1 H2]. split; [apply Forall_rev; exact H1|rewrite rev_length; exact H2]. Qed.
Lemma md5_ok m : is_bytes (md5 m) /\ length (md5 m) = 16%nat.
Proof.
  unfold md5. destruct (fold_left md5_block _ _) as [[[a b] c] d]. split; [repeat apply app_ok; apply le_bytes_ok|].
  rewrite !app_length, (proj2 (le_bytes_ok 4 a)), (proj2 (le_bytes_ok 4 b)), (proj2 (le_bytes_ok 4 c)), (proj2 (le_bytes_ok 4 d)). reflexivity.
Qed.
Lemma sha256_fold bs : forall s, length s = 8%nat -> length (fold_left sha256_block bs s) = 8%nat.
Proof.
  induction bs as [|b bs IH]; intros s Hs; [exact Hs|]. cbn [fold_left]. apply IH. unfold sha256_block. rewrite map_length, combine_length, Hs.
  assert (G : forall kws s, length s = 8%nat -> length (fold_left sha256_op kws s) = 8%nat) by (induction kws as [|kw kws IHk]; intros s' Hs'; [exact Hs'|apply IHk; reflexivity]).
  rewrite G by exact Hs. reflexivity.
Qed.
Lemma flat_be l : is_bytes (flat_map (be_bytes 4) l) /\ length (flat_map (be_bytes 4) l) = (4 * length l)%nat.
Proof.
  induction l as [|x l [H1 H2]]; cbn [flat_map]; [split; [constructor|reflexivity]|]. destruct (be_bytes_ok 4 x) as [H3 H4]. split; [apply app_ok; assumption|].
  rewrite app_length, H2, H4. cbn [length]. lia.
Qed.
Lemma sha256_ok m : is_bytes (sha256 m) /\ length (sha256 m) = 32%nat.
Proof. unfold sha256. match goal with |- context [flat_map _ ?l] => destruct (flat_be l) as [H1 H2]; split; [exact H1|]; rewrite H2, sha256_fold by reflexivity end. reflexivity. Qed.
Lemma good_new iv key : good (NewAes iv key).
Proof.
  unfold good, NewAes. cbn [commonKey256 commonIV]. destruct (sha256_ok key) as [H1 H2], (md5_ok iv) as [H3 H4]. exact (conj (conj H2 H1) (conj H4 H3)).
Qed.

(** ** CBC against its definition *)
Lemma dec_length ks s : ks <> [] -> length (dec_rounds ks s) = 16%nat.
Proof. destruct ks as [|k [|k2 ks]]; [congruence| |]; intros _; cbn [dec_rounds]; rewrite sub_length; reflexivity. Qed.
Lemma round_keys_length key : length (round_keys key) = 15%nat.
Proof. apply pieces_length. Qed.
Lemma aes_decrypt_length key b : is_bytes key -> length key = 32%nat -> length (aes_decrypt key b) = 16%nat.
Proof.
  intros Hk Hl. destruct (round_keys_ok key Hk Hl) as (k & ks & E & [H1 H2] & H3). unfold aes_decrypt. rewrite E. pose proof (round_keys_length key) as Hn. rewrite E in Hn.
  assert (Hks : ks <> []) by (destruct ks; [discriminate|congruence]). rewrite xorl_length; rewrite (dec_length ks b Hks); congruence.
Qed.
Lemma blk_S i c r : length c = 16%nat -> blk (S i) (c ++ r) = blk i r.
Proof.
  intros H. unfold blk. replace (16 * S i)%nat with (16 + 16 * i)%nat by lia. rewrite <- drop_drop. rewrite (drop_app_alt c) by (symmetry; exact H). reflexivity.
Qed.
Lemma blk_0 c r : length c = 16%nat -> blk 0 (c ++ r) = c.
Proof. intros H. unfold blk. cbn [Nat.mul]. rewrite drop_0, (take_app_alt c) by (symmetry; exact H). reflexivity. Qed.
Lemma blk_drop i p : blk i (drop 16 p) = blk (S i) p.
Proof. unfold blk. rewrite drop_drop. f_equal. f_equal. lia. Qed.
Lemma cbc_encrypt_spec key n : forall iv p, is_bytes key -> length key = 32%nat -> block_ok iv -> is_bytes p -> length p = (n * 16)%nat -> cbc_encryption key iv p (cbc_encrypt n key iv p).
Proof.
  induction n as [|n IH]; intros iv p Hk Hkl Hiv Hp Hl; cbn [cbc_encrypt].
  { destruct p; [|discriminate]. split; [reflexivity|]. intros i Hi. exfalso. cbn [length] in Hi. lia. }
  assert (Ht : block_ok (take 16 p)) by (split; [apply take_ok, Hp|rewrite take_length; lia]). pose proof (xorl_block _ _ Ht Hiv) as Hx.
  destruct (aes_inv key _ Hk Hkl Hx) as [_ Hc]. set (c := aes_encrypt key (xorl (take 16 p) iv)) in *.
  destruct (IH c (drop 16 p) Hk Hkl Hc (drop_ok _ _ Hp) ltac:(rewrite drop_length; lia)) as [H1 H2]. destruct Hc as [Hcb Hcl]. set (r := cbc_encrypt n key c (drop 16 p)) in *.
  rewrite drop_length in H1, H2. split; [rewrite app_length; lia|]. intros [|i] Hi.
  - rewrite blk_0 by exact Hcl. reflexivity.
  - rewrite blk_S by exact Hcl. rewrite H2 by lia. rewrite blk_drop. destruct i as [|i]; cbn [before]; [rewrite blk_0 by exact Hcl; reflexivity|rewrite blk_S by exact Hcl; reflexivity].
Qed.
Lemma cbc_decrypt_spec key n : forall iv c, is_bytes key -> length key = 32%nat -> length iv = 16%nat -> length c = (n * 16)%nat -> cbc_decryption key iv c (cbc_decrypt n key iv c).
Proof.
  induction n as [|n IH]; intros iv c Hk Hkl Hiv Hl; cbn [cbc_decrypt].
  { destruct c; [|discriminate]. split; [reflexivity|]. intros i Hi. exfalso. cbn [length] in Hi. lia. }
  destruct (IH (take 16 c) (drop 16 c) Hk Hkl ltac:(rewrite take_length; lia) ltac:(rewrite drop_length; lia)) as [H1 H2]. rewrite drop_length in H1, H2.
  set (r := cbc_decrypt n key (take 16 c) (drop 16 c)) in *. pose proof (aes_decrypt_length key (take 16 c) Hk Hkl) as Ha.
  assert (Hx : length (xorl (aes_decrypt key (take 16 c)) iv) = 16%nat) by (rewrite xorl_length; congruence).
  split; [rewrite app_length; lia|]. intros [|i] Hi.
  - rewrite blk_0 by exact Hx. reflexivity.
  - rewrite blk_S by exact Hx. rewrite H2 by lia. rewrite blk_drop. destruct i as [|i]; cbn [before]; [reflexivity|rewrite blk_drop; reflexivity].
Qed.
Lemma cbc_decrypt_ok key n : forall iv c, is_bytes key -> length key = 32%nat -> block_ok iv -> is_bytes c -> length c = (n * 16)%nat -> is_bytes (cbc_decrypt n key iv c).
Proof.
  induction n as [|n IH]; intros iv c Hk Hkl Hiv Hc Hl; cbn [cbc_decrypt]; [constructor|].
  assert (Ht : block_ok (take 16 c)) by (split; [apply take_ok, Hc|rewrite take_length; lia]).
  apply app_ok; [|apply IH; auto; [apply drop_ok, Hc|rewrite drop_length; lia]]. apply xorl_ok; [|apply Hiv].
  destruct (round_keys_ok key Hk Hkl) as (k & ks & E & [H1 H2] & H3). unfold aes_decrypt. rewrite E. apply xorl_ok; [|exact H1].
  clear - H3 Ht. induction ks as [|k1 ks IH]; [apply Ht|]. apply Forall_cons in H3 as [Hk H3]. specialize (IH H3). destruct ks as [|k2 ks].
  - cbn [dec_rounds]. apply sub_bytes_ok; [exact inv_sbox_u8|]. apply permute_ok, xorl_ok; [apply Ht|apply Hk].
  - rewrite dec_more. apply sub_bytes_ok; [exact inv_sbox_u8|]. apply permute_ok, mix_columns_ok, xorl_ok; [exact IH|apply Hk].
Qed.

(** ** The padding *)
Lemma pad_length len : length (pad len) = (16 - len mod 16)%nat.
Proof. apply replicate_length. Qed.
Lemma mod16 n : (n mod 16 < 16)%nat.
Proof. apply Nat.mod_upper_bound. lia. Qed.
Lemma pad_total len : (len + (16 - len mod 16) = (len / 16 + 1) * 16)%nat.
Proof. pose proof (Nat.div_mod_eq len 16). pose proof (mod16 len). lia. Qed.
Lemma pad_spec src : padded_to src (src ++ pad (length src)).
Proof.
  exists (16 - length src mod 16)%nat. pose proof (mod16 (length src)). split; [lia|]. split; [reflexivity|].
  rewrite app_length, pad_length, pad_total, Nat.mod_mul by lia. reflexivity.
Qed.
Lemma pad_ok len : is_bytes (pad len).
Proof. apply Forall_replicate. pose proof (mod16 len). unfold is_u8. lia. Qed.
Lemma padded_to_unique src p p' : padded_to src p -> padded_to src p' -> p = p'.
Proof.
  intros (k & Hk & -> & Hm) (k' & Hk' & -> & Hm'). rewrite app_length, replicate_length in Hm, Hm'.
  pose proof (Nat.div_mod_eq (length src + k) 16). pose proof (Nat.div_mod_eq (length src + k') 16). assert (k = k') as -> by lia. reflexivity.
Qed.

(** ** EncrypterCbc and DecrypterCbc *)
Lemma rd_wr_all h r bs : wf h r -> length bs = slen r -> rd (wr h (sarr r) (soff r) bs) r = bs.
Proof.
  intros (H1 & H2 & H3) Hl. unfold rd. rewrite array_wr by exact H1. unfold over. rewrite drop_app_alt by (rewrite take_length; lia).
  rewrite take_app_alt by congruence. reflexivity.
Qed.
Lemma encrypter_rd a h src g : good a -> wf h src -> is_bytes (rd h src) ->
  let r := EncrypterCbc a h src g in
  let p := rd h src ++ pad (slen src) in
  rd r.1 r.2 = cbc_encrypt (length p / 16) (commonKey256 a) (commonIV a) p /\ wf r.1 r.2 /\ length p = ((slen src / 16 + 1) * 16)%nat /\ is_bytes p /\
  length (rd r.1 r.2) = length p.
Proof.
  intros [[Hk1 Hk2] [Hi1 Hi2]] Hw Hb r p. pose proof (append_rd h src (pad (slen src)) g Hw) as Hr. pose proof (append_wf h src (pad (slen src)) g Hw) as Hwf.
  subst r. unfold EncrypterCbc. destruct (append h src (pad (slen src)) g) as [h1 r] eqn:E. cbn [fst snd] in *. rewrite Hr. fold p.
  assert (Hlp : length p = ((slen src / 16 + 1) * 16)%nat) by (unfold p; rewrite app_length, pad_length, rd_length by exact Hw; apply pad_total).
  assert (Hlr : slen r = length p) by (rewrite <- (rd_length h1 r Hwf), Hr; reflexivity).
  assert (Hbp : is_bytes p) by (apply app_ok; [exact Hb|apply pad_ok]).
  assert (Hlc : length (cbc_encrypt (length p / 16) (commonKey256 a) (commonIV a) p) = length p).
  { assert (Hq : length p = (length p / 16 * 16)%nat) by (rewrite Hlp, Nat.div_mul by lia; reflexivity).
    rewrite cbc_encrypt_length; [symmetry; exact Hq|exact Hk2|exact Hk1|exact (conj Hi2 Hi1)|exact Hbp|exact Hq]. }
  rewrite Hlr. assert (Hrd : rd (wr h1 (sarr r) (soff r) (cbc_encrypt (length p / 16) (commonKey256 a) (commonIV a) p)) r = cbc_encrypt (length p / 16) (commonKey256 a) (commonIV a) p)
    by (apply rd_wr_all; [exact Hwf|congruence]).
  split; [exact Hrd|]. split; [|split; [exact Hlp|split; [exact Hbp|rewrite Hrd; exact Hlc]]]. apply wf_wr; [|exact Hwf]. destruct Hwf as (? & ? & ?). lia.
Qed.
Lemma last_app_replicate (l : list Z) k b : (0 < k)%nat -> last (l ++ replicate k b) = Some b.
Proof. intros H. destruct k as [|k]; [lia|]. rewrite replicate_S_end, app_assoc, last_snoc. reflexivity. Qed.
Lemma decrypter_spec a h bs : good a -> wf h bs ->
  let n := slen bs in
  let p := cbc_decrypt (n / 16) (commonKey256 a) (commonIV a) (rd h bs) in
  ((n mod 16 <> 0)%nat -> DecrypterCbc a h bs = None) /\
  (n = 0%nat -> DecrypterCbc a h bs = None) /\
  ((n mod 16 = 0)%nat -> cbc_decryption (commonKey256 a) (commonIV a) (rd h bs) p /\ (is_bytes (rd h bs) -> is_bytes p) /\
    forall b, last p = Some b -> DecrypterCbc a h bs = if Z.of_nat n <? b then None else Some (h ++ [p], SL (length h) 0 (n - Z.to_nat b) n)).
Proof.
  intros [[Hk1 Hk2] [Hi1 Hi2]] Hw n p. pose proof (rd_length h bs Hw) as Hl. fold n in Hl. unfold DecrypterCbc. rewrite Hl. split; [|split].
  - intros H. destruct (Nat.eqb_spec (n mod 16) 0) as [E|E]; [contradiction|reflexivity].
  - intros H. rewrite H. cbn. rewrite array_new. reflexivity.
  - intros H. rewrite H. cbn [Nat.eqb]. fold p. assert (Hn : length (rd h bs) = (n / 16 * 16)%nat) by (pose proof (Nat.div_mod_eq n 16); lia).
    pose proof (cbc_decrypt_spec (commonKey256 a) (n / 16) (commonIV a) (rd h bs) Hk2 Hk1 Hi1 Hn) as Hs. split; [exact Hs|]. split.
    + intros Hb. apply cbc_decrypt_ok; try assumption. split; assumption.
    + intros b Hlast. pose proof (mk_rd h p 0) as Hrd. destruct (mk h p 0) as [h1 r] eqn:E. cbn [fst snd] in Hrd. rewrite Hrd, Hlast.
      unfold mk in E. cbn [replicate] in E. rewrite app_nil_r, Nat.add_0_r in E. injection E as <- <-. cbn [sarr soff slen scap]. destruct Hs as [Hs _]. fold p in Hs.
      rewrite Hs, Hl. reflexivity.
Qed.
Lemma round_trip a h src g : good a -> wf h src -> is_bytes (rd h src) ->
  let r := EncrypterCbc a h src g in
  exists h2 r2, DecrypterCbc a r.1 r.2 = Some (h2, r2) /\ rd h2 r2 = rd h src /\ length (rd r.1 r.2) = (16 * (slen src / 16 + 1))%nat.
Proof.
  intros Hg Hw Hb r. destruct (encrypter_rd a h src g Hg Hw Hb) as (H1 & H2 & H3 & H4 & H5). fold r in H1, H2, H5. set (p := rd h src ++ pad (slen src)) in *.
  pose proof (rd_length _ _ H2) as Hlr. destruct (decrypter_spec a r.1 r.2 Hg H2) as (_ & _ & Hd).
  assert (Hn : slen r.2 = ((slen src / 16 + 1) * 16)%nat) by congruence. rewrite Hn, Nat.mod_mul, Nat.div_mul in Hd by lia. specialize (Hd eq_refl). destruct Hd as (_ & _ & Hd).
  assert (Hq : (length p / 16 = slen src / 16 + 1)%nat) by (rewrite H3, Nat.div_mul by lia; reflexivity). rewrite Hq in H1. rewrite H1 in Hd.
  destruct Hg as [[Hk1 Hk2] [Hi1 Hi2]].
  destruct (cbc_inv (commonKey256 a) (slen src / 16 + 1) (commonIV a) p Hk2 Hk1 (conj Hi2 Hi1) H4 H3) as [Hinv _]. rewrite Hinv in Hd.
  pose proof (mod16 (slen src)) as Hm. specialize (Hd (Z.of_nat (16 - slen src mod 16))). rewrite Hd by (apply last_app_replicate; lia).
  destruct (Z.ltb_spec (Z.of_nat ((slen src / 16 + 1) * 16)) (Z.of_nat (16 - slen src mod 16))) as [Hlt|_]; [lia|].
  eexists _, _. split; [reflexivity|]. split; [|rewrite H5, H3; lia]. unfold rd at 1. cbn [sarr soff slen]. rewrite array_new, drop_0, Nat2Z.id.
  unfold p. rewrite take_app_alt; [reflexivity|]. rewrite rd_length by exact Hw. pose proof (pad_total (slen src)). lia.
Qed.
