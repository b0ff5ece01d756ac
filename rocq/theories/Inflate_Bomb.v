(** A stream of n bytes for 1032 n zeros (C138). *)
From stdpp Require Import list.
From Coq Require Import ZArith Lia Bool.
From Verif Require Import GoInt Hash_Model Crc_Model Compress_Model Compress_Proofs Inflate_Model Inflate_Spec Inflate_Huff Inflate_Proofs Inflate_Stream Inflate_More.
Local Open Scope Z_scope.

(** One last block with a code of its own: 285 (a repetition of 258 bytes) is 0, the byte 0 is 10, the end is 11, the distance 1 is 0; then the byte 0 and two repetitions. *)
Definition bomb_head : list Z := [237; 224; 129; 0; 0; 0; 0; 128; 32; 236; 79; 189; 72; 5].
Definition bomb (n : nat) : list Z := bomb_head ++ repeat 0 n ++ [3].
Definition bomb_lit : huff := Huff 2 2 [(2%nat, 2, 0%nat); (2%nat, 3, 256%nat); (1%nat, 0, 285%nat)].
Definition bomb_dist : huff := Huff 1 1 [(1%nat, 0, 0%nat)].
Lemma bomb_tables : exists b, getbits 3 (bits bomb_head) = Got 5 b /\ readHuffman b = Got (bomb_lit, bomb_dist) ([true; false] ++ repeat false 4).
Proof. eexists. split; vm_compute; reflexivity. Qed.
Lemma nth_repeat_0 n i : nth i (repeat 0 n) 0 = 0.
Proof. revert i. induction n; intros [|i]; cbn; auto. Qed.
Lemma repeat_snoc k : repeat 0 k ++ [0] = repeat 0 (S k).
Proof. induction k; cbn in *; congruence. Qed.
Lemma copy_zeros n : forall k, copy_back n 1 (repeat 0 k) = repeat 0 (k + n).
Proof.
  induction n as [|n IH]; intros k; cbn [copy_back]; [rewrite Nat.add_0_r; reflexivity|]. rewrite nth_repeat_0, repeat_snoc, IH. f_equal. lia.
Qed.
Lemma bomb_run r : forall j k fuel, (j < fuel)%nat ->
  huffmanBlock fuel bomb_lit (Some bomb_dist) (repeat 0 (S k)) (repeat false (2 * j) ++ true :: true :: r) = End (repeat 0 (S k + 258 * j)) r.
Proof.
  induction j as [|j IH]; intros k fuel Hf; (destruct fuel as [|fuel]; [lia|]).
  - change (repeat false (2 * 0)) with (@nil bool). cbn [app huffmanBlock]. change (huffSym bomb_lit (true :: true :: r)) with (Got 256%nat r). cbn [step]. change (256 <? 256)%nat with false. change (256 =? 256)%nat with true.
    cbn match. f_equal. f_equal. lia.
  - replace (2 * S j)%nat with (S (S (2 * j))) by lia. remember (2 * j)%nat as jj. cbn [repeat app huffmanBlock].
    change (huffSym bomb_lit (false :: false :: repeat false jj ++ true :: true :: r)) with (Got 285%nat (false :: repeat false jj ++ true :: true :: r)). cbn [step].
    change (285 <? 256)%nat with false. change (285 =? 256)%nat with false. cbn match.
    change (read_length 285 (false :: repeat false jj ++ true :: true :: r)) with (Got 258%nat (false :: repeat false jj ++ true :: true :: r)). cbn [step].
    change (read_dist (Some bomb_dist) (false :: repeat false jj ++ true :: true :: r)) with (Got 1%nat (repeat false jj ++ true :: true :: r)). cbn [step].
    match goal with |- (if ?c then _ else _) = _ => replace c with false by (symmetry; cbn [length]; apply Z.ltb_ge || apply Nat.ltb_ge; rewrite ?repeat_length; lia) end.
    change (0 :: repeat 0 k) with (repeat 0 (S k)). rewrite copy_zeros. replace (S k + 258)%nat with (S (k + 258)) by lia. rewrite IH by lia. f_equal. f_equal. lia.
Qed.
Lemma bits_zeros n : bits (repeat 0 n) = repeat false (8 * n).
Proof.
  induction n as [|n IH]; [reflexivity|]. change (repeat 0 (S n)) with ([0] ++ repeat 0 n). rewrite bits_app, IH. replace (8 * S n)%nat with (8 + 8 * n)%nat by lia. rewrite repeat_app. reflexivity.
Qed.
Lemma bomb_flate n : flate (bomb n) = (repeat 0 (517 + 1032 * n), Some []).
Proof.
  unfold flate. rewrite bits_of_bits. unfold bomb. rewrite !bits_app, bits_zeros. change (bits [3]) with [true; true; false; false; false; false; false; false].
  set (m := repeat false (8 * n) ++ [true; true; false; false; false; false; false; false]).
  destruct bomb_tables as (b & G & R). rewrite inflate_S. rewrite (getbits_more _ _ _ _ m G). cbn [step].
  change (5 / 2) with 2. change (5 mod 2 =? 1) with true. unfold body. change (2 =? 0) with false. change (2 =? 1) with false. change (2 =? 2) with true. cbn match.
  pose proof (grows_readHuffman b m) as X. rewrite R in X. destruct X as [X _]. rewrite X. cbn [step fst snd].
  unfold m. rewrite <- app_assoc, (app_assoc (repeat false 4)), <- repeat_app. replace (4 + 8 * n)%nat with (2 * (2 + 4 * n))%nat by lia.
  set (z := repeat false (2 * (2 + 4 * n)) ++ [true; true; false; false; false; false; false; false]).
  assert (Lz : length z = (2 * (2 + 4 * n) + 8)%nat) by (unfold z; rewrite app_length, repeat_length; reflexivity).
  cbn [app huffmanBlock]. change (huffSym bomb_lit (true :: false :: z)) with (Got 0%nat z). cbn [step]. change (0 <? 256)%nat with true. cbn match.
  change ([] ++ [Z.of_nat 0]) with (repeat 0 1). unfold z at 2. rewrite (bomb_run [false; false; false; false; false; false] (2 + 4 * n) 0) by (cbn [length]; lia).
  f_equal; [f_equal; lia|]. f_equal. apply drop_ge. rewrite !app_length. change (length [false; false; false; false; false; false] / 8)%nat with 0%nat. lia.
Qed.
Lemma bomb_bytes n : bytes (bomb n).
Proof.
  unfold bomb. apply Forall_app_2; [unfold bomb_head; repeat constructor; lia|]. apply Forall_app_2; [|repeat constructor; lia]. apply Forall_forall. intros x Hx.
  apply elem_of_list_In, repeat_spec in Hx. subst. lia.
Qed.
Lemma bomb_deflate n : deflate (bomb n) (repeat 0 (517 + 1032 * n)).
Proof. destruct (flate_sound _ _ _ (bomb_bytes n) (bomb_flate n)) as (s & E & D). rewrite app_nil_r in E. subst s. exact D. Qed.
Lemma bomb_length n : length (bomb n) = (n + 15)%nat.
Proof. unfold bomb. rewrite !app_length, repeat_length. cbn. lia. Qed.
