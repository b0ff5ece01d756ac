(** Proofs about the model of compress/compress.go and util/compress.go. *)
From stdpp Require Import list.
From Coq Require Import ZArith Lia.
From Verif Require Import GoInt Hash_Model Compress_Model.
Local Open Scope Z_scope.

Lemma prefix_neq_length {A} (p l : list A) : p `prefix_of` l -> p <> l -> (length p < length l)%nat.
Proof.
  intros [k ->] Hn. destruct k; [rewrite app_nil_r in Hn; congruence|]. rewrite app_length. cbn. lia.
Qed.
Lemma prefix_app_cases {A} (p a b : list A) : p `prefix_of` a ++ b ->
  (exists q, p = a ++ q /\ q `prefix_of` b) \/ (p `prefix_of` a /\ p <> a).
Proof.
  revert p. induction a as [|x a IH]; intros p Hp; cbn in Hp.
  - left. exists p. auto.
  - destruct p as [|y p]. { right. split; [apply prefix_nil|congruence]. }
    pose proof (prefix_cons_inv_1 _ _ _ _ Hp) as ->. apply prefix_cons_inv_2 in Hp.
    destruct (IH p Hp) as [(q & -> & Hq)|[H1 H2]].
    + left. exists q. auto.
    + right. split; [by apply prefix_cons|congruence].
Qed.

Lemma le_val_bytes w n : le_val (le_bytes w n) = n mod 2 ^ (8 * Z.of_nat w).
Proof.
  revert n. induction w as [|w IH]; intros n; cbn [le_bytes le_val].
  - cbn. rewrite Z.mod_1_r. reflexivity.
  - rewrite IH. unfold u8. rewrite Z.shiftr_div_pow2 by lia.
    replace (8 * Z.of_nat (S w)) with (8 + 8 * Z.of_nat w) by lia. rewrite Z.pow_add_r by lia.
    change (2 ^ 8) with 256. rewrite Z.rem_mul_r by lia. reflexivity.
Qed.
Lemma be_val_bytes w n : be_val (be_bytes w n) = n mod 2 ^ (8 * Z.of_nat w).
Proof. unfold be_val, be_bytes. rewrite rev_involutive. apply le_val_bytes. Qed.
Lemma le_bytes_length w n : length (le_bytes w n) = w.
Proof. revert n. induction w; intros n; cbn; auto. Qed.
Lemma be_bytes_length w n : length (be_bytes w n) = w.
Proof. unfold be_bytes. rewrite rev_length. apply le_bytes_length. Qed.

Lemma adler_range x : 0 <= adler x < 2 ^ 32.
Proof.
  unfold adler.
  assert (H : forall l a b, 0 <= a < 65521 -> 0 <= b < 65521 ->
    let r := fold_left (fun '(a, b) y => ((a + y) mod 65521, (b + ((a + y) mod 65521)) mod 65521)) l (a, b) in 0 <= r.1 < 65521 /\ 0 <= r.2 < 65521).
  { induction l as [|y l IH]; intros a b Ha Hb; cbn [fold_left]; [auto|]. apply IH; apply Z.mod_pos_bound; lia. }
  specialize (H x 1 0 ltac:(lia) ltac:(lia)).
  destruct (fold_left _ x (1, 0)) as [a b] eqn:E. cbn in H. change (2 ^ 32) with 4294967296. lia.
Qed.
Lemma adler_ok x : be_val (be_bytes 4 (adler x)) = adler x.
Proof. rewrite be_val_bytes. apply Z.mod_small. apply adler_range. Qed.

Lemma unstore_blocks x : forall fuel acc t, (length x <= fuel)%nat ->
  unstore fuel acc (stored_blocks x ++ t) = unstore (fuel - length x) (acc ++ x) t.
Proof.
  induction x as [|b x IH]; intros fuel acc t Hf.
  - cbn [stored_blocks map concat length app]. rewrite Nat.sub_0_r, app_nil_r. reflexivity.
  - destruct fuel as [|fuel]; [cbn in Hf; lia|].
    change (stored_blocks (b :: x) ++ t) with ([0; 1; 0; 254; 255; b] ++ (stored_blocks x ++ t)).
    cbn [length] in *. replace (S fuel - S (length x))%nat with (fuel - length x)%nat by lia.
    replace (acc ++ b :: x) with ((acc ++ [b]) ++ x) by (rewrite <- app_assoc; reflexivity).
    rewrite <- IH by lia. reflexivity.
Qed.
Lemma unstore_cut x : forall fuel acc t p, p `prefix_of` stored_blocks x ++ t ->
  (exists q, p = stored_blocks x ++ q /\ q `prefix_of` t) \/
  exists d, d `prefix_of` x /\ unstore fuel acc p = (acc ++ d, false).
Proof.
  induction x as [|b x IH]; intros fuel acc t p Hp.
  - left. exists p. auto.
  - change (stored_blocks (b :: x) ++ t) with ([0; 1; 0; 254; 255; b] ++ (stored_blocks x ++ t)) in Hp.
    destruct (prefix_app_cases _ _ _ Hp) as [(q & -> & Hq)|[H1 H2]].
    + destruct (IH (pred fuel) (acc ++ [b]) t q Hq) as [(q' & -> & Hq')|(d & Hd & E)].
      * left. exists q'. split; [reflexivity|exact Hq'].
      * right. destruct fuel as [|fuel].
        -- exists []. split; [apply prefix_nil|]. cbn. rewrite app_nil_r. reflexivity.
        -- exists (b :: d). split; [by apply prefix_cons|].
           replace (acc ++ b :: d) with ((acc ++ [b]) ++ d) by (rewrite <- app_assoc; reflexivity). exact E.
    + right. exists []. split; [apply prefix_nil|]. rewrite app_nil_r.
      pose proof (prefix_neq_length _ _ H1 H2) as Hl. cbn in Hl.
      destruct fuel as [|fuel]; [reflexivity|].
      destruct p as [|y0 [|y1 [|y2 [|y3 [|y4 [|y5 p]]]]]]; cbn in Hl; try lia; try reflexivity.
      destruct H1 as [k H1]. cbn in H1. simplify_eq/=. rewrite app_nil_r. reflexivity.
Qed.
Lemma unstore_end x fuel q : q `prefix_of` zend x -> q <> zend x -> unstore fuel x q = (x, false).
Proof.
  intros Hp Hn. pose proof (prefix_neq_length _ _ Hp Hn) as Hl.
  destruct fuel as [|fuel]; [reflexivity|]. unfold zend in Hp, Hl. rewrite app_length, be_bytes_length in Hl. cbn in Hl.
  destruct (prefix_app_cases _ _ _ Hp) as [(r & -> & Hr)|[H1 H2]].
  - rewrite app_length in Hl. cbn in Hl. change ((x ++ [], (4 <=? length r)%nat && (be_val (firstn 4 r) =? adler (x ++ []))) = (x, false)).
    rewrite app_nil_r. f_equal.
    destruct (4 <=? length r)%nat eqn:E; [apply Nat.leb_le in E; lia|reflexivity].
  - pose proof (prefix_neq_length _ _ H1 H2) as Hl2. cbn in Hl2.
    destruct q as [|y0 [|y1 [|y2 [|y3 [|y4 q]]]]]; cbn in Hl2; try lia; reflexivity.
Qed.
Lemma unstore_zend x fuel : unstore (S fuel) x (zend x) = (x, true).
Proof.
  unfold zend. set (e := be_bytes 4 (adler x)).
  change ((x ++ [], (4 <=? length e)%nat && (be_val (firstn 4 e) =? adler (x ++ []))) = (x, true)). subst e.
  rewrite app_nil_r. f_equal. replace (length (be_bytes 4 (adler x))) with 4%nat by (symmetry; apply be_bytes_length).
  rewrite take_ge by (rewrite be_bytes_length; lia). rewrite adler_ok. cbn. apply Z.eqb_refl.
Qed.
Lemma unstore_sync x fuel t : unstore (S fuel) x (zsync ++ t) = unstore fuel x t.
Proof. cbn. rewrite app_nil_r. reflexivity. Qed.

Lemma data_bytes d ok : data {| chunks := map (fun b => [b]) d; last_chunk := []; eof := ok |} = d.
Proof. unfold data. cbn. rewrite app_nil_r. induction d; cbn; congruence. Qed.
Lemma blocks_length x : (length x <= length (stored_blocks x))%nat.
Proof. induction x as [|b x IH]; cbn; [lia|]. unfold stored_blocks in IH. lia. Qed.

Lemma reader_stored bs : reader stored (zhead ++ bs) =
  let '(d, ok) := unstore (S (length bs)) [] bs in Some {| chunks := map (fun b => [b]) d; last_chunk := []; eof := ok |}.
Proof. reflexivity. Qed.

Lemma stored_cut x t p : (forall fuel q, q `prefix_of` t -> q <> t -> unstore fuel x q = (x, false)) ->
  p `prefix_of` zhead ++ stored_blocks x ++ t -> p <> zhead ++ stored_blocks x ++ t ->
  match reader stored p with None => True | Some r => data r `prefix_of` x /\ eof r = false end.
Proof.
  intros Ht Hp Hn. destruct (prefix_app_cases _ _ _ Hp) as [(q & -> & Hq)|[H1 H2]].
  - rewrite reader_stored.
    destruct (unstore_cut x (S (length q)) [] t q Hq) as [(q' & -> & Hq')|(d & Hd & E)].
    + assert (q' <> t) by congruence.
      rewrite unstore_blocks by (rewrite app_length; pose proof (blocks_length x); lia).
      cbn [app]. rewrite Ht by auto. rewrite data_bytes. cbn. auto.
    + rewrite E. cbn [app]. rewrite data_bytes. cbn. auto.
  - pose proof (prefix_neq_length _ _ H1 H2) as Hl. cbn in Hl.
    destruct p as [|y0 [|y1 p]]; cbn in Hl; try lia; [exact I|].
    destruct H1 as [k H1]. unfold zhead in H1. cbn in H1. simplify_eq/=. exact I.
Qed.
Lemma stored_conforming : conforming stored.
Proof.
  split.
  - intros lv x st _ [-> | ->]; cbn [sink stored]; rewrite reader_stored.
    + rewrite unstore_blocks by (rewrite app_length; pose proof (blocks_length x); lia).
      replace (S (length (stored_blocks x ++ zend x)) - length x)%nat with (S (length (stored_blocks x ++ zend x) - length x))
        by (rewrite app_length; pose proof (blocks_length x); lia).
      cbn [app]. rewrite unstore_zend. eexists. split; [reflexivity|]. rewrite data_bytes. auto.
    + rewrite unstore_blocks by (rewrite app_length; pose proof (blocks_length x); lia).
      replace (S (length (stored_blocks x ++ zsync ++ zend x)) - length x)%nat with (S (S (length (stored_blocks x ++ zsync ++ zend x) - length x - 1)))
        by (rewrite !app_length; pose proof (blocks_length x); cbn; lia).
      change ([] ++ x) with x. rewrite unstore_sync, unstore_zend. eexists. split; [reflexivity|]. rewrite data_bytes. auto.
  - intros lv x st p _ [-> | ->]; cbn [sink stored]; apply stored_cut.
    + intros fuel q H1 H2. apply unstore_end; auto.
    + intros fuel q H1 H2. destruct (prefix_app_cases _ _ _ H1) as [(r & -> & Hr)|[H3 H4]].
      * destruct fuel as [|fuel]; [reflexivity|]. rewrite unstore_sync. apply unstore_end; [exact Hr|]. intros ->. auto.
      * pose proof (prefix_neq_length _ _ H3 H4) as Hl. cbn in Hl. destruct fuel as [|fuel]; [reflexivity|].
        destruct q as [|y0 [|y1 [|y2 [|y3 [|y4 q]]]]]; cbn in Hl; try lia; reflexivity.
  - intros lv x _. cbn [sink stored]; rewrite reader_stored.
    rewrite unstore_blocks by (rewrite app_length; pose proof (blocks_length x); lia).
    replace (S (length (stored_blocks x ++ zsync)) - length x)%nat with (S (length (stored_blocks x ++ zsync) - length x))
      by (rewrite app_length; pose proof (blocks_length x); lia).
    rewrite <- (app_nil_r zsync). change ([] ++ x) with x. rewrite unstore_sync.
    eexists. split; [|split; [exact (data_bytes x false)|reflexivity]].
    destruct (_ - _)%nat; reflexivity.
  - intros lv x _. eexists. split; [reflexivity|]. cbn. split; [apply prefix_nil|]. split; [congruence|reflexivity].
  - intros bs r Hr. cbn in Hr.
    repeat match type of Hr with context[match ?x with _ => _ end] => destruct x eqn:? end; simplify_eq/=.
    apply Forall_forall. intros ch Hc. apply elem_of_list_fmap in Hc as (b0 & -> & _). congruence.
Qed.

Lemma ungzip_loop_all chs : forall acc, Forall (fun ch => ch <> []) chs -> ungzip_loop acc chs = (acc ++ concat chs, true).
Proof.
  induction chs as [|ch chs IH]; intros acc Hf; cbn.
  - rewrite app_nil_r. reflexivity.
  - inversion Hf; subst. destruct ch as [|b ch]; [congruence|]. rewrite IH by auto. rewrite <- app_assoc. reflexivity.
Qed.
