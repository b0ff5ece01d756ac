(** Longer inputs, cut inputs and the size of the output (lemmas for C135-C138). *)
From stdpp Require Import list.
From Coq Require Import ZArith Lia Bool.
From Verif Require Import GoInt Hash_Model Crc_Model Compress_Model Compress_Proofs Inflate_Model Inflate_Spec Inflate_Huff Inflate_Proofs Inflate_Stream.
Local Open Scope Z_scope.

(** ** More bits behind the input *)
Definition grows {A} (f : list bool -> dec A) : Prop := forall b m,
  match f b with
  | Got a r => f (b ++ m) = Got a (r ++ m) /\ (length r <= length b)%nat
  | Corrupt => f (b ++ m) = Corrupt
  | Short => True
  end.
Lemma grows_bind {A B} (f : list bool -> dec A) (g : A -> list bool -> dec B) : grows f -> (forall a, grows (g a)) -> grows (fun b => bind (f b) g).
Proof.
  intros Hf Hg b m. specialize (Hf b m). destruct (f b) as [a r| |]; cbn [bind]; auto.
  - destruct Hf as [-> L]. cbn [bind]. specialize (Hg a r m). destruct (g a r); auto. destruct Hg. split; [assumption|lia].
  - rewrite Hf. reflexivity.
Qed.
Lemma grows_got {A} (a : A) : grows (Got a).
Proof. intros b m. auto. Qed.
Lemma grows_corrupt {A} : grows (fun _ => @Corrupt A).
Proof. intros b m. reflexivity. Qed.
Lemma grows_if {A} (c : bool) (f g : list bool -> dec A) : grows f -> grows g -> grows (fun b => if c then f b else g b).
Proof. destruct c; auto. Qed.
Lemma grows_getbits k : grows (getbits k).
Proof.
  intros b m. destruct (getbits k b) as [v r| |] eqn:E; auto.
  - rewrite (getbits_more _ _ _ _ m E). split; [reflexivity|]. apply getbits_sound in E. destruct E as [-> _]. rewrite app_length. lia.
  - exfalso. exact (getbits_not_corrupt _ _ E).
Qed.
Lemma grows_huffSym h : grows (huffSym h).
Proof. intros b m. pose proof (huffSym_more h b m) as H. destruct (huffSym h b); auto. destruct H. split; [assumption|lia]. Qed.
Lemma grows_read_clens n : forall order cb, grows (read_clens n order cb).
Proof.
  induction n as [|n IH]; intros order cb; [apply grows_got|]. destruct order as [|o order]; [apply grows_got|].
  apply (grows_bind (getbits 3)); [apply grows_getbits|]. intros v. apply IH.
Qed.
Lemma grows_read_lens h n fuel : forall acc, grows (read_lens fuel h n acc).
Proof.
  induction fuel as [|fuel IH]; intros acc; cbn [read_lens].
  - destruct (n <=? length acc)%nat; [apply grows_got|apply grows_corrupt].
  - destruct (n <=? length acc)%nat; [apply grows_got|]. apply (grows_bind (huffSym h)); [apply grows_huffSym|]. intros x.
    destruct (x <? 16)%nat; [apply IH|].
    destruct (if (x =? 16)%nat then (3, 2, List.last acc 0)%nat else if (x =? 17)%nat then (3, 3, 0)%nat else (11, 7, 0)%nat) as [[rep nb] v].
    destruct ((x =? 16)%nat && (length acc =? 0)%nat); [apply grows_corrupt|].
    apply (grows_bind (getbits nb)); [apply grows_getbits|]. intros e. destruct (n <? length acc + (rep + Z.to_nat e))%nat; [apply grows_corrupt|apply IH].
Qed.
Lemma grows_readHuffman : grows readHuffman.
Proof.
  apply (grows_bind (getbits 14)); [apply grows_getbits|]. intros v. cbv zeta. destruct (_ || _); [apply grows_corrupt|].
  apply (grows_bind (read_clens _ _ _)); [apply grows_read_clens|]. intros cb. destruct (huff_init cb) as [h|]; [|apply grows_corrupt].
  apply (grows_bind (read_lens _ _ _ _)); [apply grows_read_lens|]. intros lens.
  destruct (huff_init (firstn _ lens)); [|apply grows_corrupt]. destruct (huff_init (skipn _ lens)); [apply grows_got|apply grows_corrupt].
Qed.
Lemma grows_read_length v : grows (read_length v).
Proof.
  unfold read_length. cbv zeta.
  repeat (apply grows_if; [apply (grows_bind (getbits _)); [apply grows_getbits|intros e; apply grows_got]|]). apply grows_corrupt.
Qed.
Lemma grows_dist_sym hd : grows (dist_sym hd).
Proof. destruct hd as [h|]; [apply grows_huffSym|]. apply (grows_bind (getbits 5)); [apply grows_getbits|]. intros e. apply grows_got. Qed.
Lemma grows_read_dist hd : grows (read_dist hd).
Proof.
  apply (grows_bind (dist_sym hd)); [apply grows_dist_sym|]. intros d. destruct (d <? 4)%nat; [apply grows_got|]. destruct (d <? 30)%nat; [|apply grows_corrupt].
  apply (grows_bind (getbits _)); [apply grows_getbits|]. intros e. apply grows_got.
Qed.

Definition outof (e : ended) : list Z := match e with End o _ => o | Failed _ o => o end.
(** [e'] is how a run ends that ended with [e] on the bits [b], when [m] is added to the input. *)
Definition extends (b m : list bool) (e e' : ended) : Prop :=
  match e with
  | End o r => e' = End o (r ++ m) /\ (length r <= length b)%nat
  | Failed false o => e' = Failed false o
  | Failed true o => o `prefix_of` outof e'
  end.
Lemma copy_back_more n d : forall out, exists r, copy_back n d out = out ++ r /\ length r = n.
Proof.
  induction n as [|n IH]; intros out; [exists []; rewrite app_nil_r; auto|]. cbn [copy_back]. destruct (IH (out ++ [nth (length out - d) out 0])) as (r & -> & L).
  rewrite <- app_assoc. eexists. split; [reflexivity|]. cbn. lia.
Qed.
Lemma huffmanBlock_out hl hd fuel : forall out b, out `prefix_of` outof (huffmanBlock fuel hl hd out b).
Proof.
  induction fuel as [|fuel IH]; intros out b; cbn [huffmanBlock]; [reflexivity|].
  destruct (huffSym hl b) as [v b1| |]; cbn [step outof]; try reflexivity. destruct (v <? 256)%nat.
  - etransitivity; [|apply IH]. apply prefix_app_r. reflexivity.
  - destruct (v =? 256)%nat; [reflexivity|]. destruct (read_length v b1) as [l b2| |]; cbn [step outof]; try reflexivity.
    destruct (read_dist hd b2) as [d b3| |]; cbn [step outof]; try reflexivity. destruct (_ <? _); [reflexivity|].
    etransitivity; [|apply IH]. destruct (copy_back_more l d out) as (r & -> & _). apply prefix_app_r. reflexivity.
Qed.
Lemma step_more {A} (f : list bool -> dec A) (g g' : A -> list bool -> ended) out b m : grows f ->
  (forall a r, out `prefix_of` outof (g' a r)) ->
  (forall a r, f b = Got a r -> extends r m (g a r) (g' a (r ++ m))) ->
  extends b m (step (f b) out g) (step (f (b ++ m)) out g').
Proof.
  intros Gr Po H. specialize (Gr b m). destruct (f b) as [a r| |]; cbn [step].
  - destruct Gr as [-> L]. cbn [step]. specialize (H a r eq_refl). unfold extends in *. destruct (g a r) as [o r'|[] o]; auto. destruct H. split; [assumption|lia].
  - unfold extends. destruct (f (b ++ m)); cbn [step outof]; try reflexivity. apply Po.
  - rewrite Gr. reflexivity.
Qed.
Lemma huffmanBlock_more hl hd m : forall fuel fuel' out b, (length b < fuel)%nat -> (length (b ++ m) < fuel')%nat ->
  extends b m (huffmanBlock fuel hl hd out b) (huffmanBlock fuel' hl hd out (b ++ m)).
Proof.
  induction fuel as [|fuel IH]; intros fuel' out b Hf Hf'; [lia|]. destruct fuel' as [|fuel']; [lia|]. cbn [huffmanBlock]. rewrite app_length in Hf'.
  apply (step_more (huffSym hl)); [apply grows_huffSym| |].
  - intros v r. destruct (v <? 256)%nat; [etransitivity; [|apply huffmanBlock_out]; apply prefix_app_r; reflexivity|]. destruct (v =? 256)%nat; [reflexivity|].
    destruct (read_length v r) as [l b2| |]; cbn [step outof]; try reflexivity.
    destruct (read_dist hd b2) as [d b3| |]; cbn [step outof]; try reflexivity. destruct (_ <? _); [reflexivity|].
    etransitivity; [|apply huffmanBlock_out]. destruct (copy_back_more l d out) as (r' & -> & _). apply prefix_app_r. reflexivity.
  - intros v r E. pose proof (huffSym_more hl b m) as L. rewrite E in L. destruct L as [_ L].
    destruct (v <? 256)%nat; [apply IH; rewrite ?app_length; lia|]. destruct (v =? 256)%nat; [split; [reflexivity|lia]|].
    apply (step_more (read_length v)); [apply grows_read_length| |].
    { intros l b2. destruct (read_dist hd b2) as [d b3| |]; cbn [step outof]; try reflexivity. destruct (_ <? _); [reflexivity|].
      etransitivity; [|apply huffmanBlock_out]. destruct (copy_back_more l d out) as (r' & -> & _). apply prefix_app_r. reflexivity. }
    intros l r2 E2. pose proof (grows_read_length v r m) as L2. rewrite E2 in L2. destruct L2 as [_ L2].
    apply (step_more (read_dist hd)); [apply grows_read_dist| |].
    { intros d b3. destruct (_ <? _); [reflexivity|].
      etransitivity; [|apply huffmanBlock_out]. destruct (copy_back_more l d out) as (r' & -> & _). apply prefix_app_r. reflexivity. }
    intros d r3 E3. pose proof (grows_read_dist hd r2 m) as L3. rewrite E3 in L3. destruct L3 as [_ L3].
    destruct (_ <? _); [reflexivity|]. apply IH; rewrite ?app_length; lia.
Qed.
Lemma getbytes_more m n : forall b l r, getbytes n b = (l, r) ->
  (length l = n -> getbytes n (b ++ m) = (l, r ++ m)) /\ l `prefix_of` (getbytes n (b ++ m)).1.
Proof.
  induction n as [|n IH]; intros b l r; cbn [getbytes].
  - intros [= <- <-]. split; [reflexivity|apply prefix_nil].
  - destruct (getbits_cases 8 b) as [(v & r' & E & -> & Hv)|[-> Hl]].
    + rewrite E. destruct (getbytes n r') as [l' r''] eqn:G. intros [= <- <-]. destruct (IH _ _ _ G) as [A B].
      rewrite (getbits_more _ _ _ _ m E). destruct (getbytes n (r' ++ m)) as [l2 r2]. cbn [fst] in *. split.
      * cbn [length]. intros L. injection (A ltac:(lia)) as -> ->. reflexivity.
      * apply prefix_cons. exact B.
    + intros [= <- <-]. split; [discriminate|apply prefix_nil].
Qed.
Lemma mod8_app (b m : list bool) : (length m mod 8 = 0)%nat -> (length (b ++ m) mod 8 = length b mod 8)%nat.
Proof. intros H. rewrite app_length, Nat.add_mod, H, Nat.add_0_r, Nat.mod_mod by lia. reflexivity. Qed.
Lemma dataBlock_out out b : out `prefix_of` outof (dataBlock out b).
Proof.
  unfold dataBlock. destruct (getbits 32 _) as [v b1| |]; cbn [step outof]; try reflexivity. destruct (negb _); [reflexivity|].
  destruct (getbytes _ b1) as [l r]. destruct (_ <? _)%nat; cbn [outof]; apply prefix_app_r; reflexivity.
Qed.
Lemma dataBlock_more out b m : (length m mod 8 = 0)%nat -> extends b m (dataBlock out b) (dataBlock out (b ++ m)).
Proof.
  intros Hm. unfold dataBlock. rewrite mod8_app by exact Hm. set (k := (length b mod 8)%nat).
  assert (Kb : (k <= length b)%nat) by (apply Nat.mod_le; lia).
  rewrite (skipn_app k b m). replace (k - length b)%nat with 0%nat by lia. rewrite drop_0.
  enough (E : extends (skipn k b) m (step (getbits 32 (skipn k b)) out (fun v b0 => if negb (v / 65536 =? 65535 - v mod 65536) then Failed false out
     else let '(l, r) := getbytes (Z.to_nat (v mod 65536)) b0 in if (length l <? Z.to_nat (v mod 65536))%nat then Failed true (out ++ l) else End (out ++ l) r))
     (step (getbits 32 (skipn k b ++ m)) out (fun v b0 => if negb (v / 65536 =? 65535 - v mod 65536) then Failed false out
     else let '(l, r) := getbytes (Z.to_nat (v mod 65536)) b0 in if (length l <? Z.to_nat (v mod 65536))%nat then Failed true (out ++ l) else End (out ++ l) r))).
  { unfold extends in *. destruct (step (getbits 32 (skipn k b)) out _) as [o r|[] o]; auto. destruct E as [E L]. split; [exact E|]. rewrite skipn_length in L. lia. }
  apply (step_more (getbits 32)); [apply grows_getbits| |].
  - intros v r. destruct (negb _); [reflexivity|]. destruct (getbytes _ r) as [l r']. destruct (_ <? _)%nat; cbn [outof]; apply prefix_app_r; reflexivity.
  - intros v r _. destruct (negb _); [reflexivity|]. destruct (getbytes (Z.to_nat (v mod 65536)) r) as [l r'] eqn:G.
    destruct (getbytes_more m _ _ _ _ G) as [A B]. apply getbytes_sound in G. destruct G as (-> & _ & Ln & _).
    destruct (Nat.ltb_spec (length l) (Z.to_nat (v mod 65536))) as [L|L].
    + destruct (getbytes _ ((bits l ++ r') ++ m)) as [l2 r2]. cbn [fst] in B. unfold extends. destruct (_ <? _)%nat; cbn [outof]; apply prefix_app; exact B.
    + rewrite A by lia. destruct (Nat.ltb_spec (length l) (Z.to_nat (v mod 65536))); [lia|]. split; [reflexivity|]. rewrite app_length. lia.
Qed.
Lemma body_out typ out b : out `prefix_of` outof (body typ out b).
Proof.
  unfold body. destruct (typ =? 0); [apply dataBlock_out|]. destruct (typ =? 1); [apply huffmanBlock_out|]. destruct (typ =? 2); [|reflexivity].
  destruct (readHuffman b) as [hh b1| |]; cbn [step outof]; try reflexivity. apply huffmanBlock_out.
Qed.
Lemma body_more typ out b m : (length m mod 8 = 0)%nat -> extends b m (body typ out b) (body typ out (b ++ m)).
Proof.
  intros Hm. unfold body. destruct (typ =? 0); [apply dataBlock_more; exact Hm|]. destruct (typ =? 1); [apply huffmanBlock_more; lia|].
  destruct (typ =? 2); [|reflexivity]. apply (step_more readHuffman); [apply grows_readHuffman| |].
  - intros hh r. apply huffmanBlock_out.
  - intros hh r _. apply huffmanBlock_more; lia.
Qed.
Lemma inflate_out fuel : forall out b, out `prefix_of` outof (inflate fuel out b).
Proof.
  induction fuel as [|fuel IH]; intros out b; [reflexivity|]. rewrite inflate_S. destruct (getbits 3 b) as [v b1| |]; cbn [step outof]; try reflexivity.
  pose proof (body_out (v / 2) out b1) as H. destruct (body (v / 2) out b1) as [o r|s o]; cbn [outof] in *; [|exact H].
  destruct (v mod 2 =? 1); [exact H|]. etransitivity; [exact H|apply IH].
Qed.
Lemma inflate_more m : (length m mod 8 = 0)%nat -> forall fuel fuel' out b, (length b < fuel)%nat -> (length (b ++ m) < fuel')%nat ->
  extends b m (inflate fuel out b) (inflate fuel' out (b ++ m)).
Proof.
  intros Hm. induction fuel as [|fuel IH]; intros fuel' out b Hf Hf'; [lia|]. destruct fuel' as [|fuel']; [lia|]. rewrite !inflate_S. rewrite app_length in Hf'.
  apply (step_more (getbits 3)); [apply grows_getbits| |].
  - intros v r. pose proof (body_out (v / 2) out r) as H. destruct (body (v / 2) out r) as [o r'|s o]; cbn [outof] in *; [|exact H].
    destruct (v mod 2 =? 1); [exact H|]. etransitivity; [exact H|apply inflate_out].
  - intros v r E. apply getbits_sound in E. destruct E as [-> _]. rewrite app_length, num_length in *.
    pose proof (body_more (v / 2) out r m Hm) as H. destruct (body (v / 2) out r) as [o r'|[] o]; cbn [extends] in H.
    + destruct H as [-> L]. destruct (v mod 2 =? 1); [split; [reflexivity|exact L]|].
      pose proof (IH fuel' o r' ltac:(lia) ltac:(rewrite app_length; lia)) as X. unfold extends in *. destruct (inflate fuel o r') as [o' r''|[] o']; auto. destruct X. split; [assumption|lia].
    + unfold extends. destruct (body (v / 2) out (r ++ m)) as [o' r'|s o']; cbn [outof] in *; [|exact H].
      destruct (v mod 2 =? 1); [exact H|]. etransitivity; [exact H|apply inflate_out].
    + rewrite H. reflexivity.
Qed.
Lemma bits_mod8 bs : (length (bits bs) mod 8 = 0)%nat.
Proof. rewrite bits_length, Nat.mul_comm. apply Nat.mod_mul. lia. Qed.
Lemma flate_more bs t :
  match flate bs with
  | (o, Some tail) => flate (bs ++ t) = (o, Some (tail ++ t))
  | (o, None) => o `prefix_of` (flate (bs ++ t)).1
  end.
Proof.
  unfold flate. rewrite !bits_of_bits, bits_app.
  pose proof (inflate_more (bits t) (bits_mod8 t) (S (length (bits bs))) (S (length (bits bs ++ bits t))) [] (bits bs) ltac:(lia) ltac:(lia)) as H.
  destruct (inflate (S (length (bits bs))) [] (bits bs)) as [o r|s o].
  - destruct H as [-> L]. f_equal. f_equal. rewrite !app_length, !bits_length. rewrite bits_length in L.
    replace ((length r + 8 * length t) / 8)%nat with (length r / 8 + length t)%nat by (rewrite Nat.mul_comm, Nat.div_add by lia; reflexivity).
    assert (length r / 8 <= length bs)%nat by (apply Nat.div_le_upper_bound; lia).
    replace (length bs + length t - (length r / 8 + length t))%nat with (length bs - length r / 8)%nat by lia.
    rewrite (skipn_app (length bs - length r / 8) bs t). replace (length bs - length r / 8 - length bs)%nat with 0%nat by lia. rewrite drop_0. reflexivity.
  - destruct s.
    + cbn [extends] in H. destruct (inflate (S (length (bits bs ++ bits t))) [] (bits bs ++ bits t)); exact H.
    + cbn [extends] in H. rewrite H. reflexivity.
Qed.

(** ** The size of the output *)
Definition small (out : list Z) (b : list bool) (e : ended) : Prop :=
  match e with
  | End o r => (length o + 129 * length r <= length out + 129 * length b)%nat
  | Failed _ o => (length o <= length out + 129 * length b)%nat
  end.
Lemma read_length_258 v b l r : (256 < v)%nat -> read_length v b = Got l r -> (l <= 258)%nat.
Proof. intros Hv H. apply read_length_sound in H; [|exact Hv]. destruct H as (i & base & k & e & _ & N & He & _ & E). apply lengths_pos in N. lia. Qed.
Lemma read_dist_takes hd b d r : read_dist hd b = Got d r -> (length r < length b)%nat.
Proof.
  unfold read_dist. destruct (dist_sym hd b) as [s b1| |] eqn:E; cbn [bind]; try discriminate.
  assert (L : (length b1 < length b)%nat).
  { destruct hd as [h|]; cbn [dist_sym] in E.
    - pose proof (huffSym_more h b []) as H. rewrite E in H. exact (proj2 H).
    - destruct (getbits 5 b) as [v b2| |] eqn:G; cbn [bind] in E; try discriminate. injection E as _ <-. apply getbits_sound in G. destruct G as [-> _].
      rewrite app_length, num_length. lia. }
  destruct (s <? 4)%nat; [intros [= _ <-]; exact L|]. destruct (s <? 30)%nat; [|discriminate].
  destruct (getbits _ b1) as [v b2| |] eqn:G; cbn [bind]; try discriminate. intros [= _ <-]. apply getbits_sound in G. destruct G as [-> _]. rewrite app_length in L. lia.
Qed.
Lemma huffmanBlock_small hl hd fuel : forall out b, small out b (huffmanBlock fuel hl hd out b).
Proof.
  induction fuel as [|fuel IH]; intros out b; cbn [huffmanBlock]; [cbn; lia|].
  pose proof (huffSym_more hl b []) as L. destruct (huffSym hl b) as [v b1| |]; cbn [step small]; try lia. destruct L as [_ L].
  destruct (Nat.ltb_spec v 256).
  - specialize (IH (out ++ [Z.of_nat v]) b1). unfold small in *. rewrite app_length in IH. cbn [length] in IH. destruct (huffmanBlock _ _ _ _ b1); lia.
  - destruct (Nat.eqb_spec v 256); [cbn; lia|]. assert (V : (256 < v)%nat) by lia.
    destruct (read_length v b1) as [l b2| |] eqn:E; cbn [step small]; try lia.
    pose proof (read_length_258 v b1 l b2 V E) as L2. pose proof (grows_read_length v b1 []) as L3. rewrite E in L3. destruct L3 as [_ L3].
    destruct (read_dist hd b2) as [d b3| |] eqn:E2; cbn [step small]; try lia. apply read_dist_takes in E2.
    destruct (_ <? _); [cbn; lia|]. specialize (IH (copy_back l d out) b3). destruct (copy_back_more l d out) as (r & Er & Lr). rewrite Er in *.
    unfold small in *. rewrite app_length in IH. destruct (huffmanBlock _ _ _ _ b3); lia.
Qed.
Lemma dataBlock_small out b : small out b (dataBlock out b).
Proof.
  unfold dataBlock. set (k := (length b mod 8)%nat). pose proof (skipn_length k b) as K.
  destruct (getbits 32 (skipn k b)) as [v b1| |] eqn:E; cbn [step small]; try lia. apply getbits_sound in E. destruct E as [E _]. rewrite E, app_length in K.
  destruct (negb _); [cbn [small]; lia|]. destruct (getbytes _ b1) as [l r] eqn:G. apply getbytes_sound in G. destruct G as (-> & _).
  rewrite app_length, bits_length in K. destruct (_ <? _)%nat; cbn [small]; rewrite app_length; lia.
Qed.
Lemma body_small typ out b : small out b (body typ out b).
Proof.
  unfold body. destruct (typ =? 0); [apply dataBlock_small|]. destruct (typ =? 1); [apply huffmanBlock_small|]. destruct (typ =? 2); [|cbn [small]; lia].
  pose proof (grows_readHuffman b []) as L. destruct (readHuffman b) as [hh b1| |]; cbn [step small]; try lia. destruct L as [_ L].
  pose proof (huffmanBlock_small (fst hh) (Some (snd hh)) (S (length b1)) out b1) as H. unfold small in *. destruct (huffmanBlock _ _ _ _ _); lia.
Qed.
Lemma inflate_small fuel : forall out b, small out b (inflate fuel out b).
Proof.
  induction fuel as [|fuel IH]; intros out b; [cbn; lia|]. rewrite inflate_S. pose proof (grows_getbits 3 b []) as L.
  destruct (getbits 3 b) as [v b1| |]; cbn [step small]; try lia. destruct L as [_ L].
  pose proof (body_small (v / 2) out b1) as H. destruct (body (v / 2) out b1) as [o r|s o]; cbn [small] in H |- *; [|lia].
  destruct (v mod 2 =? 1); [cbn [small]; lia|]. specialize (IH o r). unfold small in *. destruct (inflate fuel o r); lia.
Qed.
Lemma flate_small bs :
  match flate bs with
  | (o, Some tail) => (length o + 1032 * length tail <= 1032 * length bs)%nat
  | (o, None) => (length o <= 1032 * length bs)%nat
  end.
Proof.
  unfold flate. rewrite bits_of_bits. pose proof (inflate_small (S (length (bits bs))) [] (bits bs)) as H.
  destruct (inflate _ _ _) as [o r|s o]; cbn [small] in H; rewrite bits_length in H; cbn [length] in H; [|lia].
  rewrite skipn_length. pose proof (Nat.div_mod (length r) 8). lia.
Qed.

(** ** Streams that are cut *)
Lemma prefix_bytes p s : p `prefix_of` s -> bytes s -> bytes p.
Proof. intros [q ->] B. apply Forall_app in B. exact (proj1 B). Qed.
Lemma zlib_bytes s x : zlib s x -> bytes s.
Proof.
  intros (h & d & -> & Zh & D). apply Forall_app_2; [exact (zheader_ok h Zh)|]. apply Forall_app_2; [exact (proj1 D)|].
  rewrite big_be. unfold be_bytes. apply bytes_rev. rewrite <- crc_le_bytes. apply le_bytes_bytes.
Qed.
Lemma zlib_cut s x p : zlib s x -> p `prefix_of` s -> p <> s -> match zlib_read p with None => True | Some (d, e) => d `prefix_of` x /\ e = false end.
Proof.
  intros Z Hp Hn. pose proof (zlib_bytes s x Z) as B. pose proof (prefix_bytes p s Hp B) as Bp. destruct Z as (h & d & E & Zh & D). destruct Hp as [q Eq].
  assert (Hq : q <> []) by (intros ->; rewrite app_nil_r in Eq; congruence).
  rewrite zlib_read_split. destruct (zhead_read p) as [rest|] eqn:Hr; [|exact I]. apply zhead_read_iff in Hr; [|exact Bp]. destruct Hr as (h' & Zh' & ->).
  assert (Es : zhead_read s = Some (rest ++ q)). { apply zhead_read_iff; [exact B|]. exists h'. split; [exact Zh'|]. rewrite Eq, <- app_assoc. reflexivity. }
  assert (Ed : zhead_read s = Some (d ++ big 4 (adler32 x))). { apply zhead_read_iff; [exact B|]. exists h. auto. }
  assert (Er : rest ++ q = d ++ big 4 (adler32 x)) by congruence.
  pose proof (flate_more rest q) as M. rewrite Er, (flate_complete d x _ D) in M. unfold ztail_read. destruct (flate rest) as [o [tail|]].
  - assert (Eo : o = x) by congruence. assert (Et : big 4 (adler32 x) = tail ++ q) by congruence. subst o.
    assert (Lt : (length tail < 4)%nat).
    { apply (f_equal length) in Et. rewrite app_length, big_be, be_bytes_length in Et. destruct q; [contradiction|]. cbn [length] in Et. lia. }
    destruct tail as [|a0 [|a1 [|a2 [|a3 t]]]]; cbn [length] in Lt; try lia; split; reflexivity.
  - cbn [fst] in M. split; [exact M|reflexivity].
Qed.
(** Blocks without a last one: the data, and no end. *)
Lemma flate_blocks s w x : bits s `prefix_of` w -> blocks 0 [] w x -> exists d, flate s = (d, None) /\ d `prefix_of` x /\ (bits s = w -> d = x).
Proof.
  intros [m0 Em] B. set (fill := repeat true ((8 - length w mod 8) mod 8)). set (m := m0 ++ fill).
  assert (Lf : ((length w + length fill) mod 8 = 0)%nat /\ (length fill < 8)%nat).
  { unfold fill. rewrite repeat_length. pose proof (Nat.mod_upper_bound (length w) 8 ltac:(lia)). pose proof (Nat.mod_upper_bound (8 - length w mod 8) 8 ltac:(lia)). split; [|lia].
    rewrite Nat.add_mod_idemp_r by lia. rewrite (Nat.div_mod (length w) 8) at 1 by lia.
    replace (8 * (length w / 8) + length w mod 8 + (8 - length w mod 8))%nat with ((length w / 8 + 1) * 8)%nat by lia. apply Nat.mod_mul. lia. }
  assert (Lm : (length m mod 8 = 0)%nat).
  { pose proof (bits_mod8 s) as L0. destruct Lf as [L1 _]. rewrite Em, app_length in L1. unfold m. rewrite app_length.
    rewrite <- Nat.add_assoc, Nat.add_mod, L0 in L1 by lia. cbn [Nat.add] in L1. rewrite Nat.mod_mod in L1 by lia. exact L1. }
  assert (Ew : bits s ++ m = w ++ fill) by (unfold m; rewrite app_assoc, <- Em; reflexivity).
  destruct (blocks_complete 0 [] w x B fill) as (k & Lk & K). { unfold aligned. rewrite app_length. exact (proj1 Lf). }
  assert (R : exists sh, inflate (S (length (w ++ fill))) [] (w ++ fill) = Failed sh x).
  { rewrite app_length in *. replace (S (length w + length fill)) with (k + (S (length w + length fill) - k))%nat by lia. rewrite K.
    destruct (S (length w + length fill) - k)%nat as [|f] eqn:Ef; [lia|]. rewrite inflate_S.
    destruct Lf as [_ Lf]. unfold fill in Lf |- *. rewrite repeat_length in Lf. remember ((8 - length w mod 8) mod 8)%nat as n eqn:En. clear -Lf.
    do 8 (destruct n as [|n]; [eexists; reflexivity|]). lia. }
  destruct R as [sh R].
  pose proof (inflate_more m Lm (S (length (bits s))) (S (length (bits s ++ m))) [] (bits s) ltac:(lia) ltac:(lia)) as H. rewrite Ew, R in H.
  unfold flate. rewrite bits_of_bits.
  destruct (inflate (S (length (bits s))) [] (bits s)) as [o r|sh' o] eqn:I; [destruct H; discriminate|]. exists o. split; [reflexivity|].
  split; [destruct sh'; cbn [extends outof] in H; [exact H|injection H as _ <-; reflexivity]|].
  intros Eb. assert (Ef : fill = []).
  { unfold fill. rewrite <- Eb, bits_mod8. reflexivity. }
  rewrite Ef, app_nil_r, <- Eb, I in R. congruence.
Qed.
Lemma zlib_blocks h s w x : zheader h -> bytes s -> bits s `prefix_of` w -> blocks 0 [] w x ->
  exists d, zlib_read (h ++ s) = Some (d, false) /\ d `prefix_of` x /\ (bits s = w -> d = x).
Proof.
  intros Zh Bs Hp B. rewrite zlib_read_split.
  rewrite (proj2 (zhead_read_iff (h ++ s) s ltac:(apply Forall_app_2; [exact (zheader_ok h Zh)|exact Bs]))) by eauto.
  destruct (flate_blocks s w x Hp B) as (d & F & P & E). unfold ztail_read. rewrite F. exists d. auto.
Qed.
Lemma gzip_blocks h s w x : gheader h -> bytes s -> bits s `prefix_of` w -> blocks 0 [] w x ->
  exists d, gzip_read (h ++ s) = Some (d, false) /\ d `prefix_of` x /\ (bits s = w -> d = x).
Proof.
  intros Gh Bs Hp B. unfold gzip_read.
  rewrite (proj2 (readHeader_iff (h ++ s) s ltac:(apply Forall_app_2; [exact (gheader_bytes h Gh)|exact Bs]))) by eauto.
  destruct (flate_blocks s w x Hp B) as (d & F & P & E). rewrite gunzip_S, F. exists d. auto.
Qed.
(** gzip: what is delivered of a cut file is a prefix of the data. *)
Lemma gunzip_out fuel : forall acc bs, acc `prefix_of` (gunzip fuel acc bs).1.
Proof.
  induction fuel as [|fuel IH]; intros acc bs; [reflexivity|]. rewrite gunzip_S. destruct (flate bs) as [out [tail|]]; [|apply prefix_app_r; reflexivity].
  destruct (_ && _ && _); [|apply prefix_app_r; reflexivity]. destruct (readHeader _) as [r| |]; [|apply prefix_app_r; reflexivity|apply prefix_app_r; reflexivity].
  etransitivity; [|apply IH]. apply prefix_app_r. reflexivity.
Qed.
Lemma gunzip_more q : forall fuel fuel' acc bs, bytes (bs ++ q) -> (fuel <= fuel')%nat -> (gunzip fuel acc bs).1 `prefix_of` (gunzip fuel' acc (bs ++ q)).1.
Proof.
  induction fuel as [|fuel IH]; intros fuel' acc bs B Hf; [apply gunzip_out|]. destruct fuel' as [|fuel']; [lia|]. rewrite !gunzip_S.
  pose proof (flate_more bs q) as M. destruct (flate bs) as [out [tail|]] eqn:F.
  - rewrite M. pose proof (flate_sound _ _ _ B M) as (s & Es & _).
    assert (Bt : bytes (tail ++ q)) by (rewrite Es in B; apply Forall_app in B; exact (proj2 B)).
    destruct (negb (length tail <? 8)%nat && (le_val (firstn 4 tail) =? CRC32 out) && (le_val (firstn 4 (skipn 4 tail)) =? u32 (Z.of_nat (length out)))) eqn:T.
    + assert (L : (8 <= length tail)%nat) by (apply andb_true_iff in T; destruct T as [T _]; apply andb_true_iff in T; destruct T as [T _]; apply negb_true_iff, Nat.ltb_ge in T; exact T).
      replace (firstn 4 (tail ++ q)) with (firstn 4 tail) by (rewrite (take_app_le tail q 4) by lia; reflexivity).
      replace (firstn 4 (skipn 4 (tail ++ q))) with (firstn 4 (skipn 4 tail)) by (rewrite (drop_app_le tail q 4), take_app_le by (rewrite ?drop_length; lia); reflexivity).
      replace (length (tail ++ q) <? 8)%nat with (length tail <? 8)%nat by (rewrite app_length; destruct (Nat.ltb_spec (length tail) 8), (Nat.ltb_spec (length tail + length q) 8); lia || reflexivity).
      rewrite T. replace (skipn 8 (tail ++ q)) with (skipn 8 tail ++ q) by (rewrite (drop_app_le tail q 8) by lia; reflexivity).
      destruct (readHeader (skipn 8 tail)) as [r| |] eqn:R; cbn [fst].
      * assert (Bs : bytes (skipn 8 tail ++ q)) by (apply Forall_app in Bt; apply Forall_app_2; [apply Forall_drop|]; apply Bt).
        apply readHeader_iff in R; [|apply Forall_app in Bs; exact (proj1 Bs)]. destruct R as (h & G & Eh).
        assert (Bh : bytes (h ++ r ++ q)) by (rewrite Eh, <- app_assoc in Bs; exact Bs).
        rewrite (proj2 (readHeader_iff (skipn 8 tail ++ q) (r ++ q) Bs)) by (exists h; rewrite Eh, <- app_assoc; auto).
        apply IH; [apply Forall_app in Bh; exact (proj2 Bh)|lia].
      * destruct (readHeader (skipn 8 tail ++ q)); cbn [fst]; [apply gunzip_out|reflexivity|reflexivity].
      * destruct (readHeader (skipn 8 tail ++ q)); cbn [fst]; [apply gunzip_out|reflexivity|reflexivity].
    + cbn [fst]. match goal with |- context [if ?c then _ else _] => destruct c end; [|reflexivity]. destruct (readHeader _); cbn [fst]; [apply gunzip_out|reflexivity|reflexivity].
  - cbn [fst]. destruct (flate (bs ++ q)) as [out' [tail'|]]; cbn [fst] in M; [|apply prefix_app; exact M].
    assert (P : acc ++ out `prefix_of` acc ++ out') by (apply prefix_app; exact M).
    match goal with |- context [if ?c then _ else _] => destruct c end; [|exact P]. destruct (readHeader _); cbn [fst]; [etransitivity; [exact P|apply gunzip_out]|exact P|exact P].
Qed.
Lemma gzip_bytes s x : gzip s x -> bytes s.
Proof. intros H. destruct (gunzip_complete s x H) as (h & rest & -> & G & B & _). apply Forall_app_2; [exact (gheader_bytes h G)|exact B]. Qed.
Lemma gzip_cut s x p : gzip s x -> p `prefix_of` s -> match gzip_read p with None => True | Some (d, _) => d `prefix_of` x end.
Proof.
  intros H Hp. pose proof (gzip_bytes s x H) as B. pose proof (prefix_bytes p s Hp B) as Bp. destruct Hp as [q Eq].
  pose proof (proj2 (gzip_read_iff s x B) H) as Hs. unfold gzip_read in *. destruct (readHeader p) as [r| |] eqn:R; [|exact I|exact I].
  apply readHeader_iff in R; [|exact Bp]. destruct R as (h & G & Eh).
  assert (Rs : readHeader s = HOk (r ++ q)). { apply readHeader_iff; [exact B|]. exists h. split; [exact G|]. rewrite Eq, Eh, <- app_assoc. reflexivity. }
  rewrite Rs in Hs. assert (Hx : gunzip (S (length s)) [] (r ++ q) = (x, true)) by congruence.
  assert (Brq : bytes (r ++ q)) by (rewrite Eq, Eh, <- app_assoc in B; apply Forall_app in B; exact (proj2 B)).
  pose proof (gunzip_more q (S (length p)) (S (length s)) [] r Brq ltac:(rewrite Eq, app_length; lia)) as M. rewrite Hx in M.
  destruct (gunzip (S (length p)) [] r) as [d e]. exact M.
Qed.
(** A member that was cut is not a file. *)
Lemma member_cut s x p : member s x -> p `prefix_of` s -> p <> s -> match gzip_read p with None => True | Some (d, e) => d `prefix_of` x /\ e = false end.
Proof.
  intros H Hp Hn. pose proof (g_one s x H) as Hg. pose proof (gzip_cut s x p Hg Hp) as C. pose proof (gzip_bytes s x Hg) as B. pose proof (prefix_bytes p s Hp B) as Bp.
  destruct (gzip_read p) as [[d e]|] eqn:R; [|exact I]. split; [exact C|]. destruct e; [|reflexivity]. exfalso.
  apply gzip_read_iff in R; [|exact Bp]. destruct Hp as [q Eq]. assert (Hq : q <> []) by (intros ->; rewrite app_nil_r in Eq; congruence).
  destruct H as (h & dd & c & Es & G & D & Cr). apply crc32_is in Cr; [|exact (deflate_bytes _ _ D)]. subst c.
  set (T := Crc_Spec.le_bytes 4 (CRC32 x) ++ Crc_Spec.le_bytes 4 (Z.of_nat (length x))) in *.
  assert (LT : length T = 8%nat) by reflexivity.
  assert (X : forall m0 x0, member m0 x0 -> m0 `prefix_of` s -> (length s <= length m0)%nat).
  { intros m0 x0 (h0 & d0 & c0 & E0 & G0 & D0 & C0) [q0 Eq0].
    assert (R1 : readHeader s = HOk (dd ++ T)) by (apply readHeader_iff; [exact B|exists h; auto]).
    assert (R0 : readHeader s = HOk (d0 ++ (Crc_Spec.le_bytes 4 c0 ++ Crc_Spec.le_bytes 4 (Z.of_nat (length x0))) ++ q0)).
    { apply readHeader_iff; [exact B|]. exists h0. split; [exact G0|]. rewrite Eq0, E0, <- !app_assoc. reflexivity. }
    assert (E : d0 ++ (Crc_Spec.le_bytes 4 c0 ++ Crc_Spec.le_bytes 4 (Z.of_nat (length x0))) ++ q0 = dd ++ T) by congruence.
    pose proof (flate_complete d0 x0 ((Crc_Spec.le_bytes 4 c0 ++ Crc_Spec.le_bytes 4 (Z.of_nat (length x0))) ++ q0) D0) as F0. rewrite E, (flate_complete dd x T D) in F0.
    assert (ET : T = (Crc_Spec.le_bytes 4 c0 ++ Crc_Spec.le_bytes 4 (Z.of_nat (length x0))) ++ q0) by congruence.
    apply (f_equal length) in ET. rewrite LT, app_length in ET. change (length (Crc_Spec.le_bytes 4 c0 ++ Crc_Spec.le_bytes 4 (Z.of_nat (length x0)))) with 8%nat in ET.
    rewrite Eq0, app_length. lia. }
  assert (Y : exists m0 x0, member m0 x0 /\ m0 `prefix_of` p) by (destruct R as [s0 x0 Hm|s0 x0 ss xs Hm _]; [exists s0, x0; split; [exact Hm|reflexivity]|exists s0, x0; split; [exact Hm|apply prefix_app_r; reflexivity]]).
  destruct Y as (m0 & x0 & Hm & Hmp). pose proof (X m0 x0 Hm ltac:(etransitivity; [exact Hmp|exists q; exact Eq])) as L.
  apply prefix_length in Hmp. rewrite Eq, app_length in L. destruct q; [contradiction|]. cbn [length] in L. lia.
Qed.

(** ** Sizes of streams *)
Lemma zlib_small bs d e : zlib_read bs = Some (d, e) -> (length d <= 1032 * length bs)%nat.
Proof.
  rewrite zlib_read_split. destruct (zhead_read bs) as [rest|] eqn:H; [|discriminate].
  assert (L : (length rest <= length bs)%nat).
  { unfold zhead_read in H. destruct bs as [|c0 [|c1 r]]; try discriminate. destruct (_ || _ || _); [discriminate|]. destruct (_ =? 0); [injection H as <-; cbn; lia|].
    destruct r as [|d0 [|d1 [|d2 [|d3 r]]]]; try discriminate. destruct (_ =? 1); [|discriminate]. injection H as <-. cbn. lia. }
  pose proof (flate_small rest) as F. unfold ztail_read. destruct (flate rest) as [o [[|a0 [|a1 [|a2 [|a3 t]]]]|]]; intros [= <- _]; lia.
Qed.
Lemma readHeader_short bs r : readHeader bs = HOk r -> (length r <= length bs)%nat.
Proof.
  unfold readHeader. destruct bs as [|b bs0] eqn:Eb; [discriminate|]. rewrite <- Eb. clear Eb b bs0. destruct (_ <? 10)%nat; [discriminate|]. destruct (_ || _ || _); [discriminate|].
  assert (S10 : (length (skipn 10 bs) <= length bs)%nat) by (rewrite skipn_length; lia). revert S10. generalize (skipn 10 bs). intros b10 S10.
  destruct (opt_extra _ _ b10) as [[g1 r1]|] eqn:E1; [|discriminate]. destruct (opt_string _ g1 r1) as [[g2 r2]|] eqn:E2; [|discriminate].
  destruct (opt_string _ g2 r2) as [[g3 r3]|] eqn:E3; [|discriminate]. destruct (opt_hcrc _ g3 r3) as [r4|] eqn:E4; [|discriminate]. intros [= <-].
  assert (L1 : (length r1 <= length b10)%nat).
  { unfold opt_extra in E1. match type of E1 with (if ?c then _ else _) = _ => destruct c end; [|injection E1 as _ <-; lia]. destruct b10 as [|l0 [|l1 rr]]; try discriminate. destruct (_ <? _)%nat; [discriminate|].
    injection E1 as _ <-. rewrite skipn_length. cbn. lia. }
  assert (LS : forall fl g a g' a', opt_string fl g a = Some (g', a') -> (length a' <= length a)%nat).
  { intros fl g a g' a' E. unfold opt_string in E. destruct fl; [|injection E as _ <-; lia]. destruct (readString 512 a) as [[s rr]|] eqn:RS; [|discriminate]. injection E as _ <-.
    apply readString_iff in RS. destruct RS as [-> _]. rewrite app_length. lia. }
  pose proof (LS _ _ _ _ _ E2). pose proof (LS _ _ _ _ _ E3).
  assert (L4 : (length r4 <= length r3)%nat).
  { unfold opt_hcrc in E4. match type of E4 with (if ?c then _ else _) = _ => destruct c end; [|injection E4 as <-; lia]. destruct r3 as [|c0 [|c1 rr]]; try discriminate. destruct (_ =? _); [|discriminate]. injection E4 as <-. cbn. lia. }
  lia.
Qed.
Lemma gunzip_small fuel : forall acc bs, (length (gunzip fuel acc bs).1 <= length acc + 1032 * length bs)%nat.
Proof.
  induction fuel as [|fuel IH]; intros acc bs; [cbn [gunzip fst]; lia|]. rewrite gunzip_S. pose proof (flate_small bs) as F. destruct (flate bs) as [o [tail|]]; [|cbn [fst]; rewrite app_length; lia].
  destruct (_ && _ && _); [|cbn [fst]; rewrite app_length; lia]. destruct (readHeader _) as [r| |] eqn:R; [|cbn [fst]; rewrite app_length; lia|cbn [fst]; rewrite app_length; lia].
  apply readHeader_short in R. rewrite skipn_length in R. specialize (IH (acc ++ o) r). rewrite app_length in IH. lia.
Qed.
Lemma gzip_small bs d e : gzip_read bs = Some (d, e) -> (length d <= 1032 * length bs)%nat.
Proof.
  unfold gzip_read. destruct (readHeader bs) as [r| |] eqn:R; try discriminate. intros H. apply readHeader_short in R.
  pose proof (gunzip_small (S (length bs)) [] r) as G. assert (E : gunzip (S (length bs)) [] r = (d, e)) by congruence. rewrite E in G. cbn [fst length] in G. lia.
Qed.
