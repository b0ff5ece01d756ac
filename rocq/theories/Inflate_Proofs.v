(** The decoder of Inflate_Model reads exactly what RFC 1951 describes (lemmas for C135-C138). *)
From stdpp Require Import list.
From Coq Require Import ZArith Lia Bool.
From Verif Require Import GoInt Hash_Model Inflate_Model Inflate_Spec Inflate_Huff.
Local Open Scope Z_scope.

Lemma nat_pow_pos k : 0 < 2 ^ Z.of_nat k.
Proof. apply Z.pow_pos_nonneg; lia. Qed.

(** ** Lengths and distances *)
Lemma read_length_eq i base k b : nth_error lengths i = Some (base, k) ->
  read_length (257 + i) b = bind (getbits k b) (fun e r => Got (Z.to_nat base + Z.to_nat e)%nat r).
Proof.
  do 29 (destruct i as [|i]; [intros [= <- <-]; reflexivity|]). cbn. destruct i; discriminate.
Qed.
Lemma read_length_bad v b : (257 + length lengths <= v)%nat -> read_length v b = Corrupt.
Proof.
  change (length lengths) with 29%nat. intros H. unfold read_length.
  do 7 (match goal with |- context [(?a <? ?b)%nat] => destruct (Nat.ltb_spec a b); [lia|] end). reflexivity.
Qed.
Lemma lengths_pos i base k : nth_error lengths i = Some (base, k) -> 3 <= base /\ base + 2 ^ Z.of_nat k - 1 <= 258.
Proof. do 29 (destruct i as [|i]; [intros [= <- <-]; cbn; lia|]). cbn. destruct i; discriminate. Qed.
Lemma read_dist_eq d base k b : nth_error distances d = Some (base, k) ->
  (if (d <? 4)%nat then Got (S d) b
   else if (d <? 30)%nat then
     let nb := ((d - 2) / 2)%nat in
     bind (getbits nb b) (fun e b => Got (Z.to_nat (2 ^ Z.of_nat (S nb) + 1 + (Z.of_nat d mod 2 * 2 ^ Z.of_nat nb + e))) b)
   else Corrupt) = bind (getbits k b) (fun e r => Got (Z.to_nat (base + e)) r).
Proof.
  intros H. destruct (Nat.ltb_spec d 4) as [D|D].
  - do 4 (destruct d as [|d]; [injection H as <- <-; reflexivity|]). lia.
  - assert (L : (d < 30)%nat). { change 30%nat with (length distances). apply nth_error_Some. rewrite H. discriminate. }
    destruct (Nat.ltb_spec d 30); [|lia].
    assert (E : k = ((d - 2) / 2)%nat /\ base = 2 ^ Z.of_nat (S k) + 1 + Z.of_nat d mod 2 * 2 ^ Z.of_nat k).
    { do 4 (destruct d as [|d]; [lia|]). clear D L. do 26 (destruct d as [|d]; [injection H as <- <-; split; reflexivity|]). lia. }
    destruct E as [-> ->]. cbv zeta. destruct (getbits ((d - 2) / 2) b); cbn [bind]; [|reflexivity|reflexivity].
    f_equal. f_equal. lia.
Qed.
Lemma read_dist_bad d : nth_error distances d = None -> (30 <= d)%nat.
Proof. intros H. apply nth_error_None in H. exact H. Qed.
Lemma distances_pos i base k : nth_error distances i = Some (base, k) -> 1 <= base.
Proof. do 30 (destruct i as [|i]; [intros [= <- <-]; lia|]). cbn. destruct i; discriminate. Qed.

(** ** Symbols *)
(** What is needed of the decoder for the literals ... *)
Definition lit_table (h : huff) (ll : list nat) : Prop := table_of h ll /\ usable ll /\ hmin h = Nat.max (min_len ll) (len ll 256).
(** ... and of that for the distances. *)
Definition dist_table (hd : option huff) (dl : list nat) : Prop :=
  match hd with Some h => table_of h dl /\ usable dl /\ hmin h = min_len dl | None => dl = fixed_dl end.

Definition fixed_words : list (list bool) := map (fun s => rev (num 5 (Z.of_nat s))) (seq 0 32).
Lemma fixed_word s w : word fixed_dl s w <-> (s < 32)%nat /\ w = rev (num 5 (Z.of_nat s)).
Proof.
  assert (H : forall s, (s < 32)%nat -> len fixed_dl s = 5%nat /\ code fixed_dl s = Z.of_nat s).
  { intros t Ht. do 32 (destruct t as [|t]; [split; vm_compute; reflexivity|]). lia. }
  split.
  - intros [P ->]. assert (L : (s < 32)%nat) by (apply len_lt in P; exact P). destruct (H s L) as [-> ->]. auto.
  - intros [L ->]. destruct (H s L) as [E1 E2]. split; [lia|]. rewrite E1, E2. reflexivity.
Qed.
Lemma dist_sym_sound hd dl b s r : dist_table hd dl -> dist_sym hd b = Got s r -> exists w, word dl s w /\ b = w ++ r.
Proof.
  destruct hd as [h|]; cbn [dist_table dist_sym].
  - intros (T & _ & _). apply huffSym_sound. exact T.
  - intros ->. destruct b as [|b0 [|b1 [|b2 [|b3 [|b4 b]]]]]; try discriminate. intros H. cbn [getbits bind] in H.
    exists [b0; b1; b2; b3; b4]. injection H as <- <-. split; [|reflexivity]. apply fixed_word.
    destruct b0, b1, b2, b3, b4; vm_compute; (split; [lia|reflexivity]).
Qed.
Lemma min_le_word lens s w r : word lens s w -> (min_len lens <= length (w ++ r))%nat.
Proof. intros W. rewrite app_length, (word_length _ _ _ W). pose proof (proj1 (min_len_spec lens) s (proj1 W)). lia. Qed.
Lemma dist_sym_complete hd dl s w r : dist_table hd dl -> word dl s w -> dist_sym hd (w ++ r) = Got s r.
Proof.
  destruct hd as [h|]; cbn [dist_table dist_sym].
  - intros (T & U & M) W. apply (huffSym_complete h dl); auto. rewrite M. apply (min_le_word dl s). exact W.
  - intros -> W. apply fixed_word in W. destruct W as [L ->]. do 32 (destruct s as [|s]; [reflexivity|]). lia.
Qed.
Lemma copy_back_iter n d : forall out, copy_back n d out = Nat.iter n (again (Z.of_nat d)) out.
Proof.
  induction n as [|n IH]; intros out; [reflexivity|]. cbn [copy_back]. rewrite IH. rewrite Nat.iter_succ_r. f_equal.
  unfold again. do 3 f_equal. lia.
Qed.
Lemma read_length_sound v b l r : (256 < v)%nat -> read_length v b = Got l r ->
  exists i base k e, v = (257 + i)%nat /\ nth_error lengths i = Some (base, k) /\ 0 <= e < 2 ^ Z.of_nat k /\ b = num k e ++ r /\ Z.of_nat l = base + e.
Proof.
  intros Hv. destruct (nth_error lengths (v - 257)) as [[base k]|] eqn:E.
  - pose proof (read_length_eq _ _ _ b E) as H. replace (257 + (v - 257))%nat with v in H by lia. rewrite H.
    destruct (getbits k b) as [e r'| |] eqn:G; cbn [bind]; try discriminate. intros [= <- <-]. apply getbits_sound in G. destruct G as [-> He].
    apply lengths_pos in E as P. exists (v - 257)%nat, base, k, e. repeat split; auto with lia.
  - apply nth_error_None in E. rewrite read_length_bad by lia. discriminate.
Qed.
Lemma read_length_complete i base k e r : nth_error lengths i = Some (base, k) -> 0 <= e < 2 ^ Z.of_nat k ->
  read_length (257 + i) (num k e ++ r) = Got (Z.to_nat (base + e)) r.
Proof.
  intros E He. rewrite (read_length_eq _ _ _ _ E), getbits_num by exact He. cbn [bind]. f_equal. apply lengths_pos in E. lia.
Qed.
Lemma read_dist_sound hd dl b d r : dist_table hd dl -> read_dist hd b = Got d r -> exists w, b = w ++ r /\ entry dl 0 distances w (Z.of_nat d).
Proof.
  intros T. unfold read_dist. destruct (dist_sym hd b) as [s b'| |] eqn:E; cbn [bind]; try discriminate.
  apply (dist_sym_sound hd dl) in E; [|exact T]. destruct E as (w & W & ->).
  destruct (nth_error distances s) as [[base k]|] eqn:N.
  - rewrite (read_dist_eq _ _ _ _ N). destruct (getbits k b') as [e r'| |] eqn:G; cbn [bind]; try discriminate. intros [= <- <-].
    apply getbits_sound in G. destruct G as [-> He]. exists (w ++ num k e). split; [rewrite <- app_assoc; reflexivity|].
    exists s, base, k, w, e. apply distances_pos in N as P. split; [exact N|]. split; [exact W|]. split; [exact He|]. split; [reflexivity|lia].
  - apply read_dist_bad in N. destruct (Nat.ltb_spec s 4); [lia|]. destruct (Nat.ltb_spec s 30); [lia|]. discriminate.
Qed.
Lemma read_dist_complete hd dl w d r : dist_table hd dl -> entry dl 0 distances w d -> read_dist hd (w ++ r) = Got (Z.to_nat d) r.
Proof.
  intros T (s & base & k & c & e & N & W & He & -> & ->). unfold read_dist. rewrite <- app_assoc, (dist_sym_complete hd dl s) by auto. cbn [bind].
  rewrite (read_dist_eq _ _ _ _ N), getbits_num by exact He. reflexivity.
Qed.

Lemma symbols_long ll dl out w res : symbols ll dl out w res -> (len ll 256 <= length w)%nat.
Proof.
  intros H. induction H; rewrite ?app_length in *; try lia. rewrite (word_length _ _ _ H). lia.
Qed.
Lemma huffmanBlock_complete hl hd ll dl out w res : lit_table hl ll -> dist_table hd dl -> symbols ll dl out w res ->
  forall fuel r, (length w < fuel)%nat -> huffmanBlock fuel hl hd out (w ++ r) = End res r.
Proof.
  intros (T & U & M) D H. induction H as [out w W|out v w ws res Hv W H IH|out l d wl wd ws res El Ed Hd Hd2 H IH]; intros fuel r Hf;
    (destruct fuel as [|fuel]; [lia|]); cbn [huffmanBlock].
  - rewrite (huffSym_complete hl ll 256 w); [reflexivity|assumption|assumption|assumption|]. rewrite M.
    pose proof (min_le_word ll _ w r W). rewrite app_length in *. rewrite (word_length _ _ _ W) in *. lia.
  - rewrite <- app_assoc. rewrite (huffSym_complete hl ll (Z.to_nat v) w); [|assumption|assumption|assumption|].
    2:{ rewrite M. pose proof (min_le_word ll _ w (ws ++ r) W). pose proof (symbols_long _ _ _ _ _ H). rewrite !app_length in *. lia. }
    cbn [step]. destruct (Nat.ltb_spec (Z.to_nat v) 256); [|lia]. rewrite Z2Nat.id by lia. apply IH.
    rewrite app_length, (word_length _ _ _ W) in Hf. destruct W. lia.
  - destruct El as (i & base & k & c & e & N & W & He & -> & ->). rewrite <- !app_assoc.
    rewrite (huffSym_complete hl ll (257 + i) c); [|assumption|assumption|assumption|].
    2:{ rewrite M. pose proof (min_le_word ll _ c (num k e ++ wd ++ ws ++ r) W). pose proof (symbols_long _ _ _ _ _ H). rewrite !app_length in *. lia. }
    cbn [step]. destruct (Nat.ltb_spec (257 + i) 256); [lia|]. destruct (Nat.eqb_spec (257 + i) 256); [lia|].
    rewrite (read_length_complete _ _ _ _ _ N He). cbn [step]. rewrite (read_dist_complete hd dl wd d) by assumption. cbn [step].
    rewrite Z2Nat.id by lia. destruct (Z.ltb_spec (Z.min (Z.of_nat (length out)) 32768) d); [lia|].
    rewrite copy_back_iter, Z2Nat.id by lia. apply IH. rewrite !app_length, (word_length _ _ _ W) in Hf. destruct W. lia.
Qed.
Lemma huffmanBlock_sound hl hd ll dl : table_of hl ll -> dist_table hd dl -> forall fuel out b res r,
  huffmanBlock fuel hl hd out b = End res r -> exists w, b = w ++ r /\ symbols ll dl out w res.
Proof.
  intros T D fuel. induction fuel as [|fuel IH]; intros out b res r; cbn [huffmanBlock]; [discriminate|].
  destruct (huffSym hl b) as [v b1| |] eqn:E; cbn [step]; try discriminate.
  apply (huffSym_sound hl ll) in E; [|exact T]. destruct E as (w & W & ->).
  destruct (Nat.ltb_spec v 256).
  - intros Hb. apply IH in Hb. destruct Hb as (ws & -> & S). exists (w ++ ws). split; [rewrite <- app_assoc; reflexivity|].
    apply (s_literal _ _ _ (Z.of_nat v)); [lia|rewrite Nat2Z.id; exact W|exact S].
  - destruct (Nat.eqb_spec v 256) as [->|N].
    + intros [= <- <-]. exists w. split; [reflexivity|]. constructor. exact W.
    + destruct (read_length v b1) as [l b2| |] eqn:E; cbn [step]; try discriminate. apply read_length_sound in E; [|lia].
      destruct E as (i & base & k & e & -> & Nt & He & -> & El).
      destruct (read_dist hd b2) as [d b3| |] eqn:E; cbn [step]; try discriminate. apply (read_dist_sound hd dl) in E; [|exact D].
      destruct E as (wd & -> & Ed). destruct (Z.ltb_spec (Z.min (Z.of_nat (length out)) 32768) (Z.of_nat d)); [discriminate|].
      intros Hb. apply IH in Hb. destruct Hb as (ws & -> & S). exists ((w ++ num k e) ++ wd ++ ws). split; [rewrite <- !app_assoc; reflexivity|].
      assert (1 <= Z.of_nat d). { destruct Ed as (? & ? & ? & ? & ? & Nd & ? & ? & ? & ->). apply distances_pos in Nd. lia. }
      apply (s_match _ _ _ (base + e) (Z.of_nat d)).
      * exists i, base, k, w, e. auto.
      * exact Ed.
      * lia.
      * lia.
      * rewrite copy_back_iter in S. replace (Z.to_nat (base + e)) with l by lia. exact S.
Qed.

(** ** The description of the codes *)
Lemma num_mod k : forall a b, (a - b) mod 2 ^ Z.of_nat k = 0 -> num k a = num k b.
Proof.
  induction k as [|k IH]; intros a b H; [reflexivity|]. rewrite Nat2Z.inj_succ, Z.pow_succ_r in H by lia. rewrite !num_S.
  pose proof (nat_pow_pos k) as P. apply Z.mod_divide in H; [|lia]. destruct H as [q H].
  assert (Ea : a = b + 2 * (q * 2 ^ Z.of_nat k)) by lia. subst a. f_equal.
  - rewrite Z.odd_add, Z.odd_mul. cbn. rewrite xorb_false_r. reflexivity.
  - apply IH. replace (b + 2 * (q * 2 ^ Z.of_nat k)) with (b + (q * 2 ^ Z.of_nat k) * 2) by lia. rewrite Z.div_add by lia.
    replace (b / 2 + q * 2 ^ Z.of_nat k - b / 2) with (q * 2 ^ Z.of_nat k) by lia. apply Z.mod_mul. lia.
Qed.
Lemma num_cat j k a b : 0 <= a < 2 ^ Z.of_nat j -> num j a ++ num k b = num (j + k) (a + 2 ^ Z.of_nat j * b).
Proof.
  intros H. pose proof (nat_pow_pos j) as P. rewrite num_app. f_equal.
  - apply num_mod. replace (a - (a + 2 ^ Z.of_nat j * b)) with (- b * 2 ^ Z.of_nat j) by lia. apply Z.mod_mul. lia.
  - f_equal. rewrite Z.mul_comm, Z.div_add, Z.div_small by lia. lia.
Qed.

(** The lengths of the code of lengths, put into their places. *)
Fixpoint fill (order cls cb : list nat) : list nat :=
  match cls, order with c :: cls, o :: order => fill order cls (<[o := c]> cb) | _, _ => cb end.
Lemma fill_length order cls : forall cb, length (fill order cls cb) = length cb.
Proof. revert order. induction cls as [|c cls IH]; intros [|o order] cb; cbn [fill]; auto. rewrite IH. apply insert_length. Qed.
Lemma fill_other order cls o : forall cb, ~ In o order -> nth o (fill order cls cb) 0%nat = nth o cb 0%nat.
Proof.
  revert order. induction cls as [|c cls IH]; intros [|o' order] cb N; cbn [fill]; auto. cbn [In] in N. rewrite IH by tauto.
  rewrite !nth_lookup, list_lookup_insert_ne by tauto. reflexivity.
Qed.
Lemma fill_nth order : forall cls cb i, List.NoDup order -> Forall (fun o => (o < length cb)%nat) order -> (length cls <= length order)%nat -> (i < length order)%nat ->
  nth (nth i order 0%nat) (fill order cls cb) 0%nat = if (i <? length cls)%nat then nth i cls 0%nat else nth (nth i order 0%nat) cb 0%nat.
Proof.
  induction order as [|o order IH]; intros cls cb i ND F L Hi; [cbn in Hi; lia|]. destruct cls as [|c cls]; [reflexivity|].
  apply List.NoDup_cons_iff in ND. destruct ND as [No ND]. inversion F as [|? ? Fo F']; subst. cbn [fill]. destruct i as [|i].
  - cbn [nth]. rewrite fill_other by exact No. rewrite nth_lookup, list_lookup_insert by exact Fo. reflexivity.
  - cbn [nth length] in *. rewrite IH; [|exact ND| |lia|lia].
    + change (S i <? S (length cls))%nat with (i <? length cls)%nat. destruct (i <? length cls)%nat; [reflexivity|].
      assert (Hin : In (nth i order 0%nat) order) by (apply nth_In; lia). remember (nth i order 0%nat) as j eqn:Ej. clear Ej. rewrite !nth_lookup, list_lookup_insert_ne; [reflexivity|]. intros E'. apply No. rewrite E'. assumption.
    + rewrite insert_length. exact F'.
Qed.
Lemma order_ok : List.NoDup codeOrder /\ Forall (fun o => (o < 19)%nat) codeOrder /\ length codeOrder = 19%nat /\
  forall j, (j < 19)%nat -> exists i, (i < 19)%nat /\ nth i codeOrder 0%nat = j.
Proof.
  split; [|split; [|split; [reflexivity|]]].
  - unfold codeOrder. repeat (apply List.NoDup_cons; [intros H; cbn [In] in H; intuition discriminate|]). apply List.NoDup_nil.
  - unfold codeOrder. repeat (constructor; [lia|]). constructor.
  - intros j Hj. exists (nth j [3; 17; 15; 13; 11; 9; 7; 5; 4; 6; 8; 10; 12; 14; 16; 18; 0; 1; 2]%nat 0%nat).
    do 19 (destruct j as [|j]; [split; [cbn; lia|reflexivity]|]). lia.
Qed.
Lemma fill_is cls cl : (length cls <= 19)%nat -> length cl = 19%nat ->
  (forall i, (i < 19)%nat -> len cl (nth i codeOrder 0%nat) = nth i cls 0%nat) <-> cl = fill codeOrder cls (repeat 0%nat 19).
Proof.
  intros Lc L. destruct order_ok as (ND & F & Lo & On).
  assert (N : forall i, (i < 19)%nat -> nth (nth i codeOrder 0%nat) (fill codeOrder cls (repeat 0%nat 19)) 0%nat = nth i cls 0%nat).
  { intros i Hi. rewrite fill_nth; [|exact ND|exact F|lia|lia]. destruct (Nat.ltb_spec i (length cls)); [reflexivity|].
    rewrite nth_repeat, nth_overflow by lia. reflexivity. }
  split.
  - intros H. apply (nth_ext _ _ 0%nat 0%nat); [rewrite fill_length, repeat_length; exact L|]. intros j Hj. rewrite L in Hj.
    destruct (On j Hj) as (i & Hi & <-). rewrite (N i Hi). apply H. exact Hi.
  - intros -> i Hi. apply N. exact Hi.
Qed.
Lemma read_clens_complete cls : forall order cb r, Forall (fun n => (n < 8)%nat) cls -> (length cls <= length order)%nat ->
  read_clens (length cls) order cb (flat_map (fun n => num 3 (Z.of_nat n)) cls ++ r) = Got (fill order cls cb) r.
Proof.
  induction cls as [|c cls IH]; intros order cb r F L; [destruct order; reflexivity|]. destruct order as [|o order]; [cbn in L; lia|].
  inversion F as [|? ? Fc F']; subst. cbn [length read_clens flat_map]. rewrite <- app_assoc, getbits_num by (change (2 ^ Z.of_nat 3) with 8; lia).
  cbn [bind]. rewrite Nat2Z.id, IH by (auto; cbn in L; lia). reflexivity.
Qed.
Lemma read_clens_sound n : forall order cb b res r, (n <= length order)%nat -> read_clens n order cb b = Got res r ->
  exists cls, length cls = n /\ Forall (fun n => (n < 8)%nat) cls /\ b = flat_map (fun n => num 3 (Z.of_nat n)) cls ++ r /\ res = fill order cls cb.
Proof.
  induction n as [|n IH]; intros order cb b res r L; cbn [read_clens].
  - intros [= <- <-]. exists []. destruct order; auto.
  - destruct order as [|o order]; [cbn in L; lia|]. destruct (getbits 3 b) as [v b'| |] eqn:G; cbn [bind]; try discriminate.
    apply getbits_sound in G. change (2 ^ Z.of_nat 3) with 8 in G. destruct G as [-> Hv]. intros H. apply IH in H; [|cbn in L; lia].
    destruct H as (cls & Lc & F & -> & ->). exists (Z.to_nat v :: cls). cbn [length flat_map fill]. rewrite Z2Nat.id by lia. rewrite <- app_assoc.
    repeat split; auto with lia.
Qed.

Lemma runs_length cl acc w res : runs cl acc w res -> (length acc <= length res)%nat.
Proof. intros H. induction H; rewrite ?app_length in *; cbn [length] in *; lia. Qed.
Lemma runs_15 cl acc w res : runs cl acc w res -> Forall (fun n => (n <= 15)%nat) acc -> Forall (fun n => (n <= 15)%nat) res.
Proof.
  assert (R : forall (P : nat -> Prop) n k, P n -> Forall P (repeat n k)) by (intros P n k Hn; induction k; cbn; auto).
  intros H. induction H; intros F; auto; apply IHruns; apply Forall_app_2; auto.
  - constructor; [lia|constructor].
  - apply R. apply Forall_app in F. destruct F as [_ F]. inversion F. assumption.
  - apply R. lia.
  - apply R. lia.
Qed.
Lemma last_snoc {A} (l : list A) x d : List.last (l ++ [x]) d = x.
Proof. apply last_last. Qed.
Lemma read_lens_complete h cl : table_of h cl -> usable cl -> hmin h = min_len cl -> forall acc w res, runs cl acc w res -> forall fuel r,
  (length res - length acc <= fuel)%nat -> read_lens fuel h (length res) acc (w ++ r) = Got res r.
Proof.
  intros T U M acc w res H. 
  assert (HS : forall s w r, word cl s w -> huffSym h (w ++ r) = Got s r).
  { intros s v r W. apply (huffSym_complete h cl); auto. rewrite M. apply (min_le_word cl s). exact W. }
  induction H as [acc|acc n w ws res Hn W H IH|acc n e w ws res He W H IH|acc e w ws res He W H IH|acc e w ws res He W H IH]; intros fuel r Hf.
  - destruct fuel; cbn [read_lens]; rewrite Nat.leb_refl; reflexivity.
  - pose proof (runs_length _ _ _ _ H) as L. rewrite app_length in L. cbn [length] in L.
    destruct fuel as [|fuel]; [lia|]. cbn [read_lens]. destruct (Nat.leb_spec (length res) (length acc)); [lia|].
    rewrite <- app_assoc, (HS n) by exact W. cbn [bind]. destruct (Nat.ltb_spec n 16); [|lia]. apply IH. rewrite app_length. cbn. lia.
  - pose proof (runs_length _ _ _ _ H) as L. rewrite app_length, repeat_length in L.
    destruct fuel as [|fuel]; [rewrite app_length in *; lia|]. cbn [read_lens]. destruct (Nat.leb_spec (length res) (length (acc ++ [n]))); [lia|].
    rewrite <- app_assoc, (HS 16%nat) by exact W. cbn [bind]. change (16 <? 16)%nat with false. change (16 =? 16)%nat with true. cbv beta iota.
    replace (length (acc ++ [n]) =? 0)%nat with false by (symmetry; apply Nat.eqb_neq; rewrite app_length; cbn; lia). cbn [andb].
    rewrite <- app_assoc, getbits_num by exact He. cbn [bind]. rewrite last_snoc.
    destruct (Nat.ltb_spec (length res) (length (acc ++ [n]) + (3 + Z.to_nat e))); [lia|]. apply IH. rewrite !app_length, repeat_length in *. cbn [length] in *. lia.
  - pose proof (runs_length _ _ _ _ H) as L. rewrite app_length, repeat_length in L.
    destruct fuel as [|fuel]; [lia|]. cbn [read_lens]. destruct (Nat.leb_spec (length res) (length acc)); [lia|].
    rewrite <- app_assoc, (HS 17%nat) by exact W. cbn [bind]. change (17 <? 16)%nat with false. change (17 =? 16)%nat with false. change (17 =? 17)%nat with true. cbn [andb].
    rewrite <- app_assoc, getbits_num by exact He. cbn [bind].
    destruct (Nat.ltb_spec (length res) (length acc + (3 + Z.to_nat e))); [lia|]. apply IH. rewrite !app_length, repeat_length in *. lia.
  - pose proof (runs_length _ _ _ _ H) as L. rewrite app_length, repeat_length in L.
    destruct fuel as [|fuel]; [lia|]. cbn [read_lens]. destruct (Nat.leb_spec (length res) (length acc)); [lia|].
    rewrite <- app_assoc, (HS 18%nat) by exact W. cbn [bind]. change (18 <? 16)%nat with false. change (18 =? 16)%nat with false. change (18 =? 17)%nat with false. cbn [andb].
    rewrite <- app_assoc, getbits_num by exact He. cbn [bind].
    destruct (Nat.ltb_spec (length res) (length acc + (11 + Z.to_nat e))); [lia|]. apply IH. rewrite !app_length, repeat_length in *. lia.
Qed.
Lemma read_lens_sound h cl n : table_of h cl -> length cl = 19%nat -> forall fuel acc b res r, (length acc <= n)%nat ->
  read_lens fuel h n acc b = Got res r -> length res = n /\ exists w, b = w ++ r /\ runs cl acc w res.
Proof.
  intros T L fuel. induction fuel as [|fuel IH]; intros acc b res r Ha; cbn [read_lens]; (destruct (Nat.leb_spec n (length acc)) as [E|E];
    [intros [= <- <-]; split; [lia|exists []; split; [reflexivity|constructor]]|]); [discriminate|].
  destruct (huffSym h b) as [x b1| |] eqn:Ex; cbn [bind]; try discriminate. apply (huffSym_sound h cl) in Ex; [|exact T]. destruct Ex as (w & W & ->).
  destruct (Nat.ltb_spec x 16) as [X|X].
  - intros H. apply IH in H; [|rewrite app_length; cbn; lia]. destruct H as (Lr & ws & -> & R). split; [exact Lr|]. exists (w ++ ws).
    split; [rewrite <- app_assoc; reflexivity|]. apply (r_length cl acc x); assumption.
  - assert (X19 : (x < 19)%nat) by (rewrite <- L; apply len_lt; exact (proj1 W)).
    assert (C : x = 16%nat \/ x = 17%nat \/ x = 18%nat) by lia. destruct C as [ -> | [ -> | -> ] ].
    + change (16 =? 16)%nat with true. cbv beta iota. destruct (Nat.eqb_spec (length acc) 0) as [A|A]; cbn [andb]; [discriminate|].
      destruct (getbits 2 b1) as [e b2| |] eqn:G; cbn [bind]; try discriminate. apply getbits_sound in G. destruct G as [-> He].
      destruct (Nat.ltb_spec n (length acc + (3 + Z.to_nat e))); [discriminate|]. intros H'. apply IH in H'; [|rewrite app_length, repeat_length; lia].
      destruct H' as (Lr & ws & -> & R). split; [exact Lr|]. exists (w ++ num 2 e ++ ws). split; [rewrite <- !app_assoc; reflexivity|].
      destruct (exists_last (l := acc)) as (acc' & y & ->); [intros ->; apply A; reflexivity|]. rewrite last_snoc in R. apply r_again; [exact He|exact W|exact R].
    + change (17 =? 16)%nat with false. change (17 =? 17)%nat with true. cbn [andb].
      destruct (getbits 3 b1) as [e b2| |] eqn:G; cbn [bind]; try discriminate. apply getbits_sound in G. destruct G as [-> He].
      destruct (Nat.ltb_spec n (length acc + (3 + Z.to_nat e))); [discriminate|]. intros H'. apply IH in H'; [|rewrite app_length, repeat_length; lia].
      destruct H' as (Lr & ws & -> & R). split; [exact Lr|]. exists (w ++ num 3 e ++ ws). split; [rewrite <- !app_assoc; reflexivity|].
      apply r_zeros; [exact He|exact W|exact R].
    + change (18 =? 16)%nat with false. change (18 =? 17)%nat with false. cbn [andb].
      destruct (getbits 7 b1) as [e b2| |] eqn:G; cbn [bind]; try discriminate. apply getbits_sound in G. destruct G as [-> He].
      destruct (Nat.ltb_spec n (length acc + (11 + Z.to_nat e))); [discriminate|]. intros H'. apply IH in H'; [|rewrite app_length, repeat_length; lia].
      destruct H' as (Lr & ws & -> & R). split; [exact Lr|]. exists (w ++ num 7 e ++ ws). split; [rewrite <- !app_assoc; reflexivity|].
      apply r_more_zeros; [exact He|exact W|exact R].
Qed.

Lemma clens_15 cls : Forall (fun n => (n < 8)%nat) cls -> Forall (fun n => (n <= 15)%nat) (fill codeOrder cls (repeat 0%nat 19)).
Proof.
  assert (H : forall cls order cb, Forall (fun n => (n < 8)%nat) cls -> Forall (fun n => (n <= 15)%nat) cb -> Forall (fun n => (n <= 15)%nat) (fill order cls cb)).
  { clear cls. induction cls as [|c cls IH]; intros [|o order] cb F G; cbn [fill]; auto. inversion F; subst. apply IH; [assumption|].
    apply Forall_insert; [exact G|lia]. }
  intros F. apply H; [exact F|]. repeat (constructor; [lia|]). constructor.
Qed.
Lemma readHuffman_complete h ll dl r : described h ll dl ->
  exists hl hd, readHuffman (h ++ r) = Got (hl, hd) r /\ lit_table hl ll /\ dist_table (Some hd) dl.
Proof.
  intros (hclen & cls & cl & ws & Bl & Bd & Lc & Hh & Fc & L19 & Hcl & Ucl & R & Ul & Ud & ->).
  assert (Lc' : (length cls <= 19)%nat) by lia.
  change order with codeOrder in Hcl. apply (fill_is cls cl Lc' L19) in Hcl.
  pose proof (huff_init_spec cl (proj1 Ucl)) as I1. destruct (huff_init cl) as [h1|] eqn:E1; [|contradiction]. destruct I1 as (_ & T1 & M1).
  pose proof (huff_init_spec ll (proj1 Ul)) as I2. destruct (huff_init ll) as [h2|] eqn:E2; [|contradiction]. destruct I2 as (_ & T2 & M2).
  pose proof (huff_init_spec dl (proj1 Ud)) as I3. destruct (huff_init dl) as [h3|] eqn:E3; [|contradiction]. destruct I3 as (_ & T3 & M3).
  exists (Huff (Nat.max (hmin h2) (len ll 256)) (hmax h2) (codes h2)), h3. split; [|split].
  - unfold readHuffman. set (a := Z.of_nat (length ll) - 257) in *. set (d := Z.of_nat (length dl) - 1) in *.
    assert (Ha : 0 <= a < 32) by lia. assert (Hd : 0 <= d < 32) by lia.
    assert (EN : num 5 a ++ num 5 d ++ num 4 hclen = num 14 (a + 32 * d + 1024 * hclen)).
    { rewrite (num_cat 5 4 d) by exact Hd. rewrite (num_cat 5 (5 + 4) a) by exact Ha. f_equal. change (2 ^ Z.of_nat 5) with 32. lia. }
    replace ((num 5 a ++ num 5 d ++ num 4 hclen ++ flat_map (fun n => num 3 (Z.of_nat n)) cls ++ ws) ++ r)
      with (num 14 (a + 32 * d + 1024 * hclen) ++ flat_map (fun n => num 3 (Z.of_nat n)) cls ++ ws ++ r) by (rewrite <- EN, <- !app_assoc; reflexivity).
    rewrite getbits_num by (change (2 ^ Z.of_nat 14) with 16384; lia). cbn [bind].
    assert (V1 : (a + 32 * d + 1024 * hclen) mod 32 = a) by (symmetry; apply (Z.mod_unique _ _ (d + 32 * hclen)); lia).
    assert (V2 : (a + 32 * d + 1024 * hclen) / 32 = d + 32 * hclen) by (symmetry; apply (Z.div_unique _ _ _ a); lia).
    assert (V3 : (a + 32 * d + 1024 * hclen) / 1024 = hclen) by (symmetry; apply (Z.div_unique _ _ _ (a + 32 * d)); lia).
    rewrite V1, V2, V3. assert (V4 : (d + 32 * hclen) mod 32 = d) by (symmetry; apply (Z.mod_unique _ _ hclen); lia). rewrite V4.
    replace (Z.to_nat (a + 257)) with (length ll) by lia. replace (Z.to_nat (d + 1)) with (length dl) by lia. replace (Z.to_nat (hclen + 4)) with (length cls) by lia.
    destruct (Nat.ltb_spec 286 (length ll)); [lia|]. destruct (Nat.ltb_spec 30 (length dl)); [lia|]. cbn [orb].
    rewrite read_clens_complete by (assumption || exact Lc'). cbn [bind]. rewrite <- Hcl, E1.
    rewrite <- (app_length ll dl). rewrite (read_lens_complete h1 cl T1 Ucl M1 [] ws (ll ++ dl) R) by lia. cbn [bind].
    rewrite take_app, drop_app, E2, E3.
    rewrite app_nth1 by lia. reflexivity.
  - split; [|split; [exact Ul|]].
    + destruct T2 as [A B]. split; cbn [codes hmax]; assumption.
    + cbn [hmin]. rewrite M2. reflexivity.
  - cbn [dist_table]. auto.
Qed.
Lemma readHuffman_sound b hl hd r : readHuffman b = Got (hl, hd) r ->
  exists h ll dl, b = h ++ r /\ described h ll dl /\ lit_table hl ll /\ dist_table (Some hd) dl.
Proof.
  unfold readHuffman. destruct (getbits 14 b) as [v b1| |] eqn:G; cbn [bind]; try discriminate. apply getbits_sound in G. change (2 ^ Z.of_nat 14) with 16384 in G.
  destruct G as [-> Hv]. set (nlit := Z.to_nat (v mod 32 + 257)). set (ndist := Z.to_nat ((v / 32) mod 32 + 1)). set (nclen := Z.to_nat (v / 1024 + 4)).
  pose proof (Z.mod_pos_bound v 32 ltac:(lia)) as B1. pose proof (Z.mod_pos_bound (v / 32) 32 ltac:(lia)) as B2.
  assert (B3 : 0 <= v / 1024 < 16) by (split; [apply Z.div_pos; lia|apply Z.div_lt_upper_bound; lia]).
  assert (EV : v = v mod 32 + 32 * ((v / 32) mod 32) + 1024 * (v / 1024)).
  { rewrite (Z.div_mod v 32) at 1 by lia. rewrite (Z.div_mod (v / 32) 32) at 1 by lia. rewrite Z.div_div by lia. change (32 * 32) with 1024. lia. }
  destruct (Nat.ltb_spec 286 nlit) as [|L1]; [discriminate|]. destruct (Nat.ltb_spec 30 ndist) as [|L2]; [discriminate|]. cbn [orb].
  destruct (read_clens nclen codeOrder (repeat 0%nat 19) b1) as [codebits b2| |] eqn:C; cbn [bind]; try discriminate.
  apply read_clens_sound in C; [|change (length codeOrder) with 19%nat; lia]. destruct C as (cls & Lc & Fc & -> & Ecb).
  pose proof (clens_15 cls Fc) as F15. rewrite <- Ecb in F15.
  assert (L19 : length codebits = 19%nat) by (rewrite Ecb, fill_length; reflexivity).
  pose proof (huff_init_spec codebits F15) as I1. destruct (huff_init codebits) as [h1|]; [|discriminate]. destruct I1 as (U1 & T1 & M1).
  destruct (read_lens (nlit + ndist) h1 (nlit + ndist) [] b2) as [lens b3| |] eqn:RL; cbn [bind]; try discriminate.
  apply (read_lens_sound h1 codebits) in RL; [|exact T1|exact L19|cbn; lia]. destruct RL as (Ll & ws & -> & R).
  pose proof (runs_15 _ _ _ _ R ltac:(constructor)) as FR.
  assert (FR1 : Forall (fun n => (n <= 15)%nat) (firstn nlit lens)) by (apply Forall_take; exact FR).
  assert (FR2 : Forall (fun n => (n <= 15)%nat) (skipn nlit lens)) by (apply Forall_drop; exact FR).
  pose proof (huff_init_spec _ FR1) as I2. destruct (huff_init (firstn nlit lens)) as [h2|]; [|discriminate]. destruct I2 as (U2 & T2 & M2).
  pose proof (huff_init_spec _ FR2) as I3. destruct (huff_init (skipn nlit lens)) as [h3|]; [|discriminate]. destruct I3 as (U3 & T3 & M3).
  intros [= <- <- <-].
  assert (K1 : length (firstn nlit lens) = nlit) by (rewrite firstn_length; lia).
  assert (K2 : length (skipn nlit lens) = ndist) by (rewrite skipn_length; lia).
  exists (num 14 v ++ flat_map (fun n => num 3 (Z.of_nat n)) cls ++ ws), (firstn nlit lens), (skipn nlit lens). split; [|split; [|split]].
  - rewrite <- !app_assoc. reflexivity.
  - exists (v / 1024), cls, codebits, ws. rewrite K1, K2, firstn_skipn.
    split; [lia|]. split; [lia|]. split; [lia|]. split; [exact B3|]. split; [exact Fc|]. split; [exact L19|].
    split; [change order with codeOrder; apply (fill_is cls codebits); [lia|exact L19|exact Ecb]|].
    split; [exact U1|]. split; [exact R|]. split; [exact U2|]. split; [exact U3|].
    replace (Z.of_nat nlit - 257) with (v mod 32) by lia. replace (Z.of_nat ndist - 1) with ((v / 32) mod 32) by lia.
    rewrite !app_assoc. do 2 f_equal. rewrite <- app_assoc, (num_cat 5 4), (num_cat 5 (5 + 4)) by assumption. f_equal. change (2 ^ Z.of_nat 5) with 32. lia.
  - split; [|split; [exact U2|]].
    + destruct T2 as [A B]. split; cbn [codes hmax]; assumption.
    + cbn [hmin]. rewrite M2. f_equal. unfold len. rewrite !nth_lookup, lookup_take by lia. reflexivity.
  - cbn [dist_table]. auto.
Qed.

(** ** Blocks *)
Lemma fixed_table : lit_table fixedHuffmanDecoder fixed_ll /\ dist_table None fixed_dl.
Proof.
  assert (F : Forall (fun n => (n <= 15)%nat) fixed_lens).
  { unfold fixed_lens. assert (R : forall n k, (n <= 15)%nat -> Forall (fun n => (n <= 15)%nat) (repeat n k)) by (intros n k Hn; induction k; cbn; auto).
    repeat apply Forall_app_2; apply R; lia. }
  split; [|reflexivity]. pose proof (huff_init_spec fixed_lens F) as H. unfold fixedHuffmanDecoder.
  destruct (huff_init fixed_lens) as [h|] eqn:E; [|vm_compute in E; discriminate]. destruct H as (U & T & M).
  split; [exact T|]. split; [exact U|]. rewrite M. vm_compute. reflexivity.
Qed.
Lemma bits_of_bits bs : bits_of bs = bits bs. Proof. reflexivity. Qed.
Lemma bits_length bs : length (bits bs) = (8 * length bs)%nat.
Proof. unfold bits. induction bs as [|b bs IH]; [reflexivity|]. cbn [flat_map]. rewrite app_length, num_length, IH. cbn [length]. lia. Qed.
Lemma bits_app a b : bits (a ++ b) = bits a ++ bits b.
Proof. apply flat_map_app. Qed.
Lemma bits_inj a : forall b, bytes a -> bytes b -> bits a = bits b -> a = b.
Proof.
  induction a as [|x a IH]; intros [|y b] Ba Bb E; [reflexivity| | |].
  - apply (f_equal length) in E. rewrite !bits_length in E. cbn in E. lia.
  - apply (f_equal length) in E. rewrite !bits_length in E. cbn in E. lia.
  - inversion Ba; inversion Bb; subst. cbn [bits flat_map] in E. apply app_inj_1 in E; [|rewrite !num_length; reflexivity]. destruct E as [E1 E2].
    f_equal; [|apply IH; assumption]. apply (num_inj 8); assumption.
Qed.
Lemma getbytes_complete x : forall r, bytes x -> getbytes (length x) (bits x ++ r) = (x, r).
Proof.
  induction x as [|b x IH]; intros r B; [reflexivity|]. inversion B; subst. cbn [length getbytes bits flat_map]. rewrite <- app_assoc, getbits_num by assumption.
  fold (bits x). rewrite IH by assumption. reflexivity.
Qed.
Lemma getbytes_sound n : forall b l r, getbytes n b = (l, r) -> b = bits l ++ r /\ bytes l /\ (length l <= n)%nat /\ ((length l < n)%nat -> (length r < 8)%nat).
Proof.
  induction n as [|n IH]; intros b l r; cbn [getbytes].
  - intros [= <- <-]. cbn. repeat split; auto with lia. constructor.
  - destruct (getbits_cases 8 b) as [(v & r' & -> & -> & Hv)|[-> Hl]].
    + destruct (getbytes n r') as [l' r''] eqn:E. intros [= <- <-]. apply IH in E. destruct E as (-> & B & L & S). cbn [bits flat_map length].
      rewrite <- app_assoc. repeat split; auto with lia. constructor; [exact Hv|exact B].
    + intros [= <- <-]. cbn. repeat split; auto with lia. constructor.
Qed.
Definition aligned (p : nat) (b : list bool) : Prop := ((p + length b) mod 8 = 0)%nat.
Lemma pad_length p (b c : list bool) k : (k < 8)%nat -> ((p + k) mod 8 = 0)%nat -> ((p + length b) mod 8 = 0)%nat -> k = (length b mod 8)%nat.
Proof.
  intros K P B. assert (length b mod 8 < 8)%nat by (apply Nat.mod_upper_bound; lia).
  pose proof (Nat.div_mod (length b) 8 ltac:(lia)). pose proof (Nat.div_mod (p + k) 8 ltac:(lia)). pose proof (Nat.div_mod (p + length b) 8 ltac:(lia)). lia.
Qed.
Lemma dataBlock_complete p out pad x n r : ((p + length pad) mod 8 = 0)%nat -> (length pad < 8)%nat -> Z.of_nat (length x) = n -> n < 65536 -> bytes x ->
  aligned p ((pad ++ num 16 n ++ num 16 (65535 - n) ++ bits x) ++ r) ->
  dataBlock out ((pad ++ num 16 n ++ num 16 (65535 - n) ++ bits x) ++ r) = End (out ++ x) r.
Proof.
  intros Hp Lp En Hn Bx A. unfold dataBlock. set (b := (pad ++ _) ++ r) in *. rewrite <- (pad_length p b [] (length pad) Lp Hp A). subst b.
  rewrite <- !app_assoc. rewrite drop_app.
  rewrite app_assoc, num_cat by (change (2 ^ Z.of_nat 16) with 65536; lia). cbn [Nat.add]. rewrite getbits_num.
  2:{ change (2 ^ Z.of_nat 16) with 65536. change (2 ^ Z.of_nat 32) with 4294967296. lia. }
  cbn [step]. change (2 ^ Z.of_nat 16) with 65536.
  assert (V1 : (n + 65536 * (65535 - n)) mod 65536 = n) by (symmetry; apply (Z.mod_unique _ _ (65535 - n)); lia).
  assert (V2 : (n + 65536 * (65535 - n)) / 65536 = 65535 - n) by (symmetry; apply (Z.div_unique _ _ _ n); lia).
  rewrite V1, V2, Z.eqb_refl. cbn [negb]. replace (Z.to_nat n) with (length x) by lia. rewrite getbytes_complete by exact Bx. rewrite Nat.ltb_irrefl. reflexivity.
Qed.
Lemma dataBlock_sound p out b res r : aligned p b -> dataBlock out b = End res r ->
  exists pad x n, b = (pad ++ num 16 n ++ num 16 (65535 - n) ++ bits x) ++ r /\ res = out ++ x /\
    ((p + length pad) mod 8 = 0)%nat /\ (length pad < 8)%nat /\ Z.of_nat (length x) = n /\ n < 65536 /\ bytes x.
Proof.
  intros A. unfold dataBlock. set (k := (length b mod 8)%nat). destruct (getbits 32 (skipn k b)) as [v b1| |] eqn:G; cbn [step]; try discriminate.
  apply getbits_sound in G. change (2 ^ Z.of_nat 32) with 4294967296 in G. destruct G as [G Hv].
  destruct (Z.eqb_spec (v / 65536) (65535 - v mod 65536)) as [E|E]; cbn [negb]; [|discriminate].
  destruct (getbytes (Z.to_nat (v mod 65536)) b1) as [l r'] eqn:GB. apply getbytes_sound in GB. destruct GB as (-> & B & L & _).
  destruct (Nat.ltb_spec (length l) (Z.to_nat (v mod 65536))); [discriminate|]. intros [= <- <-].
  pose proof (Z.mod_pos_bound v 65536 ltac:(lia)) as Bm.
  assert (K8 : (k < 8)%nat) by (apply Nat.mod_upper_bound; lia). assert (Kb : (k <= length b)%nat) by (apply Nat.mod_le; lia).
  exists (firstn k b), l, (v mod 65536). rewrite firstn_length_le by exact Kb. repeat split; auto with lia.
  - rewrite <- (firstn_skipn k b) at 1. rewrite <- !app_assoc. f_equal. rewrite G. rewrite (app_assoc (num 16 _) (num 16 _)). f_equal.
    rewrite num_cat by (change (2 ^ Z.of_nat 16) with 65536; lia). cbn [Nat.add]. f_equal. change (2 ^ Z.of_nat 16) with 65536.
    pose proof (Z.div_mod v 65536 ltac:(lia)). lia.
  - unfold aligned, k in *. pose proof (Nat.div_mod (length b) 8 ltac:(lia)). pose proof (Nat.div_mod (p + length b) 8 ltac:(lia)).
    replace (p + length b mod 8)%nat with (0 + ((p + length b) / 8 - length b / 8) * 8)%nat by lia. rewrite Nat.mod_add by lia. reflexivity.
Qed.

(** The body of a block of kind [typ]. *)
Definition body (typ : Z) (out : list Z) (b : list bool) : ended :=
  if typ =? 0 then dataBlock out b
  else if typ =? 1 then huffmanBlock (S (length b)) fixedHuffmanDecoder None out b
  else if typ =? 2 then
    step (readHuffman b) out (fun hh b => huffmanBlock (S (length b)) hh.1 (Some hh.2) out b)
  else Failed false out.
Lemma inflate_S fuel out b : inflate (S fuel) out b = step (getbits 3 b) out (fun v b =>
  match body (v / 2) out b with
  | End out b => if v mod 2 =? 1 then End out b else inflate fuel out b
  | Failed s out => Failed s out
  end).
Proof. reflexivity. Qed.
Lemma aligned_app p a b : aligned p (a ++ b) <-> aligned (p + length a) b.
Proof. unfold aligned. rewrite app_length, Nat.add_assoc. reflexivity. Qed.
Lemma aligned_cons p x b : aligned p (x :: b) <-> aligned (S p) b.
Proof. unfold aligned. cbn [length]. rewrite Nat.add_succ_r. reflexivity. Qed.
Lemma block_complete p out w res r : block p out w res -> aligned p (w ++ r) ->
  exists typ w', 0 <= typ < 4 /\ w = num 2 typ ++ w' /\ body typ out (w' ++ r) = End res r.
Proof.
  intros [pad x n Hp Lp En Hn Bx|w0 res' S|ll dl h w0 res' D S] A.
  - exists 0, (pad ++ num 16 n ++ num 16 (65535 - n) ++ bits x). split; [lia|]. split; [reflexivity|]. change (body 0) with dataBlock.
    rewrite <- app_assoc in A. apply aligned_app in A. rewrite num_length in A. apply (dataBlock_complete (p + 2)); assumption.
  - exists 1, w0. split; [lia|]. split; [reflexivity|]. change (body 1 out (w0 ++ r)) with (huffmanBlock (Datatypes.S (length (w0 ++ r))) fixedHuffmanDecoder None out (w0 ++ r)).
    destruct fixed_table as [T1 T2]. apply (huffmanBlock_complete _ _ fixed_ll fixed_dl); auto. rewrite app_length. lia.
  - exists 2, (h ++ w0). split; [lia|]. split; [reflexivity|]. unfold body. change (2 =? 0) with false. change (2 =? 1) with false. change (2 =? 2) with true. cbv iota.
    destruct (readHuffman_complete h ll dl (w0 ++ r) D) as (hl & hd & E & T1 & T2). rewrite <- app_assoc, E. cbn [step fst snd].
    apply (huffmanBlock_complete _ _ ll dl); auto. rewrite app_length. lia.
Qed.
Lemma block_sound p out typ b res r : 0 <= typ < 4 -> aligned (p + 2) b -> body typ out b = End res r ->
  exists w, b = w ++ r /\ block p out (num 2 typ ++ w) res.
Proof.
  intros Ht A. unfold body. destruct (Z.eqb_spec typ 0) as [->|N0]; [|destruct (Z.eqb_spec typ 1) as [->|N1]; [|destruct (Z.eqb_spec typ 2) as [->|N2]; [|discriminate]]].
  - intros H. apply (dataBlock_sound (p + 2)) in H; [|exact A]. destruct H as (pad & x & n & -> & -> & Hp & Lp & En & Hn & Bx).
    exists (pad ++ num 16 n ++ num 16 (65535 - n) ++ bits x). split; [reflexivity|]. apply b_stored; assumption.
  - intros H. destruct fixed_table as [T1 T2]. apply (huffmanBlock_sound _ _ fixed_ll fixed_dl) in H; [|exact (proj1 T1)|exact T2].
    destruct H as (w & -> & S). exists w. split; [reflexivity|]. apply b_fixed. exact S.
  - destruct (readHuffman b) as [[hl hd] b1| |] eqn:E; cbn [step fst snd]; try discriminate. apply readHuffman_sound in E.
    destruct E as (h & ll & dl & -> & D & T1 & T2). intros H. apply (huffmanBlock_sound _ _ ll dl) in H; [|exact (proj1 T1)|exact T2].
    destruct H as (w & -> & S). exists (h ++ w). split; [rewrite <- app_assoc; reflexivity|]. apply (b_dynamic p out ll dl h w); assumption.
Qed.
Lemma three_bits f typ : f :: num 2 typ = num 3 (Z.b2z f + 2 * typ).
Proof. rewrite (num_S 2), odd_b2z, div2_b2z. reflexivity. Qed.
Lemma step_block f p out w res r fuel : block (S p) out w res -> aligned p (f :: w ++ r) ->
  inflate (S fuel) out (f :: w ++ r) = if f then End res r else inflate fuel res r.
Proof.
  intros B A. apply aligned_cons in A. destruct (block_complete _ _ _ _ _ B A) as (typ & w' & Ht & -> & E).
  rewrite inflate_S. rewrite <- app_assoc, app_comm_cons, three_bits, getbits_num.
  2:{ change (2 ^ Z.of_nat 3) with 8. destruct f; cbn [Z.b2z]; lia. }
  cbn [step]. rewrite div2_b2z, E. rewrite Z.mul_comm, Z.mod_add by lia. destruct f; reflexivity.
Qed.
Lemma blocks_complete p out ws mid : blocks p out ws mid -> forall rest, aligned p (ws ++ rest) ->
  exists k, (k <= length ws)%nat /\ forall fuel, inflate (k + fuel) out (ws ++ rest) = inflate fuel mid rest.
Proof.
  intros H. induction H as [p out|p out w mid ws res B H IH]; intros rest A.
  - exists 0%nat. split; [cbn; lia|]. reflexivity.
  - destruct (IH rest) as (k & Lk & E).
    { cbn [app] in A. rewrite <- app_assoc, app_comm_cons in A. apply aligned_app in A. exact A. }
    exists (S k). split; [cbn [length]; rewrite app_length; lia|]. intros fuel. cbn [app Nat.add]. rewrite <- app_assoc.
    cbn [app] in A. rewrite <- app_assoc in A. rewrite (step_block false p out w mid (ws ++ rest) (k + fuel) B A). apply E.
Qed.
Lemma deflated_complete w x r fuel : deflated w x -> aligned 0 (w ++ r) -> (length w < fuel)%nat -> inflate fuel [] (w ++ r) = End x r.
Proof.
  intros (ws & mid & wl & B & L & ->) A Hf. rewrite <- app_assoc in *. destruct (blocks_complete _ _ _ _ B _ A) as (k & Lk & E).
  rewrite app_length in Hf. cbn [length] in Hf. replace fuel with (k + S (fuel - k - 1))%nat by lia. rewrite E.
  apply aligned_app in A. cbn [app Nat.add] in *. apply (step_block true (length ws)); assumption.
Qed.
Lemma inflate_sound fuel : forall p out b res r, aligned p b -> inflate fuel out b = End res r ->
  exists ws mid wl, b = (ws ++ true :: wl) ++ r /\ blocks p out ws mid /\ block (S (p + length ws)) mid wl res.
Proof.
  induction fuel as [|fuel IH]; intros p out b res r A; [discriminate|]. rewrite inflate_S.
  destruct (getbits 3 b) as [v b1| |] eqn:G; cbn [step]; try discriminate. apply getbits_sound in G. change (2 ^ Z.of_nat 3) with 8 in G. destruct G as [-> Hv].
  assert (Ht : 0 <= v / 2 < 4) by (split; [apply Z.div_pos; lia|apply Z.div_lt_upper_bound; lia]).
  set (f := (v mod 2 =? 1)). assert (Ev : v = Z.b2z f + 2 * (v / 2)).
  { pose proof (Z.div_mod v 2 ltac:(lia)). pose proof (Z.mod_pos_bound v 2 ltac:(lia)). unfold f. destruct (Z.eqb_spec (v mod 2) 1); cbn [Z.b2z]; lia. }
  assert (En : num 3 v = f :: num 2 (v / 2)) by (rewrite Ev at 1; symmetry; apply three_bits). rewrite En in *. cbn [app] in A.
  apply aligned_cons in A. apply aligned_app in A as A'. rewrite num_length in A'.
  destruct (body (v / 2) out b1) as [out' b2|s o] eqn:E; [|discriminate].
  destruct (block_sound (S p) out (v / 2) b1 out' b2 Ht A' E) as (w & -> & B).
  destruct f.
  - intros [= <- <-]. exists [], out, (num 2 (v / 2) ++ w). cbn [app length]. rewrite <- app_assoc, Nat.add_0_r. split; [reflexivity|]. split; [constructor|exact B].
  - intros H. apply (IH (p + length (false :: num 2 (v / 2) ++ w))%nat) in H.
    2:{ rewrite app_assoc in A. apply aligned_app in A. cbn [length]. rewrite Nat.add_succ_r. exact A. }
    destruct H as (ws & mid & wl & -> & BS & BL). exists (false :: (num 2 (v / 2) ++ w) ++ ws), mid, wl. split; [|split].
    + rewrite <- !app_assoc. cbn [app]. rewrite <- !app_assoc. reflexivity.
    + apply (bs_more _ _ _ out'); assumption.
    + replace (p + length (false :: (num 2 (v / 2) ++ w) ++ ws))%nat with (p + length (false :: num 2 (v / 2) ++ w) + length ws)%nat; [exact BL|].
      cbn [length]. rewrite !app_length. lia.
Qed.
Lemma deflated_sound fuel b x r : aligned 0 b -> inflate fuel [] b = End x r -> exists w, b = w ++ r /\ deflated w x.
Proof.
  intros A H. apply (inflate_sound fuel 0) in H; [|exact A]. destruct H as (ws & mid & wl & -> & B & L). exists (ws ++ true :: wl). split; [reflexivity|].
  exists ws, mid, wl. auto.
Qed.

Lemma aligned_bits bs : aligned 0 (bits bs).
Proof. unfold aligned. rewrite bits_length. cbn [Nat.add]. rewrite Nat.mul_comm. apply Nat.mod_mul. lia. Qed.
(** The reader of deflate: what it delivers, and what it leaves. *)
Lemma flate_complete s x tail : deflate s x -> flate (s ++ tail) = (x, Some tail).
Proof.
  intros [Bs (w & fill & E & Lf & D)]. unfold flate. rewrite bits_of_bits, bits_app, E, <- app_assoc.
  rewrite (deflated_complete w x); [|exact D| |].
  - f_equal. f_equal. rewrite !app_length, bits_length.
    replace ((length fill + 8 * length tail) / 8)%nat with (length tail).
    + replace (length s + length tail - length tail)%nat with (length s) by lia. apply drop_app.
    + rewrite Nat.mul_comm, Nat.div_add by lia. rewrite Nat.div_small by exact Lf. reflexivity.
  - rewrite app_assoc, <- E, <- bits_app. apply aligned_bits.
  - rewrite !app_length. lia.
Qed.
Lemma flate_sound bs x tail : bytes bs -> flate bs = (x, Some tail) -> exists s, bs = s ++ tail /\ deflate s x.
Proof.
  intros Bs. unfold flate. rewrite bits_of_bits. destruct (inflate _ [] (bits bs)) as [o r|s o] eqn:E; [|discriminate]. intros [= -> <-].
  apply deflated_sound in E; [|apply aligned_bits]. destruct E as (w & E & D).
  set (k := (length bs - length r / 8)%nat). exists (firstn k bs). split; [symmetry; apply firstn_skipn|]. split; [apply Forall_take; exact Bs|].
  assert (Lr : (8 * (length r / 8) + length r mod 8 = length r)%nat) by (symmetry; apply Nat.div_mod; lia).
  assert (Lb : (length w + length r = 8 * length bs)%nat) by (rewrite <- bits_length, E, app_length; reflexivity).
  assert (R8 : (length r mod 8 < 8)%nat) by (apply Nat.mod_upper_bound; lia).
  exists w, (firstn (length r mod 8) r). split; [|split; [rewrite firstn_length; lia|exact D]].
  assert (H : bits (firstn k bs) = firstn (8 * k) (bits bs)).
  { transitivity (firstn (8 * k) (bits (firstn k bs ++ skipn k bs))); [|rewrite firstn_skipn; reflexivity]. symmetry. rewrite bits_app. rewrite firstn_app, bits_length, firstn_length_le by (unfold k; lia).
    rewrite Nat.sub_diag, firstn_O, app_nil_r, firstn_all2; [reflexivity|]. rewrite bits_length, firstn_length_le by (unfold k; lia). lia. }
  rewrite H, E, firstn_app. f_equal; [apply firstn_all2; unfold k; lia|]. f_equal. unfold k. lia.
Qed.
