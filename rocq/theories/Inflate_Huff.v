(** Bits and Huffman codes: the tables of [huff_init] are the codes of RFC 1951 (lemmas for C135-C138). *)
From stdpp Require Import list.
From Coq Require Import ZArith Lia Bool.
From Verif Require Import GoInt Hash_Model Inflate_Model Inflate_Spec.
Local Open Scope Z_scope.

(** ** Numbers and bits *)
Fixpoint val (b : list bool) : Z := match b with [] => 0 | x :: b => Z.b2z x + 2 * val b end.
Lemma num_length k v : length (num k v) = k.
Proof. unfold num. rewrite map_length, seq_length. reflexivity. Qed.
Lemma num_S k v : num (S k) v = Z.odd v :: num k (v / 2).
Proof.
  unfold num. cbn [seq map]. change (Z.of_nat 0) with 0. rewrite Z.bit0_odd. f_equal.
  rewrite <- seq_shift, map_map. apply map_ext. intros i. rewrite Nat2Z.inj_succ, <- Z.div2_div, Z.div2_spec, Z.shiftr_spec by lia.
  f_equal.
Qed.
Lemma num_0 v : num 0 v = []. Proof. reflexivity. Qed.
Lemma val_range b : 0 <= val b < 2 ^ Z.of_nat (length b).
Proof.
  induction b as [|x b IH]; cbn [val length]; [cbn; lia|]. rewrite Nat2Z.inj_succ, Z.pow_succ_r by lia. destruct x; cbn [Z.b2z]; lia.
Qed.
Lemma odd_b2z x v : Z.odd (Z.b2z x + 2 * v) = x.
Proof. rewrite Z.odd_add, Z.odd_mul. destruct x; reflexivity. Qed.
Lemma div2_b2z x v : (Z.b2z x + 2 * v) / 2 = v.
Proof. rewrite Z.mul_comm, Z.div_add by lia. destruct x; cbn; lia. Qed.
Lemma num_val b : num (length b) (val b) = b.
Proof.
  induction b as [|x b IH]; [reflexivity|]. cbn [length val]. rewrite num_S, odd_b2z, div2_b2z, IH. reflexivity.
Qed.
Lemma val_num k : forall v, 0 <= v < 2 ^ Z.of_nat k -> val (num k v) = v.
Proof.
  induction k as [|k IH]; intros v Hv.
  - cbn in *. lia.
  - rewrite num_S. cbn [val]. rewrite Nat2Z.inj_succ, Z.pow_succ_r in Hv by lia.
    rewrite IH by (split; [apply Z.div_pos; lia|apply Z.div_lt_upper_bound; lia]).
    rewrite (Z.div_mod v 2) at 3 by lia. rewrite Zmod_odd. destruct (Z.odd v); cbn [Z.b2z]; lia.
Qed.
Lemma num_app j k v : num (j + k) v = num j v ++ num k (v / 2 ^ Z.of_nat j).
Proof.
  revert v. induction j as [|j IH]; intros v.
  - cbn [Nat.add app num]. rewrite Z.div_1_r. reflexivity.
  - cbn [Nat.add]. rewrite !num_S, IH. cbn [app]. do 3 f_equal. rewrite Nat2Z.inj_succ, Z.pow_succ_r by lia.
    rewrite Z.div_div by lia. reflexivity.
Qed.

Lemma getbits_num k : forall v r, 0 <= v < 2 ^ Z.of_nat k -> getbits k (num k v ++ r) = Got v r.
Proof.
  induction k as [|k IH]; intros v r Hv.
  - cbn in Hv. assert (v = 0) as -> by lia. reflexivity.
  - rewrite num_S. cbn [app getbits]. rewrite Nat2Z.inj_succ, Z.pow_succ_r in Hv by lia.
    rewrite IH by (split; [apply Z.div_pos; lia|apply Z.div_lt_upper_bound; lia]). cbn [bind]. f_equal.
    rewrite (Z.div_mod v 2) at 3 by lia. rewrite Zmod_odd. destruct (Z.odd v); cbn [Z.b2z]; lia.
Qed.
Lemma getbits_cases k : forall b, (exists v r, getbits k b = Got v r /\ b = num k v ++ r /\ 0 <= v < 2 ^ Z.of_nat k) \/ (getbits k b = Short /\ (length b < k)%nat).
Proof.
  induction k as [|k IH]; intros b.
  - left. exists 0, b. cbn. auto with lia.
  - destruct b as [|x b]; [right; cbn; auto with lia|]. cbn [getbits]. destruct (IH b) as [(v & r & -> & -> & Hv)|[-> Hl]].
    + left. exists (Z.b2z x + 2 * v), r. cbn [bind]. split; [reflexivity|]. rewrite num_S, odd_b2z, div2_b2z. split; [reflexivity|].
      rewrite Nat2Z.inj_succ, Z.pow_succ_r by lia. destruct x; cbn [Z.b2z]; lia.
    + right. cbn. auto with lia.
Qed.
Lemma getbits_sound k b v r : getbits k b = Got v r -> b = num k v ++ r /\ 0 <= v < 2 ^ Z.of_nat k.
Proof.
  destruct (getbits_cases k b) as [(v' & r' & -> & Hb & Hv)|[-> _]]; [|discriminate]. intros [= <- <-]. auto.
Qed.
Lemma getbits_not_corrupt k b : getbits k b <> Corrupt.
Proof. destruct (getbits_cases k b) as [(v & r & -> & _)|[-> _]]; discriminate. Qed.
Lemma getbits_more k b v r m : getbits k b = Got v r -> getbits k (b ++ m) = Got v (r ++ m).
Proof. intros [-> Hv]%getbits_sound. rewrite <- app_assoc. apply getbits_num. exact Hv. Qed.

(** ** Sums *)
Lemma sum_app a b : sum (a ++ b) = sum a + sum b.
Proof. unfold sum. induction a; cbn; lia. Qed.
Lemma sum_map_add {A} (f g : A -> Z) l : sum (map (fun x => f x + g x) l) = sum (map f l) + sum (map g l).
Proof. unfold sum. induction l; cbn; lia. Qed.
Lemma sum_map_mul {A} (f : A -> Z) c l : sum (map (fun x => c * f x) l) = c * sum (map f l).
Proof. unfold sum. induction l; cbn; lia. Qed.
Lemma sum_map_le {A} (f g : A -> Z) l : (forall x, In x l -> f x <= g x) -> sum (map f l) <= sum (map g l).
Proof. unfold sum. induction l as [|x l IH]; cbn; intros H; [lia|]. specialize (H x (or_introl eq_refl)) as H1. assert (IH' := IH (fun y Hy => H y (or_intror Hy))). lia. Qed.
Lemma sum_map_nonneg {A} (f : A -> Z) l : (forall x, In x l -> 0 <= f x) -> 0 <= sum (map f l).
Proof. unfold sum. induction l as [|x l IH]; cbn; intros H; [lia|]. specialize (H x (or_introl eq_refl)) as H1. assert (IH' := IH (fun y Hy => H y (or_intror Hy))). lia. Qed.
Lemma sum_map_ext_in {A} (f g : A -> Z) l : (forall x, In x l -> f x = g x) -> sum (map f l) = sum (map g l).
Proof. intros H. f_equal. apply map_ext_in. exact H. Qed.
(** One summand more. *)
Lemma sum_map_one (f g : nat -> Z) n t c : (t < n)%nat -> (forall x, (x < n)%nat -> f x <= g x) -> f t + c <= g t ->
  sum (map f (seq 0 n)) + c <= sum (map g (seq 0 n)).
Proof.
  intros Ht H Hc. replace n with (t + S (n - t - 1))%nat by lia. rewrite seq_app, !map_app, !sum_app. cbn [seq map sum fold_right Nat.add].
  assert (A1 := sum_map_le f g (seq 0 t)). assert (A2 := sum_map_le f g (seq (S t) (n - t - 1))).
  specialize (A1 ltac:(intros x Hx; apply in_seq in Hx; apply H; lia)). specialize (A2 ltac:(intros x Hx; apply in_seq in Hx; apply H; lia)).
  unfold sum in *. lia.
Qed.
Lemma sum_nth (f : nat -> Z) l : sum (map (fun t => f (nth t l 0%nat)) (seq 0 (length l))) = sum (map f l).
Proof.
  assert (H : forall l k, sum (map (fun t => f (nth (t - k) l 0%nat)) (seq k (length l))) = sum (map f l)).
  { clear l. induction l as [|x l IH]; intros k; [reflexivity|]. cbn [length seq map]. unfold sum in *. cbn [fold_right]. rewrite Nat.sub_diag. cbn [nth].
    f_equal. rewrite <- (IH (S k)). apply (sum_map_ext_in (fun t => f (nth (t - k) (x :: l) 0%nat))). intros t Ht. apply in_seq in Ht. replace (t - k)%nat with (S (t - S k)) by lia. reflexivity. }
  rewrite <- (H l 0%nat). apply sum_map_ext_in. intros t _. rewrite Nat.sub_0_r. reflexivity.
Qed.

(** ** The codes *)
Lemma before_iff lens t s : before lens t s = true <-> (0 < len lens t)%nat /\ ((len lens t < len lens s)%nat \/ (len lens t = len lens s /\ (t < s)%nat)).
Proof. unfold before. rewrite andb_true_iff, orb_true_iff, andb_true_iff, !Nat.ltb_lt, Nat.eqb_eq. reflexivity. Qed.
Lemma len_lt lens s : (0 < len lens s)%nat -> (s < length lens)%nat.
Proof. unfold len. intros H. destruct (le_lt_dec (length lens) s) as [L|L]; [|exact L]. rewrite nth_overflow in H by exact L. lia. Qed.
Lemma len_le lens n s : Forall (fun l => (l <= n)%nat) lens -> (len lens s <= n)%nat.
Proof.
  intros H. unfold len. destruct (le_lt_dec (length lens) s) as [L|L]; [rewrite nth_overflow by exact L; lia|].
  rewrite List.Forall_forall in H. apply H. apply nth_In. exact L.
Qed.
Lemma code_nonneg lens s : 0 <= code lens s.
Proof. apply sum_map_nonneg. intros t _. destruct (before lens t s); [apply Z.pow_nonneg; lia|lia]. Qed.
Lemma code_step lens t s : before lens t s = true -> (code lens t + 1) * 2 ^ Z.of_nat (len lens s - len lens t) <= code lens s.
Proof.
  intros B. pose proof (proj1 (before_iff _ _ _) B) as [P Q]. rewrite Z.mul_add_distr_r, Z.mul_1_l, Z.mul_comm. unfold code at 1. rewrite <- sum_map_mul.
  unfold code. apply (sum_map_one _ _ _ t). { apply len_lt. exact P. }
  - intros u _. destruct (before lens u t) eqn:U.
    + apply before_iff in U. assert (before lens u s = true) as -> by (apply before_iff; lia). rewrite <- Z.pow_add_r by lia. apply Z.eq_le_incl. f_equal. lia.
    + rewrite Z.mul_0_r. destruct (before lens u s); [apply Z.pow_nonneg; lia|lia].
  - rewrite B. destruct (before lens t t) eqn:U; [apply before_iff in U; lia|]. lia.
Qed.
Lemma room_index lens : room lens = sum (map (fun t => if (len lens t =? 0)%nat then 0 else 2 ^ (15 - Z.of_nat (len lens t))) (seq 0 (length lens))).
Proof. symmetry. exact (sum_nth (fun n => if (n =? 0)%nat then 0 else 2 ^ (15 - Z.of_nat n)) lens). Qed.
Lemma code_room lens s : Forall (fun n => (n <= 15)%nat) lens -> (0 < len lens s)%nat -> (code lens s + 1) * 2 ^ (15 - Z.of_nat (len lens s)) <= room lens.
Proof.
  intros F P. pose proof (len_le lens 15 s F) as L. rewrite Z.mul_add_distr_r, Z.mul_1_l, Z.mul_comm. unfold code. rewrite <- sum_map_mul, room_index.
  apply (sum_map_one _ _ _ s). { apply len_lt. exact P. }
  - intros u _. pose proof (len_le lens 15 u F) as Lu. destruct (before lens u s) eqn:U.
    + apply before_iff in U. destruct (Nat.eqb_spec (len lens u) 0); [lia|]. rewrite <- Z.pow_add_r by lia. apply Z.eq_le_incl. f_equal. lia.
    + rewrite Z.mul_0_r. destruct (len lens u =? 0)%nat; [lia|apply Z.pow_nonneg; lia].
  - destruct (before lens s s) eqn:U; [apply before_iff in U; lia|]. destruct (Nat.eqb_spec (len lens s) 0); lia.
Qed.
Lemma usable_room lens : usable lens -> room lens <= 2 ^ 15.
Proof.
  intros [_ [H|[(a & b & ->)|H]]]; [lia| |].
  - unfold room. rewrite !map_app, !sum_app.
    assert (Z0 : forall k, sum (map (fun n => if (n =? 0)%nat then 0 else 2 ^ (15 - Z.of_nat n)) (repeat 0%nat k)) = 0).
    { induction k as [|k IH]; [reflexivity|]. cbn [repeat map sum fold_right]. exact IH. }
    rewrite !Z0. vm_compute. discriminate.
  - rewrite H. unfold room. generalize (length lens) as k. induction k as [|k IH]; [discriminate|]. cbn [repeat map sum fold_right]. exact IH.
Qed.
Lemma code_range lens s : usable lens -> (0 < len lens s)%nat -> 0 <= code lens s < 2 ^ Z.of_nat (len lens s).
Proof.
  intros U P. split; [apply code_nonneg|]. pose proof (code_room lens s (proj1 U) P) as H. pose proof (usable_room lens U) as R.
  pose proof (len_le lens 15 s (proj1 U)) as L.
  assert (E : 2 ^ 15 = 2 ^ Z.of_nat (len lens s) * 2 ^ (15 - Z.of_nat (len lens s))) by (rewrite <- Z.pow_add_r by lia; f_equal; lia).
  assert (0 < 2 ^ (15 - Z.of_nat (len lens s))) by (apply Z.pow_pos_nonneg; lia). nia.
Qed.
Lemma before_total lens s t : (0 < len lens s)%nat -> (0 < len lens t)%nat -> s <> t -> before lens s t = true \/ before lens t s = true.
Proof. intros. rewrite !before_iff. lia. Qed.
(** The number read so far, of bits the highest of which comes first. *)
Lemma rev_num_firstn k j v : (j <= k)%nat -> firstn j (rev (num k v)) = rev (num j (v / 2 ^ Z.of_nat (k - j))).
Proof.
  intros H. replace k with ((k - j) + j)%nat at 1 by lia. rewrite num_app, rev_app_distr.
  rewrite <- (num_length j (v / 2 ^ Z.of_nat (k - j))) at 1. rewrite <- rev_length. apply firstn_app_exact || (rewrite firstn_app, Nat.sub_diag, firstn_O, app_nil_r, firstn_all; reflexivity).
Qed.
Lemma num_inj k a b : 0 <= a < 2 ^ Z.of_nat k -> 0 <= b < 2 ^ Z.of_nat k -> num k a = num k b -> a = b.
Proof. intros Ha Hb E. rewrite <- (val_num k a Ha), <- (val_num k b Hb), E. reflexivity. Qed.
(** No code is the beginning of another. *)
Lemma prefix_free lens s t : usable lens -> (0 < len lens s)%nat -> (0 < len lens t)%nat -> (len lens t <= len lens s)%nat ->
  code lens s / 2 ^ Z.of_nat (len lens s - len lens t) = code lens t -> s = t.
Proof.
  intros U Hs Ht L E. destruct (Nat.eq_dec s t) as [|N]; [assumption|exfalso].
  destruct (before_total lens s t Hs Ht N) as [B|B].
  - pose proof (code_step _ _ _ B) as H. apply before_iff in B. assert (EL : len lens s = len lens t) by lia.
    rewrite EL, Nat.sub_diag in *. change (2 ^ Z.of_nat 0) with 1 in *. rewrite Z.div_1_r in E. lia.
  - pose proof (code_step _ _ _ B) as H.
    assert (P : 0 < 2 ^ Z.of_nat (len lens s - len lens t)) by (apply Z.pow_pos_nonneg; lia).
    pose proof (Z.div_le_mono _ _ _ P H) as D. rewrite Z.div_mul in D by lia. lia.
Qed.

(** ** The tables *)
Lemma max_len_spec lens : Forall (fun n => (n <= max_len lens)%nat) lens /\ (max_len lens = 0%nat \/ In (max_len lens) lens).
Proof.
  unfold max_len.
  assert (H : forall l a, let m := fold_left (fun mx n => if (mx <? n)%nat then n else mx) l a in
    (a <= m)%nat /\ Forall (fun n => (n <= m)%nat) l /\ (m = a \/ In m l)).
  { induction l as [|x l IH]; intros a; cbn [fold_left]; [auto|]. destruct (IH (if (a <? x)%nat then x else a)) as (A & B & C).
    cbv zeta in *. destruct (Nat.ltb_spec a x); (split; [lia|]); (split; [constructor; [lia|exact B]|]); cbn [In]; intuition. }
  destruct (H lens 0%nat) as (_ & B & C). tauto.
Qed.
Lemma min_len_spec lens : (forall s, (0 < len lens s)%nat -> (0 < min_len lens <= len lens s)%nat) /\ (min_len lens = 0%nat \/ In (min_len lens) lens).
Proof.
  unfold min_len. set (f := fun mn n : nat => if (n =? 0)%nat then mn else if (mn =? 0)%nat || (n <? mn)%nat then n else mn).
  assert (H : forall l a, let m := fold_left f l a in
    ((0 < a)%nat -> (0 < m <= a)%nat) /\ Forall (fun n => (0 < n)%nat -> (0 < m <= n)%nat) l /\ (m = a \/ In m l)).
  { induction l as [|x l IH]; intros a; cbn [fold_left]; [cbn; auto with lia|]. destruct (IH (f a x)) as (A & B & C).
    cbv zeta in *. remember (f a x) as y eqn:Ey. unfold f in Ey. remember (fold_left f l y) as m eqn:Em. clear Em IH.
    destruct (Nat.eqb_spec x 0) as [X|X]; [|destruct (Nat.eqb_spec a 0) as [Y|Y]; [|destruct (Nat.ltb_spec x a)]]; cbn [orb] in Ey; subst y;
      (split; [lia|]); (split; [constructor; [lia|exact B]|]); cbn [In]; intuition lia. }
  destruct (H lens 0%nat) as (_ & B & C). split; [|tauto]. intros s P.
  rewrite List.Forall_forall in B. apply B; [|exact P]. apply nth_In. apply len_lt. exact P.
Qed.

(** The first code of length [i]. *)
Definition first_code (lens : list nat) (i : nat) : Z :=
  sum (map (fun n => if (0 <? n)%nat && (n <? i)%nat then 2 ^ Z.of_nat (i - n) else 0) lens).
Lemma count_sum lens i : count lens i = sum (map (fun n => if (n =? i)%nat then 1 else 0) lens).
Proof.
  unfold count. induction lens as [|n lens IH]; [reflexivity|]. rewrite filter_cons. unfold sum in *. cbn [map fold_right].
  destruct (decide (n = i)) as [->|N]; [rewrite Nat.eqb_refl; cbn [length]; lia|]. destruct (Nat.eqb_spec n i); [lia|]. lia.
Qed.
Lemma first_code_S lens i : (0 < i)%nat -> first_code lens (S i) = 2 * (first_code lens i + count lens i).
Proof.
  intros Hi. rewrite count_sum. unfold first_code. rewrite <- sum_map_add, <- sum_map_mul. apply sum_map_ext_in. intros n _.
  destruct (Nat.ltb_spec 0 n); cbn [andb].
  - destruct (Nat.ltb_spec n (S i)), (Nat.ltb_spec n i), (Nat.eqb_spec n i); try lia.
    + replace (Z.of_nat (S i - n)) with (Z.succ (Z.of_nat (i - n))) by lia. rewrite Z.pow_succ_r by lia. lia.
    + subst. replace (S i - i)%nat with 1%nat by lia. reflexivity.
  - destruct (Nat.eqb_spec n i); lia.
Qed.
Lemma nextcodes_spec lens n : forall i c nc nc' c', 2 * c = first_code lens i -> (0 < i)%nat -> (i + n <= length nc)%nat ->
  nextcodes lens n i c nc = (nc', c') ->
  2 * c' = first_code lens (i + n) /\ length nc' = length nc /\
  forall l, nth l nc' 0 = if (i <=? l)%nat && (l <? i + n)%nat then first_code lens l else nth l nc 0.
Proof.
  induction n as [|n IH]; intros i c nc nc' c' Hc Hi Hl; cbn [nextcodes].
  - intros [= <- <-]. rewrite Nat.add_0_r. split; [exact Hc|]. split; [reflexivity|]. intros l.
    destruct (Nat.leb_spec i l), (Nat.ltb_spec l i); cbn [andb]; (lia || reflexivity).
  - intros E. apply IH in E; [|rewrite first_code_S by exact Hi; lia|lia|rewrite insert_length; lia].
    destruct E as (A & B & C). split; [rewrite A; f_equal; lia|]. split; [rewrite B, insert_length; reflexivity|].
    intros l. rewrite C. destruct (Nat.eq_dec l i) as [->|N].
    + destruct (Nat.leb_spec (S i) i); [lia|]. cbn [andb]. destruct (Nat.leb_spec i i); [|lia]. destruct (Nat.ltb_spec i (i + S n)); [|lia]. cbn [andb].
      rewrite !nth_lookup, list_lookup_insert by lia. cbn. exact Hc.
    + rewrite !nth_lookup, list_lookup_insert_ne by auto.
      destruct (Nat.leb_spec (S i) l), (Nat.leb_spec i l), (Nat.ltb_spec l (S i + n)), (Nat.ltb_spec l (i + S n)); cbn [andb]; (lia || reflexivity).
Qed.
Lemma code_split lens s : (0 < len lens s)%nat -> code lens s = first_code lens (len lens s) + count (firstn s lens) (len lens s).
Proof.
  intros P. pose proof (len_lt lens s P) as Hs. set (ls := len lens s) in *.
  rewrite count_sum. unfold code, first_code. fold ls.
  rewrite <- (sum_nth (fun n => if (0 <? n)%nat && (n <? ls)%nat then 2 ^ Z.of_nat (ls - n) else 0) lens).
  rewrite <- (sum_nth (fun n => if (n =? ls)%nat then 1 else 0) (firstn s lens)). rewrite firstn_length_le by lia.
  assert (E : sum (map (fun t => if (nth t (firstn s lens) 0 =? ls)%nat then 1 else 0) (seq 0 s))
            = sum (map (fun t => if (nth t lens 0 =? ls)%nat && (t <? s)%nat then 1 else 0) (seq 0 (length lens)))).
  { replace (length lens) with (s + (length lens - s))%nat by lia. rewrite seq_app, map_app, sum_app.
    rewrite (sum_map_ext_in (fun t => if (nth t lens 0 =? ls)%nat && (t <? s)%nat then 1 else 0) (fun _ => 0 * 0) (seq (0 + s) _)).
    2:{ intros t Ht. apply in_seq in Ht. destruct (Nat.ltb_spec t s); [lia|]. rewrite andb_false_r. reflexivity. }
    rewrite sum_map_mul, Z.mul_0_l, Z.add_0_r. apply sum_map_ext_in. intros t Ht. apply in_seq in Ht.
    destruct (Nat.ltb_spec t s); [|lia]. rewrite andb_true_r.
    rewrite !nth_lookup, lookup_take by lia. reflexivity. }
  rewrite E, <- sum_map_add. apply sum_map_ext_in. intros t _. unfold before. fold ls. fold (len lens t).
  destruct (Nat.ltb_spec 0 (len lens t)); cbn [andb].
  - destruct (Nat.ltb_spec (len lens t) ls), (Nat.eqb_spec (len lens t) ls); cbn [andb orb]; try lia.
    destruct (Nat.ltb_spec t s); [|reflexivity]. replace (ls - len lens t)%nat with 0%nat by lia. reflexivity.
  - destruct (Nat.eqb_spec (len lens t) ls); [lia|]. reflexivity.
Qed.
Lemma count_app a b i : count (a ++ b) i = count a i + count b i.
Proof. rewrite !count_sum, map_app, sum_app. reflexivity. Qed.
Lemma assign_spec lens : Forall (fun n => (n <= 15)%nat) lens -> forall rest pre nc, lens = pre ++ rest -> length nc = 16%nat ->
  (forall s, (length pre <= s)%nat -> (0 < len lens s)%nat -> nth (len lens s) nc 0 = first_code lens (len lens s) + count pre (len lens s)) ->
  forall n c s, In (n, c, s) (assign rest (length pre) nc) <-> (length pre <= s)%nat /\ (0 < len lens s)%nat /\ n = len lens s /\ c = code lens s.
Proof.
  intros F rest. induction rest as [|x rest IH]; intros pre nc E Hl H n c s; cbn [assign].
  - cbn [In]. split; [tauto|]. intros (A & B & _). apply len_lt in B. rewrite E, app_nil_r in B. lia.
  - assert (Ex : len lens (length pre) = x). { unfold len. rewrite E, app_nth2, Nat.sub_diag by lia. reflexivity. }
    assert (Lp : length (pre ++ [x]) = S (length pre)) by (rewrite app_length; cbn; lia).
    assert (E' : lens = (pre ++ [x]) ++ rest) by (rewrite <- app_assoc; exact E).
    assert (HS : forall P : nat -> Prop, (length pre <= s)%nat -> P (length pre) -> (forall s, (S (length pre) <= s)%nat -> P s) -> P s).
    { intros P L P0 PS. destruct (Nat.eq_dec s (length pre)) as [->|]; [exact P0|apply PS; lia]. }
    destruct (Nat.eqb_spec x 0) as [X|X].
    + pose proof (IH (pre ++ [x]) nc E' Hl) as IH'. rewrite Lp in IH'. rewrite IH'.
      * split; [intros (A & B); auto with lia|]. intros (A & B & C). split; [|auto].
        destruct (Nat.eq_dec s (length pre)) as [->|]; [lia|lia].
      * intros t Ht Pt. rewrite H by (exact Pt || lia). rewrite count_app, (count_sum [x]). cbn. destruct (Nat.eqb_spec x (len lens t)); lia.
    + pose proof (len_le lens 15 (length pre) F) as Lx. rewrite Ex in Lx.
      pose proof (H (length pre) ltac:(lia) ltac:(lia)) as H0. rewrite Ex in H0.
      assert (Hc : code lens (length pre) = nth x nc 0).
      { rewrite code_split by lia. rewrite Ex, H0. do 2 f_equal. rewrite E. rewrite firstn_app, Nat.sub_diag, firstn_O, app_nil_r, firstn_all. reflexivity. }
      cbn [In]. pose proof (IH (pre ++ [x]) (<[x:=nth x nc 0 + 1]> nc) E') as IH'. rewrite insert_length, Lp in IH'. rewrite IH'; [|exact Hl|].
      * split.
        -- intros [[= <- <- <-]|(A & B & C)]; [|auto with lia]. rewrite Ex, Hc. auto with lia.
        -- intros (A & B & -> & ->). destruct (Nat.eq_dec s (length pre)) as [->|]; [left; rewrite Ex, Hc; reflexivity|right; auto with lia].
      * intros t Ht Pt. rewrite nth_lookup. rewrite count_app, (count_sum [x]). cbn [map sum fold_right].
        destruct (Nat.eqb_spec x (len lens t)) as [<-|N].
        -- rewrite list_lookup_insert by lia. cbn. rewrite H0. lia.
        -- rewrite list_lookup_insert_ne by lia. rewrite <- nth_lookup, H by (exact Pt || lia). lia.
Qed.

(** What is needed of a table. *)
Record table_of (h : huff) (lens : list nat) : Prop := {
  tab_codes : forall n c s, In (n, c, s) (codes h) <-> (0 < len lens s)%nat /\ n = len lens s /\ c = code lens s;
  tab_max : forall s, (0 < len lens s)%nat -> (len lens s <= hmax h)%nat
}.
Lemma all_zero lens : (forall s, len lens s = 0%nat) -> lens = repeat 0%nat (length lens).
Proof.
  induction lens as [|x lens IH]; intros H; [reflexivity|]. cbn [length repeat]. f_equal; [exact (H 0%nat)|]. apply IH. intros s. exact (H (S s)).
Qed.
Lemma one_one lens : Forall (fun n => (n <= 1)%nat) lens -> sum (map (fun n => if (n =? 0)%nat then 0 else 2 ^ Z.of_nat (1 - n)) lens) = 1 ->
  exists a b, lens = repeat 0%nat a ++ [1%nat] ++ repeat 0%nat b.
Proof.
  intros F. induction F as [|x lens Hx F IH]; [discriminate|]. unfold sum in *. cbn [map fold_right]. intros E.
  destruct (Nat.eqb_spec x 0) as [->|X].
  - destruct (IH ltac:(lia)) as (a & b & ->). exists (S a), b. reflexivity.
  - assert (x = 1%nat) as -> by lia. change (2 ^ Z.of_nat (1 - 1)) with 1 in E. exists 0%nat, (length lens). cbn [repeat app]. f_equal.
    apply all_zero. intros s. destruct (Nat.eq_dec (len lens s) 0) as [|N]; [assumption|exfalso].
    assert (P := sum_map_one (fun _ => 0 * 0) (fun t => if (nth t lens 0 =? 0)%nat then 0 else 2 ^ Z.of_nat (1 - nth t lens 0%nat)) (length lens) s 1).
    rewrite sum_map_mul, Z.mul_0_l in P. rewrite (sum_nth (fun n => if (n =? 0)%nat then 0 else 2 ^ Z.of_nat (1 - n)) lens) in P.
    unfold sum in P. enough (0 + 1 <= fold_right Z.add 0 (map (fun n : nat => if (n =? 0)%nat then 0 else 2 ^ Z.of_nat (1 - n)) lens)) by lia. apply P.
    + apply len_lt. lia.
    + intros t _. destruct (nth t lens 0%nat =? 0)%nat; [lia|apply Z.pow_nonneg; lia].
    + fold (len lens s). destruct (Nat.eqb_spec (len lens s) 0); [lia|]. assert (0 < 2 ^ Z.of_nat (1 - len lens s)) by (apply Z.pow_pos_nonneg; lia). lia.
Qed.
Lemma first_code_all lens mx : (0 < mx <= 15)%nat -> Forall (fun n => (n <= mx)%nat) lens ->
  first_code lens (S mx) = 2 * sum (map (fun n => if (n =? 0)%nat then 0 else 2 ^ Z.of_nat (mx - n)) lens) /\
  room lens = 2 ^ Z.of_nat (15 - mx) * sum (map (fun n => if (n =? 0)%nat then 0 else 2 ^ Z.of_nat (mx - n)) lens).
Proof.
  intros Hm F. rewrite List.Forall_forall in F. unfold first_code, room. rewrite <- !sum_map_mul. split; apply sum_map_ext_in; intros n Hn; specialize (F n Hn).
  - destruct (Nat.eqb_spec n 0) as [->|X]; [reflexivity|]. destruct (Nat.ltb_spec 0 n); [|lia]. destruct (Nat.ltb_spec n (S mx)); [|lia]. cbn [andb].
    replace (Z.of_nat (S mx - n)) with (Z.succ (Z.of_nat (mx - n))) by lia. rewrite Z.pow_succ_r by lia. reflexivity.
  - destruct (Nat.eqb_spec n 0) as [->|X]; [lia|]. rewrite <- Z.pow_add_r by lia. f_equal. lia.
Qed.
Lemma huff_init_spec lens : Forall (fun n => (n <= 15)%nat) lens ->
  match huff_init lens with
  | Some h => usable lens /\ table_of h lens /\ hmin h = min_len lens
  | None => ~ usable lens
  end.
Proof.
  intros F. unfold huff_init. destruct (max_len_spec lens) as [Fm Im]. destruct (min_len_spec lens) as [Hmin In_min].
  destruct (Nat.eqb_spec (max_len lens) 0) as [M0|M0].
  - assert (Z0 : forall s, len lens s = 0%nat) by (intros s; pose proof (len_le lens _ s Fm); lia).
    split; [|split].
    + split; [exact F|]. right. right. apply all_zero. exact Z0.
    + split; cbn [codes hmax In].
      * intros n c s. rewrite Z0. intuition lia.
      * intros s. rewrite Z0. lia.
    + cbn [hmin]. destruct In_min as [->|I]; [reflexivity|]. rewrite List.Forall_forall in Fm. specialize (Fm _ I). lia.
  - destruct Im as [C|Im]; [contradiction|].
    assert (M15 : (max_len lens <= 15)%nat) by (rewrite List.Forall_forall in F; apply F; exact Im).
    apply In_nth with (d := 0%nat) in Im. destruct Im as (sm & Lm & Em). fold (len lens sm) in Em.
    destruct (Hmin sm ltac:(lia)) as [P1 P2]. rewrite Em in P2.
    destruct (nextcodes lens (S (max_len lens) - min_len lens) (min_len lens) 0 (repeat 0 16)) as [nc c] eqn:EN.
    assert (F0 : first_code lens (min_len lens) = 0).
    { unfold first_code. rewrite (sum_map_ext_in _ (fun _ => 0 * 0)); [rewrite sum_map_mul; reflexivity|]. intros n Hn.
      destruct (Nat.ltb_spec 0 n); [|reflexivity]. destruct (Nat.ltb_spec n (min_len lens)); [|reflexivity]. exfalso.
      apply In_nth with (d := 0%nat) in Hn. destruct Hn as (s & Ls & Es). fold (len lens s) in Es. specialize (Hmin s ltac:(lia)). lia. }
    apply nextcodes_spec in EN; [|lia|exact P1|rewrite repeat_length; lia]. rewrite repeat_length in EN.
    destruct EN as (Ec & Ln & Hn). replace (min_len lens + (S (max_len lens) - min_len lens))%nat with (S (max_len lens)) in * by lia.
    destruct (first_code_all lens (max_len lens) ltac:(lia) Fm) as [A1 A2]. rewrite A1 in Ec.
    assert (Ec' : c = sum (map (fun n => if (n =? 0)%nat then 0 else 2 ^ Z.of_nat (max_len lens - n)) lens)) by lia. rewrite <- Ec' in A2.
    assert (T : table_of (Huff (min_len lens) (max_len lens) (assign lens 0 nc)) lens).
    { split; cbn [codes hmax].
      - intros n c0 s. pose proof (assign_spec lens F lens [] nc eq_refl Ln) as AS. cbn [length] in AS. rewrite AS.
        + intuition lia.
        + intros t _ Pt. rewrite Hn. pose proof (len_le lens _ t Fm). specialize (Hmin t Pt).
          destruct (Nat.leb_spec (min_len lens) (len lens t)); [|lia]. destruct (Nat.ltb_spec (len lens t) (S (max_len lens))); [|lia]. cbn [andb].
          rewrite count_sum. cbn. lia.
      - intros s _. apply len_le. exact Fm. }
    assert (Iff : usable lens <-> c = 2 ^ Z.of_nat (max_len lens) \/ (c = 1 /\ max_len lens = 1%nat)).
    { split.
      - intros [_ [R|[(a & b & E)|R]]].
        + left. rewrite A2 in R. assert (E : 2 ^ 15 = 2 ^ Z.of_nat (15 - max_len lens) * 2 ^ Z.of_nat (max_len lens)) by (rewrite <- Z.pow_add_r by lia; f_equal; lia).
          rewrite E in R. apply Z.mul_reg_l in R; [exact R|]. apply Z.pow_nonzero; lia.
        + right. assert (M1 : max_len lens = 1%nat).
          { assert (G : forall m, In m lens -> m = 0%nat \/ m = 1%nat).
            { intros m I. rewrite E in I. apply in_app_or in I. cbn [app In] in I.
              destruct I as [I|[I|I]]; [apply repeat_spec in I; lia|lia|apply repeat_spec in I; lia]. }
            destruct (G (max_len lens)); [rewrite <- Em; apply nth_In; exact Lm|lia|assumption]. }
          split; [|exact M1]. rewrite Ec', M1, E. rewrite !map_app, !sum_app.
          assert (Z0 : forall k, sum (map (fun n => if (n =? 0)%nat then 0 else 2 ^ Z.of_nat (1 - n)) (repeat 0%nat k)) = 0).
          { induction k as [|k IH]; [reflexivity|]. cbn [repeat map sum fold_right]. exact IH. }
          rewrite !Z0. reflexivity.
        + exfalso. assert (G : forall m, In m lens -> m = 0%nat) by (intros m I; rewrite R in I; apply repeat_spec in I; exact I).
          apply M0. apply G. rewrite <- Em. apply nth_In. exact Lm.
      - intros [E|[E M1]]; (split; [exact F|]).
        + left. rewrite A2, E, <- Z.pow_add_r by lia. f_equal. lia.
        + right. left. apply one_one; [rewrite <- M1; exact Fm|]. rewrite M1 in Ec'. lia. }
    destruct (Z.eqb_spec c (2 ^ Z.of_nat (max_len lens))) as [E1|E1]; cbn [negb andb].
    { split; [tauto|]. split; [exact T|reflexivity]. }
    destruct (Z.eqb_spec c 1) as [E2|E2], (Nat.eqb_spec (max_len lens) 1) as [E3|E3]; cbn [negb andb]; try (intros U; apply Iff in U; tauto).
    split; [tauto|]. split; [exact T|reflexivity].
Qed.

(** ** Reading a symbol *)
Lemma find_code_In cs n c s : find_code cs n c = Some s -> In (n, c, s) cs.
Proof.
  induction cs as [|[[n' c'] s'] cs IH]; cbn [find_code]; [discriminate|].
  destruct (Nat.eqb_spec n' n) as [->|]; cbn [andb]; [|intros H; right; auto].
  destruct (Z.eqb_spec c' c) as [->|]; [intros [= ->]; left; reflexivity|intros H; right; auto].
Qed.
Lemma find_code_some cs n c s : In (n, c, s) cs -> exists s', find_code cs n c = Some s'.
Proof.
  induction cs as [|[[n' c'] s'] cs IH]; cbn [find_code In]; [tauto|]. intros [[= -> -> ->]|H].
  - rewrite Nat.eqb_refl, Z.eqb_refl. eauto.
  - destruct ((n' =? n)%nat && (c' =? c)); eauto.
Qed.
Lemma val_app a b : val (a ++ b) = val a + 2 ^ Z.of_nat (length a) * val b.
Proof.
  induction a as [|x a IH]; [cbn; lia|]. cbn [app val length]. rewrite IH, Nat2Z.inj_succ, Z.pow_succ_r by lia. lia.
Qed.
Lemma sym_loop_sound fuel cs : forall k c b s r, sym_loop fuel cs k c b = Got s r ->
  exists w, b = w ++ r /\ (0 < length w)%nat /\ In ((k + length w)%nat, c * 2 ^ Z.of_nat (length w) + val (rev w), s) cs.
Proof.
  induction fuel as [|fuel IH]; intros k c b s r; cbn [sym_loop]; [discriminate|]. destruct b as [|x b]; [discriminate|].
  destruct (find_code cs (S k) (2 * c + Z.b2z x)) as [s'|] eqn:E.
  - intros [= -> ->]. exists [x]. apply find_code_In in E. split; [reflexivity|]. split; [cbn; lia|].
    cbn [length rev app val]. replace (k + 1)%nat with (S k) by lia. change (2 ^ Z.of_nat 1) with 2.
    replace (c * 2 + (Z.b2z x + 2 * 0)) with (2 * c + Z.b2z x) by lia. exact E.
  - intros H. apply IH in H. destruct H as (w & -> & Hw & I). exists (x :: w). split; [reflexivity|]. split; [cbn; lia|].
    cbn [length rev]. rewrite val_app, rev_length. cbn [val]. replace (k + S (length w))%nat with (S k + length w)%nat by lia.
    rewrite Nat2Z.inj_succ, Z.pow_succ_r by lia.
    match type of I with In (_, ?a, _) _ => replace (c * (2 * 2 ^ Z.of_nat (length w)) + (val (rev w) + 2 ^ Z.of_nat (length w) * (Z.b2z x + 2 * 0))) with a by lia end. exact I.
Qed.
Lemma huffSym_sound h lens b s r : table_of h lens -> huffSym h b = Got s r -> exists w, word lens s w /\ b = w ++ r.
Proof.
  intros T. unfold huffSym. destruct (length b <? hmin h)%nat; [discriminate|]. intros H. apply sym_loop_sound in H.
  destruct H as (w & -> & Hw & I). apply (tab_codes h lens T) in I. destruct I as (P & E1 & E2). exists w. split; [|reflexivity].
  split; [exact P|]. rewrite <- E1, <- E2. rewrite Z.mul_0_l, Z.add_0_l. cbn [Nat.add]. rewrite <- (rev_length w), num_val, rev_involutive. reflexivity.
Qed.
Lemma sym_loop_complete h lens s r : usable lens -> table_of h lens -> (0 < len lens s)%nat -> forall w2 w1 fuel,
  w1 ++ w2 = rev (num (len lens s) (code lens s)) -> (0 < length w2 <= fuel)%nat ->
  sym_loop fuel (codes h) (length w1) (val (rev w1)) (w2 ++ r) = Got s r.
Proof.
  intros U T P w2. induction w2 as [|x w2 IH]; intros w1 fuel E L; [cbn in L; lia|]. destruct fuel as [|fuel]; [cbn in L; lia|].
  cbn [sym_loop app].
  assert (V : 2 * val (rev w1) + Z.b2z x = val (rev (w1 ++ [x]))) by (rewrite rev_app_distr; cbn [rev app val]; lia). rewrite V.
  assert (Ll : len lens s = (S (length w1) + length w2)%nat).
  { apply (f_equal length) in E. rewrite rev_length, num_length, app_length in E. cbn [length] in E. lia. }
  assert (EV : code lens s = val (rev w2) + 2 ^ Z.of_nat (length w2) * val (rev (w1 ++ [x]))).
  { rewrite <- (val_num (len lens s) (code lens s)) by (apply code_range; assumption).
    rewrite <- (rev_involutive (num (len lens s) (code lens s))), <- E. replace (w1 ++ x :: w2) with ((w1 ++ [x]) ++ w2) by (rewrite <- app_assoc; reflexivity).
    rewrite rev_app_distr, val_app, rev_length. reflexivity. }
  assert (ED : code lens s / 2 ^ Z.of_nat (length w2) = val (rev (w1 ++ [x]))).
  { rewrite EV. rewrite Z.mul_comm, Z.div_add by (apply Z.pow_nonzero; lia). rewrite Z.div_small; [lia|]. pose proof (val_range (rev w2)) as R. rewrite rev_length in R. exact R. }
  destruct w2 as [|y w2].
  - cbn [length] in *. change (2 ^ Z.of_nat 0) with 1 in ED. rewrite Z.div_1_r in ED. rewrite <- ED.
    replace (S (length w1)) with (len lens s) by lia.
    assert (I : In (len lens s, code lens s, s) (codes h)) by (apply (tab_codes h lens T); auto).
    destruct (find_code_some _ _ _ _ I) as (s' & Es). rewrite Es. apply find_code_In in Es. apply (tab_codes h lens T) in Es. destruct Es as (P' & El & Ec).
    f_equal. symmetry. apply (prefix_free lens); [assumption|assumption|assumption|lia|]. replace (len lens s - len lens s')%nat with 0%nat by lia.
    change (2 ^ Z.of_nat 0) with 1. rewrite Z.div_1_r. exact Ec.
  - destruct (find_code (codes h) (S (length w1)) (val (rev (w1 ++ [x])))) as [s'|] eqn:Es.
    + exfalso. apply find_code_In in Es. apply (tab_codes h lens T) in Es. destruct Es as (P' & El & Ec). cbn [length] in Ll.
      assert (s = s') as <-; [|lia]. apply (prefix_free lens); [assumption|assumption|assumption|lia|].
      replace (len lens s - len lens s')%nat with (length (y :: w2)) by (cbn [length]; lia). congruence.
    + replace (S (length w1)) with (length (w1 ++ [x])) by (rewrite app_length; cbn; lia). apply IH; [rewrite <- app_assoc; exact E|cbn in *; lia].
Qed.
Lemma word_length lens s w : word lens s w -> length w = len lens s.
Proof. intros [_ ->]. rewrite rev_length, num_length. reflexivity. Qed.
Lemma huffSym_complete h lens s w r : usable lens -> table_of h lens -> word lens s w -> (hmin h <= length (w ++ r))%nat -> huffSym h (w ++ r) = Got s r.
Proof.
  intros U T W Hm. unfold huffSym. destruct (Nat.ltb_spec (length (w ++ r)) (hmin h)); [lia|].
  pose proof (word_length _ _ _ W) as Lw. destruct W as [P E].
  apply (sym_loop_complete h lens s r U T P w [] (hmax h)); [exact E|]. pose proof (tab_max h lens T s P). lia.
Qed.
Lemma word_unique lens s t w v r q : usable lens -> word lens s w -> word lens t v -> w ++ r = v ++ q -> s = t /\ r = q.
Proof.
  intros U W V E. pose proof (huff_init_spec lens (proj1 U)) as H. destruct (huff_init lens) as [h|]; [|contradiction]. destruct H as (_ & T & Hm).
  assert (A : huffSym h (w ++ r) = Got s r).
  { apply (huffSym_complete h lens); auto. rewrite Hm, app_length, (word_length _ _ _ W). pose proof (proj1 (min_len_spec lens) s (proj1 W)). lia. }
  assert (B : huffSym h (v ++ q) = Got t q).
  { apply (huffSym_complete h lens); auto. rewrite Hm, app_length, (word_length _ _ _ V). pose proof (proj1 (min_len_spec lens) t (proj1 V)). lia. }
  rewrite E, B in A. injection A as -> ->. auto.
Qed.
Lemma sym_loop_more fuel cs : forall k c b m,
  match sym_loop fuel cs k c b with
  | Got s r => sym_loop fuel cs k c (b ++ m) = Got s (r ++ m) /\ (length r < length b)%nat
  | Corrupt => sym_loop fuel cs k c (b ++ m) = Corrupt
  | Short => True
  end.
Proof.
  induction fuel as [|fuel IH]; intros k c b m; cbn [sym_loop]; [reflexivity|]. destruct b as [|x b]; [exact I|]. cbn [app].
  destruct (find_code cs (S k) (2 * c + Z.b2z x)) as [s|]; [cbn; auto with lia|]. specialize (IH (S k) (2 * c + Z.b2z x) b m).
  destruct (sym_loop fuel cs (S k) (2 * c + Z.b2z x) b); auto. destruct IH. cbn. auto with lia.
Qed.
Lemma huffSym_more h b m :
  match huffSym h b with
  | Got s r => huffSym h (b ++ m) = Got s (r ++ m) /\ (length r < length b)%nat
  | Corrupt => huffSym h (b ++ m) = Corrupt
  | Short => True
  end.
Proof.
  unfold huffSym. rewrite app_length. destruct (Nat.ltb_spec (length b) (hmin h)); [exact I|].
  destruct (Nat.ltb_spec (length b + length m) (hmin h)); [lia|]. apply sym_loop_more.
Qed.
