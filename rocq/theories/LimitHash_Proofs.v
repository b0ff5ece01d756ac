(** LimitHashMap refines its per-segment specification. *)
From stdpp Require Import gmap.
From Coq Require Import ZArith Lia.
From Verif Require Import GoInt GoList_Model GoList_Proofs Assoc_Spec Keyed_Proofs LimitMap_Proofs
  LimitHash_Model LimitHash_Spec.
Local Open Scope Z_scope.

Section proofs.
Context {K V : Type} (hash : K -> Z) (is_nil : V -> bool).

(** The stored key plays no role: forget it. *)
Definition strip (s : list (Z * (K * V))) : list (Z * V) := map (fun p => (p.1, p.2.2)) s.

Lemma strip_fst s : (strip s).*1 = s.*1.
Proof. unfold strip. induction s as [|p s IH]; cbn; f_equal; auto. Qed.
Lemma find_strip h s : find_key h (strip s) = option_map snd (find_key h s).
Proof.
  induction s as [|[h' [k v]] s IH]; cbn; [auto|]. destruct (decide (h = h')); auto.
Qed.
Lemma without_strip h s : without h (strip s) = strip (without h s).
Proof.
  induction s as [|[h' [k v]] s IH]; [auto|]. unfold without, strip in *. cbn [map fst snd].
  rewrite !filter_cons. cbn [fst]. destruct (decide (h' <> h)); cbn; [f_equal|]; auto.
Qed.
Lemma set_strip h k v s : set_key h v (strip s) = strip (set_key h (k, v) s).
Proof.
  induction s as [|[h' [k' v']] s IH]; [auto|]. unfold set_key, strip in *. cbn [map fst snd].
  destruct (decide (h' = h)); cbn; f_equal; auto.
Qed.
Lemma strip_removelast s : removelast (strip s) = strip (removelast s).
Proof. induction s as [|p s IH]; [auto|]. destruct s; [auto|]. cbn in *. f_equal. auto. Qed.

Definition seg_holds (cap : Z) (sg : segment K V) (s : list (Z * V)) : Prop :=
  exists s0, keyed (cache sg) (order sg) s0 /\ s = strip s0 /\ Z.of_nat (length s) <= Z.max 1 cap.

Lemma seg_put_holds cap h k v sg s : seg_holds cap sg s ->
  let '(r, sg') := seg_put is_nil cap h k v sg in
  let '(r', s') := hspec_put is_nil cap h v s in r = r' /\ seg_holds cap sg' s'.
Proof.
  intros (s0 & Hk & -> & Hb). unfold seg_put, hspec_put. rewrite find_strip.
  destruct (cache sg !! h) as [x|] eqn:E.
  - destruct (keyed_Some _ _ _ _ _ Hk E) as ([k0 v0] & Hv0 & Hf). rewrite Hf, Hv0. cbn [option_map snd].
    destruct (is_nil v0); [split; [auto|]; exists s0; auto|]. split; [auto|].
    exists (set_key h (k0, v) s0). split; [apply keyed_set; auto|]. split; [apply set_strip|].
    unfold set_key, strip in *. rewrite !map_length in *. auto.
  - pose proof (proj1 (keyed_None _ _ _ h Hk) E) as Hf. rewrite Hf. cbn [option_map].
    rewrite (keyed_len _ _ _ Hk). unfold strip at 1. rewrite map_length.
    assert (HLs : length (strip s0) = length s0) by apply map_length.
    assert (HP : forall sg1 s1, keyed (cache sg1) (order sg1) s1 -> cache sg1 !! h = None ->
      Z.of_nat (length s1) + 1 <= Z.max 1 cap ->
      let '(ele, l) := list_PushFront (h, (k, v)) (order sg1) in
      seg_holds cap (Seg (<[h := ele]> (cache sg1)) l) ((h, v) :: strip s1)).
    { intros sg1 s1 Hk1 E1 Hb1. pose proof (keyed_push _ _ _ h (k, v) Hk1 E1) as HP.
      destruct (list_PushFront (h, (k, v)) (order sg1)) as [e l]. exists ((h, (k, v)) :: s1).
      split; [auto|]. split; [auto|]. cbn [length]. unfold strip. rewrite map_length. lia. }
    destruct (Z.ltb_spec (Z.of_nat (length s0)) cap) as [Hlt|Hge].
    + rewrite (proj2 (Z.leb_gt _ _)) by lia. specialize (HP sg s0 Hk E ltac:(lia)).
      destruct (list_PushFront (h, (k, v)) (order sg)) as [e l]. auto.
    + rewrite (proj2 (Z.leb_le _ _)) by lia. pose proof (keyed_back _ _ _ Hk) as HB.
      destruct (list_Back (order sg)) as [o|].
      * destruct HB as (s' & ho & vo & Hs & Hvo & Hko & Hk' & Hvo'). rewrite Hvo', strip_removelast, Hs, removelast_last.
        assert (HL : length s0 = S (length s')) by (rewrite Hs, app_length; cbn; lia).
        specialize (HP (Seg (delete ho (cache sg)) (list_Remove o (order sg))) s' Hk'
                       ltac:(apply lookup_delete_None; auto) ltac:(lia)).
        cbn [cache order] in *. destruct (list_PushFront (h, (k, v)) (list_Remove o (order sg))) as [e l]. auto.
      * subst s0. specialize (HP sg [] Hk E ltac:(cbn; lia)).
        destruct (list_PushFront (h, (k, v)) (order sg)) as [e l]. auto.
Qed.

Lemma seg_get_holds cap h sg s : seg_holds cap sg s -> seg_get is_nil h sg = hspec_get is_nil h s.
Proof.
  intros (s0 & Hk & -> & Hb). unfold seg_get, hspec_get. rewrite find_strip.
  destruct (cache sg !! h) as [x|] eqn:E.
  - destruct (keyed_Some _ _ _ _ _ Hk E) as ([k0 v0] & Hv0 & Hf). rewrite Hf, Hv0. reflexivity.
  - rewrite (proj1 (keyed_None _ _ _ h Hk) E). reflexivity.
Qed.

Lemma seg_contains_holds cap h sg s : seg_holds cap sg s ->
  seg_contains h sg = bool_decide (find_key h s <> None).
Proof.
  intros (s0 & Hk & -> & Hb). unfold seg_contains. rewrite find_strip.
  destruct (cache sg !! h) as [x|] eqn:E.
  - destruct (keyed_Some _ _ _ _ _ Hk E) as ([k0 v0] & Hv0 & Hf). rewrite Hf. symmetry. apply bool_decide_true. discriminate.
  - rewrite (proj1 (keyed_None _ _ _ h Hk) E). symmetry. apply bool_decide_false. cbn. congruence.
Qed.

Lemma seg_del_holds cap h sg s : seg_holds cap sg s -> seg_holds cap (seg_del h sg) (without h s).
Proof.
  intros (s0 & Hk & -> & Hb). unfold seg_del. pose proof (without_length h (strip s0)).
  destruct (cache sg !! h) as [x|] eqn:E.
  - exists (without h s0). split; [apply keyed_remove; auto|]. split; [apply without_strip|lia].
  - rewrite without_notin; [exists s0; auto|]. rewrite strip_fst. apply find_key_None, (keyed_None _ _ _ h Hk), E.
Qed.

Lemma seg_clear_holds cap sg s : seg_holds cap sg s -> seg_holds cap (seg_clear sg) [].
Proof. intros (s0 & Hk & -> & Hb). exists []. split; [eapply keyed_init; eauto|]. split; [auto|]. cbn. lia. Qed.

Lemma new_segment_holds cap : seg_holds cap new_segment [].
Proof. exists []. split; [apply keyed_new|]. split; [auto|]. cbn. lia. Qed.

(** All segments together. *)
Definition hholds (n : nat) (cap : Z) (c : lhmap K V) (st : nat -> list (Z * V)) : Prop :=
  (0 < n)%nat /\ capacity c = cap /\ segmentNumber c = Z.of_nat n /\ length (segments c) = n /\
  forall j sg, segments c !! j = Some sg -> seg_holds cap sg (st j).

Definition hseg (n : nat) (k : K) : nat := Z.to_nat (hash k mod Z.of_nat n).

Lemma hseg_lt n k : (0 < n)%nat -> (hseg n k < n)%nat.
Proof. intros Hn. unfold hseg. pose proof (Z.mod_pos_bound (hash k) (Z.of_nat n)). lia. Qed.

Lemma hseg_lookup n cap c st k : hholds n cap c st ->
  exists sg, segments c !! getSegment hash c k = Some sg /\ getSegment hash c k = hseg n k /\ seg_holds cap sg (st (hseg n k)).
Proof.
  intros (Hn & Hc & Hs & Hl & Hh). unfold getSegment. rewrite Hs. fold (hseg n k).
  destruct (lookup_lt_is_Some_2 (segments c) (hseg n k)) as [sg E]; [rewrite Hl; apply hseg_lt; auto|]. eauto.
Qed.

Lemma hholds_update n cap c st k sg s' : hholds n cap c st -> seg_holds cap sg s' ->
  hholds n cap (LHMap (capacity c) (<[hseg n k := sg]> (segments c)) (segmentNumber c))
    (fun j => if decide (j = hseg n k) then s' else st j).
Proof.
  intros (Hn & Hc & Hs & Hl & Hh) Hsg. split; [auto|]. split; [auto|]. split; [auto|]. cbn [segments].
  split; [rewrite insert_length; auto|]. intros j sg' E.
  destruct (decide (j = hseg n k)) as [->|Hne].
  - rewrite list_lookup_insert in E by (rewrite Hl; apply hseg_lt; auto). injection E as <-. auto.
  - rewrite list_lookup_insert_ne in E by auto. auto.
Qed.

Lemma hholds_ext n cap c st st' : hholds n cap c st -> (forall j, (j < n)%nat -> st j = st' j) -> hholds n cap c st'.
Proof.
  intros (Hn & Hc & Hs & Hl & Hh) He. repeat (split; [auto|]). intros j sg E.
  rewrite <- He; [auto|]. rewrite <- Hl. eapply lookup_lt_Some; eauto.
Qed.

Lemma hholds_same n cap c st k sg : hholds n cap c st -> segments c !! hseg n k = Some sg ->
  LHMap (capacity c) (<[hseg n k := sg]> (segments c)) (segmentNumber c) = c.
Proof. intros Hh E. rewrite list_insert_id by auto. destruct c; reflexivity. Qed.

Lemma fold_len cap l : forall (f : nat -> list (Z * V)) a i,
  (forall j sg, l !! j = Some sg -> seg_holds cap sg (f (i + j)%nat)) ->
  fold_left (fun total (s : segment K V) => total + list_Len (order s)) l a =
  a + Z.of_nat (sum_list_with (fun j => length (f j)) (seq i (length l))).
Proof.
  induction l as [|sg l IH]; intros f a i Hh; cbn [fold_left length seq sum_list_with]; [lia|].
  rewrite (IH f _ (S i)).
  - pose proof (Hh 0%nat sg eq_refl) as (s0 & Hk & Hs & _). rewrite Nat.add_0_r in Hs.
    rewrite (keyed_len _ _ _ Hk), Hs. unfold strip. rewrite map_length. lia.
  - intros j sg' E. specialize (Hh (S j) sg' E). replace (S i + j)%nat with (i + S j)%nat by lia. auto.
Qed.

Lemma hstep_holds n cap c st o : hholds n cap c st ->
  let '(r, c') := hstep hash is_nil c o in
  let '(r', st') := hspec_step hash (hseg n) is_nil n cap st o in r = r' /\ hholds n cap c' st'.
Proof.
  intros Hh. destruct o as [k v|k|k|k| |]; cbn [hstep hspec_step].
  - destruct (hseg_lookup _ _ _ _ k Hh) as (sg & E & Eg & Hsg). rewrite E, Eg in *.
    rewrite (proj1 (proj2 Hh)). pose proof (seg_put_holds cap (hash k) k v sg _ Hsg) as HP.
    destruct (seg_put _ _ _ _ _ sg) as [r sg'], (hspec_put _ _ _ _ (st (hseg n k))) as [r' s'].
    destruct HP as [-> HP]. split; [auto|]. pose proof (hholds_update n cap c st k sg' s' Hh HP) as HU.
    rewrite (proj1 (proj2 Hh)) in HU. auto.
  - destruct (hseg_lookup _ _ _ _ k Hh) as (sg & E & Eg & Hsg). rewrite E, Eg in *.
    split; [eapply seg_get_holds; eauto|]. erewrite hholds_same; eauto.
  - destruct (hseg_lookup _ _ _ _ k Hh) as (sg & E & Eg & Hsg). rewrite E, Eg in *.
    split; [auto|]. apply hholds_update; [auto|]. apply seg_del_holds. auto.
  - destruct (hseg_lookup _ _ _ _ k Hh) as (sg & E & Eg & Hsg). rewrite E, Eg in *.
    split; [f_equal; eapply seg_contains_holds; eauto|]. erewrite hholds_same; eauto.
  - split; [auto|]. destruct Hh as (Hn & Hc & Hs & Hl & Hh). split; [auto|]. split; [auto|]. split; [auto|].
    cbn [segments]. split; [rewrite map_length; auto|]. intros j sg E.
    rewrite list_lookup_fmap in E. destruct (segments c !! j) as [sg0|] eqn:E0; [|discriminate].
    cbn in E. injection E as <-. eapply seg_clear_holds. eauto.
  - split; [|auto]. f_equal. destruct Hh as (Hn & Hc & Hs & Hl & Hh).
    rewrite (fold_len cap _ st 0 0); [rewrite Hl; auto|]. auto.
Qed.

Lemma hrun_holds n cap os : forall c st, hholds n cap c st ->
  let '(rs, c') := hrun hash is_nil c os in
  let '(rs', st') := hspec_run hash (hseg n) is_nil n cap st os in rs = rs' /\ hholds n cap c' st'.
Proof.
  induction os as [|o os IH]; intros c st Hh; cbn [hrun hspec_run]; [auto|].
  pose proof (hstep_holds n cap c st o Hh) as HS.
  destruct (hstep hash is_nil c o) as [r c1], (hspec_step hash (hseg n) is_nil n cap st o) as [r' st1].
  destruct HS as [-> HS]. specialize (IH c1 st1 HS).
  destruct (hrun hash is_nil c1 os) as [rs c2], (hspec_run hash (hseg n) is_nil n cap st1 os) as [rs' st2].
  destruct IH as [-> IH]. auto.
Qed.

Lemma new_holds cap segs c : NewLimitHashMapWithSegment cap segs = Some c ->
  0 < segs /\ hholds (Z.to_nat segs) (Z.quot cap segs) c (fun _ => []).
Proof.
  unfold NewLimitHashMapWithSegment. destruct (Z.leb_spec segs 0) as [Hle|Hgt]; [discriminate|].
  intros [= <-]. split; [auto|]. split; [lia|]. split; [auto|]. cbn [segmentNumber segments].
  split; [lia|]. split; [apply replicate_length|]. intros j sg E.
  apply lookup_replicate in E as [-> _]. apply new_segment_holds.
Qed.

Lemma sum_bound (f : nat -> list (Z * V)) b i n :
  (forall j, (i <= j < i + n)%nat -> Z.of_nat (length (f j)) <= b) ->
  Z.of_nat (sum_list_with (fun j => length (f j)) (seq i n)) <= Z.of_nat n * b.
Proof.
  revert i. induction n as [|n IH]; intros i Hb; cbn [seq sum_list_with]; [lia|].
  pose proof (Hb i ltac:(lia)). specialize (IH (S i) ltac:(intros; apply Hb; lia)). lia.
Qed.

Lemma hlen_bound n cap c st : hholds n cap c st ->
  Z.of_nat (sum_list_with (fun j => length (st j)) (seq 0 n)) <= Z.of_nat n * Z.max 1 cap.
Proof.
  intros (Hn & Hc & Hs & Hl & Hh). apply sum_bound. intros j Hj.
  destruct (lookup_lt_is_Some_2 (segments c) j) as [sg E]; [lia|].
  destruct (Hh j sg E) as (s0 & _ & _ & Hb). auto.
Qed.
End proofs.

(** Replacing the hash by any identity it is injective for. *)
Section rekey.
Context {K V : Type} `{EqDecision K} (hash : K -> Z) (seg_of : K -> nat) (is_nil : V -> bool) (P : K -> Prop).
Hypothesis inj : forall a b, P a -> P b -> hash a = hash b -> a = b.

Definition hmap (s : list (K * V)) : list (Z * V) := map (fun p => (hash p.1, p.2)) s.

Lemma find_hmap k s : P k -> Forall (fun p => P p.1) s -> find_key (hash k) (hmap s) = find_key k s.
Proof.
  intros Hk. induction 1 as [|[k' v'] s Hk' Hs IH]; cbn; [auto|]. destruct (decide (k = k')) as [->|Hne].
  - rewrite decide_True by auto. auto.
  - rewrite decide_False; [auto|]. intros He. apply Hne, inj; auto.
Qed.
Lemma set_hmap k v s : P k -> Forall (fun p => P p.1) s -> set_key (hash k) v (hmap s) = hmap (set_key k v s).
Proof.
  intros Hk. induction 1 as [|[k' v'] s Hk' Hs IH]; [auto|]. unfold set_key, hmap in *. cbn [map fst snd].
  destruct (decide (k' = k)) as [->|Hne].
  - rewrite decide_True by auto. cbn. f_equal. auto.
  - rewrite decide_False by (intros He; apply Hne, inj; auto). cbn. f_equal. auto.
Qed.
Lemma without_hmap k s : P k -> Forall (fun p => P p.1) s -> without (hash k) (hmap s) = hmap (without k s).
Proof.
  intros Hk. induction 1 as [|[k' v'] s Hk' Hs IH]; [auto|]. unfold without, hmap in *. cbn [map fst snd].
  rewrite !filter_cons. cbn [fst]. destruct (decide (k' = k)) as [->|Hne].
  - rewrite !decide_False by (intros X; apply X; auto). auto.
  - rewrite !decide_True by (try intros He; auto; apply Hne, inj; auto). cbn. f_equal. auto.
Qed.
Lemma removelast_hmap s : removelast (hmap s) = hmap (removelast s).
Proof. induction s as [|p s IH]; [auto|]. destruct s; [auto|]. cbn in *. f_equal. auto. Qed.
Lemma Forall_removelast {A} (Q : A -> Prop) s : Forall Q s -> Forall Q (removelast s).
Proof. induction 1 as [|a s Ha Hs IH]; [constructor|]. destruct s; [constructor|]. cbn in *. constructor; auto. Qed.
Lemma Forall_set_key k v s : P k -> Forall (fun p => P p.1) s -> Forall (fun p : K * V => P p.1) (set_key k v s).
Proof. intros Hk. induction 1 as [|p s Hp Hs IH]; cbn; constructor; auto. destruct (decide (p.1 = k)); auto. Qed.
Lemma Forall_without (k : K) s : Forall (fun p => P p.1) s -> Forall (fun p : K * V => P p.1) (without k s).
Proof. intros Hs. apply Forall_forall. intros p Hp. apply elem_of_list_filter in Hp as [_ Hp].
  rewrite Forall_forall in Hs. auto. Qed.

Definition rel (sth : nat -> list (Z * V)) (stk : nat -> list (K * V)) : Prop :=
  forall j, sth j = hmap (stk j) /\ Forall (fun p => P p.1) (stk j).

Lemma rel_upd sth stk k sh sk : rel sth stk -> sh = hmap sk -> Forall (fun p => P p.1) sk ->
  rel (fun j => if decide (j = seg_of k) then sh else sth j) (fun j => if decide (j = seg_of k) then sk else stk j).
Proof. intros Hr -> Hs j. destruct (decide (j = seg_of k)); auto. Qed.

Lemma rekey_step n cap sth stk o : rel sth stk -> (forall k, In k (op_key o) -> P k) ->
  let '(r, sth') := hspec_step hash seg_of is_nil n cap sth o in
  let '(r', stk') := hspec_step id seg_of is_nil n cap stk o in r = r' /\ rel sth' stk'.
Proof.
  intros Hr Hp. destruct o as [k v|k|k|k| |]; cbn [hspec_step op_key In] in *; unfold id.
  - destruct (Hr (seg_of k)) as [-> Hs]. unfold hspec_put. rewrite find_hmap by auto.
    destruct (find_key k (stk (seg_of k))) as [old|] eqn:E.
    + destruct (is_nil old).
      * split; [auto|]. apply rel_upd; auto.
      * split; [auto|]. rewrite set_hmap by auto. apply rel_upd; auto. apply Forall_set_key; auto.
    + split; [auto|]. unfold hmap at 1. rewrite map_length. apply rel_upd; auto.
      * cbn. f_equal. destruct (_ <? _); [auto|apply removelast_hmap].
      * constructor; [auto|]. destruct (_ <? _); [auto|apply Forall_removelast; auto].
  - destruct (Hr (seg_of k)) as [-> Hs]. split; [|auto]. unfold hspec_get. rewrite find_hmap by auto. auto.
  - destruct (Hr (seg_of k)) as [-> Hs]. split; [auto|]. rewrite without_hmap by auto. apply rel_upd; auto.
    apply Forall_without. auto.
  - destruct (Hr (seg_of k)) as [-> Hs]. split; [|auto]. rewrite find_hmap by auto. auto.
  - split; [auto|]. intros j. split; [auto|constructor].
  - split; [|auto]. f_equal. f_equal. induction (seq 0 n) as [|j l IH]; cbn; [auto|].
    rewrite IH. destruct (Hr j) as [-> _]. unfold hmap. rewrite map_length. auto.
Qed.

Lemma rekey_run n cap os : forall sth stk, rel sth stk -> (forall o k, In o os -> In k (op_key o) -> P k) ->
  (hspec_run hash seg_of is_nil n cap sth os).1 = (hspec_run id seg_of is_nil n cap stk os).1.
Proof.
  induction os as [|o os IH]; intros sth stk Hr Hp; cbn [hspec_run]; [auto|].
  pose proof (rekey_step n cap sth stk o Hr (fun k => Hp o k (or_introl eq_refl))) as HS.
  destruct (hspec_step hash _ _ _ _ sth o) as [r sth1], (hspec_step id _ _ _ _ stk o) as [r' stk1].
  destruct HS as [-> HS]. specialize (IH sth1 stk1 HS (fun o k Ho => Hp o k (or_intror Ho))).
  destruct (hspec_run hash _ _ _ _ sth1 os), (hspec_run id _ _ _ _ stk1 os). cbn in *. congruence.
Qed.
End rekey.

(** Conversions to uint64 are injective on every integer key type. *)
Lemma hashFunc_inj ty a b : in_type ty a -> in_type ty b ->
  hashFunc ty (KNum a) = hashFunc ty (KNum b) -> a = b.
Proof.
  assert (HU : forall x y, -2^63 <= x < 2^63 -> -2^63 <= y < 2^63 -> u64 x = u64 y -> x = y).
  { unfold u64. intros x y Hx Hy He. assert ((x - y) mod 2^64 = 0).
    { rewrite Zminus_mod, He, Z.sub_diag. reflexivity. }
    apply Z.mod_divide in H; [|lia]. destruct H as [q Hq]. lia. }
  destruct ty; cbn; intros; try assumption; try contradiction; apply HU; auto; lia.
Qed.

(** Without nil values the nil test is irrelevant. *)
Section nonil.
Context {K V I : Type} `{EqDecision I} (ident : K -> I) (seg_of : K -> nat) (is_nil : V -> bool).

Definition clean (st : nat -> list (I * V)) : Prop := forall j, Forall (fun p => is_nil p.2 = false) (st j).
Definition puts_clean (o : hop K V) : Prop := match o with HPut _ v => is_nil v = false | _ => True end.

Lemma find_clean (i : I) (s : list (I * V)) v : Forall (fun p => is_nil p.2 = false) s -> find_key i s = Some v -> is_nil v = false.
Proof.
  induction 1 as [|[i' v'] s Hp Hs IH]; cbn; [discriminate|]. destruct (decide (i = i')); [|auto].
  intros [= <-]. auto.
Qed.

Lemma clean_step n cap st o : clean st -> puts_clean o ->
  hspec_step ident seg_of is_nil n cap st o = hspec_step ident seg_of (fun _ => false) n cap st o /\
  clean (hspec_step ident seg_of is_nil n cap st o).2 /\
  (hspec_step ident seg_of is_nil n cap st o).1 <> HPanic.
Proof.
  intros Hc Hp.
  assert (HU : forall k s, Forall (fun p => is_nil p.2 = false) s ->
    clean (fun j => if decide (j = seg_of k) then s else st j)).
  { intros k s Hs j. destruct (decide (j = seg_of k)); auto. }
  destruct o as [k v|k|k|k| |]; cbn [hspec_step puts_clean] in *.
  - unfold hspec_put. destruct (find_key (ident k) (st (seg_of k))) as [old|] eqn:E.
    + rewrite (find_clean _ _ _ (Hc _) E). cbn. split; [auto|]. split; [|discriminate]. apply HU.
      generalize (Hc (seg_of k)). generalize (st (seg_of k)). intros s Hs.
      induction Hs as [|p s Hq Hs IH]; cbn; constructor; auto. destruct (decide (p.1 = ident k)); auto.
    + cbn. split; [auto|]. split; [|discriminate]. apply HU. constructor; [auto|].
      destruct (_ <? _); [auto|]. generalize (Hc (seg_of k)). generalize (st (seg_of k)). intros s Hs.
      induction Hs as [|p s Hq Hs IH]; [constructor|]. destruct s; [constructor|]. cbn in *. constructor; auto.
  - unfold hspec_get. destruct (find_key (ident k) (st (seg_of k))) as [old|] eqn:E; cbn.
    + rewrite (find_clean _ _ _ (Hc _) E). split; [auto|]. split; [auto|discriminate].
    + split; [auto|]. split; [auto|discriminate].
  - cbn. split; [auto|]. split; [|discriminate]. apply HU. apply Forall_forall. intros p Hq.
    apply elem_of_list_filter in Hq as [_ Hq]. pose proof (Hc (seg_of k)) as Hs. rewrite Forall_forall in Hs. auto.
  - cbn. split; [auto|]. split; [auto|discriminate].
  - cbn. split; [auto|]. split; [|discriminate]. intros j. constructor.
  - cbn. split; [auto|]. split; [auto|discriminate].
Qed.

Lemma clean_run n cap os : forall st, clean st -> Forall puts_clean os ->
  (hspec_run ident seg_of is_nil n cap st os).1 = (hspec_run ident seg_of (fun _ => false) n cap st os).1 /\
  ~ In HPanic (hspec_run ident seg_of is_nil n cap st os).1.
Proof.
  induction os as [|o os IH]; intros st Hc Hp; cbn [hspec_run]; [auto|].
  inversion Hp as [|? ? Ho Hos]; subst. destruct (clean_step n cap st o Hc Ho) as (He & Hc' & Hnp).
  rewrite He in *. destruct (hspec_step ident seg_of (fun _ => false) n cap st o) as [r st1]. cbn [fst snd] in *.
  specialize (IH st1 Hc' Hos).
  destruct (hspec_run ident seg_of is_nil n cap st1 os), (hspec_run ident seg_of (fun _ => false) n cap st1 os).
  cbn [fst] in *. destruct IH as [-> Hin]. split; [auto|]. intros [E|Hin']; auto.
Qed.
End nonil.

(** Filling the map with the keys 0, 1, 2, ...: segment [i] then holds (m + n - 1 - i) / n keys. *)
Lemma seg_count_step (m n i : Z) : 0 < n -> 0 <= m -> 0 <= i < n ->
  (m + 1 + n - 1 - i) / n = (m + n - 1 - i) / n + (if m mod n =? i then 1 else 0).
Proof.
  intros Hn Hm Hi. pose proof (Z.div_mod m n ltac:(lia)) as Hd. pose proof (Z.mod_pos_bound m n ltac:(lia)) as Hb.
  set (q := m / n) in *. set (r := m mod n) in *.
  destruct (Z.eqb_spec r i) as [He|Hne].
  - rewrite <- (Z.div_unique (m + 1 + n - 1 - i) n (q + 1) 0) by lia.
    rewrite <- (Z.div_unique (m + n - 1 - i) n q (n - 1)) by lia. lia.
  - destruct (Z.lt_ge_cases r i).
    + rewrite <- (Z.div_unique (m + 1 + n - 1 - i) n q (r + n - i)) by lia.
      rewrite <- (Z.div_unique (m + n - 1 - i) n q (r + n - 1 - i)) by lia. lia.
    + rewrite <- (Z.div_unique (m + 1 + n - 1 - i) n (q + 1) (r - i)) by lia.
      rewrite <- (Z.div_unique (m + n - 1 - i) n (q + 1) (r - i - 1)) by lia. lia.
Qed.

Lemma sum_upd (f g : nat -> nat) (i a n : nat) : (a <= i < a + n)%nat -> g i = S (f i) ->
  (forall j, j <> i -> g j = f j) -> sum_list_with g (seq a n) = S (sum_list_with f (seq a n)).
Proof.
  revert a. induction n as [|n IH]; intros a Hi Hg Hf; [lia|]. cbn [seq sum_list_with].
  destruct (decide (i = a)) as [->|Hne].
  - rewrite Hg. assert (HE : forall b k, (a < b)%nat -> sum_list_with g (seq b k) = sum_list_with f (seq b k)).
    { intros b k. revert b. induction k as [|k IHk]; intros b Hb; cbn [seq sum_list_with]; [auto|].
      rewrite Hf by lia. rewrite IHk by lia. auto. }
    rewrite HE by lia. lia.
  - rewrite (IH (S a)) by first [lia|assumption]. rewrite Hf by lia. lia.
Qed.

Section fill.
Context {V : Type} (v : V) (n : nat) (cap : Z).
Hypothesis Hn : (0 < n)%nat.
Definition fill (m : nat) : list (hop Z V) := map (fun i => HPut (Z.of_nat i) v) (seq 0 m).
Notation run m := (hspec_run (fun k : Z => k) (hseg (fun k : Z => k) n) (fun _ => false) n cap (fun _ => []) (fill m)).

Lemma hspec_run_app {K I W} `{EqDecision I} (ident : K -> I) seg_of (nl : W -> bool) k c os1 os2 : forall st,
  (hspec_run ident seg_of nl k c st (os1 ++ os2)).2 =
  (hspec_run ident seg_of nl k c (hspec_run ident seg_of nl k c st os1).2 os2).2.
Proof.
  induction os1 as [|o os1 IH]; intros st; cbn [app hspec_run]; [auto|].
  destruct (hspec_step ident seg_of nl k c st o) as [x st1]. specialize (IH st1).
  destruct (hspec_run ident seg_of nl k c st1 (os1 ++ os2)), (hspec_run ident seg_of nl k c st1 os1) as [y s2].
  cbn [snd] in *. auto.
Qed.

Lemma fill_inv m : Z.of_nat m <= Z.of_nat n * Z.max 1 cap ->
  (forall i, (i < n)%nat -> Z.of_nat (length ((run m).2 i)) = (Z.of_nat m + Z.of_nat n - 1 - Z.of_nat i) / Z.of_nat n) /\
  (forall i p, p ∈ (run m).2 i -> p.1 < Z.of_nat m) /\
  sum_list_with (fun j => length ((run m).2 j)) (seq 0 n) = m.
Proof.
  induction m as [|m IH]; intros Hm.
  - change (run 0%nat) with (@nil (hres V), fun _ : nat => @nil (Z * V)). cbn [snd]. split; [|split].
    + intros i Hi. cbn [length]. rewrite Z.div_small by lia. auto.
    + intros i p Hp. apply elem_of_nil in Hp. tauto.
    + assert (HZ : forall b a, sum_list_with (fun _ : nat => 0%nat) (seq a b) = 0%nat).
      { induction b; intros a; cbn; auto. }
      apply HZ.
  - destruct (IH ltac:(lia)) as (HL & HK & HS). unfold fill. rewrite seq_S, map_app, hspec_run_app.
    fold (fill m). cbn [map Nat.add hspec_run hspec_step]. set (st := (run m).2) in *.
    set (i0 := hseg (fun k : Z => k) n (Z.of_nat m)).
    assert (Hi0 : (i0 < n)%nat) by (apply hseg_lt; auto).
    assert (Ei0 : Z.of_nat i0 = Z.of_nat m mod Z.of_nat n).
    { unfold i0, hseg. rewrite Z2Nat.id; [auto|]. apply Z.mod_pos_bound. lia. }
    unfold hspec_put. assert (HN : find_key (Z.of_nat m) (st i0) = None).
    { apply find_key_None. rewrite elem_of_list_fmap. intros (p & Ep & Hp). apply HK in Hp. lia. }
    rewrite HN. cbn [snd].
    assert (HR : (if Z.of_nat (length (st i0)) <? cap then st i0 else removelast (st i0)) = st i0).
    { destruct (Z.ltb_spec (Z.of_nat (length (st i0))) cap) as [Hlt|Hge]; [auto|].
      assert (HQ : Z.of_nat (length (st i0)) = Z.of_nat m / Z.of_nat n).
      { rewrite HL by auto. symmetry. apply (Z.div_unique _ _ _ (Z.of_nat n - 1)); [lia|].
        pose proof (Z.div_mod (Z.of_nat m) (Z.of_nat n) ltac:(lia)). lia. }
      assert (Z.of_nat m / Z.of_nat n < Z.max 1 cap) by (apply Z.div_lt_upper_bound; lia).
      assert (length (st i0) = 0%nat) by (pose proof (Z.div_pos (Z.of_nat m) (Z.of_nat n)); lia).
      destruct (st i0); [auto|discriminate]. }
    rewrite HR. split; [|split].
    + intros i Hi. replace (Z.of_nat (S m) + Z.of_nat n - 1 - Z.of_nat i)
        with (Z.of_nat m + 1 + Z.of_nat n - 1 - Z.of_nat i) by lia.
      rewrite seg_count_step by lia. rewrite <- Ei0, <- HL by auto.
      destruct (decide (i = i0)) as [->|Hne]; [rewrite Z.eqb_refl; cbn [length]; lia|].
      rewrite (proj2 (Z.eqb_neq _ _)) by lia. lia.
    + intros i p Hp. destruct (decide (i = i0)) as [->|Hne].
      * apply elem_of_cons in Hp as [->|Hp]; [cbn; lia|]. apply HK in Hp. lia.
      * apply HK in Hp. lia.
    + rewrite (sum_upd (fun j => length (st j)) _ i0 0 n); [lia|lia| |].
      * rewrite decide_True by auto. reflexivity.
      * intros j Hj. rewrite decide_False by auto. auto.
Qed.
End fill.
