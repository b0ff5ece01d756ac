(** What the invariant of Mmap_Proofs says about the calls that have returned. *)
From stdpp Require Import list.
From Coq Require Import ZArith Lia ZifyBool ZifyNat.
From Verif Require Import GoInt Mmap_Model Mmap_Spec Mmap_Proofs.
Local Open Scope Z_scope.

(** ** Which call of the program an entry belongs to *)
Definition all_calls (th : mthread) : list mcall := (fst <$> rev (mlog th)) ++ option_list (pcall (mpos th)) ++ mtodo th.
Lemma thread_calls pl page s t th ok s' th' : mthread_step pl page s t th ok = Some (s', th') -> all_calls th' = all_calls th.
Proof.
  unfold mthread_step, all_calls. intros H.
  destruct (mpos th) as [|c|c n|c n|c n j|c n|c n a k];
    repeat match type of H with context [match ?x with _ => _ end] => destruct x eqn:? end; simplify_eq/=;
    repeat match goal with E : mtodo th = _ |- _ => rewrite E end; rewrite ?fmap_app, <- ?app_assoc; reflexivity.
Qed.
Lemma step_calls pl page c e : all_calls <$> mths (mconf_step pl page c e) = all_calls <$> mths c.
Proof.
  destruct e as [t ok|a]; cbn [mconf_step].
  - destruct (mths c !! t) as [th|] eqn:E; [|auto]. destruct (mthread_step _ _ _ _ _ _) as [[s' th']|] eqn:Es; [|auto]. cbn [mths].
    apply thread_calls in Es. rewrite list_fmap_insert, Es. rewrite list_insert_id; [auto|]. rewrite list_lookup_fmap, E. auto.
  - destruct (mmem (msh c) !! a); auto.
Qed.
Lemma run_calls pl page c evs : all_calls <$> mths (mrun pl page c evs) = all_calls <$> mths c.
Proof. revert c. induction evs as [|e evs IH]; intros c; [auto|]. cbn [mrun foldl]. rewrite <- (step_calls pl page c e). apply IH. Qed.

Lemma mine_app t o1 o2 : mine t (o1 ++ o2) = mine t o1 ++ mine t o2.
Proof. apply List.filter_app. Qed.
Lemma mine_pos t o k e : mine t o !! k = Some e -> exists p, o !! p = Some e /\ et e = t /\ length (mine t (take p o)) = k.
Proof.
  revert k. induction o as [|x o IH]; intros k H; [discriminate|]. unfold mine in H. cbn [List.filter] in H.
  destruct (Nat.eqb_spec (et x) t) as [Hx|Hx].
  - destruct k as [|k].
    + injection H as <-. exists 0%nat. auto.
    + destruct (IH k H) as (p & H1 & H2 & H3). exists (S p). split; [auto|]. split; [auto|]. cbn [take]. unfold mine in *. cbn [List.filter].
      rewrite Hx, Nat.eqb_refl. cbn [length]. auto.
  - destruct (IH k H) as (p & H1 & H2 & H3). exists (S p). split; [auto|]. split; [auto|]. cbn [take]. unfold mine in *. cbn [List.filter].
    destruct (Nat.eqb_spec (et x) t); [contradiction|]. auto.
Qed.
Lemma pos_mine o p e : o !! p = Some e -> mine (et e) o !! length (mine (et e) (take p o)) = Some e.
Proof.
  intros H. assert (E : mine (et e) o = mine (et e) (take p o) ++ mine (et e) (e :: drop (S p) o)) by (rewrite <- mine_app, take_drop_middle; auto).
  rewrite E at 1. rewrite lookup_app_r by lia. rewrite Nat.sub_diag.
  unfold mine. cbn [List.filter]. rewrite Nat.eqb_refl. reflexivity.
Qed.
Lemma mine_strip t o o' : strip o `prefix_of` strip o' -> (length (mine t o) <= length (mine t o'))%nat.
Proof.
  intros [l Hl].
  assert (Hm : forall o, length (mine t o) = length (List.filter (fun x : nat * mcall * option Z => Nat.eqb x.1.1 t) (strip o))).
  { clear. unfold mine, strip. induction o as [|x o IH]; [auto|]. rewrite fmap_cons. cbn [List.filter fst]. destruct (Nat.eqb (et x) t); cbn [length]; auto. }
  rewrite !Hm, Hl, List.filter_app, app_length. lia.
Qed.

Section run.
Context (pl : mplat) (page : Z) (Hpage : 0 < page) (mem0 disk0 : list Z) (start : Z).
Notation max := (Z.of_nat (length mem0)).
Context (Hdisk0 : length disk0 = length mem0) (Hmax : max < 2^63) (Hstart : 0 <= start <= max).
Notation inv := (minv pl mem0 disk0 start).

(** The entry of a call that has returned; [i] counts from the oldest. *)
Lemma log_entry c o t th i x : inv c o -> mths c !! t = Some th -> rev (mlog th) !! i = Some x ->
  exists p e, o !! p = Some e /\ et e = t /\ length (mine t (take p o)) = i /\ edone pl x e.
Proof.
  intros (_ & Ht & _) Hth Hx. destruct (Ht t th Hth) as (_ & _ & _ & _ & ds & l & Hm & Hd & _).
  destruct (Forall2_lookup_l _ _ _ _ _ Hd Hx) as (e & He & Hed).
  destruct (mine_pos t o i e) as (p & H1 & H2 & H3); [rewrite Hm; apply lookup_app_l_Some; auto|]. eauto 10.
Qed.
(** The k-th entry of a goroutine is for its k-th call. *)
Lemma mine_calls c o t th k e : inv c o -> mths c !! t = Some th -> mine t o !! k = Some e -> all_calls th !! k = Some (ec e).
Proof.
  intros (_ & Ht & _) Hth Hk. destruct (Ht t th Hth) as (_ & _ & _ & _ & ds & l & Hm & Hd & Hl). rewrite Hm in Hk. unfold all_calls.
  pose proof (Forall2_length _ _ _ Hd) as Hlen. apply lookup_app_Some in Hk as [Hk|[Hge Hk]].
  - destruct (Forall2_lookup_r _ _ _ _ _ Hd Hk) as (x & Hx & Hex). apply lookup_app_l_Some. rewrite list_lookup_fmap, Hx. cbn. destruct Hex as [-> _]. auto.
  - rewrite lookup_app_r by (rewrite fmap_length; lia). rewrite fmap_length, Hlen.
    destruct (k - length ds)%nat as [|z] eqn:Ez.
    + destruct (mpos th); cbn [ecur pcall option_list] in *; try (subst l; discriminate).
      * subst l. injection Hk as <-. reflexivity.
      * destruct Hl as [-> _]. injection Hk as <-. reflexivity.
      * destruct Hl as [-> _]. injection Hk as <-. reflexivity.
      * destruct Hl as (d & -> & _). injection Hk as <-. reflexivity.
    + exfalso. destruct (mpos th); cbn [ecur] in *; try (subst l; discriminate); try (destruct Hl as [-> _]; discriminate).
      destruct Hl as (d & -> & _). discriminate.
Qed.
Lemma entry_call c o p e : inv c o -> o !! p = Some e ->
  exists th, mths c !! et e = Some th /\ all_calls th !! length (mine (et e) (take p o)) = Some (ec e).
Proof.
  intros HI Hp. pose proof HI as (_ & _ & He). destruct (lookup_lt_is_Some_2 (mths c) (et e)) as [th Hth].
  { apply He. apply elem_of_list_lookup. eauto. }
  exists th. split; [auto|]. apply (mine_calls c o (et e) th); auto. apply pos_mine. auto.
Qed.
Lemma entries_appends c o p q e e' n n' a : inv c o -> o !! p = Some e -> o !! q = Some e' -> er e = Some n -> er e' = Some n' ->
  (p < q)%nat -> is_append (ec e') -> ecov e a -> ecov e' a -> False.
Proof.
  intros (Hv & _) Hp Hq Hn Hn' Hlt Ha Hc Hc'.
  assert (n + mlen (ec e) <= n').
  { apply (reserves_append max start (ec <$> o) p q (ec e) (ec e')); auto.
    - rewrite list_lookup_fmap, Hp. auto.
    - rewrite list_lookup_fmap, Hq. auto.
    - rewrite <- (v_res _ _ _ _ _ Hv), list_lookup_fmap, Hp. cbn. congruence.
    - rewrite <- (v_res _ _ _ _ _ Hv), list_lookup_fmap, Hq. cbn. congruence. }
  unfold ecov in *. rewrite Hn in Hc. rewrite Hn' in Hc'. unfold covers, mlen in *. lia.
Qed.
Lemma entry_start c o p e n : inv c o -> o !! p = Some e -> er e = Some n -> is_append (ec e) -> start <= n.
Proof.
  intros (Hv & _) Hp Hn Ha. apply (reserves_append_start max start (ec <$> o) p (ec e)); auto.
  - rewrite list_lookup_fmap, Hp. auto.
  - rewrite <- (v_res _ _ _ _ _ Hv), list_lookup_fmap, Hp. cbn. congruence.
Qed.
Lemma entry_write c o p e n a : inv c o -> o !! p = Some e -> er e = Some n -> ~ is_append (ec e) -> ecov e a -> write_at_covers (ec e) a.
Proof.
  intros (Hv & _) Hp Hn Ha Hc.
  assert (Hx : forall m o cs p c k, cs !! p = Some c -> reserves m o cs !! p = Some (Some k) -> exists o', reserve m o' c = Some k).
  { clear. intros m o cs; revert o; induction cs as [|c0 cs IH]; intros o [|p] c k Hc Hr; try discriminate;
       [injection Hc as ->; cbn [reserves] in Hr; injection Hr as Hr; eauto|exact (IH _ _ _ _ Hc Hr)]. }
  destruct (Hx max start (ec <$> o) p (ec e) n) as [o' Ho].
  { rewrite list_lookup_fmap, Hp. auto. }
  { rewrite <- (v_res _ _ _ _ _ Hv), list_lookup_fmap, Hp. cbn. congruence. }
  unfold ecov in Hc. rewrite Hn in Hc. destruct (ec e); cbn in Ha; try tauto; cbn [reserve] in Ho; destruct (_ <=? _); try discriminate; injection Ho as <-; auto.
Qed.
(** An address that no other call of the programs can have written. *)
Lemma sole_call c o p e n a : inv c o -> o !! p = Some e -> er e = Some n -> ecov e a -> (is_append (ec e) \/ Z.of_nat a < start \/ (forall t th k cl, mths c !! t = Some th -> all_calls th !! k = Some cl -> ~ is_append cl)) ->
  (forall t th k cl, mths c !! t = Some th -> all_calls th !! k = Some cl -> (t, k) <> (et e, length (mine (et e) (take p o))) -> ~ write_at_covers cl a) ->
  sole o p e a.
Proof.
  intros HI Hp Hn Hc Ha Hw. split; [auto|]. split; [auto|]. intros q e' Hq Hc'.
  destruct (decide (q = p)) as [|Hne]; [auto|]. exfalso.
  destruct (er e') as [n'|] eqn:Hn'; [|unfold ecov in Hc'; rewrite Hn' in Hc'; auto].
  assert (Hdec : is_append (ec e') \/ ~ is_append (ec e')) by (destruct (ec e'); cbn; tauto). destruct Hdec as [Ha'|Ha'].
  - assert (Hlt : ~ Z.of_nat a < start).
    { pose proof (entry_start c o q e' n' HI Hq Hn' Ha'). unfold ecov in Hc'. rewrite Hn' in Hc'. unfold covers in Hc'. lia. }
    destruct Ha as [Ha|[Ha|Ha]]; [|tauto|destruct (entry_call c o q e' HI Hq) as (th & Hth & Hk); exact (Ha _ _ _ _ Hth Hk Ha')]. destruct (decide (p < q)%nat).
    + apply (entries_appends c o p q e e' n n' a); auto.
    + apply (entries_appends c o q p e' e n' n a); auto. lia.
  - pose proof (entry_write c o q e' n' a HI Hq Hn' Ha' Hc') as Hw'. destruct (entry_call c o q e' HI Hq) as (th & Hth & Hk).
    apply (Hw _ _ _ _ Hth Hk); [|auto]. intros [= Ht Hk2].
    assert (Hpq : forall p q e e', (p < q)%nat -> o !! p = Some e -> o !! q = Some e' -> et e' = et e ->
      length (mine (et e') (take q o)) = length (mine (et e) (take p o)) -> False).
    { clear. intros p q e e' Hlt Hp Hq Ht Hk. rewrite Ht in Hk. 
      replace (take q o) with (take p o ++ take (q - p) (drop p o)) in Hk.
      2: { rewrite <- (take_drop p o) at 3. rewrite take_app_ge by (rewrite take_length; lia). apply lookup_lt_Some in Hp. rewrite take_length. rewrite Nat.min_l by lia. reflexivity. }
      rewrite mine_app, app_length in Hk. rewrite (drop_S o e p Hp) in Hk. destruct (q - p)%nat as [|z] eqn:Ez; [lia|]. cbn [take] in Hk.
      unfold mine in Hk. cbn [List.filter] in Hk. rewrite Nat.eqb_refl in Hk. cbn [length] in Hk. lia. }
    destruct (decide (p < q)%nat); [apply (Hpq p q e e'); auto|apply (Hpq q p e' e); auto; lia].
Qed.

(** ** Final content when there are only appends *)
Definition succ_bytes (x : mcall * option Z) : list Z := match x.2 with Some _ => mbytes x.1 | None => [] end.
Lemma append_tiles m cs : forall o, Forall is_append cs -> let fl := concat (succ_bytes <$> zip cs (reserves m o cs)) in
  Z.of_nat (length fl) = offset_after m o cs - o /\
  forall j b, fl !! j = Some b -> exists p c n k, cs !! p = Some c /\ reserves m o cs !! p = Some (Some n) /\ mbytes c !! k = Some b /\
    o + Z.of_nat j = n + Z.of_nat k.
Proof.
  clear. induction cs as [|c cs IH]; intros o Ha; [split; [cbn; lia|discriminate]|]. apply Forall_cons in Ha as [Hc Ha]. cbn [reserves].
  rewrite zip_with_cons || idtac. cbn [zip zip_with]. rewrite fmap_cons. cbn [concat offset_after fold_left].
  destruct (IH (advance m o c) Ha) as [IH1 IH2]. clear IH. set (fl := concat _) in IH1, IH2. fold fl.
  assert (Hr : reserve m o c = Some o \/ reserve m o c = None) by (destruct c; cbn in Hc; try contradiction; cbn [reserve]; destruct (_ <=? _); auto).
  assert (Hadv : advance m o c = o + Z.of_nat (length (succ_bytes (c, reserve m o c)))).
  { unfold advance, succ_bytes. destruct Hr as [-> | ->]; cbn [fst snd length]; lia. }
  fold (offset_after m (advance m o c) cs). split.
  - rewrite app_length. lia.
  - intros j b Hj. apply lookup_app_Some in Hj as [Hj|[Hge Hj]].
    + unfold succ_bytes in Hj. destruct Hr as [Hr|Hr]; rewrite Hr in Hj; cbn [fst snd] in Hj; [|discriminate]. exists 0%nat, c, o, j. rewrite Hr. auto.
    + destruct (IH2 _ _ Hj) as (p & c' & n & k & H1 & H2 & H3 & H4). exists (S p), c', n, k. split; [auto|]. split; [auto|]. split; [auto|]. lia.
Qed.
Lemma zip_fmap_self {A B C} (f : A -> B) (g : A -> C) l : zip (f <$> l) (g <$> l) = (fun x => (f x, g x)) <$> l.
Proof. induction l as [|x l IH]; [auto|]. rewrite !fmap_cons. cbn [zip zip_with]. f_equal. exact IH. Qed.
Lemma final_content c o : inv c o -> Forall (fun e => is_append (ec e)) o -> Forall (fun e => er e <> None -> ej e = length (mbytes (ec e))) o ->
  mmem (msh c) = take (Z.to_nat start) mem0 ++ concat ((fun e => succ_bytes (ec e, er e)) <$> o) ++ drop (Z.to_nat (moff (msh c))) mem0.
Proof.
  intros HI Ha Hj. pose proof HI as (Hv & _). pose proof Hv as [H1 H2 H3 H4 H5 H6 H7 H8].
  assert (Hof : start <= moff (msh c) <= max) by (eapply v_offb; [| |exact Hv]; auto).
  destruct (append_tiles max (ec <$> o) start) as [L1 L2]; [rewrite Forall_fmap; exact Ha|].
  assert (Hfl : concat (succ_bytes <$> zip (ec <$> o) (reserves max start (ec <$> o))) = concat ((fun e => succ_bytes (ec e, er e)) <$> o)).
  { rewrite <- H5, zip_fmap_self, <- list_fmap_compose. reflexivity. }
  rewrite Hfl in L1, L2. set (fl := concat _) in *. rewrite <- H4 in L1.
  assert (Hlen : length (take (Z.to_nat start) mem0) = Z.to_nat start) by (rewrite take_length; lia).
  apply list_eq_same_length with (n := length mem0); [rewrite !app_length, Hlen, drop_length; lia|auto|].
  intros i x y Hi Hx Hy. 
  assert (Hout : Z.of_nat i < start \/ moff (msh c) <= Z.of_nat i -> mmem (msh c) !! i = mem0 !! i).
  { intros Hio. apply H7. intros p e Hp Hc. destruct (er e) as [n|] eqn:En; [|unfold ecov in Hc; rewrite En in Hc; auto].
    assert (Hae : is_append (ec e)) by (rewrite Forall_lookup in Ha; eauto).
    pose proof (entry_start c o p e n HI Hp En Hae) as G1.
    assert (G2 : n + mlen (ec e) <= offset_after max start (ec <$> o)).
    { apply (offset_after_end max start (ec <$> o) p (ec e) n); [rewrite list_lookup_fmap, Hp; auto|].
      rewrite <- H5, list_lookup_fmap, Hp. cbn. congruence. }
    unfold ecov in Hc. rewrite En in Hc. unfold covers, mlen in *. rewrite <- H4 in G2. lia. }
  apply lookup_app_Some in Hy as [Hy|[Hge Hy]].
  { assert (Hlt : (i < Z.to_nat start)%nat) by (apply lookup_lt_Some in Hy; lia). rewrite lookup_take in Hy by auto. rewrite Hout in Hx by lia. congruence. }
  rewrite Hlen in Hge, Hy. apply lookup_app_Some in Hy as [Hy|[Hge2 Hy]].
  - destruct (L2 _ _ Hy) as (p & cl & n & k & P1 & P2 & P3 & P4). rewrite list_lookup_fmap in P1. destruct (o !! p) as [e|] eqn:Ep; [|discriminate].
    injection P1 as <-. rewrite <- H5, list_lookup_fmap, Ep in P2. cbn in P2. injection P2 as En.
    assert (Hk : (k < length (mbytes (ec e)))%nat) by (eapply lookup_lt_Some; eauto).
    assert (Hcov : ecov e i) by (unfold ecov; rewrite En; unfold covers; lia).
    assert (Hs : sole o p e i).
    { split; [auto|]. split; [auto|]. intros q e' Hq Hc'. destruct (decide (q = p)); [auto|]. exfalso.
      destruct (er e') as [n'|] eqn:En'; [|unfold ecov in Hc'; rewrite En' in Hc'; auto].
      destruct (decide (p < q)%nat).
      - apply (entries_appends c o p q e e' n n' i); auto. rewrite Forall_lookup in Ha. eauto.
      - apply (entries_appends c o q p e' e n' n i); auto; [lia|]. rewrite Forall_lookup in Ha. eauto. }
    destruct (H8 p e i n Hs En) as (G & _). assert (Hje : ej e = length (mbytes (ec e))) by (rewrite Forall_lookup in Hj; apply (Hj p); auto; congruence).
    assert (Hn0 : 0 <= n) by (pose proof (entry_start c o p e n HI Ep En ltac:(rewrite Forall_lookup in Ha; eauto)); lia).
    replace (i - Z.to_nat n)%nat with k in G by lia. rewrite G in Hx by lia. congruence.
  - rewrite lookup_drop in Hy. rewrite Hout in Hx by lia. replace (Z.to_nat (moff (msh c)) + _)%nat with i in Hy by lia. congruence.
Qed.
End run.
