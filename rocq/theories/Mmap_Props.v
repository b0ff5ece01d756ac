(** C48-C50: the mmap package.

    All theorems start from a mapping with any content and any append offset in it, with no call in progress; [disk0] is what is
    on disk.  That is an Mmap just made by NewMMAP, or any later moment without a call in progress ([mmap_restart]). *)
From stdpp Require Import list.
From Coq Require Import ZArith Lia ZifyBool ZifyNat.
From Verif Require Import GoInt Mmap_Model Mmap_Spec Mmap_Proofs Mmap_Run.
Local Open Scope Z_scope.

(** The hypotheses of all theorems below on the mapping. *)
Definition opened (mem0 disk0 : list Z) (start page : Z) : Prop :=
  0 < page /\ length disk0 = length mem0 /\ Z.of_nat (length mem0) < 2^63 /\ 0 <= start <= Z.of_nat (length mem0).
Definition begin (mem0 disk0 : list Z) (start : Z) (progs : list (list mcall)) : mconf :=
  minit (MSh mem0 start (Z.of_nat (length mem0)) None disk0) progs.
Definition sane_progs (mem0 : list Z) (progs : list (list mcall)) : Prop := Forall (Forall (sane_call (Z.of_nat (length mem0)))) progs.

(** The states of NewMMAP satisfy them, if startOffset is not negative. *)
Lemma mnew_opened file start page s progs : mnew file start = Some s -> 0 <= start -> Z.of_nat (length file) < 2^63 -> 0 < page ->
  opened file file start page /\ minit s progs = begin file file start progs.
Proof.
  unfold mnew. intros H Hs Hl Hp. destruct (_ =? 0); [discriminate|]. destruct (_ <=? _) eqn:E; [discriminate|]. injection H as <-.
  split; [unfold opened; lia|reflexivity].
Qed.
Lemma begin_calls pl page mem0 disk0 start progs evs t th : mths (mrun pl page (begin mem0 disk0 start progs) evs) !! t = Some th ->
  progs !! t = Some (all_calls th).
Proof.
  intros Hth. assert (E : all_calls <$> mths (mrun pl page (begin mem0 disk0 start progs) evs) = progs).
  { rewrite run_calls. cbn [begin minit mths]. rewrite <- list_fmap_compose. clear. induction progs as [|p l IH]; [auto|]. rewrite fmap_cons, IH. reflexivity. }
  rewrite <- E, list_lookup_fmap, Hth. reflexivity.
Qed.

(** ** C48 *)
(** The calls take effect one after another, in the order [order], each getting the region the simple file of Mmap_Spec gives
    it, whatever the interleaving; the goroutines' results are those.  [pending] is the call a goroutine is in the middle of. *)
Theorem c48_linearizable : forall pl page mem0 disk0 start progs evs,
  opened mem0 disk0 start page -> sane_progs mem0 progs ->
  let c := mrun pl page (begin mem0 disk0 start progs) evs in let size := Z.of_nat (length mem0) in
  exists order : list (nat * (mcall * option Z)),
    (snd <$> (snd <$> order)) = reserves size start (fst <$> (snd <$> order)) /\
    moff (msh c) = offset_after size start (fst <$> (snd <$> order)) /\
    (forall x, x ∈ order -> (x.1 < length progs)%nat) /\
    forall t th, mths c !! t = Some th -> exists done pending,
      (snd <$> List.filter (fun x => Nat.eqb x.1 t) order) = done ++ pending /\
      Forall2 (fun cr x => x.1 = cr.1 /\ result_of x.1 x.2 cr.2) (rev (mlog th)) done /\
      (length pending <= 1)%nat /\ (mpos th = MIdle -> pending = []).
Proof.
  intros pl page mem0 disk0 start progs evs (Hp & Hd & Hm & Hs) Hok c size.
  destruct (reach pl page Hp mem0 disk0 start Hd Hm Hs progs evs Hok) as (o & HI). fold (begin mem0 disk0 start progs) in HI. fold c in HI.
  exists ((fun e => (et e, (ec e, er e))) <$> o). rewrite <- !list_fmap_compose. pose proof HI as (Hv & Ht & He).
  split; [exact (v_res _ _ _ _ _ Hv)|]. split; [exact (v_off _ _ _ _ _ Hv)|]. split.
  { intros x Hx. apply elem_of_list_fmap in Hx as (e & -> & Hin). cbn [fst]. apply He in Hin.
    assert (E : length (mths c) = length progs); [|lia]. rewrite <- (fmap_length all_calls). unfold c. rewrite run_calls. cbn. rewrite !fmap_length. auto. }
  intros t th Hth. destruct (Ht t th Hth) as (_ & _ & _ & _ & ds & l & Hmi & Hds & Hl).
  assert (E : snd <$> List.filter (fun x => Nat.eqb x.1 t) ((fun e => (et e, (ec e, er e))) <$> o) = (fun e => (ec e, er e)) <$> mine t o).
  { clear. unfold mine. induction o as [|x o IH]; [auto|]. rewrite fmap_cons. cbn [List.filter fst]. destruct (Nat.eqb (et x) t); rewrite ?fmap_cons, IH; auto. }
  exists ((fun e => (ec e, er e)) <$> ds), ((fun e => (ec e, er e)) <$> l). split; [rewrite E, Hmi, fmap_app; auto|]. split.
  - apply Forall2_fmap_r. eapply Forall2_impl; [exact Hds|]. intros x e (H1 & H2 & _). split; [exact H1|]. cbn in *. rewrite H1. exact H2.
  - rewrite fmap_length. destruct (mpos th); cbn [ecur] in Hl; try (subst l; cbn; auto; fail).
    + subst l. split; [cbn; lia|discriminate].
    + destruct Hl as [-> _]. split; [cbn; lia|discriminate].
    + destruct Hl as [-> _]. split; [cbn; lia|discriminate].
    + destruct Hl as (d & -> & _). split; [cbn; lia|discriminate].
Qed.
Print Assumptions c48_linearizable.

(** The regions of two appends that have returned are disjoint, behind the start offset and inside the file, also when other
    goroutines use WriteAt. *)
Theorem c48_regions : forall pl page mem0 disk0 start progs evs t i call n t' i' call' n',
  opened mem0 disk0 start page -> sane_progs mem0 progs ->
  let c := mrun pl page (begin mem0 disk0 start progs) evs in
  returned c t i call (MRAt n) -> returned c t' i' call' (MRAt n') -> is_append call -> is_append call' -> (t, i) <> (t', i') ->
  (start <= n /\ n + Z.of_nat (length (mbytes call)) <= Z.of_nat (length mem0)) /\
  forall a, ~ (covers n (mbytes call) a /\ covers n' (mbytes call') a).
Proof.
  intros pl page mem0 disk0 start progs evs t i call n t' i' call' n' (Hp & Hd & Hm & Hs) Hok c (th & Hth & Hi) (th' & Hth' & Hi') Ha Ha' Hne.
  destruct (reach pl page Hp mem0 disk0 start Hd Hm Hs progs evs Hok) as (o & HI). fold (begin mem0 disk0 start progs) in HI. fold c in HI.
  destruct (log_entry _ _ _ _ _ _ _ _ _ _ HI Hth Hi) as (p & e & Hpe & He & Hk & H1 & H2 & _).
  destruct (log_entry _ _ _ _ _ _ _ _ _ _ HI Hth' Hi') as (p' & e' & Hpe' & He' & Hk' & H1' & H2' & _). cbn [fst snd] in *.
  assert (Hboth : er e = Some n /\ er e' = Some n') by (split; [destruct call|destruct call']; cbn in H2, H2'; try contradiction; auto). clear H2 H2'. destruct Hboth as [H2 H2'].
  assert (Hpp : p <> p') by (intros <-; simplify_eq; congruence).
  pose proof (entry_start pl mem0 disk0 start c o p e n HI Hpe H2 ltac:(rewrite H1; auto)) as G1.
  destruct HI as (Hv & HI'). destruct (v_bounds mem0 disk0 start Hd Hs _ _ p e n Hv Hpe H2) as [_ G2]. unfold mlen in G2. rewrite H1 in G2.
  split; [auto|]. intros a [Hc Hc']. destruct (decide (p < p')%nat).
  - apply (entries_appends pl mem0 disk0 start Hd c o p p' e e' n n' a); auto.
    + split; auto.
    + rewrite H1'. auto.
    + unfold ecov. rewrite H2, H1. auto.
    + unfold ecov. rewrite H2', H1'. auto.
  - apply (entries_appends pl mem0 disk0 start Hd c o p' p e' e n' n a); auto.
    + split; auto.
    + lia.
    + rewrite H1. auto.
    + unfold ecov. rewrite H2', H1'. auto.
    + unfold ecov. rewrite H2, H1. auto.
Qed.
Print Assumptions c48_regions.

(** Where a call's bytes went, read off its result. *)
Definition region (call : mcall) (res : mres) : option Z :=
  match res, call with
  | (MRAt n | MRSync n), _ => Some n
  | (MRNil | MRSyncErr), (MWriteAt _ o | MWriteAtSync _ o) => Some o
  | _, _ => None
  end.
(** No other call of the programs than call [i] of goroutine [t] is a WriteAt over address [a]. *)
Definition no_other_write (progs : list (list mcall)) (t i a : nat) : Prop :=
  forall t' i' p call, progs !! t' = Some p -> p !! i' = Some call -> (t', i') <> (t, i) -> ~ write_at_covers call a.

Lemma entry_where mem0 disk0 start s o p e n : vinv mem0 disk0 start s o -> o !! p = Some e -> er e = Some n ->
  match ec e with MWriteAt _ x | MWriteAtSync _ x => n = x | _ => True end.
Proof.
  intros Hv Hp Hn.
  assert (Hx : forall m o cs p c k, cs !! p = Some c -> reserves m o cs !! p = Some (Some k) -> exists o', reserve m o' c = Some k).
  { clear. intros m o cs; revert o; induction cs as [|c0 cs IH]; intros o [|p] c k Hc Hr; try discriminate;
       [injection Hc as ->; cbn [reserves] in Hr; injection Hr as Hr; eauto|exact (IH _ _ _ _ Hc Hr)]. }
  destruct (Hx (Z.of_nat (length mem0)) start (ec <$> o) p (ec e) n) as [o' Ho].
  { rewrite list_lookup_fmap, Hp. auto. }
  { rewrite <- (v_res _ _ _ _ _ Hv), list_lookup_fmap, Hp. cbn. congruence. }
  destruct (ec e); auto; cbn [reserve] in Ho; destruct (_ <=? _); congruence.
Qed.
(** The value of an address only this call writes. *)
Lemma content pl page mem0 disk0 start progs evs t i call res n a : opened mem0 disk0 start page -> sane_progs mem0 progs ->
  let c := mrun pl page (begin mem0 disk0 start progs) evs in
  returned c t i call res -> region call res = Some n -> covers n (mbytes call) a -> (is_append call \/ Z.of_nat a < start \/ Forall (Forall (fun cl => ~ is_append cl)) progs) ->
  no_other_write progs t i a ->
  0 <= n /\ mmem (msh c) !! a = mbytes call !! (a - Z.to_nat n)%nat /\
  (pl <> Solaris -> msyncs call = true -> res = mok call n -> mdisk (msh c) !! a = mbytes call !! (a - Z.to_nat n)%nat).
Proof.
  intros (Hp & Hd & Hm & Hs) Hok c (th & Hth & Hi) Hr Hc Ha Hw.
  destruct (reach pl page Hp mem0 disk0 start Hd Hm Hs progs evs Hok) as (o & HI). fold (begin mem0 disk0 start progs) in HI. fold c in HI.
  destruct (log_entry _ _ _ _ _ _ _ _ _ _ HI Hth Hi) as (p & e & Hpe & He & Hk & H1 & H2 & H3 & H4 & H5). cbn [fst snd] in *.
  pose proof HI as (Hv & _).
  assert (En : er e = Some n).
  { destruct (er e) as [n1|] eqn:E1.
    - pose proof (entry_where _ _ _ _ _ _ _ _ Hv Hpe E1) as G. rewrite H1 in G. destruct res, call; cbn in Hr, H2; try discriminate; try contradiction; congruence.
    - exfalso. destruct res, call; cbn in Hr, H2; try discriminate; try contradiction; congruence. }
  assert (Hcov : ecov e a) by (unfold ecov; rewrite En, H1; auto).
  assert (Hsole : sole o p e a).
  { apply (sole_call pl mem0 disk0 start Hd Hs c o p e n a HI Hpe En Hcov); [rewrite H1; destruct Ha as [Ha|[Ha|Ha]]; auto|].
    { right. right. intros t' th' k cl Hth' Hcl. apply begin_calls in Hth'. rewrite Forall_lookup in Ha. specialize (Ha _ _ Hth'). rewrite Forall_lookup in Ha. eauto. }
    intros t' th' k cl Hth' Hcl Hne. rewrite He, Hk in Hne. apply (Hw t' k (all_calls th') cl); auto.
    apply (begin_calls pl page mem0 disk0 start progs evs). exact Hth'. }
  assert (Hn0 : 0 <= n) by (destruct (v_bounds mem0 disk0 start Hd Hs _ _ p e n Hv Hpe En); auto).
  destruct (v_sole _ _ _ _ _ Hv p e a n Hsole En) as (G1 & G2 & G3 & G4). rewrite H1 in G1, G3. unfold covers in Hc.
  split; [auto|]. split.
  - apply G1. rewrite H3; [lia|congruence].
  - intros Hpl Hms Hres. apply G3. rewrite H4; [lia|auto|auto| |congruence]. rewrite En. auto.
Qed.

(** Every append that has returned finds its bytes in its region, at any later moment, at every address no WriteAt goes for. *)
Theorem c48_content : forall pl page mem0 disk0 start progs evs t i call res n a,
  opened mem0 disk0 start page -> sane_progs mem0 progs ->
  let c := mrun pl page (begin mem0 disk0 start progs) evs in
  returned c t i call res -> is_append call -> region call res = Some n -> covers n (mbytes call) a ->
  no_other_write progs t i a ->
  mmem (msh c) !! a = mbytes call !! (a - Z.to_nat n)%nat.
Proof. intros pl page mem0 disk0 start progs evs t i call res n a Ho Hs c Hr Ha Hn Hc Hw. eapply (content pl page mem0 disk0 start progs evs t i call res n a); eauto. Qed.
Print Assumptions c48_content.

(** An address in no region handed out is unchanged. *)
Theorem c48_outside : forall pl page mem0 disk0 start progs evs a,
  opened mem0 disk0 start page -> sane_progs mem0 progs ->
  let c := mrun pl page (begin mem0 disk0 start progs) evs in
  quiet c ->
  (forall t i call res n, returned c t i call res -> region call res = Some n -> ~ covers n (mbytes call) a) ->
  mmem (msh c) !! a = mem0 !! a.
Proof.
  intros pl page mem0 disk0 start progs evs a (Hp & Hd & Hm & Hs) Hok c Hq Hout.
  destruct (reach pl page Hp mem0 disk0 start Hd Hm Hs progs evs Hok) as (o & HI). fold (begin mem0 disk0 start progs) in HI. fold c in HI.
  pose proof HI as (Hv & Ht & He). apply (v_none _ _ _ _ _ Hv). intros p e Hpe Hc.
  destruct (er e) as [n|] eqn:En; [|unfold ecov in Hc; rewrite En in Hc; auto]. unfold ecov in Hc. rewrite En in Hc.
  destruct (lookup_lt_is_Some_2 (mths c) (et e)) as [th Hth]; [apply He, elem_of_list_lookup; eauto|].
  destruct (Ht _ _ Hth) as (_ & _ & _ & _ & ds & l & Hmi & Hds & Hl). rewrite (Hq _ _ Hth) in Hl. cbn [ecur] in Hl. subst l. rewrite app_nil_r in Hmi.
  pose proof (pos_mine o p e Hpe) as Hk. rewrite Hmi in Hk. destruct (Forall2_lookup_r _ _ _ _ _ Hds Hk) as ((call & res) & Hx & (H1 & H2 & _ & _ & H5)).
  cbn [fst snd] in *. pose proof (entry_where _ _ _ _ _ _ _ _ Hv Hpe En) as G. rewrite En in H2.
  assert (Hnp : res <> MRPanic).
  { intros ->. destruct (H5 eq_refl) as [_ Hnil]. unfold covers in Hc. rewrite H1, Hnil in Hc. cbn in Hc. lia. }
  assert (Hret : returned c (et e) (length (mine (et e) (take p o))) call res) by (exists th; auto).
  rewrite H1 in G, Hc. destruct (region call res) as [n'|] eqn:Er.
  - apply (Hout _ _ _ _ n' Hret Er). destruct res, call; cbn in Er, H2; try discriminate; try contradiction; cbn [mbytes] in *; congruence.
  - destruct res, call; cbn in Er, H2; try discriminate; try contradiction; congruence.
Qed.
Print Assumptions c48_outside.

(** Only appends: when all have returned, the file is what it was up to the start offset, then the bytes of the successful calls
    back to back in the order they took the lock, then what it was behind the append offset. *)
Theorem c48_final_content : forall pl page mem0 disk0 start progs evs,
  opened mem0 disk0 start page -> sane_progs mem0 progs -> Forall (Forall is_append) progs ->
  let c := mrun pl page (begin mem0 disk0 start progs) evs in let size := Z.of_nat (length mem0) in
  quiet c ->
  exists order : list (nat * (mcall * option Z)),
    (snd <$> (snd <$> order)) = reserves size start (fst <$> (snd <$> order)) /\
    (forall t th, mths c !! t = Some th ->
      Forall2 (fun cr x => x.1 = cr.1 /\ result_of x.1 x.2 cr.2) (rev (mlog th)) (snd <$> List.filter (fun x => Nat.eqb x.1 t) order)) /\
    mmem (msh c) = take (Z.to_nat start) mem0 ++
      concat ((fun x => match x.2.2 with Some _ => mbytes x.2.1 | None => [] end) <$> order) ++
      drop (Z.to_nat (offset_after size start (fst <$> (snd <$> order)))) mem0.
Proof.
  intros pl page mem0 disk0 start progs evs (Hp & Hd & Hm & Hs) Hok Hap c size Hq.
  destruct (reach pl page Hp mem0 disk0 start Hd Hm Hs progs evs Hok) as (o & HI). fold (begin mem0 disk0 start progs) in HI. fold c in HI.
  exists ((fun e => (et e, (ec e, er e))) <$> o). rewrite <- !list_fmap_compose. pose proof HI as (Hv & Ht & He).
  split; [exact (v_res _ _ _ _ _ Hv)|].
  assert (E : forall t, snd <$> List.filter (fun x => Nat.eqb x.1 t) ((fun e => (et e, (ec e, er e))) <$> o) = (fun e => (ec e, er e)) <$> mine t o).
  { clear. intros t. unfold mine. induction o as [|x o IH]; [auto|]. rewrite fmap_cons. cbn [List.filter fst]. destruct (Nat.eqb (et x) t); rewrite ?fmap_cons, IH; auto. }
  split.
  { intros t th Hth. destruct (Ht t th Hth) as (_ & _ & _ & _ & ds & l & Hmi & Hds & Hl). rewrite (Hq _ _ Hth) in Hl. cbn [ecur] in Hl. subst l.
    rewrite E, Hmi, app_nil_r. apply Forall2_fmap_r. eapply Forall2_impl; [exact Hds|]. intros x e (H1 & H2 & _). split; [exact H1|]. cbn in *. rewrite H1. exact H2. }
  pose proof (final_content pl mem0 disk0 start Hd Hs c o HI) as G. rewrite (v_off _ _ _ _ _ Hv) in G. apply G.
  - apply Forall_lookup. intros p e Hpe. destruct (entry_call pl mem0 disk0 start Hd c o p e HI Hpe) as (th & Hth & Hcl).
    pose proof (begin_calls pl page mem0 disk0 start progs evs _ _ Hth) as Hpr. rewrite Forall_lookup in Hap. specialize (Hap _ _ Hpr).
    rewrite Forall_lookup in Hap. eauto.
  - apply Forall_lookup. intros p e Hpe Hne.
    destruct (lookup_lt_is_Some_2 (mths c) (et e)) as [th Hth]; [apply He, elem_of_list_lookup; eauto|].
    destruct (Ht _ _ Hth) as (_ & _ & _ & _ & ds & l & Hmi & Hds & Hl). rewrite (Hq _ _ Hth) in Hl. cbn [ecur] in Hl. subst l. rewrite app_nil_r in Hmi.
    pose proof (pos_mine o p e Hpe) as Hk. rewrite Hmi in Hk. destruct (Forall2_lookup_r _ _ _ _ _ Hds Hk) as ((call & res) & Hx & (H1 & H2 & H3 & _ & H5)).
    cbn [fst snd] in *. rewrite H1. auto.
Qed.
Print Assumptions c48_final_content.

(** An Append that does not fit changes nothing (two turns: take the mutex, test and return). *)
Theorem c48_unfit_append : forall pl page c t th call r ok ok',
  mths c !! t = Some th -> mpos th = MIdle -> mtodo th = call :: r -> is_append call -> mmux (msh c) = None ->
  0 <= moff (msh c) -> moff (msh c) + Z.of_nat (length (mbytes call)) < 2^63 ->
  mmax (msh c) < moff (msh c) + Z.of_nat (length (mbytes call)) ->
  mrun pl page c [MTurn t ok; MTurn t ok'] = MConf (msh c) (<[t := MTh r MIdle ((call, MRFull) :: mlog th)]> (mths c)).
Proof.
  intros pl page c t th call r ok ok' Hth Hp Ht Ha Hx H0 H1 H2. pose proof (lookup_lt_Some _ _ _ Hth) as Hlt. destruct c as [s ths]. cbn [msh mths] in *.
  unfold mrun. cbn [foldl]. unfold mconf_step at 2. cbn [mths msh]. rewrite Hth. unfold mthread_step at 1. rewrite Hp, Ht, Hx.
  unfold mconf_step. cbn [mths msh]. rewrite list_lookup_insert by auto. unfold mthread_step. cbn [mpos mtodo mlog].
  assert (Hf : forall m, mfull (MSh (mmem s) (moff s) (mmax s) m (mdisk s)) call = true).
  { intros m. unfold mfull, i64, mlen. cbn [mmax moff]. destruct call; cbn in Ha; try contradiction; cbn [mbytes] in *; rewrite wrapS_id by lia; lia. }
  rewrite Hf. cbn [mmem moff mmax mdisk]. rewrite list_insert_insert. f_equal. destruct s as [a1 a2 a3 a4 a5]; cbn in Hx; subst; reflexivity.
Qed.
Print Assumptions c48_unfit_append.

(** ** C49 *)
(** A WriteAt that has returned nil finds its bytes in the file, at any later moment: at every address no other WriteAt goes for
    that was already behind the append offset when the calls started, or everywhere if there are no appends. *)
Theorem c49_content : forall pl page mem0 disk0 start progs evs t i call n a,
  opened mem0 disk0 start page -> sane_progs mem0 progs ->
  let c := mrun pl page (begin mem0 disk0 start progs) evs in
  returned c t i call MRNil -> region call MRNil = Some n -> covers n (mbytes call) a ->
  (Z.of_nat a < start \/ Forall (Forall (fun cl => ~ is_append cl)) progs) -> no_other_write progs t i a ->
  mmem (msh c) !! a = mbytes call !! (a - Z.to_nat n)%nat.
Proof. intros pl page mem0 disk0 start progs evs t i call n a Ho Hs c Hr Hn Hc Ha Hw. eapply (content pl page mem0 disk0 start progs evs t i call MRNil n a); eauto. Qed.
Print Assumptions c49_content.

Lemma strip_take_mine t o o' p : strip o `prefix_of` strip o' -> (p <= length o)%nat -> length (mine t (take p o')) = length (mine t (take p o)).
Proof.
  intros [l Hl] Hp.
  assert (Hm : forall o, length (mine t o) = length (List.filter (fun x : nat * mcall * option Z => Nat.eqb x.1.1 t) (strip o))).
  { clear. unfold mine, strip. induction o as [|x o IH]; [auto|]. rewrite fmap_cons. cbn [List.filter fst]. destruct (Nat.eqb (et x) t); cbn [length]; auto. }
  rewrite !Hm. f_equal. f_equal. unfold strip in *. rewrite !fmap_take, Hl. rewrite take_app_le; [auto|]. rewrite fmap_length. auto.
Qed.
(** An append that starts after another call has returned gets a region behind that call's: so it never overwrites what a WriteAt
    wrote.  ([k] is the number of a call goroutine [t'] had not begun when [c] was reached.) *)
Theorem c49_later_append_behind : forall pl page mem0 disk0 start progs evs1 evs2 t i call res n t' th1 k call' n',
  opened mem0 disk0 start page -> sane_progs mem0 progs ->
  let c := mrun pl page (begin mem0 disk0 start progs) evs1 in let c' := mrun pl page c evs2 in
  returned c t i call res -> region call res = Some n ->
  mths c !! t' = Some th1 -> (length (mlog th1) + (match mpos th1 with MIdle => 0 | _ => 1 end) <= k)%nat ->
  returned c' t' k call' (MRAt n') ->
  n + Z.of_nat (length (mbytes call)) <= n'.
Proof.
  intros pl page mem0 disk0 start progs evs1 evs2 t i call res n t' th1 k call' n' (Hp & Hd & Hm & Hs) Hok c c' (th & Hth & Hi) Hr Hth1 Hk (th2 & Hth2 & Hi2).
  destruct (reach pl page Hp mem0 disk0 start Hd Hm Hs progs evs1 Hok) as (o & HI). fold (begin mem0 disk0 start progs) in HI. fold c in HI.
  destruct (run_minv pl page Hp mem0 disk0 start Hd Hm Hs evs2 c o HI) as (o' & HI' & Hpre). fold c' in HI'.
  destruct (log_entry _ _ _ _ _ _ _ _ _ _ HI Hth Hi) as (p & e & Hpe & He & _ & H1 & H2 & _). cbn [fst snd] in *.
  destruct (log_entry _ _ _ _ _ _ _ _ _ _ HI' Hth2 Hi2) as (q & e' & Hqe & He' & Hk' & H1' & H2' & _). cbn [fst snd] in *.
  pose proof HI as (Hv & Ht & _). pose proof HI' as (Hv' & _).
  assert (En : er e = Some n).
  { destruct (er e) as [n1|] eqn:E1.
    - pose proof (entry_where _ _ _ _ _ _ _ _ Hv Hpe E1) as G. rewrite H1 in G. destruct res, call; cbn in Hr, H2; try discriminate; try contradiction; congruence.
    - exfalso. destruct res, call; cbn in Hr, H2; try discriminate; try contradiction; congruence. }
  assert (En' : er e' = Some n' /\ is_append call') by (destruct call'; cbn in H2'; try contradiction; split; auto; exact I). destruct En' as [En' Ha'].
  assert (Hge : (length o <= q)%nat).
  { destruct (decide (length o <= q)%nat) as [|Hlt]; [auto|]. exfalso.
    assert (Hmk : (k < length (mine t' o))%nat).
    { rewrite <- Hk'. rewrite (strip_take_mine t' o o' q Hpre) by lia.
      destruct (lookup_lt_is_Some_2 o q) as [x Hx]; [lia|]. destruct Hpre as [l Hl].
      assert (Hxt : et x = t').
      { assert (Hsx : strip o' !! q = strip o !! q) by (rewrite Hl; apply lookup_app_l; unfold strip; rewrite fmap_length; lia).
        unfold strip in Hsx. rewrite !list_lookup_fmap, Hqe, Hx in Hsx. cbn in Hsx. congruence. }
      pose proof (pos_mine o q x Hx) as Hpm. rewrite Hxt in Hpm. apply lookup_lt_Some in Hpm. exact Hpm. }
    destruct (Ht _ _ Hth1) as (_ & _ & _ & _ & ds & l & Hmi & Hds & Hl). apply Forall2_length in Hds. rewrite rev_length in Hds.
    rewrite Hmi, app_length in Hmk. destruct (mpos th1); cbn [ecur] in Hl.
    1-4: subst l; cbn [length] in *; lia.
    1-2: destruct Hl as [-> _]; cbn [length] in *; lia.
    destruct Hl as (d & -> & _). cbn [length] in *. lia. }
  assert (Hpl : (p < length o)%nat) by (eapply lookup_lt_Some; eauto).
  destruct Hpre as [l Hl]. assert (Hsx : strip o' !! p = strip o !! p) by (rewrite Hl; apply lookup_app_l; unfold strip; rewrite fmap_length; lia).
  unfold strip in Hsx. rewrite !list_lookup_fmap, Hpe in Hsx. destruct (o' !! p) as [x|] eqn:Ex; [|discriminate]. cbn in Hsx. injection Hsx as X1 X2 X3.
  assert (G : n + mlen (ec x) <= n').
  { apply (reserves_append (Z.of_nat (length mem0)) start (ec <$> o') p q (ec x) (ec e')); auto.
    - lia.
    - rewrite list_lookup_fmap, Ex. auto.
    - rewrite list_lookup_fmap, Hqe. auto.
    - rewrite H1'. auto.
    - rewrite <- (v_res _ _ _ _ _ Hv'), list_lookup_fmap, Ex. cbn. congruence.
    - rewrite <- (v_res _ _ _ _ _ Hv'), list_lookup_fmap, Hqe. cbn. congruence. }
  unfold mlen in G. rewrite X2, H1 in G. exact G.
Qed.
Print Assumptions c49_later_append_behind.

(** WriteAt past the end of the file: an error, nothing changes. *)
Theorem c49_beyond_end : forall pl page c t th bs off call r ok ok',
  call = MWriteAt bs off \/ call = MWriteAtSync bs off ->
  mths c !! t = Some th -> mpos th = MIdle -> mtodo th = call :: r -> mmux (msh c) = None ->
  off + Z.of_nat (length bs) < 2^63 -> 0 <= off -> mmax (msh c) < off + Z.of_nat (length bs) ->
  mrun pl page c [MTurn t ok; MTurn t ok'] = MConf (msh c) (<[t := MTh r MIdle ((call, MRFull) :: mlog th)]> (mths c)).
Proof.
  intros pl page c t th bs off call r ok ok' Hc Hth Hp Ht Hx H0 H1 H2. pose proof (lookup_lt_Some _ _ _ Hth) as Hlt. destruct c as [s ths]. cbn [msh mths] in *.
  unfold mrun. cbn [foldl]. unfold mconf_step at 2. cbn [mths msh]. rewrite Hth. unfold mthread_step at 1. rewrite Hp, Ht, Hx.
  unfold mconf_step. cbn [mths msh]. rewrite list_lookup_insert by auto. unfold mthread_step. cbn [mpos mtodo mlog].
  assert (Hf : forall m, mfull (MSh (mmem s) (moff s) (mmax s) m (mdisk s)) call = true).
  { intros m. unfold mfull, i64, mlen. cbn [mmax moff]. destruct Hc as [-> | ->]; cbn [mbytes] in *; rewrite wrapS_id by lia; lia. }
  rewrite Hf. cbn [mmem moff mmax mdisk]. rewrite list_insert_insert. f_equal. destruct s as [a1 a2 a3 a4 a5]; cbn in Hx; subst; reflexivity.
Qed.
Print Assumptions c49_beyond_end.

(** A negative offset, or one so large that offset+len overflows, makes WriteAt panic (four turns), after the append offset has
    been moved for a negative one; no byte is written. *)
Theorem c49_bad_offset_panics : forall pl page c t th bs off call r o1 o2 o3 o4,
  call = MWriteAt bs off \/ call = MWriteAtSync bs off ->
  mths c !! t = Some th -> mpos th = MIdle -> mtodo th = call :: r -> mmux (msh c) = None -> 0 <= moff (msh c) ->
  0 <= mmax (msh c) -> let len := Z.of_nat (length bs) in len < 2^63 ->
  (-2^63 <= off < 0 /\ off + len <= mmax (msh c)) \/ (off < 2^63 <= off + len) ->
  let off' := if off <? 0 then Z.max (moff (msh c)) (off + len) else moff (msh c) in
  mrun pl page c [MTurn t o1; MTurn t o2; MTurn t o3; MTurn t o4] =
    MConf (MSh (mmem (msh c)) off' (mmax (msh c)) None (mdisk (msh c))) (<[t := MTh r MIdle ((call, MRPanic) :: mlog th)]> (mths c)).
Proof.
  intros pl page c t th bs off call r o1 o2 o3 o4 Hc Hth Hp Ht Hx H0 H1 len Hl Hb off'.
  pose proof (lookup_lt_Some _ _ _ Hth) as Hlt. destruct c as [s ths]. cbn [msh mths] in *.
  assert (Hw : i64 (off + len) = if off <? 0 then off + len else off + len - 2^64).
  { unfold i64. destruct (off <? 0) eqn:E; [rewrite wrapS_id; lia|].
    rewrite (wrapS_eq_mod 64 (off + len) (off + len - 2^64)); [rewrite wrapS_id; lia|lia|].
    replace (off + len) with (off + len - 2^64 + 1 * 2^64) at 1 by lia. rewrite Z.mod_add by lia. auto. }
  assert (Hml : mlen call = len) by (destruct Hc as [-> | ->]; auto).
  assert (Hf : forall m, mfull (MSh (mmem s) (moff s) (mmax s) m (mdisk s)) call = false).
  { intros m. unfold mfull. rewrite Hml. cbn [mmax moff]. destruct Hc as [-> | ->]; rewrite Hw; destruct (off <? 0) eqn:E; lia. }
  assert (Hwh : forall m, mwhere (MSh (mmem s) (moff s) (mmax s) m (mdisk s)) call = off) by (intros; destruct Hc as [-> | ->]; auto).
  assert (Hno : forall m, mnewoff (MSh (mmem s) (moff s) (mmax s) m (mdisk s)) call = off').
  { intros m. unfold mnewoff. rewrite Hml. cbn [mmax moff]. clear Hml Hwh Hf. unfold off'. destruct Hc as [-> | ->]; rewrite Hw; destruct (off <? 0) eqn:E;
      match goal with |- (if ?b then _ else _) = _ => destruct b eqn:E2 end; lia. }
  assert (Hsl : forall s, mslice_ok s call off = false).
  { intros s'. unfold mslice_ok. rewrite Hml, Hw. destruct (off <? 0) eqn:E; lia. }
  unfold mrun. cbn [foldl].
  unfold mconf_step at 4. cbn [mths msh]. rewrite Hth. unfold mthread_step at 1. rewrite Hp, Ht, Hx.
  unfold mconf_step at 3. cbn [mths msh]. rewrite list_lookup_insert by auto. unfold mthread_step at 1. cbn [mpos mtodo mlog]. rewrite Hf, Hwh.
  rewrite list_insert_insert.
  unfold mconf_step at 2. cbn [mths msh]. rewrite list_lookup_insert by auto. unfold mthread_step at 1. cbn [mpos mtodo mlog]. rewrite Hno. cbn [mmem moff mmax mdisk].
  rewrite list_insert_insert.
  unfold mconf_step at 1. cbn [mths msh]. rewrite list_lookup_insert by auto. unfold mthread_step at 1. cbn [mpos mtodo mlog]. rewrite Hsl.
  rewrite list_insert_insert. reflexivity.
Qed.
Print Assumptions c49_bad_offset_panics.

(** ** C50 *)
(** What the Unix version hands to msync: a page-aligned start not behind the region and a range that ends exactly where the region
    ends. *)
Theorem c50_msync_range : forall page size n len st l, 0 < page -> 0 <= n -> 0 <= len -> n + len <= size ->
  msync_args Unix page size n len = Some (st, l) ->
  st mod page = 0 /\ 0 <= st <= n /\ n - st < page /\ st + l = n + len /\ st < size.
Proof.
  intros page size n len st l Hp Hn Hl Hs H. cbn [msync_args] in H. destruct (_ && _) eqn:E; [|discriminate]. injection H as <- <-.
  pose proof (Z.mul_quot_le n page Hn ltac:(lia)). pose proof (Z.mul_succ_quot_gt n page Hn Hp) as G. rewrite Z.mul_succ_r in G.
  split; [apply Z.mod_mul; lia|]. lia.
Qed.
Print Assumptions c50_msync_range.
(** It panics exactly for an empty region at a page-aligned end of the file. *)
Theorem c50_msync_panics_iff : forall page size n len, 0 < page -> 0 <= n -> 0 <= len -> n + len <= size ->
  msync_args Unix page size n len = None <-> n = size /\ len = 0 /\ size mod page = 0.
Proof.
  intros page size n len Hp Hn Hl Hs. cbn [msync_args]. pose proof (Z.mul_quot_le n page Hn ltac:(lia)).
  pose proof (Z.quot_pos n page Hn Hp). split.
  - intros H1. destruct (_ && _) eqn:E; [discriminate|]. assert (n = size) by nia. subst n. split; [auto|]. split; [lia|].
    assert (E2 : Z.quot size page * page = size) by nia. rewrite <- E2. apply Z.mod_mul. lia.
  - intros (-> & -> & Hz). rewrite Z.quot_div_nonneg by lia. pose proof (Z.div_mod size page ltac:(lia)). destruct (_ && _) eqn:E; [lia|auto].
Qed.
Print Assumptions c50_msync_panics_iff.

(** After AppendSync or WriteAtSync has returned without error, its bytes are on disk (so survive a crash) at any later moment, at
    every address no other WriteAt goes for (for WriteAtSync: in the part behind the append offset, or without appends). *)
Theorem c50_durable : forall pl page mem0 disk0 start progs evs t i call n a,
  opened mem0 disk0 start page -> sane_progs mem0 progs -> pl <> Solaris ->
  let c := mrun pl page (begin mem0 disk0 start progs) evs in
  returned c t i call (mok call n) -> msyncs call = true -> region call (mok call n) = Some n -> covers n (mbytes call) a ->
  (is_append call \/ Z.of_nat a < start \/ Forall (Forall (fun cl => ~ is_append cl)) progs) -> no_other_write progs t i a ->
  mdisk (msh c) !! a = mbytes call !! (a - Z.to_nat n)%nat.
Proof.
  intros pl page mem0 disk0 start progs evs t i call n a Ho Hs Hpl c Hr Hms Hn Hc Ha Hw.
  destruct (content pl page mem0 disk0 start progs evs t i call (mok call n) n a Ho Hs Hr Hn Hc Ha Hw) as (_ & _ & G). auto.
Qed.
Print Assumptions c50_durable.
(** On Solaris nothing is synced: AppendSync returns nil and the bytes are lost in a crash. *)
Theorem c50_solaris_refuted : exists mem0 progs evs n b, opened mem0 mem0 0 4096 /\ sane_progs mem0 progs /\
  let c := mrun Solaris 4096 (begin mem0 mem0 0 progs) evs in
  returned c 0 0 (MAppendSync [b]) (MRAt n) /\ mdisk (msh c) !! Z.to_nat n <> Some b.
Proof.
  exists [0; 0; 0; 0], [[MAppendSync [7]]], (replicate 9 (MTurn 0 true)), 0, 7. split; [unfold opened; cbn; lia|].
  split; [repeat constructor; cbn; lia|]. cbn zeta. split; [|vm_compute; discriminate]. eexists. split; vm_compute; reflexivity.
Qed.
Print Assumptions c50_solaris_refuted.
(** AppendSync of no bytes to a full file of whole pages panics instead of returning (size, nil). *)
Theorem c50_empty_append_sync_refuted : exists mem0 progs evs, opened mem0 mem0 0 4 /\ sane_progs mem0 progs /\
  let c := mrun Unix 4 (begin mem0 mem0 0 progs) evs in
  returned c 0 0 (MAppend [1; 2; 3; 4]) (MRAt 0) /\ returned c 0 1 (MAppendSync []) MRPanic.
Proof.
  exists [0; 0; 0; 0], [[MAppend [1; 2; 3; 4]; MAppendSync []]], (replicate 15 (MTurn 0 true)). split; [unfold opened; cbn; lia|].
  split; [repeat constructor; cbn; lia|]. cbn zeta. split; eexists; split; vm_compute; reflexivity.
Qed.
Print Assumptions c50_empty_append_sync_refuted.

(** ** Examples *)
(** Two goroutines append while a third uses WriteAt in the part already filled; the copies interleave. *)
Definition ex_mem : list Z := [9; 9; 0; 0; 0; 0; 0; 0].
Definition ex_progs : list (list mcall) := [[MAppend [1; 2; 3]; MAppend [4; 4; 4; 4]]; [MAppendSync [5; 6]]; [MWriteAtSync [8] 1]].
Definition ex_evs : list mev :=
  replicate 4 (MTurn 0 true) ++ replicate 5 (MTurn 1 true) ++ [MTurn 0 true; MWB 5] ++ replicate 3 (MTurn 2 true) ++ replicate 5 (MTurn 1 true) ++
  replicate 8 (MTurn 0 true) ++ replicate 7 (MTurn 1 true) ++ replicate 8 (MTurn 2 true).
Definition ex_end : mconf := mrun Unix 4 (begin ex_mem ex_mem 2 ex_progs) ex_evs.
Example c48_case : opened ex_mem ex_mem 2 4 /\ sane_progs ex_mem ex_progs /\ quiet ex_end /\
  ((fun th => rev (mlog th)) <$> mths ex_end) = [[(MAppend [1; 2; 3], MRAt 2); (MAppend [4; 4; 4; 4], MRFull)]; [(MAppendSync [5; 6], MRAt 5)]; [(MWriteAtSync [8] 1, MRNil)]] /\
  mmem (msh ex_end) = [9; 8; 1; 2; 3; 5; 6; 0] /\ mdisk (msh ex_end) = [9; 8; 0; 0; 0; 5; 6; 0] /\ moff (msh ex_end) = 7.
Proof.
  split; [unfold opened; cbn; lia|]. split; [repeat constructor; cbn; lia|].
  split; [|vm_compute; auto]. assert (E : Forall (fun th => mpos th = MIdle) (mths ex_end)) by (vm_compute; repeat constructor).
  intros t th H. exact (proj1 (Forall_lookup _ _) E t th H).
Qed.
(** The hypotheses of c48_regions, c48_content, c49_content and c50_durable hold there. *)
Example c48_hyps : returned ex_end 0 0 (MAppend [1; 2; 3]) (MRAt 2) /\ returned ex_end 1 0 (MAppendSync [5; 6]) (MRAt 5) /\
  returned ex_end 2 0 (MWriteAtSync [8] 1) MRNil /\ covers 5 [5; 6] 6 /\ no_other_write ex_progs 1 0 6 /\ no_other_write ex_progs 2 0 1.
Proof.
  assert (F : forall t i a, a = 6%nat \/ (t, i) = (2, 0)%nat -> no_other_write ex_progs t i a).
  { intros t i a Hc t' i' p call Hp Hi Hne. destruct t' as [|[|[|t']]]; cbn in Hp; try discriminate; injection Hp as <-;
    destruct i' as [|[|i']]; cbn in Hi; try discriminate; injection Hi as <-; cbn [write_at_covers]; auto.
    destruct Hc as [->|Hc]; [unfold covers; cbn; lia|]. congruence. }
  split; [eexists; split; vm_compute; reflexivity|]. split; [eexists; split; vm_compute; reflexivity|]. split; [eexists; split; vm_compute; reflexivity|].
  split; [unfold covers; cbn; lia|]. split; apply F; auto.
Qed.
(** Only appends (c48_final_content): goroutine 1 takes the lock first. *)
Example c48_appends_case : let c := mrun Unix 4 (begin ex_mem ex_mem 2 [[MAppend [1; 2; 3]]; [MAppend [5; 6]]]) 
    (replicate 3 (MTurn 1 true) ++ replicate 8 (MTurn 0 true) ++ replicate 4 (MTurn 1 true)) in
  mmem (msh c) = [9; 9] ++ [5; 6] ++ [1; 2; 3] ++ [0] /\ (mpos <$> mths c) = [MIdle; MIdle].
Proof. vm_compute. auto. Qed.
(** WriteAt at -1 for three bytes on an Mmap with append offset 0: panic, and the append offset is now 2. *)
Example c49_case : let c := mrun Unix 4 (begin ex_mem ex_mem 0 [[MWriteAt [1; 1; 1] (-1)]]) (replicate 4 (MTurn 0 true)) in
  (mlog <$> mths c) = [[(MWriteAt [1; 1; 1] (-1), MRPanic)]] /\ mmem (msh c) = ex_mem /\ moff (msh c) = 2.
Proof. vm_compute. auto. Qed.
Example c49_later_case : let c := mrun Unix 4 (begin ex_mem ex_mem 0 [[MWriteAt [1; 1; 1] 3]; [MAppend [2]]]) (replicate 9 (MTurn 0 true)) in
  (mlog <$> mths c) = [[(MWriteAt [1; 1; 1] 3, MRNil)]; []] /\ (mlog <$> mths (mrun Unix 4 c (replicate 9 (MTurn 1 true)))) =  [[(MWriteAt [1; 1; 1] 3, MRNil)]; [(MAppend [2], MRAt 6)]].
Proof. vm_compute. auto. Qed.
Example c50_case : msync_args Unix 4096 10000 5000 100 = Some (4096, 1004) /\ msync_args Unix 4096 8192 8192 0 = None.
Proof. auto. Qed.

(** ** Any later quiet moment is a beginning *)
Definition same_but_log (th th0 : mthread) (old : list (mcall * mres)) : Prop :=
  mtodo th = mtodo th0 /\ mpos th = mpos th0 /\ mlog th = mlog th0 ++ old.
Lemma restart_step pl page c c0 olds e : msh c = msh c0 -> (length (mths c) = length (mths c0)) ->
  (forall t th th0, mths c !! t = Some th -> mths c0 !! t = Some th0 -> same_but_log th th0 (olds t)) ->
  let d := mconf_step pl page c e in let d0 := mconf_step pl page c0 e in
  msh d = msh d0 /\ (length (mths d) = length (mths d0)) /\
  (forall t th th0, mths d !! t = Some th -> mths d0 !! t = Some th0 -> same_but_log th th0 (olds t)).
Proof.
  intros Hs Hl Ht d d0. unfold d, d0. destruct e as [t ok|a]; cbn [mconf_step].
  - destruct (mths c !! t) as [th|] eqn:E.
    + destruct (lookup_lt_is_Some_2 (mths c0) t) as [th0 E0]; [rewrite <- Hl; eapply lookup_lt_Some; eauto|]. rewrite E0.
      pose proof (Ht t th th0 E E0) as (H1 & H2 & H3). rewrite Hs.
      assert (Hst : match mthread_step pl page (msh c0) t th ok, mthread_step pl page (msh c0) t th0 ok with
        | Some (s, th'), Some (s0, th0') => s = s0 /\ same_but_log th' th0' (olds t) | None, None => True | _, _ => False end).
      { unfold mthread_step. rewrite H1, H2, H3. unfold same_but_log.
        destruct (mpos th0); repeat match goal with |- context [match ?x with _ => _ end] => lazymatch x with context [match _ with _ => _ end] => fail | _ => destruct x end end; cbn; repeat match goal with |- _ /\ _ => split end; auto. }
      destruct (mthread_step pl page (msh c0) t th ok) as [[s th']|], (mthread_step pl page (msh c0) t th0 ok) as [[s0 th0']|]; try contradiction.
      * destruct Hst as [-> Hst]. cbn [msh mths]. split; [auto|]. rewrite !insert_length. split; [auto|].
        intros t2 x x0 Hx Hx0. destruct (decide (t2 = t)) as [->|Hne].
        -- rewrite list_lookup_insert in Hx by (eapply lookup_lt_Some; eauto). rewrite list_lookup_insert in Hx0 by (eapply lookup_lt_Some; eauto). congruence.
        -- rewrite list_lookup_insert_ne in Hx, Hx0 by auto. eauto.
      * auto.
    + destruct (mths c0 !! t) as [th0|] eqn:E0; [|auto]. apply lookup_ge_None in E. apply lookup_lt_Some in E0. lia.
  - rewrite Hs. destruct (mmem (msh c0) !! a); auto.
Qed.
Lemma mux_range pl page c evs : (forall t, mmux (msh c) = Some t -> is_Some (mths c !! t)) ->
  forall t, mmux (msh (mrun pl page c evs)) = Some t -> is_Some (mths (mrun pl page c evs) !! t).
Proof.
  revert c. induction evs as [|e evs IH]; intros c H; [auto|]. cbn [mrun foldl]. apply IH. clear IH. intros t.
  destruct e as [t0 ok|a]; cbn [mconf_step].
  - destruct (mths c !! t0) as [th|] eqn:E; [|auto]. destruct (mthread_step pl page (msh c) t0 th ok) as [[s th']|] eqn:Es; [|auto]. cbn [msh mths].
    assert (Hm : mmux s = Some t0 \/ mmux s = mmux (msh c) \/ mmux s = None).
    { unfold mthread_step in Es. destruct (mpos th); repeat match type of Es with context [match ?x with _ => _ end] => destruct x eqn:? end; simplify_eq/=; auto. }
    intros Ht. rewrite list_lookup_insert_is_Some || rewrite lookup_insert_is_Some || idtac.
    apply lookup_lt_is_Some. rewrite insert_length. apply lookup_lt_is_Some.
    destruct Hm as [Hm|[Hm|Hm]]; rewrite Ht in Hm; [injection Hm as ->; eauto|apply H; auto|discriminate].
  - destruct (mmem (msh c) !! a); auto.
Qed.
Theorem mmap_restart : forall pl page mem0 disk0 start progs evs, opened mem0 disk0 start page -> sane_progs mem0 progs ->
  let c := mrun pl page (begin mem0 disk0 start progs) evs in quiet c ->
  let m := mmem (msh c) in let d := mdisk (msh c) in let off := moff (msh c) in let todo := mtodo <$> mths c in
  opened m d off page /\ sane_progs m todo /\
  forall evs2, let c2 := mrun pl page c evs2 in let b2 := mrun pl page (begin m d off todo) evs2 in
    msh c2 = msh b2 /\ forall t th th0 th1, mths c !! t = Some th -> mths c2 !! t = Some th1 -> mths b2 !! t = Some th0 -> same_but_log th1 th0 (mlog th).
Proof.
  intros pl page mem0 disk0 start progs evs (Hp & Hd & Hm & Hs) Hok c Hq m d off todo.
  destruct (reach pl page Hp mem0 disk0 start Hd Hm Hs progs evs Hok) as (o & HI). fold (begin mem0 disk0 start progs) in HI. fold c in HI.
  pose proof HI as (Hv & Ht & He). pose proof (v_len _ _ _ _ _ Hv) as Hl. pose proof (v_dlen _ _ _ _ _ Hv) as Hdl. pose proof (v_max _ _ _ _ _ Hv) as Hmx.
  pose proof (v_offb mem0 disk0 start Hd Hs _ _ Hv) as Hoff. fold m in Hl. fold d in Hdl. fold off in Hoff.
  split; [unfold opened; lia|]. split.
  { unfold sane_progs, todo. rewrite Hl. apply Forall_fmap, Forall_lookup. intros t th Hth. destruct (Ht t th Hth) as [G _]. exact G. }
  assert (Hmux : mmux (msh c) = None).
  { destruct (mmux (msh c)) as [t|] eqn:E; [|auto]. exfalso. destruct (mux_range pl page (begin mem0 disk0 start progs) evs) with (t := t) as [th Hth]; [discriminate|exact E|].
    fold c in Hth. destruct (Ht t th Hth) as (_ & _ & G & _). rewrite (Hq _ _ Hth) in G. cbn in G. destruct G as [_ G]. specialize (G E). discriminate. }
  intros evs2. set (olds := fun t => match mths c !! t with Some th => mlog th | None => [] end).
  assert (G : forall evs2 c c0, msh c = msh c0 -> (length (mths c) = length (mths c0)) ->
    (forall t th th0, mths c !! t = Some th -> mths c0 !! t = Some th0 -> same_but_log th th0 (olds t)) ->
    msh (mrun pl page c evs2) = msh (mrun pl page c0 evs2) /\
    (forall t th th0, mths (mrun pl page c evs2) !! t = Some th -> mths (mrun pl page c0 evs2) !! t = Some th0 -> same_but_log th th0 (olds t))).
  { clear. induction evs2 as [|e evs2 IH]; intros c1 c0 H1 H2 H3; [auto|]. cbn [mrun foldl].
    destruct (restart_step pl page c1 c0 olds e H1 H2 H3) as (G1 & G2 & G3). apply IH; auto. }
  destruct (G evs2 c (begin m d off todo)) as [G1 G2].
  - unfold begin, minit. cbn [msh]. rewrite Hl, <- Hmx, <- Hmux. unfold m, d, off. destruct (msh c). reflexivity.
  - unfold begin, minit, todo. cbn [mths]. rewrite !fmap_length. auto.
  - intros t th th0 Hth Hth0. unfold begin, minit, todo in Hth0. cbn [mths] in Hth0. rewrite !list_lookup_fmap, Hth in Hth0. cbn in Hth0. injection Hth0 as <-.
    unfold same_but_log, olds. rewrite Hth. cbn. rewrite (Hq _ _ Hth). auto.
  - split; [exact G1|]. intros t th th0 th1 Hth Hth1 Hth0. specialize (G2 t th1 th0 Hth1 Hth0). unfold olds in G2. rewrite Hth in G2. exact G2.
Qed.
Print Assumptions mmap_restart.

(** ** C102 *)
(** C102 is false: NewMMAP takes a negative start, and then an Append that fits panics, on every platform, after moving the offset. *)
Theorem c102_negative_start_refuted : forall pl page file start bs ok1 ok2 ok3 ok4,
  file <> [] -> Z.of_nat (length file) < 2^63 -> -2^63 <= start < 0 -> start + Z.of_nat (length bs) <= Z.of_nat (length file) ->
  exists s, mnew file start = Some s /\
    mrun pl page (minit s [[MAppend bs]]) [MTurn 0 ok1; MTurn 0 ok2; MTurn 0 ok3; MTurn 0 ok4] =
      MConf (MSh file (start + Z.of_nat (length bs)) (Z.of_nat (length file)) None file) [MTh [] MIdle [(MAppend bs, MRPanic)]].
Proof.
  intros pl page file start bs ok1 ok2 ok3 ok4 Hf Hl Hs Hb. assert (Hne : Z.of_nat (length file) =? 0 = false) by (destruct file; [contradiction|reflexivity]).
  eexists. split; [unfold mnew; rewrite Hne; destruct (_ <=? _) eqn:E; [lia|reflexivity]|].
  assert (Hw : i64 (start + Z.of_nat (length bs)) = start + Z.of_nat (length bs)) by (unfold i64; apply wrapS_id; lia).
  unfold mrun, minit. cbn [foldl fmap list_fmap]. unfold mconf_step at 4. cbn [mths msh lookup list_lookup]. unfold mthread_step at 1. cbn [mpos mtodo mmux insert list_insert].
  unfold mconf_step at 3. cbn [mths msh lookup list_lookup]. unfold mthread_step at 1. cbn [mpos mtodo mlog]. unfold mfull, mlen, mbytes. cbn [mmax moff]. rewrite Hw.
  assert (Z.of_nat (length file) <? start + Z.of_nat (length bs) = false) as -> by lia. cbn [mwhere moff insert list_insert].
  unfold mconf_step at 2. cbn [mths msh lookup list_lookup]. unfold mthread_step at 1. cbn [mpos mtodo mlog mnewoff moff mmem mmax mdisk]. unfold mlen, mbytes. rewrite Hw. cbn [insert list_insert].
  unfold mconf_step at 1. cbn [mths msh lookup list_lookup]. unfold mthread_step at 1. cbn [mpos mtodo mlog]. unfold mslice_ok. assert (0 <=? start = false) as -> by lia. reflexivity.
Qed.
Print Assumptions c102_negative_start_refuted.

Lemma copy_alone pl page bs n mx disk : forall j lg mem off, (j <= length bs)%nat -> exists mem',
  mrun pl page (MConf (MSh mem off mx None disk) [MTh [] (MCopy (MAppend bs) n j) lg]) (replicate (S (length bs - j)) (MTurn 0 true)) =
  MConf (MSh mem' off mx None disk) [MTh [] MIdle ((MAppend bs, MRAt n) :: lg)].
Proof.
  intros j lg mem off Hj. remember (length bs - j)%nat as d eqn:Ed. revert j mem Hj Ed. induction d as [|d IH]; intros j mem Hj Ed.
  - exists mem. unfold mrun. cbn [replicate foldl]. unfold mconf_step. cbn [mths msh lookup list_lookup]. unfold mthread_step. cbn [mpos mbytes].
    assert (bs !! j = None) as -> by (apply lookup_ge_None; lia). reflexivity.
  - destruct (lookup_lt_is_Some_2 bs j) as [b Hb]; [lia|]. destruct (IH (S j) (<[Z.to_nat (n + Z.of_nat j) := b]> mem)) as [mem' E]; [lia|lia|]. exists mem'.
    rewrite <- E. change (replicate (S (S d)) (MTurn 0 true)) with (MTurn 0 true :: replicate (S d) (MTurn 0 true)). unfold mrun. cbn [foldl]. f_equal.
    unfold mconf_step. cbn [mths msh lookup list_lookup]. unfold mthread_step. cbn [mpos mbytes]. rewrite Hb. reflexivity.
Qed.
(** C102, what does hold: a start that is not negative is accepted exactly if it is inside the file, and the first Append that fits is then made there. Missing:
    negative starts. *)
Theorem c102_open_partial : forall pl page file start bs, 0 <= start -> Z.of_nat (length file) < 2^63 -> start + Z.of_nat (length bs) <= Z.of_nat (length file) ->
  (mnew file start = None <-> Z.of_nat (length file) <= start) /\
  forall s, mnew file start = Some s -> exists k mem,
    mrun pl page (minit s [[MAppend bs]]) (replicate k (MTurn 0 true)) =
      MConf (MSh mem (start + Z.of_nat (length bs)) (Z.of_nat (length file)) None file) [MTh [] MIdle [(MAppend bs, MRAt start)]].
Proof.
  intros pl page file start bs Hs Hl Hb. split.
  - unfold mnew. destruct (_ =? 0) eqn:E1; [split; [lia|auto]|]. destruct (_ <=? start) eqn:E2; split; intros; try discriminate; lia || auto.
  - unfold mnew. intros s Hn. destruct (_ =? 0); [discriminate|]. destruct (_ <=? start) eqn:E2; [discriminate|]. injection Hn as <-.
    assert (Hw : i64 (start + Z.of_nat (length bs)) = start + Z.of_nat (length bs)) by (unfold i64; apply wrapS_id; lia).
    destruct (copy_alone pl page bs start (Z.of_nat (length file)) file 0 [] file (start + Z.of_nat (length bs)) ltac:(lia)) as [mem E]. exists (4 + S (length bs - 0))%nat, mem. rewrite <- E. clear E.
    rewrite replicate_add. unfold mrun. rewrite foldl_app. f_equal. unfold minit. cbn [replicate foldl fmap list_fmap].
    unfold mconf_step at 4. cbn [mths msh lookup list_lookup]. unfold mthread_step at 1. cbn [mpos mtodo mmux insert list_insert].
    unfold mconf_step at 3. cbn [mths msh lookup list_lookup]. unfold mthread_step at 1. cbn [mpos mtodo mlog]. unfold mfull, mlen, mbytes. cbn [mmax moff]. rewrite Hw.
    assert (Z.of_nat (length file) <? start + Z.of_nat (length bs) = false) as -> by lia. cbn [mwhere moff insert list_insert].
    unfold mconf_step at 2. cbn [mths msh lookup list_lookup]. unfold mthread_step at 1. cbn [mpos mtodo mlog mnewoff moff mmem mmax mdisk]. unfold mlen, mbytes. rewrite Hw. cbn [insert list_insert].
    unfold mconf_step at 1. cbn [mths msh lookup list_lookup]. unfold mthread_step at 1. cbn [mpos mtodo mlog]. unfold mslice_ok, mlen, mbytes. cbn [mmem]. rewrite Hw.
    assert ((0 <=? start) && (start <=? start + Z.of_nat (length bs)) && (start + Z.of_nat (length bs) <=? Z.of_nat (length file)) = true) as -> by lia. reflexivity.
Qed.
Print Assumptions c102_open_partial.
Example c102_ex : mnew [1; 2; 3] 3 = None /\ (exists s, mnew [1; 2; 3] 2 = Some s /\ mlog <$> mths (mrun Unix 4096 (minit s [[MAppend [9]]]) (replicate 6 (MTurn 0 true))) = [[(MAppend [9], MRAt 2)]]) /\
  exists s, mnew [1; 2; 3] (-1) = Some s /\ mlog <$> mths (mrun Unix 4096 (minit s [[MAppend [9; 9]]]) (replicate 6 (MTurn 0 true))) = [[(MAppend [9; 9], MRPanic)]].
Proof. split; [reflexivity|]. split; eexists; split; reflexivity. Qed.
