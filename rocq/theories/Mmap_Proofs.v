(** The invariant behind the mmap properties. *)
From stdpp Require Import list.
From Coq Require Import ZArith Lia ZifyBool ZifyNat.
From Verif Require Import GoInt Mmap_Model Mmap_Spec.
Local Open Scope Z_scope.

(** History variable: a reservation by goroutine [et] of call [ec] at [er], with [ej] bytes copied and [ed] bytes synced. *)
Record ent := Ent { et : nat; ec : mcall; er : option Z; ej : nat; ed : nat }.
Definition ecov (e : ent) (a : nat) : Prop := match er e with Some n => covers n (mbytes (ec e)) a | None => False end.
Definition sole (o : list ent) (p : nat) (e : ent) (a : nat) : Prop :=
  o !! p = Some e /\ ecov e a /\ forall q e', o !! q = Some e' -> ecov e' a -> q = p.
Definition mine (t : nat) (o : list ent) : list ent := List.filter (fun e => Nat.eqb (et e) t) o.

(** What an entry does not change. *)
Definition strip (o : list ent) : list (nat * mcall * option Z) := (fun e => (et e, ec e, er e)) <$> o.

Lemma filter_last {A} (P : A -> bool) l r e : List.filter P l = r ++ [e] ->
  exists o1 o2, l = o1 ++ e :: o2 /\ List.filter P o2 = [] /\ List.filter P o1 = r /\ P e = true.
Proof.
  revert r. induction l as [|x l IH] using rev_ind; intros r H; cbn [List.filter] in H; [destruct r; discriminate|].
  rewrite List.filter_app in H. cbn [List.filter] in H. destruct (P x) eqn:E.
  - apply app_inj_tail in H as [H ->]. exists l, []. rewrite H. auto.
  - rewrite app_nil_r in H. destruct (IH r H) as (o1 & o2 & -> & H2 & H1 & H3). exists o1, (o2 ++ [x]).
    rewrite <- app_assoc. cbn [app]. rewrite List.filter_app. cbn [List.filter]. rewrite H2, E. auto.
Qed.

(** ** Reservations, one after another *)
Lemma offset_after_app m o cs ds : offset_after m o (cs ++ ds) = offset_after m (offset_after m o cs) ds.
Proof. unfold offset_after. apply fold_left_app. Qed.
Lemma reserves_app m o cs ds : reserves m o (cs ++ ds) = reserves m o cs ++ reserves m (offset_after m o cs) ds.
Proof. revert o. induction cs as [|c cs IH]; intros o; [reflexivity|]. cbn [app reserves offset_after fold_left]. f_equal. apply IH. Qed.
Lemma advance_ge m o c : o <= advance m o c.
Proof. unfold advance. destruct (reserve m o c); lia. Qed.
Lemma offset_after_ge m o cs : o <= offset_after m o cs.
Proof. revert o. induction cs as [|c cs IH]; intros o; [cbn; lia|]. cbn [offset_after fold_left]. pose proof (advance_ge m o c). pose proof (IH (advance m o c)). unfold offset_after in *. lia. Qed.
Lemma reserve_fits m o c n : reserve m o c = Some n -> n + mlen c <= m.
Proof. unfold mlen. destruct c; cbn [reserve mbytes]; intros H; destruct (_ <=? _) eqn:E; try discriminate; injection H as <-; lia. Qed.
Lemma advance_le m o c : o <= m -> advance m o c <= m.
Proof. intros Ho. unfold advance. destruct (reserve m o c) eqn:E; [|lia]. apply reserve_fits in E. unfold mlen in E. lia. Qed.
Lemma offset_after_le m o cs : o <= m -> offset_after m o cs <= m.
Proof. revert o. induction cs as [|c cs IH]; intros o Ho; [cbn; lia|]. apply (IH (advance m o c)). apply advance_le. auto. Qed.
Lemma offset_after_end m o cs p c n : cs !! p = Some c -> reserves m o cs !! p = Some (Some n) -> n + mlen c <= offset_after m o cs.
Proof.
  revert o p. induction cs as [|c0 cs IH]; intros o [|p] Hc Hr; try discriminate.
  - injection Hc as ->. cbn [reserves] in Hr. injection Hr as Hr. cbn [offset_after fold_left].
    pose proof (offset_after_ge m (advance m o c) cs) as G. unfold offset_after in G. unfold advance in G at 1. rewrite Hr in G. unfold mlen. lia.
  - exact (IH _ p Hc Hr).
Qed.
(** An append's region lies behind all earlier ones. *)
Lemma reserves_append m o cs p q c d n k : (p < q)%nat -> cs !! p = Some c -> cs !! q = Some d -> is_append d ->
  reserves m o cs !! p = Some (Some n) -> reserves m o cs !! q = Some (Some k) -> n + mlen c <= k.
Proof.
  intros Hpq Hc Hd Ha Hn Hk. rewrite <- (take_drop q cs) in Hn, Hk, Hc, Hd.
  assert (Hl : length (take q cs) = q).
  { rewrite take_length. apply lookup_lt_Some in Hd. rewrite take_drop in Hd. lia. }
  assert (Hrl : forall o cs, length (reserves m o cs) = length cs).
  { clear. intros o cs. revert o. induction cs; intros; cbn; auto. }
  rewrite reserves_app in Hn, Hk. rewrite lookup_app_l in Hn by (rewrite Hrl; lia). rewrite lookup_app_l in Hc by lia.
  rewrite lookup_app_r in Hk by (rewrite Hrl; lia). rewrite lookup_app_r in Hd by lia. rewrite Hrl, Hl, Nat.sub_diag in Hk. rewrite Hl, Nat.sub_diag in Hd.
  destruct (drop q cs) as [|d' l]; [discriminate|]. injection Hd as ->. cbn [reserves] in Hk. injection Hk as Hk.
  pose proof (offset_after_end m o (take q cs) p c n Hc Hn) as G.
  destruct d; cbn in Ha; try contradiction; cbn [reserve] in Hk; destruct (_ <=? _); try discriminate; injection Hk as <-; auto.
Qed.
Lemma reserves_append_start m o cs q d k : cs !! q = Some d -> is_append d -> reserves m o cs !! q = Some (Some k) -> o <= k.
Proof.
  revert o q. induction cs as [|c cs IH]; intros o [|q] Hd Ha Hk; try discriminate.
  - injection Hd as ->. cbn [reserves] in Hk. injection Hk as Hk.
    destruct d; cbn in Ha; try contradiction; cbn [reserve] in Hk; destruct (_ <=? _); try discriminate; injection Hk as <-; lia.
  - pose proof (IH _ q Hd Ha Hk). pose proof (advance_ge m o c). lia.
Qed.

Section inv.
Context (pl : mplat) (page : Z) (Hpage : 0 < page) (mem0 disk0 : list Z) (start : Z).
Notation max := (Z.of_nat (length mem0)).
Context (Hdisk0 : length disk0 = length mem0) (Hmax : max < 2^63) (Hstart : 0 <= start <= max).

Definition holding (p : mpc) : bool := match p with MIn _ | MStore _ _ => true | _ => false end.
(** A finished entry beside the log. *)
Definition edone (x : mcall * mres) (e : ent) : Prop :=
  ec e = x.1 /\ result_of x.1 (er e) x.2 /\ (er e <> None -> ej e = length (mbytes x.1)) /\
  (pl <> Solaris -> msyncs x.1 = true -> x.2 = mok x.1 (default 0 (er e)) -> er e <> None -> ed e = length (mbytes x.1)) /\
  (x.2 = MRPanic -> msyncs x.1 = true /\ mbytes x.1 = []).
(** The entry of the call a goroutine is in. *)
Definition ecur (t : nat) (p : mpc) (l : list ent) : Prop :=
  match p with
  | MIdle | MIn _ | MStore _ _ => l = []
  | MSlice c n => l = [Ent t c (Some n) 0 0]
  | MCopy c n j => l = [Ent t c (Some n) j 0] /\ (j <= length (mbytes c))%nat
  | MSyncIn c n => l = [Ent t c (Some n) (length (mbytes c)) 0] /\ msyncs c = true
  | MSyncing c n a k => exists d, l = [Ent t c (Some n) (length (mbytes c)) d] /\ msyncs c = true /\ (d <= length (mbytes c))%nat /\
      (pl <> Solaris -> Z.of_nat d = Z.max 0 (Z.of_nat a - n) /\ Z.of_nat a + Z.of_nat k = n + mlen c)
  end.
Definition pcall (p : mpc) : option mcall :=
  match p with
  | MIdle => None | MIn c | MStore c _ | MSlice c _ | MCopy c _ _ | MSyncIn c _ | MSyncing c _ _ _ => Some c
  end.
Definition tinv (s : mshared) (o : list ent) (t : nat) (th : mthread) : Prop :=
  Forall (sane_call max) (mtodo th) /\ (forall c, pcall (mpos th) = Some c -> sane_call max c) /\
  (holding (mpos th) = true <-> mmux s = Some t) /\
  (forall c n, mpos th = MStore c n -> reserve max (moff s) c = Some n) /\
  exists ds l, mine t o = ds ++ l /\ Forall2 edone (rev (mlog th)) ds /\ ecur t (mpos th) l.
Record vinv (s : mshared) (o : list ent) : Prop := {
  v_len : length (mmem s) = length mem0;
  v_dlen : length (mdisk s) = length mem0;
  v_max : mmax s = max;
  v_off : moff s = offset_after max start (ec <$> o);
  v_res : er <$> o = reserves max start (ec <$> o);
  v_ok : Forall (fun e => sane_call max (ec e)) o;
  v_none : forall a, (forall p e, o !! p = Some e -> ~ ecov e a) -> mmem s !! a = mem0 !! a /\ (mdisk s !! a = disk0 !! a \/ mdisk s !! a = mem0 !! a);
  v_sole : forall p e a n, sole o p e a -> er e = Some n -> let k := (a - Z.to_nat n)%nat in
    ((k < ej e)%nat -> mmem s !! a = mbytes (ec e) !! k) /\ ((ej e <= k)%nat -> mmem s !! a = mem0 !! a) /\
    ((k < ed e)%nat -> mdisk s !! a = mbytes (ec e) !! k) /\ (ed e <= ej e)%nat
}.
Definition minv (c : mconf) (o : list ent) : Prop :=
  vinv (msh c) o /\ (forall t th, mths c !! t = Some th -> tinv (msh c) o t th) /\ (forall e, e ∈ o -> (et e < length (mths c))%nat).

(** ** Preservation *)
Lemma lookup_mid {A} (o1 o2 : list A) e : (o1 ++ e :: o2) !! length o1 = Some e.
Proof. rewrite lookup_app_r by lia. rewrite Nat.sub_diag. reflexivity. Qed.
Lemma lookup_mid_ne {A} (o1 o2 : list A) e e' p : p <> length o1 -> (o1 ++ e :: o2) !! p = (o1 ++ e' :: o2) !! p.
Proof.
  intros Hp. destruct (decide (p < length o1)%nat); [rewrite !lookup_app_l by lia; auto|]. rewrite !lookup_app_r by lia.
  destruct (p - length o1)%nat eqn:E; [lia|]. reflexivity.
Qed.
Lemma ecov_upd e e' a : ec e' = ec e -> er e' = er e -> ecov e' a <-> ecov e a.
Proof. intros Hc Hr. unfold ecov. rewrite Hc, Hr. tauto. Qed.
Lemma sole_upd o1 o2 e e' p x a : ec e' = ec e -> er e' = er e -> sole (o1 ++ e' :: o2) p x a ->
  exists x0, sole (o1 ++ e :: o2) p x0 a /\ ((p = length o1 /\ x = e' /\ x0 = e) \/ (p <> length o1 /\ x = x0)).
Proof.
  intros Hc Hr (Hp & Hx & Hu).
  assert (Hq : forall q y, (o1 ++ e :: o2) !! q = Some y -> ecov y a -> q = p).
  { intros q y Hy Hcy. destruct (decide (q = length o1)) as [->|Hne].
    - rewrite lookup_mid in Hy. injection Hy as <-. apply (Hu _ e'); [apply lookup_mid|]. apply (ecov_upd e e'); auto.
    - apply (Hu q y); [|auto]. rewrite (lookup_mid_ne _ _ e' e); auto. }
  destruct (decide (p = length o1)) as [->|Hne].
  - rewrite lookup_mid in Hp. injection Hp as <-. exists e. split; [|auto]. split; [apply lookup_mid|]. split; [|auto].
    apply (ecov_upd e e'); auto.
  - exists x. split; [|auto]. split; [|auto]. rewrite (lookup_mid_ne _ _ e e'); auto.
Qed.
Lemma v_bounds s o p e n : vinv s o -> o !! p = Some e -> er e = Some n -> 0 <= n /\ n + mlen (ec e) <= max.
Proof.
  intros Hv Hp Hn. assert (Hc : (ec <$> o) !! p = Some (ec e)) by (rewrite list_lookup_fmap, Hp; auto).
  assert (Hr : reserves max start (ec <$> o) !! p = Some (Some n)).
  { rewrite <- (v_res _ _ Hv). rewrite list_lookup_fmap, Hp. cbn. congruence. }
  assert (Hs : sane_call max (ec e)). { pose proof (v_ok _ _ Hv) as F. rewrite Forall_lookup in F. apply (F p). auto. }
  split.
  - destruct (ec e) eqn:Ee; try (pose proof (reserves_append_start _ _ _ _ _ _ Hc I Hr); lia).
    all: assert (Hx : forall m o cs p c k, cs !! p = Some c -> reserves m o cs !! p = Some (Some k) -> exists o', reserve m o' c = Some k)
     by (clear; intros m o cs; revert o; induction cs as [|c0 cs IH]; intros o [|p] c k Hc Hr; try discriminate;
       [injection Hc as ->; cbn [reserves] in Hr; injection Hr as Hr; eauto|exact (IH _ _ _ _ Hc Hr)]).
    all: destruct (Hx _ _ _ _ _ _ Hc Hr) as [o' Ho]; cbn [reserve] in Ho; destruct (_ <=? _); try discriminate; injection Ho as <-;
      destruct Hs as [_ Hs]; lia.
  - pose proof (offset_after_end _ _ _ _ _ _ Hc Hr). pose proof (offset_after_le max start (ec <$> o)). lia.
Qed.
Lemma v_offb s o : vinv s o -> start <= moff s <= max.
Proof. intros Hv. rewrite (v_off _ _ Hv). split; [apply offset_after_ge|apply offset_after_le; lia]. Qed.

Lemma mfull_spec s o c : vinv s o -> sane_call max c -> 
  (mfull s c = true -> reserve max (moff s) c = None) /\ (mfull s c = false -> reserve max (moff s) c = Some (mwhere s c)).
Proof.
  intros Hv (Hs1 & Hs2). pose proof (v_offb _ _ Hv). unfold mfull, mwhere. rewrite (v_max _ _ Hv).
  destruct c; cbn [reserve mbytes mlen] in *; unfold mlen; cbn [mbytes] in *; unfold i64; rewrite wrapS_id by lia; split; intros;
    destruct (_ <=? _) eqn:E; auto; lia.
Qed.
Lemma mnewoff_spec s o c n : vinv s o -> sane_call max c -> reserve max (moff s) c = Some n -> mnewoff s c = advance max (moff s) c.
Proof.
  intros Hv (Hs1 & Hs2) Hn. pose proof (v_offb _ _ Hv). unfold advance. rewrite Hn.
  destruct c; cbn [reserve mbytes mnewoff] in *; unfold mlen; cbn [mbytes] in *; unfold i64; rewrite wrapS_id by lia;
    destruct (_ <=? _) eqn:E; try discriminate; injection Hn as <-; try lia; destruct (_ <? _) eqn:E2; lia.
Qed.

(** A new reservation. *)
Lemma vinv_reserve s o t c mx : vinv s o -> sane_call max c ->
  vinv (MSh (mmem s) (advance max (moff s) c) (mmax s) mx (mdisk s)) (o ++ [Ent t c (reserve max (moff s) c) 0 0]).
Proof.
  intros Hv Hs. pose proof Hv as [H1 H2 H3 H4 H5 H6 H7 H8]. split; cbn [mmem moff mmax mdisk]; auto.
  - rewrite fmap_app, offset_after_app, <- H4. reflexivity.
  - rewrite !fmap_app, reserves_app, <- H4, H5. reflexivity.
  - apply Forall_app. split; [auto|]. constructor; [auto|constructor].
  - intros a Ha. apply H7. intros p e Hp. apply (Ha p). apply lookup_app_l_Some. auto.
  - intros p e a n (Hp & Hc & Hu) Hn. apply lookup_app_Some in Hp as [Hp|[Hl Hp]].
    + apply (H8 p e a n); auto. split; [auto|]. split; [auto|]. intros q e' Hq. apply Hu. apply lookup_app_l_Some. auto.
    + destruct (p - length o)%nat eqn:E; [|discriminate]. cbn in Hp. injection Hp as <-. cbn [ej ed ec].
      split; [lia|]. split; [|lia]. intros _. apply H7. intros q e' Hq Hcq.
      apply (lookup_lt_Some _ _ _) in Hq as Hlt. assert (q = p); [|lia]. apply (Hu q e'); auto. apply lookup_app_l_Some. auto.
Qed.
(** Only the mutex changes. *)
Lemma vinv_mux s o mx : vinv s o -> vinv (MSh (mmem s) (moff s) (mmax s) mx (mdisk s)) o.
Proof. intros [H1 H2 H3 H4 H5 H6 H7 H8]. split; auto. Qed.
(** One byte copied. *)
Lemma vinv_copy s o1 o2 t c n j d b : let o := o1 ++ Ent t c (Some n) j d :: o2 in vinv s o -> mbytes c !! j = Some b ->
  vinv (MSh (<[Z.to_nat (n + Z.of_nat j) := b]> (mmem s)) (moff s) (mmax s) (mmux s) (mdisk s)) (o1 ++ Ent t c (Some n) (S j) d :: o2).
Proof.
  intros o Hv Hb. pose proof (v_bounds _ _ (length o1) _ n Hv (lookup_mid _ _ _) eq_refl) as Hn. cbn [ec] in Hn.
  apply lookup_lt_Some in Hb as Hj. unfold mlen in Hn.
  assert (Hcov : covers n (mbytes c) (Z.to_nat (n + Z.of_nat j))) by (unfold covers; lia).
  pose proof Hv as [H1 H2 H3 H4 H5 H6 H7 H8]. split; cbn [mmem moff mmax mdisk]; auto.
  - rewrite insert_length. auto.
  - rewrite H4. unfold o. rewrite !fmap_app, !fmap_cons. reflexivity.
  - transitivity (er <$> o); [unfold o; rewrite !fmap_app, !fmap_cons; reflexivity|]. rewrite H5. unfold o. rewrite !fmap_app, !fmap_cons. reflexivity.
  - unfold o in H6. rewrite Forall_app, Forall_cons in *. exact H6.
  - intros a Ha. assert (Ha' : forall p e, o !! p = Some e -> ~ ecov e a).
    { intros p e Hp Hc. destruct (decide (p = length o1)) as [->|Hne].
      - unfold o in Hp. rewrite lookup_mid in Hp. injection Hp as <-. exact (Ha _ _ (lookup_mid _ _ _) Hc).
      - apply (Ha p e); [|auto]. rewrite <- Hp. apply lookup_mid_ne. auto. }
    destruct (H7 a Ha') as [G1 G2]. split; [|auto]. rewrite list_lookup_insert_ne; [auto|]. intros <-.
    apply (Ha' (length o1) _ (lookup_mid _ _ _)). exact Hcov.
  - intros p x a k Hx Hk. destruct (sole_upd o1 o2 (Ent t c (Some n) j d) (Ent t c (Some n) (S j) d) p x a eq_refl eq_refl Hx) as (x0 & Hx0 & [(-> & -> & ->)|[Hne ->]]).
    + cbn [er] in Hk. injection Hk as <-. destruct (H8 _ _ _ n Hx0 eq_refl) as (G1 & G2 & G3 & G4). cbn [ej ed ec] in *.
      destruct Hx as (_ & Hca & _). unfold ecov in Hca. cbn [er ec] in Hca. unfold covers in Hca.
      destruct (decide (a = Z.to_nat (n + Z.of_nat j))) as [->|Hna].
      * rewrite list_lookup_insert by lia. replace (Z.to_nat (n + Z.of_nat j) - Z.to_nat n)%nat with j in * by lia.
        split; [auto|]. split; [lia|]. split; [auto|lia].
      * rewrite list_lookup_insert_ne by auto. split; [intros; apply G1; lia|]. split; [intros; apply G2; lia|]. split; [auto|lia].
    + destruct (H8 p x0 a k Hx0 Hk) as (G1 & G2 & G3 & G4). rewrite list_lookup_insert_ne; [auto|]. intros <-.
      destruct Hx0 as (_ & _ & Hu). apply Hne. symmetry. apply (Hu _ _ (lookup_mid _ _ _)). exact Hcov.
Qed.
(** A byte reaches the disk. *)
Lemma vinv_wb s o a b : vinv s o -> mmem s !! a = Some b ->
  vinv (MSh (mmem s) (moff s) (mmax s) (mmux s) (<[a := b]> (mdisk s))) o.
Proof.
  intros [H1 H2 H3 H4 H5 H6 H7 H8] Hb. apply lookup_lt_Some in Hb as Hlt. split; cbn [mmem moff mmax mdisk]; auto.
  - rewrite insert_length. auto.
  - intros x Hx. destruct (H7 x Hx) as [G1 G2]. split; [auto|]. destruct (decide (x = a)) as [->|Hne].
    + rewrite list_lookup_insert by lia. right. congruence.
    + rewrite list_lookup_insert_ne; auto.
  - intros p e x n Hx Hn. destruct (H8 p e x n Hx Hn) as (G1 & G2 & G3 & G4). split; [auto|]. split; [auto|]. split; [|auto].
    intros Hk. destruct (decide (x = a)) as [->|Hne].
    + rewrite list_lookup_insert by lia. rewrite <- Hb. apply G1. lia.
    + rewrite list_lookup_insert_ne; auto.
Qed.
(** A byte of the entry's own region has been synced: it may be counted. *)
Lemma vinv_synced s o1 o2 t c n d : let o := o1 ++ Ent t c (Some n) (length (mbytes c)) d :: o2 in vinv s o ->
  (d < length (mbytes c))%nat -> mdisk s !! (Z.to_nat n + d)%nat = mmem s !! (Z.to_nat n + d)%nat ->
  vinv s (o1 ++ Ent t c (Some n) (length (mbytes c)) (S d) :: o2).
Proof.
  intros o Hv Hd Hm. pose proof (v_bounds _ _ (length o1) _ n Hv (lookup_mid _ _ _) eq_refl) as Hn. cbn [ec] in Hn.
  pose proof Hv as [H1 H2 H3 H4 H5 H6 H7 H8]. split; auto.
  - rewrite H4. unfold o. rewrite !fmap_app, !fmap_cons. reflexivity.
  - transitivity (er <$> o); [unfold o; rewrite !fmap_app, !fmap_cons; reflexivity|]. rewrite H5. unfold o. rewrite !fmap_app, !fmap_cons. reflexivity.
  - unfold o in H6. rewrite Forall_app, Forall_cons in *. exact H6.
  - intros a Ha. apply H7. intros p e Hp Hc. destruct (decide (p = length o1)) as [->|Hne].
    + unfold o in Hp. rewrite lookup_mid in Hp. injection Hp as <-. exact (Ha _ _ (lookup_mid _ _ _) Hc).
    + apply (Ha p e); [|auto]. rewrite <- Hp. apply lookup_mid_ne. auto.
  - intros p x a k Hx Hk. destruct (sole_upd o1 o2 (Ent t c (Some n) (length (mbytes c)) d) (Ent t c (Some n) (length (mbytes c)) (S d)) p x a eq_refl eq_refl Hx) as (x0 & Hx0 & [(-> & -> & ->)|[Hne ->]]).
    + cbn [er] in Hk. injection Hk as <-. destruct (H8 _ _ _ n Hx0 eq_refl) as (G1 & G2 & G3 & G4). cbn [ej ed ec] in *.
      destruct Hx as (_ & Hca & _). unfold ecov in Hca. cbn [er ec] in Hca. unfold covers in Hca.
      split; [auto|]. split; [auto|]. split; [|lia]. intros Hk.
      destruct (decide (a - Z.to_nat n = d)%nat) as [He|Hne]; [|apply G3; lia].
      replace (Z.to_nat n + d)%nat with a in Hm by lia. rewrite Hm. apply G1. lia.
    + exact (H8 p x0 a k Hx0 Hk).
Qed.

(** ** The steps *)
Lemma mine_app_same t c r j d o : mine t (o ++ [Ent t c r j d]) = mine t o ++ [Ent t c r j d].
Proof. unfold mine. rewrite List.filter_app. cbn [List.filter et]. rewrite Nat.eqb_refl. reflexivity. Qed.
Lemma mine_app_ne t t' c r j d o : t <> t' -> mine t' (o ++ [Ent t c r j d]) = mine t' o.
Proof. intros H. unfold mine. rewrite List.filter_app. cbn [List.filter et]. destruct (Nat.eqb_spec t t'); [lia|]. apply app_nil_r. Qed.
Lemma mine_mid_same t c r j d o1 o2 : mine t o2 = [] -> mine t (o1 ++ Ent t c r j d :: o2) = mine t o1 ++ [Ent t c r j d].
Proof. intros H. unfold mine in *. rewrite List.filter_app. cbn [List.filter et]. rewrite Nat.eqb_refl, H. reflexivity. Qed.
Lemma mine_mid_ne t t' c r j d j' d' o1 o2 : t <> t' -> mine t' (o1 ++ Ent t c r j d :: o2) = mine t' (o1 ++ Ent t c r j' d' :: o2).
Proof. intros H. unfold mine in *. rewrite !List.filter_app. cbn [List.filter et]. destruct (Nat.eqb_spec t t'); [lia|]. reflexivity. Qed.

Lemma strip_app o e : strip o `prefix_of` strip (o ++ [e]).
Proof. unfold strip. rewrite fmap_app. apply prefix_app_r. reflexivity. Qed.
Lemma strip_mid o o1 o2 t c r j d j' d' : o = o1 ++ Ent t c r j d :: o2 -> strip o `prefix_of` strip (o1 ++ Ent t c r j' d' :: o2).
Proof. intros ->. unfold strip. rewrite !fmap_app, !fmap_cons. reflexivity. Qed.
Lemma tinv_other s s' o o' t th : tinv s o t th -> mine t o' = mine t o -> (mmux s' = Some t <-> mmux s = Some t) ->
  (mmux s = Some t -> moff s' = moff s) -> tinv s' o' t th.
Proof.
  intros (H1 & H2 & H3 & H4 & H5) Hm Hx Ho. split; [auto|]. split; [auto|]. split; [rewrite Hx; auto|]. split; [|rewrite Hm; auto].
  intros c n Hp. rewrite Ho; [eauto|]. apply H3. rewrite Hp. reflexivity.
Qed.
Lemma step_wrap cf o t th s' th' o' : minv cf o -> mths cf !! t = Some th -> vinv s' o' -> tinv s' o' t th' ->
  (forall t', t' <> t -> mine t' o' = mine t' o /\ (mmux s' = Some t' <-> mmux (msh cf) = Some t') /\ (mmux (msh cf) = Some t' -> moff s' = moff (msh cf))) ->
  (forall e, e ∈ o' -> (et e < length (mths cf))%nat) ->
  strip o `prefix_of` strip o' ->
  minv (MConf s' (<[t := th']> (mths cf))) o' /\ strip o `prefix_of` strip o'.
Proof.
  intros (Hv & Ht & He) Hth Hv' Ht' Ho He' Hpre. split; [|exact Hpre]. split; [auto|]. cbn [mths msh]. split; [|rewrite insert_length; auto].
  intros t2 th2 H2. destruct (decide (t2 = t)) as [->|Hne].
  - rewrite list_lookup_insert in H2 by (eapply lookup_lt_Some; eauto). injection H2 as <-. auto.
  - rewrite list_lookup_insert_ne in H2 by auto. destruct (Ho t2 Hne) as (A & B & C). apply (tinv_other (msh cf) s' o o'); auto.
Qed.
Lemma sane_pc s o t th c : tinv s o t th -> pcall (mpos th) = Some c -> sane_call max c.
Proof. intros (_ & H & _) E. auto. Qed.

Lemma msync_panic size n len : 0 <= n -> 0 <= len -> n + len <= size -> msync_args pl page size n len = None -> len = 0.
Proof.
  intros Hn Hl Hs. destruct pl; cbn [msync_args]; intros H; try discriminate.
  - destruct (Z.eq_dec len 0); [auto|]. exfalso. pose proof (Z.quot_pos n page Hn Hpage). pose proof (Z.mul_quot_le n page Hn ltac:(lia)).
    destruct (_ && _) eqn:E; [discriminate|]. nia.
  - destruct (_ && _) eqn:E; [discriminate|]. lia.
Qed.
Lemma msync_range size n len st l : 0 <= n -> 0 <= len -> msync_args pl page size n len = Some (st, l) -> pl <> Solaris -> 0 <= st <= n /\ st + l = n + len.
Proof.
  intros Hn Hl. destruct pl; cbn [msync_args]; intros H Hp; try contradiction.
  - destruct (_ && _) eqn:E; [|discriminate]. injection H as <- <-. pose proof (Z.mul_quot_le n page Hn ltac:(lia)). lia.
  - destruct (_ && _) eqn:E; [|discriminate]. injection H as <- <-. lia.
Qed.

(** The current entry of a goroutine, in place. *)
Lemma cur_pos o t ds e : mine t o = ds ++ [e] -> exists o1 o2, o = o1 ++ e :: o2 /\ mine t o2 = [] /\ mine t o1 = ds /\ et e = t.
Proof.
  intros H. destruct (filter_last _ _ _ _ H) as (o1 & o2 & A & B & C & D). exists o1, o2. apply Nat.eqb_eq in D. auto.
Qed.
Lemma et_mid o1 o2 t c r j d j' d' m : (forall e, e ∈ o1 ++ Ent t c r j d :: o2 -> (et e < m)%nat) ->
  forall e, e ∈ o1 ++ Ent t c r j' d' :: o2 -> (et e < m)%nat.
Proof.
  intros H e. rewrite elem_of_app, elem_of_cons. intros [Hx|[->|Hx]]; [apply H; rewrite elem_of_app; auto| |apply H; rewrite elem_of_app, elem_of_cons; auto].
  apply (H (Ent t c r j d)). rewrite elem_of_app, elem_of_cons. auto.
Qed.

Lemma ret_tinv s o t th ds e c r mx : mine t o = ds ++ [e] -> Forall2 edone (rev (mlog th)) ds -> edone (c, r) e ->
  Forall (sane_call max) (mtodo th) -> mx <> Some t ->
  tinv (MSh (mmem s) (moff s) (mmax s) mx (mdisk s)) o t (MTh (mtodo th) MIdle ((c, r) :: mlog th)).
Proof.
  intros Hm Hd He Hs Hx. split; [auto|]. split; [discriminate|]. cbn [mpos mmux holding]. split; [split; [discriminate|congruence]|].
  split; [discriminate|]. cbn [mlog]. exists (ds ++ [e]), []. rewrite app_nil_r. split; [auto|]. split; [|reflexivity].
  cbn [rev]. apply Forall2_app; [auto|]. constructor; [auto|constructor].
Qed.
Lemma sh_eta s : s = MSh (mmem s) (moff s) (mmax s) (mmux s) (mdisk s).
Proof. destruct s. reflexivity. Qed.
Lemma step_turn cf o t ok : minv cf o -> exists o', minv (mconf_step pl page cf (MTurn t ok)) o' /\ strip o `prefix_of` strip o'.
Proof.
  intros HI. cbn [mconf_step]. destruct (mths cf !! t) as [th|] eqn:Eth; [|eauto]. pose proof HI as (Hv & Ht & He).
  pose proof (Ht t th Eth) as HT. pose proof HT as (Hs & Hsc & Hx & Hst & ds & l & Hm & Hd & Hc).
  assert (Hlt : (t < length (mths cf))%nat) by (eapply lookup_lt_Some; eauto).
  set (s := msh cf) in *. unfold mthread_step. destruct (mpos th) as [|c|c n|c n|c n j|c n|c n a k] eqn:Ep; cbn [holding ecur pcall] in *.
  - (* lock *)
    destruct (mtodo th) as [|c r] eqn:Et; [eauto|]. destruct (mmux s) as [t0|] eqn:Emx; [eauto|]. subst l.
    exists o. apply (step_wrap cf o t th _ _ o HI Eth); fold s; try match goal with |- _ `prefix_of` _ => first [reflexivity|apply strip_app|eapply strip_mid; eassumption] end; auto.
    + apply vinv_mux. auto.
    + inversion Hs; subst. split; [auto|]. cbn [mpos pcall holding mmux]. split; [congruence|]. split; [tauto|]. split; [discriminate|].
      exists ds, []. split; [exact Hm|]. split; [exact Hd|reflexivity].
    + intros t' Hne. cbn [mmux moff]. split; [auto|]. split; [|auto]. rewrite Emx. split; congruence.
  - (* test *)
    subst l. rewrite app_nil_r in Hm. pose proof (Hsc c eq_refl) as Hsane. destruct (mfull_spec s o c Hv Hsane) as [F1 F2].
    assert (Emx : mmux s = Some t) by (apply Hx; auto). destruct (mfull s c) eqn:Ef.
    + specialize (F1 eq_refl). exists (o ++ [Ent t c None 0 0]). apply (step_wrap cf o t th _ _ _ HI Eth); fold s; try match goal with |- _ `prefix_of` _ => first [reflexivity|apply strip_app|eapply strip_mid; eassumption] end.
      * pose proof (vinv_reserve s o t c None Hv Hsane) as G. unfold advance in G. rewrite F1 in G. exact G.
      * apply (ret_tinv s _ t th ds (Ent t c None 0 0)); [rewrite mine_app_same, Hm; auto|auto| |auto|discriminate].
        split; [auto|]. cbn [er snd fst]. repeat match goal with |- _ /\ _ => split end; try discriminate; try congruence; try (destruct c; reflexivity).
      * intros t' Hne. split; [apply mine_app_ne; auto|]. cbn [mmux moff]. split; [|auto]. rewrite Emx. split; congruence.
      * intros e [Hin|Hin]%elem_of_app; [auto|]. apply elem_of_list_singleton in Hin as ->. auto.
    + specialize (F2 eq_refl). exists o. apply (step_wrap cf o t th _ _ o HI Eth); fold s; try match goal with |- _ `prefix_of` _ => first [reflexivity|apply strip_app|eapply strip_mid; eassumption] end; auto.
      * split; [auto|]. cbn [mpos pcall holding mlog]. split; [auto|]. split; [tauto|]. split; [intros ? ? [= <- <-]; auto|].
        exists ds, []. rewrite app_nil_r. split; [exact Hm|]. split; [exact Hd|reflexivity].
  - (* store *)
    subst l. rewrite app_nil_r in Hm. pose proof (Hsc c eq_refl) as Hsane. pose proof (Hst c n eq_refl) as Hres.
    assert (Emx : mmux s = Some t) by (apply Hx; auto). exists (o ++ [Ent t c (Some n) 0 0]). apply (step_wrap cf o t th _ _ _ HI Eth); fold s; try match goal with |- _ `prefix_of` _ => first [reflexivity|apply strip_app|eapply strip_mid; eassumption] end.
    + pose proof (vinv_reserve s o t c None Hv Hsane) as G. rewrite (mnewoff_spec s o c n); auto. rewrite Hres in G. exact G.
    + split; [auto|]. cbn [mpos pcall holding mlog mmux]. split; [auto|]. split; [split; discriminate|]. split; [discriminate|].
      exists ds, [Ent t c (Some n) 0 0]. rewrite mine_app_same, Hm. split; [auto|]. split; [auto|]. reflexivity.
    + intros t' Hne. split; [apply mine_app_ne; auto|]. cbn [mmux moff]. rewrite Emx. split; [split; congruence|congruence].
    + intros e [Hin|Hin]%elem_of_app; [auto|]. apply elem_of_list_singleton in Hin as ->. auto.
  - (* slice *)
    subst l. pose proof (Hsc c eq_refl) as Hsane. destruct (cur_pos o t ds _ Hm) as (o1 & o2 & Ho & _ & _ & _).
    destruct (v_bounds s o (length o1) (Ent t c (Some n) 0 0) n Hv) as [Hn1 Hn2]; [rewrite Ho; apply lookup_mid|auto|]. cbn [ec] in Hn2.
    assert (mslice_ok s c n = true) as ->.
    { unfold mslice_ok. rewrite (v_len _ _ Hv). unfold i64, mlen in *. rewrite wrapS_id by lia. lia. }
    exists o. apply (step_wrap cf o t th _ _ o HI Eth); fold s; try match goal with |- _ `prefix_of` _ => first [reflexivity|apply strip_app|eapply strip_mid; eassumption] end; auto.
    + split; [auto|]. cbn [mpos pcall holding mlog mmux]. split; [auto|]. split; [tauto|]. split; [discriminate|].
      exists ds, [Ent t c (Some n) 0 0]. split; [auto|]. split; [auto|]. split; [reflexivity|lia].
  - (* copy *)
    destruct Hc as [-> Hj]. pose proof (Hsc c eq_refl) as Hsane. destruct (cur_pos o t ds _ Hm) as (o1 & o2 & Ho & Hm2 & Hm1 & _).
    assert (Hnx : mmux s <> Some t) by (intros E; apply Hx in E; discriminate).
    destruct (mbytes c !! j) as [b|] eqn:Eb.
    + exists (o1 ++ Ent t c (Some n) (S j) 0 :: o2). rewrite Ho in Hv, He. apply (step_wrap cf o t th _ _ _ HI Eth); fold s; try match goal with |- _ `prefix_of` _ => first [reflexivity|apply strip_app|eapply strip_mid; eassumption] end.
      * apply vinv_copy; auto.
      * split; [auto|]. cbn [mpos pcall holding mlog mmux]. split; [auto|]. split; [split; [discriminate|tauto]|]. split; [discriminate|].
        exists ds, [Ent t c (Some n) (S j) 0]. rewrite mine_mid_same, Hm1 by auto. split; [auto|]. split; [auto|]. split; [reflexivity|].
        apply lookup_lt_Some in Eb. lia.
      * intros t' Hne. cbn [mmux moff]. rewrite Ho. split; [apply mine_mid_ne; auto|]. tauto.
      * eapply et_mid. exact He.
    + apply lookup_ge_None in Eb. replace j with (length (mbytes c)) in * by lia. destruct (msyncs c) eqn:Hms.
      * exists o. apply (step_wrap cf o t th _ _ o HI Eth); fold s; try match goal with |- _ `prefix_of` _ => first [reflexivity|apply strip_app|eapply strip_mid; eassumption] end; auto.
        -- split; [auto|]. cbn [mpos pcall holding mlog mmux]. split; [auto|]. split; [split; [discriminate|tauto]|]. split; [discriminate|].
           exists ds, [Ent t c (Some n) (length (mbytes c)) 0]. split; [auto|]. split; [auto|]. split; auto.
      * exists o. rewrite (sh_eta s). apply (step_wrap cf o t th _ _ o HI Eth); fold s; [| |intros t' Hne; cbn [mmux moff]; tauto|auto|reflexivity].
        -- rewrite <- sh_eta. auto.
        -- apply (ret_tinv s o t th ds _ c _ (mmux s) Hm Hd); auto. split; [auto|]. cbn [er snd fst ej ed].
           repeat match goal with |- _ /\ _ => split end; try discriminate; try congruence; try (destruct c; cbn in Hms |- *; try discriminate; congruence).
  - (* mmapSyncToDisk *)
    destruct Hc as [-> Hms]. pose proof (Hsc c eq_refl) as Hsane. destruct (cur_pos o t ds _ Hm) as (o1 & o2 & Ho & Hm2 & Hm1 & _).
    assert (Hnx : mmux s <> Some t) by (intros E; apply Hx in E; discriminate).
    destruct (v_bounds s o (length o1) (Ent t c (Some n) (length (mbytes c)) 0) n Hv) as [Hn1 Hn2]; [rewrite Ho; apply lookup_mid|auto|]. cbn [ec] in Hn2.
    destruct (msync_args pl page (Z.of_nat (length (mmem s))) n (mlen c)) as [[st len]|] eqn:Ea.
    + destruct ok.
      * exists o. apply (step_wrap cf o t th _ _ o HI Eth); fold s; try match goal with |- _ `prefix_of` _ => first [reflexivity|apply strip_app|eapply strip_mid; eassumption] end; auto.
        -- split; [auto|]. cbn [mpos pcall holding mlog mmux]. split; [auto|]. split; [split; [discriminate|tauto]|]. split; [discriminate|].
           exists ds, [Ent t c (Some n) (length (mbytes c)) 0]. split; [auto|]. split; [auto|]. exists 0%nat. split; [auto|]. split; [auto|]. split; [lia|].
           intros Hpl. assert (Hml : 0 <= mlen c) by (unfold mlen; lia). destruct (msync_range _ _ _ _ _ Hn1 Hml Ea Hpl) as [G1 G2]. lia.
      * exists o. rewrite (sh_eta s). apply (step_wrap cf o t th _ _ o HI Eth); fold s; [| |intros t' Hne; cbn [mmux moff]; tauto|auto|reflexivity].
        -- rewrite <- sh_eta. auto.
        -- apply (ret_tinv s o t th ds _ c _ (mmux s) Hm Hd); auto. split; [auto|]. cbn [er snd fst ej ed].
           repeat match goal with |- _ /\ _ => split end; try discriminate; try congruence; destruct c; cbn in Hms |- *; try discriminate; congruence.
    + exists o. rewrite (sh_eta s). apply (step_wrap cf o t th _ _ o HI Eth); fold s; [| |intros t' Hne; cbn [mmux moff]; tauto|auto|reflexivity].
      * rewrite <- sh_eta. auto.
      * apply (ret_tinv s o t th ds _ c _ (mmux s) Hm Hd); auto. split; [auto|]. cbn [er snd fst ej ed].
        apply msync_panic in Ea; [|lia|unfold mlen; lia|rewrite (v_len _ _ Hv); lia]. unfold mlen in Ea.
        assert (Hnil : mbytes c = []) by (destruct (mbytes c); [auto|cbn in Ea; lia]).
        split; [destruct c; cbn in Hms |- *; discriminate|]. split; [auto|]. split; [intros _ _; destruct c; discriminate|auto].
  - (* msync *)
    destruct Hc as (d & -> & Hms & Hd2 & Hda). pose proof (Hsc c eq_refl) as Hsane. destruct (cur_pos o t ds _ Hm) as (o1 & o2 & Ho & Hm2 & Hm1 & _).
    assert (Hnx : mmux s <> Some t) by (intros E; apply Hx in E; discriminate).
    destruct (v_bounds s o (length o1) (Ent t c (Some n) (length (mbytes c)) d) n Hv) as [Hn1 Hn2]; [rewrite Ho; apply lookup_mid|auto|]. cbn [ec] in Hn2.
    destruct k as [|k].
    + exists o. rewrite (sh_eta s). apply (step_wrap cf o t th _ _ o HI Eth); fold s; [| |intros t' Hne; cbn [mmux moff]; tauto|auto|reflexivity].
      * rewrite <- sh_eta. auto.
      * apply (ret_tinv s o t th ds _ c _ (mmux s) Hm Hd); auto. split; [auto|]. cbn [er snd fst ej ed].
        repeat match goal with |- _ /\ _ => split end; try discriminate; try congruence; try (destruct c; cbn in Hms |- *; try discriminate; congruence).
        intros Hpl _ _ _. destruct (Hda Hpl). unfold mlen in *. lia.
    + destruct (mmem s !! a) as [b|] eqn:Eb.
      * pose proof (vinv_wb s o a b Hv Eb) as Hw.
        destruct (decide (Z.of_nat a = n + Z.of_nat d /\ (d < length (mbytes c))%nat)) as [[Had Hdl]|Hno].
        -- exists (o1 ++ Ent t c (Some n) (length (mbytes c)) (S d) :: o2). rewrite Ho in He. apply (step_wrap cf o t th _ _ _ HI Eth); fold s; try match goal with |- _ `prefix_of` _ => first [reflexivity|apply strip_app|eapply strip_mid; eassumption] end.
           ++ rewrite Ho in Hw. apply vinv_synced; auto. cbn [mdisk mmem]. replace (Z.to_nat n + d)%nat with a by lia.
              rewrite list_lookup_insert; [auto|]. apply lookup_lt_Some in Eb. rewrite (v_len _ _ Hv) in Eb. rewrite (v_dlen _ _ Hv). auto.
           ++ split; [auto|]. cbn [mpos pcall holding mlog mmux]. split; [auto|]. split; [split; [discriminate|tauto]|]. split; [discriminate|].
              exists ds, [Ent t c (Some n) (length (mbytes c)) (S d)]. rewrite mine_mid_same, Hm1 by auto. split; [auto|]. split; [auto|].
              exists (S d). split; [auto|]. split; [auto|]. split; [lia|]. intros Hpl. destruct (Hda Hpl). lia.
           ++ intros t' Hne. cbn [mmux moff]. rewrite Ho. split; [apply mine_mid_ne; auto|]. tauto.
           ++ eapply et_mid. exact He.
        -- exists o. apply (step_wrap cf o t th _ _ o HI Eth); fold s; try match goal with |- _ `prefix_of` _ => first [reflexivity|apply strip_app|eapply strip_mid; eassumption] end; auto.
           ++ split; [auto|]. cbn [mpos pcall holding mlog mmux]. split; [auto|]. split; [split; [discriminate|tauto]|]. split; [discriminate|].
              exists ds, [Ent t c (Some n) (length (mbytes c)) d]. split; [auto|]. split; [auto|].
              exists d. split; [auto|]. split; [auto|]. split; [lia|]. intros Hpl. destruct (Hda Hpl). unfold mlen in *. lia.
      * (* not reached: the range is in the mapping *)
        exists o. rewrite (sh_eta s). apply (step_wrap cf o t th _ _ o HI Eth); fold s; [| |intros t' Hne; cbn [mmux moff]; tauto|auto|reflexivity].
        -- rewrite <- sh_eta. auto.
        -- apply (ret_tinv s o t th ds _ c _ (mmux s) Hm Hd); auto. split; [auto|]. cbn [er snd fst ej ed].
           repeat match goal with |- _ /\ _ => split end; try discriminate; try congruence; destruct c; cbn in Hms |- *; try discriminate; congruence.
Qed.
Lemma step_minv cf o ev : minv cf o -> exists o', minv (mconf_step pl page cf ev) o' /\ strip o `prefix_of` strip o'.
Proof.
  intros HI. destruct ev as [t ok|a]; [apply (step_turn cf o); auto|]. cbn [mconf_step]. destruct (mmem (msh cf) !! a) as [b|] eqn:E; [|eauto].
  exists o. split; [|reflexivity]. destruct HI as (Hv & Ht & He). split; [apply vinv_wb; auto|]. split; [|auto]. cbn [mths msh]. intros t th Hth.
  apply (tinv_other (msh cf) _ o o); cbn [mmux moff]; auto.
Qed.
Lemma run_minv evs cf o : minv cf o -> exists o', minv (mrun pl page cf evs) o' /\ strip o `prefix_of` strip o'.
Proof.
  revert cf o. induction evs as [|e evs IH]; intros cf o HI; [eauto|]. destruct (step_minv cf o e HI) as (o1 & H1 & P1).
  destruct (IH _ _ H1) as (o2 & H2 & P2). exists o2. split; [exact H2|]. etransitivity; eauto.
Qed.
Lemma init_minv progs : Forall (Forall (sane_call max)) progs -> minv (minit (MSh mem0 start max None disk0) progs) [].
Proof.
  intros Hp. unfold minit. split; [|split].
  - split; cbn; auto. intros p e a n (H & _). discriminate.
  - cbn [mths msh]. intros t th Hth. rewrite list_lookup_fmap in Hth. destruct (progs !! t) as [pr|] eqn:E; [|discriminate]. injection Hth as <-.
    split; [cbn; rewrite Forall_lookup in Hp; eauto|]. cbn. repeat match goal with |- _ /\ _ => split end; try discriminate. { split; discriminate. }
    exists [], []. cbn. repeat split; auto.
  - intros e He. inversion He.
Qed.
Lemma reach progs evs : Forall (Forall (sane_call max)) progs ->
  exists o, minv (mrun pl page (minit (MSh mem0 start max None disk0) progs) evs) o.
Proof. intros H. destruct (run_minv evs _ [] (init_minv _ H)) as (o & Ho & _). eauto. Qed.
End inv.
