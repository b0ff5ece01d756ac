From stdpp Require Import prelude.
From Verif Require Import TreeMap_Model TreeMap_Spec.

Section proofs.
Context {K V : Type} `{EqDecision K} (lt : K -> K -> bool) (Hlt : strict_total lt).
Implicit Types l : list (K * V).

Definition below (k : K) l : Prop := forall x, x ∈ l -> lt k x.1 = true.
Fixpoint sorted l : Prop := match l with [] => True | x :: r => below x.1 r /\ sorted r end.

(** lookup in the sequence *)
Fixpoint look (k : K) l : option V :=
  match l with [] => None | x :: r => if decide (x.1 = k) then Some x.2 else look k r end.

Lemma lt_ne a b : lt a b = true -> a <> b.
Proof. intros E ->. rewrite (st_irrefl lt Hlt) in E. discriminate. Qed.
Lemma lt_asym a b : lt a b = true -> lt b a = false.
Proof.
  intros E. destruct (lt b a) eqn:E2; auto. pose proof (st_trans lt Hlt _ _ _ E E2) as Hc.
  rewrite (st_irrefl lt Hlt) in Hc. discriminate.
Qed.

Lemma below_look k l : below k l -> look k l = None.
Proof.
  induction l as [|x l IH]; intros HB; cbn; auto. destruct (decide (x.1 = k)) as [E|E].
  - specialize (HB x ltac:(constructor)). apply lt_ne in HB. congruence.
  - apply IH. intros y Hy. apply HB. constructor; auto.
Qed.

Lemma below_trans a b l : lt a b = true -> below b l -> below a l.
Proof. intros E HB x Hx. eapply (st_trans lt Hlt); eauto. Qed.
Lemma below_cons a x l : lt a x.1 = true -> below a l -> below a (x :: l).
Proof. intros E HB y Hy. apply elem_of_cons in Hy as [->|Hy]; auto. Qed.

Lemma look_elem k v l : sorted l -> (k, v) ∈ l <-> look k l = Some v.
Proof.
  induction l as [|x l IH]; cbn; [intros _; split; [intros E; apply elem_of_nil in E; tauto|discriminate]|].
  intros [HB HS]. rewrite elem_of_cons, (IH HS). destruct (decide (x.1 = k)) as [E|E].
  - split; [|intros [= <-]; left; destruct x; cbn in *; subst; auto].
    intros [<-|HL]; [auto|]. subst k. rewrite (below_look _ _ HB) in HL. discriminate.
  - split; [|auto]. intros [<-|HL]; [cbn in E; congruence|auto].
Qed.

Lemma roi_elem it l x : x ∈ (replace_or_insert lt it l).2 -> x = it \/ x ∈ l.
Proof.
  induction l as [|y l IH]; cbn.
  - intros Hx. apply elem_of_list_singleton in Hx. auto.
  - destruct (less lt it y); [cbn; rewrite elem_of_cons; tauto|].
    destruct (less lt y it).
    + destruct (replace_or_insert lt it l) as [o r']. cbn in *. rewrite !elem_of_cons. tauto.
    + cbn. rewrite !elem_of_cons. tauto.
Qed.

Lemma roi_spec k v l : sorted l ->
  sorted (replace_or_insert lt (k, v) l).2 /\
  (snd <$> (replace_or_insert lt (k, v) l).1 = look k l) /\
  (forall k', look k' (replace_or_insert lt (k, v) l).2 = if decide (k = k') then Some v else look k' l).
Proof.
  induction l as [|x l IH]; cbn; intros HS.
  - split; [split; [intros y Hy; apply elem_of_nil in Hy; tauto|auto]|]. split; auto.
  - destruct HS as [HB HS]. unfold less. cbn [fst]. destruct (lt k x.1) eqn:E1.
    + pose proof (lt_ne _ _ E1) as Hne. cbn. split; [|split].
      * split; [|split; auto]. apply below_cons; auto. eapply below_trans; eauto.
      * rewrite decide_False by congruence. symmetry. apply below_look. eapply below_trans; eauto.
      * intros k'. destruct (decide (k = k')); auto.
    + destruct (lt x.1 k) eqn:E2.
      * pose proof (lt_ne _ _ E2) as Hne. specialize (IH HS).
        pose proof (fun y => roi_elem (k, v) l y) as HE.
        destruct (replace_or_insert lt (k, v) l) as [o r']. cbn in *. destruct IH as (I1 & I2 & I3).
        split; [|split].
        -- split; [|auto]. intros y Hy. destruct (HE y Hy) as [->|Hy']; auto.
        -- rewrite decide_False by auto. auto.
        -- intros k'. destruct (decide (x.1 = k')) as [<-|]; [rewrite decide_False by congruence; auto|]. auto.
      * pose proof (st_total lt Hlt _ _ E1 E2) as ->. cbn. rewrite decide_True by auto.
        split; [auto|]. split; [auto|]. intros k'. destruct (decide (x.1 = k')); auto.
Qed.

Lemma get_spec k l : sorted l -> snd <$> tree_get lt k l = look k l.
Proof.
  induction l as [|x l IH]; cbn; intros HS; auto. destruct HS as [HB HS].
  destruct (lt k x.1) eqn:E1.
  - rewrite decide_False by (intros E; apply lt_ne in E1; congruence). symmetry. apply below_look. eapply below_trans; eauto.
  - destruct (lt x.1 k) eqn:E2.
    + rewrite decide_False by (apply lt_ne; auto). auto.
    + rewrite decide_True by (symmetry; apply (st_total lt Hlt); auto). auto.
Qed.

Lemma del_elem k l x : x ∈ tree_delete lt k l -> x ∈ l.
Proof.
  induction l as [|y l IH]; cbn; auto. destruct (lt k y.1); auto. destruct (lt y.1 k); rewrite !elem_of_cons; tauto.
Qed.

Lemma del_spec k l : sorted l ->
  sorted (tree_delete lt k l) /\
  (forall k', look k' (tree_delete lt k l) = if decide (k = k') then None else look k' l).
Proof.
  induction l as [|x l IH]; cbn; intros HS.
  - split; auto. intros k'. destruct (decide (k = k')); auto.
  - destruct HS as [HB HS]. destruct (lt k x.1) eqn:E1.
    + split; [cbn; auto|]. intros k'. cbn. destruct (decide (k = k')) as [<-|]; auto.
      rewrite decide_False by (intros E; apply lt_ne in E1; congruence). apply below_look. eapply below_trans; eauto.
    + destruct (lt x.1 k) eqn:E2.
      * destruct (IH HS) as [I1 I2]. cbn. split.
        -- split; auto. intros y Hy. apply HB. eapply del_elem; eauto.
        -- intros k'. rewrite I2. destruct (decide (k = k')) as [<-|]; auto.
           rewrite decide_False by (apply lt_ne; auto). auto.
      * pose proof (st_total lt Hlt _ _ E1 E2) as ->. split; [auto|]. intros k'.
        destruct (decide (x.1 = k')) as [<-|]; [apply below_look; auto|auto].
Qed.

Lemma step_spec l o : sorted l ->
  sorted (tree_step lt l o).2 /\
  (forall k, look k (tree_step lt l o).2 =
     match o with
     | TPut k' v => if decide (k' = k) then Some v else look k l
     | TDel k' => if decide (k' = k) then None else look k l
     | TGet _ => look k l
     end) /\
  (tree_step lt l o).1 = match o with TPut k _ | TGet k => TVal (look k l) | TDel _ => TUnit end.
Proof.
  intros HS. destruct o as [k v|k|k]; cbn.
  - destruct (roi_spec k v l HS) as (I1 & I2 & I3).
    destruct (replace_or_insert lt (k, v) l) as [p l']. cbn in *. rewrite I2. auto.
  - rewrite get_spec by auto. auto.
  - destruct (del_spec k l HS) as (I1 & I2). auto.
Qed.

Lemma run_spec os : forall l, sorted l ->
  sorted (tree_run lt l os).2 /\ (forall k, look k (tree_run lt l os).2 = value_after k os (look k l)).
Proof.
  induction os as [|o os IH]; intros l HS; cbn [tree_run value_after]; [auto|].
  destruct (step_spec l o HS) as (I1 & I2 & _).
  destruct (tree_step lt l o) as [x l1]. cbn [snd] in *. destruct (IH l1 I1) as [J1 J2].
  destruct (tree_run lt l1 os) as [xs l2]. cbn [snd] in *. split; auto. intros k. rewrite J2, I2. destruct o; auto.
Qed.

Lemma run_app os1 os2 : forall l,
  (tree_run lt l (os1 ++ os2)).1 = (tree_run lt l os1).1 ++ (tree_run lt (tree_run lt l os1).2 os2).1.
Proof.
  induction os1 as [|o os1 IH]; intros l; cbn [app tree_run]; [auto|].
  destruct (tree_step lt l o) as [x l1]. specialize (IH l1).
  destruct (tree_run lt l1 (os1 ++ os2)), (tree_run lt l1 os1). cbn in *. congruence.
Qed.
End proofs.

Section visits.
Context {K V : Type} `{EqDecision K} (before : K -> K -> bool).
Implicit Types l : list (K * V).

(** strictly ordered by [before], for any two positions *)
Definition ordered l : Prop := forall p1 a p2 b p3, l = p1 ++ a :: p2 ++ b :: p3 -> before a.1 b.1 = true.

Lemma visit_prefix (f : K -> V -> bool) l : exists rest, l = visit f l ++ rest /\
  (rest = [] \/ exists k v, last (visit f l) = Some (k, v) /\ f k v = false).
Proof.
  induction l as [|[k v] l (rest & E & Hr)]; [exists []; auto|]. cbn. destruct (f k v) eqn:Ef.
  - exists rest. split; [cbn; congruence|]. destruct Hr as [Hr|(k' & v' & Hl & Hf)]; [auto|].
    right. exists k', v'. split; auto. destruct (visit f l); [discriminate|]. auto.
  - exists l. split; [auto|]. right. exists k, v. auto.
Qed.

Lemma visit_stop (f : K -> V -> bool) l : forall pre k v post,
  visit f l = pre ++ (k, v) :: post -> f k v = false -> post = [].
Proof.
  induction l as [|[k0 v0] l IH]; intros pre k v post E Hf; cbn in E.
  - destruct pre; discriminate.
  - destruct pre as [|p pre].
    + injection E as E1 E1' E2. subst. rewrite Hf. auto.
    + injection E as E1 E2. destruct (f k0 v0); [eauto|]. destruct pre; discriminate.
Qed.

Lemma visit_traversal (f : K -> V -> bool) (m : K -> option V) l :
  ordered l -> (forall k v, (k, v) ∈ l <-> m k = Some v) -> traversal before m f (visit f l).
Proof.
  intros HO Hm. destruct (visit_prefix f l) as (rest & E & Hr). split.
  - intros p1 a p2 b p3 Ev. apply (HO p1 a p2 b (p3 ++ rest)). rewrite E, Ev, <- app_assoc. cbn.
    rewrite <- app_assoc. auto.
  - intros k v Hin. apply Hm. rewrite E. apply elem_of_app. auto.
  - apply visit_stop.
  - intros k v Hk. apply Hm in Hk. rewrite E in Hk. apply elem_of_app in Hk as [Hk|Hk]; [auto|]. right.
    destruct Hr as [->|(k' & v' & Hl & Hf)]; [apply elem_of_nil in Hk; tauto|].
    exists k', v'. split; [auto|]. split; [auto|].
    apply last_Some in Hl as (l' & El). apply elem_of_list_split in Hk as (r1 & r2 & ->).
    apply (HO l' (k', v') r1 (k, v) r2). rewrite E, El, <- app_assoc. auto.
Qed.
End visits.

Section order.
Context {K V : Type} `{EqDecision K} (lt : K -> K -> bool).
Implicit Types l : list (K * V).
Lemma sorted_ordered l : sorted lt l -> ordered lt l.
Proof.
  intros HS p1. revert l HS. induction p1 as [|x p1 IH]; intros l HS a p2 b p3 ->; cbn in HS; destruct HS as [HB HS].
  - apply HB. apply elem_of_app. right. constructor.
  - eapply IH; eauto.
Qed.
Lemma ordered_rev l : ordered lt l -> ordered (fun a b => lt b a) (rev l).
Proof.
  intros HO p1 a p2 b p3 E. apply (HO (rev p3) b (rev p2) a (rev p1)).
  rewrite <- (rev_involutive l), E, !rev_app_distr. cbn. rewrite !rev_app_distr. cbn. rewrite <- !app_assoc. auto.
Qed.
End order.
