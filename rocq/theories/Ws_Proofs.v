(** Proofs about the websocket handler: one invariant for all interleavings. *)
From stdpp Require Import list.
From Coq Require Import ZArith Lia.
From Verif Require Import Conc Ws_Model Ws_Spec.
Local Open Scope Z_scope.

Global Instance werr_eq : EqDecision werr.
Proof. solve_decision. Defined.

(** ** Counting goroutines *)
Definition life (th : wth) : Z := match th with TNew | TOpening | TRead _ => 1 | _ => 0 end.
Definition before (th : wth) : Z :=
  match th with TNew | TOpening | TRead (RTest _ | RRecv | RPong _ _ | RSet _ | RGo _ | RErr _) => 1 | _ => 0 end.
Definition early (th : wth) : Z :=
  match th with TNew | TOpening | TRead (RTest _ | RRecv | RPong _ _ | RSet _ | RGo _) => 1 | _ => 0 end.
Definition isnew (th : wth) : Z := match th with TNew => 1 | _ => 0 end.
Definition wheld (w : wwr) : Z := match w with WwLock => 0 | _ => 1 end.
Definition holdsW (th : wth) : Z :=
  match th with TRead (RPong _ w | RFrame w) | TUser _ _ (USend _ w | UFrame w) => wheld w | _ => 0 end.
Definition holdsM (th : wth) : Z := match th with TUser _ _ (USend _ _ | UUnlock _ _) => 1 | _ => 0 end.
Definition iserr (th : wth) : Z := match th with TErr _ => 1 | _ => 0 end.
Definition ismsg (m : list Z) (th : wth) : Z := match th with TMsg m' | TRead (RGo m') => if decide (m' = m) then 1 else 0 | _ => 0 end.
Definition istmsg (m : list Z) (th : wth) : Z := match th with TMsg m' => if decide (m' = m) then 1 else 0 | _ => 0 end.
Lemma life_nn th : 0 <= life th. Proof. destruct th; cbn; lia. Qed.
Lemma before_nn th : 0 <= before th. Proof. destruct th as [| |[]| | | |]; cbn; lia. Qed.
Lemma early_nn th : 0 <= early th. Proof. destruct th as [| |[]| | | |]; cbn; lia. Qed.
Lemma holdsW_nn th : 0 <= holdsW th. Proof. destruct th as [| |[]| | |? ? []|]; cbn; try (destruct w; cbn); lia. Qed.
Lemma holdsM_nn th : 0 <= holdsM th. Proof. destruct th as [| |[]| | |? ? []|]; cbn; lia. Qed.
Lemma before_life th : before th <= life th. Proof. destruct th as [| |[]| | | |]; cbn; lia. Qed.
Lemma early_before th : early th <= before th. Proof. destruct th as [| |[]| | | |]; cbn; lia. Qed.
Lemma isnew_early th : isnew th <= early th. Proof. destruct th as [| |[]| | | |]; cbn; lia. Qed.
Lemma isnew_nn th : 0 <= isnew th. Proof. destruct th as [| |[]| | | |]; cbn; lia. Qed.

Lemma one_nn m x : 0 <= one m x.
Proof. unfold one. destruct (decide _); lia. Qed.
Lemma cnt_app m l1 l2 : cnt m (l1 ++ l2) = cnt m l1 + cnt m l2.
Proof. apply sumZ_app. Qed.
Lemma cnt_one m x : cnt m [x] = one m x.
Proof. unfold cnt. rewrite sumZ_cons. cbn. lia. Qed.
Lemma cnt_nil m : cnt m [] = 0.
Proof. reflexivity. Qed.
Lemma cnt_in m l : 0 < cnt m l -> m ∈ l.
Proof.
  induction l as [|x l IH]; unfold cnt; [cbn; lia|]. rewrite sumZ_cons. unfold one at 1. destruct (decide (x = m)) as [->|]; intros H; [left|right]. apply IH. unfold cnt. lia.
Qed.
Lemma cnt_perm l1 l2 : (forall m, cnt m l1 = cnt m l2) -> l1 ≡ₚ l2.
Proof.
  revert l2. induction l1 as [|x l1 IH]; intros l2 H.
  - destruct l2 as [|y l2]; [reflexivity|]. specialize (H y). unfold cnt in H. rewrite sumZ_cons in H. cbn in H. unfold one at 1 in H. rewrite decide_True in H by reflexivity.
    pose proof (sumZ_nonneg (one y) l2 ltac:(intros; apply one_nn)). lia.
  - assert (Hx : x ∈ l2). { apply cnt_in. rewrite <- H. unfold cnt. rewrite sumZ_cons. unfold one at 1. rewrite decide_True by reflexivity. pose proof (sumZ_nonneg (one x) l1 ltac:(intros; apply one_nn)). lia. }
    apply elem_of_list_split in Hx as (a & b & ->). rewrite <- Permutation_middle. apply perm_skip, IH. intros m. specialize (H m). rewrite cnt_app in H |- *. unfold cnt in H |- *. rewrite !sumZ_cons in H. lia.
Qed.

Lemma received_snoc tr x : received (tr ++ [x]) = received tr ++ match x with EvRecv m => [m] | _ => [] end.
Proof. unfold received. rewrite omap_app. destruct x; reflexivity. Qed.
Lemma handed_snoc tr x : handed (tr ++ [x]) = handed tr ++ match x with EvMsg m => [m] | _ => [] end.
Proof. unfold handed. rewrite omap_app. destruct x; reflexivity. Qed.
Lemma errors_snoc tr x : errors (tr ++ [x]) = errors tr ++ match x with EvErr m => [m] | _ => [] end.
Proof. unfold errors. rewrite omap_app. destruct x; reflexivity. Qed.
Lemma sent_snoc tr x : sent (tr ++ [x]) = sent tr ++ match x with EvByte m => [m] | _ => [] end.
Proof. unfold sent. rewrite omap_app. destruct x; reflexivity. Qed.
Lemma closes_snoc tr x : closes (tr ++ [x]) = closes tr ++ match x with EvClose => [tt] | _ => [] end.
Proof. unfold closes. rewrite omap_app. destruct x; reflexivity. Qed.
Lemma late_snoc t k tr x : late t k (tr ++ [x]) -> late t k tr \/ (exists o, x = EvCall t k o) /\ exists e, e ∈ tr /\ over e.
Proof.
  intros (tr1 & tr2 & e & o & E & He & Ho & Hc). destruct tr2 as [|y tr2 _] using rev_ind; [apply elem_of_nil in Hc; destruct Hc|].
  rewrite app_assoc in E. apply app_inj_tail in E as [E ->]. apply elem_of_app in Hc as [Hc|Hc].
  - left. exists tr1, tr2, e, o. auto.
  - apply elem_of_list_singleton in Hc as <-. right. split; [eauto|]. exists e. split; [|exact Ho]. subst tr. apply elem_of_app. left. exact He.
Qed.
Lemma late_over t k tr : late t k tr -> exists e, e ∈ tr /\ over e.
Proof. intros (tr1 & tr2 & e & o & -> & He & Ho & _). exists e. split; [apply elem_of_app; auto|exact Ho]. Qed.
Lemma late_call t k tr : late t k tr -> exists o, EvCall t k o ∈ tr.
Proof. intros (tr1 & tr2 & e & o & -> & He & Ho & H). exists o. apply elem_of_app; auto. Qed.

Lemma lookup_step {A} (l new : list A) t x0 y j x : l !! t = Some x0 -> (<[t := y]> l ++ new) !! j = Some x ->
  (j = t /\ x = y) \/ (j <> t /\ l !! j = Some x) \/ ((length l <= j)%nat /\ x ∈ new).
Proof.
  intros Ht H. apply lookup_app_Some in H as [H|[Hl H]].
  - destruct (decide (j = t)) as [->|Hn]; [left|right; left].
    + rewrite list_lookup_insert in H by (eapply lookup_lt_Some; exact Ht). injection H as <-. auto.
    + rewrite list_lookup_insert_ne in H by congruence. auto.
  - right; right. rewrite insert_length in Hl. split; [exact Hl|]. eapply elem_of_list_lookup_2; exact H.
Qed.

Section inv.
Context (frame : origin -> list Z) (hasOpen hasErr hasClose hasMsg : bool) (progs : list (list uop)).
Hypothesis frame_ne : forall o, frame o <> [].

Definition noclose : Prop := Forall (fun p => OClose ∉ p) progs.
Definition dead (s : wsh) : Prop := closed s = true \/ broken s = true.
Definition opened (s : wsh) : Prop := hasOpen = true -> EvOpened ∈ tr s.
Definition wr (s : wsh) (F : list origin) (torn : list Z) (o : origin) (w : wwr) : Prop :=
  match w with
  | WwLock => True
  | WwBytes rest => torn ++ rest = frame o \/ rest = frame o /\ dead s
  | WwUnlock r => (torn = [] \/ dead s) /\ (r = None -> o ∈ F) /\ (forall e, r = Some e -> e <> EClosed)
  end.
Definition rp (s : wsh) F torn (p : rpc) : Prop :=
  match p with
  | RTest e => e = None
  | RRecv | RGo _ => True
  | RPong bs w => wr s F torn (FPong bs) w
  | RSet e => e <> EClosed
  | RErr e => err s <> None /\ (noclose -> exists c, e = Some (ENet c))
  | RClosed | RSock => err s <> None
  | RFrame w => err s <> None /\ wr s F torn FClose w
  | ROnClose => closed s = true /\ err s <> None
  end.
Definition written (p : upc) : bool := match p with USend _ (WwUnlock _) | UUnlock _ _ => true | _ => false end.
Definition up (s : wsh) F torn (t k : nat) (p : upc) : Prop :=
  match p with
  | UIdle | USet | UError | UTest _ => True
  | ULock bs => ~ late t k (tr s)
  | USend bs w => ~ late t k (tr s) /\ wr s F torn (FSend t k bs) w
  | UUnlock bs r => ~ late t k (tr s) /\ (r = None -> FSend t k bs ∈ F)
  | UFrame w => err s <> None /\ wr s F torn FClose w
  | USock r => err s <> None
  end.
Definition curop (p : upc) : option uop :=
  match p with
  | UIdle => None
  | UTest bs | ULock bs | USend bs _ | UUnlock bs _ => Some (OSend bs)
  | USet | UFrame _ | USock _ => Some OClose
  | UError => Some OError
  end.
Record uinv (s : wsh) (F : list origin) (torn : list Z) (t : nat) (todo : list uop) (k : nat) (p : upc) : Prop := {
  u_pos : up s F torn t k p;
  u_call : forall k' o, EvCall t k' o ∈ tr s -> (k' < k)%nat \/ k' = k /\ curop p = Some o;
  u_cur : forall o, curop p = Some o -> EvCall t k o ∈ tr s;
  u_frames : forall k' bs, FSend t k' bs ∈ F -> (k' < k)%nat \/ k' = k /\ written p = true;
  u_noclose : noclose -> OClose ∉ todo /\ curop p <> Some OClose }.
Definition T (s : wsh) F torn (t : nat) (th : wth) : Prop :=
  match th with
  | TNew | TEnd => True
  | TOpening => live s = true
  | TRead p => live s = true /\ opened s /\ rp s F torn p
  | TMsg _ => opened s
  | TErr e => opened s /\ err s <> None /\ (noclose -> exists c, e = Some (ENet c))
  | TUser todo k p => uinv s F torn t todo k p
  end.
(** What holds when [x] is seen after [tr]. *)
Definition okx (tr : list event) (x : event) : Prop :=
  match x with
  | EvMsg _ => hasOpen = true -> EvOpened ∈ tr
  | EvErr e => (hasOpen = true -> EvOpened ∈ tr) /\ (noclose -> exists c, e = Some (ENet c))
  | EvClose => hasOpen = true -> EvOpened ∈ tr
  | EvRecv _ => (hasOpen = true -> EvOpened ∈ tr) /\ EvClose ∉ tr
  | EvByte _ => forall e, e ∈ tr -> ~ shut e
  | EvRet t k o r => o <> OClose -> late t k tr -> r <> None
  | _ => True
  end.
Definition tr_ok (tr : list event) : Prop := forall tr1 x tr2, tr = tr1 ++ x :: tr2 -> okx tr1 x.
Lemma tr_ok_snoc tr x : tr_ok tr -> okx tr x -> tr_ok (tr ++ [x]).
Proof.
  intros H Hx tr1 y tr2 E. destruct tr2 as [|z tr2 _] using rev_ind.
  - apply app_inj_tail in E as [-> ->]. exact Hx.
  - rewrite app_comm_cons, app_assoc in E. apply app_inj_tail in E as [E _]. eapply H. exact E.
Qed.
Record GS (s : wsh) (ths : list wth) : Prop := {
  g_life : sumZ life ths <= 1;
  g_new : live s = false -> sumZ isnew ths = 1;
  g_mux : sumZ holdsM ths = if mux s then 1 else 0;
  g_wio : sumZ holdsW ths = if wio s then 1 else 0;
  g_close : Z.of_nat (length (closes (tr s))) = if hasClose then 1 - sumZ life ths else 0;
  g_err : Z.of_nat (length (errors (tr s))) + sumZ iserr ths = if hasErr then 1 - sumZ before ths else 0;
  g_msg : forall m, if hasMsg then cnt m (handed (tr s)) + sumZ (ismsg m) ths = cnt m (received (tr s)) else cnt m (handed (tr s)) + sumZ (istmsg m) ths = 0;
  g_noclose : noclose -> err s <> None -> sumZ early ths = 0 }.
Record GT (s : wsh) : Prop := {
  g_shut : forall e, e ∈ tr s -> shut e -> closed s = true /\ err s <> None;
  g_over : forall e, e ∈ tr s -> over e -> err s <> None;
  g_tr : tr_ok (tr s) }.
Record GF (s : wsh) (F : list origin) (torn : list Z) : Prop := {
  g_bytes : sent (tr s) = concat (frame <$> F) ++ torn;
  g_prefix : exists o, torn `prefix_of` frame o;
  g_torn : wio s = false -> torn = [] \/ dead s;
  g_nodup : NoDup (send_ids F);
  g_ret : forall t k bs, EvRet t k (OSend bs) None ∈ tr s -> FSend t k bs ∈ F;
  g_call : forall t k bs, FSend t k bs ∈ F -> EvCall t k (OSend bs) ∈ tr s;
  g_order : forall F1 F2 t k bs t' k' bs', F = F1 ++ FSend t k bs :: F2 -> precedes (tr s) t' k' bs' t k -> FSend t' k' bs' ∈ F1 }.
Definition inv (c : wsconf) : Prop := GS (sh c) (ths c) /\ GT (sh c) /\ exists F torn, GF (sh c) F torn /\ forall t th, ths c !! t = Some th -> T (sh c) F torn t th.

Lemma dead_mono s s' : (closed s = true -> closed s' = true) -> (broken s = true -> broken s' = true) -> dead s -> dead s'.
Proof. intros H1 H2 [H|H]; [left|right]; auto. Qed.
Lemma wr_mono s F torn s' F' torn' o w : wr s F torn o w ->
  (dead s -> dead s') -> (forall o, o ∈ F -> o ∈ F') -> torn' = torn \/ wheld w = 0 -> wr s' F' torn' o w.
Proof.
  intros H Hd HF Ht. destruct w as [|rest|r]; [exact I| |]; (destruct Ht as [->|Ht]; [|discriminate]).
  - destruct H as [H|[H D]]; [left|right]; auto.
  - destruct H as (H1 & H2 & H3). split; [destruct H1; auto|]. auto.
Qed.
Record grows (s s' : wsh) (F F' : list origin) (torn torn' : list Z) (j : nat) (th : wth) : Prop := {
  o_live : live s = true -> live s' = true;
  o_tr : forall e, e ∈ tr s -> e ∈ tr s';
  o_call : forall k o, EvCall j k o ∈ tr s' -> EvCall j k o ∈ tr s;
  o_late : forall k, late j k (tr s') -> late j k (tr s);
  o_err : err s <> None -> err s' <> None;
  o_closed : closed s = true -> closed s' = true;
  o_broken : broken s = true -> broken s' = true;
  o_F : forall o, o ∈ F -> o ∈ F';
  o_F' : forall k bs, FSend j k bs ∈ F' -> FSend j k bs ∈ F;
  o_torn : torn' = torn \/ holdsW th = 0 }.
Lemma T_mono s s' F F' torn torn' j th : grows s s' F F' torn torn' j th -> T s F torn j th -> T s' F' torn' j th.
Proof.
  intros [Ol Ot Oc Oa Oe Ox Ob OF OF' Oh] H. pose proof (dead_mono s s' Ox Ob) as Od.
  assert (Op : opened s -> opened s') by (intros X Y; apply Ot, X, Y).
  destruct th as [| |p|m|e|todo k p|]; cbn [T] in *; try tauto.
  - destruct H as (H1 & H2 & H3). split; [auto|]. split; [auto|]. destruct p; cbn [rp holdsW] in *; try tauto; try (eapply wr_mono; eauto; fail).
    + destruct H3 as [H3 H4]. split; [auto|]. eapply wr_mono; eauto.
  - destruct H as [P C U R N]. constructor; [|intros k' o X; apply C, Oc, X|intros o X; apply Ot, U, X|intros k' bs X; apply (R k' bs), OF', X|exact N].
    destruct p as [|bs|bs|bs w|bs r| |w|r|]; cbn [up holdsW] in *; try exact I.
    + intros X. apply P, Oa, X.
    + destruct P as [P1 P2]. split; [intros X; apply P1, Oa, X|]. eapply wr_mono; eauto.
    + destruct P as [P1 P2]. split; [intros X; apply P1, Oa, X|]. auto.
    + destruct P as [P1 P2]. split; [auto|]. eapply wr_mono; eauto.
    + auto.
Qed.

(** ** One step *)
Lemma T_new_user s F torn t todo : (noclose -> OClose ∉ todo) -> tr s = [] -> F = [] -> uinv s F torn t todo 0 UIdle.
Proof.
  intros H E ->. constructor; [exact I|rewrite E|discriminate| |].
  - intros ? ? X. apply elem_of_nil in X. destruct X.
  - intros ? ? X. apply elem_of_nil in X. destruct X.
  - intros N. split; [auto|discriminate].
Qed.
Lemma inv_init : inv (ws_init progs).
Proof.
  assert (Z0 : forall f : wth -> Z, (forall p, f (TUser p 0 UIdle) = 0) -> sumZ f ((fun p => TUser p 0%nat UIdle) <$> progs) = 0).
  { intros f Hf. apply sumZ_zero. intros x Hx. apply elem_of_list_fmap in Hx as (p & -> & _). apply Hf. }
  split; [|split; [|exists [], []; split]].
  - constructor; cbn [sh ths ws_init live err mux wio closed broken tr]; rewrite ?sumZ_cons, ?Z0 by reflexivity; cbn [life isnew holdsM holdsW before early iserr]; try lia; try reflexivity.
    + destruct hasClose; reflexivity.
    + destruct hasErr; reflexivity.
    + intros m. rewrite !sumZ_cons, !Z0 by reflexivity. destruct hasMsg; reflexivity.
    + congruence.
  - constructor; cbn [sh ths ws_init live err mux wio closed broken tr].
    + intros e X. apply elem_of_nil in X. destruct X.
    + intros e X. apply elem_of_nil in X. destruct X.
    + intros tr1 x tr2 E. destruct tr1; discriminate.
  - constructor; cbn [sh ths ws_init live err mux wio closed broken tr].
    + reflexivity.
    + exists FClose. apply prefix_nil.
    + auto.
    + constructor.
    + intros ? ? ? X. apply elem_of_nil in X. destruct X.
    + intros ? ? ? X. apply elem_of_nil in X. destruct X.
    + intros F1 F2 ? ? ? ? ? ? X. destruct F1; discriminate X.
  - intros t th Ht. destruct t as [|t]; [injection Ht as <-; exact I|]. cbn in Ht. apply list_lookup_fmap_inv in Ht as (p & -> & Hp).
    apply T_new_user; [|reflexivity|reflexivity]. intros N. unfold noclose in N. rewrite Forall_lookup in N. eapply N. exact Hp.
Qed.

Lemma sums {A} (f : A -> Z) l t x y new : l !! t = Some x -> sumZ f (<[t := y]> l ++ new) = sumZ f l - f x + f y + sumZ f new.
Proof. intros H. rewrite sumZ_app, (sumZ_insert f l t x y H). lia. Qed.
Lemma T_others s s' F F' torn torn' l t th th' new : l !! t = Some th ->
  (forall j x, j <> t -> l !! j = Some x -> T s F torn j x) ->
  (forall j x, j <> t -> l !! j = Some x -> grows s s' F F' torn torn' j x) ->
  T s' F' torn' t th' -> (forall j x, x ∈ new -> T s' F' torn' j x) ->
  forall j x, (<[t := th']> l ++ new) !! j = Some x -> T s' F' torn' j x.
Proof.
  intros Ht HT Hg H1 H2 j x Hj. destruct (lookup_step l new t th th' j x Ht Hj) as [[-> ->]|[[Hn Hx]|[_ Hx]]]; [exact H1| |auto].
  eapply T_mono; [apply Hg; assumption|]. apply HT; assumption.
Qed.
Lemma sum2 {A} (f : A -> Z) l i j x y : (forall x, 0 <= f x) -> i <> j -> l !! i = Some x -> l !! j = Some y -> f x + f y <= sumZ f l.
Proof.
  intros Hf Hij Hi Hj. pose proof (sumZ_insert f l i x x Hi). revert i j Hij Hi Hj H. induction l as [|z l IH]; intros i j Hij Hi Hj _; [discriminate|]. rewrite sumZ_cons.
  destruct i as [|i], j as [|j]; try congruence; cbn in Hi, Hj.
  - injection Hi as ->. pose proof (sumZ_lookup f l j y ltac:(auto) Hj). lia.
  - injection Hj as ->. pose proof (sumZ_lookup f l i x ltac:(auto) Hi). lia.
  - pose proof (IH i j ltac:(congruence) Hi Hj (sumZ_insert f l i x x Hi)). pose proof (Hf z). lia.
Qed.



Definition evs (x : option event) : list event := match x with Some x => [x] | None => [] end.
Definition mono (s s' : wsh) : Prop :=
  (live s = true -> live s' = true) /\ (err s <> None -> err s' <> None) /\ (closed s = true -> closed s' = true) /\ (broken s = true -> broken s' = true).
Definition is_send_ok (x : event) : Prop := match x with EvRet _ _ (OSend _) None | EvByte _ => True | _ => False end.
Lemma grows_evs s s' F F' torn torn' t j th x : mono s s' -> tr s' = tr s ++ evs x -> (forall j k o, x = Some (EvCall j k o) -> j = t) -> j <> t ->
  (forall o, o ∈ F -> o ∈ F') -> (forall k bs, FSend j k bs ∈ F' -> FSend j k bs ∈ F) -> torn' = torn \/ holdsW th = 0 -> grows s s' F F' torn torn' j th.
Proof.
  intros (H1 & H2 & H3 & H4) E Hx Hj HF HF' Ht. destruct x as [x|]; cbn [evs] in E.
  - constructor; rewrite ?E; auto.
    + intros e He. apply elem_of_app. auto.
    + intros k o He. apply elem_of_app in He as [He|He]; [exact He|]. apply elem_of_list_singleton in He. subst x. destruct Hj. eapply Hx. reflexivity.
    + intros k He. apply late_snoc in He as [He|[[o He] _]]; [exact He|]. subst x. destruct Hj. eapply Hx. reflexivity.
  - rewrite app_nil_r in E. constructor; rewrite ?E; auto.
Qed.
Lemma GT_evs s s' x : GT s -> mono s s' -> tr s' = tr s ++ evs x -> (forall y, x = Some y -> okx (tr s) y /\ (shut y -> closed s' = true) /\ (over y -> err s' <> None)) -> GT s'.
Proof.
  intros [H1 H2 H3] (M1 & M2 & M3 & M4) E Hx. destruct x as [x|]; cbn [evs] in E; [|rewrite app_nil_r in E; constructor; rewrite E; [|eauto|exact H3]].
  - destruct (Hx x eq_refl) as (X1 & X2 & X3). constructor; rewrite E.
    + intros e He S. apply elem_of_app in He as [He|He]; [destruct (H1 e He S); auto|]. apply elem_of_list_singleton in He as ->. split; [auto|]. apply X3. destruct x; cbn in *; tauto.
    + intros e He S. apply elem_of_app in He as [He|He]; [eauto|]. apply elem_of_list_singleton in He as ->. auto.
    + apply tr_ok_snoc; assumption.
  - intros e He S. destruct (H1 e He S); auto.
Qed.
Lemma precedes_snoc tr x t' k' bs' t k : precedes (tr ++ [x]) t' k' bs' t k -> precedes tr t' k' bs' t k \/ exists o, x = EvCall t k o.
Proof.
  intros (tr1 & tr2 & o & E & H1 & H2). destruct tr2 as [|y tr2 _] using rev_ind; [apply elem_of_nil in H2; destruct H2|].
  rewrite app_assoc in E. apply app_inj_tail in E as [E ->]. apply elem_of_app in H2 as [H2|H2].
  - left. exists tr1, tr2, o. auto.
  - apply elem_of_list_singleton in H2. right. eauto.
Qed.
Lemma precedes_ret tr t' k' bs' t k : precedes tr t' k' bs' t k -> EvRet t' k' (OSend bs') None ∈ tr.
Proof. intros (tr1 & tr2 & o & -> & H & _). apply elem_of_app. auto. Qed.
Lemma GF_evs s s' F torn x : GF s F torn -> mono s s' -> tr s' = tr s ++ evs x -> (forall b, x <> Some (EvByte b)) ->
  (forall t k bs, x = Some (EvRet t k (OSend bs) None) -> FSend t k bs ∈ F) -> (wio s' = false -> torn = [] \/ dead s') ->
  (forall t k o, x = Some (EvCall t k o) -> forall bs, FSend t k bs ∉ F) -> GF s' F torn.
Proof.
  intros [B P O N R C Q] (M1 & M2 & M3 & M4) E Hb Hr Hw Hc. assert (Es : sent (tr s') = sent (tr s)).
  { rewrite E. destruct x as [x|]; cbn [evs]; [|rewrite app_nil_r; reflexivity]. rewrite sent_snoc. destruct x; try apply app_nil_r. destruct (Hb b eq_refl). }
  constructor; [rewrite Es; exact B|exact P|exact Hw|exact N| | |]; rewrite E.
  - intros t k bs X. apply elem_of_app in X as [X|X]; [auto|]. destruct x as [x|]; cbn [evs] in X; [|apply elem_of_nil in X; destruct X]. apply elem_of_list_singleton in X. subst x. eapply Hr. reflexivity.
  - intros t k bs X. apply elem_of_app. auto.
  - intros F1 F2 t k bs t' k' bs' EF X. destruct x as [x|]; cbn [evs] in X; [|rewrite app_nil_r in X; eauto]. apply precedes_snoc in X as [X|[o X]]; [eauto|]. subst x. exfalso. eapply Hc; [reflexivity|]. rewrite EF. apply elem_of_app. right. left.
Qed.
(** Steps that write nothing. *)
Lemma keep s l t th s' th' new x : inv (WC s l) -> l !! t = Some th -> tr s' = tr s ++ evs x -> mono s s' ->
  (forall j k o, x = Some (EvCall j k o) -> j = t /\ forall F torn, T s F torn t th -> forall bs, FSend j k bs ∉ F) -> (forall b, x <> Some (EvByte b)) ->
  (forall y, x = Some y -> GS s l -> GT s -> (forall F torn, T s F torn t th -> okx (tr s) y) /\ (shut y -> closed s' = true) /\ (over y -> err s' <> None)) ->
  (GS s l -> (exists F torn, T s F torn t th) -> GS s' (<[t := th']> l ++ new)) ->
  (forall F torn, T s F torn t th -> GF s F torn -> GT s ->
     (forall t k bs, x = Some (EvRet t k (OSend bs) None) -> FSend t k bs ∈ F) /\ (wio s' = false -> torn = [] \/ dead s') /\
     T s' F torn t th' /\ forall j y, y ∈ new -> T s' F torn j y) ->
  inv (WC s' (<[t := th']> l ++ new)).
Proof.
  intros (IS & IT & F & torn & IF & II) Ht E M Hj Hb Hx HS HT. cbn [sh ths] in *. pose proof (II t th Ht) as It. destruct (HT F torn It IF IT) as (X1 & X2 & X3 & X4).
  split; [apply HS; eauto|]. split; [|exists F, torn; split].
  - eapply GT_evs; [exact IT|exact M|exact E|]. intros y Ey. destruct (Hx y Ey IS IT) as (Y1 & Y2 & Y3). split; [eapply Y1; exact It|]. split; assumption.
  - eapply GF_evs; try eassumption. intros j k o Ex. destruct (Hj j k o Ex) as [_ X]. eapply X. exact It.
  - apply (T_others s s' F F torn torn l t th th' new Ht); [intros j y _ Hy; apply II, Hy| |exact X3|exact X4].
    intros j y Hjt Hy. eapply grows_evs; [exact M|exact E|intros j' k o Ex; apply (Hj j' k o Ex)|exact Hjt|auto|auto|left; reflexivity].
Qed.

(** ** Writing frames *)
Inductive kx := KPong (bs : list Z) | KFrame | KSend (todo : list uop) (k : nat) (bs : list Z) | KClose (todo : list uop) (k : nat).
Definition plug (K : kx) (w : wwr) : wth :=
  match K with KPong bs => TRead (RPong bs w) | KFrame => TRead (RFrame w) | KSend todo k bs => TUser todo k (USend bs w) | KClose todo k => TUser todo k (UFrame w) end.
Definition org (t : nat) (K : kx) : origin := match K with KPong bs => FPong bs | KFrame => FClose | KSend _ k bs => FSend t k bs | KClose _ _ => FClose end.
Lemma plug_wr s F torn t K w : T s F torn t (plug K w) -> wr s F torn (org t K) w.
Proof. destruct K; cbn [plug T rp]; [tauto|tauto| |]; intros [H _ _ _ _]; cbn [up] in H; tauto. Qed.
Lemma replug s F torn s' F' torn' t K w w' : T s F torn t (plug K w) -> mono s s' -> (forall e, e ∈ tr s -> e ∈ tr s') -> (forall k o, EvCall t k o ∈ tr s' -> EvCall t k o ∈ tr s) -> (forall k, late t k (tr s') -> late t k (tr s)) ->
  (forall k bs, FSend t k bs ∈ F' -> FSend t k bs ∈ F \/ (exists r, w' = WwUnlock r) /\ FSend t k bs = org t K) -> (forall r, w = WwUnlock r -> False) ->
  wr s' F' torn' (org t K) w' -> T s' F' torn' t (plug K w').
Proof.
  intros H (M1 & M2 & M3 & M4) E1 E2 E3 HF Hw W. assert (Op : opened s -> opened s') by (intros X Y; apply E1, X, Y).
  destruct K as [bs| |todo k bs|todo k]; cbn [plug T rp org] in *; try tauto.
  - destruct H as [P C U R N]. cbn [up curop written] in *. constructor; cbn [up curop written].
    + split; [|exact W]. intros X. apply P, E3, X.
    + intros k' o X. apply C, E2, X.
    + intros o X. apply E1, U, X.
    + intros k' bs' X. apply HF in X as [X|[[r ->] X]].
      * apply R in X as [X|[-> X]]; [auto|]. destruct w; try discriminate X. destruct (Hw r eq_refl).
      * injection X as -> ->. right. auto.
    + exact N.
  - destruct H as [P C U R N]. cbn [up curop written] in *. constructor; cbn [up curop written].
    + split; [|exact W]. apply M2, P.
    + intros k' o X. apply C, E2, X.
    + intros o X. apply E1, U, X.
    + intros k' bs' X. apply HF in X as [X|[_ X]]; [exact (R k' bs' X)|discriminate X].
    + exact N.
Qed.
Lemma plug_sums K w w' : life (plug K w') = life (plug K w) /\ isnew (plug K w') = isnew (plug K w) /\ holdsM (plug K w') = holdsM (plug K w) /\ holdsW (plug K w) = wheld w /\
  before (plug K w') = before (plug K w) /\ early (plug K w') = early (plug K w) /\ iserr (plug K w') = iserr (plug K w) /\ forall m, ismsg m (plug K w') = ismsg m (plug K w) /\ istmsg m (plug K w') = istmsg m (plug K w).
Proof. destruct K; cbn; auto 20. Qed.
Definition plain_ev (x : option event) : Prop := match x with None | Some (EvByte _) => True | _ => False end.
Lemma plain_tr tr x : plain_ev x -> closes (tr ++ evs x) = closes tr /\ errors (tr ++ evs x) = errors tr /\ handed (tr ++ evs x) = handed tr /\ received (tr ++ evs x) = received tr.
Proof. destruct x as [[]|]; cbn [plain_ev evs]; intros H; try destruct H; rewrite ?closes_snoc, ?errors_snoc, ?handed_snoc, ?received_snoc, ?app_nil_r; auto. Qed.
Lemma GS_plug s s' l t K w w' x : GS s l -> l !! t = Some (plug K w) -> live s' = live s -> err s' = err s -> mux s' = mux s -> tr s' = tr s ++ evs x -> plain_ev x ->
  wheld w' - wheld w = (if wio s' then 1 else 0) - (if wio s then 1 else 0) -> GS s' (<[t := plug K w']> l).
Proof.
  intros [] Ht El Ee Em Et Hx Hw. destruct (plug_sums K w w') as (P1 & P2 & P3 & P4 & P5 & P6 & P7 & P8). destruct (plug_sums K w' w) as (_ & _ & _ & P4' & _). destruct (plain_tr (tr s) x Hx) as (Q1 & Q2 & Q3 & Q4).
  constructor; rewrite ?Et, ?El, ?Ee, ?Em, ?Q1, ?Q2.
  - rewrite (sumZ_insert _ _ _ _ _ Ht). lia.
  - intros H. rewrite (sumZ_insert _ _ _ _ _ Ht), g_new0 by exact H. lia.
  - rewrite (sumZ_insert _ _ _ _ _ Ht). lia.
  - rewrite (sumZ_insert _ _ _ _ _ Ht), P4, P4'. lia.
  - rewrite (sumZ_insert _ _ _ _ _ Ht). destruct hasClose; lia.
  - rewrite !(sumZ_insert _ _ _ _ _ Ht). destruct hasErr; lia.
  - intros m. specialize (g_msg0 m). destruct (P8 m) as [P9 P10]. rewrite Q3, Q4, !(sumZ_insert _ _ _ _ _ Ht), P9, P10. destruct hasMsg; lia.
  - intros H1 H2. rewrite (sumZ_insert _ _ _ _ _ Ht), g_noclose0 by assumption. lia.
Qed.
Lemma send_ids_app F G : send_ids (F ++ G) = send_ids F ++ send_ids G.
Proof. apply omap_app. Qed.
Lemma write_keep s l t K w s' w' : inv (WC s l) -> l !! t = Some (plug K w) -> write_step frame s (org t K) w = Some (s', inl w') -> inv (WC s' (<[t := plug K w']> l)).
Proof.
  intros (IS & IT & F & torn & IF & II) Ht. cbn [sh ths] in *. pose proof (II _ _ Ht) as It. pose proof (plug_wr _ _ _ _ _ _ It) as W.
  assert (Hold : forall j x, j <> t -> l !! j = Some x -> wheld w = 1 -> holdsW x = 0).
  { intros j x Hj Hx H. pose proof (sum2 holdsW l t j _ _ holdsW_nn ltac:(congruence) Ht Hx). destruct (plug_sums K w w) as (_ & _ & _ & P4 & _). pose proof (g_wio _ _ IS). pose proof (holdsW_nn x). destruct (wio s); lia. }
  assert (Wio : wheld w = 1 -> wio s = true).
  { intros H. pose proof (sumZ_lookup holdsW l t _ ltac:(intros; apply holdsW_nn) Ht). destruct (plug_sums K w w) as (_ & _ & _ & P4 & _). pose proof (g_wio _ _ IS). destruct (wio s); [reflexivity|lia]. }
  destruct w as [|[|b rest]|r]; cbn [write_step wr] in *.
  - destruct (wio s) eqn:Ew; [discriminate|]. intros E. injection E as <- <-. split; [|split; [|exists F, torn; split]]; cbn [sh ths].
    + eapply GS_plug with (x := None); try eassumption; try reflexivity; try exact I; [cbn [tr s_wio evs]; symmetry; apply app_nil_r|]. cbn [wio s_wio wheld]. rewrite Ew. reflexivity.
    + apply (GT_evs s _ None IT); [unfold mono; cbn; tauto|cbn [tr s_wio evs]; symmetry; apply app_nil_r|discriminate].
    + apply (GF_evs s _ F torn None IF); [unfold mono; cbn; tauto|cbn [tr s_wio evs]; symmetry; apply app_nil_r|discriminate|discriminate|discriminate|discriminate].
    + rewrite <- (app_nil_r (<[t := _]> l)). apply (T_others s _ F F torn torn l t _ _ [] Ht); [intros j y _ Hy; apply II, Hy| | |intros j y Hy; apply elem_of_nil in Hy; destruct Hy].
      * intros j y Hj Hy. apply (grows_evs s _ F F torn torn t j y None); auto; [unfold mono; cbn; tauto|cbn [tr s_wio evs]; symmetry; apply app_nil_r|discriminate].
      * eapply (replug s F torn _ F torn t K WwLock); [exact It|unfold mono; cbn; tauto|auto|auto|auto|auto|discriminate|]. cbn [wr]. destruct (g_torn _ _ _ IF Ew) as [->|D]; [left; reflexivity|right; split; [reflexivity|exact D]].
  - intros E. injection E as <- <-. destruct W as [W|[W _]]; [|destruct (frame_ne (org t K)); symmetry; exact W]. rewrite app_nil_r in W.
    split; [|split; [|exists (F ++ [org t K]), []; split]]; cbn [sh ths].
    + eapply GS_plug with (x := None); try eassumption; try reflexivity; try exact I; [cbn [evs]; symmetry; apply app_nil_r|]. cbn [wheld]. lia.
    + exact IT.
    + destruct IF as [B P O N R C Q]. constructor.
      * rewrite B, fmap_app, concat_app. cbn. rewrite !app_nil_r. rewrite W. reflexivity.
      * exists FClose. apply prefix_nil.
      * auto.
      * rewrite send_ids_app. apply NoDup_app. split; [exact N|]. split; [|destruct K; cbn; repeat constructor; try (intros X; apply elem_of_nil in X; exact X)].
        intros [t' k'] X Y. destruct K as [| |todo k bs|]; cbn in Y; try (apply elem_of_nil in Y; destruct Y). apply elem_of_list_singleton in Y. injection Y as -> ->.
        apply elem_of_list_omap in X as (o & Ho & Eo). destruct o as [t' k' bs'| |]; try discriminate. injection Eo as -> ->. cbn [plug T] in It. destruct It as [_ _ _ R' _]. apply R' in Ho as [Ho|[_ Ho]]; [lia|discriminate].
      * intros t' k' bs X. apply elem_of_app. left. eapply R. exact X.
      * intros t' k' bs X. apply elem_of_app in X as [X|X]; [eauto|]. apply elem_of_list_singleton in X. destruct K as [| |todo k bs'|]; try discriminate X. injection X as -> -> ->. cbn [plug T] in It. destruct It as [_ _ U _ _]. apply U. reflexivity.
      * intros F1 F2 t1 k1 bs1 t' k' bs' EF X. destruct F2 as [|z F2 _] using rev_ind.
        { apply app_inj_tail in EF as [<- _]. eapply R, precedes_ret, X. }
        rewrite app_comm_cons, app_assoc in EF. apply app_inj_tail in EF as [EF _]. eauto.
    + rewrite <- (app_nil_r (<[t := _]> l)). apply (T_others s _ F (F ++ [org t K]) torn [] l t _ _ [] Ht); [intros j y _ Hy; apply II, Hy| | |intros j y Hy; apply elem_of_nil in Hy; destruct Hy].
      * intros j y Hj Hy. apply (grows_evs s _ _ _ torn _ t j y None); auto; [unfold mono; cbn; tauto|cbn [evs]; symmetry; apply app_nil_r|discriminate|intros; apply elem_of_app; auto| |right; eapply Hold; eauto].
        intros k bs X. apply elem_of_app in X as [X|X]; [exact X|]. apply elem_of_list_singleton in X. destruct K; try discriminate X. injection X. congruence.
      * eapply (replug s F torn _ _ _ t K (WwBytes [])); [exact It|unfold mono; cbn; tauto|auto|auto|auto| |discriminate|].
        { intros k bs X. apply elem_of_app in X as [X|X]; [auto|]. apply elem_of_list_singleton in X. right. eauto. }
        cbn [wr]. split; [auto|]. split; [|discriminate]. intros _. apply elem_of_app. right. left.
  - destruct (closed s || broken s) eqn:D.
    + intros E. injection E as <- <-. assert (Dd : dead s) by (apply orb_true_iff in D; exact D).
      split; [|split; [|exists F, torn; split]]; cbn [sh ths]; [| exact IT|exact IF|].
      * eapply GS_plug with (x := None); try eassumption; try reflexivity; try exact I; [cbn [evs]; symmetry; apply app_nil_r|]. cbn [wheld]. lia.
      * rewrite <- (app_nil_r (<[t := _]> l)). apply (T_others s _ F F torn torn l t _ _ [] Ht); [intros j y _ Hy; apply II, Hy| | |intros j y Hy; apply elem_of_nil in Hy; destruct Hy].
        { intros j y Hj Hy. apply (grows_evs s _ F F torn torn t j y None); auto; [unfold mono; cbn; tauto|cbn [evs]; symmetry; apply app_nil_r|discriminate]. }
        eapply (replug s F torn _ F torn t K); [exact It|unfold mono; cbn; tauto|auto|auto|auto|auto|discriminate|]. cbn [wr]. split; [auto|]. split; [discriminate|]. intros e X. injection X as <-. discriminate.
    + intros E. injection E as <- <-. apply orb_false_iff in D as [Dc Db]. destruct W as [W|[_ [X|X]]]; [|congruence|congruence].
      assert (M : mono s (s_tr (EvByte b) s)) by (unfold mono; cbn; tauto). assert (Et : tr (s_tr (EvByte b) s) = tr s ++ evs (Some (EvByte b))) by reflexivity.
      split; [|split; [|exists F, (torn ++ [b]); split]]; cbn [sh ths].
      * eapply GS_plug with (x := Some (EvByte b)); try eassumption; try reflexivity. cbn [wheld wio s_tr]. lia.
      * apply (GT_evs s _ _ IT M Et). intros y Ey. injection Ey as <-. cbn [okx shut over]. split; [|tauto]. intros e He S. destruct (g_shut _ IT e He S). congruence.
      * destruct IF as [B P O N R C Q]. constructor.
        -- rewrite Et. cbn [evs]. rewrite sent_snoc, B. rewrite app_assoc. reflexivity.
        -- exists (org t K). exists rest. rewrite <- app_assoc. symmetry. exact W.
        -- cbn [wio s_tr]. intros X. rewrite Wio in X by reflexivity. discriminate.
        -- exact N.
        -- rewrite Et. intros t' k' bs X. apply elem_of_app in X as [X|X]; [eauto|]. apply elem_of_list_singleton in X. discriminate X.
        -- rewrite Et. intros t' k' bs X. apply elem_of_app. eauto.
        -- rewrite Et. intros F1 F2 t1 k1 bs1 t' k' bs' EF X. cbn [evs] in X. apply precedes_snoc in X as [X|[o X]]; [eauto|discriminate].
      * rewrite <- (app_nil_r (<[t := _]> l)). apply (T_others s _ F F torn (torn ++ [b]) l t _ _ [] Ht); [intros j y _ Hy; apply II, Hy| | |intros j y Hy; apply elem_of_nil in Hy; destruct Hy].
        { intros j y Hj Hy. apply (grows_evs s _ F F torn _ t j y (Some (EvByte b))); auto; [discriminate|right; eapply Hold; eauto]. }
        eapply (replug s F torn _ F _ t K); [exact It|exact M| | | |auto|discriminate|].
        { intros e He. rewrite Et. apply elem_of_app. auto. }
        { intros k o X. rewrite Et in X. apply elem_of_app in X as [X|X]; [exact X|]. apply elem_of_list_singleton in X. discriminate. }
        { intros k X. rewrite Et in X. apply late_snoc in X as [X|[[o X] _]]; [exact X|discriminate]. }
        cbn [wr]. left. rewrite <- app_assoc. exact W.
  - discriminate.
Qed.

(** ** The other steps *)
Lemma sumZ_nil {A} (f : A -> Z) : sumZ f [] = 0.
Proof. reflexivity. Qed.
Ltac gs Ht :=
  let IS := fresh in let m := fresh "m" in intros IS (? & ? & GIt); pose proof (sumZ_lookup life _ _ _ ltac:(intros; apply life_nn) Ht); pose proof (sumZ_lookup before _ _ _ ltac:(intros; apply before_nn) Ht);
  pose proof (sumZ_lookup early _ _ _ ltac:(intros; apply early_nn) Ht); pose proof (sumZ_lookup holdsM _ _ _ ltac:(intros; apply holdsM_nn) Ht); pose proof (sumZ_lookup holdsW _ _ _ ltac:(intros; apply holdsW_nn) Ht);
  pose proof (sumZ_lookup isnew _ _ _ ltac:(intros; apply isnew_nn) Ht);
  match type of Ht with ?l !! _ = _ => pose proof (sumZ_le before life l ltac:(intros; apply before_life)); pose proof (sumZ_le early before l ltac:(intros; apply early_before)) end;
  destruct IS as [Glife Gnew Gmux Gwio Gclose Gerr Gmsg Gno]; constructor; [| | | | | |intros m; specialize (Gmsg m)|];
  cbn [live err mux wio closed broken tr s_live s_err s_mux s_wio s_closed s_broken s_tr];
  rewrite ?(sums life _ _ _ _ _ Ht), ?(sums before _ _ _ _ _ Ht), ?(sums early _ _ _ _ _ Ht), ?(sums isnew _ _ _ _ _ Ht), ?(sums holdsM _ _ _ _ _ Ht), ?(sums holdsW _ _ _ _ _ Ht), ?(sums iserr _ _ _ _ _ Ht);
  try rewrite !(sums (ismsg m) _ _ _ _ _ Ht), !(sums (istmsg m) _ _ _ _ _ Ht);
  rewrite ?sumZ_cons, ?sumZ_nil, ?closes_snoc, ?errors_snoc, ?handed_snoc, ?received_snoc, ?app_nil_r, ?app_length, ?cnt_app, ?cnt_one, ?cnt_nil;
  cbn [life before early isnew holdsW holdsM iserr ismsg istmsg wheld length Nat.add] in *; unfold one in *;
  try (intros; lia); try (destruct hasClose; lia); try (destruct hasErr; lia); try (destruct hasMsg; lia); try (destruct (wio _); lia); try (destruct (mux _); lia); try (let N := fresh in intros N; pose proof (Gnew N); lia); try (let N := fresh in let E := fresh in intros N E; pose proof (Gno N E); lia).
Ltac mono := unfold mono; cbn [live err mux wio closed broken tr s_live s_err s_mux s_wio s_closed s_broken s_tr]; auto.

Lemma closes_in tr : EvClose ∈ tr -> 0 < Z.of_nat (length (closes tr)).
Proof. intros H. apply elem_of_list_split in H as (a & b & ->). unfold closes. rewrite omap_app, app_length. cbn. lia. Qed.
Lemma uinv_go s s' F torn t todo k p p' : uinv s F torn t todo k p -> tr s' = tr s -> curop p' = curop p -> (written p = true -> written p' = true) -> up s' F torn t k p' -> uinv s' F torn t todo k p'.
Proof.
  intros [P C U R N] E Ec Ew Up. constructor; rewrite ?E, ?Ec; auto. intros k' bs X. destruct (R k' bs X) as [Y|[Y1 Y2]]; auto.
Qed.
Lemma uinv_ret s s' F torn t todo k p o r : uinv s F torn t todo k p -> tr s' = tr s ++ [EvRet t k o r] -> uinv s' F torn t todo (S k) UIdle.
Proof.
  intros [P C U R N] E. constructor; rewrite ?E; [exact I| |discriminate| |].
  - intros k' o' X. apply elem_of_app in X as [X|X]; [|apply elem_of_list_singleton in X; discriminate]. apply C in X. lia.
  - intros k' bs X. apply R in X. lia.
  - intros H. split; [apply N, H|discriminate].
Qed.
Ltac nonew := let H := fresh in intros ? ? H; apply elem_of_nil in H; destruct H.
Ltac silent := cbn [tr s_live s_err s_mux s_wio s_closed s_broken evs]; symmetry; apply app_nil_r.
Lemma step_th s l t th i s' th' new : inv (WC s l) -> l !! t = Some th -> th_step frame hasOpen hasErr hasClose hasMsg s t th i = Some (s', th', new) -> inv (WC s' (<[t := th']> l ++ new)).
Proof.
  intros I Ht. destruct th as [| |p|m|e|todo k p|]; cbn [th_step]; [| | | | | |discriminate].
  - (* TNew *)
    intros E. injection E as <- <- <-. apply (keep s l t TNew _ TOpening [] (if hasOpen then Some EvOpen else None) I Ht).
    + destruct hasOpen; cbn [evs]; [reflexivity|symmetry; apply app_nil_r].
    + destruct hasOpen; mono.
    + destruct hasOpen; discriminate.
    + destruct hasOpen; discriminate.
    + intros y Ey _ _. destruct hasOpen; [injection Ey as <-|discriminate]. cbn. tauto.
    + destruct hasOpen; gs Ht.
    + intros F torn It IF IT. split; [destruct hasOpen; discriminate|]. split; [destruct hasOpen; apply (g_torn _ _ _ IF)|]. split; [destruct hasOpen; reflexivity|]. intros j y Hy. apply elem_of_nil in Hy. destruct Hy.
  - (* TOpening *)
    intros E. injection E as <- <- <-. apply (keep s l t TOpening _ TEnd [TRead (RTest None)] (if hasOpen then Some EvOpened else None) I Ht).
    + destruct hasOpen; cbn [evs]; [reflexivity|symmetry; apply app_nil_r].
    + destruct hasOpen; mono.
    + destruct hasOpen; discriminate.
    + destruct hasOpen; discriminate.
    + intros y Ey _ _. destruct hasOpen; [injection Ey as <-|discriminate]. cbn. tauto.
    + destruct hasOpen; gs Ht.
    + intros F torn It IF IT. split; [destruct hasOpen; discriminate|]. split; [destruct hasOpen; apply (g_torn _ _ _ IF)|]. split; [exact Logic.I|].
      intros j y Hy. apply elem_of_list_singleton in Hy as ->. cbn [T rp] in *. destruct hasOpen eqn:EO; cbn [live s_tr]; (split; [exact It|]); (split; [|reflexivity]); unfold opened; [|congruence]. intros _. cbn [tr s_tr]. apply elem_of_app. right. left.
  - (* TRead *)
    pose proof (proj1 I) as IS. cbn [sh ths] in IS. pose proof (sumZ_lookup life _ _ _ ltac:(intros; apply life_nn) Ht) as Hlife. pose proof (sumZ_lookup early _ _ _ ltac:(intros; apply early_nn) Ht) as Hearly.
    destruct p as [e| |bs w|e|m|e| |w| |].
    + destruct (err s) as [e'|] eqn:Ee; intros E; injection E as <- <- <-; (apply (keep _ _ _ _ _ _ _ None I Ht); [silent|mono|discriminate|discriminate|discriminate|gs Ht|]); intros F torn It IF IT; (split; [discriminate|]; split; [apply (g_torn _ _ _ IF)|]; split; [|nonew]); cbn [T rp] in *.
      * split; [tauto|]. split; [tauto|]. split; [congruence|]. intros N. pose proof (g_noclose _ _ IS N ltac:(congruence)). cbn [early] in Hearly. lia.
      * tauto.
    + destruct i as [m|c|bs]; intros E; injection E as <- <- <-.
      * apply (keep _ _ _ _ _ _ _ (Some (EvRecv m)) I Ht); [reflexivity|mono|discriminate|discriminate| |gs Ht|].
        -- intros y Ey _ _. injection Ey as <-. cbn [T okx shut over]. split; [|tauto]. intros F torn X. split; [apply X|]. intros Y. apply closes_in in Y. rewrite (g_close _ _ IS) in Y. cbn [life] in Hlife. destruct hasClose; lia.
        -- intros F torn It IF IT. split; [discriminate|]. split; [apply (g_torn _ _ _ IF)|]. split; [|nonew]. cbn [T rp] in *. split; [tauto|]. split; [|tauto]. intros X. cbn [tr s_tr]. apply elem_of_app. left. apply It, X.
      * apply (keep _ _ _ _ _ _ _ None I Ht); [silent|mono|discriminate|discriminate|discriminate|gs Ht|]. intros F torn It IF IT. split; [discriminate|]. split; [apply (g_torn _ _ _ IF)|]. split; [|nonew]. cbn [T rp] in *. split; [tauto|]. split; [tauto|discriminate].
      * apply (keep _ _ _ _ _ _ _ None I Ht); [silent|mono|discriminate|discriminate|discriminate|gs Ht|]. intros F torn It IF IT. split; [discriminate|]. split; [apply (g_torn _ _ _ IF)|]. split; [|nonew]. cbn [T rp wr] in *. tauto.
    + destruct (write_step frame s (FPong bs) w) as [[s1 [w1|r]]|] eqn:Ew; [| |discriminate].
      * intros E. injection E as <- <- <-. rewrite app_nil_r. exact (write_keep s l t (KPong bs) w s1 w1 I Ht Ew).
      * assert (w = WwUnlock r /\ s1 = s_wio false s) as [-> ->]. { destruct w as [|[|b z]|r']; cbn [write_step] in Ew; [destruct (wio s); discriminate|discriminate|destruct (_ || _); discriminate|]. injection Ew as <- <-. auto. }
        intros E. assert (E' : exists p, (s', th', new) = (s_wio false s, TRead p, []) /\ match r with None => p = RRecv | Some e => p = RSet e end) by (destruct r; injection E as <- <- <-; eauto). destruct E' as (p & E' & Hp). injection E' as -> -> ->. clear E.
        apply (keep _ _ _ _ _ _ _ None I Ht); [silent|mono|discriminate|discriminate|discriminate| |].
        -- destruct r; subst p; gs Ht.
        -- intros F torn It IF IT. split; [discriminate|]. cbn [T rp wr] in *. destruct It as (It1 & It2 & It3 & It4 & It5). split; [intros _; exact It3|]. split; [|nonew]. split; [tauto|]. split; [exact It2|]. destruct r; subst p; cbn [rp]; auto.
    + intros E. injection E as <- <- <-. apply (keep _ _ _ _ _ _ _ None I Ht); [silent|mono; intuition discriminate|discriminate|discriminate|discriminate|gs Ht|]. intros F torn It IF IT. split; [discriminate|]. split; [apply (g_torn _ _ _ IF)|]. split; [|nonew]. cbn [T rp] in *.
      split; [tauto|]. split; [tauto|]. split; [discriminate|]. intros _. destruct e as [|c]; [tauto|eauto].
    + intros E. injection E as <- <- <-. apply (keep _ _ _ _ _ _ _ None I Ht); [silent|mono|discriminate|discriminate|discriminate|destruct hasMsg eqn:EM; gs Ht|]. intros F torn It IF IT. split; [discriminate|]. split; [apply (g_torn _ _ _ IF)|]. cbn [T rp] in *. split; [tauto|].
      intros j y Hy. destruct hasMsg; [|apply elem_of_nil in Hy; destruct Hy]. apply elem_of_list_singleton in Hy as ->. cbn [T]. tauto.
    + intros E. injection E as <- <- <-. apply (keep _ _ _ _ _ _ _ None I Ht); [silent|mono|discriminate|discriminate|discriminate|destruct hasErr eqn:EM; gs Ht|]. intros F torn It IF IT. split; [discriminate|]. split; [apply (g_torn _ _ _ IF)|]. cbn [T rp] in *. split; [tauto|].
      intros j y Hy. destruct hasErr; [|apply elem_of_nil in Hy; destruct Hy]. apply elem_of_list_singleton in Hy as ->. cbn [T]. tauto.
    + destruct (proj2 (proj2 I)) as (F0 & torn0 & _ & II). pose proof (II _ _ Ht) as It0. cbn [T rp sh] in It0.
      intros E. injection E as <- <- <-. apply (keep _ _ _ _ _ _ _ None I Ht); [silent|mono; intuition discriminate|discriminate|discriminate|discriminate|gs Ht|].
      * intros N _. pose proof (Gno N (proj2 (proj2 It0))). lia.
      * intros F torn It IF IT. split; [discriminate|]. split; [apply (g_torn _ _ _ IF)|]. split; [|nonew]. cbn [T rp wr] in *. split; [tauto|]. split; [tauto|]. split; [discriminate|exact Logic.I].
    + destruct (write_step frame s FClose w) as [[s1 [w1|r]]|] eqn:Ew; [| |discriminate].
      * intros E. injection E as <- <- <-. rewrite app_nil_r. exact (write_keep s l t KFrame w s1 w1 I Ht Ew).
      * assert (w = WwUnlock r /\ s1 = s_wio false s) as [-> ->]. { destruct w as [|[|b z]|r']; cbn [write_step] in Ew; [destruct (wio s); discriminate|discriminate|destruct (_ || _); discriminate|]. injection Ew as <- <-. auto. }
        intros E. injection E as <- <- <-. apply (keep _ _ _ _ _ _ _ None I Ht); [silent|mono|discriminate|discriminate|discriminate|gs Ht|].
        intros F torn It IF IT. split; [discriminate|]. cbn [T rp wr] in *. destruct It as (It1 & It2 & It6 & It3 & It4 & It5). split; [intros _; exact It3|]. split; [|nonew]. split; [tauto|]. split; [exact It2|]. exact It6.
    + intros E. injection E as <- <- <-. apply (keep _ _ _ _ _ _ _ None I Ht); [silent|mono|discriminate|discriminate|discriminate|gs Ht|]. intros F torn It IF IT. split; [discriminate|]. split; [intros _; right; left; reflexivity|]. split; [|nonew]. cbn [T rp closed s_closed err] in *. tauto.
    + destruct (proj2 (proj2 I)) as (F0 & torn0 & _ & II). pose proof (II _ _ Ht) as It0. cbn [T rp sh] in It0.
      intros E. injection E as <- <- <-. apply (keep s l t _ _ TEnd [] (if hasClose then Some EvClose else None) I Ht).
      * destruct hasClose; cbn [evs]; [reflexivity|symmetry; apply app_nil_r].
      * destruct hasClose; mono.
      * destruct hasClose; discriminate.
      * destruct hasClose; discriminate.
      * intros y Ey _ _. destruct hasClose; [injection Ey as <-|discriminate]. cbn [T okx shut over closed err s_tr]. split; [intros F torn X; apply X|]. tauto.
      * destruct hasClose eqn:EC; gs Ht.
      * intros F torn It IF IT. split; [destruct hasClose; discriminate|]. split; [destruct hasClose; apply (g_torn _ _ _ IF)|]. split; [exact Logic.I|nonew].
  - (* TMsg *)
    intros E. injection E as <- <- <-. apply (keep s l t (TMsg m) _ TEnd [] (Some (EvMsg m)) I Ht); [reflexivity|mono|discriminate|discriminate| |gs Ht|].
    + intros y Ey _ _. injection Ey as <-. cbn [T okx shut over]. split; [|tauto]. intros F torn X. exact X.
    + intros F torn It IF IT. split; [discriminate|]. split; [apply (g_torn _ _ _ IF)|]. split; [exact Logic.I|]. intros j y Hy. apply elem_of_nil in Hy. destruct Hy.
  - (* TErr *)
    intros E. injection E as <- <- <-. destruct (proj2 (proj2 I)) as (F0 & torn0 & _ & II). pose proof (II _ _ Ht) as It0. cbn [T sh] in It0.
    apply (keep s l t (TErr e) _ TEnd [] (Some (EvErr e)) I Ht); [reflexivity|mono|discriminate|discriminate| |gs Ht|].
    + intros y Ey _ _. injection Ey as <-. cbn [T okx shut over]. split; [intros F torn X; split; apply X|]. split; [tauto|]. intros _. cbn [err s_tr]. apply It0.
    + intros F torn It IF IT. split; [discriminate|]. split; [apply (g_torn _ _ _ IF)|]. split; [exact Logic.I|]. intros j y Hy. apply elem_of_nil in Hy. destruct Hy.
  - (* TUser *)
    destruct p as [|bs|bs|bs w|bs r| |w|r|].
    + destruct todo as [|o todo]; [discriminate|]. destruct (live s) eqn:El; [|discriminate]. intros E. injection E as <- <- <-.
      apply (keep _ _ _ _ _ _ _ (Some (EvCall t k o)) I Ht); [reflexivity|mono| |discriminate| | |].
      * intros j k' o' X. injection X as <- <- <-. split; [reflexivity|]. intros F torn [_ _ _ R _] bs X. apply R in X as [X|[_ X]]; [lia|discriminate].
      * intros y Ey _ _. injection Ey as <-. cbn [okx shut over]. tauto.
      * destruct o; gs Ht.
      * intros F torn It IF IT. split; [discriminate|]. split; [apply (g_torn _ _ _ IF)|]. split; [|nonew]. cbn [T] in *. destruct It as [P C U R N]. constructor; cbn [tr s_tr].
        -- destruct o; exact Logic.I.
        -- intros k' o' X. apply elem_of_app in X as [X|X]; [apply C in X as [X|[_ X]]; [auto|discriminate]|]. apply elem_of_list_singleton in X. injection X as -> ->. right. split; [reflexivity|]. destruct o; reflexivity.
        -- intros o' X. assert (o' = o) as -> by (destruct o; cbn in X; congruence). apply elem_of_app. right. left.
        -- intros k' bs X. apply R in X as [X|[_ X]]; [auto|discriminate].
        -- intros H. destruct (N H) as [N1 _]. apply not_elem_of_cons in N1 as [N1 N2]. split; [exact N2|]. destruct o; cbn; congruence.
    + destruct (err s) as [e|] eqn:Ee; intros E; injection E as <- <- <-.
      * apply (keep _ _ _ _ _ _ _ (Some (EvRet t k (OSend bs) (Some e))) I Ht); [reflexivity|mono|discriminate|discriminate| |gs Ht|].
        -- intros y Ey _ _. injection Ey as <-. cbn [okx shut over]. split; [discriminate|tauto].
        -- intros F torn It IF IT. split; [discriminate|]. split; [apply (g_torn _ _ _ IF)|]. split; [|nonew]. eapply uinv_ret; [exact It|reflexivity].
      * apply (keep _ _ _ _ _ _ _ None I Ht); [silent|mono|discriminate|discriminate|discriminate|gs Ht|]. intros F torn It IF IT. split; [discriminate|]. split; [apply (g_torn _ _ _ IF)|]. split; [|nonew]. eapply uinv_go; [exact It|reflexivity|reflexivity|auto|]. cbn [up].
        intros L. apply late_over in L as (x & Hx & Ho). exact (g_over _ IT x Hx Ho Ee).
    + destruct (mux s) eqn:Em; [discriminate|]. intros E. injection E as <- <- <-. apply (keep _ _ _ _ _ _ _ None I Ht); [silent|mono|discriminate|discriminate|discriminate|gs Ht|].
      * intros F torn It IF IT. split; [discriminate|]. split; [apply (g_torn _ _ _ IF)|]. split; [|nonew]. eapply uinv_go; [exact It|reflexivity|reflexivity|auto|]. cbn [T] in It. destruct It as [P _ _ _ _]. cbn [up wr tr s_mux] in *. auto.
    + destruct (write_step frame s (FSend t k bs) w) as [[s1 [w1|r]]|] eqn:Ew; [| |discriminate].
      * intros E. injection E as <- <- <-. rewrite app_nil_r. exact (write_keep s l t (KSend todo k bs) w s1 w1 I Ht Ew).
      * assert (w = WwUnlock r /\ s1 = s_wio false s) as [-> ->]. { destruct w as [|[|b z]|r']; cbn [write_step] in Ew; [destruct (wio s); discriminate|discriminate|destruct (_ || _); discriminate|]. injection Ew as <- <-. auto. }
        intros E. injection E as <- <- <-. apply (keep _ _ _ _ _ _ _ None I Ht); [silent|mono|discriminate|discriminate|discriminate|gs Ht|].
        intros F torn It IF IT. split; [discriminate|]. cbn [T] in *. pose proof It as [P _ _ _ _]. cbn [up wr] in P. split; [intros _; apply P|]. split; [|nonew]. eapply uinv_go; [exact It|reflexivity|reflexivity|auto|]. cbn [up]. tauto.
    + intros E. injection E as <- <- <-. apply (keep _ _ _ _ _ _ _ (Some (EvRet t k (OSend bs) r)) I Ht); [reflexivity|mono|discriminate|discriminate| |gs Ht|].
      * intros y Ey _ _. injection Ey as <-. cbn [okx shut over]. split; [|tauto]. intros F torn [[P _] _ _ _ _] _ L. destruct (P L).
      * intros F torn It IF IT. cbn [T] in *. pose proof It as [P _ _ _ _]. cbn [up] in P. split; [intros t' k' bs' X; injection X as -> -> -> ->; apply P; reflexivity|]. split; [apply (g_torn _ _ _ IF)|]. split; [|nonew]. eapply uinv_ret; [exact It|reflexivity].
    + destruct (proj2 (proj2 I)) as (F0 & torn0 & _ & II). pose proof (II _ _ Ht) as It0. cbn [T sh] in It0. destruct It0 as [_ _ _ _ N0].
      intros E. injection E as <- <- <-. apply (keep _ _ _ _ _ _ _ None I Ht); [silent|mono; intuition discriminate|discriminate|discriminate|discriminate|gs Ht|].
      * intros N _. destruct (N0 N) as [_ X]. destruct X. reflexivity.
      * intros F torn It IF IT. split; [discriminate|]. split; [apply (g_torn _ _ _ IF)|]. split; [|nonew]. eapply uinv_go; [exact It|reflexivity|reflexivity|auto|]. cbn [up wr err s_err]. split; [discriminate|exact Logic.I].
    + destruct (write_step frame s FClose w) as [[s1 [w1|r]]|] eqn:Ew; [| |discriminate].
      * intros E. injection E as <- <- <-. rewrite app_nil_r. exact (write_keep s l t (KClose todo k) w s1 w1 I Ht Ew).
      * assert (w = WwUnlock r /\ s1 = s_wio false s) as [-> ->]. { destruct w as [|[|b z]|r']; cbn [write_step] in Ew; [destruct (wio s); discriminate|discriminate|destruct (_ || _); discriminate|]. injection Ew as <- <-. auto. }
        intros E. injection E as <- <- <-. apply (keep _ _ _ _ _ _ _ None I Ht); [silent|mono|discriminate|discriminate|discriminate|gs Ht|].
        intros F torn It IF IT. split; [discriminate|]. cbn [T] in *. pose proof It as [P _ _ _ _]. cbn [up wr] in P. split; [intros _; apply P|]. split; [|nonew]. eapply uinv_go; [exact It|reflexivity|reflexivity|auto|]. cbn [up]. tauto.
    + destruct (proj2 (proj2 I)) as (F0 & torn0 & _ & II). pose proof (II _ _ Ht) as It0. cbn [T sh] in It0. destruct It0 as [P0 _ _ _ _]. cbn [up] in P0.
      intros E. injection E as <- <- <-. eapply (keep _ _ _ _ _ _ _ (Some _) I Ht); [reflexivity|mono|discriminate|discriminate| |gs Ht|].
      * intros y Ey _ _. injection Ey as <-. cbn [okx shut over closed s_closed s_tr err]. split; [congruence|]. auto.
      * intros F torn It IF IT. split; [discriminate|]. split; [intros _; right; left; reflexivity|]. split; [|nonew]. eapply uinv_ret; [exact It|reflexivity].
    + intros E. injection E as <- <- <-. apply (keep _ _ _ _ _ _ _ (Some (EvRet t k OError (err s))) I Ht); [reflexivity|mono|discriminate|discriminate| |gs Ht|].
      * intros y Ey _ IT. injection Ey as <-. cbn [okx shut over]. split; [|tauto]. intros F torn _ _ L. apply late_over in L as (x & Hx & Ho). exact (g_over _ IT x Hx Ho).
      * intros F torn It IF IT. split; [discriminate|]. split; [apply (g_torn _ _ _ IF)|]. split; [|nonew]. eapply uinv_ret; [exact It|reflexivity].
Qed.
Lemma inv_run evs0 : inv (ws_run frame hasOpen hasErr hasClose hasMsg (ws_init progs) evs0).
Proof.
  unfold ws_run. assert (H : forall c, inv c -> inv (foldl (ws_step frame hasOpen hasErr hasClose hasMsg) c evs0)); [|apply H, inv_init].
  induction evs0 as [|e evs0 IH]; intros c Hc; [exact Hc|]. cbn [foldl]. apply IH. destruct e as [t i|]; cbn [ws_step].
  - destruct (ths c !! t) as [th|] eqn:Ht; [|exact Hc]. destruct (th_step _ _ _ _ _ (sh c) t th i) as [[[s th'] new]|] eqn:Es; [|exact Hc]. destruct c as [s0 l0]. cbn [sh ths] in *. eapply step_th; [exact Hc|exact Ht|exact Es].
  - destruct Hc as (IS & IT & F & torn & IF & II). split; [destruct IS; constructor; assumption|]. split; [destruct IT; constructor; assumption|]. exists F, torn. cbn [sh ths]. split.
    + destruct IF as [B P O N R C Q]. constructor; auto. intros _. right. right. reflexivity.
    + intros t th Ht. eapply T_mono; [|apply II, Ht]. constructor; cbn [live err closed broken tr s_broken]; auto.
Qed.

(** ** When nothing more can happen *)
Lemma write_waits s o w : write_step frame s o w = None -> w = WwLock /\ wio s = true.
Proof. destruct w as [|[|b r]|r]; cbn [write_step]; [destruct (wio s); [auto|discriminate]|discriminate|destruct (_ || _); discriminate|discriminate]. Qed.
Lemma sumZ_pos {A} (f : A -> Z) l : 0 < sumZ f l -> exists i x, l !! i = Some x /\ 0 < f x.
Proof.
  induction l as [|y l IH]; [cbn; lia|]. rewrite sumZ_cons. intros H. destruct (decide (0 < f y)) as [Hy|Hy]; [exists 0%nat, y; auto|]. destruct IH as (i & x & Hi & Hx); [lia|]. exists (S i), x. auto.
Qed.
Lemma quiet_done c : inv c -> quiet frame hasOpen hasErr hasClose hasMsg c -> forall t th, ths c !! t = Some th -> th = TEnd \/ exists k, th = TUser [] k UIdle.
Proof.
  intros (IS & IT & F & torn & IF & II) Q. set (s := sh c) in *.
  assert (Wio : wio s = false).
  { destruct (wio s) eqn:Ew; [|reflexivity]. pose proof (g_wio _ _ IS) as H. rewrite Ew in H. destruct (sumZ_pos holdsW (ths c) ltac:(lia)) as (t & th & Ht & Hh). pose proof (Q t th (IMsg []) Ht) as Qt. fold s in Qt.
    destruct th as [| |p| | |todo k p|]; cbn [holdsW] in Hh; try lia; destruct p; cbn [holdsW] in Hh; try lia; cbn [th_step] in Qt;
      match type of Qt with context [write_step frame s ?o ?w] => destruct (write_step frame s o w) as [[? [?|[?|]]]|] eqn:X; try discriminate Qt; apply write_waits in X as [-> _]; cbn [wheld] in Hh; lia end. }
  assert (Mux : mux s = false).
  { destruct (mux s) eqn:Ew; [|reflexivity]. pose proof (g_mux _ _ IS) as H. rewrite Ew in H. destruct (sumZ_pos holdsM (ths c) ltac:(lia)) as (t & th & Ht & Hh). pose proof (Q t th (IMsg []) Ht) as Qt. fold s in Qt.
    destruct th as [| |p| | |todo k p|]; cbn [holdsM] in Hh; try lia; destruct p; cbn [holdsM] in Hh; try lia; cbn [th_step] in Qt; [|discriminate Qt].
    destruct (write_step frame s (FSend t k bs) w) as [[? [?|?]]|] eqn:X; try discriminate Qt. apply write_waits in X as [_ X]. congruence. }
  assert (Live : live s = true).
  { destruct (live s) eqn:El; [reflexivity|]. pose proof (g_new _ _ IS El) as H. destruct (sumZ_pos isnew (ths c) ltac:(lia)) as (t & th & Ht & Hh). pose proof (Q t th (IMsg []) Ht) as Qt. destruct th; cbn [isnew] in Hh; try lia. discriminate Qt. }
  intros t th Ht. pose proof (Q t th (IMsg []) Ht) as Qt. fold s in Qt. destruct th as [| |p|m|e|todo k p|]; cbn [th_step] in Qt; try discriminate Qt; [| |auto].
  - exfalso. destruct p; cbn in Qt; try discriminate Qt; try (destruct (err s); discriminate Qt);
      match type of Qt with context [write_step frame s ?o ?w] => destruct (write_step frame s o w) as [[? [?|[?|]]]|] eqn:X; try discriminate Qt; apply write_waits in X as [_ X]; congruence end.
  - right. destruct p; cbn in Qt; try discriminate Qt.
    + destruct todo as [|o todo]; [eauto|]. rewrite Live in Qt. discriminate Qt.
    + destruct (err s); discriminate Qt.
    + rewrite Mux in Qt. discriminate Qt.
    + exfalso. destruct (write_step frame s (FSend t k bs) w) as [[? [?|?]]|] eqn:X; try discriminate Qt. apply write_waits in X as [_ X]. congruence.
    + exfalso. destruct (write_step frame s FClose w) as [[? [?|?]]|] eqn:X; try discriminate Qt. apply write_waits in X as [_ X]. congruence.
Qed.
Lemma quiet_sum c (f : wth -> Z) : inv c -> quiet frame hasOpen hasErr hasClose hasMsg c -> f TEnd = 0 -> (forall k, f (TUser [] k UIdle) = 0) -> sumZ f (ths c) = 0.
Proof. intros I Q H1 H2. apply sumZ_zero. intros x Hx. apply elem_of_list_lookup in Hx as [t Ht]. destruct (quiet_done c I Q t x Ht) as [->|[k ->]]; auto. Qed.
End inv.

Lemma write_one frame s o w s' r : write_step frame s o w = Some (s', r) -> exists x, tr s' = tr s ++ x /\ (length x <= 1)%nat.
Proof.
  destruct w as [|[|b z]|q]; cbn [write_step]; [destruct (wio s); [discriminate|]| |destruct (_ || _)|]; intros E; injection E as <- <-; try (exists []; split; [symmetry; apply app_nil_r|cbn; lia]).
  exists [EvByte b]. split; [reflexivity|cbn; lia].
Qed.
Lemma one_event frame ho he hc hm c e : exists x, tr (sh (ws_step frame ho he hc hm c e)) = tr (sh c) ++ x /\ (length x <= 1)%nat.
Proof.
  assert (N : forall t, exists x : list event, t = t ++ x /\ (length x <= 1)%nat) by (intros t; exists []; rewrite app_nil_r; split; [reflexivity|cbn; lia]).
  assert (O : forall t (y : event), exists x, t ++ [y] = t ++ x /\ (length x <= 1)%nat) by (intros t y; exists [y]; split; [reflexivity|cbn; lia]).
  destruct e as [t i|]; cbn [ws_step]; [|apply N]. destruct (ths c !! t) as [th|]; [|apply N]. destruct (th_step _ _ _ _ _ (sh c) t th i) as [[[s th'] new]|] eqn:E; [|apply N]. cbn [sh]. set (s0 := sh c) in *. clearbody s0. clear c.
  destruct th as [| |p|m|x|todo k p|]; cbn [th_step] in E; [destruct ho|destruct ho|destruct p|..]; try discriminate E; try (injection E as <- <- <-; first [apply O|apply N]).
  - destruct (err s0); injection E as <- <- <-; apply N.
  - destruct i; injection E as <- <- <-; first [apply O|apply N].
  - destruct (write_step frame s0 (FPong bs) w) as [[s1 [w1|[r|]]]|] eqn:W; [| | |discriminate]; injection E as <- <- <-; eapply write_one; exact W.
  - destruct (write_step frame s0 FClose w) as [[s1 [w1|r]]|] eqn:W; [| |discriminate]; injection E as <- <- <-; eapply write_one; exact W.
  - destruct hc; injection E as <- <- <-; first [apply O|apply N].
  - destruct p; try (injection E as <- <- <-; first [apply O|apply N]).
    + destruct todo; [discriminate|]. destruct (live s0); [|discriminate]. injection E as <- <- <-. apply O.
    + destruct (err s0); injection E as <- <- <-; first [apply O|apply N].
    + destruct (mux s0); [discriminate|]. injection E as <- <- <-. apply N.
    + destruct (write_step frame s0 (FSend t k bs) w) as [[s1 [w1|r]]|] eqn:W; [| |discriminate]; injection E as <- <- <-; eapply write_one; exact W.
    + destruct (write_step frame s0 FClose w) as [[s1 [w1|r]]|] eqn:W; [| |discriminate]; injection E as <- <- <-; eapply write_one; exact W.
Qed.
