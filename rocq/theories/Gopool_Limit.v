(** The gopool model when only Go is used: how many functions run at once, and where each submitted function is. *)
From stdpp Require Import list.
From Coq Require Import ZArith Lia ZifyBool.
From Verif Require Import Conc Gopool_Model Gopool_Spec Fastio_Proofs Gopool_Proofs.
Local Open Scope Z_scope.

Lemma one_true P `{Decision P} : P -> one P = 1.
Proof. intros. unfold one. rewrite decide_True by assumption. reflexivity. Qed.

Section pool.
Context (min max lim : Z).
(** The steps that can happen then. *)
Inductive ostep (s : gshared) : gth -> gshared -> gth -> list gth -> Prop :=
| o_idle t todo k : ostep s (GClient t (AGo :: todo) k CIdle) s (GClient t todo (S k) (CTest (t, k))) []
| o_test t todo k f : ostep s (GClient t todo k (CTest f)) s (GClient t todo k (CSend f)) []
| o_send t todo k f : Z.of_nat (length (fq s)) < lim -> ostep s (GClient t todo k (CSend f)) (s_fq (fq s ++ [f]) s) (GClient t todo k CInc) []
| o_inc t todo k : ostep s (GClient t todo k CInc) (s_tnum (gtnum s + 1) s) (GClient t todo k CTry) []
| o_try1 t todo k : gmux s = true -> ostep s (GClient t todo k CTry) s (GClient t todo k CIdle) []
| o_try2 t todo k : gmux s = false -> ostep s (GClient t todo k CTry) (s_mux true s) (GClient t todo k CIdle) [GDisp DRecv]
| o_recv f q : fq s = f :: q -> ostep s (GDisp DRecv) (s_fq q s) (GDisp (DTest f)) []
| o_dtest f : ostep s (GDisp (DTest f)) s (GDisp (DCount f)) []
| o_count1 f : min < gcount s + 1 <= max -> ostep s (GDisp (DCount f)) (s_count (gcount s + 1) s) (GDisp (DNew f)) []
| o_count2 f : ostep s (GDisp (DCount f)) (s_count (gcount s + 1) s) (GDisp (DId f)) []
| o_new f : ostep s (GDisp (DNew f)) (s_gid (gid s + 1) (s_ws (gws s ++ [GW (gid s + 1) None false]) s)) (GDisp (DAdd f (length (gws s)))) []
| o_id1 f : min < gid s -> ostep s (GDisp (DId f)) s (GDisp (DPool f)) []
| o_id2 f : gid s <= min -> ostep s (GDisp (DId f)) s (GDisp (DId2 f)) []
| o_idnew f : gid s + 1 <= min ->
    ostep s (GDisp (DId2 f)) (s_gid (gid s + 1) (s_ws (gws s ++ [GW (gid s + 1) None false]) s)) (GDisp (DAdd f (length (gws s)))) []
| o_idpool f : min < gid s + 1 -> ostep s (GDisp (DId2 f)) (s_gid (gid s + 1) s) (GDisp (DPool f)) []
| o_pool f w q : pq s = w :: q -> ostep s (GDisp (DPool f)) (s_pq q s) (GDisp (DAdd f w)) []
| o_add f w x : gws s !! w = Some x -> wtask x = None ->
    ostep s (GDisp (DAdd f w)) (s_ws (<[w := GW (wid x) (Some f) (wonce x)]> (gws s)) s) (GDisp (DOnce w)) []
| o_once1 w x : gws s !! w = Some x -> wonce x = true -> ostep s (GDisp (DOnce w)) s (GDisp DDec) []
| o_once2 w x : gws s !! w = Some x -> wonce x = false ->
    ostep s (GDisp (DOnce w)) (s_ws (<[w := GW (wid x) (wtask x) true]> (gws s)) s) (GDisp DDec) [GRun w RSel]
| o_dec1 : gtnum s - 1 <= 0 -> ostep s (GDisp DDec) (s_tnum (gtnum s - 1) s) (GDisp DCheck) []
| o_dec2 : 0 < gtnum s - 1 -> ostep s (GDisp DDec) (s_tnum (gtnum s - 1) s) (GDisp DRecv) []
| o_check1 : 0 < gtnum s -> ostep s (GDisp DCheck) s (GDisp DRecv) []
| o_check2 : gtnum s <= 0 -> ostep s (GDisp DCheck) s (GDisp DUnlock) []
| o_unlock : ostep s (GDisp DUnlock) (s_mux false s) GEnd []
| o_sel w x f : gws s !! w = Some x -> wtask x = Some f ->
    ostep s (GRun w RSel) (s_ws (<[w := GW (wid x) None (wonce x)]> (gws s)) s) (GRun w (RCall f)) []
| o_call w x f : gws s !! w = Some x -> ostep s (GRun w (RCall f)) (s_start (gstart s ++ [f]) s) (GRun w RBody) []
| o_body w x d : gws s !! w = Some x -> ostep s (GRun w RBody) s (GRun w (RPut d)) []
| o_put w x d : gws s !! w = Some x -> ostep s (GRun w (RPut d)) (s_count (gcount s - 1) s) (GRun w (RPut2 d)) []
| o_put2 w x d : gws s !! w = Some x -> wid x <= min -> ostep s (GRun w (RPut2 d)) s (GRun w (RPut3 d)) []
| o_put2e w x d : gws s !! w = Some x -> min < wid x -> ostep s (GRun w (RPut2 d)) s GEnd []
| o_put3 w x d : gws s !! w = Some x -> Z.of_nat (length (pq s)) < min -> ostep s (GRun w (RPut3 d)) (s_pq (pq s ++ [w]) s) (GRun w RSel) [].

Definition off (s : gshared) : Prop :=
  fqc s = false /\ pqc s = false /\ gclose s = false /\ gflag s = false /\ gctx s = false /\ gcrash s = false.
Definition thr (progs : list (list gact)) (th : gth) : Prop :=
  match th with
  | GClient t todo k p => (exists full, progs !! t = Some full /\ todo = drop k full) /\
      match p with
      | CIdle | CInc | CTry => True
      | CTest f | CSend f => f.1 = t /\ S f.2 = k
      | _ => False
      end
  | GDisp _ | GRun _ _ | GEnd => True
  | _ => False
  end.
Lemma gstep_ostep progs s th ch s' th' new : only_go progs -> off s -> thr progs th -> gstep min max lim s th ch = Some (s', th', new) ->
  ostep s th s' th' new.
Proof.
  intros Hgo (H1 & H2 & H3 & H4 & H5 & H6) Ht Hs. destruct th as [t todo k p|p|w p|g| | |]; cbn [gstep thr] in *; try contradiction; try discriminate.
  - destruct Ht as [(full & Hfull & Hd) Hp]. destruct p as [|g|g| | | | | | | |b|b]; try contradiction.
    + destruct todo as [|a todo]; [discriminate|].
      assert (a = AGo) as ->.
      { apply (Hgo full a); [exact (elem_of_list_lookup_2 _ _ _ Hfull)|]. apply (elem_of_list_lookup_2 _ k).
        rewrite <- (Nat.add_0_r k), <- lookup_drop, <- Hd. reflexivity. }
      injection Hs as <- <- <-. constructor.
    + rewrite H3 in Hs. injection Hs as <- <- <-. constructor.
    + rewrite H1 in Hs. destruct (_ <? lim) eqn:E; [|discriminate]. injection Hs as <- <- <-. constructor. lia.
    + injection Hs as <- <- <-. constructor.
    + destruct (gmux s) eqn:E; injection Hs as <- <- <-; constructor; exact E.
  - destruct p as [|g|g|g|g|g|g|g w|w| | |].
    + rewrite H1 in Hs. destruct (fq s) eqn:E; [discriminate|]. injection Hs as <- <- <-. constructor. exact E.
    + rewrite H3 in Hs. injection Hs as <- <- <-. constructor.
    + destruct (_ && _) eqn:E; injection Hs as <- <- <-; constructor. lia.
    + injection Hs as <- <- <-. constructor.
    + destruct (min <? gid s) eqn:E; injection Hs as <- <- <-; constructor; lia.
    + destruct (_ <=? min) eqn:E; injection Hs as <- <- <-; constructor; lia.
    + rewrite H2 in Hs. destruct (pq s) eqn:E; [discriminate|]. injection Hs as <- <- <-. constructor. exact E.
    + destruct (gws s !! w) as [x|] eqn:Hx; [|discriminate]. destruct (wtask x) eqn:Hw; [discriminate|]. injection Hs as <- <- <-. constructor; assumption.
    + destruct (gws s !! w) as [x|] eqn:Hx; [|discriminate]. destruct (wonce x) eqn:Hw; injection Hs as <- <- <-; econstructor; eassumption.
    + destruct (_ <=? 0) eqn:E; injection Hs as <- <- <-; constructor; lia.
    + destruct (0 <? gtnum s) eqn:E; injection Hs as <- <- <-; constructor; lia.
    + injection Hs as <- <- <-. constructor.
  - destruct (gws s !! w) as [x|] eqn:Hx; [|discriminate]. rewrite ?H5, ?H4, ?H2 in Hs. destruct p as [|g| |d|d|d]; cbn [andb negb] in Hs.
    + destruct (wtask x) eqn:Hw; [|discriminate]. injection Hs as <- <- <-. econstructor; eassumption.
    + injection Hs as <- <- <-. econstructor; eassumption.
    + injection Hs as <- <- <-. econstructor; eassumption.
    + injection Hs as <- <- <-. econstructor; eassumption.
    + destruct (wid x <=? min) eqn:E; injection Hs as <- <- <-; econstructor; try eassumption; lia.
    + destruct (_ <? min) eqn:E; [|discriminate]. injection Hs as <- <- <-. econstructor; try eassumption. lia.
Qed.

(** ** What goroutines and workers contribute *)
Definition isdisp (th : gth) : Z := match th with GDisp _ => 1 | _ => 0 end.
Definition tn (th : gth) : Z :=
  match th with
  | GClient _ _ _ CInc => -1
  | GDisp (DTest _ | DCount _ | DNew _ | DId _ | DId2 _ | DPool _ | DAdd _ _ | DOnce _ | DDec) => 1
  | _ => 0
  end.
Definition cT (th : gth) : Z :=
  match th with
  | GDisp (DNew _ | DId _ | DId2 _ | DPool _ | DAdd _ _) | GRun _ (RCall _ | RBody | RPut _) => 1
  | _ => 0
  end.
Definition filled (x : gworker) : Z := match wtask x with Some _ => 1 | None => 0 end.
Definition ftemp (x : gworker) : Z := match wtask x with Some _ => one (min < wid x) | None => 0 end.
Definition temp (ws : list gworker) (w : nat) : Z := match ws !! w with Some x => one (min < wid x) | None => 0 end.
Definition tT (ws : list gworker) (th : gth) : Z :=
  match th with
  | GDisp (DNew _) => 1
  | GDisp (DAdd _ w) | GRun w (RCall _ | RBody | RPut _) => temp ws w
  | _ => 0
  end.
Definition place (w : nat) (th : gth) : Z :=
  match th with
  | GDisp (DAdd _ v) | GRun v (RCall _ | RBody | RPut _ | RPut2 _ | RPut3 _) => one (v = w)
  | _ => 0
  end.
Definition cntn (w : nat) (l : list nat) : Z := sumZ (fun v => one (v = w)) l.
Definition fillw (w : nat) (ws : list gworker) : Z := match ws !! w with Some x => filled x | None => 0 end.
Definition wof (th : gth) : option nat := match th with GDisp (DAdd _ w | DOnce w) | GRun w _ => Some w | _ => None end.
Lemma place_nonneg w th : 0 <= place w th.
Proof. destruct th as [| []|v []| | | |]; cbn; try lia; apply one_nonneg. Qed.
Lemma cT_nonneg th : 0 <= cT th.
Proof. destruct th as [| []|v []| | | |]; cbn; lia. Qed.
Lemma temp_range ws w : 0 <= temp ws w <= 1.
Proof. unfold temp. destruct (ws !! w); [|lia]. split; [apply one_nonneg|apply one_le]. Qed.
Lemma tT_cT ws th : tT ws th <= cT th.
Proof. destruct th as [| []|v []| | | |]; cbn; try lia; apply temp_range. Qed.
Lemma ftemp_filled x : ftemp x <= filled x.
Proof. unfold ftemp, filled. destruct (wtask x); [apply one_le|lia]. Qed.
Lemma cntn_nonneg w l : 0 <= cntn w l.
Proof. apply sumZ_nonneg. intros. apply one_nonneg. Qed.
Lemma cntn_elem w l : w ∈ l -> 1 <= cntn w l.
Proof.
  induction l as [|x l IH]; intros Hin; [exfalso; revert Hin; apply not_elem_of_nil|]. unfold cntn in *. rewrite sumZ_cons. apply elem_of_cons in Hin as [<-|Hin].
  - pose proof (cntn_nonneg w l). unfold cntn in *. unfold one at 1. rewrite decide_True by reflexivity. lia.
  - specialize (IH Hin). pose proof (one_nonneg (x = w)). lia.
Qed.
Lemma fillw_nonneg w ws : 0 <= fillw w ws.
Proof. unfold fillw, filled. destruct (ws !! w) as [x|]; [destruct (wtask x)|]; lia. Qed.
Definition placetot (w : nat) (c : gconf) : Z := sumZ (place w) (gths c) + cntn w (pq (gsh c)) + fillw w (gws (gsh c)).

Record ginv (progs : list (list gact)) (c : gconf) : Prop := {
  g_off : off (gsh c);
  g_thr : forall i th, gths c !! i = Some th -> thr progs th;
  g_wf : forall i th w, gths c !! i = Some th -> wof th = Some w -> (w < length (gws (gsh c)))%nat;
  g_pq : forall w, w ∈ pq (gsh c) -> exists x, gws (gsh c) !! w = Some x /\ wid x <= min /\ wonce x = true;
  g_mux : (if gmux (gsh c) then 1 else 0) = sumZ isdisp (gths c);
  g_tnum : gtnum (gsh c) = Z.of_nat (length (fq (gsh c))) + sumZ tn (gths c);
  g_count : gcount (gsh c) = sumZ cT (gths c) + sumZ filled (gws (gsh c));
  g_temp : sumZ (tT (gws (gsh c))) (gths c) + sumZ ftemp (gws (gsh c)) <= max;
  g_gid : 0 <= gid (gsh c);
  g_ids : NoDup (wid <$> gws (gsh c)) /\ forall w x, gws (gsh c) !! w = Some x -> 1 <= wid x <= gid (gsh c);
  g_all : forall i, 1 <= i <= gid (gsh c) -> i <= min -> exists w x, gws (gsh c) !! w = Some x /\ wid x = i;
  g_place : forall w, placetot w c <= 1;
  g_perm : forall w x, gws (gsh c) !! w = Some x -> wid x <= min -> placetot w c = 1;
  g_add : forall i f w x, gths c !! i = Some (GDisp (DAdd f w)) -> gws (gsh c) !! w = Some x -> wid x <= min \/ wonce x = false;
  g_pool : forall i f, gths c !! i = Some (GDisp (DPool f)) -> min < gid (gsh c);
  g_once : forall w x, gws (gsh c) !! w = Some x -> wonce x = false ->
    exists i, gths c !! i = Some (GDisp (DOnce w)) \/ exists f, gths c !! i = Some (GDisp (DAdd f w));
  g_ronce : forall i w p, gths c !! i = Some (GRun w p) -> exists x, gws (gsh c) !! w = Some x /\ wonce x = true;
  g_put3 : forall i w d x, gths c !! i = Some (GRun w (RPut3 d)) -> gws (gsh c) !! w = Some x -> wid x <= min;
  g_run : forall w x, gws (gsh c) !! w = Some x -> wonce x = true -> (wid x <= min \/ wtask x <> None) ->
    exists i p, gths c !! i = Some (GRun w p) }.

(** ** Each field is kept *)
Definition wle (ws ws' : list gworker) : Prop :=
  forall w x, ws !! w = Some x -> exists x', ws' !! w = Some x' /\ wid x' = wid x /\ (wonce x = true -> wonce x' = true).
Lemma wle_refl ws : wle ws ws.
Proof. intros w x Hx. eauto. Qed.
Lemma wle_app ws l : wle ws (ws ++ l).
Proof. intros w x Hx. exists x. split; [apply lookup_app_l_Some; exact Hx|auto]. Qed.
Lemma wle_insert ws v y y' : ws !! v = Some y -> wid y' = wid y -> (wonce y = true -> wonce y' = true) -> wle ws (<[v := y']> ws).
Proof.
  intros Hv Hi Ho w x Hx. destruct (decide (v = w)) as [->|Hn].
  - assert (y = x) as -> by congruence. exists y'. split; [apply list_lookup_insert; apply lookup_lt_Some in Hv; exact Hv|auto].
  - exists x. split; [rewrite list_lookup_insert_ne by congruence; exact Hx|auto].
Qed.
Ltac sh := cbn [gsh gths fq fqc pq pqc gid gcount gtnum gmux gclose gflag gctx gws gstart gcrash
  s_fq s_fqc s_pq s_pqc s_gid s_count s_tnum s_mux s_close s_flag s_ctx s_ws s_start s_crash] in *.
Lemma ostep_wle s th s' th' new : ostep s th s' th' new -> wle (gws s) (gws s').
Proof.
  intros Ho. destruct Ho; sh; try apply wle_refl; try apply wle_app; eapply wle_insert; try eassumption; cbn; auto.
Qed.
Lemma wle_length ws ws' : wle ws ws' -> (length ws <= length ws')%nat.
Proof.
  intros H. destruct (decide (length ws <= length ws')%nat) as [|Hn]; [assumption|]. exfalso.
  destruct (lookup_lt_is_Some_2 ws (length ws') ltac:(lia)) as [x Hx]. destruct (H _ _ Hx) as (x' & Hx' & _). apply lookup_lt_Some in Hx'. lia.
Qed.
Lemma temp_wle ws ws' w : wle ws ws' -> (w < length ws)%nat -> temp ws' w = temp ws w.
Proof.
  intros H Hw. destruct (lookup_lt_is_Some_2 ws w Hw) as [x Hx]. destruct (H _ _ Hx) as (x' & Hx' & Hi & _). unfold temp. rewrite Hx, Hx', Hi. reflexivity.
Qed.
Lemma tT_wle ws ws' th : wle ws ws' -> (forall w, wof th = Some w -> (w < length ws)%nat) -> tT ws' th = tT ws th.
Proof.
  intros H Hw. destruct th as [| []|v []| | | |]; cbn in *; try reflexivity; apply temp_wle; auto.
Qed.

Section step.
Context (progs : list (list gact)) (ths : list gth) (s s' : gshared) (i : nat) (th th' : gth) (new : list gth).
Hypothesis I : ginv progs (GC s ths).
Hypothesis Ht : ths !! i = Some th.
Hypothesis Ho : ostep s th s' th' new.
Notation ths' := (<[i := th']> ths ++ new).
Lemma look j x : ths' !! j = Some x -> (j = i /\ x = th') \/ (j <> i /\ ths !! j = Some x) \/ (length ths <= j /\ x ∈ new)%nat.
Proof using Ht.
  intros Hj. apply lookup_app_Some in Hj as [Hj|[Hj1 Hj]].
  - destruct (decide (j = i)) as [->|Hn].
    + rewrite list_lookup_insert in Hj by (apply lookup_lt_Some in Ht; exact Ht). left. split; congruence.
    + rewrite list_lookup_insert_ne in Hj by congruence. right. left. auto.
  - right. right. rewrite insert_length in *. split; [lia|]. exact (elem_of_list_lookup_2 _ _ _ Hj).
Qed.
Lemma stay j x : j <> i -> ths !! j = Some x -> ths' !! j = Some x.
Proof. intros Hn Hj. apply lookup_app_l_Some. rewrite list_lookup_insert_ne by congruence. exact Hj. Qed.
Lemma self : ths' !! i = Some th'.
Proof using Ht. apply lookup_app_l_Some. apply list_lookup_insert. apply lookup_lt_Some in Ht. exact Ht. Qed.
Lemma fresh x : new = [x] -> ths' !! length ths = Some x.
Proof. intros ->. rewrite lookup_app_r by (rewrite insert_length; lia). rewrite insert_length, Nat.sub_diag. reflexivity. Qed.
Lemma sums (g : gth -> Z) : sumZ g ths' = sumZ g ths - g th + g th' + sumZ g new.
Proof using Ht. rewrite sumZ_app, (sumZ_insert _ _ _ _ _ Ht). reflexivity. Qed.
Lemma disp_one j p q : th = GDisp p -> ths !! j = Some (GDisp q) -> j = i.
Proof using I Ht Ho.
  intros -> Hj. destruct (decide (j = i)) as [|Hn]; [assumption|]. exfalso.
  pose proof (g_mux _ _ I) as Hm. sh.
  pose proof (sumZ_two isdisp ths i j _ _ ltac:(intros []; cbn; lia) ltac:(congruence) Ht Hj). cbn [isdisp] in *. destruct (gmux s); lia.
Qed.
Lemma k_off : off s'.
Proof using I Ht Ho. pose proof (g_off _ _ I) as H. destruct Ho; exact H. Qed.
Lemma k_thr j x : ths' !! j = Some x -> thr progs x.
Proof using I Ht Ho.
  intros Hj. pose proof (g_thr _ _ I) as H. pose proof (H _ _ Ht) as Hth. apply look in Hj as [[-> ->]|[[Hn Hj]|[_ Hj]]]; [|exact (H _ _ Hj)|].
  - clear H. destruct Ho; cbn [thr] in *; auto; try tauto.
    destruct Hth as [(full & Hf & Hd) _]. split; [|cbn; auto]. exists full. split; [exact Hf|].
    assert (Hk : full !! k = Some AGo) by (rewrite <- (Nat.add_0_r k), <- lookup_drop, <- Hd; reflexivity).
    rewrite (drop_S _ _ _ Hk) in Hd. congruence.
  - clear H. destruct Ho; try (exfalso; revert Hj; apply not_elem_of_nil); apply elem_of_list_singleton in Hj as ->; exact Logic.I.
Qed.
Lemma k_wf j x w : ths' !! j = Some x -> wof x = Some w -> (w < length (gws s'))%nat.
Proof using I Ht Ho.
  intros Hj Hw. pose proof (g_wf _ _ I) as H. pose proof (wle_length _ _ (ostep_wle _ _ _ _ _ Ho)) as Hle.
  pose proof (fun w => H _ _ w Ht) as Hth. pose proof (g_pq _ _ I) as Hpq. sh.
  apply look in Hj as [[-> ->]|[[Hn Hj]|[_ Hj]]]; [|pose proof (H _ _ _ Hj Hw); lia|].
  - clear H. destruct Ho; cbn [wof] in *; try discriminate; injection Hw as <-; sh;
      rewrite ?insert_length, ?app_length; cbn [length]; try lia; try (apply Hth; reflexivity).
    destruct (Hpq w0) as (x & Hx & _); [rewrite H; left|]. apply lookup_lt_Some in Hx. exact Hx.
  - clear H. destruct Ho; try (exfalso; revert Hj; apply not_elem_of_nil); apply elem_of_list_singleton in Hj as ->; cbn [wof] in *; try discriminate.
    injection Hw as <-. sh. rewrite insert_length. apply Hth. reflexivity.
Qed.
Lemma k_ronce j w p : ths' !! j = Some (GRun w p) -> exists x, gws s' !! w = Some x /\ wonce x = true.
Proof using I Ht Ho.
  intros Hj. pose proof (g_ronce _ _ I) as H. pose proof (ostep_wle _ _ _ _ _ Ho) as Hle. sh.
  assert (Hold : forall j w p, ths !! j = Some (GRun w p) -> exists x, gws s' !! w = Some x /\ wonce x = true).
  { intros j0 w0 p0 Hj0. destruct (H _ _ _ Hj0) as (x & Hx & Hox). destruct (Hle _ _ Hx) as (x' & Hx' & _ & Hx''). eauto. }
  clear H Hle. apply look in Hj as [[-> Hj]|[[Hn Hj]|[_ Hj]]]; [|exact (Hold _ _ _ Hj)|].
  - destruct Ho; try discriminate; injection Hj as -> ->; exact (Hold _ _ _ Ht).
  - destruct Ho; try (exfalso; revert Hj; apply not_elem_of_nil); apply elem_of_list_singleton in Hj; try discriminate.
    injection Hj as -> ->. sh. eexists. split; [apply list_lookup_insert; apply lookup_lt_Some in H; exact H|reflexivity].
Qed.
Lemma k_pq w : w ∈ pq s' -> exists x, gws s' !! w = Some x /\ wid x <= min /\ wonce x = true.
Proof using I Ht Ho.
  intros Hw. pose proof (g_pq _ _ I) as H. pose proof (ostep_wle _ _ _ _ _ Ho) as Hle. sh.
  assert (Hold : w ∈ pq s -> exists x, gws s' !! w = Some x /\ wid x <= min /\ wonce x = true).
  { intros Hin. destruct (H _ Hin) as (x & Hx & Hi & Hox). destruct (Hle _ _ Hx) as (x' & Hx' & Hi' & Hx''). exists x'. rewrite Hi'. auto. }
  clear H Hle. destruct Ho; sh; try exact (Hold Hw).
  - apply Hold. rewrite H. right. exact Hw.
  - apply elem_of_app in Hw as [Hw|Hw]; [exact (Hold Hw)|]. apply elem_of_list_singleton in Hw as ->.
    destruct (g_ronce _ _ I _ _ _ Ht) as (y & Hy & Hoy). sh. rewrite Hy. eexists. split; [reflexivity|]. split; [|exact Hoy].
    exact (g_put3 _ _ I _ _ _ _ Ht Hy).
Qed.
Lemma wid_back w x' : gws s' !! w = Some x' -> (w < length (gws s))%nat -> exists x, gws s !! w = Some x /\ wid x' = wid x /\ (wonce x = true -> wonce x' = true).
Proof using I Ht Ho.
  intros Hx' Hw. destruct (lookup_lt_is_Some_2 (gws s) w Hw) as [x Hx]. destruct (ostep_wle _ _ _ _ _ Ho _ _ Hx) as (y & Hy & Hi & Hox).
  exists x. assert (y = x') as -> by congruence. auto.
Qed.
Lemma k_put3 j w d x : ths' !! j = Some (GRun w (RPut3 d)) -> gws s' !! w = Some x -> wid x <= min.
Proof using I Ht Ho.
  intros Hj Hx. assert (Hold : forall j d, ths !! j = Some (GRun w (RPut3 d)) -> wid x <= min).
  { intros j0 d0 Hj0. pose proof (g_wf _ _ I _ _ w Hj0 eq_refl) as Hw. destruct (wid_back _ _ Hx Hw) as (y & Hy & -> & _). exact (g_put3 _ _ I _ _ _ _ Hj0 Hy). }
  pose proof (g_wf _ _ I _ _ w Ht) as Hwf.
  apply look in Hj as [[-> Hj]|[[Hn Hj]|[_ Hj]]]; [|exact (Hold _ _ Hj)|].
  - destruct Ho; try discriminate. injection Hj as -> ->. sh. congruence.
  - destruct Ho; try (exfalso; revert Hj; apply not_elem_of_nil); apply elem_of_list_singleton in Hj; try discriminate.
Qed.
Lemma k_mux : (if gmux s' then 1 else 0) = sumZ isdisp ths'.
Proof using I Ht Ho.
  rewrite sums. pose proof (g_mux _ _ I) as H. sh.
  destruct Ho; cbn [isdisp sumZ foldr]; sh; try lia.
  all: try (match goal with H : gmux s = _ |- _ => rewrite H in * end; lia).
  - pose proof (sumZ_lookup isdisp ths i _ ltac:(intros [] _; cbn; lia) Ht). cbn [isdisp] in *. destruct (gmux s); lia.
Qed.
Lemma k_tnum : gtnum s' = Z.of_nat (length (fq s')) + sumZ tn ths'.
Proof using I Ht Ho.
  rewrite sums. pose proof (g_tnum _ _ I) as H. sh.
  destruct Ho; cbn [tn sumZ foldr]; sh; rewrite ?app_length; cbn [length]; try lia.
  match goal with H : fq s = _ |- _ => rewrite H in * end. cbn [length] in *. lia.
Qed.
Lemma k_count : gcount s' = sumZ cT ths' + sumZ filled (gws s').
Proof using I Ht Ho.
  rewrite sums. pose proof (g_count _ _ I) as H. sh.
  destruct Ho; cbn [cT sumZ foldr]; sh; rewrite ?sumZ_app; cbn [sumZ foldr filled wtask]; try lia;
    match goal with H : gws s !! _ = Some _ |- _ => rewrite (sumZ_insert _ _ _ _ _ H) end; unfold filled at 2 3; cbn [wtask];
    try match goal with H : wtask _ = _ |- _ => rewrite H end; lia.
Qed.
Lemma new_tT ws : (forall x, x ∈ new -> tT ws x = 0) /\ forall x, x ∈ new -> cT x = 0.
Proof using I Ht Ho.
  split; intros y Hy; destruct Ho; try (exfalso; revert Hy; apply not_elem_of_nil); apply elem_of_list_singleton in Hy as ->; reflexivity.
Qed.
Lemma k_temp : sumZ (tT (gws s')) ths' + sumZ ftemp (gws s') <= max.
Proof using I Ht Ho.
  pose proof (ostep_wle _ _ _ _ _ Ho) as Hle. pose proof (g_temp _ _ I) as H. sh.
  assert (Hsame : sumZ (tT (gws s')) ths = sumZ (tT (gws s)) ths).
  { apply sumZ_ext. intros y Hy. apply elem_of_list_lookup in Hy as [j Hj]. apply tT_wle; [exact Hle|]. intros w Hw. exact (g_wf _ _ I _ _ _ Hj Hw). }
  rewrite sums, Hsame. rewrite (sumZ_zero _ new) by apply new_tT.
  assert (Hth : tT (gws s') th = tT (gws s) th) by (apply tT_wle; [exact Hle|]; intros w Hw; exact (g_wf _ _ I _ _ _ Ht Hw)).
  rewrite Hth. clear Hsame Hth Hle.
  pose proof (g_count _ _ I) as Hc. pose proof (g_pq _ _ I) as Hpq. sh.
  destruct Ho; cbn [tT]; sh; try lia.
  - pose proof (sumZ_le (tT (gws s)) cT ths ltac:(intros; apply tT_cT)). pose proof (sumZ_le ftemp filled (gws s) ltac:(intros; apply ftemp_filled)). lia.
  - rewrite sumZ_app. cbn [sumZ foldr]. unfold ftemp at 2. cbn [wtask]. pose proof (temp_range (gws s ++ [GW (gid s + 1) None false]) (length (gws s))). lia.
  - rewrite sumZ_app. cbn [sumZ foldr]. unfold ftemp at 2. cbn [wtask]. unfold temp. rewrite list_lookup_middle by reflexivity. cbn [wid].
    rewrite one_false by lia. lia.
  - destruct (Hpq w) as (x & Hx & Hi & _); [rewrite H0; left|]. unfold temp. rewrite Hx. rewrite one_false by lia. lia.
  - rewrite (sumZ_insert _ _ _ _ _ H0). unfold ftemp at 2 3. cbn [wtask wid]. rewrite H1. unfold temp. rewrite H0. lia.
  - rewrite (sumZ_insert _ _ _ _ _ H0). unfold ftemp at 2 3. cbn [wtask wid]. lia.
  - rewrite (sumZ_insert _ _ _ _ _ H0). unfold ftemp at 2 3. cbn [wtask wid]. rewrite H1. unfold temp.
    rewrite list_lookup_insert by (apply lookup_lt_Some in H0; exact H0). cbn [wid]. lia.
  - pose proof (temp_range (gws s) w). lia.
Qed.
Lemma k_gid : 0 <= gid s'.
Proof using I Ht Ho. pose proof (g_gid _ _ I). sh. destruct Ho; sh; lia. Qed.
Lemma k_ids : NoDup (wid <$> gws s') /\ forall w x, gws s' !! w = Some x -> 1 <= wid x <= gid s'.
Proof using I Ht Ho.
  pose proof (g_ids _ _ I) as [H1 H2]. pose proof (g_gid _ _ I). sh.
  assert (Hins : forall w x y, gws s !! w = Some x -> wid y = wid x -> NoDup (wid <$> <[w := y]> (gws s)) /\ forall w' x', <[w := y]> (gws s) !! w' = Some x' -> 1 <= wid x' <= gid s).
  { intros w x y Hx Hi. split.
    - rewrite list_fmap_insert, Hi, list_insert_id; [exact H1|]. rewrite list_lookup_fmap, Hx. reflexivity.
    - intros w' x' Hx'. destruct (decide (w = w')) as [<-|Hn].
      + rewrite list_lookup_insert in Hx' by (apply lookup_lt_Some in Hx; exact Hx). injection Hx' as <-. rewrite Hi. exact (H2 _ _ Hx).
      + rewrite list_lookup_insert_ne in Hx' by congruence. exact (H2 _ _ Hx'). }
  assert (Happ : NoDup (wid <$> gws s ++ [GW (gid s + 1) None false]) /\ forall w x, (gws s ++ [GW (gid s + 1) None false]) !! w = Some x -> 1 <= wid x <= gid s + 1).
  { split.
    - rewrite fmap_app. apply NoDup_app. split; [exact H1|]. split; [|apply NoDup_singleton]. intros v Hv Hv'. apply elem_of_list_singleton in Hv'. cbn in Hv'.
      apply elem_of_list_fmap in Hv as (x & -> & Hx). apply elem_of_list_lookup in Hx as [j Hj]. specialize (H2 _ _ Hj). lia.
    - intros w x Hx. apply lookup_app_Some in Hx as [Hx|[_ Hx]]; [specialize (H2 _ _ Hx); lia|].
      apply elem_of_list_lookup_2, elem_of_list_singleton in Hx as ->. cbn. lia. }
  destruct Ho; sh; try exact Happ; try (split; [exact H1|]; exact H2); try (eapply Hins; [eassumption|reflexivity]).
  split; [exact H1|]. intros v x Hx. specialize (H2 _ _ Hx). lia.
Qed.
Lemma k_all n : 1 <= n <= gid s' -> n <= min -> exists w x, gws s' !! w = Some x /\ wid x = n.
Proof using I Ht Ho.
  intros Hn Hm. pose proof (ostep_wle _ _ _ _ _ Ho) as Hle. pose proof (g_all _ _ I n) as H. sh.
  destruct (decide (n <= gid s)) as [Hg|Hg].
  - destruct (H ltac:(lia) Hm) as (w & x & Hx & Hi). destruct (Hle _ _ Hx) as (x' & Hx' & Hi' & _). exists w, x'. split; [exact Hx'|congruence].
  - clear H Hle. destruct Ho; sh; try lia; exists (length (gws s)), (GW (gid s + 1) None false); (split; [apply list_lookup_middle; reflexivity|cbn; lia]).
Qed.
Lemma k_add j f w x : ths' !! j = Some (GDisp (DAdd f w)) -> gws s' !! w = Some x -> wid x <= min \/ wonce x = false.
Proof using I Ht Ho.
  intros Hj Hx. pose proof (g_add _ _ I) as H. pose proof (fun p => disp_one j p (DAdd f w)) as Hd. pose proof (g_pq _ _ I) as Hpq. sh.
  apply look in Hj as [[-> Hj]|[[Hn Hj]|[_ Hj]]].
  - destruct Ho; try discriminate; injection Hj as -> ->; sh.
    + rewrite list_lookup_middle in Hx by reflexivity. injection Hx as <-. right. reflexivity.
    + rewrite list_lookup_middle in Hx by reflexivity. injection Hx as <-. right. reflexivity.
    + match goal with Hq : pq s = ?v :: _ |- _ => destruct (Hpq v) as (y & Hy & Hi & _); [rewrite Hq; left|] end. left. congruence.
  - specialize (H _ _ _ x Hj). clear Hpq. destruct Ho; sh; try (apply H; exact Hx); try (exfalso; apply Hn; eapply Hd; [reflexivity|exact Hj]).
    destruct (decide (w0 = w)) as [->|Hnw].
    + rewrite list_lookup_insert in Hx by (apply lookup_lt_Some in H0; exact H0). injection Hx as <-. cbn [wid wonce]. exact (g_add _ _ I _ _ _ _ Hj H0).
    + rewrite list_lookup_insert_ne in Hx by congruence. auto.
  - destruct Ho; try (exfalso; revert Hj; apply not_elem_of_nil); apply elem_of_list_singleton in Hj; discriminate.
Qed.
Lemma k_pool j f : ths' !! j = Some (GDisp (DPool f)) -> min < gid s'.
Proof using I Ht Ho.
  intros Hj. pose proof (g_pool _ _ I) as H. sh. apply look in Hj as [[-> Hj]|[[Hn Hj]|[_ Hj]]].
  - destruct Ho; try discriminate; sh; lia.
  - specialize (H _ _ Hj). destruct Ho; sh; lia.
  - destruct Ho; try (exfalso; revert Hj; apply not_elem_of_nil); apply elem_of_list_singleton in Hj; discriminate.
Qed.
Lemma k_once w x : gws s' !! w = Some x -> wonce x = false ->
  exists j, ths' !! j = Some (GDisp (DOnce w)) \/ exists f, ths' !! j = Some (GDisp (DAdd f w)).
Proof using I Ht Ho.
  intros Hx Hf. pose proof self as Hself. destruct (decide (w < length (gws s))%nat) as [Hw|Hw].
  - destruct (wid_back _ _ Hx Hw) as (y & Hy & _ & Hoy). assert (Hyf : wonce y = false) by (destruct (wonce y); [rewrite Hoy in Hf by reflexivity; discriminate|reflexivity]).
    destruct (g_once _ _ I _ _ Hy Hyf) as (j & Hj). sh. destruct (decide (j = i)) as [->|Hn].
    + destruct Hj as [Hj|[f Hj]]; rewrite Ht in Hj; injection Hj as Hj.
      * exfalso. rewrite Hj in Ho. inversion Ho; subst; sh; [congruence|].
        rewrite list_lookup_insert in Hx by exact Hw. injection Hx as <-. discriminate.
      * rewrite Hj in Ho. inversion Ho; subst. eauto.
    + exists j. destruct Hj as [Hj|[f Hj]]; [left|right; exists f]; apply stay; assumption.
  - destruct Ho; sh; try (apply lookup_lt_Some in Hx; rewrite ?insert_length in Hx; lia).
    all: exists i; right; exists f; rewrite Hself; do 3 f_equal; apply lookup_lt_Some in Hx; rewrite app_length in Hx; cbn in Hx; lia.
Qed.
Lemma placetots w : placetot w (GC s' ths') = placetot w (GC s ths) - place w th + place w th' + sumZ (place w) new +
  (cntn w (pq s') - cntn w (pq s)) + (fillw w (gws s') - fillw w (gws s)).
Proof using Ht. unfold placetot. sh. rewrite sums. lia. Qed.
Lemma fill_app w x : wtask x = None -> fillw w (gws s ++ [x]) = fillw w (gws s).
Proof.
  intros Hx. unfold fillw. destruct (decide (w < length (gws s))%nat) as [Hl|Hl]; [rewrite lookup_app_l by lia; reflexivity|].
  rewrite (lookup_ge_None_2 (gws s)) by lia. destruct (decide (w = length (gws s))) as [->|Hn].
  - rewrite list_lookup_middle by reflexivity. unfold filled. rewrite Hx. reflexivity.
  - rewrite lookup_ge_None_2; [reflexivity|]. rewrite app_length. cbn. lia.
Qed.
Lemma fill_insert w v x y : gws s !! v = Some x -> fillw w (<[v := y]> (gws s)) = fillw w (gws s) + one (v = w) * (filled y - filled x).
Proof.
  intros Hx. unfold fillw, one. destruct (decide (v = w)) as [->|Hn].
  - rewrite list_lookup_insert by (apply lookup_lt_Some in Hx; exact Hx). rewrite Hx. lia.
  - rewrite list_lookup_insert_ne by congruence. lia.
Qed.
(** A worker keeps its place, except a temporary one that ends and a new one, which starts with the dispatcher. *)
Lemma k_place0 w : placetot w (GC s' ths') = placetot w (GC s ths) \/
  (exists x, gws s !! w = Some x /\ min < wid x /\ placetot w (GC s' ths') = placetot w (GC s ths) - 1) \/
  (w = length (gws s) /\ length (gws s') = S w /\ placetot w (GC s' ths') = placetot w (GC s ths) + 1).
Proof using I Ht Ho.
  rewrite placetots. destruct Ho; sh; cbn [place sumZ foldr]; rewrite ?fill_app by reflexivity; unfold cntn; rewrite ?sumZ_app, ?sumZ_cons;
    try (left; lia);
    try match goal with |- context [one (length (gws s) = w)] => destruct (decide (length (gws s) = w)) as [<-|];
      [right; right; split; [reflexivity|]; split; [rewrite app_length; cbn; lia|rewrite one_true by reflexivity; lia]|left; rewrite one_false by assumption; lia] end;
    try (match goal with H : gws s !! _ = Some _ |- _ => rewrite (fill_insert _ _ _ _ H) end; unfold filled; cbn [wtask];
      try match goal with H : wtask _ = _ |- _ => rewrite H end; left; lia).
  - match goal with Hq : pq s = _ |- _ => rewrite Hq, sumZ_cons end. left. lia.
  - destruct (decide (w0 = w)) as [<-|]; [|left; rewrite one_false by assumption; lia]. rewrite one_true by reflexivity. right. left. exists x. split; [assumption|]. split; [assumption|]. lia.
  - cbn [sumZ foldr]. left. lia.
Qed.
Lemma place_fresh w : (length (gws s) <= w)%nat -> placetot w (GC s ths) = 0.
Proof using I Ht Ho.
  intros Hw. unfold placetot. sh. unfold fillw. rewrite lookup_ge_None_2 by lia.
  rewrite sumZ_zero.
  - unfold cntn. rewrite sumZ_zero; [lia|]. intros v Hv. apply one_false. intros ->. destruct (g_pq _ _ I _ Hv) as (x & Hx & _). apply lookup_lt_Some in Hx. sh. lia.
  - intros y Hy. apply elem_of_list_lookup in Hy as [j Hj]. pose proof (fun w => g_wf _ _ I _ _ w Hj) as Hwf. sh.
    destruct y as [| []|v []| | | |]; cbn [place wof] in *; try reflexivity; apply one_false; intros ->; specialize (Hwf _ eq_refl); lia.
Qed.
Lemma k_place w : placetot w (GC s' ths') <= 1.
Proof using I Ht Ho.
  pose proof (g_place _ _ I w). destruct (k_place0 w) as [->|[(x & _ & _ & ->)|(-> & _ & ->)]]; [lia|lia|]. rewrite place_fresh by lia. lia.
Qed.
Lemma k_perm w x : gws s' !! w = Some x -> wid x <= min -> placetot w (GC s' ths') = 1.
Proof using I Ht Ho.
  intros Hx Hi. destruct (k_place0 w) as [Hp|[(y & Hy & Hm & Hp)|(-> & _ & ->)]].
  - destruct (decide (w < length (gws s))%nat) as [Hw|Hw].
    + destruct (wid_back _ _ Hx Hw) as (y & Hy & Hiy & _). rewrite Hp. apply (g_perm _ _ I w y Hy). lia.
    + exfalso. rewrite place_fresh in Hp by lia. clear -Hw Hp Ho Hx Ht I.
      assert (Hl : length (gws s') = S (length (gws s))).
      { destruct Ho; sh; apply lookup_lt_Some in Hx; rewrite ?insert_length, ?app_length in *; cbn in *; lia. }
      assert (w = length (gws s)) as -> by (apply lookup_lt_Some in Hx; lia).
      rewrite placetots in Hp. rewrite place_fresh in Hp by lia. destruct Ho; sh; try lia; try (rewrite insert_length in Hl; lia); rewrite fill_app in Hp by reflexivity;
      cbn [place sumZ foldr] in Hp; unfold one in Hp; rewrite decide_True in Hp by reflexivity; lia.
  - exfalso. apply lookup_lt_Some in Hy as Hw. destruct (wid_back _ _ Hx Hw) as (z & Hz & Hiz & _). assert (y = z) as -> by congruence. lia.
  - rewrite place_fresh by lia. reflexivity.
Qed.
Lemma k_run w x : gws s' !! w = Some x -> wonce x = true -> (wid x <= min \/ wtask x <> None) -> exists j p, ths' !! j = Some (GRun w p).
Proof using I Ht Ho.
  intros Hx Hox Hor. pose proof self as Hself. destruct (decide (w < length (gws s))%nat) as [Hw|Hw].
  2: { exfalso. destruct Ho; sh; try (apply lookup_lt_Some in Hx; rewrite ?insert_length in Hx; lia).
    all: assert (w = length (gws s)) as -> by (apply lookup_lt_Some in Hx; rewrite app_length in Hx; cbn in Hx; lia);
      rewrite list_lookup_middle in Hx by reflexivity; injection Hx as <-; discriminate. }
  destruct (wid_back _ _ Hx Hw) as (y & Hy & Hiy & _).
  assert (Hkeep : (exists j p, ths !! j = Some (GRun w p)) -> exists j p, ths' !! j = Some (GRun w p)).
  { intros (j & p & Hj). destruct (decide (j = i)) as [->|Hn]; [|exists j, p; apply stay; assumption].
    pose proof (g_place _ _ I w) as Hpl. unfold placetot in Hpl. sh.
    pose proof (sumZ_lookup (place w) ths i _ ltac:(intros; apply place_nonneg) Hj) as Hsum. pose proof (cntn_nonneg w (pq s)).
    pose proof Ho as Ho'. assert (th = GRun w p) as -> by congruence. exists i. rewrite Hself. inversion Ho'; subst; eauto.
    exfalso. assert (x0 = y) as -> by congruence. assert (x = y) as -> by congruence. destruct Hor as [Hor|Hor]; [lia|].
    cbn [place] in Hsum. unfold one in Hsum. rewrite decide_True in Hsum by reflexivity. unfold fillw in Hpl. rewrite Hy in Hpl. unfold filled in Hpl.
    destruct (wtask y); [lia|congruence]. }
  destruct (wonce y) eqn:Hoy.
  - destruct (g_run _ _ I _ _ Hy Hoy) as (j & p & Hj); [|apply Hkeep; eauto].
    destruct (decide (wid y <= min)) as [|Hp]; [left; assumption|]. right. sh. destruct Hor as [Hor|Hor]; [lia|]. intros Hty. apply Hor. clear Hor Hkeep Hself.
    destruct Ho; sh; try congruence; try (rewrite lookup_app_l in Hx by lia; congruence);
    match type of Hx with <[?v := _]> _ !! _ = _ => destruct (decide (v = w)) as [->|] end; try (rewrite list_lookup_insert_ne in Hx by congruence; congruence);
    rewrite list_lookup_insert in Hx by exact Hw; injection Hx as <-; cbn [wtask wonce wid] in *; try congruence.
    exfalso. destruct (g_add _ _ I _ _ _ _ Ht Hy); [lia|congruence].
  - pose proof (fun a => fresh a) as Hfr. destruct Ho; sh; try congruence; try (rewrite lookup_app_l in Hx by lia; congruence);
    match type of Hx with <[?v := _]> _ !! _ = _ => destruct (decide (v = w)) as [->|] end; try (rewrite list_lookup_insert_ne in Hx by congruence; congruence);
    rewrite list_lookup_insert in Hx by exact Hw; injection Hx as <-; cbn [wtask wonce wid] in *; try congruence.
    exists (length ths), RSel. apply Hfr. reflexivity.
Qed.
Lemma k_inv : ginv progs (GC s' ths').
Proof using I Ht Ho.
  constructor; sh; eauto using k_off, k_thr, k_wf, k_pq, k_mux, k_tnum, k_count, k_temp, k_gid, k_ids, k_all, k_place, k_perm, k_add, k_pool, k_once, k_ronce, k_put3, k_run.
Qed.
End step.
Lemma ginv_step progs c e : only_go progs -> ginv progs c -> ginv progs (gconf_step min max lim c e).
Proof.
  intros Hgo I. unfold gconf_step. destruct (gcrash (gsh c)); [exact I|]. destruct (gths c !! e.1) as [th|] eqn:Ht; [|exact I].
  destruct (gstep min max lim (gsh c) th e.2) as [[[s' th'] new]|] eqn:Hs; [|exact I].
  apply (gstep_ostep progs) in Hs; [|assumption|exact (g_off _ _ I)|exact (g_thr _ _ I _ _ Ht)].
  destruct c as [s ths]. sh. eapply k_inv; eassumption.
Qed.
Lemma ginv_run progs evs c : only_go progs -> ginv progs c -> ginv progs (grun min max lim c evs).
Proof. intros Hgo. revert c. induction evs as [|e evs IH]; intros c I; [exact I|]. exact (IH _ (ginv_step _ _ e Hgo I)). Qed.
Lemma init_look (progs : list (list gact)) i th : imap (fun t p => GClient t p 0 CIdle) progs !! i = Some th -> exists p, progs !! i = Some p /\ th = GClient i p 0 CIdle.
Proof. intros Hi. rewrite list_lookup_imap in Hi. destruct (progs !! i) as [p|] eqn:E; [|discriminate]. injection Hi as <-. eauto. Qed.
Lemma ginv_init progs : 0 <= max -> ginv progs (ginit progs).
Proof.
  intros Hmax.
  assert (Hz : forall g : gth -> Z, (forall t p, g (GClient t p 0%nat CIdle) = 0) -> sumZ g (imap (fun t p => GClient t p 0%nat CIdle) progs) = 0).
  { intros g Hg. apply sumZ_zero. intros y Hy. apply elem_of_list_lookup in Hy as [j Hj]. apply init_look in Hj as (p & _ & ->). apply Hg. }
  constructor; try (intros; exfalso; match goal with H : gws _ !! _ = Some _ |- _ => discriminate H
    | H : gths _ !! _ = Some _ |- _ => apply init_look in H as (? & ? & ?); discriminate end).
  - repeat split.
  - intros i th Hi. apply init_look in Hi as (p & Hp & ->). cbn. split; [|exact Logic.I]. exists p. auto.
  - intros i th w Hi Hw. apply init_look in Hi as (p & Hp & ->). discriminate.
  - intros w Hw. exfalso. revert Hw. apply not_elem_of_nil.
  - rewrite Hz; reflexivity.
  - rewrite Hz; reflexivity.
  - rewrite Hz; reflexivity.
  - rewrite Hz; [cbn; lia|reflexivity].
  - cbn. lia.
  - split; [constructor|discriminate].
  - intros n Hn. cbn in Hn. lia.
  - intros w. unfold placetot. sh. cbn [ginit gths gsh pq gws]. rewrite Hz; [cbn; unfold fillw; rewrite lookup_nil; lia|reflexivity].
Qed.
End pool.
