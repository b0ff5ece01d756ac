(** The gopool model when only Go is used: every run ends, and how. *)
From stdpp Require Import list list_numbers.
From Coq Require Import ZArith Lia ZifyBool.
From Verif Require Import Conc Gopool_Model Gopool_Spec Fastio_Proofs Gopool_Proofs Gopool_Limit.
Local Open Scope Z_scope.

Ltac sh := cbn [gsh gths fq fqc pq pqc gid gcount gtnum gmux gclose gflag gctx gws gstart gcrash
  s_fq s_fqc s_pq s_pqc s_gid s_count s_tnum s_mux s_close s_flag s_ctx s_ws s_start s_crash] in *.

(** ** Double sums and lists of distinct small numbers *)
Lemma sumZ_plus {A} (f g : A -> Z) l : sumZ (fun x => f x + g x) l = sumZ f l + sumZ g l.
Proof. induction l as [|x l IH]; [reflexivity|]. rewrite !sumZ_cons, IH. lia. Qed.
Lemma sumZ_scale {A} (a : Z) (g : A -> Z) l : sumZ (fun x => a * g x) l = a * sumZ g l.
Proof. induction l as [|x l IH]; [cbn; lia|]. rewrite !sumZ_cons, IH. lia. Qed.
Lemma sumZ_swap {A B} (f : A -> B -> Z) l1 l2 : sumZ (fun x => sumZ (f x) l2) l1 = sumZ (fun y => sumZ (fun x => f x y) l1) l2.
Proof.
  induction l1 as [|x l1 IH]; [symmetry; apply sumZ_zero; reflexivity|]. rewrite sumZ_cons, IH, <- sumZ_plus. apply sumZ_ext. intros y _. reflexivity.
Qed.
Lemma distinct_small (l : list Z) (n : Z) : 0 <= n -> NoDup l -> (forall x, x ∈ l -> 1 <= x <= n) -> Z.of_nat (length l) <= n.
Proof.
  intros Hn Hd Hr. assert (Hs : l ⊆+ (Z.of_nat <$> seq 1 (Z.to_nat n))).
  { apply NoDup_submseteq; [exact Hd|]. intros x Hx. specialize (Hr x Hx). apply elem_of_list_fmap. exists (Z.to_nat x). split; [lia|]. apply elem_of_list_In, in_seq. lia. }
  apply submseteq_length in Hs. rewrite fmap_length, seq_length in Hs. lia.
Qed.
Lemma sum_one_filter {A} (P : A -> Prop) `{forall x, Decision (P x)} l : sumZ (fun x => one (P x)) l = Z.of_nat (length (filter P l)).
Proof.
  induction l as [|x l IH]; [reflexivity|]. rewrite sumZ_cons, IH. unfold one. rewrite filter_cons. destruct (decide (P x)); cbn [length]; lia.
Qed.
Lemma perms_bound min ws (l : list nat) : 0 <= min -> NoDup (wid <$> ws) -> (forall w x, ws !! w = Some x -> 1 <= wid x) -> NoDup l ->
  (forall w, w ∈ l -> exists x, ws !! w = Some x /\ wid x <= min) -> Z.of_nat (length l) <= min.
Proof.
  intros Hm Hd Hpos Hl Hp.
  set (f := fun w : nat => match ws !! w with Some x => wid x | None => 0 end).
  rewrite <- (fmap_length f l). apply distinct_small; [exact Hm| |].
  - assert (Hinj : forall a b, a ∈ l -> b ∈ l -> f a = f b -> a = b).
    { intros a b Ha Hb Hab. destruct (Hp _ Ha) as (x & Hx & _), (Hp _ Hb) as (y & Hy & _). unfold f in Hab. rewrite Hx, Hy in Hab.
      apply (NoDup_lookup (wid <$> ws) a b (wid x)); [exact Hd|rewrite list_lookup_fmap, Hx; reflexivity|rewrite list_lookup_fmap, Hy, Hab; reflexivity]. }
    clear Hp. induction Hl as [|a l Hna Hl IH]; [constructor|]. rewrite fmap_cons. constructor.
    + intros Hin. apply elem_of_list_fmap in Hin as (b & Hb & Hbl). apply Hna. rewrite (Hinj a b); [exact Hbl|left|right; exact Hbl|exact Hb].
    + apply IH. intros x y Hx Hy. apply Hinj; right; assumption.
  - intros v Hv. apply elem_of_list_fmap in Hv as (w & -> & Hw). destruct (Hp _ Hw) as (x & Hx & Hi). unfold f. rewrite Hx. specialize (Hpos _ _ Hx). lia.
Qed.

Section pool.
Context (min max lim : Z).
Notation ginv := (ginv min max).
(** ** How many run at once *)
Definition permb (ws : list gworker) (th : gth) : Z :=
  match th with GRun w RBody => match ws !! w with Some x => one (wid x <= min) | None => 0 end | _ => 0 end.
Definition pw (ws : list gworker) (w : nat) : Z := match ws !! w with Some x => one (wid x <= min) | None => 0 end.
Lemma pw_range ws w : 0 <= pw ws w <= 1.
Proof. unfold pw. destruct (ws !! w); [|lia]. split; [apply one_nonneg|apply one_le]. Qed.
Lemma running_le progs c : 0 <= min -> ginv progs c -> running c <= min + max.
Proof.
  intros Hm I. set (ws := gws (gsh c)).
  assert (H1 : running c <= sumZ (fun th => tT min ws th + permb ws th) (gths c)).
  { unfold running. apply sumZ_le. intros th Hth. apply elem_of_list_lookup in Hth as [i Hi].
    assert (0 <= tT min ws th) by (destruct th as [| []|v []| | | |]; cbn; try lia; apply temp_range).
    destruct th as [| |w []| | | |]; cbn [permb]; try lia. cbn [tT] in *. pose proof (g_wf _ _ _ _ I _ _ w Hi eq_refl) as Hw. fold ws in Hw.
    destruct (lookup_lt_is_Some_2 ws w Hw) as [x Hx]. unfold temp. rewrite Hx. unfold one. destruct (decide (min < wid x)), (decide (wid x <= min)); lia. }
  rewrite sumZ_plus in H1.
  assert (H2 : sumZ (permb ws) (gths c) <= sumZ (fun th => sumZ (fun w => pw ws w * place w th) (seq 0 (length ws))) (gths c)).
  { apply sumZ_le. intros th Hth. apply elem_of_list_lookup in Hth as [i Hi].
    assert (Hnn : 0 <= sumZ (fun w => pw ws w * place w th) (seq 0 (length ws))).
    { apply sumZ_nonneg. intros w _. pose proof (pw_range ws w). pose proof (place_nonneg w th). nia. }
    destruct th as [| |w []| | | |]; cbn [permb]; try exact Hnn. pose proof (g_wf _ _ _ _ I _ _ w Hi eq_refl) as Hw. fold ws in Hw.
    assert (Hs : seq 0 (length ws) !! w = Some w) by (apply lookup_seq; lia).
    pose proof (sumZ_lookup (fun w' => pw ws w' * place w' (GRun w RBody)) (seq 0 (length ws)) w w) as Hl. cbn beta in Hl. etransitivity; [|apply Hl; [|exact Hs]].
    - cbn [place]. rewrite one_true by reflexivity. unfold pw. lia.
    - intros w' _. pose proof (pw_range ws w'). pose proof (place_nonneg w' (GRun w RBody)). nia. }
  rewrite sumZ_swap in H2.
  assert (H3 : sumZ (fun w => sumZ (fun th => pw ws w * place w th) (gths c)) (seq 0 (length ws)) <= sumZ (pw ws) (seq 0 (length ws))).
  { apply sumZ_le. intros w _. rewrite sumZ_scale. pose proof (g_place _ _ _ _ I w) as Hp. unfold placetot in Hp.
    pose proof (cntn_nonneg w (pq (gsh c))). pose proof (fillw_nonneg w (gws (gsh c))). pose proof (pw_range ws w).
    assert (0 <= sumZ (place w) (gths c)) by (apply sumZ_nonneg; intros; apply place_nonneg).
    change (sumZ (fun th => place w th) (gths c)) with (sumZ (place w) (gths c)). nia. }
  assert (H4 : sumZ (pw ws) (seq 0 (length ws)) <= min).
  { rewrite (sumZ_ext _ (fun w => one (pw ws w = 1))).
    2: { intros w _. pose proof (pw_range ws w). unfold one. destruct (decide (pw ws w = 1)); lia. }
    rewrite sum_one_filter. pose proof (g_ids _ _ _ _ I) as [Hd Hids].
    apply (perms_bound min ws); [exact Hm|exact Hd|intros w x Hx; apply (Hids w x Hx)|apply NoDup_filter, NoDup_seq|].
    intros w Hw. apply elem_of_list_filter in Hw as [Hw _]. unfold pw in Hw. destruct (ws !! w) as [x|]; [|discriminate]. exists x. split; [reflexivity|].
    unfold one in Hw. destruct (decide (wid x <= min)); [assumption|discriminate]. }
  pose proof (g_temp _ _ _ _ I) as H5. fold ws in H5.
  assert (0 <= sumZ (ftemp min) ws) by (apply sumZ_nonneg; intros x _; unfold ftemp; destruct (wtask x); [apply one_nonneg|lia]). lia.
Qed.

(** ** Nothing gets lost *)
Lemma ostep_tok f s th s' th' new : ostep min max lim s th s' th' new -> tok f th' + sumZ (tok f) new + rest f s' = tok f th + rest f s.
Proof.
  intros Ho. destruct Ho; unfold tok, rest, tasks; cbn [hold chold dhold future sumZ foldr]; sh; rewrite ?cnt_app, ?cnt_cons, ?sumZ_app;
    change (cnt f []) with 0; try lia.
  - assert (Hf : fut t k f = fut t (S k) f + isf (t, k) f).
    { destruct f as [f1 f2]. unfold fut, isf, one. cbn [fst snd]. destruct (decide (@eq fid (t, k) (f1, f2))) as [E|E].
      - injection E as -> ->. rewrite decide_True by lia. rewrite decide_False by lia. reflexivity.
      - destruct (decide (t = f1 /\ (S k <= f2)%nat)) as [[-> H]|H]; [rewrite decide_True by lia; reflexivity|].
        rewrite decide_False; [reflexivity|]. intros [-> Hk]. destruct (decide (k = f2)) as [->|]; [congruence|]. apply H. lia. }
    lia.
  - rewrite H, cnt_cons. lia.
  - cbn [sumZ foldr wtask]. rewrite one_false by discriminate. lia.
  - cbn [sumZ foldr wtask]. rewrite one_false by discriminate. lia.
  - rewrite (sumZ_insert _ _ _ _ _ H). cbn [wtask]. rewrite one_Some, H0. rewrite (one_false (None = Some f)) by discriminate. lia.
  - rewrite (sumZ_insert _ _ _ _ _ H). cbn [wtask]. lia.
  - rewrite (sumZ_insert _ _ _ _ _ H). cbn [wtask]. rewrite H0, one_Some. rewrite (one_false (None = Some f)) by discriminate. lia.
Qed.
Lemma ostep_of progs c i ch th s' th' new : only_go progs -> ginv progs c -> gths c !! i = Some th ->
  gstep min max lim (gsh c) th ch = Some (s', th', new) -> ostep min max lim (gsh c) th s' th' new.
Proof. intros Hgo I Ht Hs. exact (gstep_ostep _ _ _ progs _ _ _ _ _ _ Hgo (g_off _ _ _ _ I) (g_thr _ _ _ _ I _ _ Ht) Hs). Qed.
Lemma tot_run progs f evs c : only_go progs -> ginv progs c -> tot f (grun min max lim c evs) = tot f c.
Proof.
  intros Hgo. revert c. induction evs as [|e evs IH]; intros c I; [reflexivity|]. change (grun min max lim c (e :: evs)) with (grun min max lim (gconf_step min max lim c e) evs).
  rewrite IH by (apply ginv_step; assumption). unfold gconf_step. destruct (gcrash (gsh c)); [reflexivity|]. destruct (gths c !! e.1) as [th|] eqn:Ht; [|reflexivity].
  destruct (gstep min max lim (gsh c) th e.2) as [[[s' th'] new]|] eqn:Hs; [|reflexivity]. pose proof (ostep_tok f _ _ _ _ _ (ostep_of _ _ _ _ _ _ _ _ Hgo I Ht Hs)).
  unfold tot. cbn [gths gsh]. rewrite sumZ_app, (sumZ_insert _ _ _ _ _ Ht). lia.
Qed.

(** ** When nothing can happen any more *)
Section stuck.
Context (progs : list (list gact)) (c : gconf).
Hypothesis Hmin : 1 <= min.
Hypothesis I : ginv progs c.
Hypothesis Hst : stuck min max lim c.
Notation s := (gsh c).
Notation ws := (gws (gsh c)).
Lemma mux1 i j p q : gths c !! i = Some (GDisp p) -> gths c !! j = Some (GDisp q) -> i = j.
Proof using I.
  intros Hi Hj. destruct (decide (i = j)) as [|Hn]; [assumption|]. exfalso. pose proof (g_mux _ _ _ _ I) as Hm.
  pose proof (sumZ_two isdisp (gths c) i j _ _ ltac:(intros []; cbn; lia) Hn Hi Hj). cbn [isdisp] in *. destruct (gmux s); lia.
Qed.
Lemma st_runner i w p : gths c !! i = Some (GRun w p) -> p = RSel /\ exists x, ws !! w = Some x /\ wtask x = None.
Proof using Hmin I Hst.
  intros Hi. pose proof (Hst _ _ false Hi) as Hs. cbn [gstep] in Hs. destruct (g_ronce _ _ _ _ I _ _ _ Hi) as (x & Hx & _). rewrite Hx in Hs.
  destruct p as [|f| |d|d|d]; try discriminate.
  - split; [reflexivity|]. exists x. split; [exact Hx|]. rewrite andb_false_r in Hs. destruct (wtask x); [discriminate|reflexivity].
  - destruct (_ && _); discriminate.
  - exfalso. pose proof (g_off _ _ _ _ I) as (_ & Hp & _). rewrite Hp in Hs. destruct (_ <? min) eqn:E; [discriminate|].
    pose proof (g_put3 _ _ _ _ I _ _ _ _ Hi Hx) as Hperm. pose proof (g_ids _ _ _ _ I) as [Hd Hids].
    assert (Hw : Z.of_nat (length (w :: pq s)) <= min).
    { apply (perms_bound min ws); [lia|exact Hd|intros v y Hy; apply (Hids _ _ Hy)| |].
      - assert (Hnin : w ∉ pq s /\ NoDup (pq s)).
        { split.
          - intros Hin. pose proof (g_place _ _ _ _ I w) as Hpl. unfold placetot in Hpl. pose proof (cntn_elem _ _ Hin). pose proof (fillw_nonneg w ws).
            pose proof (sumZ_lookup (place w) (gths c) i _ ltac:(intros; apply place_nonneg) Hi) as Hl. cbn [place] in Hl. rewrite one_true in Hl by reflexivity. lia.
          - assert (Hc : forall v, cntn v (pq s) <= 1).
            { intros v. pose proof (g_place _ _ _ _ I v) as Hpl. unfold placetot in Hpl. pose proof (fillw_nonneg v ws).
              assert (0 <= sumZ (place v) (gths c)) by (apply sumZ_nonneg; intros; apply place_nonneg). lia. }
            revert Hc. generalize (pq s). intros l. induction l as [|a l IH]; intros Hc; [constructor|]. constructor.
            + intros Hin. specialize (Hc a). unfold cntn in Hc. rewrite sumZ_cons in Hc. rewrite one_true in Hc by reflexivity. apply cntn_elem in Hin. unfold cntn in Hin. lia.
            + apply IH. intros v. specialize (Hc v). unfold cntn in *. rewrite sumZ_cons in Hc. pose proof (one_nonneg (a = v)). lia. }
        constructor; apply Hnin.
      - intros v Hv. apply elem_of_cons in Hv as [->|Hv]; [eauto|]. destruct (g_pq _ _ _ _ I _ Hv) as (y & Hy & Hiy & _). eauto. }
    cbn [length] in Hw. lia.
Qed.
Lemma st_disp i p : gths c !! i = Some (GDisp p) -> p = DRecv /\ fq s = [].
Proof using Hmin I Hst.
  intros Hi. pose proof (Hst _ _ false Hi) as Hs. cbn [gstep] in Hs. pose proof (g_off _ _ _ _ I) as (Hfc & Hpc & Hcl & _).
  destruct p as [|f|f|f|f|f|f|f w|w| | |]; try discriminate.
  - destruct (fq s); [auto|discriminate].
  - rewrite Hcl in Hs. discriminate.
  - destruct (_ <=? min); discriminate.
  - exfalso. destruct (pq s) as [|] eqn:Hpq; [|discriminate]. pose proof (g_pool _ _ _ _ I _ _ Hi) as Hg.
    destruct (g_all _ _ _ _ I 1 ltac:(lia) ltac:(lia)) as (w & x & Hx & Hid).
    pose proof (g_perm _ _ _ _ I w x Hx ltac:(lia)) as Hpl. unfold placetot in Hpl. rewrite Hpq in Hpl. change (cntn w []) with 0 in Hpl.
    assert (Hone : wonce x = true).
    { destruct (wonce x) eqn:Ho; [reflexivity|]. exfalso. destruct (g_once _ _ _ _ I _ _ Hx Ho) as (j & [Hj|[g Hj]]);
        pose proof (mux1 _ _ _ _ Hi Hj) as <-; congruence. }
    destruct (g_run _ _ _ _ I _ _ Hx Hone) as (j & q & Hj); [left; lia|].
    destruct (st_runner _ _ _ Hj) as (-> & y & Hy & Hty). assert (y = x) as -> by congruence.
    assert (Hz : sumZ (place w) (gths c) = 0).
    { apply sumZ_zero. intros th Hth. apply elem_of_list_lookup in Hth as [k Hk]. destruct th as [| q|v q| | | |]; try reflexivity.
      - pose proof (mux1 _ _ _ _ Hi Hk) as <-. assert (q = DPool f) as -> by congruence. reflexivity.
      - destruct (st_runner _ _ _ Hk) as (-> & _). reflexivity. }
    rewrite Hz in Hpl. unfold fillw in Hpl. rewrite Hx in Hpl. unfold filled in Hpl. rewrite Hty in Hpl. lia.
  - exfalso. pose proof (g_wf _ _ _ _ I _ _ w Hi eq_refl) as Hw. destruct (lookup_lt_is_Some_2 ws w Hw) as [x Hx]. rewrite Hx in Hs.
    destruct (wtask x) eqn:Ht; [|discriminate]. pose proof (g_place _ _ _ _ I w) as Hpl. unfold placetot in Hpl. pose proof (cntn_nonneg w (pq s)).
    unfold fillw in Hpl. rewrite Hx in Hpl. unfold filled in Hpl. rewrite Ht in Hpl.
    pose proof (sumZ_lookup (place w) (gths c) i _ ltac:(intros; apply place_nonneg) Hi) as Hl. cbn [place] in Hl. rewrite one_true in Hl by reflexivity. lia.
  - exfalso. pose proof (g_wf _ _ _ _ I _ _ w Hi eq_refl) as Hw. destruct (lookup_lt_is_Some_2 ws w Hw) as [x Hx]. rewrite Hx in Hs.
    destruct (wonce x); discriminate.
Qed.
Lemma st_task w x : ws !! w = Some x -> wtask x = None.
Proof using Hmin I Hst.
  intros Hx. destruct (wtask x) as [f|] eqn:Ht; [|reflexivity]. exfalso. destruct (wonce x) eqn:Ho.
  - destruct (g_run _ _ _ _ I _ _ Hx Ho) as (j & q & Hj); [right; congruence|]. destruct (st_runner _ _ _ Hj) as (_ & y & Hy & Hty). congruence.
  - destruct (g_once _ _ _ _ I _ _ Hx Ho) as (j & [Hj|[g Hj]]); apply st_disp in Hj as [Hj _]; discriminate.
Qed.
Lemma st_found f : accepted progs c f -> once_inv progs c -> tot f c = 1 -> f ∈ gstart s \/ (f ∈ fq s /\ gmux s = false).
Proof using Hmin I Hst.
  intros [Hsub (todo & k & p & Hc & Hk)] HO Htot. unfold tot in Htot.
  assert (Hz : sumZ (tok f) (gths c) = 0).
  { apply sumZ_zero. intros th Hth. apply elem_of_list_lookup in Hth as [i Hi]. pose proof (g_thr _ _ _ _ I _ _ Hi) as Hthr. unfold tok.
    destruct th as [t todo' k' p'|q|w q| | | |]; cbn [thr] in Hthr; try contradiction; try reflexivity.
    - destruct (o_cl _ _ HO _ _ _ _ _ Hi) as (<- & _). cbn [hold future]. destruct (decide (i = f.1)) as [->|Hn].
      + rewrite Hc in Hi. injection Hi as <- <- <-. unfold fut. rewrite one_false by lia.
        destruct p; cbn [chold]; try reflexivity; destruct Hthr as [_ Hthr]; try contradiction; unfold isf; rewrite one_false; try reflexivity;
          intros ->; destruct Hk as [Hk|[Hk ?]]; [lia|discriminate|lia|discriminate].
      + unfold fut. rewrite one_false by (intros [? _]; congruence). destruct p'; cbn [chold]; try reflexivity; unfold isf; rewrite one_false; try reflexivity;
          destruct Hthr as [_ [Hthr _]]; intros ->; congruence.
    - destruct (st_disp _ _ Hi) as [-> _]. reflexivity.
    - destruct (st_runner _ _ _ Hi) as [-> _]. reflexivity. }
  assert (Ht : tasks f ws = 0).
  { apply sumZ_zero. intros x Hx. apply elem_of_list_lookup in Hx as [w Hw]. rewrite (st_task _ _ Hw). apply one_false. discriminate. }
  unfold rest in Htot.
  destruct (decide (0 < cnt f (gstart s))) as [Hs|Hs].
  - left. destruct (decide (f ∈ gstart s)) as [|Hn]; [assumption|]. exfalso. unfold cnt in Hs. rewrite sumZ_zero in Hs; [lia|].
    intros g Hg. unfold isf. apply one_false. intros ->. contradiction.
  - right. assert (Hin : f ∈ fq s).
    { destruct (decide (f ∈ fq s)) as [|Hn]; [assumption|]. exfalso. pose proof (cnt_nonneg f (gstart s)).
      assert (cnt f (fq s) = 0) by (apply sumZ_zero; intros g Hg; unfold isf; apply one_false; intros ->; contradiction). lia. }
    split; [exact Hin|]. destruct (gmux s) eqn:Hm; [|reflexivity]. exfalso. pose proof (g_mux _ _ _ _ I) as Hmx. rewrite Hm in Hmx.
    rewrite sumZ_zero in Hmx; [discriminate|]. intros th Hth. apply elem_of_list_lookup in Hth as [i Hi].
    destruct th as [|q| | | | |]; try reflexivity. exfalso. destruct (st_disp _ _ Hi) as [_ He]. rewrite He in Hin. revert Hin. apply not_elem_of_nil.
Qed.
End stuck.

(** ** Every run ends *)
Definition cw (p : cpc) : Z := match p with CTest _ => 21 | CSend _ => 20 | CInc => 3 | CTry => 2 | _ => 0 end.
Definition dw (p : dpc) : Z :=
  match p with
  | DRecv => 1 | DTest _ => 16 | DCount _ => 15 | DNew _ => 12 | DId _ => 14 | DId2 _ => 13 | DPool _ => 12 | DAdd _ _ => 11 | DOnce _ => 4
  | DDec => 3 | DCheck => 2 | DUnlock => 1
  end.
Definition rw (p : rpc) : Z := match p with RSel => 0 | RCall _ => 5 | RBody => 4 | RPut _ => 3 | RPut2 _ => 2 | RPut3 _ => 1 end.
Definition thw (th : gth) : Z :=
  match th with
  | GClient _ todo _ p => 22 * Z.of_nat (length todo) + cw p
  | GDisp p => dw p
  | GRun _ p => rw p
  | _ => 0
  end.
Definition measure (c : gconf) : Z := sumZ thw (gths c) + 16 * Z.of_nat (length (fq (gsh c))) + 6 * sumZ filled (gws (gsh c)).
Lemma measure_nonneg c : 0 <= measure c.
Proof.
  unfold measure. assert (0 <= sumZ thw (gths c)) by (apply sumZ_nonneg; intros [? ? ? []|[]|? []| | | |] _; cbn; lia).
  assert (0 <= sumZ filled (gws (gsh c))) by (apply sumZ_nonneg; intros x _; unfold filled; destruct (wtask x); lia). lia.
Qed.
Lemma ostep_measure s th s' th' new : ostep min max lim s th s' th' new ->
  thw th' + sumZ thw new + 16 * Z.of_nat (length (fq s')) + 6 * sumZ filled (gws s') <
  thw th + 16 * Z.of_nat (length (fq s)) + 6 * sumZ filled (gws s).
Proof.
  intros Ho. destruct Ho; cbn [thw cw dw rw sumZ foldr]; sh; rewrite ?app_length, ?sumZ_app; cbn [length]; try lia.
  - rewrite H. cbn [length]. lia.
  - cbn [sumZ foldr]. unfold filled at 2. cbn [wtask]. lia.
  - cbn [sumZ foldr]. unfold filled at 2. cbn [wtask]. lia.
  - rewrite (sumZ_insert _ _ _ _ _ H). unfold filled at 2 3. cbn [wtask]. rewrite H0. lia.
  - rewrite (sumZ_insert _ _ _ _ _ H). unfold filled at 2 3. cbn [wtask]. lia.
  - rewrite (sumZ_insert _ _ _ _ _ H). unfold filled at 2 3. cbn [wtask]. rewrite H0. lia.
Qed.
Lemma busy_measure progs evs c : only_go progs -> ginv progs c -> Z.of_nat (busy min max lim c evs) <= measure c - measure (grun min max lim c evs).
Proof.
  intros Hgo. revert c. induction evs as [|e evs IH]; intros c I; [cbn; lia|].
  change (grun min max lim c (e :: evs)) with (grun min max lim (gconf_step min max lim c e) evs). cbn [busy].
  specialize (IH _ (ginv_step _ _ lim _ _ e Hgo I)). unfold steps. unfold gconf_step in *.
  destruct (gths c !! e.1) as [th|] eqn:Ht; [|destruct (gcrash (gsh c)); lia]. destruct (gcrash (gsh c)); [cbn; lia|]. cbn [negb andb].
  destruct (gstep min max lim (gsh c) th e.2) as [[[s' th'] new]|] eqn:Hs; [|lia].
  pose proof (ostep_measure _ _ _ _ _ (ostep_of _ _ _ _ _ _ _ _ Hgo I Ht Hs)) as Hm.
  assert (measure (GC s' (<[e.1 := th']> (gths c) ++ new)) < measure c).
  { unfold measure at 1. cbn [gths gsh]. rewrite sumZ_app, (sumZ_insert _ _ _ _ _ Ht). unfold measure. lia. }
  lia.
Qed.
Lemma measure_init progs : measure (ginit progs) = 22 * Z.of_nat (length (concat progs)).
Proof.
  unfold measure. cbn [ginit gths gsh fq gws length]. change (sumZ filled []) with 0.
  assert (H : forall n, sumZ thw (imap (fun t p => GClient (n + t) p 0 CIdle) progs) = 22 * Z.of_nat (length (concat progs))).
  { induction progs as [|p progs IH]; intros n; [reflexivity|]. cbn [imap concat]. rewrite sumZ_cons, app_length. cbn [thw cw].
    rewrite (imap_ext _ (fun t p => GClient (S n + t) p 0 CIdle)) by (intros; cbn; f_equal; lia). rewrite IH. lia. }
  specialize (H 0%nat). cbn [Nat.add] in H. rewrite H. lia.
Qed.
End pool.
