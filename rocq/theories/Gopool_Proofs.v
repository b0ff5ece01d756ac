(** Proofs about the gopool model. *)
From stdpp Require Import list.
From Coq Require Import ZArith Lia ZifyBool.
From Verif Require Import Conc Gopool_Model Gopool_Spec.
Local Open Scope Z_scope.

(** ** Counting *)
Definition one (P : Prop) `{Decision P} : Z := if decide P then 1 else 0.
Lemma one_nonneg P `{Decision P} : 0 <= one P.
Proof. unfold one. destruct (decide P); lia. Qed.
Lemma one_le P `{Decision P} : one P <= 1.
Proof. unfold one. destruct (decide P); lia. Qed.
Definition isf (g f : fid) : Z := one (g = f).
Lemma isf_nonneg g f : 0 <= isf g f.
Proof. apply one_nonneg. Qed.
Lemma isf_same f : isf f f = 1.
Proof. unfold isf, one. rewrite decide_True by reflexivity. reflexivity. Qed.
Definition cnt (f : fid) (l : list fid) : Z := sumZ (fun x => isf x f) l.
Lemma cnt_cons f x l : cnt f (x :: l) = isf x f + cnt f l.
Proof. reflexivity. Qed.
Lemma cnt_app f l1 l2 : cnt f (l1 ++ l2) = cnt f l1 + cnt f l2.
Proof. apply sumZ_app. Qed.
Lemma cnt_nonneg f l : 0 <= cnt f l.
Proof. apply sumZ_nonneg. intros. apply isf_nonneg. Qed.
Lemma cnt_elem f l : f ∈ l -> 1 <= cnt f l.
Proof.
  induction l as [|x l IH]; intros Hin; [exfalso; revert Hin; apply not_elem_of_nil|]. rewrite cnt_cons. apply elem_of_cons in Hin as [<-|Hin].
  - pose proof (cnt_nonneg f l). rewrite isf_same. lia.
  - specialize (IH Hin). pose proof (isf_nonneg x f). lia.
Qed.
Lemma cnt_NoDup l : (forall f, cnt f l <= 1) -> NoDup l.
Proof.
  induction l as [|x l IH]; intros Hc; [constructor|]. constructor.
  - intros Hin. pose proof (cnt_elem x l Hin). specialize (Hc x). rewrite cnt_cons in Hc. rewrite isf_same in Hc. lia.
  - apply IH. intros f. specialize (Hc f). rewrite cnt_cons in Hc. pose proof (isf_nonneg x f). lia.
Qed.

(** ** Each function is in one place *)
Definition chold (f : fid) (p : cpc) : Z := match p with CTest g | CSend g => isf g f | _ => 0 end.
Definition dhold (f : fid) (p : dpc) : Z :=
  match p with DTest g | DCount g | DNew g | DId g | DId2 g | DPool g | DAdd g _ => isf g f | _ => 0 end.
Definition hold (f : fid) (th : gth) : Z :=
  match th with
  | GClient _ _ _ p => chold f p
  | GDisp p => dhold f p
  | GRun _ (RCall g) | GPlain g => isf g f
  | _ => 0
  end.
Definition fut (t k : nat) (f : fid) : Z := one (t = f.1 /\ (k <= f.2)%nat).
Lemma fut_nonneg t k f : 0 <= fut t k f.
Proof. apply one_nonneg. Qed.
Definition future (f : fid) (th : gth) : Z := match th with GClient t _ k _ => fut t k f | _ => 0 end.
Definition tok (f : fid) (th : gth) : Z := hold f th + future f th.
Definition tasks (f : fid) (ws : list gworker) : Z := sumZ (fun w => one (wtask w = Some f)) ws.
Definition rest (f : fid) (s : gshared) : Z := cnt f (fq s) + tasks f (gws s) + cnt f (gstart s).
Lemma hold_nonneg f th : 0 <= hold f th.
Proof. destruct th as [t todo k []|[]|w []| | | |]; cbn; try lia; apply isf_nonneg. Qed.
Lemma tok_nonneg f th : 0 <= tok f th.
Proof. unfold tok. pose proof (hold_nonneg f th). unfold future. destruct th; try lia. pose proof (fut_nonneg t k f). lia. Qed.
Lemma tasks_nonneg f ws : 0 <= tasks f ws.
Proof. apply sumZ_nonneg. intros. apply one_nonneg. Qed.
Lemma rest_nonneg f s : 0 <= rest f s.
Proof. unfold rest. pose proof (cnt_nonneg f (fq s)). pose proof (cnt_nonneg f (gstart s)). pose proof (tasks_nonneg f (gws s)). lia. Qed.
Lemma one_false P `{Decision P} : ~ P -> one P = 0.
Proof. intros. unfold one. rewrite decide_False by assumption. reflexivity. Qed.
Lemma one_Some (f g : fid) : one (Some g = Some f) = isf g f.
Proof. unfold isf, one. destruct (decide (Some g = Some f)), (decide (g = f)); congruence. Qed.

Section pool.
Context (min max lim : Z).
Ltac fin := unfold rest; cbn [fq gws gstart s_fq s_fqc s_pq s_pqc s_gid s_count s_tnum s_mux s_close s_flag s_ctx s_ws s_start s_crash
  hold chold dhold future sumZ foldr]; lia.
Lemma step_tok f s th ch s' th' new : gstep min max lim s th ch = Some (s', th', new) ->
  hold f th' + sumZ (hold f) new + rest f s' <= hold f th + future f th - future f th' - sumZ (future f) new + rest f s /\
  (future f th' <= future f th) /\ sumZ (future f) new = 0.
Proof.
  intros Hs. destruct th as [t todo k p|p|w p|g| | |]; cbn [gstep] in Hs.
  - destruct p as [|g|g| | | | | | | |off|off].
    + destruct todo as [|a todo]; [discriminate|]. injection Hs as <- <- <-. rewrite !sumZ_zero by (intros ? ?%not_elem_of_nil; tauto).
      assert (Hf : future f (GClient t (a :: todo) k CIdle) = fut t (S k) f + isf (t, k) f).
      { destruct f as [f1 f2]. cbn [future]. unfold fut, isf, one. cbn [fst snd]. destruct (decide (@eq fid (t, k) (f1, f2))) as [E|E].
        - injection E as -> ->. rewrite decide_True by lia. rewrite decide_False by lia. reflexivity.
        - destruct (decide (t = f1 /\ (S k <= f2)%nat)) as [[-> H]|H]; [rewrite decide_True by lia; reflexivity|].
          rewrite decide_False; [reflexivity|]. intros [-> Hk]. destruct (decide (k = f2)) as [->|]; [congruence|]. apply H. lia. }
      cbn [hold chold] in *. rewrite Hf. cbn [future]. pose proof (isf_nonneg (t, k) f). destruct a; cbn [chold]; lia.
    + destruct (gclose s); injection Hs as <- <- <-; cbn [hold chold future sumZ foldr]; lia.
    + destruct (fqc s); [injection Hs as <- <- <-|destruct (_ <? lim); [|discriminate]; injection Hs as <- <- <-];
        cbn [hold chold future sumZ foldr]; unfold rest; cbn [fq gws gstart s_fq s_crash]; rewrite ?cnt_app, ?cnt_cons;
        pose proof (isf_nonneg g f); pose proof (fut_nonneg t k f); change (cnt f []) with 0; lia.
    + injection Hs as <- <- <-. fin.
    + destruct (gmux s); injection Hs as <- <- <-; fin.
    + destruct (gflag s); injection Hs as <- <- <-; fin.
    + injection Hs as <- <- <-. fin.
    + injection Hs as <- <- <-. fin.
    + injection Hs as <- <- <-. fin.
    + injection Hs as <- <- <-. fin.
    + destruct (gflag s); injection Hs as <- <- <-; fin.
    + injection Hs as <- <- <-. fin.
  - destruct p as [|g|g|g|g|g|g|g w|w| | |].
    + destruct (fq s) as [|g q] eqn:Hq.
      * destruct (fqc s); [|discriminate]. injection Hs as <- <- <-. fin.
      * injection Hs as <- <- <-. cbn [hold dhold future sumZ foldr]. unfold rest. cbn [fq gws gstart s_fq]. rewrite Hq, cnt_cons. lia.
    + destruct (gclose s); injection Hs as <- <- <-; cbn [hold dhold future sumZ foldr]; lia.
    + injection Hs as <- <- <-. unfold rest. cbn [fq gws gstart s_count]. destruct (_ && _); cbn [hold dhold future sumZ foldr]; lia.
    + injection Hs as <- <- <-. unfold rest. cbn [fq gws gstart s_gid s_ws hold dhold future sumZ foldr]. unfold tasks. rewrite sumZ_app.
      cbn [sumZ foldr wtask]. rewrite one_false by discriminate. lia.
    + injection Hs as <- <- <-. destruct (min <? gid s); cbn [hold dhold future sumZ foldr]; lia.
    + destruct (_ <=? min); injection Hs as <- <- <-; unfold rest; cbn [fq gws gstart s_gid s_ws hold dhold future sumZ foldr]; unfold tasks; rewrite ?sumZ_app;
      cbn [sumZ foldr wtask]; rewrite ?one_false by discriminate; lia.
    + destruct (pq s) as [|w q] eqn:Hq.
      * destruct (pqc s); [|discriminate]. injection Hs as <- <- <-. cbn [hold dhold future sumZ foldr]. pose proof (isf_nonneg g f). lia.
      * injection Hs as <- <- <-. unfold rest. cbn [fq gws gstart s_pq hold dhold future sumZ foldr]. lia.
    + destruct (gws s !! w) as [x|] eqn:Hx; [|discriminate]. destruct (wtask x) eqn:Ht; [discriminate|]. injection Hs as <- <- <-.
      unfold rest. cbn [fq gws gstart s_ws hold dhold future sumZ foldr]. unfold tasks. rewrite (sumZ_insert _ _ _ _ _ Hx). cbn [wtask].
      rewrite one_Some, Ht. rewrite (one_false (None = Some f)) by discriminate. lia.
    + destruct (gws s !! w) as [x|] eqn:Hx; [|discriminate]. destruct (wonce x) eqn:Ht; injection Hs as <- <- <-; cbn [hold dhold future sumZ foldr]; [lia|].
      unfold rest. cbn [fq gws gstart s_ws]. unfold tasks. rewrite (sumZ_insert _ _ _ _ _ Hx). cbn [wtask]. lia.
    + injection Hs as <- <- <-. unfold rest. cbn [fq gws gstart s_tnum]. destruct (_ <=? 0); cbn [hold dhold future sumZ foldr]; lia.
    + injection Hs as <- <- <-. destruct (0 <? gtnum s); cbn [hold dhold future sumZ foldr]; lia.
    + injection Hs as <- <- <-. fin.
  - destruct (gws s !! w) as [x|] eqn:Hx; [|discriminate]. destruct p as [|g| |d|d|d].
    + destruct (gctx s && ch); [injection Hs as <- <- <-; fin|]. destruct (wtask x) as [g|] eqn:Ht; [|discriminate]. injection Hs as <- <- <-.
      unfold rest. cbn [fq gws gstart s_ws hold dhold future sumZ foldr]. unfold tasks. rewrite (sumZ_insert _ _ _ _ _ Hx). cbn [wtask].
      rewrite Ht, one_Some. rewrite (one_false (None = Some f)) by discriminate. lia.
    + injection Hs as <- <- <-. unfold rest. cbn [fq gws gstart s_start hold dhold future sumZ foldr]. rewrite cnt_app, cnt_cons. change (cnt f []) with 0. lia.
    + injection Hs as <- <- <-. fin.
    + injection Hs as <- <- <-. fin.
    + destruct (_ && _); injection Hs as <- <- <-; fin.
    + destruct (pqc s); [destruct d; injection Hs as <- <- <-; fin|]. destruct (_ <? min); [|discriminate].
      injection Hs as <- <- <-. fin.
  - injection Hs as <- <- <-. unfold rest. cbn [fq gws gstart s_start hold dhold future sumZ foldr]. rewrite cnt_app, cnt_cons. change (cnt f []) with 0. lia.
  - injection Hs as <- <- <-. destruct ch; fin.
  - injection Hs as <- <- <-. fin.
  - discriminate.
Qed.
Lemma step_future f s th ch s' th' new : gstep min max lim s th ch = Some (s', th', new) ->
  (exists t todo k, th = GClient t todo k CIdle) \/ future f th' = future f th \/ (hold f th' = 0 /\ rest f s' = rest f s /\ sumZ (hold f) new = 0).
Proof.
  intros Hs. destruct th as [t todo k p|p|w p|g| | |]; cbn [gstep] in Hs.
  - destruct p as [|g|g| | | | | | | |off|off]; [left; eauto|..]; right.
    2: { destruct (fqc s); [injection Hs as <- <- <-; right; auto|]. destruct (_ <? lim); [|discriminate]. injection Hs as <- <- <-. auto. }
    all: left; repeat match type of Hs with context [match ?x with _ => _ end] => destruct x end; simplify_eq/=; reflexivity.
  - right. left. repeat match type of Hs with context [match ?x with _ => _ end] => destruct x end; simplify_eq/=; reflexivity.
  - right. left. repeat match type of Hs with context [match ?x with _ => _ end] => destruct x end; simplify_eq/=; reflexivity.
  - right. left. simplify_eq/=; reflexivity.
  - right. left. simplify_eq/=; reflexivity.
  - right. left. simplify_eq/=; reflexivity.
  - discriminate.
Qed.

(** ** At most once *)
Definition tot (f : fid) (c : gconf) : Z := sumZ (tok f) (gths c) + rest f (gsh c).
Definition held (f : fid) (c : gconf) : Z := sumZ (hold f) (gths c) + rest f (gsh c).
Record once_inv (progs : list (list gact)) (c : gconf) : Prop := {
  o_tot : forall f, tot f c <= 1;
  o_held : forall f, 0 < held f c -> submits progs f;
  o_cl : forall i t todo k p, gths c !! i = Some (GClient t todo k p) ->
    i = t /\ exists full, progs !! t = Some full /\ todo = drop k full /\ (k <= length full)%nat }.
Lemma sum_tok f ths : sumZ (tok f) ths = sumZ (hold f) ths + sumZ (future f) ths.
Proof. induction ths as [|x l IH]; [reflexivity|]. rewrite !sumZ_cons, IH. unfold tok. lia. Qed.
Lemma client_new s th ch s' th' new : gstep min max lim s th ch = Some (s', th', new) -> forall x, x ∈ new -> forall t todo k p, x <> GClient t todo k p.
Proof.
  intros Hs x Hx t todo k p ->. destruct th as [t0 todo0 k0 q|q|w q|g| | |]; cbn [gstep] in Hs;
  repeat match type of Hs with context [match ?x with _ => _ end] => destruct x end; simplify_eq/=;
  try (apply elem_of_list_singleton in Hx; discriminate); try (revert Hx; apply not_elem_of_nil).
Qed.
Lemma client_next s th ch s' new t todo k p : gstep min max lim s th ch = Some (s', GClient t todo k p, new) ->
  exists todo0 k0 p0, th = GClient t todo0 k0 p0 /\ (todo0 = todo /\ k0 = k \/ exists a, todo0 = a :: todo /\ k = S k0).
Proof.
  intros Hs. destruct th as [t0 todo0 k0 q|q|w q|g| | |]; cbn [gstep] in Hs;
  repeat match type of Hs with context [match ?x with _ => _ end] => destruct x end; simplify_eq/=; eauto 10.
Qed.
Lemma once_step progs c e : once_inv progs c -> once_inv progs (gconf_step min max lim c e).
Proof.
  intros I. unfold gconf_step. destruct (gcrash (gsh c)); [exact I|]. destruct (gths c !! e.1) as [th|] eqn:Ht; [|exact I].
  destruct (gstep min max lim (gsh c) th e.2) as [[[s' th'] new]|] eqn:Hs; [|exact I].
  assert (Hlt : (e.1 < length (gths c))%nat) by (apply lookup_lt_Some in Ht; exact Ht).
  assert (Hsum : forall g : gth -> Z, sumZ g (<[e.1 := th']> (gths c) ++ new) = sumZ g (gths c) - g th + g th' + sumZ g new).
  { intros g. rewrite sumZ_app, (sumZ_insert _ _ _ _ _ Ht). reflexivity. }
  split.
  - intros f. pose proof (o_tot _ _ I f) as Ho. unfold tot in *. cbn [gths gsh]. rewrite Hsum, !sum_tok. rewrite sum_tok in Ho.
    pose proof (step_tok f _ _ _ _ _ _ Hs) as (H1 & H2 & H3). unfold tok in *. rewrite ?sum_tok in *. lia.
  - intros f Hf. destruct (decide (0 < held f c)) as [Hh|Hh]; [exact (o_held _ _ I f Hh)|].
    unfold held in *. cbn [gths gsh] in Hf. rewrite Hsum in Hf.
    pose proof (step_tok f _ _ _ _ _ _ Hs) as (H1 & H2 & H3).
    pose proof (sumZ_lookup (hold f) _ _ _ ltac:(intros; apply hold_nonneg) Ht) as Hl. pose proof (hold_nonneg f th). pose proof (rest_nonneg f (gsh c)).
    destruct (step_future f _ _ _ _ _ _ Hs) as [(t & todo & k & ->)|[Hfu|(Hz & Hr & Hn)]]; [|exfalso; lia|exfalso; lia].
    cbn [gstep] in Hs. destruct todo as [|a todo]; [discriminate|]. injection Hs as <- <- <-.
    destruct (o_cl _ _ I _ _ _ _ _ Ht) as (_ & full & Hfull & Hdrop & _).
    destruct a; cbn [hold chold sumZ foldr] in *; try (exfalso; lia).
    unfold isf, one in *. destruct (decide (@eq fid (t, k) f)) as [<-|]; [|exfalso; lia].
    exists full. cbn [fst snd]. split; [exact Hfull|]. rewrite <- (Nat.add_0_r k), <- lookup_drop, <- Hdrop. reflexivity.
  - intros i t todo k p Hi. cbn [gths] in Hi. apply lookup_app_Some in Hi as [Hi|[_ Hi]].
    + destruct (decide (i = e.1)) as [->|Hn].
      * rewrite list_lookup_insert in Hi by exact Hlt. injection Hi as ->. destruct (client_next _ _ _ _ _ _ _ _ _ Hs) as (todo0 & k0 & p0 & -> & Hor).
        destruct (o_cl _ _ I _ _ _ _ _ Ht) as (Hi & full & Hfull & Hdrop & Hk). split; [exact Hi|]. exists full. split; [exact Hfull|].
        destruct Hor as [[-> ->]|(a & -> & ->)]; [auto|]. 
        assert (Hkl : full !! k0 = Some a) by (rewrite <- (Nat.add_0_r k0), <- lookup_drop, <- Hdrop; reflexivity).
        apply lookup_lt_Some in Hkl as Hlen. split; [|lia]. rewrite (drop_S _ _ _ Hkl) in Hdrop. congruence.
      * rewrite list_lookup_insert_ne in Hi by congruence. exact (o_cl _ _ I _ _ _ _ _ Hi).
    + exfalso. exact (client_new _ _ _ _ _ _ Hs _ (elem_of_list_lookup_2 _ _ _ Hi) t todo k p eq_refl).
Qed.
Lemma once_run progs evs c : once_inv progs c -> once_inv progs (grun min max lim c evs).
Proof. revert c. induction evs as [|e evs IH]; intros c I; [exact I|]. exact (IH _ (once_step _ _ e I)). Qed.
Lemma init_tok f (progs : list (list gact)) : sumZ (tok f) (imap (fun t p => GClient t p 0 CIdle) progs) = one (f.1 < length progs)%nat.
Proof.
  assert (H : forall n, sumZ (tok f) (imap (fun t p => GClient (n + t) p 0 CIdle) progs) = one (n <= f.1 < n + length progs)%nat).
  { induction progs as [|p progs IH]; intros n.
    - cbn. unfold one. rewrite decide_False by lia. reflexivity.
    - cbn [imap]. rewrite sumZ_cons. rewrite (imap_ext _ (fun t p => GClient (S n + t) p 0 CIdle)) by (intros; cbn; f_equal; lia).
      rewrite IH. unfold tok. cbn [hold chold future length]. unfold fut, one. rewrite Nat.add_0_r.
      destruct (decide (n = f.1 /\ (0 <= f.2)%nat)) as [[-> _]|Hd].
      + rewrite decide_False by lia. rewrite decide_True by lia. reflexivity.
      + assert (n <> f.1) by (intros ->; apply Hd; lia). destruct (decide (S n <= f.1 < S n + length progs)%nat).
        * rewrite decide_True by lia. reflexivity.
        * rewrite decide_False by lia. reflexivity. }
  specialize (H 0%nat). cbn [Nat.add] in H. rewrite H. unfold one.
  destruct (decide (0 <= f.1 < length progs)%nat), (decide (f.1 < length progs)%nat); lia.
Qed.
Lemma once_init progs : once_inv progs (ginit progs).
Proof.
  split.
  - intros f. unfold tot. cbn [ginit gths gsh]. rewrite init_tok. unfold rest. cbn. pose proof (one_le (f.1 < length progs)%nat). lia.
  - intros f Hf. exfalso. unfold held in Hf. cbn [ginit gths gsh] in Hf. unfold rest in Hf. cbn in Hf.
    rewrite sumZ_zero in Hf; [lia|]. intros th Hin. apply elem_of_list_lookup in Hin as [i Hi].
    rewrite list_lookup_imap in Hi. destruct (progs !! i); [|discriminate]. injection Hi as <-. reflexivity.
  - intros i t todo k p Hi. cbn [ginit gths] in Hi. rewrite list_lookup_imap in Hi. destruct (progs !! i) as [full|] eqn:Hf; [|discriminate].
    injection Hi as <- <- <- <-. split; [reflexivity|]. exists full. cbn. split; [exact Hf|]. split; [reflexivity|lia].
Qed.
End pool.
