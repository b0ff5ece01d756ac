(** LimitHashMap.Clear and Len while other goroutines run. *)
From stdpp Require Import gmap.
From Coq Require Import ZArith Lia.
From Verif Require Import Conc GoList_Model Assoc_Spec Keyed_Proofs Lin_Model Lin_Spec Lin_Proofs Lin_More LinAtomic_Proofs LinObj_Model LinObj_Proofs.
From Verif Require LimitHash_Model LimitHash_Spec LimitHash_Proofs.
Local Open Scope Z_scope.

Section codes.
Context {St Op Res : Type} (body : Op -> code St Res).
Notation code := (code St Res). Notation inner := (inner St Res). Notation cfg := (cfg St Op Res). Notation thread := (thread St Op Res).
(** Every section of a code keeps [E]. *)
Section keep.
Context (E : St -> Prop).
Fixpoint kc (c : code) : Prop := match c with Fin _ => True | Peek _ _ => False | Enter i x p => (forall s, E s -> E (snd (exec p s))) /\ ki p end
with ki (p : inner) : Prop := match p with Leave c => kc c | Act f k => forall s, ki (k s) end.
Lemma ki_exec p s : ki p -> kc (fst (exec p s)).
Proof. revert s. induction p as [c|f k IH]; intros s H; [exact H|]. cbn [exec]. apply IH. apply H. Qed.
End keep.
(** Every section only looks. *)
Fixpoint roc (c : code) : Prop := match c with Fin _ => True | Peek _ _ => False | Enter i x p => readonly p /\ roi p end
with roi (p : inner) : Prop := match p with Leave c => roc c | Act f k => forall s, roi (k s) end.
Lemma roi_exec p s : roi p -> roc (fst (exec p s)).
Proof. revert s. induction p as [c|f k IH]; intros s H; [exact H|]. cbn [exec]. apply IH. apply H. Qed.

Definition opof (c : pc St Op Res) : option Op := match c with Idle => None | At o _ | In o _ _ _ => Some o end.
(** Where a goroutine can be in the code of an operation satisfying [ok]. *)
Definition inpc (ok : Op -> Prop) (Qc : code -> Prop) (Qi : inner -> Prop) (c : pc St Op Res) : Prop :=
  match c with Idle => True | At o c => ok o -> Qc c | In o _ _ p => ok o -> Qi p end.
Lemma pc_inv (ok : Op -> Prop) (Qc : code -> Prop) (Qi : inner -> Prop) :
  (forall o, ok o -> Qc (body o)) -> (forall i k s, Qc (Peek i k) -> Qc (k s)) -> (forall i x p, Qc (Enter i x p) -> Qi p) -> (forall c, Qi (Leave c) -> Qc c) -> (forall f k s, Qi (Act f k) -> Qi (k s)) ->
  forall sched (g : cfg), (forall t th, threads g !! t = Some th -> inpc ok Qc Qi (at_ th)) -> forall t th, threads (foldl (lstep1 body) g sched) !! t = Some th -> inpc ok Qc Qi (at_ th).
Proof.
  intros H0 H1 H2 H3 H4. induction sched as [|u s IH]; intros g Hg; [exact Hg|]. cbn [foldl]. apply IH. clear IH.
  unfold lstep1. destruct (threads g !! u) as [[td n c]|] eqn:Hu; [|exact Hg]. pose proof (Hg _ _ Hu) as Hc. cbn [at_] in Hc. pose proof (lookup_lt_Some _ _ _ Hu) as Hlt.
  assert (HI : forall th', inpc ok Qc Qi (at_ th') -> forall t th, <[u := th']> (threads g) !! t = Some th -> inpc ok Qc Qi (at_ th)).
  { intros th' W t th Ht. destruct (decide (t = u)) as [->|Hne]; [rewrite list_lookup_insert in Ht by exact Hlt; injection Ht as <-; exact W|]. rewrite list_lookup_insert_ne in Ht by congruence. eauto. }
  destruct c as [|o [r|i k|i [] p]|o i x [c|f k]]; cbn [inpc] in Hc.
  - destruct td as [|o td]; [exact Hg|]. apply HI. cbn. auto.
  - apply HI. exact I.
  - apply HI. cbn. eauto.
  - destruct (negb _ && _); [|exact Hg]. apply HI. cbn. eauto.
  - destruct (negb _); [|exact Hg]. apply HI. cbn. eauto.
  - apply HI. cbn. auto.
  - apply HI. cbn. eauto.
Qed.
End codes.

Section amachine.
Context {St Op Res : Type} (body : Op -> code St Res).
Notation cfg := (cfg St Op Res). Notation thread := (thread St Op Res). Notation event := (event Op Res).
Notation step := (astep body).
(** Something every goroutine keeps of a step of its own and of a step of another one. *)
Lemma athreads (g : cfg) u t th : threads (step g u) !! t = Some th -> t <> u -> threads g !! t = Some th.
Proof.
  intros H Hne. unfold astep in H. destruct (threads g !! u) as [[td n c]|]; [|exact H].
  destruct c as [|o [r|i k|i x p]|o i x p]; try exact H; [destruct td; [exact H|]|..]; cbn [threads] in H; rewrite list_lookup_insert_ne in H by congruence; exact H.
Qed.
Definition no_op (bad : Op -> Prop) (th : thread) : Prop := Forall (fun o => ~ bad o) (todo th) /\ (forall o, opof (at_ th) = Some o -> ~ bad o).
Lemma no_op_step bad (g : cfg) u : (forall t th, threads g !! t = Some th -> no_op bad th) -> forall t th, threads (step g u) !! t = Some th -> no_op bad th.
Proof.
  intros H t th Ht. destruct (decide (t = u)) as [->|Hne]; [|eapply H, athreads; eauto].
  unfold astep in Ht. destruct (threads g !! u) as [[td n c]|] eqn:Hu; [|congruence]. destruct (H _ _ Hu) as [H1 H2]. cbn [todo at_] in H1, H2. pose proof (lookup_lt_Some _ _ _ Hu) as Hlt.
  destruct c as [|o [r|i k|i x p]|o i x p]; [destruct td as [|o td]| | | |]; cbn [threads] in Ht; rewrite ?list_lookup_insert in Ht by exact Hlt; try (rewrite Hu in Ht); injection Ht as <-; (split; cbn [todo at_ opof]; [try exact H1; inversion H1; assumption|]); intros o' E; try discriminate; try (apply H2; exact E).
  injection E as <-. inversion H1. assumption.
Qed.
Lemma no_op_run bad sched (g : cfg) : (forall t th, threads g !! t = Some th -> no_op bad th) -> forall t th, threads (foldl step g sched) !! t = Some th -> no_op bad th.
Proof. revert g. induction sched as [|u s IH]; intros g H; [exact H|]. cbn [foldl]. apply IH. intros t th. apply no_op_step. exact H. Qed.
Lemma ahist_grows sched (g : cfg) : exists m, hist (foldl step g sched) = hist g ++ m.
Proof.
  revert g. induction sched as [|u s IH]; intros g; [exists []; rewrite app_nil_r; reflexivity|]. cbn [foldl]. destruct (IH (step g u)) as [m ->]. unfold astep.
  destruct (threads g !! u) as [[td n c]|]; [|eauto]. destruct c as [|o [r|i k|i x p]|o i x p]; [destruct td as [|o td]| | | |]; cbn [hist]; rewrite <- ?app_assoc; eauto.
Qed.
(** Numbers of calls. *)
Definition ids (g : cfg) : Prop := forall t n, (forall r, Return (t, n) r ∈ hist g -> exists th, threads g !! t = Some th /\ (n < calls th)%nat) /\
  (forall o, Call (t, n) o ∈ hist g -> exists th, threads g !! t = Some th /\ ((n < calls th)%nat \/ n = calls th /\ at_ th <> Idle)).
Lemma ids_step (g : cfg) u : ids g -> ids (step g u).
Proof.
  intros HI. unfold astep. destruct (threads g !! u) as [[td n c]|] eqn:Hu; [|exact HI]. pose proof (lookup_lt_Some _ _ _ Hu) as Hlt.
  assert (HX : forall td' n' c' m' l' h', (n' = S n \/ n' = n /\ c' <> Idle) ->
     (forall t k r, Return (t, k) r ∈ h' -> Return (t, k) r ∈ hist g \/ (t = u /\ (k < n')%nat)) -> (forall t k o, Call (t, k) o ∈ h' -> Call (t, k) o ∈ hist g \/ (t = u /\ k = n)) -> ids (Cfg (<[u := Thr td' n' c']> (threads g)) m' l' h')).
  { intros td' n' c' m' l' h' Hn Hr Hc t k. cbn [hist threads]. split.
    - intros r H. destruct (decide (t = u)) as [->|Hne].
      + exists (Thr td' n' c'). split; [apply list_lookup_insert; exact Hlt|]. cbn [calls]. destruct (Hr _ _ _ H) as [H'|[_ H']]; [|exact H']. destruct (proj1 (HI u k) _ H') as (th & E & L). assert (th = Thr td n c) as -> by congruence. cbn [calls] in L. lia.
      + destruct (Hr _ _ _ H) as [H'|[? _]]; [|contradiction]. destruct (proj1 (HI t k) _ H') as (th & E & L). exists th. rewrite list_lookup_insert_ne by congruence. auto.
    - intros o H. destruct (decide (t = u)) as [->|Hne].
      + exists (Thr td' n' c'). split; [apply list_lookup_insert; exact Hlt|]. cbn [calls at_]. assert (k <= n)%nat.
        { destruct (Hc _ _ _ H) as [H'|[_ ->]]; [|lia]. destruct (proj2 (HI u k) _ H') as (th & E & L). assert (th = Thr td n c) as -> by congruence. cbn [calls] in L. lia. }
        destruct Hn as [->|[-> Hn]]; [left; lia|]. destruct (decide (k = n)) as [->|]; [right; auto|left; lia].
      + destruct (Hc _ _ _ H) as [H'|[? _]]; [|contradiction]. destruct (proj2 (HI t k) _ H') as (th & E & L). exists th. rewrite list_lookup_insert_ne by congruence. auto. }
  destruct c as [|o [r|i k|i x p]|o i x p]; [destruct td as [|o td]| | | |]; try exact HI;
    (apply HX; [first [left; reflexivity|right; split; [reflexivity|discriminate]]|intros t j r' H|intros t j o' H]);
    try (left; exact H); (apply elem_of_app in H as [H|H]; [left; exact H|]); apply elem_of_list_singleton in H; try discriminate; injection H as -> -> _; right; (split; [reflexivity|try lia]).
Qed.
Lemma ids_run sched (g : cfg) : ids g -> ids (foldl step g sched).
Proof. revert g. induction sched as [|u s IH]; intros g H; [exact H|]. cbn [foldl]. apply IH, ids_step, H. Qed.
Lemma ids_start s0 ops : ids (linit s0 ops).
Proof. intros t n. unfold linit. cbn [hist]. split; [intros r H|intros o H]; apply elem_of_nil in H as []. Qed.

(** Codes that answer [r] as long as the parts below [N] satisfy [E]. *)
Section answers.
Context (E : St -> Prop) (N : nat).
Inductive answers (r : Res) : code St Res -> Prop :=
| ans_fin : answers r (Fin r)
| ans_enter i x p : (i < N)%nat -> (forall s, E s -> answers r (fst (exec p s))) -> answers r (Enter i x p).
Context (ok : Op -> Prop) (ans : Op -> Res) (Hans : forall o, ok o -> answers (ans o) (body o)).

(** If all parts satisfy [E] and stay so, the calls made from now on give the answers. *)
Record quiet (h : list event) (g : cfg) : Prop := {
  q_ok : forall t th, threads g !! t = Some th -> no_op (fun o => ~ ok o) th;
  q_kc : forall t th o c, threads g !! t = Some th -> at_ th = At o c -> kc E c;
  q_mem : forall i, (i < N)%nat -> E (mem g i);
  q_hist : exists m, hist g = h ++ m /\ forall t n o, Call (t, n) o ∈ m -> exists th, threads g !! t = Some th /\
     ((n < calls th)%nat /\ (forall r, Return (t, n) r ∈ m -> r = ans o) \/
      n = calls th /\ (forall r, Return (t, n) r ∉ m) /\ exists c, at_ th = At o c /\ answers (ans o) c) }.
Context (Hdec : forall o, ok o \/ ~ ok o) (Hkc : forall o, ok o -> kc E (body o)).
Lemma quiet_step h (g : cfg) u : ids g -> quiet h g -> quiet h (step g u).
Proof.
  intros HI [Q1 Q2 Q3 (m & Hm & Q4)]. pose proof (no_op_step _ g u Q1) as Q1'.
  destruct (threads g !! u) as [[td n c]|] eqn:Hu.
  2:{ assert (E1 : step g u = g) by (unfold astep; rewrite Hu; reflexivity). rewrite E1. constructor; eauto. }
  pose proof (lookup_lt_Some _ _ _ Hu) as Hlt.
  assert (Hok : forall t th, threads g !! t = Some th -> Forall ok (todo th)).
  { intros t th Ht. destruct (Q1 _ _ Ht) as [H _]. eapply Forall_impl; [exact H|]. cbn. intros o H'. destruct (Hdec o); tauto. }
  assert (HF : forall th' m' m2, (forall o c', at_ th' = At o c' -> kc E c') -> (forall i, (i < N)%nat -> E (m' i)) ->
     threads (step g u) = <[u := th']> (threads g) -> mem (step g u) = m' -> hist (step g u) = (h ++ m) ++ m2 ->
     (forall t k o, t <> u -> Call (t, k) o ∈ m2 -> False) -> (forall t k r, t <> u -> Return (t, k) r ∈ m2 -> False) ->
     (forall k o, Call (u, k) o ∈ m ++ m2 -> ((k < calls th')%nat /\ (forall r, Return (u, k) r ∈ m ++ m2 -> r = ans o) \/
      k = calls th' /\ (forall r, Return (u, k) r ∉ m ++ m2) /\ exists c, at_ th' = At o c /\ answers (ans o) c)) -> quiet h (step g u)).
  { intros th' m' m2 A1 A2 A3 A4 A5 A6 A7 A8. constructor; [exact Q1'| | |].
    - intros t th o c' Ht Ea. rewrite A3 in Ht. destruct (decide (t = u)) as [->|Hne]; [rewrite list_lookup_insert in Ht by exact Hlt; injection Ht as <-; eauto|]. rewrite list_lookup_insert_ne in Ht by congruence. eauto.
    - rewrite A4. exact A2.
    - exists (m ++ m2). rewrite A5, app_assoc. split; [reflexivity|]. intros t k o HC. rewrite A3. destruct (decide (t = u)) as [->|Hne].
      + exists th'. split; [apply list_lookup_insert; exact Hlt|auto].
      + apply elem_of_app in HC as [HC|HC]; [|exfalso; eauto]. destruct (Q4 _ _ _ HC) as (th & Ht & HD). exists th. split; [rewrite list_lookup_insert_ne by congruence; exact Ht|].
        destruct HD as [[L R]|(L & R & RR)]; [left|right]; (split; [exact L|]).
        * intros r HR. apply elem_of_app in HR as [HR|HR]; [eauto|exfalso; eauto].
        * split; [|exact RR]. intros r HR. apply elem_of_app in HR as [HR|HR]; [eapply R; eauto|eauto]. }
  assert (Hold : forall k o, Call (u, k) o ∈ m -> (k < n)%nat /\ (forall r, Return (u, k) r ∈ m -> r = ans o) \/ k = n /\ (forall r, Return (u, k) r ∉ m) /\ exists c0, c = At o c0 /\ answers (ans o) c0).
  { intros k o HC. destruct (Q4 _ _ _ HC) as (th & Ht & HD). assert (th = Thr td n c) as -> by congruence. exact HD. }
  destruct c as [|o c|o i x p].
  - destruct td as [|o td]; [assert (E1 : step g u = g) by (unfold astep; rewrite Hu; reflexivity); rewrite E1; constructor; eauto|].
    pose proof (Hok _ _ Hu) as Ho. cbn [todo] in Ho. apply Forall_cons in Ho as [Ho _].
    apply (HF (Thr td n (At o (body o))) (mem g) [Call (u, n) o]); try (unfold astep; rewrite Hu; cbn; congruence).
    + cbn [at_]. intros o' c' [= <- <-]. auto.
    + exact Q3.
    + intros t k o' Hne H. apply elem_of_list_singleton in H. congruence.
    + intros t k r Hne H. apply elem_of_list_singleton in H. discriminate.
    + intros k o' HC. cbn [calls at_]. apply elem_of_app in HC as [HC|HC].
      * destruct (Hold _ _ HC) as [[L R]|(L & R & c0 & E0 & _)]; [|discriminate]. left. split; [exact L|]. intros r HR. apply elem_of_app in HR as [HR|HR]; [eauto|]. apply elem_of_list_singleton in HR. discriminate.
      * apply elem_of_list_singleton in HC. injection HC as -> ->. right. split; [reflexivity|]. split; [|eauto]. intros r HR.
        apply elem_of_app in HR as [HR|HR]; [|apply elem_of_list_singleton in HR; discriminate].
        destruct (proj1 (HI u n) r) as (th & Et & L); [rewrite Hm; apply elem_of_app; auto|]. assert (th = Thr (o :: td) n Idle) as -> by congruence. cbn [calls] in L. lia.
  - destruct c as [r|i k|i x p].
    + apply (HF (Thr td (S n) Idle) (mem g) [Return (u, n) r]); try (unfold astep; rewrite Hu; cbn; congruence).
      * cbn [at_]. discriminate.
      * exact Q3.
      * intros t k o' Hne H. apply elem_of_list_singleton in H. discriminate.
      * intros t k r' Hne H. apply elem_of_list_singleton in H. congruence.
      * intros k o' HC. cbn [calls at_]. apply elem_of_app in HC as [HC|HC]; [|apply elem_of_list_singleton in HC; discriminate]. left.
        destruct (Hold _ _ HC) as [[L R]|(-> & R & c0 & E0 & A0)].
        -- split; [lia|]. intros r' HR. apply elem_of_app in HR as [HR|HR]; [eauto|]. apply elem_of_list_singleton in HR. injection HR as -> _. lia.
        -- split; [lia|]. injection E0 as -> <-. intros r' HR. apply elem_of_app in HR as [HR|HR]; [destruct (R _ HR)|]. apply elem_of_list_singleton in HR. injection HR as ->. inversion A0. reflexivity.
    + pose proof (Q2 _ _ _ _ Hu eq_refl) as [].
    + destruct (Q2 _ _ _ _ Hu eq_refl) as [K1 K2].
      apply (HF (Thr td n (At o (fst (exec p (mem g i))))) (upd (mem g) i (snd (exec p (mem g i)))) []); try (unfold astep; rewrite Hu; cbn; rewrite ?app_nil_r; congruence).
      * cbn [at_]. intros o' c' [= <- <-]. apply ki_exec. exact K2.
      * intros j Hj. destruct (decide (j = i)) as [->|Hne]; [rewrite upd_same; apply K1, Q3, Hj|rewrite upd_other by exact Hne; auto].
      * intros t k o' _ H. apply elem_of_nil in H as [].
      * intros t k o' _ H. apply elem_of_nil in H as [].
      * rewrite app_nil_r. intros k o' HC. cbn [calls at_]. destruct (Hold _ _ HC) as [[L R]|(-> & R & c0 & E0 & A0)]; [left; auto|]. right. split; [reflexivity|]. split; [exact R|].
        injection E0 as -> <-. eexists. split; [reflexivity|]. inversion A0 as [|i' x' p' Hi Ha]; subst. apply Ha, Q3, Hi.
  - assert (E1 : step g u = g) by (unfold astep; rewrite Hu; reflexivity). rewrite E1. constructor; eauto.
Qed.
Lemma quiet_run h sched (g : cfg) : ids g -> quiet h g -> quiet h (foldl step g sched).
Proof. revert g. induction sched as [|u s IH]; intros g HI H; [exact H|]. cbn [foldl]. apply IH; [apply ids_step, HI|apply quiet_step; assumption]. Qed.
End answers.
End amachine.

Section seg.
Import LimitHash_Model LimitHash_Proofs.
Context {K V : Type} (hash : K -> Z) (is_nil : V -> bool) (cap segs : Z) (Hsegs : 0 < segs).
Notation body := (sg_body hash is_nil cap segs).
Notation seg := (segment K V). Notation cfg := (cfg seg (hop K V) (hres V)). Notation N := (Z.to_nat segs).

Lemma clear_exec (n i : nat) (s : seg) : exec (act (sg_cache (fun _ => ∅)) (act (sg_order list_Init) (Leave (sg_clear (V := V) n (S i))))) s = (sg_clear n (S i), seg_clear s).
Proof. reflexivity. Qed.
Lemma sg_wf o : wfc (body o).
Proof.
  assert (HC : forall n i, wfc (sg_clear n i : code seg (hres V))) by (induction n as [|n IH]; intros i; [exact I|]; cbn; split; [discriminate|]; intros; apply IH).
  assert (HN : forall n i a, wfc (sg_len n i a : code seg (hres V))) by (induction n as [|n IH]; intros i a; [exact I|]; cbn; split; [discriminate|]; intros; apply IH).
  destruct o as [k v|k|k|k| |]; cbn [sg_body]; [| | | |apply HC|apply HN].
  - cbn [wfc]. split; [discriminate|]. unfold sg_put, look, act. cbn [wfi]. intros s. destruct (cache s !! hash k).
    + cbn [wfi]. intros s1. destruct (vals (order s1) !! n) as [[? [? ?]]|]; [|exact I]. destruct (is_nil _); cbn; auto.
    + cbn [wfi]. intros s1. destruct (cap <=? list_Len (order s1)); [|unfold sg_push, act; cbn; auto]. cbn [wfi]. intros s2. destruct (list_Back (order s2)); [|unfold sg_push, act; cbn; auto]. cbn. auto.
  - cbn [wfc]. split.
    + intros _. unfold look. cbn [readonly]. split; [reflexivity|]. intros s. destruct (cache s !! hash k); [|exact I]. cbn [readonly]. split; [reflexivity|]. intros s2. destruct (vals (order s2) !! n) as [[? [? v]]|]; [|exact I]. destruct (is_nil v); exact I.
    + unfold look. cbn [wfi]. intros s. destruct (cache s !! hash k); [|exact I]. cbn [wfi]. intros s2. destruct (vals (order s2) !! n) as [[? [? v]]|]; [|exact I]. destruct (is_nil v); exact I.
  - cbn [wfc]. split; [discriminate|]. unfold look, act. cbn [wfi]. intros s. destruct (cache s !! hash k); cbn; auto.
  - cbn. split; [auto|]. auto.
Qed.

(** Every section keeps what every segment satisfies. *)
Definition segok (s : seg) : Prop := exists l, seg_holds cap s l.
Lemma ki_section (P : seg -> Prop) (p : inner seg (hres V)) : (forall s, exists r, fst (exec p s) = Fin r) -> forall i x, (forall s, P s -> P (snd (exec p s))) -> ki P p -> kc P (Enter i x p).
Proof. intros _ i x H1 H2. split; [exact H1|exact H2]. Qed.
Lemma sg_ki_keyed (P : seg -> Prop) i x p o : body o = Enter i x p -> keyed_op o -> ki P p.
Proof.
  intros E Ho. destruct o as [k v|k|k|k| |]; cbn [sg_body keyed_op] in *; try tauto; injection E as <- <- <-.
  - unfold sg_put, look, act. cbn [ki]. intros s. destruct (cache s !! hash k).
    + cbn [ki]. intros s1. destruct (vals (order s1) !! n) as [[? [? ?]]|]; [|exact I]. destruct (is_nil _); cbn; auto.
    + cbn [ki]. intros s1. destruct (cap <=? list_Len (order s1)); [|unfold sg_push, act; cbn; auto]. cbn [ki]. intros s2. destruct (list_Back (order s2)); [|unfold sg_push, act; cbn; auto]. cbn. auto.
  - unfold look. cbn [ki]. intros s. destruct (cache s !! hash k); [|exact I]. cbn [ki]. intros s2. destruct (vals (order s2) !! n) as [[? [? v]]|]; [|exact I]. destruct (is_nil v); exact I.
  - unfold look, act. cbn [ki]. intros s. destruct (cache s !! hash k); cbn; auto.
  - cbn. auto.
Qed.
Lemma sg_section o : keyed_op o -> exists x p, body o = Enter (op_seg hash segs o) x p /\ forall s, exec p s = (Fin (fst (seg_step hash is_nil cap s o)), snd (seg_step hash is_nil cap s o)).
Proof.
  intros Ho. pose proof (sg_sound hash is_nil cap segs o Ho) as HS. unfold sound in HS. destruct (sg_body _ _ _ _ o) as [r|i k|i x p] eqn:E.
  - destruct o; cbn in E, Ho; try discriminate; tauto.
  - destruct o; cbn in E, Ho; try discriminate; tauto.
  - destruct HS as [-> HS]. exists x, p. split; [reflexivity|]. intros s. apply (HS s I).
Qed.
Lemma sg_kc (P : seg -> Prop) (ok : hop K V -> Prop) : (forall o s, ok o -> keyed_op o -> P s -> P (snd (seg_step hash is_nil cap s o))) -> (forall s, P s -> P (seg_clear s)) ->
  forall o, ok o -> kc P (body o).
Proof.
  intros H1 H2 o Ho. destruct o as [k v|k|k|k| |]; cycle 4.
  - cbn [sg_body]. generalize 0%nat. induction N as [|n IH]; intros i; [exact I|]. cbn. split; [intros s; apply H2|]. intros. apply IH.
  - cbn [sg_body]. generalize 0%nat 0. induction N as [|n IH]; intros i a; [exact I|]. cbn. split; [auto|]. intros. apply IH.
  - destruct (sg_section (HPut k v) I) as (x & p & E & Hp). rewrite E. cbn [kc]. split; [intros s Hs; rewrite Hp; apply H1; [exact Ho|exact I|exact Hs]|]. eapply sg_ki_keyed; [exact E|exact I].
  - destruct (sg_section (HGet k) I) as (x & p & E & Hp). rewrite E. cbn [kc]. split; [intros s Hs; rewrite Hp; exact Hs|]. eapply sg_ki_keyed; [exact E|exact I].
  - destruct (sg_section (HDel k) I) as (x & p & E & Hp). rewrite E. cbn [kc]. split; [intros s Hs; rewrite Hp; apply (H1 (HDel k)); [exact Ho|exact I|exact Hs]|]. eapply sg_ki_keyed; [exact E|exact I].
  - destruct (sg_section (HContains k) I) as (x & p & E & Hp). rewrite E. cbn [kc]. split; [intros s Hs; rewrite Hp; exact Hs|]. eapply sg_ki_keyed; [exact E|exact I].
Qed.
Lemma segok_step o s : segok s -> segok (snd (seg_step hash is_nil cap s o)).
Proof.
  intros [l H]. destruct o as [k v|k|k|k| |]; cbn [seg_step snd]; try (exists l; exact H).
  - pose proof (seg_put_holds hash is_nil cap (hash k) k v s l H) as HP. destruct (seg_put _ _ _ _ _ s) as [r s'], (LimitHash_Spec.hspec_put _ _ _ _ l) as [r' l']. exists l'. apply HP.
  - eexists. apply seg_del_holds. exact H.
Qed.
Lemma segok_size (s : seg) : segok s -> list_Len (order s) = Z.of_nat (size (cache s)).
Proof.
  intros (l & s0 & Hk & _). rewrite (keyed_len _ _ _ Hk). f_equal.
  assert (E : dom (cache s) = list_to_set (C := gset Z) (s0.*1)).
  { apply set_eq. intros h. rewrite elem_of_dom, elem_of_list_to_set. pose proof (keyed_None _ _ _ h Hk) as H1. rewrite find_key_None in H1. destruct (cache s !! h) as [x|].
    - split; [intros _|intros _; eauto]. destruct (decide (h ∈ s0.*1)) as [|Hn]; [assumption|]. apply H1 in Hn. discriminate.
    - split; [intros [? ?]; discriminate|]. intros Hi. exfalso. apply (proj1 H1 eq_refl). exact Hi. }
  rewrite <- size_dom, E. destruct Hk as (xs & _ & _ & Hn & _). rewrite size_list_to_set by exact Hn. rewrite fmap_length. reflexivity.
Qed.

(** A machine with the codes of [body] started with [s0]. *)
Lemma astep_keeps (P : seg -> Prop) (g : cfg) u : (forall t th o c, threads g !! t = Some th -> at_ th = At o c -> kc P c) -> forall j, P (mem g j) -> P (mem (astep body g u) j).
Proof.
  intros Hk j Hj. unfold astep. destruct (threads g !! u) as [[td n c]|] eqn:Hu; [|exact Hj]. destruct c as [|o [r|i k|i x p]|o i x p]; try exact Hj; [destruct td; exact Hj|].
  cbn [mem]. destruct (Hk _ _ _ _ Hu eq_refl) as [H _]. destruct (decide (j = i)) as [->|Hne]; [rewrite upd_same; auto|rewrite upd_other by exact Hne; exact Hj].
Qed.
Definition codes (P : seg -> Prop) (ok : hop K V -> Prop) (g : cfg) : Prop :=
  (forall t th, threads g !! t = Some th -> no_op (fun o => ~ ok o) th) /\ (forall t th o c, threads g !! t = Some th -> at_ th = At o c -> kc P c).
Lemma codes_step P (ok : hop K V -> Prop) (g : cfg) u : (forall o, ok o \/ ~ ok o) -> (forall o, ok o -> kc P (body o)) -> codes P ok g -> codes P ok (astep body g u).
Proof.
  intros Hd Hb [H1 H2]. split; [apply no_op_step; exact H1|]. intros t th o c Ht Ea. destruct (decide (t = u)) as [->|Hne]; [|eapply H2; [eapply athreads; eauto|exact Ea]].
  unfold astep in Ht. destruct (threads g !! u) as [[td n c']|] eqn:Hu; [|congruence]. pose proof (lookup_lt_Some _ _ _ Hu) as Hlt.
  destruct c' as [|o' [r|i k|i x p]|o' i x p]; [destruct td as [|o' td]| | | |]; cbn [threads] in Ht; rewrite ?list_lookup_insert in Ht by exact Hlt; try (rewrite Hu in Ht); injection Ht as <-; cbn [at_] in Ea; try discriminate; injection Ea as <- <-.
  - apply Hb. destruct (H1 _ _ Hu) as [H _]. apply Forall_cons in H as [H _]. destruct (Hd o'); tauto.
  - exact (H2 _ _ _ _ Hu eq_refl).
  - apply ki_exec. exact (proj2 (H2 _ _ _ _ Hu eq_refl)).
Qed.
Lemma codes_all P (ok : hop K V -> Prop) (s0 : nat -> seg) ops sched (a : cfg) : (forall o, ok o -> kc P (body o)) -> (forall o, ~ ok o -> ~ pending (lexec body s0 ops sched) o) -> LinAtomic_Proofs.rel (lexec body s0 ops sched) a ->
  (forall o, ok o \/ ~ ok o) -> codes P ok a.
Proof.
  intros Hb Hp HR Hd. set (g := lexec body s0 ops sched) in *.
  assert (HI : forall t th, threads g !! t = Some th -> inpc ok (kc P) (ki P) (at_ th)).
  { unfold g, lexec. apply pc_inv.
    - exact Hb.
    - intros i k s [].
    - intros i x p [_ H]. exact H.
    - intros c H. exact H.
    - intros f k s H. apply H.
    - intros t th H. unfold linit in H. cbn [threads] in H. rewrite list_lookup_fmap in H. destruct (ops !! t); [|discriminate]. injection H as <-. exact I. }
  assert (HO : forall t th, threads g !! t = Some th -> no_op (fun o => ~ ok o) th).
  { intros t th Ht. split.
    - apply Forall_forall. intros o Hin Hno. apply (Hp o Hno). exists t, th. auto.
    - intros o Eo Hno. apply (Hp o Hno). exists t, th. split; [exact Ht|]. right. destruct (at_ th); cbn in Eo; [discriminate|congruence|congruence]. }
  split.
  - intros t th Ht. rewrite (rl_thr _ _ HR), list_lookup_fmap in Ht. destruct (threads g !! t) as [th0|] eqn:E0; [|discriminate]. injection Ht as <-. destruct (HO _ _ E0) as [A B]. split; cbn [athr todo at_]; [exact A|].
    intros o Eo. apply B. destruct (at_ th0); exact Eo.
  - intros t th o c Ht Ea. rewrite (rl_thr _ _ HR), list_lookup_fmap in Ht. destruct (threads g !! t) as [th0|] eqn:E0; [|discriminate]. injection Ht as <-. cbn [athr at_] in Ea.
    pose proof (HI _ _ E0) as Hi. destruct (HO _ _ E0) as [_ Hok]. destruct (at_ th0) as [|o1 c1|o1 i x p]; cbn [apc] in Ea; [discriminate| |]; injection Ea as <- <-; cbn in Hi; specialize (Hok o1 eq_refl); assert (ok o1) by (destruct (Hd o1); tauto).
    + auto.
    + apply ki_exec. auto.
Qed.

(** ** Clear *)
Definition empty (s : seg) : Prop := cache s = ∅ /\ list_Len (order s) = 0.
Definition no_put (o : hop K V) : Prop := match o with HPut _ _ => False | _ => True end.
Lemma no_put_dec o : no_put o \/ ~ no_put o.
Proof. destruct o; cbn; tauto. Qed.
Lemma empty_kc o : no_put o -> kc empty (body o).
Proof.
  apply sg_kc.
  - intros o' s Ho _ [H1 H2]. destruct o' as [k v|k|k|k| |]; cbn in Ho; try tauto; cbn [seg_step snd]; try (split; assumption). unfold seg_del. rewrite H1, (lookup_empty (M := gmap Z)). split; assumption.
  - intros s _. split; reflexivity.
Qed.
Definition of_empty (o : hop K V) : hres V :=
  match o with HPut _ _ | HGet _ => HVal None | HContains _ => HBool false | HLen => HNum 0 | HDel _ | HClear => HUnit end.
Lemma sg_of_lt k : (sg_of hash segs k < N)%nat.
Proof. unfold sg_of. pose proof (Z.mod_pos_bound (hash k) segs Hsegs). lia. Qed.
Lemma empty_answers o : no_put o -> answers empty N (of_empty o) (body o).
Proof.
  intros Ho. destruct o as [k v|k|k|k| |]; [destruct Ho|..].
  - destruct (sg_section (HGet k) I) as (x & p & E & Hp). rewrite E. apply ans_enter; [apply sg_of_lt|]. intros s [H1 H2]. rewrite Hp. cbn [fst seg_step]. unfold seg_get. rewrite H1, (lookup_empty (M := gmap Z)). constructor.
  - destruct (sg_section (HDel k) I) as (x & p & E & Hp). rewrite E. apply ans_enter; [apply sg_of_lt|]. intros s [H1 H2]. rewrite Hp. constructor.
  - destruct (sg_section (HContains k) I) as (x & p & E & Hp). rewrite E. apply ans_enter; [apply sg_of_lt|]. intros s [H1 H2]. rewrite Hp. cbn [fst seg_step]. unfold seg_contains. rewrite H1, (lookup_empty (M := gmap Z)). constructor.
  - cbn [sg_body of_empty]. assert (H : forall n i, (i + n <= N)%nat -> answers empty N (HUnit : hres V) (sg_clear n i)); [|apply H; lia].
    induction n as [|n IH]; intros i Hi; [constructor|]. cbn [sg_clear]. apply ans_enter; [lia|]. intros s _. rewrite clear_exec. apply IH. lia.
  - cbn [sg_body of_empty]. assert (H : forall n i, (i + n <= N)%nat -> answers empty N (HNum 0 : hres V) (sg_len n i 0)); [|apply H; lia].
    induction n as [|n IH]; intros i Hi; [constructor|]. cbn [sg_len]. apply ans_enter; [lia|]. intros s [_ H]. cbn [look exec fst]. rewrite H. apply IH. lia.
Qed.
Definition clearing (t n : nat) (r : list (hop K V)) (g : cfg) : Prop := exists th, threads g !! t = Some th /\
  (th = Thr (HClear :: r) n Idle \/
   (calls th = n /\ exists m i, at_ th = At HClear (sg_clear m i) /\ (i + m = N)%nat /\ forall j, (j < i)%nat -> empty (mem g j)) \/
   ((n < calls th)%nat /\ forall j, (j < N)%nat -> empty (mem g j))).
Lemma clearing_step t n r (g : cfg) u : codes empty no_put g -> clearing t n r g -> clearing t n r (astep body g u).
Proof.
  intros [_ Hk] (th & Ht & HC). pose proof (astep_keeps empty g u Hk) as Hkeep. destruct (decide (u = t)) as [->|Hne].
  - pose proof (lookup_lt_Some _ _ _ Ht) as Hlt. destruct HC as [->|[(Ec & m & i & Ea & Hmi & He)|[Hn He]]].
    + unfold astep. rewrite Ht. exists (Thr r n (At HClear (body HClear))). cbn [threads]. split; [apply list_lookup_insert; exact Hlt|]. right. left. split; [reflexivity|]. exists N, 0%nat. split; [reflexivity|]. split; [lia|]. intros j Hj. lia.
    + destruct th as [td n0 c]. cbn [calls at_] in Ec, Ea. subst n0 c. destruct m as [|m].
      * unfold astep. rewrite Ht. cbn [sg_clear]. eexists. cbn [threads mem]. split; [apply list_lookup_insert; exact Hlt|]. right. right. cbn [calls]. split; [lia|]. intros j Hj. apply He. lia.
      * unfold astep. rewrite Ht. cbn [sg_clear]. rewrite clear_exec. cbn [fst snd]. eexists. cbn [threads mem]. split; [apply list_lookup_insert; exact Hlt|]. right. left. cbn [calls at_]. split; [reflexivity|]. exists m, (S i). split; [reflexivity|]. split; [lia|].
        intros j Hj. destruct (decide (j = i)) as [->|Hne]; [rewrite upd_same; split; reflexivity|rewrite upd_other by exact Hne; apply He; lia].
    + assert (HX : exists th', threads (astep body g t) !! t = Some th' /\ (calls th <= calls th')%nat).
      { unfold astep. rewrite Ht. destruct th as [td n0 c]. destruct c as [|o [r0|i k|i x p]|o i x p]; [destruct td as [|o td]| | | |]; cbn [threads]; rewrite ?list_lookup_insert by exact Hlt; eexists; (split; [first [reflexivity|exact Ht]|cbn [calls]; lia]). }
      destruct HX as (th' & E' & Hle). exists th'. split; [exact E'|]. right. right. split; [lia|]. auto.
  - exists th. split.
    + unfold astep. destruct (threads g !! u) as [[td n0 c]|]; [|exact Ht]. destruct c as [|o [r0|i k|i x p]|o i x p]; try exact Ht; [destruct td; [exact Ht|]|..]; cbn [threads]; rewrite list_lookup_insert_ne by exact Hne; exact Ht.
    + destruct HC as [->|[(Ec & m & i & Ea & Hmi & He)|[Hn He]]]; [auto| |]; right; [left|right]; (split; [assumption|]); [|auto]. exists m, i. split; [exact Ea|]. split; [exact Hmi|]. auto.
Qed.
Lemma clearing_run t n r sched (g : cfg) : codes empty no_put g -> clearing t n r g -> codes empty no_put (foldl (astep body) g sched) /\ clearing t n r (foldl (astep body) g sched).
Proof.
  revert g. induction sched as [|u s IH]; intros g H1 H2; [auto|]. cbn [foldl]. apply IH; [|apply clearing_step; assumption]. apply codes_step; [apply no_put_dec|apply empty_kc|exact H1].
Qed.
Theorem clear_quiescent s0 ops s1 s2 s3 t n r x more i o y :
  (forall k v, ~ pending (lexec body s0 ops s1) (HPut k v)) -> threads (lexec body s0 ops s1) !! t = Some (Thr (HClear :: r) n Idle) ->
  Return (t, n) x ∈ hist (lexec body s0 ops (s1 ++ s2)) ->
  hist (lexec body s0 ops (s1 ++ s2 ++ s3)) = hist (lexec body s0 ops (s1 ++ s2)) ++ more -> Call i o ∈ more -> Return i y ∈ more -> y = of_empty o.
Proof.
  intros Hp Ht HR HM HC HY. destruct (rel_exec body sg_wf s0 ops s1) as [s1' R1]. set (a1 := foldl (astep body) (linit s0 ops) s1') in *.
  assert (HI1 : ids a1) by (apply ids_run, ids_start).
  assert (C1 : codes empty no_put a1).
  { eapply codes_all; [apply empty_kc| |exact R1|apply no_put_dec]. intros o' Ho'. destruct o'; cbn in Ho'; try tauto. apply Hp. }
  assert (K1 : clearing t n r a1).
  { exists (Thr (HClear :: r) n Idle). split; [rewrite (rl_thr _ _ R1), list_lookup_fmap, Ht; reflexivity|auto]. }
  unfold lexec in HR, HM. rewrite !foldl_app in HM. rewrite foldl_app in HR. fold (lexec body s0 ops s1) in HR, HM.
  destruct (rel_run body sg_wf s2 _ _ R1) as [s2' R2]. destruct (rel_run body sg_wf s3 _ _ R2) as [s3' R3].
  rewrite <- (rl_hist _ _ R2) in HR, HM. rewrite <- (rl_hist _ _ R3) in HM.
  destruct (clearing_run t n r s2' a1 C1 K1) as [C2 (th & Et & K2)]. set (a2 := foldl (astep body) a1 s2') in *. assert (HI2 : ids a2) by (apply ids_run, HI1).
  destruct (proj1 (HI2 t n) _ HR) as (th' & Et' & L). assert (th' = th) as -> by congruence.
  assert (E2 : forall j, (j < N)%nat -> empty (mem a2 j)) by (destruct K2 as [->|[(Ec & _)|[_ H]]]; [cbn [calls] in L; lia|lia|exact H]).
  assert (Q : quiet empty N no_put of_empty (hist a2) (foldl (astep body) a2 s3')).
  { apply quiet_run; [apply empty_answers|apply no_put_dec|apply empty_kc|exact HI2|]. destruct C2 as [C2 C2']. constructor; [exact C2|exact C2'|exact E2|]. exists []. split; [rewrite app_nil_r; reflexivity|]. intros t' n' o' H. apply elem_of_nil in H as []. }
  destruct (q_hist _ _ _ _ _ _ Q) as (m & Hm & HQ). rewrite HM in Hm. apply app_inv_head in Hm. subst m. destruct i as [t' n']. destruct (HQ _ _ _ HC) as (th1 & _ & [[_ H]|(_ & H & _)]); [auto|]. destruct (H _ HY).
Qed.

(** ** Len *)
Definition looks (o : hop K V) : Prop := match o with HGet _ | HContains _ | HLen => True | _ => False end.
Lemma looks_dec o : looks o \/ ~ looks o.
Proof. destruct o; cbn; tauto. Qed.
Lemma looks_roc o : looks o -> roc (body o).
Proof.
  intros Ho. destruct o as [k v|k|k|k| |]; cbn in Ho; try tauto; cbn [sg_body].
  - unfold look. cbn [roc readonly roi]. split; [split; [reflexivity|]|]; intros s; (destruct (cache s !! hash k); [|exact I]).
    + cbn [readonly]. split; [reflexivity|]. intros s2. destruct (vals (order s2) !! n) as [[? [? v]]|]; [|exact I]. destruct (is_nil v); exact I.
    + cbn [roi]. intros s2. destruct (vals (order s2) !! n) as [[? [? v]]|]; [|exact I]. destruct (is_nil v); exact I.
  - cbn. auto.
  - generalize 0%nat 0. induction N as [|n IH]; intros i a; [exact I|]. cbn. split; [auto|]. intros. apply IH.
Qed.
Lemma roc_kc P c : roc c -> kc P (c : code seg (hres V)).
Proof.
  revert c. apply (code_mut _ _ (fun c => roc c -> kc P c) (fun p => roi p -> ki P p)); cbn [roc roi kc ki]; try tauto.
  - intros i x p IH [H1 H2]. split; [|exact (IH H2)]. intros s Hs. rewrite readonly_exec by exact H1. exact Hs.
  - intros f k IH H s. apply IH, H.
Qed.
Definition tot (M : nat -> seg) (i : nat) : Z := Z.of_nat (sum_list_with (fun j => size (cache (M j))) (seq 0 i)).
Lemma tot_S M i : tot M (S i) = tot M i + Z.of_nat (size (cache (M i))).
Proof. unfold tot. rewrite seq_S, sum_list_with_app. cbn [sum_list_with]. rewrite Nat.add_0_l. lia. Qed.
Definition counting (M : nat -> seg) (t n : nat) (r : list (hop K V)) (g : cfg) : Prop := (forall j, mem g j = M j) /\ (forall x, Return (t, n) x ∈ hist g -> x = HNum (tot M N)) /\ exists th, threads g !! t = Some th /\
  (th = Thr (HLen :: r) n Idle \/ (calls th = n /\ exists m i, at_ th = At HLen (sg_len m i (tot M i)) /\ (i + m = N)%nat) \/ (n < calls th)%nat).
Lemma same_mem (g : cfg) u : (forall j, codes (fun s => s = mem g j) looks g) -> forall j, mem (astep body g u) j = mem g j.
Proof. intros H j. apply (astep_keeps (fun s => s = mem g j)); [apply H|reflexivity]. Qed.
Lemma counting_step M t n r (g : cfg) u : (forall i, segok (M i)) -> (forall P, codes P looks g) -> counting M t n r g -> counting M t n r (astep body g u).
Proof.
  intros Hsg Hk (HM & HH & th & Ht & HC). split; [intros j; rewrite same_mem by auto; apply HM|]. destruct (decide (u = t)) as [->|Hne].
  - pose proof (lookup_lt_Some _ _ _ Ht) as Hlt. destruct HC as [->|[(Ec & m & i & Ea & Hmi)|Hn]].
    + unfold astep. rewrite Ht. cbn [threads hist]. split.
      * intros x Hx. apply elem_of_app in Hx as [Hx|Hx]; [auto|]. apply elem_of_list_singleton in Hx. discriminate.
      * eexists. split; [apply list_lookup_insert; exact Hlt|]. right. left. split; [reflexivity|]. exists N, 0%nat. split; [reflexivity|lia].
    + destruct th as [td n0 c]. cbn [calls at_] in Ec, Ea. subst n0 c. destruct m as [|m].
      * unfold astep. rewrite Ht. cbn [sg_len threads hist]. split.
        -- intros x Hx. apply elem_of_app in Hx as [Hx|Hx]; [auto|]. apply elem_of_list_singleton in Hx. injection Hx as ->. f_equal. f_equal. lia.
        -- eexists. split; [apply list_lookup_insert; exact Hlt|]. right. right. cbn [calls]. lia.
      * unfold astep. rewrite Ht. cbn [sg_len look exec fst snd threads hist]. split; [exact HH|]. eexists. split; [apply list_lookup_insert; exact Hlt|]. right. left. split; [reflexivity|]. exists m, (S i). split; [|lia].
        cbn [at_]. rewrite tot_S, HM, (segok_size _ (Hsg i)). reflexivity.
    + unfold astep. rewrite Ht. destruct th as [td n0 c]. cbn [calls] in Hn. destruct c as [|o [r0|i k|i x p]|o i x p]; [destruct td as [|o td]| | | |]; cbn [threads hist];
        (split; [first [exact HH|intros y Hy; apply elem_of_app in Hy as [Hy|Hy]; [auto|]; apply elem_of_list_singleton in Hy; first [discriminate|injection Hy as Hy; lia]]|]);
        rewrite ?list_lookup_insert by exact Hlt; eexists; (split; [first [reflexivity|exact Ht]|right; right; cbn [calls]; lia]).
  - split.
    + intros x. unfold astep. destruct (threads g !! u) as [[td n0 c]|]; [|apply HH]. destruct c as [|o [r0|i k|i y p]|o i y p]; try apply HH; [destruct td; [apply HH|]|]; cbn [hist]; intros Hx;
        (apply elem_of_app in Hx as [Hx|Hx]; [auto|]); apply elem_of_list_singleton in Hx; congruence.
    + exists th. split; [|exact HC]. unfold astep. destruct (threads g !! u) as [[td n0 c]|]; [|exact Ht]. destruct c as [|o [r0|i k|i x p]|o i x p]; try exact Ht; [destruct td; [exact Ht|]|..]; cbn [threads]; rewrite list_lookup_insert_ne by exact Hne; exact Ht.
Qed.
Lemma looks_kc P o : looks o -> kc P (body o).
Proof. intros H. apply roc_kc, looks_roc, H. Qed.
Lemma counting_run M t n r sched (g : cfg) : (forall i, segok (M i)) -> (forall P, codes P looks g) -> counting M t n r g -> counting M t n r (foldl (astep body) g sched).
Proof.
  intros HM. revert g. induction sched as [|u s IH]; intros g H1 H2; [auto|]. cbn [foldl]. apply IH; [|apply counting_step; assumption]. intros P. apply codes_step; [apply looks_dec|apply looks_kc|apply H1].
Qed.
Lemma segok_run s0 ops sched : (forall i, segok (s0 i)) -> forall i, segok (mem (foldl (astep body) (linit s0 ops) sched) i).
Proof.
  intros H0. assert (HK : forall o, True -> kc segok (body o)).
  { apply sg_kc; [intros o s _ _; apply segok_step|]. intros s [l H]. eexists. eapply seg_clear_holds. exact H. }
  assert (C : codes segok (fun _ => True) (linit s0 ops)).
  { split; intros t th; unfold linit; cbn [threads]; rewrite list_lookup_fmap.
    - intros _. split; [apply Forall_forall; intros o _ H; apply H; exact I|intros o _ H; apply H; exact I].
    - intros o c E Ea. destruct (ops !! t); [|discriminate]. injection E as <-. discriminate. }
  assert (HG : forall i, segok (mem (linit s0 ops : cfg) i)) by exact H0. revert C HG. generalize (linit s0 ops : cfg). clear -HK. induction sched as [|u s IH]; intros g C HG; [exact HG|]. cbn [foldl].
  apply IH; [apply codes_step; [auto|exact HK|exact C]|]. intros i. apply astep_keeps; [apply C|apply HG].
Qed.
Theorem len_quiescent ops s1 s2 t n r x : let s0 := fun _ : nat => new_segment in
  (forall o, pending (lexec body s0 ops s1) o -> looks o) -> threads (lexec body s0 ops s1) !! t = Some (Thr (HLen :: r) n Idle) ->
  Return (t, n) x ∈ hist (lexec body s0 ops (s1 ++ s2)) ->
  x = HNum (tot (mem (lexec body s0 ops s1)) N).
Proof.
  intros s0 Hp Ht HR. destruct (rel_exec body sg_wf s0 ops s1) as [s1' R1]. set (a1 := foldl (astep body) (linit s0 ops) s1') in *.
  assert (HI1 : ids a1) by (apply ids_run, ids_start).
  assert (C1 : forall P, codes P looks a1).
  { intros P. eapply codes_all; [apply looks_kc| |exact R1|apply looks_dec]. intros o Ho H. auto. }
  assert (HM : forall j, mem a1 j = mem (lexec body s0 ops s1) j).
  { set (g := lexec body s0 ops s1) in *. intros j. destruct (writer (lk g j)) eqn:W; [|apply (rl_free _ _ R1 _ W)].
    destruct (rl_locks _ _ R1 j) as (L1 & _). rewrite W in L1.
    assert (HX : exists t th, threads g !! t = Some th /\ wr j th <> 0).
    { revert L1. clear. generalize (threads g). induction l as [|z l IH]; [discriminate|]. rewrite sumZ_cons. intros H. destruct (decide (wr j z = 0)) as [E|E]; [|exists 0%nat, z; auto].
      destruct IH as (t & th & H1 & H2); [lia|]. exists (S t), th. auto. }
    destruct HX as (t' & [td n' c] & H1 & H2). unfold wr in H2. cbn [at_] in H2. destruct c as [| |o i [] p]; try congruence. destruct (Nat.eqb_spec i j) as [->|]; [|congruence].
    rewrite (rl_held _ _ R1 _ _ _ _ _ _ H1). apply readonly_exec.
    assert (HI : forall t th, threads g !! t = Some th -> inpc looks roc (fun p => readonly p /\ roi p) (at_ th)).
    { unfold g, lexec. apply pc_inv.
      - exact looks_roc.
      - intros i k s [].
      - intros i x' p' H. exact H.
      - intros c [_ H]. exact H.
      - intros f k s [[_ A] B]. split; [apply A|apply B].
      - intros t1 th H. unfold linit in H. cbn [threads] in H. rewrite list_lookup_fmap in H. destruct (ops !! t1); [|discriminate]. injection H as <-. exact I. }
    specialize (HI _ _ H1). cbn in HI. apply HI. apply Hp. exists t', (Thr td n' (In o j true p)). split; [exact H1|right; reflexivity]. }
  assert (K1 : counting (mem a1) t n r a1).
  { split; [reflexivity|]. assert (E1 : threads a1 !! t = Some (Thr (HLen :: r) n Idle)) by (rewrite (rl_thr _ _ R1), list_lookup_fmap, Ht; reflexivity). split.
    - intros y Hy. destruct (proj1 (HI1 t n) _ Hy) as (th & E & L). assert (th = Thr (HLen :: r) n Idle) as -> by congruence. cbn [calls] in L. lia.
    - eexists. split; [exact E1|auto]. }
  unfold lexec in HR. rewrite foldl_app in HR. fold (lexec body s0 ops s1) in HR.
  destruct (rel_run body sg_wf s2 _ _ R1) as [s2' R2]. rewrite <- (rl_hist _ _ R2) in HR.
  assert (HS : forall i, segok (mem a1 i)) by (apply segok_run; intros i; exists []; apply new_segment_holds).
  destruct (counting_run _ t n r s2' a1 HS C1 K1) as (_ & K2 & _). rewrite (K2 _ HR). f_equal. unfold tot. f_equal. clear -HM. generalize (seq 0 N). induction l as [|z l IH]; [reflexivity|]. cbn [sum_list_with]. rewrite HM, IH. reflexivity.
Qed.
End seg.
