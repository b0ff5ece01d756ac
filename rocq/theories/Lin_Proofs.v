(** Objects whose methods are each one critical section are linearizable. *)
From stdpp Require Import list.
From Coq Require Import ZArith Lia.
From Verif Require Import Conc Lin_Model Lin_Spec.
Local Open Scope Z_scope.

Lemma upd_same {A} (f : nat -> A) i a : upd f i a i = a.
Proof. unfold upd. rewrite Nat.eqb_refl. reflexivity. Qed.
Lemma upd_other {A} (f : nat -> A) i j a : j <> i -> upd f i a j = f j.
Proof. unfold upd. intros H. destruct (Nat.eqb_spec j i); [contradiction|reflexivity]. Qed.

Section lin.
Context {St Op Res : Type} (body : Op -> code St Res) (seq : St -> Op -> Res * St) (lockof : Op -> nat) (ok : Op -> Prop) (inv : St -> Prop).
Notation code := (code St Res). Notation inner := (inner St Res). Notation event := (event Op Res). Notation cfg := (cfg St Op Res). Notation thread := (thread St Op Res). Notation pc := (pc St Op Res).
Notation order := (@order Op Res).

(** One operation on one of many parts. *)
Definition vseq (A : nat -> St) (o : Op) : Res * (nat -> St) := (fst (seq (A (lockof o)) o), upd A (lockof o) (snd (seq (A (lockof o)) o))).

(** What the operations without lock see. *)
Definition alike (i : nat) (s A : St) : Prop := forall o k, ok o -> body o = Peek i k -> k s = k A.
Fixpoint readonly (p : inner) : Prop := match p with Leave _ => True | Act f k => (forall s, f s = s) /\ forall s, readonly (k s) end.
(** They see the new state from here on. *)
Fixpoint settled (i : nat) (A' : St) (p : inner) (s : St) : Prop :=
  alike i s A' /\ match p with Leave _ => True | Act f k => settled i A' (k s) (f s) end.
(** They see the old state up to one step, and the new state from there on. *)
Fixpoint tidy (i : nat) (A A' : St) (p : inner) (s : St) : Prop :=
  alike i s A /\ match p with Leave _ => True | Act f k => tidy i A A' (k s) (f s) \/ settled i A' (k s) (f s) end.
(** The operation is done in one critical section of its lock, which does what it should. *)
Definition sound (o : Op) : Prop :=
  match body o with
  | Fin r => forall s, inv s -> seq s o = (r, s)
  | Peek i k => i = lockof o /\ forall s, inv s -> k s = Fin (fst (seq s o)) /\ snd (seq s o) = s
  | Enter i x p => i = lockof o /\ forall s, inv s ->
      exec p s = (Fin (fst (seq s o)), snd (seq s o)) /\ (if x then tidy i s (snd (seq s o)) p s else readonly p /\ snd (seq s o) = s)
  end.
Context (Hsound : forall o, ok o -> sound o) (Hinv : forall s o, ok o -> inv s -> inv (snd (seq s o))).
Context (s0 : nat -> St) (Hs0 : forall i, inv (s0 i)).

Lemma settled_alike i A' p s : settled i A' p s -> alike i s A'.
Proof. destruct p; intros [H _]; exact H. Qed.
Lemma tidy_alike i A A' p s : tidy i A A' p s -> alike i s A.
Proof. destruct p; intros [H _]; exact H. Qed.
Lemma readonly_exec p s : readonly p -> snd (exec p s) = s.
Proof. revert s. induction p as [c|f k IH]; intros s; [reflexivity|]. cbn [readonly exec]. intros [H1 H2]. rewrite (IH s _ (H2 s)). apply H1. Qed.

(** ** The order built so far *)
Definition logged (l : order) (i : id) : Prop := i ∈ (fst ∘ fst <$> l).
Record Log (h : list event) (A : nat -> St) (l : order) : Prop := {
  lg_seq : in_turn vseq s0 (snd ∘ fst <$> l) = (snd <$> l, A);
  lg_inv : forall i, inv (A i);
  lg_nodup : NoDup (fst ∘ fst <$> l);
  lg_call : forall i o r, (i, o, r) ∈ l -> Call i o ∈ h;
  lg_ret : forall i r, Return i r ∈ h -> exists o, (i, o, r) ∈ l;
  lg_order : forall i j o r, returned_before h i j -> (j, o, r) ∈ l -> before l i j }.

Lemma in_turn_snoc {S} (step : S -> Op -> Res * S) s os o :
  in_turn step s (os ++ [o]) = (fst (in_turn step s os) ++ [fst (step (snd (in_turn step s os)) o)], snd (step (snd (in_turn step s os)) o)).
Proof.
  revert s. induction os as [|a os IH]; intros s; cbn [in_turn app].
  - cbn [fst snd app]. destruct (step s o) as [x s1]. reflexivity.
  - destruct (step s a) as [x s1]. rewrite IH. destruct (in_turn step s1 os) as [xs s2]. reflexivity.
Qed.
Lemma elem_logged l i o r : (i, o, r) ∈ l -> logged l i.
Proof. intros H. apply elem_of_list_fmap. exists (i, o, r). auto. Qed.
Lemma logged_elem l i : logged l i -> exists o r, (i, o, r) ∈ l.
Proof. intros H. apply elem_of_list_fmap in H as ([[i' o] r] & -> & H). eauto. Qed.
Lemma before_app (l e : order) i j : before l i j -> before (l ++ e) i j.
Proof. intros (m & n & H & H1 & H2). exists m, n. rewrite fmap_app. split; [exact H|]. split; apply lookup_app_l_Some; assumption. Qed.
Lemma before_last (l : order) i j o r : logged l i -> before (l ++ [(j, o, r)]) i j.
Proof.
  intros H. apply elem_of_list_lookup in H as [m Hm]. exists m, (length l). rewrite fmap_app. pose proof (lookup_lt_Some _ _ _ Hm) as L. rewrite fmap_length in L. split; [exact L|].
  split; [apply lookup_app_l_Some; exact Hm|]. rewrite lookup_app_r by (rewrite fmap_length; lia). rewrite fmap_length, Nat.sub_diag. reflexivity.
Qed.
Lemma log_start : Log [] s0 [].
Proof.
  constructor; [reflexivity|exact Hs0|constructor|intros i o r H; apply elem_of_nil in H; destruct H|intros i r H; apply elem_of_nil in H; destruct H|].
  intros i j o r _ H. apply elem_of_nil in H. destruct H.
Qed.
(** An operation takes effect. *)
Lemma log_commit h A l i o : Log h A l -> ok o -> Call i o ∈ h -> ~ logged l i ->
  Log h (snd (vseq A o)) (l ++ [(i, o, fst (seq (A (lockof o)) o))]).
Proof.
  intros [L1 L2 L3 L4 L5 L6] Hok Hc Hn. constructor.
  - rewrite !fmap_app. cbn [fmap list_fmap]. rewrite in_turn_snoc, L1. reflexivity.
  - intros j. cbn [vseq snd]. destruct (decide (j = lockof o)) as [->|]; [rewrite upd_same; apply Hinv; auto|rewrite upd_other by assumption; apply L2].
  - rewrite fmap_app. apply NoDup_app. split; [exact L3|]. split; [|apply NoDup_singleton]. intros x Hx Hx'. apply elem_of_list_singleton in Hx'. cbn in Hx'. subst. contradiction.
  - intros i' o' r' H. apply elem_of_app in H as [H|H]; [eauto|]. apply elem_of_list_singleton in H. injection H as -> -> _. exact Hc.
  - intros i' r' H. destruct (L5 _ _ H) as [o' Ho]. exists o'. apply elem_of_app. left. exact Ho.
  - intros i' j o' r' H Hj. apply elem_of_app in Hj as [Hj|Hj]; [apply before_app; eapply L6; eassumption|]. apply elem_of_list_singleton in Hj. injection Hj as -> -> ->. apply before_last.
    destruct H as (m & n & r & o'' & _ & Hm & _). apply elem_of_list_lookup_2 in Hm. destruct (L5 _ _ Hm) as [o3 Ho]. eapply elem_logged. exact Ho.
Qed.
Lemma returned_before_snoc (h : list event) e i j : returned_before (h ++ [e]) i j -> returned_before h i j \/ exists o, e = Call j o.
Proof.
  intros (m & n & r & o & Hlt & Hm & Hn). destruct (decide (n < length h)%nat) as [H|H].
  - left. exists m, n, r, o. rewrite lookup_app_l in Hm, Hn by lia. auto.
  - right. exists o. rewrite lookup_app_r in Hn by lia. apply elem_of_list_lookup_2, elem_of_list_singleton in Hn. congruence.
Qed.
Lemma log_call h A l i o : Log h A l -> ~ logged l i -> Log (h ++ [Call i o]) A l.
Proof.
  intros [L1 L2 L3 L4 L5 L6] Hn. constructor; try assumption.
  - intros i' o' r' H. apply elem_of_app. left. eauto.
  - intros i' r' H. apply elem_of_app in H as [H|H]; [eauto|]. apply elem_of_list_singleton in H. discriminate.
  - intros i' j o' r' H Hj. apply returned_before_snoc in H as [H|[o'' H]]; [eauto|]. injection H as -> ->. destruct Hn. eapply elem_logged. exact Hj.
Qed.
Lemma log_return h A l i o r : Log h A l -> (i, o, r) ∈ l -> Log (h ++ [Return i r]) A l.
Proof.
  intros [L1 L2 L3 L4 L5 L6] Hi. constructor; try assumption.
  - intros i' o' r' H. apply elem_of_app. left. eauto.
  - intros i' r' H. apply elem_of_app in H as [H|H]; [eauto|]. apply elem_of_list_singleton in H. injection H as -> ->. eauto.
  - intros i' j o' r' H Hj. apply returned_before_snoc in H as [H|[o'' H]]; [eauto|]. discriminate.
Qed.

(** ** The goroutines *)
Definition tst (h : list event) (m A : nat -> St) (l : order) (t n : nat) (c : pc) : Prop :=
  match c with
  | Idle => True
  | At o c => ok o /\ Call (t, n) o ∈ h /\ (c = body o /\ ~ logged l (t, n) \/ exists r, c = Fin r /\ ((t, n), o, r) ∈ l)
  | In o i false p => ok o /\ Call (t, n) o ∈ h /\ i = lockof o /\ ~ logged l (t, n) /\ readonly p /\ m i = A i /\
      fst (exec p (m i)) = Fin (fst (seq (A i) o)) /\ snd (seq (A i) o) = A i
  | In o i true p => ok o /\ Call (t, n) o ∈ h /\ i = lockof o /\
      (~ logged l (t, n) /\ exec p (m i) = (Fin (fst (seq (A i) o)), snd (seq (A i) o)) /\ tidy i (A i) (snd (seq (A i) o)) p (m i) \/
       exists r, ((t, n), o, r) ∈ l /\ exec p (m i) = (Fin r, A i) /\ settled i (A i) p (m i))
  end.
Lemma tst_ext h h' m m' A A' l l' t n c :
  (forall o i x p, c = In o i x p -> m' i = m i /\ A' i = A i) -> (forall e, e ∈ h -> e ∈ h') -> (forall o r, ((t, n), o, r) ∈ l -> ((t, n), o, r) ∈ l') ->
  (logged l' (t, n) -> logged l (t, n)) -> tst h m A l t n c -> tst h' m' A' l' t n c.
Proof.
  intros H1 H2 H3 H4. destruct c as [|o c|o i x p]; cbn [tst]; [auto| |].
  - intros (K1 & K2 & [[K3 K4]|(r & K3 & K4)]); (split; [exact K1|]); (split; [auto|]); [left; auto|right; eauto].
  - destruct (H1 _ _ _ _ eq_refl) as [E1 E2]. rewrite E1, E2. destruct x.
    + intros (K1 & K2 & K3 & [(K4 & K5)|(r & K4 & K5)]); (split; [exact K1|]); (split; [auto|]); (split; [exact K3|]); [left; auto|right; eauto].
    + intros (K1 & K2 & K3 & K4 & K5). split; [exact K1|]. split; [auto|]. split; [exact K3|]. split; [tauto|exact K5].
Qed.
Definition wr (i : nat) (th : thread) : Z := match at_ th with In _ j true _ => if Nat.eqb j i then 1 else 0 | _ => 0 end.
Definition rd (i : nat) (th : thread) : Z := match at_ th with In _ j false _ => if Nat.eqb j i then 1 else 0 | _ => 0 end.
Definition locks (g : cfg) : Prop := forall i,
  sumZ (wr i) (threads g) = (if writer (lk g i) then 1 else 0) /\ sumZ (rd i) (threads g) = Z.of_nat (readers (lk g i)) /\ (writer (lk g i) = true -> readers (lk g i) = 0%nat).
Record Inv (g : cfg) (A : nat -> St) (l : order) : Prop := {
  iv_log : Log (hist g) A l;
  iv_todo : forall t th, threads g !! t = Some th -> Forall ok (todo th);
  iv_thread : forall t td n c, threads g !! t = Some (Thr td n c) -> tst (hist g) (mem g) A l t n c;
  iv_mem : forall i, writer (lk g i) = false -> mem g i = A i;
  iv_locks : locks g;
  iv_ids : forall t n o, Call (t, n) o ∈ hist g -> exists th, threads g !! t = Some th /\ ((n < calls th)%nat \/ n = calls th /\ at_ th <> Idle) }.

Lemma wr_pos i th : 0 <= wr i th.
Proof. unfold wr. destruct (at_ th) as [| |o j [] p]; try lia. destruct (Nat.eqb j i); lia. Qed.
Lemma rd_pos i th : 0 <= rd i th.
Proof. unfold rd. destruct (at_ th) as [| |o j [] p]; try lia. destruct (Nat.eqb j i); lia. Qed.
Lemma two_le (f : thread -> Z) l a b x y : (forall z, 0 <= f z) -> a <> b -> l !! a = Some x -> l !! b = Some y -> f x + f y <= sumZ f l.
Proof.
  intros Hf. revert a b. induction l as [|z l IH]; intros a b Hab Ha Hb; [discriminate|]. rewrite sumZ_cons.
  destruct a as [|a], b as [|b]; [congruence| | |].
  - injection Ha as ->. pose proof (sumZ_lookup f l b y (fun z _ => Hf z) Hb). lia.
  - injection Hb as ->. pose proof (sumZ_lookup f l a x (fun z _ => Hf z) Ha). lia.
  - specialize (IH a b ltac:(congruence) Ha Hb). pose proof (Hf z). lia.
Qed.
Lemma alone g t td n o i p t' td' n' o' x' p' : locks g -> t' <> t -> threads g !! t = Some (Thr td n (In o i true p)) ->
  threads g !! t' = Some (Thr td' n' (In o' i x' p')) -> False.
Proof.
  intros HL Hne Ht Ht'. destruct (HL i) as (H1 & H2 & H3). pose proof (two_le (wr i) _ _ _ _ _ (wr_pos i) (not_eq_sym Hne) Ht Ht') as HW.
  pose proof (sumZ_lookup (rd i) _ _ _ (fun z _ => rd_pos i z) Ht') as HR. unfold wr at 1 2 in HW. unfold rd at 1 in HR. cbn [at_] in HW, HR. rewrite Nat.eqb_refl in *.
  destruct (writer (lk g i)).
  - specialize (H3 eq_refl). destruct x'; lia.
  - destruct x'; lia.
Qed.
Lemma reading g t td n o i p : locks g -> threads g !! t = Some (Thr td n (In o i false p)) -> writer (lk g i) = false.
Proof.
  intros HL Ht. destruct (HL i) as (H1 & H2 & H3). pose proof (sumZ_lookup (rd i) _ _ _ (fun z _ => rd_pos i z) Ht) as HR. unfold rd at 1 in HR. cbn [at_] in HR. rewrite Nat.eqb_refl in *.
  destruct (writer (lk g i)); [|reflexivity]. specialize (H3 eq_refl). lia.
Qed.
Lemma writing g t td n o i p : locks g -> threads g !! t = Some (Thr td n (In o i true p)) -> writer (lk g i) = true /\ readers (lk g i) = 0%nat.
Proof.
  intros HL Ht. destruct (HL i) as (H1 & H2 & H3). pose proof (sumZ_lookup (wr i) _ _ _ (fun z _ => wr_pos i z) Ht) as HR. unfold wr at 1 in HR. cbn [at_] in HR. rewrite Nat.eqb_refl in *.
  destruct (writer (lk g i)); [auto|]. lia.
Qed.

Lemma frame g A l t td n c td' n' c' m' lk' h' A' l' : Inv g A l -> threads g !! t = Some (Thr td n c) ->
  Log h' A' l' -> Forall ok td' -> tst h' m' A' l' t n' c' ->
  (forall t' td1 n1 o i x p, t' <> t -> threads g !! t' = Some (Thr td1 n1 (In o i x p)) -> m' i = mem g i /\ A' i = A i) ->
  (l' = l \/ exists o r, l' = l ++ [((t, n), o, r)]) ->
  (h' = hist g \/ (exists o, h' = hist g ++ [Call (t, n) o]) \/ exists r, h' = hist g ++ [Return (t, n) r]) ->
  (n' = S n \/ n' = n /\ c' <> Idle) ->
  (forall i, writer (lk' i) = false -> m' i = A' i) ->
  locks (Cfg (<[t := Thr td' n' c']> (threads g)) m' lk' h') ->
  Inv (Cfg (<[t := Thr td' n' c']> (threads g)) m' lk' h') A' l'.
Proof.
  intros [I1 I2 I3 I4 I5 I6] Ht HL Htd Hst Hoth Hl Hh Hn Hm Hlk. pose proof (lookup_lt_Some _ _ _ Ht) as Hlt.
  assert (Hsub : forall e, e ∈ hist g -> e ∈ h') by (intros e He; destruct Hh as [->|[[o ->]|[r ->]]]; [exact He|apply elem_of_app; left; exact He..]).
  constructor; cbn [threads mem lk hist]; [exact HL| | |exact Hm|exact Hlk|].
  - intros t1 th1 H1. destruct (decide (t1 = t)) as [->|Hne].
    + rewrite list_lookup_insert in H1 by exact Hlt. injection H1 as <-. exact Htd.
    + rewrite list_lookup_insert_ne in H1 by congruence. eauto.
  - intros t1 td1 n1 c1 H1. destruct (decide (t1 = t)) as [->|Hne].
    + rewrite list_lookup_insert in H1 by exact Hlt. injection H1 as <- <- <-. exact Hst.
    + rewrite list_lookup_insert_ne in H1 by congruence. eapply tst_ext; [| | | |eapply I3; exact H1].
      * intros o i x p ->. eauto.
      * exact Hsub.
      * intros o r H. destruct Hl as [->|(o1 & r1 & ->)]; [exact H|apply elem_of_app; left; exact H].
      * destruct Hl as [->|(o1 & r1 & ->)]; [auto|]. unfold logged. rewrite fmap_app. intros H. apply elem_of_app in H as [H|H]; [exact H|]. apply elem_of_list_singleton in H. cbn in H. congruence.
  - intros t1 n1 o1 H1. assert (H2 : Call (t1, n1) o1 ∈ hist g \/ (t1 = t /\ n1 = n)).
    { destruct Hh as [->|[[o ->]|[r ->]]]; [left; exact H1| |]; (apply elem_of_app in H1 as [H1|H1]; [left; exact H1|apply elem_of_list_singleton in H1]); [injection H1 as -> -> _; auto|discriminate]. }
    destruct (decide (t1 = t)) as [->|Hne].
    + exists (Thr td' n' c'). split; [apply list_lookup_insert; exact Hlt|]. cbn [calls at_].
      assert (H3 : (n1 <= n)%nat). { destruct H2 as [H2|[_ ->]]; [|lia]. destruct (I6 _ _ _ H2) as (th & E & Hc). assert (th = Thr td n c) as -> by congruence. cbn [calls] in Hc. destruct Hc as [Hc|[Hc _]]; lia. }
      destruct Hn as [->|[-> Hc]]; [left; lia|]. destruct (decide (n1 = n)) as [->|]; [right; auto|left; lia].
    + destruct H2 as [H2|[? _]]; [|contradiction]. destruct (I6 _ _ _ H2) as (th & E & Hc). exists th. split; [rewrite list_lookup_insert_ne by congruence; exact E|exact Hc].
Qed.

(** Locks: what a step does to the counts. *)
Lemma locks_keep g t td n c td' n' c' m' h' : locks g -> threads g !! t = Some (Thr td n c) ->
  (forall i, wr i (Thr td n c) = wr i (Thr td' n' c') /\ rd i (Thr td n c) = rd i (Thr td' n' c')) ->
  locks (Cfg (<[t := Thr td' n' c']> (threads g)) m' (lk g) h').
Proof. intros HL Ht H i. cbn [threads lk]. rewrite !(sumZ_insert _ _ _ _ _ Ht). destruct (H i) as [-> ->]. destruct (HL i) as (H1 & H2 & H3). split; [lia|]. split; [lia|exact H3]. Qed.
Lemma locks_set g t td n c td' n' c' m' h' i b k : locks g -> threads g !! t = Some (Thr td n c) ->
  (forall j, j <> i -> wr j (Thr td n c) = wr j (Thr td' n' c') /\ rd j (Thr td n c) = rd j (Thr td' n' c')) ->
  (if writer (lk g i) then 1 else 0) - wr i (Thr td n c) + wr i (Thr td' n' c') = (if b : bool then 1 else 0) ->
  Z.of_nat (readers (lk g i)) - rd i (Thr td n c) + rd i (Thr td' n' c') = Z.of_nat k -> (b = true -> k = 0%nat) ->
  locks (Cfg (<[t := Thr td' n' c']> (threads g)) m' (upd (lk g) i (Rw b k)) h').
Proof.
  intros HL Ht H Hw Hr Hb j. cbn [threads lk]. rewrite !(sumZ_insert _ _ _ _ _ Ht). destruct (HL j) as (H1 & H2 & H3). destruct (decide (j = i)) as [->|Hne].
  - rewrite upd_same. cbn [writer readers]. split; [lia|]. split; [lia|exact Hb].
  - rewrite upd_other by exact Hne. destruct (H j Hne) as [-> ->]. split; [lia|]. split; [lia|exact H3].
Qed.

Lemma inv_start ops : (forall os, os ∈ ops -> Forall ok os) -> Inv (linit s0 ops) s0 [].
Proof.
  intros Hops. unfold linit. constructor; cbn [threads mem lk hist].
  - exact log_start.
  - intros t th H. rewrite list_lookup_fmap in H. destruct (ops !! t) as [os|] eqn:E; [|discriminate]. injection H as <-. apply Hops. eapply elem_of_list_lookup_2. exact E.
  - intros t td n c H. rewrite list_lookup_fmap in H. destruct (ops !! t) as [os|] eqn:E; [|discriminate]. injection H as <- <- <-. exact I.
  - reflexivity.
  - intros i. cbn [threads lk writer readers]. rewrite !sumZ_fmap. rewrite !sumZ_zero by reflexivity. auto.
  - intros t n o H. apply elem_of_nil in H. destruct H.
Qed.

Lemma vseq_other A o i : i <> lockof o -> snd (vseq A o) i = A i.
Proof. intros H. cbn [vseq snd]. apply upd_other. exact H. Qed.
Lemma vseq_same A o : snd (vseq A o) (lockof o) = snd (seq (A (lockof o)) o).
Proof. cbn [vseq snd]. apply upd_same. Qed.
Lemma vseq_id A o i : snd (seq (A (lockof o)) o) = A (lockof o) -> snd (vseq A o) i = A i.
Proof. intros H. destruct (decide (i = lockof o)) as [->|]; [rewrite vseq_same; exact H|apply vseq_other; assumption]. Qed.
Lemma not_logged_call (l : order) t n o r : ((t, n), o, r) ∈ l ++ [((t, n), o, r)].
Proof. apply elem_of_app. right. left. Qed.

Lemma inv_step g A l t : Inv g A l -> exists A' l', Inv (lstep1 body g t) A' l'.
Proof.
  intros I. pose proof I as [I1 I2 I3 I4 I5 I6]. unfold lstep1. destruct (threads g !! t) as [[td n c]|] eqn:Ht; [|eauto]. pose proof (I3 _ _ _ _ Ht) as Hst. pose proof (I2 _ _ Ht) as Htd. cbn [todo] in Htd.
  destruct c as [|o c|o i x p].
  - destruct td as [|o td]; [eauto|]. apply Forall_cons in Htd as [Ho Htd]. exists A, l.
    assert (Hn : ~ logged l (t, n)).
    { intros H. apply logged_elem in H as (o' & r & H). apply (lg_call _ _ _ I1) in H. destruct (I6 _ _ _ H) as (th & E & Hc). assert (th = Thr (o :: td) n Idle) as -> by congruence. cbn [calls at_] in Hc. destruct Hc as [Hc|[_ Hc]]; [lia|congruence]. }
    eapply frame; [exact I|exact Ht|apply log_call; assumption|exact Htd| | |left; reflexivity|right; left; eauto|right; split; [reflexivity|discriminate]|exact I4|].
    + cbn [tst]. split; [exact Ho|]. split; [apply elem_of_app; right; left|]. left. auto.
    + auto.
    + eapply locks_keep; [exact I5|exact Ht|]. intros i. split; reflexivity.
  - cbn [tst] in Hst. destruct Hst as (Ho & Hc & Hst). pose proof (Hsound o Ho) as HS. unfold sound in HS. destruct c as [r|i k|i x p].
    + (* return *) destruct Hst as [[Eb Hn]|(r' & Er & Hr)].
      * rewrite <- Eb in HS. exists (snd (vseq A o)), (l ++ [((t, n), o, fst (seq (A (lockof o)) o))]). specialize (HS (A (lockof o)) (lg_inv _ _ _ I1 _)). rewrite HS. cbn [fst].
        assert (L : Log (hist g) (snd (vseq A o)) (l ++ [((t, n), o, r)])) by (pose proof (log_commit _ _ _ _ _ I1 Ho Hc Hn) as L; rewrite HS in L; exact L).
        assert (HA : forall j, snd (vseq A o) j = A j) by (intros j; apply vseq_id; rewrite HS; reflexivity).
        eapply frame; [exact I|exact Ht|eapply log_return; [exact L|apply not_logged_call]|exact Htd|exact Logic.I| |right; eauto|right; right; eauto|left; reflexivity|intros j Hj; rewrite HA; auto|].
        -- intros; auto.
        -- eapply locks_keep; [exact I5|exact Ht|]. intros j. split; reflexivity.
      * injection Er as <-. exists A, l. eapply frame; [exact I|exact Ht|eapply log_return; [exact I1|exact Hr]|exact Htd|exact Logic.I|auto|left; reflexivity|right; right; eauto|left; reflexivity|exact I4|].
        eapply locks_keep; [exact I5|exact Ht|]. intros j. split; reflexivity.
    + (* peek *) destruct Hst as [[Eb Hn]|(r' & Er & Hr)]; [|discriminate]. rewrite <- Eb in HS. destruct HS as [-> HS]. destruct (HS (A (lockof o)) (lg_inv _ _ _ I1 _)) as [K1 K2].
      exists (snd (vseq A o)), (l ++ [((t, n), o, fst (seq (A (lockof o)) o))]).
      assert (HA : forall j, snd (vseq A o) j = A j) by (intros j; apply vseq_id; exact K2).
      assert (Hal : alike (lockof o) (mem g (lockof o)) (A (lockof o))).
      { destruct (writer (lk g (lockof o))) eqn:W; [|rewrite (I4 _ W); intros ? ? _ _; reflexivity]. destruct (I5 (lockof o)) as (H1 & _ & _). rewrite W in H1.
        assert (exists t' td' n' o' p', threads g !! t' = Some (Thr td' n' (In o' (lockof o) true p'))) as (t' & td' & n' & o' & p' & Ht').
        { clear -H1. induction (threads g) as [|[td n c] ths IH]; [discriminate|]. rewrite sumZ_cons in H1. destruct c as [| |o' j [] p]; try (destruct IH as (t' & H); [exact H1|exists (S t'); exact H]).
          unfold wr at 1 in H1. cbn [at_] in H1. destruct (Nat.eqb_spec j (lockof o)) as [->|]; [exists 0%nat; cbn; eauto|]. destruct IH as (t' & H); [exact H1|exists (S t'); exact H]. }
        pose proof (I3 _ _ _ _ Ht') as T. cbn [tst] in T. destruct T as (_ & _ & _ & [(_ & _ & T)|(r & _ & _ & T)]); [exact (tidy_alike _ _ _ _ _ T)|exact (settled_alike _ _ _ _ T)]. }
      rewrite (Hal _ _ Ho (eq_sym Eb)), K1.
      eapply frame; [exact I|exact Ht|apply log_commit; assumption|exact Htd| |intros; auto|right; eauto|left; reflexivity|right; split; [reflexivity|discriminate]|intros j Hj; rewrite HA; auto|].
      * cbn [tst]. split; [exact Ho|]. split; [exact Hc|]. right. exists (fst (seq (A (lockof o)) o)). split; [reflexivity|apply not_logged_call].
      * eapply locks_keep; [exact I5|exact Ht|]. intros j. split; reflexivity.
    + (* enter *) destruct Hst as [[Eb Hn]|(r' & Er & Hr)]; [|discriminate]. rewrite <- Eb in HS. destruct HS as [-> HS]. destruct (HS (A (lockof o)) (lg_inv _ _ _ I1 _)) as [K1 K2]. set (i := lockof o) in *.
      destruct x.
      * destruct (negb (writer (lk g i)) && Nat.eqb (readers (lk g i)) 0) eqn:W; [|eauto]. apply andb_true_iff in W as [W1 W2]. apply negb_true_iff in W1. apply Nat.eqb_eq in W2. pose proof (I4 _ W1) as Hm.
        exists A, l. eapply frame; [exact I|exact Ht|exact I1|exact Htd| |auto|left; reflexivity|left; reflexivity|right; split; [reflexivity|discriminate]| |].
        -- cbn [tst]. fold i. split; [exact Ho|]. split; [exact Hc|]. split; [reflexivity|]. left. rewrite Hm. auto.
        -- intros j Hj. destruct (decide (j = i)) as [->|Hne]; [rewrite upd_same in Hj; discriminate|]. rewrite upd_other in Hj by exact Hne. auto.
        -- eapply locks_set; [exact I5|exact Ht| | | |reflexivity].
           ++ intros j Hj. unfold wr, rd. cbn [at_]. destruct (Nat.eqb_spec i j); [congruence|auto].
           ++ rewrite W1. unfold wr. cbn [at_]. rewrite Nat.eqb_refl. reflexivity.
           ++ rewrite W2. reflexivity.
      * destruct (negb (writer (lk g i))) eqn:W; [|eauto]. apply negb_true_iff in W. pose proof (I4 _ W) as Hm. destruct K2 as [K2 K3].
        exists A, l. eapply frame; [exact I|exact Ht|exact I1|exact Htd| |auto|left; reflexivity|left; reflexivity|right; split; [reflexivity|discriminate]| |].
        -- cbn [tst]. fold i. split; [exact Ho|]. split; [exact Hc|]. split; [reflexivity|]. split; [exact Hn|]. split; [exact K2|]. split; [exact Hm|]. split; [rewrite Hm, K1; reflexivity|exact K3].
        -- intros j Hj. destruct (decide (j = i)) as [->|Hne]; [exact Hm|]. rewrite upd_other in Hj by exact Hne. auto.
        -- eapply locks_set; [exact I5|exact Ht| | | |discriminate].
           ++ intros j Hj. unfold wr, rd. cbn [at_]. destruct (Nat.eqb_spec i j); [congruence|auto].
           ++ rewrite W. reflexivity.
           ++ unfold rd. cbn [at_]. rewrite Nat.eqb_refl. lia.
  - destruct p as [c|f k].
    + (* leave *) destruct x; cbn [tst] in Hst.
      * destruct Hst as (Ho & Hc & -> & Hst). set (i := lockof o) in *. destruct (writing _ _ _ _ _ _ _ I5 Ht) as [W1 W2].
        assert (HLK : forall m' h', locks (Cfg (<[t := Thr td n (At o c)]> (threads g)) m' (upd (lk g) i (Rw false (readers (lk g i)))) h')).
        { intros m' h'. eapply locks_set; [exact I5|exact Ht| | | |discriminate].
          - intros j Hj. unfold wr, rd. cbn [at_]. destruct (Nat.eqb_spec i j); [congruence|auto].
          - rewrite W1. unfold wr. cbn [at_]. rewrite Nat.eqb_refl. reflexivity.
          - unfold rd. cbn [at_]. lia. }
        destruct Hst as [(Hn & He & _)|(r & Hr & He & _)]; cbn [exec] in He.
        -- injection He as -> He. exists (snd (vseq A o)), (l ++ [((t, n), o, fst (seq (A i) o))]).
           eapply frame; [exact I|exact Ht|apply log_commit; assumption|exact Htd| | |right; eauto|left; reflexivity|right; split; [reflexivity|discriminate]| |apply HLK].
           ++ cbn [tst]. split; [exact Ho|]. split; [exact Hc|]. right. eexists. split; [reflexivity|apply not_logged_call].
           ++ intros t' td1 n1 o1 i1 x1 p1 Hne Ht'. split; [reflexivity|]. apply vseq_other. intros ->. exact (alone _ _ _ _ _ _ _ _ _ _ _ _ _ I5 Hne Ht Ht').
           ++ intros j Hj. destruct (decide (j = i)) as [->|Hne]; [rewrite He; symmetry; apply vseq_same|]. rewrite upd_other in Hj by exact Hne. rewrite vseq_other by exact Hne. auto.
        -- injection He as -> He. exists A, l.
           eapply frame; [exact I|exact Ht|exact I1|exact Htd| |auto|left; reflexivity|left; reflexivity|right; split; [reflexivity|discriminate]| |apply HLK].
           ++ cbn [tst]. split; [exact Ho|]. split; [exact Hc|]. right. eauto.
           ++ intros j Hj. destruct (decide (j = i)) as [->|Hne]; [exact He|]. rewrite upd_other in Hj by exact Hne. auto.
      * destruct Hst as (Ho & Hc & -> & Hn & _ & Hm & He & Hs). set (i := lockof o) in *. cbn [exec fst] in He. subst c. pose proof (reading _ _ _ _ _ _ _ I5 Ht) as W.
        assert (HA : forall j, snd (vseq A o) j = A j) by (intros j; apply vseq_id; exact Hs).
        exists (snd (vseq A o)), (l ++ [((t, n), o, fst (seq (A i) o))]).
        eapply frame; [exact I|exact Ht|apply log_commit; assumption|exact Htd| |intros; auto|right; eauto|left; reflexivity|right; split; [reflexivity|discriminate]| |].
        -- cbn [tst]. split; [exact Ho|]. split; [exact Hc|]. right. eexists. split; [reflexivity|apply not_logged_call].
        -- intros j Hj. rewrite HA. destruct (decide (j = i)) as [->|Hne]; [exact Hm|]. rewrite upd_other in Hj by exact Hne. auto.
        -- destruct (I5 i) as (_ & H2 & _). pose proof (sumZ_lookup (rd i) _ _ _ (fun z _ => rd_pos i z) Ht) as HR. unfold rd at 1 in HR. cbn [at_] in HR. rewrite Nat.eqb_refl in HR.
           eapply locks_set; [exact I5|exact Ht| | | |].
           ++ intros j Hj. unfold wr, rd. cbn [at_]. destruct (Nat.eqb_spec i j); [congruence|auto].
           ++ unfold wr. cbn [at_]. lia.
           ++ unfold rd. cbn [at_]. rewrite Nat.eqb_refl. lia.
           ++ rewrite W. discriminate.
    + (* act *) assert (HLK : forall m' h', locks (Cfg (<[t := Thr td n (In o i x (k (mem g i)))]> (threads g)) m' (lk g) h')).
      { intros m' h'. eapply locks_keep; [exact I5|exact Ht|]. intros j. split; reflexivity. }
      destruct x; cbn [tst] in Hst.
      * destruct Hst as (Ho & Hc & -> & Hst). set (i := lockof o) in *. destruct (writing _ _ _ _ _ _ _ I5 Ht) as [W1 W2].
        assert (Hoth : forall A', (forall j, j <> i -> A' j = A j) -> forall t' td1 n1 o1 i1 x1 p1, t' <> t -> threads g !! t' = Some (Thr td1 n1 (In o1 i1 x1 p1)) -> upd (mem g) i (f (mem g i)) i1 = mem g i1 /\ A' i1 = A i1).
        { intros A' HA' t' td1 n1 o1 i1 x1 p1 Hne Ht'. assert (i1 <> i) by (intros ->; exact (alone _ _ _ _ _ _ _ _ _ _ _ _ _ I5 Hne Ht Ht')). split; [apply upd_other; assumption|auto]. }
        assert (HM : forall A', (forall j, j <> i -> A' j = A j) -> forall j, writer (lk g j) = false -> upd (mem g) i (f (mem g i)) j = A' j).
        { intros A' HA' j Hj. assert (j <> i) by (intros ->; congruence). rewrite upd_other by assumption. rewrite HA' by assumption. auto. }
        destruct Hst as [(Hn & He & Hal & Hti)|(r & Hr & He & Hal & Hse)]; cbn [exec] in He.
        -- destruct Hti as [Hti|Hti].
           ++ exists A, l. eapply frame; [exact I|exact Ht|exact I1|exact Htd| |apply Hoth; reflexivity|left; reflexivity|left; reflexivity|right; split; [reflexivity|discriminate]|apply HM; reflexivity|apply HLK].
              cbn [tst]. fold i. rewrite upd_same. split; [exact Ho|]. split; [exact Hc|]. split; [reflexivity|]. left. auto.
           ++ exists (snd (vseq A o)), (l ++ [((t, n), o, fst (seq (A i) o))]).
              eapply frame; [exact I|exact Ht|apply log_commit; assumption|exact Htd| |apply Hoth; intros; apply vseq_other; assumption|right; eauto|left; reflexivity|right; split; [reflexivity|discriminate]|apply HM; intros; apply vseq_other; assumption|apply HLK].
              cbn [tst]. fold i. rewrite upd_same. split; [exact Ho|]. split; [exact Hc|]. split; [reflexivity|]. right. exists (fst (seq (A i) o)). split; [apply not_logged_call|]. unfold i. rewrite vseq_same. fold i. auto.
        -- exists A, l. eapply frame; [exact I|exact Ht|exact I1|exact Htd| |apply Hoth; reflexivity|left; reflexivity|left; reflexivity|right; split; [reflexivity|discriminate]|apply HM; reflexivity|apply HLK].
           cbn [tst]. fold i. rewrite upd_same. split; [exact Ho|]. split; [exact Hc|]. split; [reflexivity|]. right. eauto.
      * destruct Hst as (Ho & Hc & -> & Hn & [Hro1 Hro2] & Hm & He & Hs). set (i := lockof o) in *. cbn [exec] in He. rewrite Hro1 in *.
        assert (HM : forall j, upd (mem g) i (mem g i) j = mem g j) by (intros j; destruct (decide (j = i)) as [->|]; [apply upd_same|apply upd_other; assumption]).
        exists A, l. eapply frame; [exact I|exact Ht|exact I1|exact Htd| |intros; auto|left; reflexivity|left; reflexivity|right; split; [reflexivity|discriminate]|intros j Hj; rewrite HM; auto|apply HLK].
        cbn [tst]. fold i. rewrite upd_same. split; [exact Ho|]. split; [exact Hc|]. split; [reflexivity|]. split; [exact Hn|]. auto.
Qed.

Lemma inv_exec ops sched : (forall os, os ∈ ops -> Forall ok os) -> exists A l, Inv (lexec body s0 ops sched) A l.
Proof.
  intros H. unfold lexec. assert (X : exists A l, Inv (linit s0 ops) A l) by (eexists _, _; apply inv_start; exact H). revert X. generalize (linit s0 ops : cfg).
  induction sched as [|t sched IH]; intros g (A & l & I); [eauto|]. cbn [foldl]. apply IH. eapply inv_step. exact I.
Qed.
Theorem linearizable_parts ops sched : (forall os, os ∈ ops -> Forall ok os) -> linearizable vseq s0 (hist (lexec body s0 ops sched)).
Proof.
  intros H. destruct (inv_exec ops sched H) as (A & l & I). destruct (iv_log _ _ _ I) as [L1 L2 L3 L4 L5 L6]. exists l. split; [exact L3|]. split; [rewrite L1; reflexivity|]. auto.
Qed.
End lin.
