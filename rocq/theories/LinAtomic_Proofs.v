(** Critical sections can be taken to be done at once: every execution of Lin_Model.v has the history of one in which each critical section is a single step. *)
From stdpp Require Import list.
From Coq Require Import ZArith Lia.
From Verif Require Import Conc Lin_Model Lin_Spec Lin_Proofs Lin_More.
Local Open Scope Z_scope.

Section atomic.
Context {St Op Res : Type} (body : Op -> code St Res).
Notation code := (code St Res). Notation inner := (inner St Res). Notation cfg := (cfg St Op Res). Notation thread := (thread St Op Res).
Notation step := (lstep1 body).

(** Sections under RLock change nothing; nothing is looked at without a lock. *)
Fixpoint wfc (c : code) : Prop :=
  match c with Fin _ => True | Peek _ _ => False | Enter i x p => (x = false -> readonly p) /\ wfi p end
with wfi (p : inner) : Prop := match p with Leave c => wfc c | Act f k => forall s, wfi (k s) end.
Lemma wfi_exec p s : wfi p -> wfc (fst (exec p s)).
Proof. revert s. induction p as [c|f k IH]; intros s H; [exact H|]. cbn [exec]. apply IH. apply H. Qed.
Context (Hbody : forall o, wfc (body o)).

(** The machine whose sections are single steps. *)
Definition astep (g : cfg) (t : nat) : cfg :=
  match threads g !! t with
  | None => g
  | Some (Thr td n c) =>
      let to td' n' c' := <[t := Thr td' n' c']> (threads g) in
      match c with
      | Idle => match td with
                | [] => g
                | o :: r => Cfg (to r n (At o (body o))) (mem g) (lk g) (hist g ++ [Call (t, n) o])
                end
      | At o (Fin r) => Cfg (to td (S n) Idle) (mem g) (lk g) (hist g ++ [Return (t, n) r])
      | At o (Enter i _ p) => Cfg (to td n (At o (fst (exec p (mem g i))))) (upd (mem g) i (snd (exec p (mem g i)))) (lk g) (hist g)
      | _ => g
      end
  end.

Definition apc (m : nat -> St) (c : pc St Op Res) : pc St Op Res :=
  match c with In o i x p => At o (fst (exec p (m i))) | _ => c end.
Definition athr (m : nat -> St) (th : thread) : thread := Thr (todo th) (calls th) (apc m (at_ th)).
Definition wfpc (c : pc St Op Res) : Prop := match c with Idle => True | At _ c => wfc c | In _ _ x p => (x = false -> readonly p) /\ wfi p end.
Record rel (g a : cfg) : Prop := {
  rl_hist : hist a = hist g;
  rl_thr : threads a = athr (mem g) <$> threads g;
  rl_free : forall i, writer (lk g i) = false -> mem a i = mem g i;
  rl_held : forall t td n o i p, threads g !! t = Some (Thr td n (In o i true p)) -> mem a i = snd (exec p (mem g i));
  rl_wf : forall t th, threads g !! t = Some th -> wfpc (at_ th);
  rl_locks : locks g }.

Lemma athr_ext m m' (l : list thread) : (forall t th o i x p, l !! t = Some th -> at_ th = In o i x p -> m' i = m i) -> athr m' <$> l = athr m <$> l.
Proof.
  intros H. apply list_eq. intros t. rewrite !list_lookup_fmap. destruct (l !! t) as [th|] eqn:E; [|reflexivity]. cbn. unfold athr. f_equal. f_equal.
  destruct (at_ th) as [|o c|o i x p] eqn:Ea; [reflexivity|reflexivity|]. cbn [apc]. rewrite (H t th o i x p E Ea). reflexivity.
Qed.
Lemma athr_insert m (l : list thread) t th : athr m <$> (<[t := th]> l) = <[t := athr m th]> (athr m <$> l).
Proof. apply list_fmap_insert. Qed.

Lemma rel_step g a t : rel g a -> rel (step g t) a \/ rel (step g t) (astep a t).
Proof.
  intros [R1 R2 R3 R4 R5 R6]. pose proof (locks_step body g t R6) as HL.
  destruct (threads g !! t) as [[td n c]|] eqn:Ht.
  2:{ left. unfold lstep1. rewrite Ht. constructor; auto. }
  pose proof (lookup_lt_Some _ _ _ Ht) as Hlt.
  assert (Ha : threads a !! t = Some (Thr td n (apc (mem g) c))) by (rewrite R2, list_lookup_fmap, Ht; reflexivity).
  pose proof (R5 _ _ Ht) as Wc. cbn [at_] in Wc.
  unfold lstep1 in *. unfold astep. rewrite Ht in *. rewrite Ha.
  assert (Hwf : forall th', wfpc (at_ th') -> forall t1 th1, <[t := th']> (threads g) !! t1 = Some th1 -> wfpc (at_ th1)).
  { intros th' W t1 th1 H1. destruct (decide (t1 = t)) as [->|Hne]; [rewrite list_lookup_insert in H1 by exact Hlt; injection H1 as <-; exact W|].
    rewrite list_lookup_insert_ne in H1 by congruence. eauto. }
  destruct c as [|o c|o i x p]; cbn [apc].
  - destruct td as [|o td]; [left; constructor; auto|]. right. constructor; cbn [hist threads mem lk]; [congruence| |exact R3| |apply Hwf; apply Hbody|exact HL].
    + rewrite athr_insert, R2. reflexivity.
    + intros t1 td1 n1 o1 i1 p1 H1. destruct (decide (t1 = t)) as [->|Hne]; [rewrite list_lookup_insert in H1 by exact Hlt; discriminate|]. rewrite list_lookup_insert_ne in H1 by congruence. eauto.
  - destruct c as [r|i k|i x p]; [| destruct Wc |].
    + right. constructor; cbn [hist threads mem lk]; [congruence| |exact R3| |apply Hwf; exact I|exact HL].
      * rewrite athr_insert, R2. reflexivity.
      * intros t1 td1 n1 o1 i1 p1 H1. destruct (decide (t1 = t)) as [->|Hne]; [rewrite list_lookup_insert in H1 by exact Hlt; discriminate|]. rewrite list_lookup_insert_ne in H1 by congruence. eauto.
    + destruct x.
      * destruct (negb (writer (lk g i)) && Nat.eqb (readers (lk g i)) 0) eqn:W; [|left; constructor; auto]. apply andb_true_iff in W as [W1 W2]. apply negb_true_iff in W1.
        right. rewrite (R3 i W1). constructor; cbn [hist threads mem lk]; [exact R1| | | |apply Hwf; exact Wc|exact HL].
        -- rewrite athr_insert, R2. reflexivity.
        -- intros j Hj. destruct (decide (j = i)) as [->|Hne]; [rewrite upd_same in Hj; discriminate|]. rewrite upd_other in Hj by exact Hne. rewrite upd_other by exact Hne. auto.
        -- intros t1 td1 n1 o1 i1 p1 H1. destruct (decide (t1 = t)) as [->|Hne].
           ++ rewrite list_lookup_insert in H1 by exact Hlt. injection H1 as <- <- <- <- <-. apply upd_same.
           ++ rewrite list_lookup_insert_ne in H1 by congruence. destruct (decide (i1 = i)) as [->|Hni]; [exfalso; destruct (writing _ _ _ _ _ _ _ R6 H1); congruence|].
              rewrite upd_other by exact Hni. eauto.
      * destruct (negb (writer (lk g i))) eqn:W; [|left; constructor; auto]. apply negb_true_iff in W.
        right. rewrite (R3 i W). assert (Hro : snd (exec p (mem g i)) = mem g i) by (apply readonly_exec; apply Wc; reflexivity).
        assert (Hm : forall j, upd (mem a) i (snd (exec p (mem g i))) j = mem a j).
        { intros j. destruct (decide (j = i)) as [->|Hne]; [rewrite upd_same, Hro, (R3 i W); reflexivity|apply upd_other; exact Hne]. }
        constructor; cbn [hist threads mem lk]; [exact R1| | | |apply Hwf; exact Wc|exact HL].
        -- rewrite athr_insert, R2. reflexivity.
        -- intros j Hj. rewrite Hm. destruct (decide (j = i)) as [->|Hne]; [auto|]. rewrite upd_other in Hj by exact Hne. auto.
        -- intros t1 td1 n1 o1 i1 p1 H1. rewrite Hm. destruct (decide (t1 = t)) as [->|Hne]; [rewrite list_lookup_insert in H1 by exact Hlt; discriminate|].
           rewrite list_lookup_insert_ne in H1 by congruence. eauto.
  - left. destruct p as [c|f k].
    + constructor; cbn [hist threads mem lk]; [exact R1| | | |apply Hwf; exact (proj2 Wc)|exact HL].
      * rewrite athr_insert, R2. symmetry. apply list_insert_id. rewrite list_lookup_fmap, Ht. reflexivity.
      * intros j Hj. destruct (decide (j = i)) as [->|Hne].
        -- destruct x; [exact (R4 _ _ _ _ _ _ Ht)|]. rewrite upd_same in Hj. cbn [writer] in Hj. auto.
        -- rewrite upd_other in Hj by exact Hne. auto.
      * intros t1 td1 n1 o1 i1 p1 H1. destruct (decide (t1 = t)) as [->|Hne]; [rewrite list_lookup_insert in H1 by exact Hlt; discriminate|]. rewrite list_lookup_insert_ne in H1 by congruence. eauto.
    + assert (Hm : forall t1 th1 o1 i1 x1 p1, t1 <> t -> threads g !! t1 = Some th1 -> at_ th1 = In o1 i1 x1 p1 -> upd (mem g) i (f (mem g i)) i1 = mem g i1).
      { intros t1 [td1 n1 c1] o1 i1 x1 p1 Hne H1 E1. cbn [at_] in E1. subst c1. destruct (decide (i1 = i)) as [->|Hni]; [|apply upd_other; exact Hni]. rewrite upd_same. destruct x.
        - exfalso. exact (alone _ _ _ _ _ _ _ _ _ _ _ _ _ R6 Hne Ht H1).
        - apply (proj1 Wc eq_refl). }
      constructor; cbn [hist threads mem lk]; [exact R1| | | | |exact HL].
      * rewrite athr_insert, R2. apply list_eq. intros t1. destruct (decide (t1 = t)) as [->|Hne].
        -- rewrite list_lookup_insert by (rewrite fmap_length; exact Hlt). rewrite list_lookup_fmap, Ht. cbn. unfold athr. cbn [todo calls at_ apc exec]. rewrite upd_same. reflexivity.
        -- rewrite list_lookup_insert_ne by congruence. rewrite !list_lookup_fmap. destruct (threads g !! t1) as [th1|] eqn:E1; [|reflexivity]. cbn. unfold athr. f_equal. f_equal.
           destruct (at_ th1) as [|o1 c1|o1 i1 x1 p1] eqn:Ea; [reflexivity|reflexivity|]. cbn [apc]. rewrite (Hm _ _ _ _ _ _ Hne E1 Ea). reflexivity.
      * intros j Hj. rewrite (R3 j Hj). destruct (decide (j = i)) as [->|Hne]; [|rewrite upd_other by exact Hne; reflexivity]. rewrite upd_same.
        destruct x; [destruct (writing _ _ _ _ _ _ _ R6 Ht); congruence|]. symmetry. apply (proj1 Wc eq_refl).
      * intros t1 td1 n1 o1 i1 p1 H1. destruct (decide (t1 = t)) as [->|Hne].
        -- rewrite list_lookup_insert in H1 by exact Hlt. injection H1 as <- <- <- <- Hx <-. subst x. rewrite upd_same. exact (R4 _ _ _ _ _ _ Ht).
        -- rewrite list_lookup_insert_ne in H1 by congruence. rewrite (Hm _ _ _ _ _ _ Hne H1 eq_refl). eauto.
      * apply Hwf. cbn [at_ wfpc]. destruct Wc as [W1 W2]. split; [intros E; apply (W1 E)|apply W2].
Qed.
Lemma rel_run sched g a : rel g a -> exists sched', rel (foldl step g sched) (foldl astep a sched').
Proof.
  revert g a. induction sched as [|t s IH]; intros g a H; [exists []; exact H|]. cbn [foldl].
  destruct (rel_step _ _ t H) as [H'|H']; destruct (IH _ _ H') as [s' Hs]; [exists s'; exact Hs|exists (t :: s'); exact Hs].
Qed.
Lemma rel_start s0 ops : rel (linit s0 ops) (linit s0 ops).
Proof.
  constructor; [reflexivity| |reflexivity| | |apply locks_start]; unfold linit; cbn [threads mem].
  - rewrite <- list_fmap_compose. reflexivity.
  - intros t td n o i p H. rewrite list_lookup_fmap in H. destruct (ops !! t); discriminate.
  - intros t th H. rewrite list_lookup_fmap in H. destruct (ops !! t); [|discriminate]. injection H as <-. exact I.
Qed.
Lemma rel_exec s0 ops sched : exists sched', rel (lexec body s0 ops sched) (foldl astep (linit s0 ops) sched').
Proof. apply rel_run, rel_start. Qed.
End atomic.
