(** LinkedHashMap with its Get, which takes no lock: as long as nothing is evicted. *)
From stdpp Require Import gmap.
From Coq Require Import ZArith Lia.
From Verif Require Import GoList_Model GoList_Proofs Assoc_Spec Keyed_Proofs Linked_Model Linked_Spec Linked_Proofs Lin_Model Lin_Spec Lin_Proofs Lin_More LinObj_Model LinObj_Proofs.
Local Open Scope Z_scope.

Section linked.
Context {K V : Type} `{Countable K} (K0 : list K) (lim : Z) (Hlim : Z.of_nat (length K0) <= lim).
Implicit Types s : lks K V.
(** Only keys of [K0] are stored. *)
Definition few (o : lkop K V) : Prop := match o with KOp (OPut k _) | KOp (OLoadOrStore k _) => k ∈ K0 | _ => True end.
Definition fits s : Prop := exists es, holds lim (lmp s) es /\ forall k, k ∈ es.*1 -> k ∈ K0.

Lemma alike_get s A : (forall k, Get k (lmp s) = Get k (lmp A)) -> alike lk_body few 0 s A.
Proof. intros E o k _ Eo. destruct o as [[k1 v1|k1 v1|k1|k1| | | | |k1]|fr|i]; cbn [lk_body] in Eo; try discriminate. injection Eo as <-. rewrite E. reflexivity. Qed.
Lemma without_keys k (es : list (K * V)) k' : k' ∈ (without k es).*1 -> k' ∈ es.*1.
Proof. unfold without. intros Hk. apply elem_of_list_fmap in Hk as (p & -> & Hp). apply elem_of_list_filter in Hp as [_ Hp]. apply elem_of_list_fmap. eauto. Qed.
(** A new key of [K0] still fits. *)
Lemma room k (es : list (K * V)) t : holds lim t es -> (forall k, k ∈ es.*1 -> k ∈ K0) -> k ∈ K0 -> find_key k es = None -> Z.of_nat (S (length es)) <= lim.
Proof.
  intros (Hk & _) Hes Hin Hf. apply find_key_None in Hf. pose proof (keyed_nodup _ _ _ Hk) as Hn.
  assert (length (k :: es.*1) <= length K0)%nat as L. { apply submseteq_length, NoDup_submseteq; [constructor; assumption|]. intros x Hx. apply elem_of_cons in Hx as [->|Hx]; auto. }
  cbn [length] in L. rewrite fmap_length in L. lia.
Qed.
Lemma put_fits k v s : k ∈ K0 -> fits s -> exists es, holds lim (snd (put_body k v (lmp s))) es /\ forall k, k ∈ es.*1 -> k ∈ K0.
Proof.
  intros Hk (es & Hh & Hes). pose proof (put_body_holds lim _ _ k v Hh) as HP. destruct (put_body k v (lmp s)) as [pre t]. exists (spec_put lim k v es). split; [apply HP|]. intros k'. unfold spec_put.
  destruct (find_key k es) eqn:E.
  - rewrite fmap_cons, elem_of_cons. intros [ -> |Hx]; [exact Hk|]. eauto using without_keys.
  - rewrite (proj2 (Z.leb_le _ _)) by (eapply room; eauto). rewrite fmap_cons, elem_of_cons. intros [ -> |Hx]; auto.
Qed.
Lemma lk_fits s o : few o -> fits s -> fits (snd (lk_step s o)).
Proof.
  intros Ho Hf. pose proof Hf as (es & Hh & Hes).
  assert (Hop : forall o, spec_step lim es o = spec_step lim es o -> (forall k, k ∈ (snd (spec_step lim es o)).*1 -> k ∈ K0) -> fits (snd (lk_step s (KOp o)))).
  { intros o' _ Hk. pose proof (step_holds lim _ _ o' Hh) as HS. cbn [lk_step]. destruct (step (lmp s) o') as [r t], (spec_step lim es o') as [r' es']. cbn [snd] in *. exists es'. split; [apply HS|exact Hk]. }
  destruct o as [[k v|k v|k|k| | | | |k]|fr|i]; cbn [few] in Ho; try (apply Hop; [reflexivity|]; exact Hes).
  - cbn [lk_step step snd]. apply (put_fits k v s Ho Hf).
  - cbn [lk_step step]. unfold LoadOrStore. pose proof (put_fits k v s Ho Hf) as Hp. destruct (put_body k v (lmp s)) as [pre t]. exact Hp.
  - apply Hop; [reflexivity|]. cbn [spec_step snd]. intros k' Hk'. eauto using without_keys.
  - apply Hop; [reflexivity|]. cbn [spec_step snd]. intros k' Hk'. cbn in Hk'. apply elem_of_nil in Hk' as [].
  - apply Hop; [reflexivity|]. cbn [spec_step snd]. destruct (find_key k es) eqn:E; [|exact Hes]. intros k'. rewrite fmap_cons, elem_of_cons. intros [ -> |Hx]; [|eauto using without_keys].
    apply Hes. destruct (decide (k ∈ es.*1)) as [|Hn]; [assumption|]. apply find_key_None in Hn. congruence.
  - cbn [lk_step snd]. exists es. auto.
  - cbn [lk_step]. destruct (its s !! i) as [it|]; [|exact Hf]. destruct (Next (lmp s) it) as [r it']. exists es. auto.
Qed.

Notation tidy := (tidy lk_body few 0). Notation settled := (settled lk_body few 0).
Lemma get_vals (t t' : lhm K V) : m t = m t' -> vals (lst t) = vals (lst t') -> forall k, Get k t = Get k t'.
Proof. intros E1 E2 k. unfold Get. rewrite E1, E2. reflexivity. Qed.
(** Put and LoadOrStore are seen at the Swap. *)
Lemma lk_put_tidy k v res A s : k ∈ K0 -> fits s -> (forall x, Get x (lmp A) = Get x (snd (put_body k v (lmp s)))) ->
  (forall pre s', (forall x, Get x (lmp s') = Get x (lmp A)) -> settled A (res pre) s') -> tidy s A (lk_put k v res) s.
Proof.
  intros Hk (es & Hh & Hes) HA Hres. assert (HA' : forall t, m t = m (snd (put_body k v (lmp s))) -> vals (lst t) = vals (lst (snd (put_body k v (lmp s)))) -> forall x, Get x t = Get x (lmp A)).
  { intros t E1 E2 x. rewrite HA. apply get_vals; assumption. }
  clear HA. revert HA'. unfold put_body. pose proof Hh as ((xs & Hd & _) & Hc & Hl & _). pose proof (dll_PushFront _ _ (k, v) Hd) as HP. unfold lk_put.
  destruct (list_PushFront (k, v) (lst (lmp s))) as [e l] eqn:EP. destruct HP as (-> & _ & _ & HV & _). intros HA'.
  cbn [Lin_Proofs.tidy]. split; [apply alike_get; reflexivity|]. left.
  split.
  { apply alike_get. intros k'. unfold Get, lk_lst. cbn [lmp m lst]. rewrite EP. cbn [snd]. destruct (m (lmp s) !! k') as [x|] eqn:E; [|reflexivity]. rewrite HV, lookup_insert_ne; [reflexivity|]. intros <-. eapply m_fresh; eauto. }
  right. rewrite EP. cbn [fst snd]. unfold lk_lst. cbn [lmp its m lst limit count]. rewrite EP. cbn [snd]. destruct (m (lmp s) !! k) as [pre|] eqn:E.
  - cbn [snd m lst] in HA'. unfold act. cbn [Lin_Proofs.settled]. split; [|apply Hres]; [apply alike_get|]; apply HA'; unfold lk_m, lk_lst; cbn [lmp m lst]; rewrite ?vals_Remove; reflexivity.
  - assert (Hlt : limit (lmp s) <? count (lmp s) + 1 = false).
    { apply Z.ltb_ge. rewrite Hl, Hc. pose proof (room k es _ Hh Hes Hk) as R. destruct Hh as (Hkk & _). rewrite (proj1 (keyed_None _ _ _ k Hkk) E) in R. specialize (R eq_refl). lia. }
    rewrite Hlt in HA'. cbn [snd m lst] in HA'. unfold act, look. cbn [Lin_Proofs.settled]. split; [apply alike_get; apply HA'; reflexivity|].
    split; [apply alike_get; apply HA'; reflexivity|]. unfold lk_count, lk_m. cbn [lmp its m lst limit count]. rewrite Hlt. apply Hres. apply HA'; reflexivity.
Qed.
Lemma lk_tidy o p s : few o -> lk_body o = Enter 0 true p -> fits s -> tidy s (snd (lk_step s o)) p s.
Proof.
  intros Ho E Hf. pose proof Hf as (es & Hh & Hes).
  destruct o as [[k v|k v|k|k| | | | |k]|fr|i]; cbn [lk_body] in E; try discriminate; injection E as <-; cbn [few] in Ho; unfold look, act.
  - apply lk_put_tidy; [exact Ho|exact Hf| |]. { intros x. reflexivity. } intros pre s' E. cbn [Lin_Proofs.settled]. split; [|exact I]. apply alike_get. exact E.
  - apply lk_put_tidy; [exact Ho|exact Hf| |]. { intros x. cbn [lk_step step]. unfold LoadOrStore. destruct (put_body k v (lmp s)). reflexivity. }
    intros [e|] s' E; unfold look; cbn [Lin_Proofs.settled]; (split; [apply alike_get; exact E|]); [|exact I]. split; [apply alike_get; exact E|exact I].
  - cbn [Lin_Proofs.tidy]. split; [apply alike_get; reflexivity|]. left. cbn [lk_step step]. unfold Delete. destruct (m (lmp s) !! k) as [e|]; cbn [Lin_Proofs.tidy snd].
    + split; [apply alike_get; reflexivity|]. left. split; [apply alike_get; apply get_vals; [reflexivity|apply vals_Remove]|]. right.
      cbn [Lin_Proofs.settled]. split; [apply alike_get; reflexivity|]. split; [apply alike_get; reflexivity|exact I].
    + split; [apply alike_get; reflexivity|exact I].
  - cbn [Lin_Proofs.tidy]. split; [apply alike_get; reflexivity|]. left. split; [apply alike_get; reflexivity|exact I].
  - cbn [Lin_Proofs.tidy]. split; [apply alike_get; reflexivity|]. left. split; [apply alike_get; reflexivity|exact I].
  - cbn [Lin_Proofs.tidy]. split; [apply alike_get; reflexivity|]. right. cbn [Lin_Proofs.settled lk_step step snd].
    assert (HE : forall t, m t = ∅ -> forall x, Get x t = Get x (lmp (Lks (Clear (lmp s)) (its s)))) by (intros t Et x; unfold Get; rewrite Et; cbn [lmp Clear m]; rewrite !lookup_empty; reflexivity).
    split; [apply alike_get; apply HE; reflexivity|]. split; [apply alike_get; apply HE; reflexivity|]. split; [apply alike_get; apply HE; reflexivity|exact I].
  - cbn [Lin_Proofs.tidy]. split; [apply alike_get; reflexivity|]. left. split; [apply alike_get; reflexivity|exact I].
  - cbn [Lin_Proofs.tidy]. split; [apply alike_get; reflexivity|]. left. cbn [lk_step step]. unfold MoveToFront. destruct (m (lmp s) !! k) as [e|]; cbn [Lin_Proofs.tidy snd].
    + split; [apply alike_get; reflexivity|]. right. cbn [Lin_Proofs.settled]. split; [apply alike_get; reflexivity|exact I].
    + split; [apply alike_get; reflexivity|exact I].
  - cbn [Lin_Proofs.tidy]. split; [apply alike_get; reflexivity|]. left. split; [apply alike_get; reflexivity|exact I].
  - cbn [Lin_Proofs.tidy]. split; [apply alike_get; reflexivity|]. left. destruct (its s !! i) as [it|]; cbn [Lin_Proofs.tidy].
    + split; [apply alike_get; reflexivity|]. left. split; [apply alike_get; reflexivity|exact I].
    + split; [apply alike_get; reflexivity|exact I].
Qed.
Lemma lk_linearizable_few ops sched : (forall os, os ∈ ops -> Forall few os) -> let s0 := Lks (NewLinkedHashMap lim) [] in linearizable lk_step s0 (hist (lexec lk_body (fun _ => s0) ops sched)).
Proof.
  intros Hops s0. apply (linearizable_sim (vseq lk_step (fun _ => 0%nat)) lk_step (fun A s => A 0%nat = s) (fun _ => True) (fun _ => s0) s0); [|reflexivity|auto|].
  - intros A s o _ <-. cbn [vseq fst snd]. rewrite upd_same. auto.
  - apply (linearizable_parts lk_body lk_step (fun _ => 0%nat) few fits); [|intros s o; apply lk_fits| |exact Hops].
    + intros o Ho. unfold sound. assert (lock_op o \/ exists k, o = KOp (OGet k)) as [Hn|(k & ->)] by (destruct o as [[]| |]; cbn; eauto). 2:{
        cbn [lk_body]. split; [reflexivity|]. intros s _. destruct s. split; reflexivity. }
      destruct (lk_exec o Hn) as (p & E & HE). rewrite E. split; [reflexivity|]. intros s Hs. split; [apply HE|]. apply lk_tidy; assumption.
    + intros _. exists []. split; [apply holds_new|]. intros k Hk. cbn in Hk. apply elem_of_nil in Hk as [].
Qed.
End linked.
