(** The critical sections of the collections do what the models of the single files say. *)
From stdpp Require Import gmap.
From Coq Require Import ZArith Lia.
From Verif Require Import GoList_Model Lin_Model Lin_Spec Lin_Proofs Lin_More LinObj_Model.
From Verif Require LimitMap_Model Lru_Model TreeMap_Model Linked_Model LimitHash_Model.
Local Open Scope Z_scope.

Lemma push_pair {E} (v : E) l : (fst (list_PushFront v l), snd (list_PushFront v l)) = list_PushFront v l.
Proof. symmetry. apply surjective_pairing. Qed.

Section limitmap.
Context {K V : Type} `{Countable K}.
Import LimitMap_Model.
Implicit Types mc : lmap K V.
Lemma lm_push_exec k v mc : exec (lm_push k v) mc = (Fin (LVal None), let '(e, l) := list_PushFront (k, v) (order mc) in LMap (<[k := e]> (cache mc)) l (capacity mc)).
Proof. unfold lm_push, act. cbn [exec]. unfold lm_cache, lm_order. cbn [cache order capacity]. destruct (list_PushFront (k, v) (order mc)). reflexivity. Qed.
Lemma lm_put_exec k v mc : exec (lm_put k v) mc = (Fin (LVal (fst (Put k v mc))), snd (Put k v mc)).
Proof.
  unfold lm_put, Put, look. cbn [exec]. destruct (cache mc !! k) as [e|]; [reflexivity|]. cbn [exec]. destruct (capacity mc <? Len mc); cbn [exec].
  - destruct (list_Back (order mc)) as [o|]; [|rewrite lm_push_exec; destruct (list_PushFront _ _); reflexivity]. unfold act. cbn [exec]. rewrite lm_push_exec. unfold lm_cache, lm_order. cbn [cache order capacity].
    destruct (vals (list_Remove o (order mc)) !! o) as [[ko vo]|]; cbn [cache order capacity]; destruct (list_PushFront _ _); reflexivity.
  - rewrite lm_push_exec. destruct (list_PushFront _ _). reflexivity.
Qed.
Lemma lm_del_exec k rest mc : exec (lm_del k rest) mc = exec rest (Del k mc).
Proof. unfold lm_del, Del, look, act. cbn [exec]. destruct (cache mc !! k); reflexivity. Qed.
Lemma lm_locked o : locked lm_body (@lstep K V _ _) o.
Proof.
  unfold locked. destruct o as [k v|k|k|ks|]; cbn [lm_body]; (split; [reflexivity|]); (split; [intros mc|intros E; try discriminate]).
  - rewrite lm_put_exec. cbn [lstep]. destruct (Put k v mc). reflexivity.
  - unfold look. cbn [lstep exec fst snd]. unfold Get. destruct (cache mc !! k); reflexivity.
  - cbn [readonly look]. split; [reflexivity|]. intros mc. destruct (cache mc !! k); cbn; auto.
  - rewrite lm_del_exec. reflexivity.
  - cbn [lstep fst snd]. unfold RemoveMulti. revert mc. induction ks as [|k ks IH]; intros mc; [reflexivity|]. cbn [foldr fold_left]. rewrite lm_del_exec. apply IH.
  - reflexivity.
  - cbn [readonly look]. auto.
Qed.
End limitmap.

Section lru.
Context {K V : Type} `{Countable K}.
Import Lru_Model.
Implicit Types c : lru K V.
Lemma lru_unlink_exec e rest c : exec (lru_unlink e rest) c =
  exec rest (let l := list_Remove e (ll c) in Lru (MaxEntries c) l (match vals l !! e with Some (k', _) => delete k' (cache c) | None => cache c end)).
Proof. unfold lru_unlink, act. cbn [exec]. unfold lru_cache, lru_ll. cbn [ll cache MaxEntries]. destruct (vals (list_Remove e (ll c)) !! e) as [[k v]|]; reflexivity. Qed.
Lemma lru_remove_exec k rest c : exec (lru_remove k rest) c = exec rest (Remove k c).
Proof. unfold lru_remove, Remove. destruct k as [k|]; [|reflexivity]. unfold look. cbn [exec]. destruct (cache c !! k); [apply lru_unlink_exec|reflexivity]. Qed.
Lemma lru_add_exec k v c : exec (lru_add k v) c = (Fin None, Add (Some k) v c).
Proof.
  unfold lru_add, Add, look. cbn [exec]. destruct (cache c !! k) as [e|]; [reflexivity|]. unfold act. cbn [exec]. unfold lru_cache, lru_ll. cbn [ll cache MaxEntries].
  destruct (list_PushFront (k, v) (ll c)) as [e l]. cbn [fst snd]. destruct (negb (MaxEntries c =? 0) && (MaxEntries c <? list_Len l)); [|reflexivity]. cbn [exec]. unfold RemoveOldest. cbn [ll cache MaxEntries].
  destruct (list_Back l) as [o|]; [|reflexivity]. rewrite lru_unlink_exec. reflexivity.
Qed.
Lemma lru_locked o : locked lru_body (@rstep K V _ _) o.
Proof.
  unfold locked. destruct o as [[k|] v|k|k|ks]; cbn [lru_body]; [| intros c; reflexivity|..]; (split; [reflexivity|]); (split; [intros c|discriminate]).
  - apply lru_add_exec.
  - destruct k as [k|]; [|reflexivity]. unfold look, act. cbn [exec]. cbn [rstep]. unfold Get. destruct (cache c !! k); reflexivity.
  - rewrite lru_remove_exec. reflexivity.
  - cbn [rstep fst snd]. unfold RemoveMulti. revert c. induction ks as [|k ks IH]; intros c; [reflexivity|]. cbn [foldr fold_left]. rewrite lru_remove_exec. apply IH.
Qed.
End lru.

Section treemap.
Context {K V : Type} (lt : K -> K -> bool).
Import TreeMap_Model.
Implicit Types l : list (K * V).
Lemma walk_readonly down f n i seen : readonly (@tm_walk K V down f n i seen).
Proof.
  revert i seen. induction n as [|n IH]; intros i seen; [exact I|]. cbn [tm_walk look readonly]. split; [reflexivity|]. intros l. destruct ((if down then rev l else l) !! i) as [[k v]|]; [|exact I]. destruct (f k v); [apply IH|exact I].
Qed.
Lemma walk_exec down f n i seen l : exec (tm_walk down f n i seen) l = (Fin (TSeen (seen ++ visit f (take n (drop i (if down then rev l else l))))), l).
Proof.
  revert i seen. induction n as [|n IH]; intros i seen; [cbn; rewrite app_nil_r; reflexivity|]. cbn [tm_walk look exec]. set (l' := if down then rev l else l) in *.
  destruct (l' !! i) as [[k v]|] eqn:E.
  - rewrite (drop_S _ _ _ E). cbn [take visit]. destruct (f k v).
    + unfold look in IH. rewrite IH. rewrite <- app_assoc. reflexivity.
    + reflexivity.
  - apply lookup_ge_None in E. rewrite drop_ge by exact E. rewrite take_nil. cbn. rewrite app_nil_r. reflexivity.
Qed.
Lemma tm_locked o : locked (tm_body lt) (@tm_step K V lt) o.
Proof.
  unfold locked. destruct o as [[k v|k|k]|f|f]; cbn [tm_body]; (split; [reflexivity|]); (split; [intros l|intros E; try discriminate]).
  - cbn [exec tm_step tree_step]. destruct (replace_or_insert lt (k, v) l). reflexivity.
  - reflexivity.
  - cbn [readonly look]. auto.
  - reflexivity.
  - unfold look. cbn [exec]. rewrite walk_exec. cbn [tm_step fst snd app]. rewrite drop_0, take_ge by reflexivity. reflexivity.
  - cbn [readonly look]. split; [reflexivity|]. intros l. apply walk_readonly.
  - unfold look. cbn [exec]. rewrite walk_exec. cbn [tm_step fst snd app]. rewrite drop_0, take_ge by (rewrite rev_length; reflexivity). reflexivity.
  - cbn [readonly look]. split; [reflexivity|]. intros l. apply walk_readonly.
Qed.
End treemap.

Section limithash.
Context {K V : Type} (hash : K -> Z) (is_nil : V -> bool) (cap segs : Z).
Import LimitHash_Model.
Notation body := (sg_body hash is_nil cap segs).
(** The methods that work on one segment. *)
Definition keyed_op (o : hop K V) : Prop := match o with HClear | HLen => False | _ => True end.
Definition op_seg (o : hop K V) : nat := match o with HPut k _ | HGet k | HDel k | HContains k => sg_of hash segs k | _ => 0 end.
Definition seg_step (s : segment K V) (o : hop K V) : hres V * segment K V :=
  match o with
  | HPut k v => seg_put is_nil cap (hash k) k v s
  | HGet k => (seg_get is_nil (hash k) s, s)
  | HDel k => (HUnit, seg_del (hash k) s)
  | HContains k => (HBool (seg_contains (hash k) s), s)
  | _ => (HUnit, s)
  end.
Lemma sg_push_exec k (v : V) s : exec (sg_push hash k v) s = (Fin (HVal None), let '(e, l) := list_PushFront (hash k, (k, v)) (order s) in Seg (<[hash k := e]> (cache s)) l).
Proof. unfold sg_push, act. cbn [exec]. unfold sg_cache, sg_order. cbn [cache order]. destruct (list_PushFront _ (order s)). reflexivity. Qed.
Lemma sg_put_exec k (v : V) s : exec (sg_put hash is_nil cap k v) s = (Fin (fst (seg_put is_nil cap (hash k) k v s)), snd (seg_put is_nil cap (hash k) k v s)).
Proof.
  unfold sg_put, seg_put, look. cbn [exec]. destruct (cache s !! hash k) as [e|].
  - cbn [exec]. destruct (vals (order s) !! e) as [[h0 [k0 prev]]|]; [|reflexivity]. destruct (is_nil prev); reflexivity.
  - cbn [exec]. destruct (cap <=? list_Len (order s)); cbn [exec].
    + destruct (list_Back (order s)) as [o|]; [|rewrite sg_push_exec; destruct (list_PushFront _ _); reflexivity]. unfold act. cbn [exec]. rewrite sg_push_exec. unfold sg_cache, sg_order. cbn [cache order].
      destruct (vals (list_Remove o (order s)) !! o) as [[ko vo]|]; cbn [cache order]; destruct (list_PushFront _ _); reflexivity.
    + rewrite sg_push_exec. destruct (list_PushFront _ _). reflexivity.
Qed.
Lemma sg_sound o : keyed_op o -> sound body seg_step op_seg keyed_op (fun _ => True) o.
Proof.
  intros Ho. unfold sound.
  assert (HT : forall i A A' p s, tidy body keyed_op i A A' p s).
  { intros i A A' p s. apply tidy_free. intros o' j k Ho' E. destruct o'; cbn in Ho', E; try discriminate; tauto. }
  destruct o as [k v|k|k|k| |]; cbn in Ho; try tauto; cbn [sg_body]; (split; [reflexivity|]); intros s _; (split; [|first [apply HT|split; [|reflexivity]]]).
  - apply sg_put_exec.
  - unfold look. cbn [exec seg_step fst snd]. unfold seg_get. destruct (cache s !! hash k) as [e|]; [|reflexivity]. cbn [exec]. destruct (vals (order s) !! e) as [[? [? v]]|]; [|reflexivity]. destruct (is_nil v); reflexivity.
  - cbn [readonly look]. split; [reflexivity|]. intros s1. destruct (cache s1 !! hash k); [|exact I]. cbn [readonly look]. split; [reflexivity|]. intros s2. destruct (vals (order s2) !! n) as [[? [? v]]|]; [|exact I]. destruct (is_nil v); exact I.
  - unfold look, act. cbn [exec seg_step fst snd]. unfold seg_del. destruct (cache s !! hash k); reflexivity.
  - reflexivity.
  - cbn [readonly look]. auto.
Qed.
End limithash.

Section limithash_whole.
Context {K V : Type} (hash : K -> Z) (is_nil : V -> bool) (cap segs : Z).
Import LimitHash_Model.
(** The parts together are the map. *)
Definition parts (A : nat -> segment K V) (c : lhmap K V) : Prop :=
  capacity c = cap /\ segmentNumber c = segs /\ forall i, (i < Z.to_nat segs)%nat -> segments c !! i = Some (A i).
Lemma parts_step A c o : 0 < segs -> keyed_op o -> parts A c ->
  fst (vseq (seg_step hash is_nil cap) (op_seg hash segs) A o) = fst (hstep hash is_nil c o) /\
  parts (snd (vseq (seg_step hash is_nil cap) (op_seg hash segs) A o)) (snd (hstep hash is_nil c o)).
Proof.
  intros Hs Ho (P1 & P2 & P3).
  assert (HK : forall k, let i := sg_of hash segs k in
    segments c !! getSegment hash c k = Some (A i) /\
    forall x, parts (upd A i x) (LHMap (capacity c) (<[getSegment hash c k := x]> (segments c)) (segmentNumber c))).
  { intros k i. unfold getSegment. rewrite P2. fold (sg_of hash segs k). fold i. assert (Hi : (i < Z.to_nat segs)%nat). { subst i. unfold sg_of. pose proof (Z.mod_pos_bound (hash k) segs Hs). lia. }
    split; [apply P3; exact Hi|]. intros x. split; [exact P1|]. split; [reflexivity|]. cbn [segments]. intros j Hj. destruct (decide (j = i)) as [->|Hne].
    - rewrite upd_same. apply list_lookup_insert. apply lookup_lt_is_Some. exists (A i). apply P3. exact Hi.
    - rewrite upd_other by exact Hne. rewrite list_lookup_insert_ne by congruence. apply P3. exact Hj. }
  destruct o as [k v|k|k|k| |]; cbn in Ho; try tauto; destruct (HK k) as [E U]; unfold hstep, vseq; cbn [op_seg seg_step]; rewrite E.
  - rewrite P1. destruct (seg_put is_nil cap (hash k) k v (A (sg_of hash segs k))) as [r s']. cbn [fst snd]. rewrite <- P1. split; [reflexivity|]. apply U.
  - cbn [fst snd]. split; [reflexivity|]. apply U.
  - cbn [fst snd]. split; [reflexivity|]. apply U.
  - cbn [fst snd]. split; [reflexivity|]. apply U.
Qed.
Lemma sg_linearizable c ops sched : 0 < segs -> parts (fun _ => new_segment) c -> (forall os, os ∈ ops -> Forall keyed_op os) ->
  linearizable (hstep hash is_nil) c (hist (lexec (sg_body hash is_nil cap segs) (fun _ => new_segment) ops sched)).
Proof.
  intros Hs Hc Hops. apply (linearizable_sim (vseq (seg_step hash is_nil cap) (op_seg hash segs)) _ parts keyed_op (fun _ => new_segment)); [|exact Hc| |].
  - intros A c' o Ho HP. apply parts_step; assumption.
  - intros i o Hi. apply calls_from in Hi as (os & H1 & H2). specialize (Hops os H1). rewrite Forall_forall in Hops. apply Hops. exact H2.
  - apply (linearizable_parts _ _ _ keyed_op (fun _ => True)); auto. intros o Ho. apply sg_sound. exact Ho.
Qed.
End limithash_whole.

Section linked.
Context {K V : Type} `{Countable K}.
Import Linked_Model.
Implicit Types s : lks K V.
(** The methods that take the lock. *)
Definition lock_op (o : lkop K V) : Prop := match o with KOp (OGet _) => False | _ => True end.
Lemma lk_put_exec k v res s : exec (lk_put k v res) s =
  let '(pre, t) := put_body k v (lmp s) in exec (res pre) (Lks t (its s)).
Proof.
  unfold lk_put, put_body, look, act. cbn [exec]. unfold lk_m, lk_lst, lk_count. cbn [lmp its m lst limit count].
  destruct (list_PushFront (k, v) (lst (lmp s))) as [e l]. cbn [fst snd]. destruct (m (lmp s) !! k) as [pre|]; cbn [exec lmp its m lst limit count]; [reflexivity|].
  destruct (limit (lmp s) <? count (lmp s) + 1); [|reflexivity]. cbn [exec lmp its m lst limit count]. destruct (list_Back l) as [o|]; [|reflexivity]. cbn [exec lmp its m lst limit count].
  destruct (vals (list_Remove o l) !! o) as [[ko vo]|]; reflexivity.
Qed.
Lemma lk_exec o : lock_op o -> exists p, lk_body o = Enter 0 true p /\ forall s, exec p s = (Fin (fst (lk_step s o)), snd (lk_step s o)).
Proof.
  intros Ho. destruct o as [[k v|k v|k|k| | | | |k]|fr|i]; cbn in Ho; try tauto; cbn [lk_body]; eexists; (split; [reflexivity|]); intros s; cbn [lk_step step].
  - rewrite lk_put_exec. unfold Put. destruct (put_body k v (lmp s)) as [pre t]. reflexivity.
  - rewrite lk_put_exec. unfold LoadOrStore. destruct (put_body k v (lmp s)) as [[e|] t]; reflexivity.
  - unfold look, act, Delete. cbn [exec]. destruct (m (lmp s) !! k); [reflexivity|]. destruct s; reflexivity.
  - unfold look. cbn [exec]. destruct s; reflexivity.
  - unfold look. cbn [exec]. destruct s; reflexivity.
  - reflexivity.
  - unfold look. cbn [exec]. destruct s; reflexivity.
  - unfold look, act, MoveToFront. cbn [exec]. destruct (m (lmp s) !! k); [reflexivity|]. destruct s; reflexivity.
  - reflexivity.
  - unfold look. cbn [exec]. destruct (its s !! i) as [it|]; [|reflexivity]. cbn [exec]. destruct (Next (lmp s) it). reflexivity.
Qed.
Lemma lk_linearizable_locked s0 ops sched : (forall os, os ∈ ops -> Forall lock_op os) -> linearizable lk_step s0 (hist (lexec lk_body (fun _ => s0) ops sched)).
Proof.
  intros Hops. apply (linearizable_sim (vseq lk_step (fun _ => 0%nat)) lk_step (fun A s => A 0%nat = s) (fun _ => True) (fun _ => s0) s0); [|reflexivity|auto|].
  - intros A s o _ <-. cbn [vseq fst snd]. rewrite upd_same. auto.
  - apply (linearizable_parts lk_body lk_step (fun _ => 0%nat) lock_op (fun _ => True)); auto. intros o Ho. unfold sound. destruct (lk_exec o Ho) as (p & -> & E). split; [reflexivity|]. intros s _.
    split; [apply E|]. apply tidy_free. intros o' j k Ho' E'. destruct (lk_exec o' Ho') as (p' & E'' & _). rewrite E'' in E'. discriminate.
Qed.
End linked.
