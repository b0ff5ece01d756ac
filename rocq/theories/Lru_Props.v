(** Property C36 of cache/lrucache.go. *)
From stdpp Require Import gmap.
From Coq Require Import ZArith Lia.
From Verif Require Import Assoc_Spec Keyed_Proofs Lru_Model Lru_Spec Lru_Proofs.
Local Open Scope Z_scope.

(** C36. Every history of calls has the results of the recency-list specification. *)
Theorem c36_lru_refines {K V} `{Countable K} :
  forall (max : Z) (os : list (rop K V)), (rrun (NewLruCache max) os).1 = (rspec_run max [] os).1.
Proof.
  intros max os. pose proof (rrun_holds max os _ _ (rholds_new max)) as HR.
  destruct (rrun _ os) as [rs c], (rspec_run _ _ os) as [rs' s]. tauto.
Qed.
Print Assumptions c36_lru_refines.

(** C36. Never more than maxEntries keys answer Get (none at all if it is negative). *)
Theorem c36_lru_bound {K V} `{Countable K} :
  forall (max : Z) (os : list (rop K V)) (ks : list K),
    max <> 0 -> NoDup ks ->
    (forall k, k ∈ ks -> (Get (Some k) (rrun (NewLruCache max) os).2).1 <> None) ->
    Z.of_nat (length ks) <= Z.max 0 max.
Proof.
  intros max os ks Hm Hn Hg. pose proof (rrun_holds max os _ _ (rholds_new max)) as HR.
  destruct (rrun _ os) as [rs c], (rspec_run _ _ os) as [rs' s]. destruct HR as [_ HR]. cbn [snd] in Hg.
  pose proof HR as (Hk & _ & Hb). specialize (Hb Hm).
  assert (HL : (length ks <= length (s.*1))%nat).
  { apply submseteq_length, NoDup_submseteq; [auto|]. intros k Hin. specialize (Hg k Hin).
    destruct (decide (k ∈ s.*1)) as [Hi|Hi]; [auto|]. exfalso. apply Hg.
    pose proof (rstep_holds max c s (RGet (Some k)) HR) as HS. cbn [rstep rspec_step] in HS.
    rewrite (proj2 (find_key_None k s) Hi) in HS. destruct (Get (Some k) c) as [r c']. destruct HS as [HS _]. cbn. congruence. }
  rewrite fmap_length in HL. lia.
Qed.
Print Assumptions c36_lru_bound.

(** C36. Without explicit removals, the keys that answer Get are exactly the [max] most recently touched ones,
    where a key is touched by Add and by a successful Get. *)
Theorem c36_lru_most_recent {K V} `{Countable K} :
  forall (max : Z) (os : list (rop K V)) (k : K),
    0 < max -> Forall no_remove os ->
    let '(rs, c) := rrun (NewLruCache max) os in
    (Get (Some k) c).1 <> None <-> k ∈ firstn (Z.to_nat max) (distinct (touched os rs [])).
Proof.
  intros max os k Hm Hr. pose proof (rrun_holds max os _ _ (rholds_new max)) as HR.
  pose proof (recency_run max os [] [] Hm Hr) as HC. cbn [distinct] in HC. rewrite take_nil in HC.
  specialize (HC eq_refl).
  destruct (rrun _ os) as [rs c], (rspec_run _ _ os) as [rs' s]. destruct HR as [-> HR]. cbn [fst snd] in HC.
  rewrite <- HC. pose proof (rstep_holds max c s (RGet (Some k)) HR) as HS. cbn [rstep rspec_step] in HS.
  destruct (Get (Some k) c) as [r c']. cbn [fst]. destruct (find_key k s) as [v|] eqn:E.
  - destruct HS as [HS _]. injection HS as ->. split; [|discriminate]. intros _.
    destruct (decide (k ∈ s.*1)) as [Hi|Hi]; [auto|]. apply find_key_None in Hi. congruence.
  - destruct HS as [HS _]. injection HS as ->. apply find_key_None in E. tauto.
Qed.
Print Assumptions c36_lru_most_recent.
Example c36_ex :
  let os := [RAdd (Some 1) 10; RAdd (Some 2) 20; RGet (Some 1); RAdd None 99; RAdd (Some 3) 30; RGet (Some 2);
             RGet (Some 1); RGet (Some 3)]%nat in
  Forall no_remove os /\
  (rrun (NewLruCache 2) os).1 =
    [None; None; Some (Some 10); None; None; Some None; Some (Some 10); Some (Some 30)]%nat /\
  (rrun (NewLruCache 0) os).1 =
    [None; None; Some (Some 10); None; None; Some (Some 20); Some (Some 10); Some (Some 30)]%nat /\
  distinct (touched os (rrun (NewLruCache 2) os).1 []) = [3; 1; 2]%nat.
Proof. cbn zeta. split; [repeat constructor|]. vm_compute. auto. Qed.
Example c36_ex_remove :
  (rrun (NewLruCache 2) [RAdd (Some 1) 10; RAdd (Some 2) 20; RRemove (Some 1); RRemoveMulti [2]; RGet (Some 1); RGet (Some 2)]%nat).1
  = [None; None; None; None; Some None; Some None].
Proof. vm_compute. reflexivity. Qed.
