(** Properties C17 and C18 of hashmap/limitmap.go. *)
From stdpp Require Import gmap.
From Coq Require Import ZArith Lia.
From Verif Require Import Assoc_Spec LimitMap_Model LimitMap_Spec LimitMap_Proofs.
Local Open Scope Z_scope.

(** C17. Every history of calls has the results of the list specification. *)
Theorem c17_limitmap_refines {K V} `{Countable K} :
  forall (cap : Z) (os : list (lop K V)),
    (lrun (NewLimitMap cap) os).1 = (lspec_run cap [] os).1.
Proof.
  intros cap os. pose proof (lrun_holds cap os _ _ (lholds_new cap)) as HR.
  destruct (lrun _ os) as [rs t], (lspec_run _ _ os) as [rs' s]. tauto.
Qed.
Print Assumptions c17_limitmap_refines.
Example c17_ex : (lrun (NewLimitMap 1) [LPut 1 10; LPut 2 20; LPut 1 11; LPut 3 30; LGet 2; LGet 1; LDel 1; LLen;
    LRemoveMulti [3; 9]; LLen]%nat).1 =
  [LVal None; LVal None; LVal (Some 10); LVal None; LVal None; LVal (Some 11); LUnit; LNum 1; LUnit; LNum 0]%nat.
Proof. vm_compute. reflexivity. Qed.

(** C18 is false: one entry too many. *)
Theorem c18_limitmap_capacity_refuted :
  exists (cap : Z) (os : list (lop nat nat)), 0 < cap /\ cap < Len (lrun (NewLimitMap cap) os).2.
Proof. exists 1, [LPut 1 10; LPut 2 20]%nat. vm_compute. auto. Qed.
Print Assumptions c18_limitmap_capacity_refuted.

(** C18, what does hold: Len never exceeds max(1, capacity + 1), and this bound is reached for every capacity
    (by putting enough distinct keys). Missing: the bound [capacity]. *)
Theorem c18_limitmap_capacity_partial {K V} `{Countable K} :
  forall (cap : Z) (os : list (lop K V)), 0 <= Len (lrun (NewLimitMap cap) os).2 <= Z.max 1 (cap + 1).
Proof.
  intros cap os. pose proof (lrun_holds cap os _ _ (lholds_new cap)) as HR.
  destruct (lrun _ os) as [rs t], (lspec_run _ _ os) as [rs' s]. destruct HR as [_ (Hk & _ & Hb)].
  cbn [snd]. unfold Len. rewrite (keyed_size _ _ _ Hk). lia.
Qed.
Print Assumptions c18_limitmap_capacity_partial.

(** The put history of the keys 0, 1, ..., n-1. *)
Definition puts (n : nat) : list (lop nat nat) := map (fun i => LPut i i) (seq 0 n).

Lemma lspec_run_app {K V} `{EqDecision K} cap os1 os2 : forall s : list (K * V),
  (lspec_run cap s (os1 ++ os2)).2 = (lspec_run cap (lspec_run cap s os1).2 os2).2.
Proof.
  induction os1 as [|o os1 IH]; intros s; cbn [app lspec_run]; [auto|].
  destruct (lspec_step cap s o) as [x s1]. specialize (IH s1).
  destruct (lspec_run cap s1 (os1 ++ os2)), (lspec_run cap s1 os1) as [y s2]. cbn [snd] in *. auto.
Qed.

Lemma puts_spec cap n : Z.of_nat n <= cap + 1 ->
  (lspec_run cap [] (puts n)).2 = rev (map (fun i => (i, i)) (seq 0 n)).
Proof.
  induction n as [|n IH]; intros Hn; [reflexivity|]. unfold puts in *.
  rewrite seq_S, map_app, lspec_run_app, IH by lia. rewrite map_app, rev_app_distr. cbn.
  unfold lspec_put. rewrite (proj2 (Keyed_Proofs.find_key_None n _)).
  - rewrite rev_length, map_length, seq_length. rewrite (proj2 (Z.leb_le _ _)) by lia. reflexivity.
  - rewrite elem_of_list_fmap. intros ([a b] & -> & Hin). apply elem_of_list_In in Hin. rewrite <- in_rev in Hin.
    apply in_map_iff in Hin as (i & E & Hin). injection E as <- <-. apply in_seq in Hin. cbn [fst] in Hin. lia.
Qed.

Theorem c18_limitmap_capacity_tight :
  forall cap : Z, exists os : list (lop nat nat), Len (lrun (NewLimitMap cap) os).2 = Z.max 1 (cap + 1).
Proof.
  intros cap. exists (puts (Z.to_nat (Z.max 1 (cap + 1)))).
  pose proof (lrun_holds cap (puts (Z.to_nat (Z.max 1 (cap + 1)))) _ _ (lholds_new cap)) as HR.
  destruct (lrun _ _) as [rs t] eqn:E1, (lspec_run _ _ _) as [rs' s] eqn:E2. destruct HR as [_ (Hk & _ & Hb)].
  cbn [snd]. unfold Len. rewrite (keyed_size _ _ _ Hk).
  destruct (Z.max_spec 1 (cap + 1)) as [[Hc Hm]|[Hc Hm]]; rewrite Hm in *.
  - pose proof (puts_spec cap (Z.to_nat (cap + 1)) ltac:(lia)) as HP. rewrite E2 in HP. cbn [snd] in HP.
    rewrite HP, rev_length, map_length, seq_length. lia.
  - change (puts (Z.to_nat 1)) with [LPut 0 0]%nat in E2. cbn in E2. injection E2 as _ <-.
    unfold lspec_put. cbn [find_key length]. destruct (_ <=? _); reflexivity.
Qed.
Print Assumptions c18_limitmap_capacity_tight.
Example c18_ex : Len (lrun (NewLimitMap 3) (puts 10)).2 = 4 /\ Len (lrun (NewLimitMap (-7)) (puts 10)).2 = 1.
Proof. vm_compute. auto. Qed.
