(** Properties C76, C77 and C101: the collections used by many goroutines at once. *)
From stdpp Require Import gmap.
From Coq Require Import ZArith Lia.
From Verif Require Import GoList_Model Assoc_Spec Linked_Model Linked_Spec Linked_Proofs Lin_Model Lin_Spec Lin_Proofs Lin_More LinObj_Model LinObj_Proofs LinGet_Proofs Lin_Refute LinSeg_Proofs.
From Verif Require LimitMap_Model LimitMap_Spec LimitMap_Proofs Lru_Model Lru_Spec Lru_Proofs TreeMap_Model TreeMap_Spec LimitHash_Model LimitHash_Spec LimitHash_Proofs.
Local Open Scope Z_scope.

(** C76. However the methods are cut into steps: if each is one critical section of the object's lock that, run alone, does what the method should do, and under RLock
    changes nothing, then every history of every number of goroutines is linearizable. *)
Theorem c76_one_lock_linearizable {St Op Res} : forall (body : Op -> code St Res) (seq : St -> Op -> Res * St) (s0 : St) (ops : list (list Op)) (sched : list nat),
  (forall o, exists x p, body o = Enter 0 x p /\ (forall s, exec p s = (Fin (fst (seq s o)), snd (seq s o))) /\ (x = false -> readonly p)) ->
  linearizable seq s0 (hist (lexec body (fun _ => s0) ops sched)).
Proof. intros body seq s0 ops sched Hb. apply linearizable_one. intros o. destruct (Hb o) as (x & p & E & H1 & H2). unfold locked. rewrite E. auto. Qed.
Print Assumptions c76_one_lock_linearizable.

(** C76. No call blocks for ever: from every point of every execution the goroutines can be run so that all calls return. *)
Theorem c76_never_stuck {St Op Res} : forall (body : Op -> code St Res) (s0 : nat -> St) (ops : list (list Op)) (sched : list nat),
  exists sched', all_returned (lexec body s0 ops (sched ++ sched')).
Proof. intros. apply never_stuck. Qed.
Print Assumptions c76_never_stuck.

(** C76, LimitMap: every history is one of the recency list of C17. *)
Theorem c76_limitmap_linearizable {K V} `{Countable K} : forall (cap : Z) (ops : list (list (LimitMap_Model.lop K V))) (sched : list nat),
  linearizable (LimitMap_Spec.lspec_step cap) [] (hist (lexec lm_body (fun _ => LimitMap_Model.NewLimitMap cap) ops sched)).
Proof.
  intros cap ops sched. apply (linearizable_sim LimitMap_Model.lstep _ (LimitMap_Proofs.lholds cap) (fun _ => True) (LimitMap_Model.NewLimitMap cap)); [|apply LimitMap_Proofs.lholds_new|auto|].
  - intros mc s o _ Hh. pose proof (LimitMap_Proofs.lstep_holds cap mc s o Hh) as HS. destruct (LimitMap_Model.lstep mc o), (LimitMap_Spec.lspec_step cap s o). exact HS.
  - apply linearizable_one. apply lm_locked.
Qed.
Print Assumptions c76_limitmap_linearizable.

(** C76, LruCache: every history is one of the recency list of C36. *)
Theorem c76_lru_linearizable {K V} `{Countable K} : forall (max : Z) (ops : list (list (Lru_Model.rop K V))) (sched : list nat),
  linearizable (Lru_Spec.rspec_step max) [] (hist (lexec lru_body (fun _ => Lru_Model.NewLruCache max) ops sched)).
Proof.
  intros max ops sched. apply (linearizable_sim Lru_Model.rstep _ (Lru_Proofs.rholds max) (fun _ => True) (Lru_Model.NewLruCache max)); [|apply Lru_Proofs.rholds_new|auto|].
  - intros c s o _ Hh. pose proof (Lru_Proofs.rstep_holds max c s o Hh) as HS. destruct (Lru_Model.rstep c o), (Lru_Spec.rspec_step max s o). exact HS.
  - apply linearizable_one. apply lru_locked.
Qed.
Print Assumptions c76_lru_linearizable.

(** C76, TreeMap: every history, with whole iterations as single operations, is one of the tree used by one goroutine (for which see C30). *)
Theorem c76_treemap_linearizable {K V} : forall (lt : K -> K -> bool) (ops : list (list (tmop K V))) (sched : list nat),
  linearizable (tm_step lt) [] (hist (lexec (tm_body lt) (fun _ => []) ops sched)).
Proof. intros lt ops sched. apply linearizable_one. apply tm_locked. Qed.
Print Assumptions c76_treemap_linearizable.

(** C76, LinkedHashMap without Get: every history, including iterators shared by goroutines, is one of the map used by one goroutine (for which see C23 to C27). *)
Theorem c76_linked_linearizable {K V} `{Countable K} : forall (lim : Z) (ops : list (list (lkop K V))) (sched : list nat),
  (forall os o, os ∈ ops -> o ∈ os -> forall k, o <> KOp (OGet k)) ->
  let s0 := Lks (NewLinkedHashMap lim) [] in
  linearizable lk_step s0 (hist (lexec lk_body (fun _ => s0) ops sched)).
Proof.
  intros lim ops sched Ho s0. apply lk_linearizable_locked. intros os Hos. apply Forall_forall. intros o Hin. specialize (Ho os o Hos Hin). destruct o as [[]| |]; cbn; auto. exact (Ho k eq_refl).
Qed.
Print Assumptions c76_linked_linearizable.

(** C76, LimitHashMap: the methods that work on one key are linearizable across all segments, to the bounded maps of C19. *)
Theorem c76_limithash_linearizable {K V} : forall (hash : K -> Z) (is_nil : V -> bool) (cap segs : Z) (ops : list (list (LimitHash_Model.hop K V))) (sched : list nat),
  0 < segs -> (forall os o, os ∈ ops -> o ∈ os -> o <> LimitHash_Model.HClear /\ o <> LimitHash_Model.HLen) ->
  linearizable (LimitHash_Spec.hspec_step hash (fun k => Z.to_nat (hash k mod segs)) is_nil (Z.to_nat segs) (Z.quot cap segs)) (fun _ => [])
    (hist (lexec (sg_body hash is_nil (Z.quot cap segs) segs) (fun _ => LimitHash_Model.new_segment) ops sched)).
Proof.
  intros hash is_nil cap segs ops sched Hs Ho.
  assert (Hc : LimitHash_Model.NewLimitHashMapWithSegment (K := K) (V := V) cap segs = Some (LimitHash_Model.LHMap (Z.quot cap segs) (replicate (Z.to_nat segs) LimitHash_Model.new_segment) segs)).
  { unfold LimitHash_Model.NewLimitHashMapWithSegment. destruct (Z.leb_spec segs 0); [lia|reflexivity]. }
  set (c := LimitHash_Model.LHMap (Z.quot cap segs) (replicate (Z.to_nat segs) LimitHash_Model.new_segment) segs) in Hc. destruct (LimitHash_Proofs.new_holds _ _ _ Hc) as [_ Hh].
  apply (linearizable_sim (LimitHash_Model.hstep hash is_nil) _ (LimitHash_Proofs.hholds (Z.to_nat segs) (Z.quot cap segs)) (fun _ => True) c); [|exact Hh|auto|].
  - intros c' st o _ Hh'. pose proof (LimitHash_Proofs.hstep_holds hash is_nil (Z.to_nat segs) (Z.quot cap segs) c' st o Hh') as HS. unfold LimitHash_Proofs.hseg in HS. rewrite Z2Nat.id in HS by lia.
    destruct (LimitHash_Model.hstep hash is_nil c' o), (LimitHash_Spec.hspec_step hash (fun k : K => Z.to_nat (hash k mod segs)) is_nil (Z.to_nat segs) (Z.quot cap segs) st o). exact HS.
  - apply sg_linearizable; [exact Hs| |].
    + split; [reflexivity|]. split; [reflexivity|]. intros i Hi. cbn [c LimitHash_Model.segments]. apply lookup_replicate_2. exact Hi.
    + intros os Hos. apply Forall_forall. intros o Hin. destruct (Ho os o Hos Hin) as [N1 N2]. destruct o; cbn; auto.
Qed.
Print Assumptions c76_limithash_linearizable.

(** Two goroutines on a TreeMap, a Put pending while the other one waits for the lock and then iterates. *)
Example c76_ex :
  hist (lexec (tm_body Z.ltb) (fun _ => []) [[TOp (TreeMap_Model.TPut 2 20); TOp (TreeMap_Model.TDel 1)]; [TOp (TreeMap_Model.TPut 1 10); TAscend (fun _ _ => true)]]
    [1; 1; 0; 0; 1; 0; 1; 1; 0; 0; 1; 0; 0; 1; 1; 1; 1; 0; 0; 1; 1; 1; 0; 0; 0; 0]%nat) =
  [Call (1, 0)%nat (TOp (TreeMap_Model.TPut 1 10)); Call (0, 0)%nat (TOp (TreeMap_Model.TPut 2 20)); Return (1, 0)%nat (TRes (TreeMap_Model.TVal None));
   Call (1, 1)%nat (TAscend (fun _ _ => true)); Return (0, 0)%nat (TRes (TreeMap_Model.TVal None)); Call (0, 1)%nat (TOp (TreeMap_Model.TDel 1));
   Return (1, 1)%nat (TSeen [(1, 10); (2, 20)]); Return (0, 1)%nat (TRes TreeMap_Model.TUnit)].
Proof. vm_compute. reflexivity. Qed.

(** Equality of results, for the search through all orders. *)
Local Instance lkres_eq : EqDecision (lkres Z Z).
Proof. intros a b. unfold Decision. repeat decide equality. Defined.
Local Instance hres_eq : EqDecision (LimitHash_Model.hres Z).
Proof. intros a b. unfold Decision. repeat decide equality. Defined.
Ltac refute es prec :=
  apply (not_linearizable _ _ _ es prec);
  [ repeat (apply NoDup_cons_2; [intros Hx; repeat (apply elem_of_cons in Hx as [Hx|Hx]; [discriminate Hx|]); apply elem_of_nil in Hx as []|]); apply NoDup_nil_2
  | intros i o Hx; repeat (apply elem_of_cons in Hx as [Hx|Hx]; [first [discriminate Hx|injection Hx as -> ->; eexists; split; [repeat first [apply elem_of_list_here|apply elem_of_list_further]|repeat first [apply elem_of_list_here|apply elem_of_list_further]]]|]); apply elem_of_nil in Hx as []
  | intros e Hx; repeat (apply elem_of_cons in Hx as [ -> |Hx]; [cbn [fst snd]; repeat first [apply elem_of_list_here|apply elem_of_list_further]|]); apply elem_of_nil in Hx as []
  | intros p Hx; repeat (apply elem_of_cons in Hx as [ -> |Hx]; [split; [|cbn; repeat first [apply elem_of_list_here|apply elem_of_list_further]]|]); [..|apply elem_of_nil in Hx as []]
  | vm_compute; reflexivity ].

(** C77 is false: of two Gets, one sees the key just put and the next one still sees the key that had to go. No order of the four calls explains this. *)
Theorem c77_get_linearizable_refuted : exists (lim : Z) (ops : list (list (lkop Z Z))) (sched : list nat),
  let s0 := Lks (NewLinkedHashMap lim) [] in 1 <= lim /\
  ~ linearizable lk_step s0 (hist (lexec lk_body (fun _ => s0) ops sched)).
Proof.
  exists 1, [[KOp (OGet 2); KOp (OGet 1)]; [KOp (OPut 1 10); KOp (OPut 2 20)]], (replicate 12 1 ++ replicate 6 0 ++ replicate 8 1)%nat. cbn zeta. split; [lia|].
  match goal with |- ~ linearizable _ _ ?h => let h' := eval vm_compute in h in change h with h' end.
  refute ([((1, 0)%nat, KOp (OPut 1 10), KRes RUnit); ((1, 1)%nat, KOp (OPut 2 20), KRes RUnit); ((0, 0)%nat, KOp (OGet 2), KRes (RVal (Some 20))); ((0, 1)%nat, KOp (OGet 1), KRes (RVal (Some 10)))] : list (id * lkop Z Z * lkres Z Z)) [((0, 0), (0, 1)); ((1, 0), (1, 1))]%nat.
  - exists 4%nat, 5%nat. do 2 eexists. split; [lia|]. split; reflexivity.
  - exists 1%nat, 2%nat. do 2 eexists. split; [lia|]. split; reflexivity.
Qed.
Print Assumptions c77_get_linearizable_refuted.

(** C77, what does hold: as long as no more than [lim] different keys are ever stored, so that nothing is ever evicted, every history is linearizable with all
    its Gets. Missing: histories with evictions. *)
Theorem c77_get_linearizable_partial {K V} `{Countable K} : forall (lim : Z) (keys : list K) (ops : list (list (lkop K V))) (sched : list nat),
  Z.of_nat (length keys) <= lim ->
  (forall os o k v, os ∈ ops -> o ∈ os -> o = KOp (OPut k v) \/ o = KOp (OLoadOrStore k v) -> k ∈ keys) ->
  let s0 := Lks (NewLinkedHashMap lim) [] in
  linearizable lk_step s0 (hist (lexec lk_body (fun _ => s0) ops sched)).
Proof.
  intros lim keys ops sched Hl Ho s0. apply (lk_linearizable_few keys lim Hl). intros os Hos. apply Forall_forall. intros o Hin. destruct o as [[k v|k v| | | | | | |]| |]; cbn [few]; auto; eapply Ho; eauto.
Qed.
Print Assumptions c77_get_linearizable_partial.
Example c77_lin_ex : let s0 := Lks (NewLinkedHashMap (K := Z) (V := Z) 2) [] in
  hist (lexec lk_body (fun _ => s0) [[KOp (OGet 2); KOp (OGet 1)]; [KOp (OPut 1 10); KOp (OPut 2 20); KOp OClear]]
    (replicate 13 1 ++ replicate 3 0 ++ replicate 7 1 ++ replicate 3 0 ++ replicate 3 1)%nat) =
  [Call (1, 0)%nat (KOp (OPut 1 10)); Return (1, 0)%nat (KRes RUnit); Call (1, 1)%nat (KOp (OPut 2 20)); Call (0, 0)%nat (KOp (OGet 2)); Return (0, 0)%nat (KRes (RVal (Some 20)));
   Return (1, 1)%nat (KRes RUnit); Call (1, 2)%nat (KOp OClear); Call (0, 1)%nat (KOp (OGet 1)); Return (0, 1)%nat (KRes (RVal None)); Return (1, 2)%nat (KRes RUnit)].
Proof. vm_compute. reflexivity. Qed.

(** C101 is false of Len: it counts one segment after the other, and can find a map empty that never was. *)
Theorem c101_len_atomic_refuted : exists (ops : list (list (LimitHash_Model.hop Z Z))) (sched : list nat),
  ~ linearizable (LimitHash_Spec.hspec_step (fun k => k) (fun k => Z.to_nat (k mod 2)) (fun _ => false) 2 5) (fun _ => [])
    (hist (lexec (sg_body (fun k => k) (fun _ => false) 5 2) (fun _ => LimitHash_Model.new_segment) ops sched)).
Proof.
  exists [[LimitHash_Model.HLen]; [LimitHash_Model.HPut 1 10; LimitHash_Model.HPut 0 5; LimitHash_Model.HDel 1]], (replicate 8 1 ++ replicate 4 0 ++ replicate 14 1 ++ replicate 4 0 ++ [1])%nat.
  match goal with |- ~ linearizable _ _ ?h => let h' := eval vm_compute in h in change h with h' end.
  refute ([((1, 0)%nat, LimitHash_Model.HPut 1 10, LimitHash_Model.HVal None); ((0, 0)%nat, LimitHash_Model.HLen, LimitHash_Model.HNum 0); ((1, 1)%nat, LimitHash_Model.HPut 0 5, LimitHash_Model.HVal None);
    ((1, 2)%nat, LimitHash_Model.HDel 1, LimitHash_Model.HUnit)] : list (id * LimitHash_Model.hop Z Z * LimitHash_Model.hres Z)) [((1, 0), (0, 0)); ((1, 0), (1, 1)); ((1, 1), (1, 2))]%nat.
  - exists 1%nat, 2%nat. do 2 eexists. split; [lia|]. split; reflexivity.
  - exists 1%nat, 3%nat. do 2 eexists. split; [lia|]. split; reflexivity.
  - exists 4%nat, 5%nat. do 2 eexists. split; [lia|]. split; reflexivity.
Qed.
Print Assumptions c101_len_atomic_refuted.

(** C101 is false of Clear: of two entries that are in the map together one is removed by the Clear and the other one survives it. *)
Theorem c101_clear_atomic_refuted : exists (ops : list (list (LimitHash_Model.hop Z Z))) (sched : list nat),
  ~ linearizable (LimitHash_Spec.hspec_step (fun k => k) (fun k => Z.to_nat (k mod 2)) (fun _ => false) 2 5) (fun _ => [])
    (hist (lexec (sg_body (fun k => k) (fun _ => false) 5 2) (fun _ => LimitHash_Model.new_segment) ops sched)).
Proof.
  exists [[LimitHash_Model.HClear]; [LimitHash_Model.HPut 1 10; LimitHash_Model.HPut 0 5; LimitHash_Model.HGet 1; LimitHash_Model.HGet 0]], (replicate 8 1 ++ replicate 5 0 ++ replicate 14 1 ++ replicate 5 0 ++ replicate 7 1)%nat.
  match goal with |- ~ linearizable _ _ ?h => let h' := eval vm_compute in h in change h with h' end.
  refute ([((1, 0)%nat, LimitHash_Model.HPut 1 10, LimitHash_Model.HVal None); ((0, 0)%nat, LimitHash_Model.HClear, LimitHash_Model.HUnit); ((1, 1)%nat, LimitHash_Model.HPut 0 5, LimitHash_Model.HVal None);
    ((1, 2)%nat, LimitHash_Model.HGet 1, LimitHash_Model.HVal (Some 10)); ((1, 3)%nat, LimitHash_Model.HGet 0, LimitHash_Model.HVal (Some 5))] : list (id * LimitHash_Model.hop Z Z * LimitHash_Model.hres Z)) [((1, 0), (0, 0)); ((1, 1), (1, 2)); ((0, 0), (1, 3))]%nat.
  - exists 1%nat, 2%nat. do 2 eexists. split; [lia|]. split; reflexivity.
  - exists 4%nat, 5%nat. do 2 eexists. split; [lia|]. split; reflexivity.
  - exists 7%nat, 8%nat. do 2 eexists. split; [lia|]. split; reflexivity.
Qed.
Print Assumptions c101_clear_atomic_refuted.

(** C101, what does hold of Clear: once no Put is pending, every call made after a Clear has returned finds the map empty, whatever the other goroutines do
    meanwhile. Missing: Puts that overlap the Clear. *)
Theorem c101_clear_partial {K V} : forall (hash : K -> Z) (is_nil : V -> bool) (cap segs : Z) (s0 : nat -> LimitHash_Model.segment K V) (ops : list (list (LimitHash_Model.hop K V))) (s1 s2 s3 : list nat) (t n : nat) r x more i o y,
  0 < segs ->
  let run := lexec (sg_body hash is_nil cap segs) s0 ops in
  (forall k v, ~ pending (run s1) (LimitHash_Model.HPut k v)) -> threads (run s1) !! t = Some (Thr (LimitHash_Model.HClear :: r) n Idle) ->
  Return (t, n) x ∈ hist (run (s1 ++ s2)) ->
  hist (run (s1 ++ s2 ++ s3)) = hist (run (s1 ++ s2)) ++ more -> Call i o ∈ more -> Return i y ∈ more ->
  match o with
  | LimitHash_Model.HGet _ => y = LimitHash_Model.HVal None
  | LimitHash_Model.HContains _ => y = LimitHash_Model.HBool false
  | LimitHash_Model.HLen => y = LimitHash_Model.HNum 0
  | _ => True
  end.
Proof.
  intros hash is_nil cap segs s0 ops s1 s2 s3 t n r x more i o y Hs run Hp Ht HR HM HC HY. pose proof (clear_quiescent hash is_nil cap segs Hs s0 ops s1 s2 s3 t n r x more i o y Hp Ht HR HM HC HY) as ->.
  destruct o; exact I || reflexivity.
Qed.
Print Assumptions c101_clear_partial.

(** C101, what does hold of Len: as long as only Get, Contains and Len are pending, Len returns the number of entries of all segments. Missing: calls that change
    the map while Len runs. *)
Theorem c101_len_partial {K V} : forall (hash : K -> Z) (is_nil : V -> bool) (cap segs : Z) (ops : list (list (LimitHash_Model.hop K V))) (s1 s2 : list nat) (t n : nat) r x,
  0 < segs ->
  let run := lexec (sg_body hash is_nil cap segs) (fun _ => LimitHash_Model.new_segment) ops in
  (forall o, pending (run s1) o -> match o with LimitHash_Model.HGet _ | LimitHash_Model.HContains _ | LimitHash_Model.HLen => True | _ => False end) ->
  threads (run s1) !! t = Some (Thr (LimitHash_Model.HLen :: r) n Idle) -> Return (t, n) x ∈ hist (run (s1 ++ s2)) ->
  x = LimitHash_Model.HNum (Z.of_nat (sum_list_with (fun i => size (LimitHash_Model.cache (mem (run s1) i))) (seq 0 (Z.to_nat segs)))).
Proof. intros hash is_nil cap segs ops s1 s2 t n r x Hs run Hp Ht HR. exact (len_quiescent hash is_nil cap segs Hs ops s1 s2 t n r x Hp Ht HR). Qed.
Print Assumptions c101_len_partial.

(** Three keys in two segments, then Clear while another goroutine does Contains and Get, then Len. *)
Definition c101_ops : list (list (LimitHash_Model.hop Z Z)) :=
  [[LimitHash_Model.HPut 0 5; LimitHash_Model.HPut 1 10; LimitHash_Model.HPut 3 30; LimitHash_Model.HClear; LimitHash_Model.HLen]; [LimitHash_Model.HContains 3; LimitHash_Model.HGet 3]].
Definition c101_run (s : list nat) := lexec (sg_body (fun k => k) (fun _ => false) 5 2) (fun _ => LimitHash_Model.new_segment) c101_ops s.
Example c101_ex :
  (forall k v, ~ pending (c101_run (replicate 24 0)%nat) (LimitHash_Model.HPut k v)) /\
  threads (c101_run (replicate 24 0)%nat) !! 0%nat = Some (Thr [LimitHash_Model.HClear; LimitHash_Model.HLen] 3 Idle) /\
  Return (0, 3)%nat LimitHash_Model.HUnit ∈ hist (c101_run (replicate 24 0 ++ replicate 5 0 ++ replicate 5 1 ++ replicate 5 0)%nat) /\
  drop 7 (hist (c101_run (replicate 24 0 ++ (replicate 5 0 ++ replicate 5 1 ++ replicate 5 0) ++ [0; 1; 0; 0; 1; 1; 1; 1; 0; 0; 0; 0; 0])%nat)) =
    [Call (1, 0)%nat (LimitHash_Model.HContains 3); Return (1, 0)%nat (LimitHash_Model.HBool true); Return (0, 3)%nat LimitHash_Model.HUnit] ++
    [Call (0, 4)%nat LimitHash_Model.HLen; Call (1, 1)%nat (LimitHash_Model.HGet 3); Return (1, 1)%nat (LimitHash_Model.HVal None); Return (0, 4)%nat (LimitHash_Model.HNum 0)].
Proof.
  split; [|split; [|split]].
  - assert (E1 : todo <$> threads (c101_run (replicate 24 0)%nat) = [[LimitHash_Model.HClear; LimitHash_Model.HLen]; [LimitHash_Model.HContains 3; LimitHash_Model.HGet 3]]) by (vm_compute; reflexivity).
    assert (E2 : at_ <$> threads (c101_run (replicate 24 0)%nat) = [Idle; Idle]) by (vm_compute; reflexivity). generalize dependent (c101_run (replicate 24 0)%nat).
    intros g E1 E2 k v (t & th & Ht & H). pose proof (f_equal (fun l => l !! t) E1) as F1. pose proof (f_equal (fun l => l !! t) E2) as F2. cbn beta in F1, F2. rewrite list_lookup_fmap, Ht in F1. rewrite list_lookup_fmap, Ht in F2. cbn [fmap option_fmap option_map] in F1, F2.
    destruct t as [|[|t]]; cbn in F1, F2; [| |discriminate]; injection F1 as F1; injection F2 as F2; rewrite F1, F2 in H; (destruct H as [H|H]; [|exact H]); repeat (apply elem_of_cons in H as [H|H]; [discriminate|]); apply elem_of_nil in H as [].
  - vm_compute. reflexivity.
  - vm_compute. repeat first [apply elem_of_list_here|apply elem_of_list_further].
  - vm_compute. reflexivity.
Qed.
Example c101_len_ex :
  (forall o, pending (lexec (sg_body (fun k => k) (fun _ => false) 5 2) (fun _ => LimitHash_Model.new_segment) [[LimitHash_Model.HPut 0 5; LimitHash_Model.HPut 1 10; LimitHash_Model.HPut 3 30; LimitHash_Model.HLen]; [LimitHash_Model.HContains 3]] (replicate 24 0)%nat) o ->
    match o with LimitHash_Model.HGet _ | LimitHash_Model.HContains _ | LimitHash_Model.HLen => True | _ => False end) /\
  Return (0, 3)%nat (LimitHash_Model.HNum 3) ∈ hist (lexec (sg_body (fun k => k) (fun _ => false) 5 2) (fun _ => LimitHash_Model.new_segment) [[LimitHash_Model.HPut 0 5; LimitHash_Model.HPut 1 10; LimitHash_Model.HPut 3 30; LimitHash_Model.HLen]; [LimitHash_Model.HContains 3 : LimitHash_Model.hop Z Z]] (replicate 24 0 ++ [0; 1; 0; 1; 0; 1; 0; 1; 0; 1; 0; 0; 0])%nat).
Proof.
  split.
  - intros o (t & th & Ht & H). destruct t as [|[|t]]; vm_compute in Ht; [| |discriminate]; injection Ht as <-; cbn in H; (destruct H as [H|H]; [|destruct H]); repeat (apply elem_of_cons in H as [ -> |H]; [exact I|]); apply elem_of_nil in H as [].
  - vm_compute. repeat first [apply elem_of_list_here|apply elem_of_list_further].
Qed.
