(** Properties C57 and C84. *)
From stdpp Require Import list.
From Coq Require Import ZArith Lia.
From Verif Require Import GoInt Pool_Model Pool_Spec Pool_Proofs.
Local Open Scope Z_scope.

(** C57 as stated is false.  A pool of up to 60 classes uses only the first of them: every length and every capacity is routed to class
    0, though the class of a length of 16 or more is another one. *)
Theorem c57_one_class_refuted : forall n len, (1 <= n <= 60)%nat -> getRouter n len = 0%nat.
Proof. intros n len Hn. apply getRouter_zero. left. lia. Qed.
Print Assumptions c57_one_class_refuted.
Theorem c57_wrong_class_refuted : forall n len c, (2 <= n)%nat -> 16 <= len -> size_class n len c -> getRouter n len <> c.
Proof.
  intros n len c Hn Hl (_ & _ & Hc). rewrite getRouter_zero by (right; lia). specialize (Hc 1%nat ltac:(lia) ltac:(cbn; lia)). lia.
Qed.
Print Assumptions c57_wrong_class_refuted.
Example c57_class_ex : size_class 10 1000 6 /\ getRouter 10 1000 = 0%nat.
Proof.
  split; [|vm_compute; reflexivity]. split; [lia|]. split; [left; cbn; lia|]. intros i Hi Hl. destruct (decide (i <= 6)%nat); [assumption|]. exfalso.
  assert (2 ^ 7 <= 2 ^ Z.of_nat i) by (apply Z.pow_le_mono_r; lia). cbn in *. lia.
Qed.
(** With more than 60 classes 8 * (1 << 60) overflows, and the small lengths go to class 60. *)
Theorem c57_small_lengths_refuted : forall n len, (60 < n)%nat -> 0 <= len < 8 -> getRouter n len = 60%nat /\ size_class n len 0.
Proof.
  intros n len Hn Hl. split; [apply getRouter_sixty; lia|]. split; [lia|]. split; [auto|]. intros i _ Hi. assert (0 < 2 ^ Z.of_nat i) by (apply Z.pow_pos_nonneg; lia). lia.
Qed.
Print Assumptions c57_small_lengths_refuted.
(** So a huge buffer is handed out for a tiny request, and a tiny one for a huge request. *)
Theorem c57_reuse_refuted : exists ops, ops = [POGet 1 0; POWrite 0 [1] 1048576; POPut 0; POGet 1 0; POPut 0; POGet 1048576 0] /\
  (prun 20 (pnew 20) ops).2 = [RGot 0; RNone; RBool true; RGot 0; RBool true; RGot 0].
Proof. eexists. split; [reflexivity|]. vm_compute. reflexivity. Qed.
Print Assumptions c57_reuse_refuted.
(** A pool of no classes panics; Put answers true even for nil. *)
Theorem c57_no_classes_refuted : forall s len pick, pbags s = [] -> (pstep 0 s (POGet len pick)).2 = RPanic /\ (pstep 0 s POPutNil).2 = RBool true.
Proof. intros s len pick H. cbn [pstep]. rewrite H. auto. Qed.
Print Assumptions c57_no_classes_refuted.

(** What is true: in every history in which nobody puts back or writes to what they do not hold, Get gives a buffer nobody holds, and
    it is empty. *)
Theorem c57_exclusive_partial : forall n ops held len pick s' o, holding [] ops (prun n (pnew n) ops).2 = Some held ->
  pstep n (prun n (pnew n) ops).1 (POGet len pick) = (s', RGot o) -> NoDup held /\ o ∉ held /\ exists c, pobjs s' !! o = Some (BB [] c).
Proof.
  intros n ops held len pick s' o Hh Hg. pose proof (run_inv n ops _ _ _ (inv_new n) Hh) as Hi. destruct (get_inv _ _ _ _ _ _ _ Hi Hg) as (_ & Hn & Hc).
  split; [|split; assumption]. destruct Hi as [Hi _]. apply NoDup_app in Hi as (_ & _ & Hi). exact Hi.
Qed.
Print Assumptions c57_exclusive_partial.
(** And every Get of a pool with classes succeeds: some buffer is given. *)
Theorem c57_get_partial : forall n ops held len pick, (0 < n)%nat -> -9223372036854775808 <= len -> holding [] ops (prun n (pnew n) ops).2 = Some held ->
  exists s' o, pstep n (prun n (pnew n) ops).1 (POGet len pick) = (s', RGot o).
Proof.
  intros n ops held len pick Hn Hl Hh. pose proof (run_inv n ops _ _ _ (inv_new n) Hh) as [_ Hi].
  assert (Hlen : forall ops s, length (pbags (prun n s ops).1) = length (pbags s)).
  { clear. induction ops as [|op ops IH]; intros s; cbn [prun fst]; [reflexivity|]. rewrite IH. destruct op; cbn [pstep];
      repeat match goal with |- context [match ?q with _ => _ end] => destruct q eqn:? end; cbn [fst pbags]; rewrite ?insert_length; reflexivity. }
  set (s := (prun n (pnew n) ops).1) in *. assert (Hbl : length (pbags s) = n) by (unfold s; rewrite Hlen; apply replicate_length).
  cbn [pstep]. pose proof (getRouter_lt n len Hn Hl) as Hlt. rewrite <- Hbl in Hlt at 2. destruct (lookup_lt_is_Some_2 _ _ Hlt) as [bag Hbag]. rewrite Hbag.
  destruct (bag !! pick) as [o|] eqn:Hp; [|eauto]. assert (Ho : (o < length (pobjs s))%nat).
  { apply Hi, elem_of_app. left. rewrite (concat_split _ _ _ Hbag). apply elem_of_app. right. apply elem_of_app. left. apply elem_of_list_lookup. eauto. }
  destruct (lookup_lt_is_Some_2 _ _ Ho) as [x ->]. eauto.
Qed.
Print Assumptions c57_get_partial.
Example c57_exclusive_ex : let ops := [POGet 5 0; POGet 100 0; POWrite 0 [1; 2] 64; POPut 0; POGet 7 0] in
  holding [] ops (prun 8 (pnew 8) ops).2 = Some [0; 1]%nat /\ (prun 8 (pnew 8) ops).2 = [RGot 0; RGot 1; RNone; RBool true; RGot 0].
Proof. vm_compute. auto. Qed.

(** C84.  The generic pool's Put clears the variable it is given, so as long as pointers are not copied, no history of Get and Put (with
    any number of repeated Puts) has one element in two variables, or both in a variable and in the pool. *)
Theorem c84_put_clears : forall k ops, (forall x y, GCopy x y ∉ ops) -> (forall x p, GGet x p ∈ ops -> (x < k)%nat) ->
  let s := (grun (GS 0 [] (replicate k None)) ops).1 in
  NoDup (gbag s) /\
  (forall x y o, gvars s !! x = Some (Some o) -> gvars s !! y = Some (Some o) -> x = y) /\ (forall x o, gvars s !! x = Some (Some o) -> o ∉ gbag s).
Proof.
  intros k ops Hc Hg s. assert (Hi : ginv s).
  { apply ginv_run; [|exact Hc|].
    - assert (E : kept (replicate k None) = []) by (clear; induction k; [reflexivity|assumption]). split; cbn [gbag gvars]; rewrite E; [constructor|]. intros o Ho. exfalso. revert Ho. apply not_elem_of_nil.
    - intros x p H. cbn [gvars]. rewrite replicate_length. eauto. }
  destruct Hi as [Hn _]. apply NoDup_app in Hn as (H1 & H2 & H3). split; [exact H1|]. split.
  - intros x y o Hx Hy. destruct (decide (x = y)) as [|Hne]; [assumption|]. exfalso. destruct (kept_set _ _ _ None Hx) as [K _]. rewrite K in H3. change (kept [Some o]) with [o] in H3.
    apply NoDup_cons in H3 as [H3 _]. apply H3. unfold kept. apply elem_of_list_omap. exists (Some o). split; [|reflexivity]. apply elem_of_list_lookup. exists y. rewrite list_lookup_insert_ne by congruence. exact Hy.
  - intros x o Hx Ho. apply (H2 o Ho). unfold kept. apply elem_of_list_omap. exists (Some o). split; [|reflexivity]. apply elem_of_list_lookup. eauto.
Qed.
Print Assumptions c84_put_clears.
(** C84.  Put answers true exactly if the variable held an element, and then clears it: after any history a second Put of the same variable answers false and
    changes nothing. *)
Theorem c84_put_answers : forall s ops x, let s1 := (grun s ops).1 in
  ((exists o, gvars s1 !! x = Some (Some o)) <-> (gstep s1 (GPut x)).2 = GBool true) /\
  ((gstep s1 (GPut x)).2 = GBool true -> let s2 := (gstep s1 (GPut x)).1 in gstep s2 (GPut x) = (s2, GBool false)).
Proof.
  intros s ops x s1. split.
  - cbn [gstep]. destruct (gvars s1 !! x) as [[o|]|]; split; [auto|eauto|intros [? E]; discriminate E|discriminate|intros [? E]; discriminate E|discriminate].
  - intros H s2. assert (gvars s2 !! x = Some None) as E; [|cbn [gstep]; rewrite E; reflexivity]. revert H s2. cbn [gstep].
    destruct (gvars s1 !! x) as [[o|]|] eqn:E; cbn [fst snd]; try discriminate. intros _. cbn [gvars]. apply list_lookup_insert. eapply lookup_lt_Some. exact E.
Qed.
Print Assumptions c84_put_answers.
Example c84_ex : grun (GS 0 [] [None; None]) [GGet 0 0; GPut 0; GPut 0; GGet 1 0; GGet 0 0] = (GS 2 [] [Some 1; Some 0]%nat, [GGot 0; GBool true; GBool false; GGot 0; GGot 1]%nat).
Proof. reflexivity. Qed.
(** With a copy of the pointer the element can be put back twice and is then handed out twice. *)
Theorem c84_copied_refuted : exists ops, ops = [GGet 0 0; GCopy 0 1; GPut 0; GPut 1; GGet 0 0; GGet 1 0] /\ gvars (grun (GS 0 [] [None; None]) ops).1 = [Some 0; Some 0]%nat.
Proof. eexists. split; reflexivity. Qed.
Print Assumptions c84_copied_refuted.
