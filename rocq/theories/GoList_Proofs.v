(** The ring of container/list represents a sequence; every operation acts on it as expected. *)
From stdpp Require Import gmap.
From Coq Require Import ZArith Lia.
From Verif Require Import GoList_Model.
Local Open Scope Z_scope.

Section seg.
Implicit Types (nx pv : gmap nat nat) (xs : list nat).

(** The links run from [a] through [xs] to [b] and back. *)
Fixpoint seg nx pv (a : nat) xs (b : nat) : Prop :=
  match xs with
  | [] => nx !! a = Some b /\ pv !! b = Some a
  | x :: r => nx !! a = Some x /\ pv !! x = Some a /\ seg nx pv x r b
  end.

Lemma seg_frame nx pv nx' pv' a xs b :
  seg nx pv a xs b ->
  (forall k, k = a \/ k ∈ xs -> nx' !! k = nx !! k) ->
  (forall k, k = b \/ k ∈ xs -> pv' !! k = pv !! k) ->
  seg nx' pv' a xs b.
Proof.
  revert a. induction xs as [|x xs IH]; intros a; cbn [seg].
  - intros [H1 H2] Hn Hp. rewrite Hn, Hp by auto. auto.
  - intros (H1 & H2 & H3) Hn Hp. rewrite Hn, Hp by (rewrite ?elem_of_cons; auto).
    split; [auto|]. split; [auto|]. apply IH; auto.
    + intros k Hk. apply Hn. right. rewrite elem_of_cons. destruct Hk; auto.
    + intros k Hk. apply Hp. rewrite elem_of_cons. destruct Hk; auto.
Qed.

Lemma seg_app nx pv a xs x ys b :
  seg nx pv a (xs ++ x :: ys) b <-> seg nx pv a xs x /\ seg nx pv x ys b.
Proof.
  revert a. induction xs as [|y xs IH]; intros a; cbn [seg app].
  - tauto.
  - rewrite IH. tauto.
Qed.

Definition last_or (a : nat) xs : nat := List.last xs a.
Definition head_or (b : nat) xs : nat := match xs with [] => b | x :: _ => x end.

Lemma last_or_snoc a xs x : last_or a (xs ++ [x]) = x.
Proof. unfold last_or. apply List.last_last. Qed.

Lemma last_or_cons a x xs : last_or a (x :: xs) = last_or x xs.
Proof.
  destruct (@exists_last _ (x :: xs)) as (l & y & E); [discriminate|].
  rewrite E, last_or_snoc. destruct l as [|z l]; cbn [app] in E; injection E as -> E.
  - subst. reflexivity.
  - rewrite E, last_or_snoc. reflexivity.
Qed.

Lemma seg_ends nx pv a xs b : seg nx pv a xs b ->
  nx !! a = Some (head_or b xs) /\ pv !! b = Some (last_or a xs).
Proof.
  revert a. induction xs as [|x xs IH]; intros a; cbn [seg head_or].
  - intros [H1 H2]. unfold last_or. cbn. auto.
  - intros (H1 & H2 & H3). apply IH in H3 as [_ H4]. split; auto. rewrite last_or_cons. exact H4.
Qed.

(** Change the end point: the last element now points to [n]. *)
Lemma seg_retarget nx pv nx' pv' a xs e n :
  seg nx pv a xs e ->
  NoDup (a :: xs) ->
  nx' !! last_or a xs = Some n -> pv' !! n = Some (last_or a xs) ->
  (forall k, (k = a \/ k ∈ xs) -> k <> last_or a xs -> nx' !! k = nx !! k) ->
  (forall k, k ∈ xs -> pv' !! k = pv !! k) ->
  seg nx' pv' a xs n.
Proof.
  revert a. induction xs as [|x xs IH]; intros a Hs Hd Hn Hp Hfn Hfp; cbn [seg] in *.
  - auto.
  - destruct Hs as (H1 & H2 & H3). apply NoDup_cons in Hd as [Hax Hd].
    rewrite last_or_cons in *.
    assert (Hne : a <> last_or x xs).
    { intros ->. apply Hax. destruct (decide (xs = [])) as [->|Hx]; [unfold last_or; cbn; set_solver|].
      destruct (exists_last Hx) as (l & y & ->). rewrite last_or_snoc. set_solver. }
    rewrite Hfn, Hfp by set_solver. split; [auto|]. split; [auto|].
    apply IH; auto.
    + intros k Hk. apply Hfn. set_solver.
    + intros k Hk. apply Hfp. set_solver.
Qed.

(** Unlinking [e]: its neighbours point to each other, all else is unchanged. *)
Lemma seg_unlink nx pv nx' pv' a l1 e l2 b :
  seg nx pv a (l1 ++ e :: l2) b ->
  NoDup (l1 ++ e :: l2) -> a ∉ l1 ++ e :: l2 -> b ∉ l1 ++ e :: l2 ->
  nx' !! last_or a l1 = Some (head_or b l2) -> pv' !! head_or b l2 = Some (last_or a l1) ->
  (forall k, k <> e -> k <> last_or a l1 -> nx' !! k = nx !! k) ->
  (forall k, k <> e -> k <> head_or b l2 -> pv' !! k = pv !! k) ->
  seg nx' pv' a (l1 ++ l2) b.
Proof.
  intros Hs Hd Ha Hb Hn Hp Hfn Hfp. apply seg_app in Hs as [Hs1 Hs2].
  assert (D : NoDup l1 /\ NoDup l2 /\ e ∉ l1 /\ e ∉ l2 /\ (forall x, x ∈ l1 -> x ∉ l2)).
  { apply NoDup_app in Hd as (D1 & D2 & D3). apply NoDup_cons in D3 as [D3 D4].
    repeat split; auto; set_solver. }
  destruct D as (D1 & D2 & D3 & D4 & D5).
  assert (Hlast : last_or a l1 = a \/ last_or a l1 ∈ l1).
  { destruct (decide (l1 = [])) as [->|Hx]; [left; reflexivity|].
    destruct (exists_last Hx) as (l & y & ->). rewrite last_or_snoc. right. set_solver. }
  assert (Hseg1 : seg nx' pv' a l1 (head_or b l2)).
  { eapply seg_retarget; eauto.
    - apply NoDup_cons. split; auto. set_solver.
    - intros k Hk Hkl. apply Hfn; auto. set_solver.
    - intros k Hk. apply Hfp; [set_solver|]. destruct l2; cbn [head_or]; set_solver. }
  destruct l2 as [|n l2]; cbn [head_or] in *.
  - rewrite app_nil_r. exact Hseg1.
  - apply seg_app. split; auto. cbn [seg] in Hs2. destruct Hs2 as (_ & _ & Hs2).
    apply NoDup_cons in D2 as [D2 D2'].
    eapply seg_frame; eauto.
    + intros k Hk. apply Hfn; [set_solver|]. destruct Hlast as [-> | Hl]; set_solver.
    + intros k Hk. apply Hfp; set_solver.
Qed.
End seg.

Section dll.
Context {E : Type}.
Implicit Types l : dlist E.

(** [l] is a well-formed ring holding the elements [xs], front first. *)
Record dll l (xs : list nat) : Prop := {
  dll_seg : seg (nx l) (pv l) 0 xs 0;
  dll_nodup : NoDup xs;
  dll_root : 0%nat ∉ xs;
  dll_own : forall x, x ∈ xs -> x ∈ own l;
  dll_len : llen l = Z.of_nat (length xs);
  dll_fresh : forall x, x ∈ xs -> (x < fresh l)%nat;
  dll_fresh_pos : (0 < fresh l)%nat;
  dll_vals : forall x, x ∈ xs -> is_Some (vals l !! x)
}.

Lemma dll_New : dll list_New [].
Proof.
  split; cbn [list_New nx pv own vals llen fresh seg length].
  - split; apply lookup_singleton.
  - constructor.
  - set_solver.
  - set_solver.
  - lia.
  - set_solver.
  - lia.
  - set_solver.
Qed.

Lemma dll_Init l xs : dll l xs -> dll (list_Init l) [].
Proof.
  intros H. split; cbn [list_Init nx pv own vals llen fresh seg length].
  - split; apply lookup_insert.
  - constructor.
  - set_solver.
  - set_solver.
  - lia.
  - set_solver.
  - apply (dll_fresh_pos _ _ H).
  - set_solver.
Qed.

Lemma dll_next_some l xs : dll l xs -> nx l !! 0%nat = Some (head_or 0 xs) /\ pv l !! 0%nat = Some (last_or 0 xs).
Proof. intros H. apply seg_ends. apply (dll_seg _ _ H). Qed.

Lemma dll_Front l xs : dll l xs -> list_Front l = head xs.
Proof.
  intros H. unfold list_Front. rewrite (dll_len _ _ H), (proj1 (dll_next_some _ _ H)).
  destruct xs; [reflexivity|]. rewrite (proj2 (Z.eqb_neq _ _)) by (cbn [length]; lia). reflexivity.
Qed.

Lemma dll_Back l xs : dll l xs -> list_Back l = last xs.
Proof.
  intros H. unfold list_Back. rewrite (dll_len _ _ H), (proj2 (dll_next_some _ _ H)).
  destruct (decide (xs = [])) as [->|Hx]; [reflexivity|].
  destruct (exists_last Hx) as (l' & y & ->). rewrite last_or_snoc, last_snoc, app_length. cbn [length].
  rewrite (proj2 (Z.eqb_neq _ _)) by lia. reflexivity.
Qed.

Lemma dll_Next l (l1 : list nat) x (l2 : list nat) : dll l (l1 ++ x :: l2) -> elem_Next l x = head l2.
Proof.
  intros H. pose proof (dll_seg _ _ H) as Hs. apply seg_app in Hs as [_ Hs].
  apply seg_ends in Hs as [Hs _]. unfold elem_Next. rewrite Hs.
  rewrite bool_decide_eq_true_2 by (apply (dll_own _ _ H); set_solver). cbn [andb].
  pose proof (dll_root _ _ H) as H0.
  destruct l2 as [|y l2]; cbn [head_or head].
  - reflexivity.
  - rewrite bool_decide_eq_false_2; [reflexivity|]. intros ->. set_solver.
Qed.

Lemma dll_Prev l (l1 : list nat) x (l2 : list nat) : dll l (l1 ++ x :: l2) -> elem_Prev l x = last l1.
Proof.
  intros H. pose proof (dll_seg _ _ H) as Hs. apply seg_app in Hs as [Hs _].
  apply seg_ends in Hs as [_ Hs]. unfold elem_Prev. rewrite Hs.
  rewrite bool_decide_eq_true_2 by (apply (dll_own _ _ H); set_solver). cbn [andb].
  pose proof (dll_root _ _ H) as H0.
  destruct (decide (l1 = [])) as [->|Hx]; [reflexivity|].
  destruct (exists_last Hx) as (l' & y & ->). rewrite last_or_snoc, last_snoc.
  rewrite bool_decide_eq_false_2; [reflexivity|]. intros ->. set_solver.
Qed.

(** Link [e] in at the front. *)
Lemma seg_link_front (nx pv nx' pv' : gmap nat nat) xs e :
  seg nx pv 0 xs 0 -> e ∉ xs -> e <> 0%nat -> NoDup xs -> 0%nat ∉ xs ->
  nx' !! 0%nat = Some e -> nx' !! e = Some (head_or 0 xs)%nat ->
  pv' !! e = Some 0%nat -> pv' !! (head_or 0 xs)%nat = Some e ->
  (forall k, k <> e -> k <> 0%nat -> nx' !! k = nx !! k) ->
  (forall k, k <> e -> k <> (head_or 0 xs)%nat -> pv' !! k = pv !! k) ->
  seg nx' pv' 0 (e :: xs) 0.
Proof.
  intros Hs He H0 Hd Hr A1 A2 A3 A4 F1 F2. cbn [seg]. split; [auto|]. split; [auto|].
  destruct xs as [|n xs]; cbn [head_or] in *; cbn [seg]; [auto|].
  split; [auto|]. split; [auto|]. cbn [seg] in Hs. destruct Hs as (_ & _ & Hs).
  apply NoDup_cons in Hd as [Hd1 Hd2].
  eapply seg_frame; eauto.
  - intros k Hk. apply F1; set_solver.
  - intros k Hk. apply F2; set_solver.
Qed.

Lemma dll_PushFront l xs v : dll l xs ->
  let '(e, l') := list_PushFront v l in
  e = fresh l /\ dll l' (e :: xs) /\ e ∉ xs /\
  vals l' = <[e := v]> (vals l) /\ fresh l' = S (fresh l) /\ own l' = {[e]} ∪ own l.
Proof.
  intros H. unfold list_PushFront, list_insert. cbn [nx pv own vals llen fresh].
  destruct (dll_next_some _ _ H) as [Hn Hp]. rewrite Hn. unfold set_prev, set_next.
  cbn [nx pv own vals llen fresh]. set (e := fresh l).
  pose proof (dll_fresh_pos _ _ H). pose proof (dll_fresh _ _ H) as Hf.
  assert (He : e ∉ xs) by (intros Hx; apply Hf in Hx; unfold e in *; lia).
  assert (He0 : e <> 0%nat) by (unfold e; lia).
  assert (Hh : head_or 0 xs <> e).
  { destruct xs; cbn [head_or]; [lia|]. intros ->. set_solver. }
  split; [reflexivity|]. split; [|split; [exact He|auto]].
  split; cbn [nx pv own vals llen fresh].
  - eapply (seg_link_front (nx l) (pv l)).
    + apply (dll_seg _ _ H).
    + exact He.
    + exact He0.
    + apply (dll_nodup _ _ H).
    + apply (dll_root _ _ H).
    + apply lookup_insert.
    + rewrite lookup_insert_ne by lia. apply lookup_insert.
    + rewrite lookup_insert_ne by auto. apply lookup_insert.
    + apply lookup_insert.
    + intros k K1 K2. rewrite !lookup_insert_ne by auto. reflexivity.
    + intros k K1 K2. rewrite !lookup_insert_ne by auto. reflexivity.
  - apply NoDup_cons. split; [exact He|apply (dll_nodup _ _ H)].
  - pose proof (dll_root _ _ H). set_solver.
  - pose proof (dll_own _ _ H). set_solver.
  - rewrite (dll_len _ _ H). cbn [length]. lia.
  - intros x Hx. apply elem_of_cons in Hx as [->|Hx]; [unfold e; lia|]. apply Hf in Hx. unfold e. lia.
  - lia.
  - intros x Hx. destruct (decide (x = e)) as [->|Hne]; [rewrite lookup_insert; eauto|].
    rewrite lookup_insert_ne by auto. apply (dll_vals _ _ H). set_solver.
Qed.

Lemma dll_neighbours l (l1 : list nat) e (l2 : list nat) : dll l (l1 ++ e :: l2) ->
  pv l !! e = Some (last_or 0 l1) /\ nx l !! e = Some (head_or 0 l2) /\
  e <> 0%nat /\ last_or 0 l1 <> e /\ head_or 0 l2 <> e.
Proof.
  intros H. pose proof (dll_seg _ _ H) as Hs. apply seg_app in Hs as [Hs1 Hs2].
  apply seg_ends in Hs1 as [_ Hs1]. apply seg_ends in Hs2 as [Hs2 _].
  pose proof (dll_root _ _ H) as Hr. pose proof (dll_nodup _ _ H) as Hd.
  apply NoDup_app in Hd as (D1 & D2 & D3). apply NoDup_cons in D3 as [D3 D4].
  split; [auto|]. split; [auto|]. split; [set_solver|]. split.
  - destruct (decide (l1 = [])) as [->|Hx]; [cbn; set_solver|].
    destruct (exists_last Hx) as (l' & y & ->). rewrite last_or_snoc. set_solver.
  - destruct l2; cbn [head_or]; set_solver.
Qed.

Lemma dll_Remove l (l1 : list nat) e (l2 : list nat) : dll l (l1 ++ e :: l2) ->
  dll (list_Remove e l) (l1 ++ l2) /\ vals (list_Remove e l) = vals l /\
  fresh (list_Remove e l) = fresh l /\ own (list_Remove e l) = own l ∖ {[e]} /\
  nx (list_Remove e l) !! e = None /\ pv (list_Remove e l) !! e = None.
Proof.
  intros H. unfold list_Remove.
  rewrite bool_decide_eq_true_2 by (apply (dll_own _ _ H); set_solver).
  unfold list_remove. destruct (dll_neighbours _ _ _ _ H) as (Hp & Hn & H0 & Hpe & Hne).
  rewrite Hp, Hn. unfold set_prev, set_next. cbn [nx pv own vals llen fresh].
  split; [|split; [reflexivity|split; [reflexivity|split; [reflexivity|
     split; apply lookup_delete]]]].
  pose proof (dll_root _ _ H) as Hr. pose proof (dll_nodup _ _ H) as Hd.
  split; cbn [nx pv own vals llen fresh].
  - eapply (seg_unlink (nx l) (pv l)).
    + apply (dll_seg _ _ H).
    + exact Hd.
    + exact Hr.
    + exact Hr.
    + rewrite lookup_delete_ne by auto. apply lookup_insert.
    + rewrite lookup_delete_ne by auto. apply lookup_insert.
    + intros k K1 K2. rewrite lookup_delete_ne, lookup_insert_ne by auto. reflexivity.
    + intros k K1 K2. rewrite lookup_delete_ne, lookup_insert_ne by auto. reflexivity.
  - apply NoDup_app in Hd as (D1 & D2 & D3). apply NoDup_cons in D3 as [D3 D4].
    apply NoDup_app. split; [auto|]. split; [set_solver|auto].
  - set_solver.
  - intros x Hx. pose proof (dll_own _ _ H) as Ho.
    apply NoDup_app in Hd as (D1 & D2 & D3). apply NoDup_cons in D3 as [D3 D4].
    assert (x <> e) by set_solver. set_solver.
  - rewrite (dll_len _ _ H), !app_length. cbn [length]. lia.
  - intros x Hx. apply (dll_fresh _ _ H). set_solver.
  - apply (dll_fresh_pos _ _ H).
  - intros x Hx. apply (dll_vals _ _ H). set_solver.
Qed.

Lemma dll_MoveToFront l (l1 : list nat) e (l2 : list nat) : dll l (l1 ++ e :: l2) ->
  dll (list_MoveToFront e l) (e :: l1 ++ l2) /\ vals (list_MoveToFront e l) = vals l /\
  fresh (list_MoveToFront e l) = fresh l /\ own (list_MoveToFront e l) = own l.
Proof.
  intros H. unfold list_MoveToFront.
  rewrite bool_decide_eq_true_2 by (apply (dll_own _ _ H); set_solver). cbn [negb orb].
  destruct (dll_next_some _ _ H) as [Hfirst _]. rewrite Hfirst.
  destruct (dll_neighbours _ _ _ _ H) as (Hp & Hn & H0 & Hpe & Hne).
  pose proof (dll_root _ _ H) as Hr. pose proof (dll_nodup _ _ H) as Hd.
  destruct l1 as [|y l1].
  { cbn [app head_or]. rewrite bool_decide_eq_true_2 by reflexivity. cbn [app] in H. auto. }
  cbn [app head_or]. rewrite bool_decide_eq_false_2 by (intros [= ->]; cbn [app] in Hd; apply NoDup_cons in Hd as [Hd _]; set_solver).
  unfold list_move. rewrite bool_decide_eq_false_2 by auto. rewrite Hp, Hn.
  unfold set_prev, set_next. cbn [nx pv own vals llen fresh].
  set (p := last_or 0 (y :: l1)) in *. set (n := head_or 0%nat l2) in *.
  assert (Hp0 : p <> 0%nat).
  { unfold p. rewrite last_or_cons. intros E0. apply Hr.
    destruct (decide (l1 = [])) as [->|Hx]; [unfold last_or in E0; cbn in E0; set_solver|].
    destruct (exists_last Hx) as (l' & z & ->). rewrite last_or_snoc in E0. set_solver. }
  rewrite lookup_insert_ne by auto.
  cbn [app head_or] in Hfirst. rewrite Hfirst.
  (* first unlink *)
  assert (Hun : seg (<[p:=n]> (nx l)) (<[n:=p]> (pv l)) 0 (y :: l1 ++ l2) 0).
  { apply (seg_unlink (nx l) (pv l) _ _ 0 (y :: l1) e l2 0).
    - apply (dll_seg _ _ H).
    - exact Hd.
    - exact Hr.
    - exact Hr.
    - apply lookup_insert.
    - apply lookup_insert.
    - intros k K1 K2. rewrite lookup_insert_ne by auto. reflexivity.
    - intros k K1 K2. rewrite lookup_insert_ne by auto. reflexivity. }
  assert (Hd' : NoDup (y :: l1 ++ l2) /\ e ∉ y :: l1 ++ l2).
  { cbn [app] in Hd. apply NoDup_cons in Hd as [Hd1 Hd2].
    apply NoDup_app in Hd2 as (D1 & D2 & D3). apply NoDup_cons in D3 as [D3 D4].
    split; [|set_solver]. apply NoDup_cons. split; [set_solver|].
    apply NoDup_app. split; [auto|]. split; [set_solver|auto]. }
  destruct Hd' as [Hd' He'].
  assert (Hye : y <> e) by set_solver.
  split; [|auto].
  split; cbn [nx pv own vals llen fresh].
  - eapply (seg_link_front (<[p:=n]> (nx l)) (<[n:=p]> (pv l))); auto; cbn [head_or].
    + set_solver.
    + apply lookup_insert.
    + rewrite lookup_insert_ne by auto. apply lookup_insert.
    + rewrite lookup_insert_ne by auto. apply lookup_insert.
    + apply lookup_insert.
    + intros k K1 K2. rewrite !(lookup_insert_ne (<[_:=_]> _)) by auto. reflexivity.
    + intros k K1 K2. rewrite !(lookup_insert_ne (<[_:=_]> _)) by auto. reflexivity.
  - apply NoDup_cons. auto.
  - set_solver.
  - intros x Hx. apply (dll_own _ _ H). set_solver.
  - rewrite (dll_len _ _ H). cbn [length app]. rewrite !app_length. cbn [length]. lia.
  - intros x Hx. apply (dll_fresh _ _ H). set_solver.
  - apply (dll_fresh_pos _ _ H).
  - intros x Hx. apply (dll_vals _ _ H). set_solver.
Qed.

Lemma dll_set_value l xs e v : dll l xs -> dll (set_value e v l) xs.
Proof.
  intros H. destruct H. split; auto. cbn [set_value vals].
  intros x Hx. destruct (decide (x = e)) as [->|Hne]; [rewrite lookup_insert; eauto|].
  rewrite lookup_insert_ne by auto. auto.
Qed.

End dll.
